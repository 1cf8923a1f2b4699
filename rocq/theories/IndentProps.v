(** C42, C43: indent and outdent. *)
From Coq Require Import List Bool Arith NArith ZArith Lia.
From Verif Require Import IndentModel.
Import ListNotations.
Local Open Scope nat_scope.

(** ** Specification *)
(** no tab among the leading whitespace of a line *)
Definition no_tabs (l : str) : Prop := ~ In tab (firstn (lead l) l).
Definition has_text (l : str) : Prop := exists c, In c l /\ is_space c = false.
(** [r] is [l] without its first [k] characters, which are whitespace *)
Definition dedented (k : nat) (l r : str) : Prop := exists w, l = w ++ r /\ length w = k /\ forall c, In c w -> is_space c = true.

Lemma is_space_sp : is_space sp = true. Proof. reflexivity. Qed.
Lemma sp_not_nl : (sp =? nl)%N = false. Proof. reflexivity. Qed.

(** ** Strings *)
Lemma split_nonempty s : split s <> [].
Proof. destruct s as [|c s]; cbn [split]; [discriminate|]. destruct (c =? nl)%N; [discriminate|]. destruct (split s); discriminate. Qed.
Lemma join_split : forall s, join (split s) = s.
Proof.
  induction s as [|c s IH]; [reflexivity|]. cbn [split]. destruct (N.eqb_spec c nl) as [->|Hne].
  - cbn [join]. pose proof (split_nonempty s). destruct (split s) as [|l ls] eqn:E; [congruence|]. rewrite IH. reflexivity.
  - pose proof (split_nonempty s). destruct (split s) as [|l ls] eqn:E; [congruence|]. cbn [join] in *.
    destruct ls; cbn [app]; rewrite IH; reflexivity.
Qed.
Lemma split_no_nl : forall l s, ~ In nl l -> split (l ++ nl :: s) = l :: split s.
Proof.
  induction l as [|c l IH]; intros s Hn; cbn [app split].
  - rewrite N.eqb_refl. reflexivity.
  - destruct (N.eqb_spec c nl) as [->|Hne]; [exfalso; apply Hn; simpl; auto|]. rewrite IH by (intros Hi; apply Hn; simpl; auto). reflexivity.
Qed.
Lemma split_one : forall l, ~ In nl l -> split l = [l].
Proof.
  induction l as [|c l IH]; intros Hn; [reflexivity|]. cbn [split].
  destruct (N.eqb_spec c nl) as [->|Hne]; [exfalso; apply Hn; simpl; auto|]. rewrite IH by (intros Hi; apply Hn; simpl; auto). reflexivity.
Qed.
Lemma split_join : forall ls, ls <> [] -> (forall l, In l ls -> ~ In nl l) -> split (join ls) = ls.
Proof.
  induction ls as [|l ls IH]; intros Hn Hl; [congruence|]. cbn [join]. destruct ls as [|l' ls].
  - apply split_one, Hl. simpl; auto.
  - rewrite split_no_nl by (apply Hl; simpl; auto). rewrite IH; [reflexivity|discriminate|]. intros x Hx. apply Hl. simpl in *; auto.
Qed.
Lemma split_lines : forall s l, In l (split s) -> ~ In nl l.
Proof.
  induction s as [|c s IH]; intros l Hl Hn; cbn [split] in Hl; [destruct Hl as [<-|[]]; destruct Hn|].
  destruct (N.eqb_spec c nl) as [->|Hne].
  - destruct Hl as [<-|Hl]; [destruct Hn|eapply IH; eauto].
  - destruct (split s) as [|l0 ls] eqn:E; [destruct (split_nonempty s E)|].
    destruct Hl as [<-|Hl]; [|eapply IH; eauto; simpl; auto]. destruct Hn as [->|Hn]; [congruence|]. eapply (IH l0); simpl; auto.
Qed.

Lemma lead_repeat k s : lead (repeat sp k ++ s) = k + lead s.
Proof. induction k as [|k IH]; [reflexivity|]. cbn [repeat app lead]. rewrite is_space_sp, IH. reflexivity. Qed.
Lemma lead_le : forall s, lead s <= length s.
Proof. induction s as [|c s IH]; cbn [lead length]; [lia|]. destruct (is_space c); lia. Qed.
Lemma lead_spaces : forall s c, In c (firstn (lead s) s) -> is_space c = true.
Proof.
  induction s as [|a s IH]; intros c Hc; cbn [lead] in Hc; [destruct Hc|]. destruct (is_space a) eqn:E; [|destruct Hc].
  cbn [firstn] in Hc. destruct Hc as [<-|Hc]; auto.
Qed.
(** without tabs in front, indentsize counts the leading whitespace *)
Lemma indentsize_lead_col : forall s col, no_tabs s -> lead (expandtabs col s) = lead s.
Proof.
  induction s as [|c s IH]; intros col Hn; [reflexivity|]. cbn [expandtabs lead]. unfold no_tabs in *. cbn [lead] in Hn.
  destruct (is_space c) eqn:Es.
  - cbn [firstn In] in Hn. destruct (N.eqb_spec c tab) as [->|Hne]; [exfalso; apply Hn; auto|].
    destruct ((c =? nl) || (c =? cr))%N; cbn [lead]; rewrite Es, IH; auto.
  - destruct (N.eqb_spec c tab) as [->|Hne]; [discriminate|].
    destruct ((c =? nl) || (c =? cr))%N; cbn [lead]; rewrite Es; auto.
Qed.
Lemma indentsize_lead s : no_tabs s -> indentsize s = lead s.
Proof. apply indentsize_lead_col. Qed.

Lemma no_tabs_nil : no_tabs []. Proof. intros []. Qed.
Lemma lead_text_app l s : has_text l -> lead (l ++ s) = lead l /\ firstn (lead l) (l ++ s) = firstn (lead l) l.
Proof.
  intros [c [Hc Hs]]. induction l as [|a l IH]; [destruct Hc|]. cbn [app lead]. destruct (is_space a) eqn:Ea; [|auto].
  destruct Hc as [->|Hc]; [congruence|]. destruct (IH Hc) as [H1 H2]. rewrite H1. cbn [firstn]. rewrite H2. auto.
Qed.
(** the leading whitespace of a text is that of its first line, if that has text *)
Lemma lead_join l ls : has_text l -> lead (join (l :: ls)) = lead l /\ (no_tabs l -> no_tabs (join (l :: ls))).
Proof.
  intros Ht. unfold no_tabs. cbn [join]. destruct ls as [|l' ls]; [auto|].
  destruct (lead_text_app l (nl :: join (l' :: ls)) Ht) as [H1 H2]. rewrite H1, H2. auto.
Qed.
Lemma blank_or_text l : blank l = true \/ has_text l.
Proof.
  unfold blank, has_text. induction l as [|c l IH]; [auto|]. cbn [forallb]. destruct (is_space c) eqn:E; [|right; exists c; simpl; auto].
  destruct IH as [IH|[x [Hx Hs]]]; [auto|right; exists x; simpl; auto].
Qed.
Lemma lead_blank_app l s : blank l = true -> lead (l ++ s) = length l + lead s.
Proof.
  unfold blank. induction l as [|c l IH]; intros Hb; [reflexivity|]. cbn [forallb] in Hb. apply andb_true_iff in Hb as [H1 H2].
  cbn [app lead length]. rewrite H1, IH by auto. reflexivity.
Qed.
Lemma no_tabs_join : forall ls, (forall l, In l ls -> no_tabs l) -> no_tabs (join ls).
Proof.
  induction ls as [|l ls IH]; intros Hl; [apply no_tabs_nil|].
  destruct (blank_or_text l) as [Hb|Ht]; [|apply lead_join; [auto|apply Hl; simpl; auto]].
  cbn [join]. destruct ls as [|l' ls]; [apply Hl; simpl; auto|].
  assert (Hr : no_tabs (join (l' :: ls))) by (apply IH; intros x Hx; apply Hl; simpl in *; auto).
  pose proof (Hl l (or_introl eq_refl)) as H0. unfold no_tabs in *. rewrite lead_blank_app by auto. cbn [lead]. change (is_space nl) with true. cbn iota.
  rewrite firstn_app. replace (length l + S (lead (join (l' :: ls))) - length l) with (S (lead (join (l' :: ls)))) by lia.
  cbn [firstn]. rewrite in_app_iff. intros [Hi|[Hi|Hi]]; [|discriminate|auto].
  apply H0. rewrite <- (app_nil_r l) at 1. rewrite lead_blank_app, firstn_all2 in * by (auto; cbn [length lead]; lia). exact Hi.
Qed.
Lemma no_tabs_code code : (forall l, In l (split code) -> no_tabs l) -> no_tabs code.
Proof. intros Hl. rewrite <- (join_split code). apply no_tabs_join. auto. Qed.

(** ** C43 *)
Lemma skipn_dedented k l : k <= lead l -> dedented k l (skipn k l).
Proof.
  intros Hk. exists (firstn k l). split; [symmetry; apply firstn_skipn|]. split; [apply firstn_length_le; pose proof (lead_le l); lia|].
  intros c Hc. apply (lead_spaces l). replace k with (min k (lead l)) in Hc by lia. rewrite <- firstn_firstn in Hc.
  clear - Hc. revert Hc. generalize (firstn (lead l) l) as w. revert k. induction k as [|k IH]; intros [|x w] Hc; cbn [firstn] in Hc; try (destruct Hc; fail).
  destruct Hc as [<-|Hc]; simpl; eauto.
Qed.
(** how much indentation is asked for, of [ind] present: n, or all of it *)
Definition wanted (n : option Z) (ind : nat) : nat :=
  match n with Some m => if (m <? 0)%Z then ind else min (Z.to_nat m) ind | None => ind end.
Lemma amount_wanted n ind : amount n ind = wanted n ind.
Proof.
  unfold amount, wanted. destruct n as [m|]; [|reflexivity]. destruct (Z.ltb_spec (Z.of_nat ind) m), (Z.ltb_spec m 0); cbn [orb]; lia.
Qed.
Lemma lead_first_le code : lead (hd [] (split code)) <= lead code.
Proof.
  rewrite <- (join_split code) at 2. destruct (split code) as [|l ls]; cbn [hd]; [cbn; lia|].
  destruct (blank_or_text l) as [Hb|Ht]; [|destruct (lead_join l ls Ht) as [-> _]; lia].
  cbn [join]. destruct ls as [|l' ls]; [lia|]. rewrite lead_blank_app by auto. pose proof (lead_le l). lia.
Qed.
(** outdent(code, n): the lines are those of [code]; from each the same amount of leading whitespace is gone -- n, or the first
    line's indentation if that is less or n is not given or negative --, or all of its own if it has less *)
Theorem C43_outdent_partial : forall code n, (forall l, In l (split code) -> no_tabs l) ->
  Forall2 (fun l r => dedented (min (wanted n (lead (hd [] (split code)))) (lead l)) l r) (split code) (split (outdent code n true)).
Proof.
  intros code n Hl. pose proof (no_tabs_code code Hl) as Hc. unfold outdent.
  set (k0 := amount n (indentsize code)). unfold outdent_lines. set (k := amount (Some (Z.of_nat k0)) (indentsize (hd [] (split code)))).
  assert (Hhd : In (hd [] (split code)) (split code)).
  { pose proof (split_nonempty code). destruct (split code); [congruence|simpl; auto]. }
  assert (Ek : wanted n (lead (hd [] (split code))) = k).
  { unfold k, k0. rewrite !amount_wanted, (indentsize_lead code), (indentsize_lead (hd [] (split code))) by auto.
    pose proof (lead_first_le code). unfold wanted. destruct n as [m|].
    - destruct (Z.ltb_spec m 0).
      + destruct (Z.ltb_spec (Z.of_nat (lead code)) 0); lia.
      + destruct (Z.ltb_spec (Z.of_nat (min (Z.to_nat m) (lead code))) 0); lia.
    - destruct (Z.ltb_spec (Z.of_nat (lead code)) 0); lia. }
  rewrite Ek. clearbody k. clear Ek.
    assert (Hcut : forall l, In l (split code) -> dedented (min k (lead l)) l (cut k l)).
    { intros l Hin. unfold cut. rewrite indentsize_lead by auto.
      replace (if lead l <? k then lead l else k) with (min k (lead l)) by (destruct (Nat.ltb_spec (lead l) k); lia).
      apply skipn_dedented. lia. }
    rewrite split_join.
    + clear Hhd. revert Hcut. generalize (split code) as ls. induction ls as [|l ls IH]; intros Hcut; constructor; [apply Hcut; simpl; auto|].
      apply IH. intros x Hx. apply Hcut. simpl; auto.
    + pose proof (split_nonempty code). destruct (split code); [congruence|discriminate].
    + intros r Hr Hn. apply in_map_iff in Hr as [l [<- Hin]]. destruct (Hcut l Hin) as [w [Ew _]].
      apply (split_lines code l Hin). rewrite Ew. apply in_app_iff. auto.
Qed.
(** hence the text is untouched: the characters that are not whitespace are the same *)
Definition text (s : str) : str := filter (fun c => negb (is_space c)) s.
Lemma text_join : forall ls, text (join ls) = concat (map text ls).
Proof.
  induction ls as [|l ls IH]; [reflexivity|]. cbn [join map concat]. destruct ls as [|l' ls].
  - cbn [map concat]. rewrite app_nil_r. reflexivity.
  - unfold text at 1. rewrite filter_app. cbn [filter]. change (negb (is_space nl)) with false. cbn iota. unfold text in IH at 1. rewrite IH. reflexivity.
Qed.
Lemma text_dedented k l r : dedented k l r -> text l = text r.
Proof.
  intros [w [-> [_ Hw]]]. unfold text. rewrite filter_app. replace (filter _ w) with (@nil N); [reflexivity|]. symmetry.
  clear k. induction w as [|c w IH]; [reflexivity|]. cbn [filter]. rewrite (Hw c) by (simpl; auto). cbn [negb]. apply IH. intros x Hx. apply Hw. simpl; auto.
Qed.
Theorem C43_text_partial : forall code n, (forall l, In l (split code) -> no_tabs l) -> text (outdent code n true) = text code.
Proof.
  intros code n H1. pose proof (C43_outdent_partial code n H1) as HF. revert HF. generalize (wanted n (lead (hd [] (split code)))) as k. intros k HF.
  rewrite <- (join_split (outdent code n true)). replace (text code) with (text (join (split code))) by (rewrite join_split; auto).
  rewrite !text_join. f_equal. clear H1. revert HF. generalize (split code), (split (outdent code n true)). intros l1 l2 HF.
  induction HF as [|x y l1 l2 Hxy HF IH]; [reflexivity|]. cbn [map]. rewrite IH. f_equal. symmetry. eapply text_dedented; eauto.
Qed.
(** all=False: only a first stretch of whitespace goes: n characters, or all there are *)
Theorem C43_first_line_partial : forall code n, (forall l, In l (split code) -> no_tabs l) -> dedented (wanted n (lead code)) code (outdent code n false).
Proof.
  intros code n Hl. pose proof (no_tabs_code code Hl) as Hc. unfold outdent. rewrite amount_wanted, indentsize_lead by auto. apply skipn_dedented.
  unfold wanted. destruct n as [m|]; [|lia]. destruct (Z.ltb_spec m 0); lia.
Qed.
(** REFUTED for tabs: a tab is one character but counts as up to eight: '\tx = 1' loses all its text *)
Theorem C43_tabs_refuted : let code := [tab; 120; 32; 61; 32; 49]%N in outdent code None true = [] /\ text code = [120; 61; 49]%N.
Proof. split; reflexivity. Qed.

(** ** C42 *)
Lemma cut_pad n l : no_tabs l -> cut n (spaces n ++ l) = l.
Proof.
  intros Hl. unfold cut. rewrite indentsize_lead.
  - unfold spaces. rewrite lead_repeat. destruct (Nat.ltb_spec (n + lead l) n); [lia|]. rewrite skipn_app, repeat_length, Nat.sub_diag.
    rewrite skipn_all2 by (rewrite repeat_length; lia). reflexivity.
  - unfold no_tabs, spaces. rewrite lead_repeat. rewrite firstn_app, repeat_length. rewrite firstn_all2 by (rewrite repeat_length; lia).
    replace (n + lead l - n) with (lead l) by lia. rewrite in_app_iff. intros [Hi|Hi]; [apply repeat_spec in Hi; discriminate|auto].
Qed.
Lemma no_tabs_pad n l : no_tabs l -> no_tabs (spaces n ++ l).
Proof.
  intros Hl. unfold no_tabs, spaces. rewrite lead_repeat. rewrite firstn_app, repeat_length. rewrite firstn_all2 by (rewrite repeat_length; lia).
  replace (n + lead l - n) with (lead l) by lia. rewrite in_app_iff. intros [Hi|Hi]; [apply repeat_spec in Hi; discriminate|auto].
Qed.
Lemma lead_first code : has_text (hd [] (split code)) -> lead code = lead (hd [] (split code)) /\ (no_tabs (hd [] (split code)) -> no_tabs code).
Proof.
  intros Ht. pose proof (split_nonempty code) as Hn. pose proof (join_split code) as E. destruct (split code) as [|l ls]; [congruence|].
  cbn [hd] in *. rewrite <- E. apply lead_join; auto.
Qed.
Lemma has_text_not_blank l : has_text l -> blank l = false.
Proof.
  intros [c [Hc Hs]]. unfold blank. apply not_true_iff_false. rewrite forallb_forall. intros Hf. rewrite (Hf c Hc) in Hs. discriminate.
Qed.
Lemma blank_spaces n : blank (spaces n) = true.
Proof. unfold blank, spaces. apply forallb_forall. intros c Hc. apply repeat_spec in Hc. subst. reflexivity. Qed.

(** C42: when the first line has text, no line is less indented than it (empty lines apart), no tab is used to
    indent and the last line is empty or has text *)
Theorem C42_inverse_partial : forall code n,
  has_text (hd [] (split code)) ->
  (forall l, In l (split code) -> no_tabs l /\ (l = [] \/ lead (hd [] (split code)) <= lead l)) ->
  (last (split code) [] = [] \/ has_text (last (split code) [])) ->
  outdent (indent code (spaces n)) (Some (Z.of_nat n)) true = code.
Proof.
  intros code n Hfirst Hlines Hlast.
  assert (Hhd : In (hd [] (split code)) (split code)).
  { pose proof (split_nonempty code). destruct (split code); [congruence|simpl; auto]. }
  destruct (lead_first code Hfirst) as [Elead Hnt]. specialize (Hnt (proj1 (Hlines _ Hhd))).
  set (pad1 := fun l => if indentsize l <? indentsize code then l else spaces n ++ l).
  (* the lines of the indented text *)
  assert (Hmap : exists ls, split (indent code (spaces n)) = ls /\ hd [] ls = spaces n ++ hd [] (split code) /\ map (cut n) ls = split code).
  { assert (Hcut : forall l, In l (split code) -> cut n (pad1 l) = l).
    { intros l Hl. destruct (Hlines l Hl) as [Hn [->|Hle]].
      - unfold pad1. change (indentsize []) with 0. destruct (0 <? indentsize code); [|apply cut_pad, no_tabs_nil].
        unfold cut. destruct n; reflexivity.
      - unfold pad1. rewrite !indentsize_lead by auto. rewrite Elead.
        destruct (Nat.ltb_spec (lead l) (lead (hd [] (split code)))); [lia|]. apply cut_pad; auto. }
    assert (Hnl : forall l, In l (split code) -> ~ In nl (pad1 l)).
    { intros l Hl. unfold pad1. destruct (_ <? _); [apply (split_lines code); auto|]. rewrite in_app_iff. intros [Hi|Hi]; [apply repeat_spec in Hi; discriminate|].
      eapply split_lines; eauto. }
    assert (Hp1 : pad1 (hd [] (split code)) = spaces n ++ hd [] (split code)).
    { unfold pad1. rewrite !indentsize_lead by (auto; apply Hlines; auto). rewrite Elead, Nat.ltb_irrefl. reflexivity. }
    unfold indent. fold pad1.
    pose proof (split_nonempty code) as Hne.
    destruct (exists_last Hne) as [ls0 [z Ez]].
    assert (Hz : last (split code) [] = z) by (rewrite Ez; apply last_last).
    assert (Hfl : fix_last (map pad1 (split code)) = map pad1 ls0 ++ [if blank z then [] else pad1 z] \/ fix_last (map pad1 (split code)) = map pad1 (split code)).
    { unfold fix_last. rewrite Ez, map_app. cbn [map]. rewrite last_last. destruct (blank (pad1 z)) eqn:Eb; [|auto]. left.
      rewrite removelast_last. f_equal. f_equal. destruct (blank z) eqn:Ebz; auto. exfalso.
      unfold pad1 in Eb. destruct (_ <? _); [congruence|]. unfold blank in *. rewrite forallb_app, Ebz, andb_false_r in Eb. discriminate. }
    rewrite Hz in Hlast.
    assert (Hls0 : z = [] -> ls0 <> []).
    { intros -> ->. rewrite Ez in Hfirst. cbn in Hfirst. destruct Hfirst as [c [[] _]]. }
    eexists. split; [reflexivity|]. destruct Hfl as [-> | ->].
    - rewrite split_join.
      + rewrite map_app, map_map. cbn [map]. split.
        * rewrite Ez in *. destruct ls0 as [|l0 ls0].
          -- cbn [map app hd] in *. destruct (blank z) eqn:Eb; [|auto]. rewrite has_text_not_blank in Eb by auto. discriminate.
          -- exact Hp1.
        * rewrite Ez in *. f_equal.
          -- rewrite <- (map_id ls0) at 2. apply map_ext_in. intros l Hl. apply Hcut, in_app_iff; auto.
          -- f_equal. destruct (blank z) eqn:Eb; [|apply Hcut, in_app_iff; simpl; auto].
             destruct Hlast as [->|Ht]; [|rewrite has_text_not_blank in Eb by auto; discriminate]. unfold cut. destruct n; reflexivity.
      + destruct (map pad1 ls0); discriminate.
      + intros l Hl. apply in_app_iff in Hl as [Hl|[<-|[]]].
        * apply in_map_iff in Hl as [l0 [<- Hl0]]. apply Hnl. rewrite Ez. apply in_app_iff; auto.
        * destruct (blank z); [intros []|]. apply Hnl. rewrite Ez. apply in_app_iff; simpl; auto.
    - rewrite split_join.
      + split; [rewrite <- Hp1; rewrite Ez; destruct ls0; reflexivity|]. rewrite map_map. transitivity (map (fun x : str => x) (split code)); [apply map_ext_in; auto|apply map_id].
      + rewrite Ez. destruct ls0; discriminate.
      + intros l Hl. apply in_map_iff in Hl as [l0 [<- Hl0]]. auto. }
  destruct Hmap as [ls [E1 [E2 E3]]].
  assert (Ht' : has_text (hd [] (split (indent code (spaces n))))).
  { rewrite E1, E2. destruct Hfirst as [c [Hc Hs]]. exists c. rewrite in_app_iff. auto. }
  assert (Hnt1 : no_tabs (hd [] (split (indent code (spaces n))))).
  { rewrite E1, E2. apply no_tabs_pad. apply Hlines; auto. }
  destruct (lead_first (indent code (spaces n)) Ht') as [El' Hnt'].
  unfold outdent. replace (amount (Some (Z.of_nat n)) (indentsize (indent code (spaces n)))) with n.
  2:{ unfold amount. rewrite indentsize_lead by auto. rewrite El', E1, E2. unfold spaces. rewrite lead_repeat.
      destruct (Z.ltb_spec (Z.of_nat (n + lead (hd [] (split code)))) (Z.of_nat n)); [lia|]. destruct (Z.ltb_spec (Z.of_nat n) 0); cbn [orb]; lia. }
  unfold outdent_lines. rewrite E1.
  replace (amount (Some (Z.of_nat n)) (indentsize (hd [] ls))) with n.
  2:{ unfold amount. rewrite E1 in Hnt1. rewrite indentsize_lead by auto. rewrite E2. unfold spaces. rewrite lead_repeat.
      destruct (Z.ltb_spec (Z.of_nat (n + lead (hd [] (split code)))) (Z.of_nat n)); [lia|]. destruct (Z.ltb_spec (Z.of_nat n) 0); cbn [orb]; lia. }
  rewrite E3. apply join_split.
Qed.
(** what becomes of one line: it is as it was if it was indented; otherwise it loses up to n characters of its own *)
Definition there_and_back (ind n : nat) (l : str) : str := if lead l <? ind then skipn (min n (lead l)) l else l.
Lemma cut_pad1 ind n l : no_tabs l -> cut n (if lead l <? ind then l else spaces n ++ l) = there_and_back ind n l.
Proof.
  intros Hl. unfold there_and_back. destruct (Nat.ltb_spec (lead l) ind); [|apply cut_pad, Hl]. unfold cut. rewrite indentsize_lead by exact Hl. f_equal.
  destruct (Nat.ltb_spec (lead l) n); lia.
Qed.
Lemma cut_nil n : cut n [] = []. Proof. unfold cut. destruct (_ <? _); apply skipn_nil. Qed.
Lemma round_trip code n ls0 z : has_text (hd [] (split code)) -> (forall l, In l (split code) -> no_tabs l) -> split code = ls0 ++ [z] ->
  let ind := lead (hd [] (split code)) in
  outdent (indent code (spaces n)) (Some (Z.of_nat n)) true = join (map (there_and_back ind n) ls0 ++ [if blank z then [] else there_and_back ind n z]).
Proof.
  intros Hfirst Hl Ez ind. assert (Hhd : In (hd [] (split code)) (split code)) by (rewrite Ez; destruct ls0; simpl; auto).
  destruct (lead_first code Hfirst) as [Elead Hnt]. specialize (Hnt (Hl _ Hhd)).
  set (pad1 := fun l => if lead l <? ind then l else spaces n ++ l).
  assert (Hpad : forall l, In l (split code) -> (if indentsize l <? indentsize code then l else spaces n ++ l) = pad1 l).
  { intros l H. unfold pad1. rewrite !indentsize_lead by auto. rewrite Elead. reflexivity. }
  assert (Hnl : forall l, In l (split code) -> ~ In nl (pad1 l)).
  { intros l H. unfold pad1. destruct (_ <? _); [apply (split_lines code); auto|]. rewrite in_app_iff. intros [Hi|Hi]; [apply repeat_spec in Hi; discriminate|]. eapply split_lines; eauto. }
  assert (Hbl : forall l, blank (pad1 l) = blank l).
  { intros l. unfold pad1. destruct (_ <? _); [reflexivity|]. unfold blank. rewrite forallb_app. replace (forallb is_space (spaces n)) with true; [reflexivity|]. symmetry. apply forallb_forall.
    intros x Hx. apply repeat_spec in Hx. subst x. reflexivity. }
  set (L := map pad1 ls0 ++ [if blank z then [] else pad1 z]).
  assert (E1 : indent code (spaces n) = join L).
  { unfold indent. f_equal. rewrite (map_ext_in _ pad1 (split code) Hpad). unfold fix_last. rewrite Ez, map_app. cbn [map]. rewrite last_last, Hbl. unfold L.
    destruct (blank z); [|reflexivity]. rewrite removelast_last. reflexivity. }
  assert (E2 : split (join L) = L).
  { apply split_join; [unfold L; destruct (map pad1 ls0); discriminate|]. intros l Hi. unfold L in Hi. apply in_app_iff in Hi as [Hi|[<-|[]]].
    - apply in_map_iff in Hi as (l0 & <- & H0). apply Hnl. rewrite Ez. apply in_app_iff. auto.
    - destruct (blank z); [intros []|]. apply Hnl. rewrite Ez. apply in_app_iff. simpl. auto. }
  assert (Eh : hd [] L = spaces n ++ hd [] (split code)).
  { unfold L. rewrite Ez. assert (P1 : pad1 (hd [] (split code)) = spaces n ++ hd [] (split code)) by (unfold pad1, ind; rewrite Nat.ltb_irrefl; reflexivity).
    rewrite Ez in P1, Hfirst. destruct ls0 as [|l0 ls0]; cbn [map app hd] in *; [|exact P1]. rewrite (has_text_not_blank z Hfirst). exact P1. }
  assert (Ht' : has_text (hd [] (split (join L)))) by (rewrite E2, Eh; destruct Hfirst as [c [Hc Hs]]; exists c; rewrite in_app_iff; auto).
  assert (Hnt1 : no_tabs (hd [] (split (join L)))) by (rewrite E2, Eh; apply no_tabs_pad, Hl, Hhd).
  destruct (lead_first (join L) Ht') as [El' Hnt']. rewrite E1. unfold outdent.
  assert (Am : forall k, n <= k -> amount (Some (Z.of_nat n)) k = n).
  { intros k Hk. rewrite amount_wanted. unfold wanted. destruct (Z.ltb_spec (Z.of_nat n) 0); lia. }
  assert (Ld : n <= lead (hd [] L)) by (rewrite Eh; unfold spaces; rewrite lead_repeat; lia).
  rewrite (indentsize_lead (join L)) by auto. rewrite El', E2. rewrite (Am _ Ld). unfold outdent_lines.
  rewrite (indentsize_lead (hd [] L)) by (rewrite E2 in Hnt1; exact Hnt1). rewrite (Am _ Ld).
  f_equal. unfold L. rewrite map_app, map_map. cbn [map]. f_equal.
  - apply map_ext_in. intros l H0. apply cut_pad1, Hl. rewrite Ez. apply in_app_iff. auto.
  - f_equal. destruct (blank z); [apply cut_nil|]. apply cut_pad1, Hl. rewrite Ez. apply in_app_iff. simpl. auto.
Qed.
Lemma skipn_same (k : nat) (l : str) : k <= length l -> skipn k l = l <-> k = 0.
Proof. intros H. split; [|intros ->; reflexivity]. intros E. apply (f_equal (@length N)) in E. rewrite skipn_length in E. lia. Qed.
Lemma there_and_back_same ind n l : there_and_back ind n l = l <-> n = 0 \/ lead l = 0 \/ ind <= lead l.
Proof.
  unfold there_and_back. destruct (Nat.ltb_spec (lead l) ind) as [H|H]; [|split; auto]. rewrite skipn_same by (pose proof (lead_le l); lia). lia.
Qed.
(** C42: for code indented without tabs whose first line has text: exactly which code is restored.  A line must have no indentation or at least
    that of the first, and the last line must be empty or have text *)
Theorem C42_exact : forall code n, has_text (hd [] (split code)) -> (forall l, In l (split code) -> no_tabs l) ->
  outdent (indent code (spaces n)) (Some (Z.of_nat n)) true = code <->
  (forall l, In l (split code) -> n = 0 \/ lead l = 0 \/ lead (hd [] (split code)) <= lead l) /\ (last (split code) [] = [] \/ has_text (last (split code) [])).
Proof.
  intros code n Hfirst Hl. destruct (exists_last (split_nonempty code)) as [ls0 [z Ez]]. set (ind := lead (hd [] (split code))).
  rewrite (round_trip code n ls0 z Hfirst Hl Ez). fold ind. set (R := there_and_back ind n). assert (Lz : last (split code) [] = z) by (rewrite Ez; apply last_last). rewrite Lz.
  assert (Hz : (if blank z then [] else R z) = z <-> R z = z /\ (z = [] \/ has_text z)).
  { destruct (blank z) eqn:B.
    - assert (N : ~ has_text z) by (intros T; rewrite (has_text_not_blank z T) in B; discriminate). split; [intros <-|intros [_ [->|T]]; [reflexivity|contradiction]].
      split; [|auto]. unfold R, there_and_back. destruct (_ <? _); [apply skipn_nil|reflexivity].
    - split; [|tauto]. intros H. split; [exact H|]. destruct (blank_or_text z); [congruence|auto]. }
  assert (Rnl : forall l, ~ In nl l -> ~ In nl (R l)).
  { intros l H. unfold R, there_and_back. destruct (_ <? _); [|exact H]. intros X. apply H. rewrite <- (firstn_skipn (min n (lead l)) l). apply in_app_iff. auto. }
  assert (Inj : join (map R ls0 ++ [if blank z then [] else R z]) = code <-> map R ls0 = ls0 /\ (if blank z then [] else R z) = z).
  { split.
    - intros E. apply (f_equal split) in E. rewrite split_join in E.
      + rewrite Ez in E. apply app_inj_tail in E. exact E.
      + destruct (map R ls0); discriminate.
      + intros l Hi. apply in_app_iff in Hi as [Hi|[<-|[]]].
        * apply in_map_iff in Hi as (l0 & <- & H0). apply Rnl, (split_lines code). rewrite Ez. apply in_app_iff. auto.
        * destruct (blank z); [intros []|]. apply Rnl, (split_lines code). rewrite Ez. apply in_app_iff. simpl. auto.
    - intros [M1 M2]. transitivity (join (split code)); [|apply join_split]. rewrite M2, M1. f_equal. symmetry. exact Ez. }
  rewrite Inj, Hz. split.
  - intros (M & Rz & Z). split; [|exact Z]. intros l H. apply (there_and_back_same ind n l). fold R. rewrite Ez in H. apply in_app_iff in H as [H|[<-|[]]]; [|exact Rz].
    clear - M H. induction ls0 as [|a ls0 IH]; [destruct H|]. cbn [map] in M. injection M as M1 M2. destruct H as [<-|H]; auto.
  - intros (A & Z). assert (A' : forall l, In l (split code) -> R l = l) by (intros l H; apply there_and_back_same, A, H). split; [|split; [|exact Z]].
    + rewrite <- (map_id ls0) at 2. apply map_ext_in. intros l H. apply A'. rewrite Ez. apply in_app_iff. auto.
    + apply A'. rewrite Ez. apply in_app_iff. simpl. auto.
Qed.

(** "   a\nb\n    c": the second line, not indented at all, is left alone by both *)
Theorem C42_exact_case : let code := [32; 32; 32; 97; 10; 98; 10; 32; 32; 32; 32; 99]%N in
  has_text (hd [] (split code)) /\ (forall l, In l (split code) -> no_tabs l) /\ outdent (indent code (spaces 2)) (Some 2%Z) true = code /\ ~ lead (hd [] (split code)) <= lead [98%N].
Proof.
  cbn zeta. split; [exists 97%N; split; [vm_compute; auto|reflexivity]|]. split; [|split; [vm_compute; reflexivity|vm_compute; lia]].
  intros l Hl. vm_compute in Hl. destruct Hl as [<-|[<-|[<-|[]]]]; intros X; vm_compute in X; intuition discriminate.
Qed.
(** what indent does by itself: every line at least as indented as the first gets n spaces, the others none; a last line of
    whitespace becomes empty *)
Theorem C42_indent : forall code n,
  has_text (hd [] (split code)) -> (forall l, In l (split code) -> no_tabs l) ->
  Forall2 (fun l r => (r = if lead l <? lead (hd [] (split code)) then l else spaces n ++ l) \/ ~ has_text l /\ r = [])
    (split code) (split (indent code (spaces n))) /\
  (forall i, S i < length (split code) ->
     nth i (split (indent code (spaces n))) [] = (if lead (nth i (split code) []) <? lead (hd [] (split code)) then [] else spaces n) ++ nth i (split code) []).
Proof.
  intros code n Hfirst Hlines.
  assert (Hhd : In (hd [] (split code)) (split code)).
  { pose proof (split_nonempty code). destruct (split code); [congruence|simpl; auto]. }
  destruct (lead_first code Hfirst) as [Elead Hnt]. specialize (Hnt (Hlines _ Hhd)).
  unfold indent. rewrite (indentsize_lead code), Elead by auto. set (ind := lead (hd [] (split code))).
  set (pad1 := fun l => if lead l <? ind then l else spaces n ++ l).
  assert (Em : map (fun l => if indentsize l <? ind then l else spaces n ++ l) (split code) = map pad1 (split code)).
  { apply map_ext_in. intros l Hl. unfold pad1. rewrite indentsize_lead by auto. reflexivity. }
  rewrite Em. clear Em.
  assert (Hnl : forall l, In l (split code) -> ~ In nl (pad1 l)).
  { intros l Hl. unfold pad1. destruct (_ <? _); [apply (split_lines code); auto|]. rewrite in_app_iff. intros [Hi|Hi]; [apply repeat_spec in Hi; discriminate|].
    eapply split_lines; eauto. }
  pose proof (split_nonempty code) as Hne. destruct (exists_last Hne) as [ls0 [z Ez]]. rewrite Ez in *. clearbody ind. clear Hhd Hne Hfirst Elead Ez Hnt.
  assert (Hfl : exists r, fix_last (map pad1 (ls0 ++ [z])) = map pad1 ls0 ++ [r] /\ (r = pad1 z \/ ~ has_text z /\ r = [])).
  { unfold fix_last. rewrite map_app. cbn [map]. rewrite last_last. destruct (blank (pad1 z)) eqn:Eb.
    - exists []. rewrite removelast_last. split; [reflexivity|]. right. split; [|reflexivity].
      intros Ht. apply has_text_not_blank in Ht. unfold pad1 in Eb. destruct (_ <? _); [congruence|].
      unfold blank in *. rewrite forallb_app, Ht, andb_false_r in Eb. discriminate.
    - exists (pad1 z). auto. }
  destruct Hfl as [r [-> Hr]]. rewrite split_join.
  - split.
    + apply Forall2_app.
      * clear Hlines Hnl. induction ls0 as [|l ls0 IH]; constructor; auto.
      * constructor; [|constructor]. exact Hr.
    + intros i Hi. rewrite app_length in Hi. cbn [length] in Hi. rewrite !app_nth1 by (rewrite ?map_length; lia).
      rewrite (nth_indep (map pad1 ls0) [] (pad1 [])) by (rewrite map_length; lia). rewrite map_nth. unfold pad1. destruct (_ <? _); reflexivity.
  - destruct (map pad1 ls0); discriminate.
  - intros l Hl. apply in_app_iff in Hl as [Hl|[<-|[]]].
    + apply in_map_iff in Hl as [l0 [<- Hl0]]. apply Hnl. apply in_app_iff; auto.
    + destruct Hr as [->|[_ ->]]; [|intros []]. apply Hnl. apply in_app_iff; simpl; auto.
Qed.
(** REFUTED otherwise: 1. the code starts with an empty line and a line is indented more than the first text:
    "\n x\n  y": only y is indented, and outdent removes nothing *)
Theorem C42_leading_newline_refuted : let code := [nl; 32; 120; nl; 32; 32; 121]%N in
  indent code (spaces 2) = [nl; 32; 120; nl; 32; 32; 32; 32; 121]%N /\ outdent (indent code (spaces 2)) (Some 2%Z) true = indent code (spaces 2).
Proof. split; reflexivity. Qed.
(** 2. a line is less indented than the first: "    a\n  b" becomes "    a\nb" *)
Theorem C42_less_indented_refuted : let code := [32; 32; 32; 32; 97; 10; 32; 32; 98]%N in
  outdent (indent code (spaces 4)) (Some 4%Z) true = [32; 32; 32; 32; 97; 10; 98]%N.
Proof. reflexivity. Qed.
(** def f():\n  x\n\n *)
Example ex_C42 : let code := [32; 102; 58; 10; 32; 32; 120; 10; 10; 32; 32; 32; 121; 10]%N in
  outdent (indent code (spaces 4)) (Some 4%Z) true = code /\ indent code (spaces 4) <> code.
Proof. split; [reflexivity|discriminate]. Qed.
Print Assumptions C42_inverse_partial.
Print Assumptions C43_outdent_partial.
Print Assumptions C43_text_partial.
