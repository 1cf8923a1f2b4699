(** C43 for all code, tabs included: exactly what outdent removes, and exactly when it removes text. *)
From Coq Require Import List Bool Arith NArith ZArith Lia.
From Verif Require Import IndentModel IndentProps.
Import ListNotations.
Local Open Scope nat_scope.

(** the width of whitespace that begins at a column: a tab goes to the next multiple of eight *)
Inductive wide : nat -> str -> nat -> Prop :=
| wide_nil : forall col, wide col [] 0
| wide_tab : forall col k w m, 0 < k <= 8 -> (col + k) mod 8 = 0 -> wide (col + k) w m -> wide col (tab :: w) (k + m)
| wide_break : forall col c w m, c = nl \/ c = cr -> wide 0 w m -> wide col (c :: w) (S m)
| wide_other : forall col c w m, c <> tab -> c <> nl -> c <> cr -> wide (S col) w m -> wide col (c :: w) (S m).
(** the indentation of a line, in columns *)
Definition indented (l : str) (k : nat) : Prop :=
  exists w r, l = w ++ r /\ (forall c, In c w -> is_space c = true) /\ match r with [] => True | c :: _ => is_space c = false end /\ wide 0 w k.

Lemma tab_stop col : 0 < 8 - col mod 8 <= 8 /\ (col + (8 - col mod 8)) mod 8 = 0.
Proof.
  pose proof (Nat.mod_upper_bound col 8 ltac:(lia)). split; [lia|].
  replace (col + (8 - col mod 8)) with (8 * (S (col / 8))) by (pose proof (Nat.div_mod col 8 ltac:(lia)); lia).
  rewrite Nat.mul_comm. apply Nat.mod_mul. lia.
Qed.
Lemma tab_stop_unique col k : 0 < k <= 8 -> (col + k) mod 8 = 0 -> k = 8 - col mod 8.
Proof.
  intros H1 H2. pose proof (Nat.div_mod (col + k) 8 ltac:(lia)). pose proof (Nat.div_mod col 8 ltac:(lia)).
  pose proof (Nat.mod_upper_bound col 8 ltac:(lia)). lia.
Qed.
Lemma wide_lead : forall w r col m, (forall c, In c w -> is_space c = true) -> match r with [] => True | c :: _ => is_space c = false end ->
  wide col w m -> lead (expandtabs col (w ++ r)) = m.
Proof.
  intros w r col m Hw Hr H. induction H as [col|col k w m H1 H2 H IH|col c w m Hc H IH|col c w m H1 H2 H3 H IH].
  - destruct r as [|c r]; [reflexivity|]. cbn [app expandtabs].
    destruct (N.eqb_spec c tab) as [->|]; [discriminate|]. destruct ((c =? nl) || (c =? cr))%N; cbn [lead]; rewrite Hr; reflexivity.
  - cbn [app expandtabs]. rewrite N.eqb_refl. cbv zeta. rewrite <- (tab_stop_unique col k H1 H2), lead_repeat, IH; auto.
    intros c Hc. apply Hw. simpl; auto.
  - cbn [app expandtabs]. assert (E : (c =? tab)%N = false /\ ((c =? nl) || (c =? cr))%N = true) by (destruct Hc as [-> | ->]; split; reflexivity).
    destruct E as [-> ->]. cbn [lead]. rewrite (Hw c) by (simpl; auto). rewrite IH; auto. intros x Hx. apply Hw. simpl; auto.
  - cbn [app expandtabs]. destruct (N.eqb_spec c tab); [contradiction|]. destruct (N.eqb_spec c nl); [contradiction|]. destruct (N.eqb_spec c cr); [contradiction|].
    cbn [orb lead]. rewrite (Hw c) by (simpl; auto). rewrite IH; auto. intros x Hx. apply Hw. simpl; auto.
Qed.
Lemma wide_total : forall w col, exists m, wide col w m.
Proof.
  induction w as [|c w IH]; intros col; [exists 0; constructor|].
  destruct (N.eq_dec c tab) as [->|H1].
  - destruct (tab_stop col) as [A B]. destruct (IH (col + (8 - col mod 8))) as [m Hm]. eexists. eapply wide_tab; eauto.
  - destruct (N.eq_dec c nl) as [->|H2]; [destruct (IH 0) as [m Hm]; eexists; eapply wide_break; eauto|].
    destruct (N.eq_dec c cr) as [->|H3]; [destruct (IH 0) as [m Hm]; eexists; eapply wide_break; eauto|].
    destruct (IH (S col)) as [m Hm]. eexists. eapply wide_other; eauto.
Qed.
Lemma lead_split : forall l, match skipn (lead l) l with [] => True | c :: _ => is_space c = false end.
Proof. induction l as [|c l IH]; [exact I|]. cbn [lead]. destruct (is_space c) eqn:E; [exact IH|]. cbn [skipn]. exact E. Qed.
Lemma indented_iff l k : indented l k <-> indentsize l = k.
Proof.
  split.
  - intros (w & r & -> & Hw & Hr & H). apply wide_lead; auto.
  - intros <-. exists (firstn (lead l) l), (skipn (lead l) l). split; [symmetry; apply firstn_skipn|].
    split; [apply lead_spaces|]. split; [apply lead_split|]. destruct (wide_total (firstn (lead l) l) 0) as [m Hm].
    pose proof (wide_lead _ _ _ _ (lead_spaces l) (lead_split l) Hm) as E. rewrite firstn_skipn in E. unfold indentsize. rewrite E. exact Hm.
Qed.
(** every line has one indentation, at least as many columns as whitespace characters *)
Theorem C43_indented : forall l, exists k, indented l k /\ lead l <= k /\ forall k', indented l k' -> k' = k.
Proof.
  intros l. exists (indentsize l). split; [apply indented_iff; reflexivity|]. split.
  - assert (G : forall s col, lead s <= lead (expandtabs col s)).
    { induction s as [|c s IH]; intros col; [cbn; lia|]. cbn [expandtabs lead]. destruct (is_space c) eqn:E; [|lia].
      destruct (N.eqb_spec c tab) as [->|].
      - rewrite lead_repeat. specialize (IH (col + (8 - col mod 8))). pose proof (tab_stop col). lia.
      - destruct ((c =? nl) || (c =? cr))%N; cbn [lead]; rewrite E; [specialize (IH 0)|specialize (IH (S col))]; lia. }
    apply G.
  - intros k' H. apply indented_iff in H. congruence.
Qed.
Lemma first_line_le code : indentsize (hd [] (split code)) <= indentsize code.
Proof.
  rewrite <- (join_split code) at 2. destruct (split code) as [|l ls]; cbn [hd]; [cbn; lia|]. cbn [join]. destruct ls as [|l' ls]; [lia|].
  unfold indentsize. generalize (join (l' :: ls)) as rest. intros rest. generalize 0 as col. induction l as [|c l IH]; intros col; [cbn; lia|].
  cbn [app expandtabs]. destruct (N.eqb_spec c tab) as [->|].
  - rewrite !lead_repeat. specialize (IH (col + (8 - col mod 8))). lia.
  - destruct ((c =? nl) || (c =? cr))%N; cbn [lead]; destruct (is_space c); try lia; [specialize (IH 0)|specialize (IH (S col))]; lia.
Qed.
(** C43, for every code: from each line as many CHARACTERS are removed as the columns asked for, or as it has columns if these are fewer *)
Theorem C43_exact : forall code n k1, indented (hd [] (split code)) k1 ->
  Forall2 (fun l r => forall k, indented l k -> r = skipn (min (wanted n k1) k) l) (split code) (split (outdent code n true)).
Proof.
  intros code n k1 H1. apply indented_iff in H1. unfold outdent.
  set (k0 := amount n (indentsize code)). unfold outdent_lines. set (k := amount (Some (Z.of_nat k0)) (indentsize (hd [] (split code)))).
  assert (Ek : wanted n k1 = k).
  { unfold k, k0. rewrite !amount_wanted, <- H1. pose proof (first_line_le code). unfold wanted. destruct n as [m|].
    - destruct (Z.ltb_spec m 0).
      + destruct (Z.ltb_spec (Z.of_nat (indentsize code)) 0); lia.
      + destruct (Z.ltb_spec (Z.of_nat (min (Z.to_nat m) (indentsize code))) 0); lia.
    - destruct (Z.ltb_spec (Z.of_nat (indentsize code)) 0); lia. }
  rewrite Ek. clearbody k. clear Ek.
  assert (Hcut : forall l k', indented l k' -> cut k l = skipn (min k k') l).
  { intros l k' H. apply indented_iff in H. unfold cut. rewrite H. f_equal. destruct (Nat.ltb_spec k' k); lia. }
  rewrite split_join.
  - generalize (split code) as ls. induction ls as [|l ls IH]; cbn [map]; constructor; [intros k'; apply Hcut|exact IH].
  - pose proof (split_nonempty code). destruct (split code); [congruence|discriminate].
  - intros r Hr Hn. apply in_map_iff in Hr as [l [<- Hin]]. apply (split_lines code l Hin). unfold cut in Hn.
    rewrite <- (firstn_skipn (if indentsize l <? k then indentsize l else k) l). apply in_app_iff. auto.
Qed.
Lemma text_app a b : text (a ++ b) = text a ++ text b.
Proof. apply filter_app. Qed.
Lemma text_nil s : text s = [] <-> forall c, In c s -> is_space c = true.
Proof.
  unfold text. induction s as [|c s IH]; cbn [filter]; [split; [intros _ c []|reflexivity]|]. destruct (is_space c) eqn:E; cbn [negb].
  - rewrite IH. split; [intros H x [<-|Hx]; auto|intros H x Hx; apply H; simpl; auto].
  - split; [discriminate|]. intros H. rewrite (H c) in E by (simpl; auto). discriminate.
Qed.
(** ... so text is lost exactly if a line has, within that many characters, one that is not whitespace *)
Theorem C43_text_iff : forall code n k1, indented (hd [] (split code)) k1 ->
  (text (outdent code n true) = text code <->
   forall l k c, In l (split code) -> indented l k -> In c (firstn (min (wanted n k1) k) l) -> is_space c = true).
Proof.
  intros code n k1 H1. pose proof (C43_exact code n k1 H1) as HF. rewrite <- (join_split (outdent code n true)).
  replace (text code) with (text (join (split code))) by (rewrite join_split; auto). rewrite !text_join.
  revert HF. generalize (split code), (split (outdent code n true)), (wanted n k1). clear. intros ls rs q HF.
  assert (L : forall l r, (forall k, indented l k -> r = skipn (min q k) l) -> exists k, indented l k /\ text l = text (firstn (min q k) l) ++ text r).
  { intros l r H. destruct (C43_indented l) as [k [Hk _]]. exists k. split; auto. rewrite (H k Hk), <- text_app, firstn_skipn. reflexivity. }
  assert (Hle : length (concat (map text rs)) <= length (concat (map text ls))).
  { induction HF as [|l r ls rs H HF IH]; [auto|]. cbn [map concat]. rewrite !app_length. destruct (L l r H) as [k [_ ->]]. rewrite app_length. lia. }
  split.
  - intros E. assert (EL : length (concat (map text rs)) = length (concat (map text ls))) by (f_equal; exact E). clear E Hle.
    induction HF as [|l r ls rs H HF IH]; intros x k c Hx Hk Hc; [destruct Hx|].
    cbn [map concat] in EL. rewrite !app_length in EL. destruct (L l r H) as [k0 [Hk0 E0]].
    assert (Hle' : length (concat (map text rs)) <= length (concat (map text ls))).
    { clear - HF L. induction HF as [|l r ls rs H HF IH]; [auto|]. cbn [map concat]. rewrite !app_length. destruct (L l r H) as [k [_ ->]]. rewrite app_length. lia. }
    pose proof (f_equal (@length N) E0) as E1. rewrite app_length in E1.
    destruct Hx as [<-|Hx].
    + assert (k = k0). { destruct (C43_indented l) as [kk [_ [_ U]]]. rewrite (U k Hk), (U k0 Hk0). reflexivity. } subst k0.
      apply (proj1 (text_nil (firstn (min q k) l))); auto. destruct (text (firstn (min q k) l)) as [|y t]; [reflexivity|cbn [length] in E1; lia].
    + apply (IH ltac:(lia) x k c Hx Hk Hc).
  - intros H. clear Hle. induction HF as [|l r ls rs Hl HF IH]; [reflexivity|]. cbn [map concat].
    rewrite IH by (intros x k c Hx; apply H; simpl; auto). f_equal. destruct (L l r Hl) as [k [Hk ->]].
    replace (text (firstn (min q k) l)) with (@nil N); [reflexivity|]. symmetry. apply text_nil. intros c Hc. eapply H; eauto. simpl; auto.
Qed.
(** code indented with one tab: a line loses its first eight characters *)
Theorem C43_one_tab : forall body rest, (forall c, In c body -> is_space c = false) -> body <> [] ->
  hd [] (split (outdent (tab :: body ++ nl :: rest) None true)) = skipn 7 body.
Proof.
  intros body rest Hb Hn. set (code := tab :: body ++ nl :: rest).
  assert (Hs : split code = (tab :: body) :: split rest).
  { unfold code. change (tab :: body ++ nl :: rest) with ((tab :: body) ++ nl :: rest). apply split_no_nl. intros [Q|Q]; [discriminate|]. specialize (Hb _ Q). discriminate. }
  assert (Hi : indented (tab :: body) 8).
  { exists [tab], body. split; [reflexivity|]. split; [intros c [<-|[]]; reflexivity|]. split; [destruct body; [exact I|apply Hb; simpl; auto]|].
    apply (wide_tab 0 8 [] 0); [lia|reflexivity|constructor]. }
  assert (H1 : indented (hd [] (split code)) 8) by (rewrite Hs; exact Hi).
  pose proof (C43_exact code None 8 H1) as HF. rewrite Hs in HF. destruct (split (outdent code None true)) as [|r rs]; inversion HF as [|l r' ls rs' H HF' E1 E2]. cbn [hd]. rewrite (H 8 Hi). reflexivity.
Qed.
Example ex_C43_exact : indented [tab; 32; 120]%N 9 /\ indented [32; tab; 120]%N 8 /\
  outdent [tab; 120; 10; tab; 32; 32; 121; 122]%N (Some 1%Z) true = [120; 10; 32; 32; 121; 122]%N.
Proof. split; [apply indented_iff; reflexivity|]. split; [apply indented_iff; reflexivity|reflexivity]. Qed.
Print Assumptions C43_exact.
Print Assumptions C43_text_iff.
