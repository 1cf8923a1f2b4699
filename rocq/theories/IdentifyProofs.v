From Coq Require Import String Ascii List Bool Arith NArith Lia.
From Verif Require Import IdentifyModel.
Import ListNotations.
Local Open Scope N_scope.

Ltac Nb := repeat match goal with
  | H : (_ <? _) = true |- _ => apply N.ltb_lt in H
  | H : (_ <? _) = false |- _ => apply N.ltb_ge in H
  | H : (_ <=? _) = true |- _ => apply N.leb_le in H
  | H : (_ <=? _) = false |- _ => apply N.leb_gt in H
  | H : (_ =? _) = true |- _ => apply N.eqb_eq in H
  | H : (_ =? _) = false |- _ => apply N.eqb_neq in H
  end.
Ltac ltb_t x y := replace (x <? y) with true by (symmetry; apply N.ltb_lt; lia).
Ltac ltb_f x y := replace (x <? y) with false by (symmetry; apply N.ltb_ge; lia).

Definition point (c : N) : Prop := c < 1114112.

Lemma cont_spec x : x < 64 -> cont (128 + x) = Some x.
Proof.
  intros H. unfold cont.
  replace (128 <=? 128 + x) with true by (symmetry; apply N.leb_le; lia).
  replace (128 + x <? 192) with true by (symmetry; apply N.ltb_lt; lia).
  cbn [andb]. f_equal. lia.
Qed.
Lemma utf8_decode_char c l : point c -> utf8_decode (utf8_char c ++ l) = option_map (cons c) (utf8_decode l).
Proof.
  intros Hc. unfold point in Hc. unfold utf8_char.
  pose proof (N.mod_lt c 64 ltac:(lia)) as M0. pose proof (N.mod_lt (c / 64) 64 ltac:(lia)) as M1.
  pose proof (N.mod_lt (c / 4096) 64 ltac:(lia)) as M2.
  pose proof (N.div_mod' c 64) as D0. pose proof (N.div_mod' (c / 64) 64) as D1. pose proof (N.div_mod' (c / 4096) 64) as D2.
  rewrite N.div_div in D1 by lia. rewrite N.div_div in D2 by lia. change (64 * 64) with 4096 in D1. change (4096 * 64) with 262144 in D2.
  destruct (c <? 128) eqn:E1; Nb.
  { cbn [app utf8_decode]. ltb_t c 128. reflexivity. }
  destruct (c <? 2048) eqn:E2; Nb.
  { assert (c / 64 < 32) by (apply N.div_lt_upper_bound; lia).
    cbn [app utf8_decode]. ltb_f (192 + c / 64) 128. ltb_f (192 + c / 64) 192. ltb_t (192 + c / 64) 224.
    rewrite cont_spec by auto. do 2 f_equal. lia. }
  destruct (c <? 65536) eqn:E3; Nb.
  { assert (c / 4096 < 16) by (apply N.div_lt_upper_bound; lia).
    cbn [app utf8_decode]. ltb_f (224 + c / 4096) 128. ltb_f (224 + c / 4096) 192. ltb_f (224 + c / 4096) 224. ltb_t (224 + c / 4096) 240.
    rewrite !cont_spec by auto. do 2 f_equal. lia. }
  cbn [app utf8_decode]. assert (c / 262144 < 16) by (apply N.div_lt_upper_bound; lia).
  ltb_f (240 + c / 262144) 128. ltb_f (240 + c / 262144) 192. ltb_f (240 + c / 262144) 224. ltb_f (240 + c / 262144) 240.
  rewrite !cont_spec by auto. do 2 f_equal. lia.
Qed.
Lemma utf8_roundtrip s : Forall point s -> utf8_decode (utf8 s) = Some s.
Proof.
  induction 1 as [|c s Hc Hs IH]; [reflexivity|]. unfold utf8 in *. cbn [flat_map].
  rewrite utf8_decode_char by auto. rewrite IH. reflexivity.
Qed.

(** hexadecimal *)
Lemma unhex_hexdigit n : n < 16 -> unhex (hexdigit n) = Some n.
Proof.
  intros H. unfold hexdigit, unhex. destruct (n <? 10) eqn:E; Nb.
  - replace (48 <=? 48 + n) with true by (symmetry; apply N.leb_le; lia).
    replace (48 + n <=? 57) with true by (symmetry; apply N.leb_le; lia). cbn [andb]. f_equal; lia.
  - replace (87 + n <=? 57) with false by (symmetry; apply N.leb_gt; lia). rewrite andb_false_r.
    replace (97 <=? 87 + n) with true by (symmetry; apply N.leb_le; lia).
    replace (87 + n <=? 102) with true by (symmetry; apply N.leb_le; lia). cbn [andb]. f_equal; lia.
Qed.
Lemma unhexs_app a : forall b acc, unhexs (a ++ b) acc = match unhexs a acc with Some x => unhexs b x | None => None end.
Proof. induction a as [|c a IH]; intros b acc; simpl; auto. destruct (unhex c); auto. Qed.
Lemma unhexs_hex d : forall n acc, n < 16 ^ N.of_nat d -> unhexs (hex d n) acc = Some (acc * 16 ^ N.of_nat d + n).
Proof.
  induction d as [|d IH]; intros n acc H.
  - simpl in *. f_equal. lia.
  - rewrite Nat2N.inj_succ, N.pow_succ_r' in H. cbn [hex]. rewrite unhexs_app.
    rewrite IH by (apply N.div_lt_upper_bound; lia). cbn [unhexs].
    rewrite unhex_hexdigit by (apply N.mod_lt; lia). f_equal.
    rewrite Nat2N.inj_succ, N.pow_succ_r'. pose proof (N.div_mod' n 16). nia.
Qed.
Lemma hex_length d : forall n, length (hex d n) = d.
Proof. induction d as [|d IH]; intros n; simpl; auto. rewrite app_length, IH. simpl. lia. Qed.

Lemma rue_decode_mono f : forall l r, rue_decode f l = Some r -> forall f', (f <= f')%nat -> rue_decode f' l = Some r.
Proof.
  induction f as [|f IH]; intros l r H f' Hf.
  - destruct l; [|discriminate]. injection H as <-. destruct f'; reflexivity.
  - destruct f' as [|f']; [lia|]. assert (Hle : (f <= f')%nat) by lia. clear Hf. cbn [rue_decode] in *.
    assert (IH' : forall c l r, option_map (cons c) (rue_decode f l) = Some r -> option_map (cons c) (rue_decode f' l) = Some r).
    { intros c l0 r0 Hx. destruct (rue_decode f l0) eqn:E; [|discriminate]. rewrite (IH _ _ E _ Hle). exact Hx. }
    destruct l as [|b l1]; auto. destruct (b =? 92); [|apply IH'; exact H].
    destruct l1 as [|u l2]; auto. destruct (u =? 117).
    + destruct (length l2 <? 4)%nat; auto. destruct (unhexs (firstn 4 l2) 0); [|discriminate]. apply IH'; exact H.
    + destruct (u =? 85).
      * destruct (length l2 <? 8)%nat; auto. destruct (unhexs (firstn 8 l2) 0); [|discriminate]. apply IH'; exact H.
      * apply IH'; exact H.
Qed.
Lemma rue_decode_char f c l : point c -> rue_decode (S f) (rue_char c ++ l) = option_map (cons c) (rue_decode f l).
Proof.
  intros Hc. unfold point in Hc. unfold rue_char.
  assert (E4 : c < 65536 -> rue_decode (S f) (esc4 c ++ l) = option_map (cons c) (rue_decode f l)).
  { intros H. unfold esc4. cbn [app rue_decode].
    replace (92 =? 92) with true by reflexivity. replace (117 =? 117) with true by reflexivity.
    rewrite (proj2 (Nat.ltb_ge _ _)) by (rewrite app_length, hex_length; lia).
    rewrite firstn_app, hex_length, Nat.sub_diag, firstn_O, app_nil_r, firstn_all2 by (rewrite hex_length; lia).
    rewrite skipn_app, hex_length, Nat.sub_diag, skipn_O, skipn_all2 by (rewrite hex_length; lia).
    rewrite unhexs_hex by (change (16 ^ N.of_nat 4) with 65536; lia). reflexivity. }
  destruct ((c =? 92) || (c =? 0) || (c =? 10) || (c =? 13) || (c =? 26)) eqn:E.
  { apply E4. rewrite !orb_true_iff in E. destruct E as [[[[E|E]|E]|E]|E]; Nb; lia. }
  rewrite !orb_false_iff in E. destruct E as [[[[E _] _] _] _].
  destruct (c <? 256) eqn:E1.
  { cbn [app rue_decode]. rewrite E. reflexivity. }
  destruct (c <? 65536) eqn:E2; Nb.
  { apply E4; auto. }
  unfold esc8. cbn [app rue_decode].
  replace (92 =? 92) with true by reflexivity. replace (85 =? 117) with false by reflexivity. replace (85 =? 85) with true by reflexivity.
  rewrite (proj2 (Nat.ltb_ge _ _)) by (rewrite app_length, hex_length; lia).
  rewrite firstn_app, hex_length, Nat.sub_diag, firstn_O, app_nil_r, firstn_all2 by (rewrite hex_length; lia).
  rewrite skipn_app, hex_length, Nat.sub_diag, skipn_O, skipn_all2 by (rewrite hex_length; lia).
  rewrite unhexs_hex by (change (16 ^ N.of_nat 8) with 4294967296; lia). reflexivity.
Qed.
Lemma rue_char_length c : (1 <= length (rue_char c))%nat.
Proof.
  unfold rue_char, esc4, esc8. destruct (_ || _); [cbn [length]; lia|]. destruct (c <? 256); [cbn [length]; lia|].
  destruct (c <? 65536); cbn [length]; lia.
Qed.
Lemma rue_roundtrip s : Forall point s -> rue_decode (length (rue s)) (rue s) = Some s.
Proof.
  intros H. assert (G : rue_decode (length s) (rue s) = Some s).
  { induction H as [|c s Hc Hs IH]; [reflexivity|]. unfold rue in *. cbn [flat_map length].
    rewrite rue_decode_char by auto. rewrite IH. reflexivity. }
  eapply rue_decode_mono; [exact G|]. clear. induction s as [|c s IH]; cbn [rue flat_map length]; [lia|].
  unfold rue in *. rewrite app_length. pose proof (rue_char_length c). lia.
Qed.
Lemma hexdigit_range n : n < 16 -> hexdigit n <> 10.
Proof. intros H. unfold hexdigit. destruct (n <? 10); lia. Qed.
Lemma hex_no_nl d : forall n, ~ In 10 (hex d n).
Proof.
  induction d as [|d IH]; intros n; simpl; auto. rewrite in_app_iff. intros [H|[H|[]]].
  - eapply IH; eauto.
  - revert H. apply hexdigit_range. apply N.mod_lt. lia.
Qed.
Lemma rue_no_nl s : ~ In 10 (rue s).
Proof.
  unfold rue. rewrite in_flat_map. intros [c [_ H]]. unfold rue_char, esc4, esc8 in H.
  destruct ((c =? 92) || (c =? 0) || (c =? 10) || (c =? 13) || (c =? 26)) eqn:E.
  { destruct H as [H|[H|H]]; try discriminate. eapply hex_no_nl; eauto. }
  rewrite !orb_false_iff in E. destruct E as [[[[_ _] E] _] _]. Nb.
  destruct (c <? 256). { destruct H as [H|[]]. congruence. }
  destruct (c <? 65536); destruct H as [H|[H|H]]; try discriminate; eapply hex_no_nl; eauto.
Qed.

(** ** reading arguments *)
Lemma readline_ok a r : ~ In 10 a -> readline (a ++ [10] ++ r) = Some (a, r).
Proof.
  induction a as [|b a IH]; intros H; cbn [app readline].
  - reflexivity.
  - destruct (b =? 10) eqn:E; Nb; [exfalso; apply H; left; auto|].
    change (10 :: r) with ([10] ++ r). rewrite IH; auto. intros Hi; apply H; right; auto.
Qed.
Lemma readline_none a : ~ In 10 a -> readline a = None.
Proof.
  induction a as [|b a IH]; intros H; cbn [readline]; auto.
  destruct (b =? 10) eqn:E; Nb; [exfalso; apply H; left; auto|]. rewrite IH; auto. intros Hi; apply H; right; auto.
Qed.
Lemma take_app a r : take (length a) (a ++ r) = Some (a, r).
Proof.
  unfold take. rewrite (proj2 (Nat.ltb_ge _ _)) by (rewrite app_length; lia).
  rewrite firstn_app, Nat.sub_diag, firstn_O, app_nil_r, firstn_all. rewrite skipn_app, Nat.sub_diag, skipn_O, skipn_all. reflexivity.
Qed.
Lemma take_app' k a r : length a = k -> take k (a ++ r) = Some (a, r).
Proof. intros <-. apply take_app. Qed.
Lemma take_short k l : (length l < k)%nat -> take k l = None.
Proof. intros H. unfold take. now rewrite (proj2 (Nat.ltb_lt _ _)). Qed.
Lemma le_length k : forall n, length (le k n) = k.
Proof. induction k; intros n; simpl; auto. Qed.
Lemma unle_le k : forall n, n < 256 ^ N.of_nat k -> unle (le k n) = n.
Proof.
  induction k as [|k IH]; intros n H.
  - simpl in *. lia.
  - rewrite Nat2N.inj_succ, N.pow_succ_r' in H. cbn [le unle]. rewrite IH by (apply N.div_lt_upper_bound; lia).
    pose proof (N.div_mod' n 256). lia.
Qed.

(** valid opcodes *)
Definition valid (o : opc) : Prop :=
  match o with
  | PROTO n | BINPUT n => n < 256
  | FRAME l => l < 256 ^ 8
  | SHORT_BINUNICODE s => Forall point s /\ N.of_nat (length (utf8 s)) < 256
  | BINUNICODE s => Forall point s /\ N.of_nat (length (utf8 s)) < 256 ^ 4
  | UNICODE s => Forall point s
  | GLOBAL m n => ~ In 10 m /\ ~ In 10 n
  | PUT d => d < 10
  | _ => True
  end.
Lemma genop_bytes o r : valid o -> genop (bytes_of o ++ r) = GOp o r.
Proof.
  destruct o; cbn [valid bytes_of]; intros H.
  - cbn [app]. cbv [genop]. cbn [N.eqb Pos.eqb]. change (n :: r) with ([n] ++ r). rewrite (take_app' 1 [n]) by reflexivity. reflexivity.
  - unfold genop. cbn [app N.eqb Pos.eqb]. rewrite (take_app' 8 (le 8 l)) by apply le_length.
    rewrite unle_le; auto.
  - unfold genop. cbn [app N.eqb Pos.eqb]. destruct H as [Hp Hl].
    change (N.of_nat (length (utf8 s)) :: utf8 s ++ r) with ([N.of_nat (length (utf8 s))] ++ utf8 s ++ r).
    rewrite (take_app' 1 [N.of_nat (length (utf8 s))]) by reflexivity.
    rewrite Nat2N.id, take_app, utf8_roundtrip; auto.
  - unfold genop. cbn [app N.eqb Pos.eqb]. destruct H as [Hp Hl]. rewrite <- app_assoc.
    rewrite (take_app' 4 (le 4 _)) by apply le_length. rewrite unle_le by auto.
    rewrite Nat2N.id, take_app, utf8_roundtrip; auto.
  - unfold genop. cbn [app N.eqb Pos.eqb]. rewrite <- app_assoc. rewrite readline_ok by apply rue_no_nl.
    now rewrite rue_roundtrip.
  - unfold genop. cbn [N.eqb Pos.eqb]. destruct H as [Hm Hn]. cbn [app]. cbn [N.eqb Pos.eqb].
    rewrite <- !app_assoc.
    change (m ++ (10 :: n ++ [10]) ++ r) with (m ++ [10] ++ (n ++ [10]) ++ r). rewrite readline_ok by auto.
    rewrite <- app_assoc. rewrite readline_ok by auto. reflexivity.
  - reflexivity.
  - reflexivity.
  - cbn [app]. unfold genop. cbn [N.eqb Pos.eqb]. change (n :: r) with ([n] ++ r). rewrite (take_app' 1 [n]) by reflexivity. reflexivity.
  - unfold genop. cbn [app N.eqb Pos.eqb].
    change (48 + digit :: 10 :: r) with ([48 + digit] ++ [10] ++ r). rewrite readline_ok by (intros [Hx|[]]; lia).
    replace (48 <=? 48 + digit) with true by (symmetry; apply N.leb_le; lia).
    replace (48 + digit <=? 57) with true by (symmetry; apply N.leb_le; lia). cbn [andb]. f_equal. f_equal. lia.
  - reflexivity.
  - reflexivity.
Qed.

Lemma firstn_nl k a : ~ In 10 a -> (k <= length a)%nat -> ~ In 10 (firstn k (a ++ [10])).
Proof.
  intros H Hk. rewrite firstn_app. replace (k - length a)%nat with 0%nat by lia. rewrite firstn_O, app_nil_r.
  intros Hi. apply H. rewrite <- (firstn_skipn k a). apply in_app_iff; auto.
Qed.
Lemma genop_short o k : valid o -> (k < length (bytes_of o))%nat -> genop (firstn k (bytes_of o)) = GValueError.
Proof.
  destruct k as [|k]; [reflexivity|].
  destruct o; cbn [valid bytes_of length]; intros H Hk; cbn [firstn].
  - destruct k as [|k]; [|lia]. reflexivity.
  - unfold genop. cbn [N.eqb Pos.eqb]. rewrite take_short; auto. rewrite firstn_length. rewrite le_length in *. lia.
  - unfold genop. cbn [N.eqb Pos.eqb]. destruct k as [|k]; [reflexivity|]. cbn [firstn].
    change (N.of_nat (length (utf8 s)) :: firstn k (utf8 s)) with ([N.of_nat (length (utf8 s))] ++ firstn k (utf8 s)).
    rewrite (take_app' 1 [_]) by reflexivity. rewrite Nat2N.id, take_short; auto. rewrite firstn_length. lia.
  - unfold genop. cbn [N.eqb Pos.eqb]. rewrite app_length, le_length in Hk.
    destruct (Nat.ltb_spec k 4) as [Hk4|Hk4].
    + rewrite take_short; auto. rewrite firstn_length, app_length, le_length. lia.
    + rewrite firstn_app, le_length, (firstn_all2 (le 4 _)) by (rewrite le_length; lia).
      rewrite (take_app' 4 (le 4 _)) by apply le_length. destruct H as [_ H]. rewrite unle_le by auto.
      rewrite Nat2N.id, take_short; auto. rewrite firstn_length. lia.
  - unfold genop. cbn [N.eqb Pos.eqb]. rewrite app_length in Hk. simpl in Hk.
    rewrite readline_none; auto. apply firstn_nl; [apply rue_no_nl|lia].
  - unfold genop. cbn [N.eqb Pos.eqb]. destruct H as [Hm Hn]. cbn [app] in *. rewrite !app_length in Hk. simpl in Hk. rewrite app_length in Hk. simpl in Hk.
    destruct (Nat.leb_spec k (length m)) as [Hle|Hgt].
    + replace (m ++ 10 :: n ++ [10]) with ((m ++ [10]) ++ (n ++ [10])) by (rewrite <- app_assoc; reflexivity).
      rewrite firstn_app. rewrite app_length. simpl.
      replace (k - (length m + 1))%nat with 0%nat by lia. rewrite firstn_O, app_nil_r.
      rewrite readline_none; auto. apply firstn_nl; auto.
    + rewrite firstn_app. rewrite (firstn_all2 m) by lia. destruct (k - length m)%nat as [|j] eqn:Ej; [lia|]. cbn [firstn].
      change (m ++ 10 :: firstn j (n ++ [10])) with (m ++ [10] ++ firstn j (n ++ [10])). rewrite readline_ok by auto.
      rewrite readline_none; auto. apply firstn_nl; auto. lia.
  - lia.
  - lia.
  - destruct k as [|k]; [|lia]. reflexivity.
  - unfold genop. cbn [N.eqb Pos.eqb]. destruct k as [|[|k]]; [reflexivity| |lia].
    cbn [firstn]. rewrite readline_none; auto. intros [Hx|[]]; lia.
  - lia.
  - lia.
Qed.
Lemma bytes_of_nonempty o : (1 <= length (bytes_of o))%nat.
Proof. destruct o; cbn [bytes_of length]; lia. Qed.

(** the loop over a list of opcodes none of which stops it, followed by one that does *)
Definition marks_import (o : opc) : bool :=
  match o with
  | GLOBAL m n => endswith (m ++ [32] ++ n) import_name
  | SHORT_BINUNICODE s => endswith s import_name
  | _ => false
  end.
Definition is_text (o : opc) : option (list N) :=
  match o with UNICODE s | BINUNICODE s | SHORT_BINUNICODE s => Some s | _ => None end.
Fixpoint scan (found : bool) (ops : list opc) : option (list N) :=
  match ops with
  | [] => None
  | o :: ops =>
    if found then match is_text o with Some s => match ops with [] => Some s | _ => None end | None => scan true ops end
    else scan (marks_import o) ops
  end.
Lemma identify_ops ops : forall found name rest k fuel,
  Forall valid ops -> Forall (fun o => o <> STOP) ops -> scan found ops = Some name ->
  (length (firstn k (flat_map bytes_of ops ++ rest)) < fuel)%nat ->
  identify_loop fuel found (firstn k (flat_map bytes_of ops ++ rest)) =
  if (length (flat_map bytes_of ops) <=? k)%nat then IName name else IUnpicklingError.
Proof.
  induction ops as [|o ops IH]; intros found name rest k fuel Hv Hs Hsc Hf; [discriminate|].
  inversion Hv; subst. inversion Hs; subst. cbn [flat_map] in *. rewrite app_length. rewrite <- app_assoc in *.
  destruct fuel as [|fuel]; [lia|]. cbn [identify_loop].
  destruct (Nat.leb_spec (length (bytes_of o)) k) as [Hle|Hlt].
  - rewrite firstn_app in *. rewrite (firstn_all2 (bytes_of o)) in * by lia.
    rewrite genop_bytes by auto. rewrite app_length in Hf. pose proof (bytes_of_nonempty o) as Hne.
    assert (Hf' : (length (firstn (k - length (bytes_of o)) (flat_map bytes_of ops ++ rest)) < fuel)%nat) by lia.
    assert (Leb : (length (bytes_of o) + length (flat_map bytes_of ops) <=? k)%nat = (length (flat_map bytes_of ops) <=? k - length (bytes_of o))%nat).
    { destruct (Nat.leb_spec (length (bytes_of o) + length (flat_map bytes_of ops)) k), (Nat.leb_spec (length (flat_map bytes_of ops)) (k - length (bytes_of o))); auto; lia. }
    rewrite Leb. cbn [scan] in Hsc. destruct found.
    + cbn [negb]. destruct o; cbn [is_text] in Hsc; try congruence;
        try (apply IH; auto; fail);
        (destruct ops; [|discriminate]; injection Hsc as ->; reflexivity).
    + cbn [negb]. destruct o; try congruence; apply IH; auto.
  - rewrite (proj2 (Nat.leb_gt _ _)) by lia.
    rewrite firstn_app. replace (k - length (bytes_of o))%nat with 0%nat by lia. rewrite firstn_O, app_nil_r.
    rewrite genop_short; auto.
Qed.

Lemma text_of_point s : Forall point (text_of s).
Proof.
  unfold text_of. apply Forall_forall. intros x Hx. apply in_map_iff in Hx as [a [<- _]]. unfold point.
  pose proof (N_ascii_bounded a). lia.
Qed.
Lemma header_valid proto flen name : (proto <= 5)%nat -> flen < 256 ^ 8 -> Forall point name ->
  N.of_nat (length (utf8 name)) < 256 ^ 4 -> Forall valid (header proto flen name).
Proof.
  intros Hp Hf Hn Hl.
  assert (G : valid (GLOBAL (text_of "dill._dill") (text_of "_import_module"))).
  { split; vm_compute; intuition discriminate. }
  assert (S1 : valid (SHORT_BINUNICODE (text_of "dill._dill"))) by (split; [apply text_of_point|vm_compute; reflexivity]).
  assert (S2 : valid (SHORT_BINUNICODE (text_of "_import_module"))) by (split; [apply text_of_point|vm_compute; reflexivity]).
  destruct proto as [|[|[|[|p]]]]; cbn [header]; repeat (apply Forall_cons; [first [exact G | exact S1 | exact S2 | exact I | cbn [valid]; auto; try lia] |]); auto.
  destruct (N.of_nat (length (utf8 name)) <=? 255) eqn:E; Nb; cbn [valid]; split; auto; lia.
Qed.
Lemma header_scan proto flen name : scan false (header proto flen name) = Some name.
Proof.
  destruct proto as [|[|[|[|p]]]]; try reflexivity.
  cbn [header]. destruct (N.of_nat (length (utf8 name)) <=? 255); reflexivity.
Qed.
Lemma header_no_stop proto flen name : Forall (fun o => o <> STOP) (header proto flen name).
Proof.
  destruct proto as [|[|[|[|p]]]]; cbn [header]; repeat (apply Forall_cons; [discriminate|]); auto.
  apply Forall_cons; auto. destruct (N.of_nat (length (utf8 name)) <=? 255); discriminate.
Qed.
