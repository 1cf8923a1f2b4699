(** C64: ranges come back as they were. *)
From Coq Require Import NArith ZArith List Bool Arith Lia.
From Coq Require DecimalPos DecimalN.
From Verif Require Import BytesModel BytesProofs RangeModel.
Import ListNotations.
Local Open Scope N_scope.

(** a number fits the limit of a process: |z| < 10^limit; 0 is no limit *)
Definition fits (limit : nat) (z : Z) : Prop := limit = 0%nat \/ (Z.abs z < 10 ^ Z.of_nat limit)%Z.

(** ** a number has at most k digits if it is less than 10^k *)
Definition val (d : Decimal.uint) : N := DecimalPos.Unsigned.of_lu (Decimal.rev d).
Definition len (d : Decimal.uint) : N := DecimalPos.Unsigned.usize d.
Lemma val_revapp d d' : DecimalPos.Unsigned.of_lu (Decimal.revapp d d') = val d + DecimalPos.Unsigned.of_lu d' * 10 ^ len d.
Proof. apply DecimalPos.Unsigned.of_lu_revapp. Qed.
Lemma val_bound d : val d < 10 ^ len d.
Proof.
  induction d as [|d IH|d IH|d IH|d IH|d IH|d IH|d IH|d IH|d IH|d IH]; [reflexivity|..];
    unfold val, Decimal.rev; cbn [Decimal.revapp]; rewrite val_revapp; cbn [DecimalPos.Unsigned.of_lu];
    change (len _) with (N.succ (len d)) at 2; rewrite N.pow_succ_r'; lia.
Qed.
Lemma length_digits d : N.of_nat (List.length (digits d)) = len d.
Proof. induction d; cbn [digits List.length len DecimalPos.Unsigned.usize]; [reflexivity|..]; rewrite Nat2N.inj_succ, IHd; reflexivity. Qed.
Lemma nzhead_not_D0 d u : Decimal.nzhead d <> Decimal.D0 u.
Proof. induction d; cbn; try discriminate. exact IHd. Qed.
Lemma val_lower d : Decimal.unorm d = d -> val d <> 0 -> 10 ^ (len d - 1) <= val d.
Proof.
  intros U V. destruct d as [|d|d|d|d|d|d|d|d|d|d]; [destruct V; reflexivity| |..].
  - exfalso. unfold Decimal.unorm in U. cbn [Decimal.nzhead] in U. pose proof (nzhead_not_D0 d) as Z.
    destruct (Decimal.nzhead d) eqn:E; try discriminate U.
    + injection U as <-. destruct V. reflexivity.
    + eapply Z; reflexivity.
  - unfold val, Decimal.rev; cbn [Decimal.revapp]; rewrite val_revapp; cbn [DecimalPos.Unsigned.of_lu].
    change (len (Decimal.D1 d)) with (N.succ (len d)); replace (N.succ (len d) - 1) with (len d) by lia; lia.
  - unfold val, Decimal.rev; cbn [Decimal.revapp]; rewrite val_revapp; cbn [DecimalPos.Unsigned.of_lu].
    change (len (Decimal.D2 d)) with (N.succ (len d)); replace (N.succ (len d) - 1) with (len d) by lia; lia.
  - unfold val, Decimal.rev; cbn [Decimal.revapp]; rewrite val_revapp; cbn [DecimalPos.Unsigned.of_lu].
    change (len (Decimal.D3 d)) with (N.succ (len d)); replace (N.succ (len d) - 1) with (len d) by lia; lia.
  - unfold val, Decimal.rev; cbn [Decimal.revapp]; rewrite val_revapp; cbn [DecimalPos.Unsigned.of_lu].
    change (len (Decimal.D4 d)) with (N.succ (len d)); replace (N.succ (len d) - 1) with (len d) by lia; lia.
  - unfold val, Decimal.rev; cbn [Decimal.revapp]; rewrite val_revapp; cbn [DecimalPos.Unsigned.of_lu].
    change (len (Decimal.D5 d)) with (N.succ (len d)); replace (N.succ (len d) - 1) with (len d) by lia; lia.
  - unfold val, Decimal.rev; cbn [Decimal.revapp]; rewrite val_revapp; cbn [DecimalPos.Unsigned.of_lu].
    change (len (Decimal.D6 d)) with (N.succ (len d)); replace (N.succ (len d) - 1) with (len d) by lia; lia.
  - unfold val, Decimal.rev; cbn [Decimal.revapp]; rewrite val_revapp; cbn [DecimalPos.Unsigned.of_lu].
    change (len (Decimal.D7 d)) with (N.succ (len d)); replace (N.succ (len d) - 1) with (len d) by lia; lia.
  - unfold val, Decimal.rev; cbn [Decimal.revapp]; rewrite val_revapp; cbn [DecimalPos.Unsigned.of_lu].
    change (len (Decimal.D8 d)) with (N.succ (len d)); replace (N.succ (len d) - 1) with (len d) by lia; lia.
  - unfold val, Decimal.rev; cbn [Decimal.revapp]; rewrite val_revapp; cbn [DecimalPos.Unsigned.of_lu].
    change (len (Decimal.D9 d)) with (N.succ (len d)); replace (N.succ (len d) - 1) with (len d) by lia; lia.
Qed.
Lemma ndigits_pow limit z : limit <> 0%nat -> ((ndigits z <= limit)%nat <-> (Z.abs z < 10 ^ Z.of_nat limit)%Z).
Proof.
  intros L. unfold ndigits, dec. set (n := Z.abs_N z). set (d := N.to_uint n).
  assert (V : val d = n). { unfold val, d. rewrite <- DecimalPos.Unsigned.of_uint_alt. apply (DecimalN.Unsigned.of_to n). }
  assert (U : Decimal.unorm d = d). { rewrite <- (DecimalN.Unsigned.to_of d). unfold d at 1. rewrite DecimalN.Unsigned.of_to. reflexivity. }
  pose proof (length_digits d) as LD. pose proof (val_bound d) as B. pose proof (val_lower d U) as Lo. rewrite V in *.
  assert (Z.abs z = Z.of_N n)%Z as -> by (unfold n; rewrite N2Z.inj_abs_N; reflexivity).
  replace (10 ^ Z.of_nat limit)%Z with (Z.of_N (10 ^ N.of_nat limit)) by (rewrite N2Z.inj_pow, nat_N_Z; reflexivity).
  rewrite <- N2Z.inj_lt. split.
  - intros H. apply N.lt_le_trans with (10 ^ len d); [exact B|]. apply N.pow_le_mono_r; lia.
  - intros H. destruct (N.eq_dec n 0) as [Z|Z].
    + unfold d. rewrite Z. cbn. lia.
    + specialize (Lo Z). assert (10 ^ (len d - 1) < 10 ^ N.of_nat limit) as Q by lia. apply N.pow_lt_mono_r_iff in Q; lia.
Qed.

Lemma too_long_fits limit z : too_long limit z = false <-> fits limit z.
Proof.
  unfold too_long, fits. destruct (Nat.eqb_spec limit 0) as [->|N]; cbn [negb andb].
  - split; auto.
  - rewrite Nat.ltb_ge, (ndigits_pow limit z N). split; auto. intros [H|H]; [contradiction|exact H].
Qed.

Definition num_char (c : N) : Prop := c = 45 \/ 48 <= c /\ c <= 57.
Lemma args_num : forall n cur s, Forall num_char n -> args cur (n ++ s)%list = args (rev n ++ cur)%list s.
Proof.
  induction n as [|c n IH]; intros cur s F; [reflexivity|]. inversion F as [|x l C D]; subst. cbn [app args rev].
  destruct (N.eqb_spec c 41) as [->|_]; [exfalso; destruct C; lia|]. destruct (N.eqb_spec c 44) as [->|_]; [exfalso; destruct C; lia|].
  destruct (N.eqb_spec c 32) as [->|_]; [exfalso; destruct C; lia|]. rewrite (IH _ _ D). rewrite <- app_assoc. reflexivity.
Qed.
Lemma args_comma cur s : args cur (44 :: 32 :: s) = option_map (cons (rev cur)) (args [] s).
Proof. reflexivity. Qed.
Lemma args_last n : Forall num_char n -> args [] (n ++ [41])%list = Some [n].
Proof. intros F. rewrite (args_num n [] [41] F). cbn. rewrite app_nil_r, rev_involutive. reflexivity. Qed.
Lemma args_next n s : Forall num_char n -> args [] (n ++ comma ++ s)%list = option_map (cons n) (args [] s).
Proof. intros F. rewrite (args_num n [] _ F). cbn [comma app]. rewrite args_comma, app_nil_r, rev_involutive. reflexivity. Qed.
Lemma drop_open s : drop open_ (open_ ++ s)%list = Some s.
Proof. reflexivity. Qed.
Lemma literal_dec limit z : int_literal limit (decz z) = if too_long limit z then None else Some z.
Proof. unfold int_literal. rewrite undecz_decz. reflexivity. Qed.

(** a range comes back exactly as it was, if its numbers fit the limits of both processes *)
Theorem C64_range : forall l1 l2 r, step r <> 0%Z ->
  fits l1 (start r) -> fits l1 (stop r) -> fits l1 (step r) -> fits l2 (start r) -> fits l2 (stop r) -> fits l2 (step r) ->
  reload l1 l2 r = Some r.
Proof.
  intros l1 l2 [a b c] N A1 B1 C1 A2 B2 C2. cbn [start stop step] in *. apply too_long_fits in A1, B1, C1, A2, B2, C2.
  unfold reload, range_repr, str_of. cbn [start stop step]. rewrite A1, B1, C1.
  destruct (Z.eqb_spec c 1) as [->|N1]; unfold eval_range; rewrite drop_open.
  - rewrite args_next by apply decz_range. rewrite args_last by apply decz_range. cbn [option_map map all_some]. rewrite !literal_dec, A2, B2. reflexivity.
  - rewrite args_next by apply decz_range. rewrite args_next by apply decz_range. rewrite args_last by apply decz_range.
    cbn [option_map map all_some]. rewrite !literal_dec, A2, B2, C2. cbn [all_some option_map]. destruct (Z.eqb_spec c 0); [contradiction|reflexivity].
Qed.
(** REFUTED: a range with a number of more digits than the limit (4300, by default) does not pickle, or does not load *)
Theorem C64_long_refuted : forall l1 r, ~ (fits l1 (start r) /\ fits l1 (stop r) /\ fits l1 (step r)) -> step r <> 1%Z -> range_repr l1 r = None.
Proof.
  intros l1 [a b c] H N. unfold range_repr, str_of. cbn [start stop step] in *. rewrite <- !too_long_fits in H.
  destruct (too_long l1 a); [reflexivity|]. destruct (too_long l1 b); [reflexivity|]. destruct (Z.eqb_spec c 1); [contradiction|].
  destruct (too_long l1 c); [reflexivity|]. destruct H. auto.
Qed.
Theorem C64_long_load_refuted : forall l1 l2 r, fits l1 (start r) -> fits l1 (stop r) -> fits l1 (step r) ->
  ~ (fits l2 (start r) /\ fits l2 (stop r)) -> reload l1 l2 r = None.
Proof.
  intros l1 l2 [a b c] A1 B1 C1 H. cbn [start stop step] in *. apply too_long_fits in A1, B1, C1. rewrite <- !too_long_fits in H.
  unfold reload, range_repr, str_of. cbn [start stop step]. rewrite A1, B1, C1.
  destruct (Z.eqb_spec c 1) as [->|N1]; unfold eval_range; rewrite drop_open.
  - rewrite args_next by apply decz_range. rewrite args_last by apply decz_range. cbn [option_map map all_some]. rewrite !literal_dec.
    destruct (too_long l2 a); [reflexivity|]. destruct (too_long l2 b); [reflexivity|]. destruct H. auto.
  - rewrite args_next by apply decz_range. rewrite args_next by apply decz_range. rewrite args_last by apply decz_range.
    cbn [option_map map all_some]. rewrite !literal_dec. destruct (too_long l2 a); [reflexivity|]. destruct (too_long l2 b); [reflexivity|]. destruct H. auto.
Qed.

Example ex_range : reload 4300 4300 (Range (-3) 20 5) = Some (Range (-3) 20 5). Proof. reflexivity. Qed.
Example ex_text : range_repr 4300 (Range (-3) 20 1) = Some [114; 97; 110; 103; 101; 40; 45; 51; 44; 32; 50; 48; 41]. Proof. reflexivity. Qed.
Example ex_long : range_repr 3 (Range 0 1000 1) = None /\ reload 0 3 (Range 0 1000 1) = None. Proof. split; reflexivity. Qed.
