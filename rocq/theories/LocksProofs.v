From Coq Require Import String List Bool Ascii Arith NArith Lia.
From Coq Require Import Decimal DecimalString DecimalN DecimalPos DecimalFacts.
From Verif Require Import PyDict LocksModel.
Import ListNotations.
Local Open Scope string_scope.

Lemma lock_copy l : copy_lock l = Ok l.
Proof. destruct l as [[]]; reflexivity. Qed.

(** digits *)
Definition is_digit (c : ascii) : bool :=
  let n := nat_of_ascii c in Nat.leb 48 n && Nat.leb n 57.
Fixpoint all_digits (s : string) : bool :=
  match s with EmptyString => true | String c s' => is_digit c && all_digits s' end.

Lemma all_digits_uint d : all_digits (NilEmpty.string_of_uint d) = true.
Proof. induction d; simpl; auto. Qed.
Lemma dec_form n : exists c s, dec n = String c s /\ all_digits (dec n) = true.
Proof.
  unfold dec, NilZero.string_of_uint. destruct (N.to_uint n) eqn:E; simpl; eauto;
  do 2 eexists; split; try reflexivity; simpl; rewrite ?all_digits_uint; auto.
Qed.
Lemma undec_dec n : undec (dec n) = Some n.
Proof.
  unfold undec, dec. rewrite NilZero.usu.
  - now rewrite DecimalN.Unsigned.of_to.
  - destruct n as [|q]; [discriminate | apply DecimalPos.Unsigned.to_uint_nonnil].
Qed.

Lemma digit_facts c : is_digit c = true ->
  Ascii.eqb "c" c = false /\ Ascii.eqb "o" c = false /\ is_space c = false /\ Ascii.eqb c ">" = false.
Proof.
  destruct c as [[] [] [] [] [] [] [] []]; vm_compute; intros; try discriminate; auto.
Qed.

Lemma before_digits sep0 sep d r : all_digits d = true ->
  (forall c, is_digit c = true -> Ascii.eqb sep0 c = false) ->
  before (String sep0 sep) (d ++ r) = d ++ before (String sep0 sep) r.
Proof.
  intros Hd Hs. induction d as [|c d IH]; [reflexivity|].
  cbn [all_digits] in Hd. apply andb_true_iff in Hd as [Hc Hd].
  change (String c d ++ r) with (String c (d ++ r)).
  cbn [before prefix_of]. rewrite (Hs c Hc). rewrite IH by auto. reflexivity.
Qed.
Lemma lstrip_digits c d r : is_digit c = true -> lstrip (String c (d ++ r)) = String c (d ++ r).
Proof. intros Hc. cbn [lstrip]. destruct (digit_facts c Hc) as (_ & _ & -> & _). reflexivity. Qed.
Lemma word_digits d r : all_digits d = true -> word (d ++ String " " r) = d.
Proof.
  induction d as [|c d IH]; intros Hd; [reflexivity|].
  cbn [all_digits] in Hd. apply andb_true_iff in Hd as [Hc Hd].
  change (String c d ++ String " " r) with (String c (d ++ String " " r)). cbn [word].
  destruct (digit_facts c Hc) as (_ & _ & -> & _). now rewrite IH.
Qed.
Lemma rstrip_digits d : all_digits d = true -> rstrip_gt d = d.
Proof.
  induction d as [|c d IH]; intros Hd; [reflexivity|].
  cbn [all_digits] in Hd. apply andb_true_iff in Hd as [Hc Hd].
  cbn [rstrip_gt]. rewrite IH by auto.
  destruct (digit_facts c Hc) as (_ & _ & _ & E). rewrite E. destruct d; reflexivity.
Qed.
Lemma split_0_dec n r : split_0 (dec n ++ String " " r) = Some (dec n).
Proof.
  destruct (dec_form n) as (c & s & E & Hd). unfold split_0. rewrite E in *.
  cbn [all_digits] in Hd. pose proof Hd as Hd'. apply andb_true_iff in Hd' as [Hc Hs].
  change (String c s ++ String " " r) with (String c (s ++ String " " r)).
  rewrite lstrip_digits by auto.
  change (String c (s ++ String " " r)) with (String c s ++ String " " r).
  rewrite word_digits by (cbn [all_digits]; auto). reflexivity.
Qed.

(** [after] skips a head in which no occurrence starts *)
Lemma after_digits sep0 sep d r : all_digits d = true ->
  (forall c, is_digit c = true -> Ascii.eqb sep0 c = false) ->
  after (String sep0 sep) (d ++ r) = after (String sep0 sep) r.
Proof.
  intros Hd Hs. induction d as [|c d IH]; [reflexivity|].
  cbn [all_digits] in Hd. apply andb_true_iff in Hd as [Hc Hd].
  change (String c d ++ r) with (String c (d ++ r)).
  cbn [after prefix_of]. rewrite (Hs c Hc). apply IH; auto.
Qed.

Definition rlock_type := "_thread.RLock".

Lemma digit_c c : is_digit c = true -> Ascii.eqb "c" c = false.
Proof. intros Hc. apply digit_facts in Hc. tauto. Qed.
Lemma digit_o c : is_digit c = true -> Ascii.eqb "o" c = false.
Proof. intros Hc. apply digit_facts in Hc. tauto. Qed.

Lemma app_assoc_s (a b c : string) : (a ++ b) ++ c = a ++ (b ++ c).
Proof. induction a as [|x a IH]; simpl; congruence. Qed.

Lemma rlock_parse addr l : save_rlock rlock_type addr l = Ok (count l, owner l).
Proof.
  unfold save_rlock, rlock_repr, rlock_type.
  set (rest := " at " ++ addr ++ ">").
  assert (Hc : split_1 "count=" ("<" ++ (if N.eqb (count l) 0 then "unlocked" else "locked") ++ " " ++ "_thread.RLock" ++ " object owner="
  ++ dec (owner l) ++ " count=" ++ dec (count l) ++ rest) =
     Some (dec (count l) ++ before "count=" rest)).
  { unfold split_1. destruct (dec_form (owner l)) as (c1 & s1 & E1 & D1).
    destruct (dec_form (count l)) as (c2 & s2 & E2 & D2).
    assert (Ha : after "count=" (dec (owner l) ++ " count=" ++ dec (count l) ++ rest)
                 = Some (dec (count l) ++ rest)).
    { rewrite after_digits; auto using digit_c. }
    destruct (N.eqb (count l) 0); cbn -[dec rest] ; cbn -[dec rest] in Ha; rewrite Ha;
      rewrite before_digits; auto using digit_c. }
  assert (Ho : split_1 "owner=" ("<" ++ (if N.eqb (count l) 0 then "unlocked" else "locked") ++ " " ++ "_thread.RLock" ++ " object owner="
  ++ dec (owner l) ++ " count=" ++ dec (count l) ++ rest) =
     Some (dec (owner l) ++ before "owner=" (" count=" ++ dec (count l) ++ rest))).
  { unfold split_1. destruct (dec_form (owner l)) as (c1 & s1 & E1 & D1).
    destruct (N.eqb (count l) 0); cbn -[dec rest before]; 
      rewrite before_digits; auto using digit_o. }
  rewrite Hc, Ho.
  assert (E1 : exists r, before "count=" rest = String " " r) by (unfold rest; cbn; eauto).
  destruct E1 as [r1 ->]. rewrite split_0_dec.
  destruct (dec_form (count l)) as (c2 & s2 & E2 & D2). rewrite rstrip_digits, undec_dec by auto.
  change (before "owner=" (" count=" ++ dec (count l) ++ rest))
    with (String " " (before "owner=" ("count=" ++ dec (count l) ++ rest))).
  rewrite split_0_dec, undec_dec. reflexivity.
Qed.

(** reachable states *)
Definition rinv (l : rlock) : Prop :=
  (count l = 0%N -> held l = false /\ owner l = 0%N) /\
  (count l <> 0%N -> held l = true /\ owner l <> 0%N).

Definition op_tid (o : rop) : N := match o with Acquire t => t | Release t => t end.

Lemma rinv_step l o : op_tid o <> 0%N -> rinv l -> rinv (fst (rstep l o)).
Proof.
  intros Ht [H1 H2]. destruct l as [h w c]; cbn in *.
  destruct o as [t|t]; cbn in *; unfold rlock_acquire_nb, rlock_release; cbn.
  - destruct (N.eqb_spec c 0) as [->|Hc]; cbn.
    + destruct H1 as [-> ->]; auto. cbn. split; cbn; intros; auto; lia.
    + destruct H2 as [-> Hw]; auto. destruct (N.eqb_spec w t); cbn; split; cbn; intros; try lia; auto.
  - destruct (N.eqb_spec c 0) as [->|Hc]; cbn.
    + split; auto.
    + destruct H2 as [-> Hw]; auto.
      destruct (N.eqb_spec w t); cbn; [|split; cbn; auto].
      destruct (N.eqb_spec c 1); cbn; split; cbn; intros; try lia; auto.
Qed.

Lemma rinv_reach ops : forall l, Forall (fun o => op_tid o <> 0%N) ops -> rinv l -> rinv (rstate l ops).
Proof.
  induction ops as [|o ops IH]; cbn; auto. intros l Hf Hl. inversion Hf; subst.
  apply IH; auto. now apply rinv_step.
Qed.
Lemma rinv_new : rinv new_rlock.
Proof. split; cbn; auto; lia. Qed.

Lemma rlock_copy_exact addr tid ops :
  Forall (fun o => op_tid o <> 0%N) ops ->
  let l := rstate new_rlock ops in
  copy_rlock rlock_type addr tid l =
  if N.eqb (count l) 0 then Ok {| held := true; owner := 0; count := 0 |}
  else if N.eqb (owner l) tid then Ok l else Err UnpicklingError.
Proof.
  intros Hf l. pose proof (rinv_reach ops new_rlock Hf rinv_new) as [H1 H2]. fold l in H1, H2.
  unfold copy_rlock. rewrite rlock_parse. unfold _create_rlock, rlock_acquire_restore. cbn [new_rlock held].
  destruct l as [h w c]; cbn in *. unfold rlock_is_owned; cbn.
  destruct (N.eqb_spec c 0) as [->|Hc].
  - destruct H1 as [-> ->]; auto.
  - destruct H2 as [-> Hw]; auto. apply N.eqb_neq in Hw. rewrite Hw. cbn.
    destruct (N.eqb w tid); reflexivity.
Qed.

Lemma dead_run l ops : held l = true -> owner l = 0%N -> count l = 0%N ->
  Forall (fun o => op_tid o <> 0%N) ops ->
  Forall (fun b => b = false) (rrun l ops).
Proof.
  intros Hh Ho Hc. destruct l as [h w c]; cbn in *; subst.
  induction ops as [|o ops IH]; cbn; auto. intros Hf. inversion Hf; subst.
  destruct o as [t|t]; cbn; constructor; auto.
Qed.
