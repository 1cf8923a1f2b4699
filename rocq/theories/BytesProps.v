(** C01, C03, C04, C05 for the bytes that dumps returns and load reads. *)
From Coq Require Import String Ascii List Bool Arith NArith ZArith Lia.
From Verif Require Import PyDict CoreModel CoreSpec CoreSim CoreProps CoreExamples BytesModel BytesProofs BytesSim.
Import ListNotations.

(** [b] is what [dumps] returns: the opcodes are written one after the other, and framed (protocol 4 and later) *)
Definition dumps_bytes (proto : nat) (naming : atom -> string * string) (H : oid -> option obj) (fuel : nat) (v : val) (b : list N) : Prop :=
  exists ops reuse rops, dumps proto H fuel v = Ok ops /\ written proto naming reuse ops = Some rops /\ pickled proto rops b.
(** every object stored by reference in the pickle is found under its name when it is loaded *)
Definition importable (proto : nat) (naming : atom -> string * string) (find : string -> string -> option atom) (H : oid -> option obj) (fuel : nat) (v : val) : Prop :=
  forall ops a, dumps proto H fuel v = Ok ops -> In (CONST a) ops ->
    match a with AGlob _ | AModDict _ | ACellEmpty => find (fst (naming a)) (snd (naming a)) = Some a | _ => True end.

Theorem C01_bytes : forall proto naming find H fuel v b rest,
  heap_wf H -> proto <= 5 -> importable proto naming find H fuel v -> dumps_bytes proto naming H fuel v b ->
  exists v' m, loadb find (b ++ rest) = Some (v', m, rest) /\ iso H v (heap m) v'.
Proof.
  intros proto naming find H fuel v b rest HW Hp Fi (ops & reuse & rops & E & Ew & Pk).
  destruct (C01_roundtrip proto H fuel v ops HW Hp E) as (v' & m & L & I0).
  assert (Fo : Forall (found naming find) ops).
  { apply Forall_forall. intros o Ho. destruct o; try exact I. specialize (Fi ops a E Ho). destruct a; exact Fi. }
  destruct (dumps_shape _ _ _ _ _ E) as (l & s' & Eo & _ & Hn). rewrite app_assoc in Eo. set (l0 := (if Nat.leb 2 proto then [PROTO proto] else []) ++ l) in *. clearbody l0. subst ops.
  unfold written in Ew. rewrite w_ops_app in Ew. destruct (w_ops proto naming reuse l0 (W [] [] None 0)) as [[rs st1]|] eqn:E0; [|discriminate].
  cbn [w_ops w_op] in Ew. injection Ew as <-. apply Forall_app in Fo as [Fo _].
  assert (R : run l0 vm0 = Some m /\ exists s, stk m = v' :: s).
  { unfold loads in L. fold vm0 in L. clear - L Hn. revert L Hn. generalize vm0. induction l0 as [|o l0 IH]; intros m0 L Hn.
    - cbn [app load] in L. destruct (stk m0) as [|x s] eqn:Es; [discriminate|]. injection L as <- <-. split; eauto.
    - assert (o <> STOP) by (intros ->; apply Hn; left; auto). assert (~ In STOP l0) by (intros X; apply Hn; right; auto).
      cbn [app load] in L. cbn [run]. destruct o; try congruence; (destruct (step _ m0) as [m1|]; [|discriminate]); apply IH; auto. }
  destruct R as [R (s & Es)].
  assert (S0 : sim proto vm0 vm0 (W [] [] None 0)).
  { exists []. split; [reflexivity|]. split; [|intros ? X; discriminate X]. unfold mem_rel. destruct (4 <=? proto)%nat; [|reflexivity]. cbn.
    split; [intros i x X; discriminate X|]. split; [intros j x X; destruct j; discriminate X|]. repeat split; auto. }
  destruct (w_ops_ok proto naming reuse find l0 vm0 m vm0 _ rs st1 Fo S0 R E0) as (m1 & R1 & (me' & -> & _ & _)).
  exists v', (set_mem me' m). split; [|exact I0]. unfold loadb. fold vm0.
  eapply (lb_pickled proto find); [exact Pk|reflexivity|eapply w_ops_ordinary; eauto|exact R1|exact Es].
Qed.

(** C04: no strict prefix of the bytes loads, wherever it is cut *)
Theorem C04_bytes : forall proto naming find H fuel v b p q,
  heap_wf H -> proto <= 5 -> importable proto naming find H fuel v -> dumps_bytes proto naming H fuel v b ->
  b = p ++ q -> q <> [] -> loadb find p = None.
Proof.
  intros proto naming find H fuel v b p q HW Hp Fi D E Hq. destruct (C01_bytes proto naming find H fuel v b [] HW Hp Fi D) as (v' & m & L & _).
  rewrite app_nil_r in L. destruct (loadb find p) as [[[v1 m1] r]|] eqn:Ep; auto. apply (loadb_more find p q) in Ep. rewrite <- E, L in Ep.
  injection Ep as _ _ X. destruct r; [|discriminate]. destruct q; [congruence|discriminate].
Qed.

(** C05: pickles written one after the other are loaded one after the other *)
Inductive dumped_bytes (naming : atom -> string * string) (find : string -> string -> option atom) : list (nat * (oid -> option obj) * val) -> list N -> Prop :=
  | db_nil : dumped_bytes naming find [] []
  | db_cons proto H v fuel b xs l : heap_wf H -> proto <= 5 -> importable proto naming find H fuel v -> dumps_bytes proto naming H fuel v b -> dumped_bytes naming find xs l ->
      dumped_bytes naming find ((proto, H, v) :: xs) (b ++ l).
Fixpoint loadb_n (find : string -> string -> option atom) (n : nat) (stream : list N) : option (list (val * vm) * list N) :=
  match n with
  | 0 => Some ([], stream)
  | S n => match loadb find stream with
           | Some (v, m, rest) => match loadb_n find n rest with Some (r, rest') => Some ((v, m) :: r, rest') | None => None end
           | None => None end
  end.
Theorem C05_bytes : forall naming find xs stream rest, dumped_bytes naming find xs stream ->
  exists rs, loadb_n find (length xs) (stream ++ rest) = Some (rs, rest) /\
    Forall2 (fun x r => match x with (_, H, v) => iso H v (heap (snd r)) (fst r) end) xs rs.
Proof.
  intros naming find xs stream rest D. induction D as [|proto H v fuel b xs l HW Hp Fi E D (rs & IH & F)].
  - exists []. split; auto.
  - destruct (C01_bytes proto naming find H fuel v b (l ++ rest) HW Hp Fi E) as (v' & m & L & I0).
    exists ((v', m) :: rs). split; [|constructor; auto]. cbn [length loadb_n]. rewrite <- app_assoc, L, IH. reflexivity.
Qed.

(** C03: whatever the protocols, the two pickles load as the same graph *)
Theorem C03_bytes : forall p q naming find H v fuel fuel' b b',
  heap_wf H -> p <= 5 -> q <= 5 -> importable p naming find H fuel v -> importable q naming find H fuel' v ->
  dumps_bytes p naming H fuel v b -> dumps_bytes q naming H fuel' v b' ->
  exists v1 m1 v2 m2, loadb find b = Some (v1, m1, []) /\ loadb find b' = Some (v2, m2, []) /\ same_graph (heap m1) v1 (heap m2) v2.
Proof.
  intros p q naming find H v fuel fuel' b b' HW Hp Hq F1 F2 D1 D2.
  destruct (C01_bytes p naming find H fuel v b [] HW Hp F1 D1) as (v1 & m1 & L1 & I1). destruct (C01_bytes q naming find H fuel' v b' [] HW Hq F2 D2) as (v2 & m2 & L2 & I2).
  rewrite app_nil_r in L1, L2. exists v1, m1, v2, m2. split; auto. split; auto. eapply C03_iso_compose; eauto.
Qed.
