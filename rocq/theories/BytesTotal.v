(** The opcodes a dump emits can all be written: the byte pickler fails only on the names of objects. *)
From Coq Require Import String Ascii List Bool Arith NArith ZArith Lia.
From Verif Require Import PyDict CoreModel CoreSpec CoreSim CoreProps BytesModel BytesProofs BytesSim BytesProps BytesExamples.
From Verif Require CoreExamples.
Import ListNotations.

(** the opcodes emitted inside a pickle of the protocol *)
Definition fits (proto : nat) (o : op) : Prop :=
  match o with
  | PROTO _ | STOP => False
  | PUT _ => (4 <=? proto)%nat = false
  | MEMOIZE => (4 <=? proto)%nat = true
  | CONST AEmptyTuple => False
  | TUPLEN n => n = 1 \/ n = 2 \/ n = 3
  | _ => True
  end.
Section Fit.
  Variable proto : nat.
  Variable H : oid -> option obj.
  Definition fitting (A : act) : Prop := forall s ops s', A s = Ok (ops, s') -> Forall (fits proto) ops.
  Lemma ft_seq A B : fitting A -> fitting B -> fitting (A ;; B).
  Proof.
    intros HA HB s ops s' E. unfold seq in E. destruct (A s) as [[l s1]|] eqn:EA; [|discriminate].
    destruct (B s1) as [[l' s2]|] eqn:EB; [|discriminate]. inversion E; subst. apply Forall_app. split; [eapply HA|eapply HB]; eauto.
  Qed.
  Lemma ft_emit l : Forall (fits proto) l -> fitting (emit l).
  Proof. intros Hl s ops s' E. inversion E; subst. auto. Qed.
  Lemma ft_memoize k : fitting (memoize proto k).
  Proof. unfold memoize. intros s ops s' E. destruct (Nat.leb 4 proto) eqn:P; inversion E; subst; repeat constructor; auto. Qed.
  Lemma ft_seqs {A} (f : A -> act) l : (forall x, fitting (f x)) -> fitting (seqs f l).
  Proof. intros Hf. induction l; cbn [seqs]; [apply ft_emit; constructor|apply ft_seq; auto]. Qed.
  Lemma ft_fail e : fitting (fail e).
  Proof. intros s ops s' E. discriminate. Qed.
  Ltac nst := repeat constructor.
  Section Sv.
  Variable sv : val -> act.
  Hypothesis SV : forall v, fitting (sv v).
  Lemma ft_batches {A} (one : A -> act) many : (forall x, fitting (one x)) -> (forall l, fitting (many l)) ->
    forall n l, fitting (batches one many n l).
  Proof.
    intros H1 H2. induction n; intros l; cbn [batches]; [apply ft_emit; nst|]. apply ft_seq.
    - destruct (firstn BATCHSIZE l) as [|x [|y r]]; auto. apply ft_emit; nst.
    - destruct (Nat.ltb _ _); [apply ft_emit; nst|auto].
  Qed.
  Lemma ft_kv p : fitting (save_kv sv p).
  Proof. apply ft_seq; auto. Qed.
  Lemma ft_setitems kvs : fitting (batch_setitems proto sv kvs).
  Proof.
    unfold batch_setitems. destruct (bin proto).
    - apply ft_batches; intros.
      + apply ft_seq; [apply ft_kv|apply ft_emit; nst].
      + apply ft_seq; [apply ft_emit; nst|]. apply ft_seq; [apply ft_seqs, ft_kv|apply ft_emit; nst].
    - apply ft_seqs. intros. apply ft_seq; [apply ft_kv|apply ft_emit; nst].
  Qed.
  Lemma ft_dict k kvs : fitting (save_dict proto sv k kvs).
  Proof. repeat apply ft_seq; [apply ft_emit; destruct (bin proto); nst|apply ft_memoize|apply ft_setitems]. Qed.
  Lemma ft_appends vs : fitting (batch_appends proto sv vs).
  Proof.
    unfold batch_appends. destruct (bin proto).
    - apply ft_batches; intros; repeat apply ft_seq; auto; try (apply ft_emit; nst). apply ft_seqs; auto.
    - apply ft_seqs. intros; apply ft_seq; auto; apply ft_emit; nst.
  Qed.
  Lemma ft_list k vs : fitting (save_list proto sv k vs).
  Proof. repeat apply ft_seq; [apply ft_emit; destruct (bin proto); nst|apply ft_memoize|apply ft_appends]. Qed.
  Lemma ft_arg x : fitting (save_arg proto sv x).
  Proof. destruct x; cbn; [apply SV|apply ft_dict|apply ft_list]. Qed.
  Lemma ft_repeat n i : Forall (fits proto) (repeat POP n ++ [GET i]).
  Proof. apply Forall_app. split; [|repeat constructor]. apply Forall_forall. intros x Hi. apply repeat_spec in Hi. subst x. exact I. Qed.
  Lemma ft_tuple k xs : fitting (save_tuple proto sv k xs).
  Proof.
    unfold save_tuple. destruct xs as [|x xs]; [apply ft_emit; destruct (bin proto); nst|].
    destruct (Nat.leb (length (x :: xs)) 3 && Nat.leb 2 proto) eqn:E3.
    - apply ft_seq; [apply ft_seqs, ft_arg|]. intros s ops s' E. destruct (memo_get k s).
      + inversion E; subst. apply (ft_repeat (Datatypes.S (length xs))).
      + revert E. apply ft_seq; [apply ft_emit; constructor; [|constructor]|apply ft_memoize].
        apply andb_true_iff in E3 as [E3 _]. apply Nat.leb_le in E3. cbn [length fits] in *. lia.
    - apply ft_seq; [apply ft_emit; nst|]. apply ft_seq; [apply ft_seqs, ft_arg|]. intros s ops s' E. destruct (memo_get k s).
      + destruct (bin proto); inversion E; subst; [nst|apply (ft_repeat (Datatypes.S (length (x :: xs))))].
      + revert E. apply ft_seq; [apply ft_emit; nst|apply ft_memoize].
  Qed.
  Lemma ft_state st : fitting (save_state proto sv st).
  Proof. destruct st as [|v|d [sl|]]; cbn [save_state]; [apply ft_emit; nst| | |]; (apply ft_seq; [|apply ft_emit; nst]); [apply SV|apply ft_tuple|apply ft_dict]. Qed.
  Lemma ft_call nb c args : fitting (red_call proto sv nb c args).
  Proof. unfold red_call. destruct nb; [destruct (Nat.leb 2 proto)|]; (apply ft_seq; [apply SV|]; apply ft_seq; [apply ft_tuple|apply ft_emit; nst]). Qed.
  Lemma ft_memo k : fitting (red_memo proto k).
  Proof.
    unfold red_memo. destruct k; [|apply ft_emit; nst]. intros s ops s' E. destruct (memo_get k s).
    - inversion E; subst. nst.
    - eapply ft_memoize; eauto.
  Qed.
  Lemma ft_reduce nb c args st k : fitting (save_reduce proto sv nb c args st k).
  Proof. unfold save_reduce. apply ft_seq; [apply ft_call|apply ft_seq; [apply ft_memo|apply ft_state]]. Qed.
  Lemma ft_set k fz vs : fitting (save_set proto sv k fz vs).
  Proof.
    assert (AB : forall l, fitting (add_batch sv l)) by (intros l; repeat apply ft_seq; try (apply ft_emit; nst); apply ft_seqs; auto).
    unfold save_set. destruct (Nat.leb 4 proto); [destruct fz|apply ft_reduce].
    - apply ft_seq; [apply ft_emit; nst|]. apply ft_seq; [apply ft_seqs; auto|]. intros s ops s' E. destruct (memo_get k s).
      + inversion E; subst. nst.
      + revert E. apply ft_seq; [apply ft_emit; nst|apply ft_memoize].
    - apply ft_seq; [apply ft_emit; nst|]. apply ft_seq; [apply ft_memoize|]. apply ft_batches; auto.
  Qed.
  Lemma ft_instance nb c args li di st k : fitting (save_instance proto sv nb c args li di st k).
  Proof. unfold save_instance. repeat apply ft_seq; [apply ft_call|apply ft_memo|apply ft_appends|apply ft_setitems|apply ft_state]. Qed.
  Lemma ft_pp p : fitting (exec_pp proto H sv p).
  Proof.
    destruct p; cbn [exec_pp].
    - destruct (H c) as [[| | | | | |[|]|]|]; try apply ft_fail. apply ft_seq; [apply ft_reduce|apply ft_emit; nst].
    - destruct (glob_items H f) as [[|kv kvs]|]; [apply ft_emit; nst| |apply ft_fail].
      intros s ops s' E. destruct (memo_get (KGlob f) s); [|discriminate]. revert E.
      apply ft_seq; [apply ft_emit; nst|]. apply ft_seq; [apply ft_setitems|apply ft_emit; nst].
    - destruct (H t) as [[]|]; try apply ft_fail. apply ft_seq; [apply ft_reduce|apply ft_emit; nst].
  Qed.
  Lemma ft_postproc o own red : fitting red -> fitting (save_with_postproc proto H sv o own red).
  Proof.
    intros HR s ops s' E. unfold save_with_postproc in E. destruct (memb _ _); [discriminate|]. revert E.
    apply ft_seq; [intros ? ? ? E; inversion E; nst|]. apply ft_seq; auto.
    intros s1 ops1 s1' E. unfold pop_run in E. destruct (get o (post s1)); [|discriminate]. revert E. apply ft_seqs. apply ft_pp.
  Qed.
  Lemma ft_addpp x p : fitting (add_pp x p).
  Proof. intros s ops s' E. inversion E; subst. nst. Qed.
  Lemma ft_val v : fitting (save_val proto H sv v).
  Proof.
    intros s ops s' E. unfold save_val in E. destruct v as [a i|o].
    - unfold save_atom in E. assert (En : fitting (empty_tuple proto)) by (apply ft_emit; destruct (bin proto); nst).
      assert (G : forall a', a' <> AEmptyTuple -> (if memoized a' then match memo_get (KAtom a' i) s with
                 | Some n => Ok ([GET n], s) | None => (emit [CONST a'] ;; memoize proto (KAtom a' i)) s end else Ok ([CONST a'], s)) = Ok (ops, s') -> Forall (fits proto) ops).
      { intros a' Na E'. assert (Fa : fits proto (CONST a')) by (destruct a'; (congruence || exact I)). destruct (memoized a'); [destruct (memo_get (KAtom a' i) s)|]; [inversion E'; nst| |inversion E'; constructor; auto].
        revert E'. apply ft_seq; [apply ft_emit; constructor; auto|apply ft_memoize]. }
      destruct a; try (match type of E with (if memoized ?a then _ else _) = _ => apply (G a); [discriminate|exact E] end). exact (En _ _ _ E).
    - destruct (memo_get (KObj o) s); [inversion E; nst|]. destruct (H o) as [b|]; [|discriminate]. revert E.
      destruct b; cbn [save_obj].
      + apply ft_tuple.
      + apply ft_list.
      + apply ft_dict.
      + apply ft_instance.
      + unfold save_function. destruct gl; [apply ft_postproc, ft_reduce|]. destruct (H g) as [[]|]; try apply ft_fail.
        cbv zeta. destruct (first_in _ _); (apply ft_seq; [|apply ft_postproc, ft_reduce]); [apply ft_addpp|apply ft_emit; nst].
      + apply ft_postproc, ft_reduce.
      + unfold save_cell. destruct contents as [v|].
        * cbv zeta. match goal with |- context [match ?d with Some _ => _ | None => _ end] => destruct d end; [apply ft_seq; [apply ft_reduce|apply ft_addpp]|apply ft_reduce].
        * apply ft_seq; [apply ft_reduce|]. apply ft_seq; [apply ft_reduce|apply ft_emit; nst].
      + apply ft_set.
  Qed.
  End Sv.
  Lemma ft_save fuel v : fitting (save proto H fuel v).
  Proof. revert v. induction fuel as [|n IH]; intros v; [apply ft_fail|]. apply ft_val; auto. Qed.
End Fit.


(** the names of the objects stored by reference can be written: before protocol 3 only in ASCII (save_global, pickle.py:1103-1120); floats have
    their own opcode from protocol 1 on, bytes from protocol 3 on *)
Definition named_ascii (proto : nat) (naming : atom -> string * string) (o : op) : Prop :=
  match o with
  | CONST (AFloat _) => (1 <= proto)%nat
  | CONST (ABytes _) => (3 <= proto)%nat
  | CONST (AGlob _ as a) | CONST (ACellEmpty as a) => (3 <= proto)%nat \/ (ascii_only (fst (naming a)) = true /\ ascii_only (snd (naming a)) = true)
  | _ => True
  end.
Lemma w_op_total proto naming reuse o m m1 m' st : sim proto m m' st -> step o m = Some m1 -> fits proto o -> named_ascii proto naming o ->
  exists x, w_op proto naming reuse o st = Some x.
Proof.
  intros (me' & _ & R & _) E F N. destruct o; try contradiction; cbn [w_op] in *; try (eexists; reflexivity).
  - assert (G : forall b, (3 <= proto)%nat \/ (ascii_only (fst (naming b)) = true /\ ascii_only (snd (naming b)) = true) -> exists x, (if (4 <=? proto)%nat then
          let (mm, n) := naming b in
          let (l1, st) := w_name proto reuse mm st in
          let (l2, st) := w_name proto reuse n st in
          Some ((l1 ++ l2 ++ [STACK_GLOBAL])%list, W (where_ st) (strs st) None (names st))
        else match w_global proto naming b with Some r => Some ([r], W (where_ st) (strs st) None (names st)) | None => None end) = Some x).
    { intros b Hb. destruct (4 <=? proto)%nat.
      - destruct (naming b). destruct (w_name proto reuse s st). destruct (w_name proto reuse s0 w). eexists; reflexivity.
      - unfold w_global. destruct (naming b) as [mm n]. cbn [fst snd] in Hb. replace ((3 <=? proto)%nat || (ascii_only mm && ascii_only n)) with true; [eexists; reflexivity|].
        symmetry. destruct Hb as [Hb|[-> ->]]; [rewrite (proj2 (Nat.leb_le _ _) Hb); reflexivity|apply orb_true_r]. }
    destruct a; try contradiction; try (eexists; reflexivity); try (apply G; exact N); cbn [named_ascii] in N; apply Nat.leb_le in N; unfold w_float, w_bytes; rewrite N; eexists; reflexivity.
  - cbn [step] in E. destruct (get i (mem m)) as [v|] eqn:Ei; [|discriminate]. unfold mem_rel in R. destruct (4 <=? proto)%nat; [|eexists; reflexivity].
    destruct R as (R1 & _). destruct (R1 i v Ei) as (j & -> & _). eexists; reflexivity.
  - cbn [fits] in F. rewrite F. eexists; reflexivity.
  - cbn [fits] in F. rewrite F. eexists; reflexivity.
Qed.
Lemma w_ops_total proto naming reuse find ops : forall m m1 m' st, Forall (found naming find) ops -> sim proto m m' st -> run ops m = Some m1 ->
  Forall (fits proto) ops -> Forall (named_ascii proto naming) ops -> exists x, w_ops proto naming reuse ops st = Some x.
Proof.
  induction ops as [|o ops IH]; intros m m1 m' st Fo S0 R F N; cbn [w_ops run] in *; [eexists; reflexivity|].
  inversion Fo; inversion F; inversion N; subst. destruct (step o m) as [m2|] eqn:E1; [|discriminate].
  destruct (w_op_total proto naming reuse o m m2 m' st) as ([r s2] & E2); auto. rewrite E2.
  destruct (w_op_ok proto naming reuse find o m m2 m' st r s2) as (m2' & _ & S2); auto.
  destruct (IH m2 m1 m2' s2) as ([r' s3] & E3); auto. rewrite E3. eexists; reflexivity.
Qed.
(** every dump that succeeds is written *)
Theorem C01_written : forall proto naming find reuse H fuel v ops,
  heap_wf H -> proto <= 5 -> importable proto naming find H fuel v -> dumps proto H fuel v = Ok ops ->
  (forall a, In (CONST a) ops -> named_ascii proto naming (CONST a)) ->
  exists rops, written proto naming reuse ops = Some rops.
Proof.
  intros proto naming find reuse H fuel v ops HW Hp Fi E Na. destruct (C01_roundtrip proto H fuel v ops HW Hp E) as (v' & m & L & _).
  assert (Fo : Forall (found naming find) ops).
  { apply Forall_forall. intros o Ho. destruct o; try exact I. specialize (Fi ops a E Ho). destruct a; exact Fi. }
  assert (Nm : Forall (named_ascii proto naming) ops) by (apply Forall_forall; intros o Ho; destruct o; try exact I; apply Na; exact Ho).
  destruct (dumps_shape _ _ _ _ _ E) as (l & s' & Eo & Es & Hn). pose proof (ft_save proto H fuel v _ _ _ Es) as Fl.
  assert (R : exists m1, run l vm0 = Some m1).
  { subst ops. unfold loads in L. fold vm0 in L. assert (L2 : load (l ++ [STOP]) vm0 = Some (v', m, [])).
    { destruct (Nat.leb 2 proto); [|exact L]. cbn [app load step] in L. destruct (Nat.leb proto 5); [exact L|discriminate]. }
    assert (N2 : ~ In STOP l) by (intros X; apply Hn; apply in_or_app; right; exact X). clear - L2 N2. revert L2 N2. generalize vm0. induction l as [|o l0 IH]; intros m0 L Hn.
    - exists m0. reflexivity.
    - assert (o <> STOP) by (intros ->; apply Hn; left; auto). assert (~ In STOP l0) by (intros X; apply Hn; right; auto).
      cbn [app load] in L. cbn [run]. destruct o; try congruence; (destruct (step _ m0) as [m1|]; [|discriminate]); apply IH; auto. }
  destruct R as (m1 & R). subst ops.
  apply Forall_app in Fo as [Fo1 Fo]. apply Forall_app in Fo as [Fo _]. apply Forall_app in Nm as [_ Nm]. apply Forall_app in Nm as [Nm _].
  destruct (w_ops_total proto naming reuse find l vm0 m1 vm0 (W [] [] None 0)) as ([rs st1] & E0); auto.
  { exists []. split; [reflexivity|]. split; [|intros ? X; discriminate X]. unfold mem_rel. destruct (4 <=? proto)%nat; [|reflexivity]. cbn.
    split; [intros i x X; discriminate X|]. split; [intros j x X; destruct j; discriminate X|]. repeat split; auto. }
  unfold written. rewrite !w_ops_app. destruct (Nat.leb 2 proto); cbn [w_ops w_op where_ strs names app]; rewrite w_ops_app, E0; cbn [w_ops w_op]; eexists; reflexivity.
Qed.
