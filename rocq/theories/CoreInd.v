(** Predicates on the pickler's actions that are kept by sequencing: what they say of the parts of a
    save they say of the whole. *)
From Coq Require Import String List Bool Arith ZArith Lia.
From Verif Require Import PyDict CoreModel CoreSpec CoreReach.
Import ListNotations.
Local Open Scope list_scope.

Section Ind.
  Variable proto : nat.
  Variable T : act -> Prop.
  Hypothesis T_emit : forall l, T (emit l).
  Hypothesis T_seq : forall A B, T A -> T B -> T (A ;; B).
  Hypothesis T_memoize : forall k, T (memoize proto k).
  Hypothesis T_get : forall k (f : option nat -> act), (forall i, T (f i)) -> T (fun s => f (memo_get k s) s).
  Variable Vv : val -> Prop.
  Variable sv : val -> act.
  Hypothesis T_sv : forall v, Vv v -> T (sv v).
  Hypothesis Vv_atom : forall a i, Vv (VA a i).

  Definition Va (x : arg) : Prop := match x with AV v => Vv v | AD k kvs => forall w, In w (flat kvs) -> Vv w | AL vs => forall w, In w vs -> Vv w end.

  Lemma T_seqs {A} (f : A -> act) l : (forall x, In x l -> T (f x)) -> T (seqs f l).
  Proof. induction l as [|x l IH]; intros Hl; cbn; [apply T_emit|]. apply T_seq; [apply Hl; left; auto|apply IH; intros; apply Hl; right; auto]. Qed.
  Lemma T_batches {A} (one : A -> act) many fuel : forall l, (forall x, In x l -> T (one x)) -> (forall l', (forall x, In x l' -> In x l) -> T (many l')) ->
    T (batches one many fuel l).
  Proof.
    induction fuel as [|fuel IH]; intros l H1 H2; [apply T_emit|].
    change (batches one many (S fuel) l) with ((match firstn BATCHSIZE l with [] => emit [] | [x] => one x | _ => many (firstn BATCHSIZE l) end) ;;
      (if Nat.ltb (length (firstn BATCHSIZE l)) BATCHSIZE then emit [] else batches one many fuel (skipn BATCHSIZE l))).
    apply T_seq.
    - pose proof (firstn_incl BATCHSIZE l) as F. destruct (firstn BATCHSIZE l) as [|x [|y r]]; [apply T_emit|apply H1, F; left; auto|apply H2; auto].
    - destruct (Nat.ltb _ _); [apply T_emit|]. apply IH; [intros; apply H1; eapply skipn_incl; eauto|]. intros l' Hl. apply H2. intros; eapply skipn_incl; eauto.
  Qed.
  Lemma T_kv kvs p : (forall w, In w (flat kvs) -> Vv w) -> In p kvs -> T (save_kv sv p).
  Proof. intros Hw Hp. destruct p as [k v]. destruct (in_flat _ _ _ Hp). apply T_seq; apply T_sv; auto. Qed.
  Lemma T_setitems kvs : (forall w, In w (flat kvs) -> Vv w) -> T (batch_setitems proto sv kvs).
  Proof.
    intros Hw. unfold batch_setitems. destruct (bin proto).
    - apply T_batches.
      + intros x Hx. apply T_seq; [eapply T_kv; eauto|apply T_emit].
      + intros l' Hl. repeat apply T_seq; try apply T_emit. apply T_seqs. intros; eapply T_kv; eauto.
    - apply T_seqs. intros x Hx. apply T_seq; [eapply T_kv; eauto|apply T_emit].
  Qed.
  Lemma T_appends vs : (forall w, In w vs -> Vv w) -> T (batch_appends proto sv vs).
  Proof.
    intros Hw. unfold batch_appends. destruct (bin proto).
    - apply T_batches.
      + intros x Hx. apply T_seq; [apply T_sv; auto|apply T_emit].
      + intros l' Hl. repeat apply T_seq; try apply T_emit. apply T_seqs. intros; apply T_sv; auto.
    - apply T_seqs. intros x Hx. apply T_seq; [apply T_sv; auto|apply T_emit].
  Qed.
  Lemma T_dict k kvs : (forall w, In w (flat kvs) -> Vv w) -> T (save_dict proto sv k kvs).
  Proof. intros Hw. unfold save_dict. repeat apply T_seq; [apply T_emit|apply T_memoize|apply T_setitems; auto]. Qed.
  Lemma T_list k vs : (forall w, In w vs -> Vv w) -> T (save_list proto sv k vs).
  Proof. intros Hw. unfold save_list. repeat apply T_seq; [apply T_emit|apply T_memoize|apply T_appends; auto]. Qed.
  Lemma T_arg x : Va x -> T (save_arg proto sv x).
  Proof. destruct x; cbn; [apply T_sv|apply T_dict|apply T_list]. Qed.
  Lemma T_tuple k xs : (forall x, In x xs -> Va x) -> T (save_tuple proto sv k xs).
  Proof.
    intros Hx. unfold save_tuple. destruct xs as [|x0 xs0]; [apply T_emit|]. remember (x0 :: xs0) as xs.
    assert (TT : forall dp mk, T (fun s => match memo_get k s with Some i => Ok (dp ++ [GET i], s) | None => (emit mk ;; memoize proto k) s end)).
    { intros dp mk. apply (T_get k (fun i s => match i with Some i => Ok (dp ++ [GET i], s) | None => (emit mk ;; memoize proto k) s end)).
      intros [i|]; [apply (T_emit (dp ++ [GET i]))|]. apply T_seq; [apply T_emit|apply T_memoize]. }
    destruct (_ && _).
    - apply T_seq; [apply T_seqs; intros; apply T_arg; auto|]. apply TT.
    - apply T_seq; [apply T_emit|]. apply T_seq; [apply T_seqs; intros; apply T_arg; auto|]. apply TT.
  Qed.
  Lemma T_state st : (forall w, In w (state_vals st) -> Vv w) -> T (save_state proto sv st).
  Proof.
    intros Hw. destruct st as [|v|d [sl|]]; cbn [save_state state_vals] in *; [apply T_emit| | |]; (apply T_seq; [|apply T_emit]).
    - apply T_sv. apply Hw. left; auto.
    - apply T_tuple. intros x [<-|[<-|[]]]; intros w Hi; apply Hw; apply in_app_iff; auto.
    - apply T_dict; auto.
  Qed.
  Lemma T_call nb c xs : Vv c -> (forall x, In x xs -> Va x) -> T (red_call proto sv nb c xs).
  Proof.
    intros Hc Hx. unfold red_call. destruct nb; [destruct (Nat.leb 2 proto)|]; (apply T_seq; [apply T_sv; auto; apply Vv_atom|]; apply T_seq; [apply T_tuple; auto|apply T_emit]).
    intros x [<-|Hi]; auto.
  Qed.
  Lemma T_memo k : T (red_memo proto k).
  Proof.
    unfold red_memo. destruct k as [k|]; [|apply T_emit].
    apply (T_get k (fun i s => match i with Some i => Ok ([POP; GET i], s) | None => memoize proto k s end)).
    intros [i|]; [apply (T_emit [POP; GET i])|]. apply T_memoize.
  Qed.
  Lemma T_reduce nb c xs st k : Vv c -> (forall x, In x xs -> Va x) -> (forall w, In w (state_vals st) -> Vv w) ->
    T (save_reduce proto sv nb c xs st k).
  Proof. intros. unfold save_reduce. repeat apply T_seq; [apply T_call|apply T_memo|apply T_state]; auto. Qed.
  Lemma T_set k fz vs : (forall w, In w vs -> Vv w) -> T (save_set proto sv k fz vs).
  Proof.
    intros Hw. unfold save_set. destruct (Nat.leb 4 proto); [destruct fz|].
    - apply T_seq; [apply T_emit|]. apply T_seq; [apply T_seqs; intros; apply T_sv; auto|].
      apply (T_get k (fun i s => match i with Some i => Ok ([POP_MARK; GET i], s) | None => (emit [FROZENSET] ;; memoize proto k) s end)).
      intros [i|]; [apply (T_emit [POP_MARK; GET i])|]. apply T_seq; [apply T_emit|apply T_memoize].
    - apply T_seq; [apply T_emit|]. apply T_seq; [apply T_memoize|].
      assert (AB : forall l, (forall w, In w l -> In w vs) -> T (add_batch sv l)).
      { intros l Hl. apply T_seq; [apply T_emit|]. apply T_seq; [|apply T_emit]. apply T_seqs. intros; apply T_sv; auto. }
      apply T_batches; [|exact AB]. intros x Hx. apply AB. intros w [<-|[]]; auto.
    - apply T_reduce; [apply Vv_atom|intros x [<-|[]]; exact Hw|intros w []].
  Qed.
  Lemma T_instance nb c xs li di st k : Vv c -> (forall x, In x xs -> Va x) -> (forall w, In w li -> Vv w) ->
    (forall w, In w (flat di) -> Vv w) -> (forall w, In w (state_vals st) -> Vv w) ->
    T (save_instance proto sv nb c xs li di st k).
  Proof. intros. unfold save_instance. repeat apply T_seq; [apply T_call|apply T_memo|apply T_appends|apply T_setitems|apply T_state]; auto. Qed.
  Lemma T_atom a i : T (save_atom proto a i).
  Proof.
    assert (G : forall a', T (fun s => if memoized a' then match memo_get (KAtom a' i) s with
        | Some n => Ok ([GET n], s) | None => (emit [CONST a'] ;; memoize proto (KAtom a' i)) s end else Ok ([CONST a'], s))).
    { intros a'. destruct (memoized a'); [|apply (T_emit [CONST a'])].
      apply (T_get (KAtom a' i) (fun i0 s => match i0 with Some n => Ok ([GET n], s) | None => (emit [CONST a'] ;; memoize proto (KAtom a' i)) s end)).
      intros [n|]; [apply (T_emit [GET n])|]. apply T_seq; [apply T_emit|apply T_memoize]. }
    destruct a; try (match goal with |- T (save_atom proto ?x i) => exact (G x) end). apply T_emit.
  Qed.
End Ind.
