(** C82: a session, and another module that changes although the load fails. *)
From Coq Require Import String List Bool Arith ZArith Lia.
From Verif Require Import PyDict CoreModel CoreSpec CoreExamples HashSpec SessModel SessSpec SessProps.
Import ListNotations.
Local Open Scope string_scope.
Local Open Scope list_scope.

(** __main__ with  x = 3, me = the module itself, f a function of it, and a module helper of the user's with  v = 4 *)
Definition ss_objs : list obj := [
  (* 0 *) session_obj "__main__" [(str "x", VA (AScalar 3) 0); (str "me", VR 0); (str "f", VR 1); (str "helper", VR 2); (str "g", VR 1)];
  (* 1 *) OFun (VA (AGlob (GUser "code_f")) 0) (GRef (AModDict "__main__")) (str "f") vNone vNone (SAttrs [] (Some []));
  (* 2 *) session_obj "helper" [(str "v", VA (AScalar 4) 0)] ].
Definition ss_heap (o : oid) : option obj := nth_error ss_objs o.
Lemma ss_wf : heap_wf ss_heap.
Proof.
  assert (F : Forall (obj_wf ss_heap) ss_objs).
  { unfold ss_objs. repeat (apply Forall_cons; [unfold session_obj, obj_wf, state_wf|]); try apply Forall_nil; kd; try (eexists; reflexivity); discriminate. }
  assert (F2 : forall o b, nth_error ss_objs o = Some b -> items_once ss_heap o b).
  { intros o b Ho. do 3 (destruct o as [|o]; [injection Ho as <-; exact I|]). destruct o; discriminate. }
  intros o b Ho. split; [rewrite Forall_forall in F; apply F; eapply nth_error_In; exact Ho|exact (F2 o b Ho)].
Qed.
Definition ss_ops : list op := match dumps 4 ss_heap 30 (VR 0) with Ok l => l | _ => [] end.
Definition ss_old (n : string) : option nsval := if String.eqb n "x" then Some (Kept 1) else if String.eqb n "old" then Some (Kept 2) else if String.eqb n "v" then Some (Kept 3) else None.
Definition ss_at (k : nat) : vm := match runs (firstn k ss_ops) start with Some m => m | None => start end.

(** a case: the theorem applies, x is replaced, old is kept, the module is its own attribute, f and g are one function *)
Lemma C82_case : exists d, ss_heap 0 = Some (session_obj "__main__" d) /\ dumps 4 ss_heap 30 (VR 0) = Ok ss_ops /\
  (forall k, runs (firstn k ss_ops) start <> None -> k < length ss_ops) /\
  let m := ss_at (length ss_ops - 1) in
  let ns := namespace "__main__" ss_old m in
  ns "x" = Some (Got (VA (AScalar 3) 0)) /\ ns "old" = Some (Kept 2) /\ ns "me" = Some (Got (VR 1)) /\ ns "f" = ns "g" /\
  namespace "__main__" ss_old (ss_at (length ss_ops - 2)) "x" = Some (Kept 1).
Proof.
  eexists. split; [reflexivity|]. split; [vm_compute; reflexivity|]. split.
  { intros k Hk. destruct (le_lt_dec (length ss_ops) k) as [L|L]; auto. exfalso. apply Hk. rewrite firstn_all2 by exact L. vm_compute. reflexivity. }
  cbv zeta. split; [vm_compute; reflexivity|]. split; [vm_compute; reflexivity|]. split; [vm_compute; reflexivity|]. split; vm_compute; reflexivity.
Qed.

(** the contents of other modules stored in the session are put into them as soon as they have been read: a load that
    fails later leaves them changed *)
Theorem C82_other_modules_refuted :
  ~ forall proto H fuel root name d ops, heap_wf H -> proto <= 5 -> H root = Some (session_obj name d) ->
      dumps proto H fuel (VR root) = Ok ops ->
      forall other old pre rest m, ops = pre ++ rest -> runs pre start = Some m -> 2 <= length rest -> untouched old (namespace other old m).
Proof.
  intros F. assert (E : dumps 4 ss_heap 30 (VR 0) = Ok ss_ops) by (vm_compute; reflexivity).
  specialize (F 4 ss_heap 30 0 "__main__" _ _ ss_wf ltac:(lia) eq_refl E "helper" ss_old (firstn (length ss_ops - 5) ss_ops) (skipn (length ss_ops - 5) ss_ops) (ss_at (length ss_ops - 5))).
  specialize (F (eq_sym (firstn_skipn _ _))).
  assert (R : runs (firstn (length ss_ops - 5) ss_ops) start = Some (ss_at (length ss_ops - 5))) by (vm_compute; reflexivity).
  specialize (F R). clear R. assert (L : 2 <= length (skipn (length ss_ops - 5) ss_ops)) by (apply Nat.leb_le; vm_compute; reflexivity).
  specialize (F L "v"). assert (X : namespace "helper" ss_old (ss_at (length ss_ops - 5)) "v" = Some (Got (VA (AScalar 4) 0))) by (vm_compute; reflexivity).
  rewrite X in F. discriminate F.
Qed.
