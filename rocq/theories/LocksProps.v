(** C24: locks. *)
From Coq Require Import String List Bool NArith.
From Verif Require Import LocksModel LocksProofs.
Import ListNotations.
Local Open Scope string_scope.

(** A copied Lock is in the same state as the original. *)
Theorem C24_lock_copy : forall l, copy_lock l = Ok l.
Proof. exact lock_copy. Qed.
Print Assumptions C24_lock_copy.

(** What is stored for an RLock (parsed out of its repr) is its count and owner, for every state
    and whatever the address printed. *)
Theorem C24_rlock_saved_state : forall addr l,
  save_rlock "_thread.RLock" addr l = Ok (count l, owner l).
Proof. exact rlock_parse. Qed.
Print Assumptions C24_rlock_saved_state.

(** For every state an RLock can reach by any acquire/release history of any threads, loading its
    copy in thread [tid] raises exactly if it is owned by another thread; a lock owned by the
    loading thread comes back identical (so it behaves identically ever after). *)
Theorem C24_rlock_copy_partial : forall addr tid ops,
  Forall (fun o => op_tid o <> 0%N) ops ->
  let l := rstate new_rlock ops in
  count l <> 0%N ->
  copy_rlock "_thread.RLock" addr tid l = if N.eqb (owner l) tid then Ok l else Err UnpicklingError.
Proof.
  intros addr tid ops Hf l Hc. pose proof (rlock_copy_exact addr tid ops Hf) as E. cbv zeta in E.
  fold l in E. apply N.eqb_neq in Hc. rewrite Hc in E. exact E.
Qed.
Print Assumptions C24_rlock_copy_partial.

Example C24_nonvacuous :
  let ops := [Acquire 140; Acquire 140; Acquire 99; Release 140; Acquire 140]%N in
  Forall (fun o => op_tid o <> 0%N) ops /\
  rstate new_rlock ops = {| held := true; owner := 140; count := 2 |} /\
  copy_rlock "_thread.RLock" "0x7f1" 140 (rstate new_rlock ops) = Ok (rstate new_rlock ops).
Proof. repeat split; try reflexivity. repeat constructor; discriminate. Qed.

(** C24 is false for an unlocked RLock: whatever history left it unlocked, the copy has the same
    count and owner but no thread can ever acquire (or release) it: every later operation of any
    thread fails, for every sequence of operations. *)
Theorem C24_unlocked_rlock_refuted : forall addr tid ops,
  Forall (fun o => op_tid o <> 0%N) ops ->
  let l := rstate new_rlock ops in
  count l = 0%N ->
  exists l', copy_rlock "_thread.RLock" addr tid l = Ok l' /\
    forall later, Forall (fun o => op_tid o <> 0%N) later -> Forall (fun b => b = false) (rrun l' later).
Proof.
  intros addr tid ops Hf l Hc. pose proof (rlock_copy_exact addr tid ops Hf) as E. cbv zeta in E.
  fold l in E. rewrite Hc in E. eexists; split; [exact E|].
  intros later Hl. apply dead_run; auto.
Qed.
Print Assumptions C24_unlocked_rlock_refuted.

(** ... while the original can be acquired. *)
Example C24_original_works : rrun new_rlock [Acquire 7; Acquire 7; Release 7; Release 7]%N = [true; true; true; true].
Proof. reflexivity. Qed.
