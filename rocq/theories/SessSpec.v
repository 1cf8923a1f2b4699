(** C82: what it means for a session to be restored. *)
From Coq Require Import String List Arith ZArith.
From Verif Require Import PyDict CoreModel CoreSpec SessModel.
Import ListNotations.
Local Open Scope string_scope.

(** nothing in the namespace has changed *)
Definition untouched (old now : string -> option nsval) : Prop := forall n, now n = old n.
(** every saved name has the loaded counterpart of its saved value; all other names are as before *)
Definition restored (R : oid -> nat -> Prop) (d : list (val * val)) (old now : string -> option nsval) : Prop :=
  forall n, match getitem d (VA (AStr n) 0) with
            | Some v => exists v', now n = Some (Got v') /\ val_rel R v v'
            | None => now n = old n
            end.
