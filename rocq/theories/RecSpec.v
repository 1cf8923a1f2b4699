(** Specification for C71: which objects are saved while an object is being saved, and which must exist before it is created. *)
From Coq Require Import List.
From Verif Require Import CoreModel.
Import ListNotations.
Local Open Scope list_scope.

(** the components of an object that are saved while it is being saved (not deferred) *)
Definition kv_vals (kvs : list (val * val)) : list val := flat_map (fun p => [fst p; snd p]) kvs.
Definition st_vals (st : state) : list val :=
  match st with SNone => [] | SVal v => [v] | SAttrs d None => kv_vals d | SAttrs d (Some sl) => kv_vals d ++ kv_vals sl end.
Definition succs (b : obj) : list val :=
  match b with
  | OTup vs | OList vs | OSet _ vs => vs
  | ODict kvs => kv_vals kvs
  | ORed _ c args li di st => c :: args ++ li ++ kv_vals di ++ st_vals st
  | OFun code (GRef _) name de cl st => [code; name; de; cl] ++ st_vals st
  | OFun code (GCopy _ m) name de cl st => [code; m; name; de; cl] ++ st_vals st
  | OType mt name bs d _ => [mt; name; bs] ++ kv_vals d
  | OCell _ => []
  end.
(** what has to be there before the function or class is created *)
Definition needed (b : obj) : list val :=
  match b with
  | OFun code (GRef _) name de cl _ => [code; name; de; cl]
  | OFun code (GCopy _ m) name de cl _ => [code; m; name; de; cl]
  | OType mt name bs d _ => [mt; name; bs] ++ kv_vals d
  | _ => []
  end.

(** [v] is, or contains at some depth without deferral, the object [o]; the objects on the way satisfy [P] *)
Inductive inside (H : nat -> option obj) (P : nat -> Prop) (o : nat) : val -> Prop :=
  | in_here : inside H P o (VR o)
  | in_step x b v : P x -> H x = Some b -> In v (succs b) -> inside H P o v -> inside H P o (VR x).
(** a function or class that is inside what is needed to create it *)
Definition needs_itself (H : nat -> option obj) (o : nat) : Prop :=
  exists b v, H o = Some b /\ In v (needed b) /\ inside H (fun _ => True) o v.
