(** Specification for C81: keys and elements are complete when they are inserted. *)
From Coq Require Import String List Bool Arith ZArith.
From Verif Require Import PyDict CoreModel CoreSpec HashModel.
Import ListNotations.
Local Open Scope list_scope.

(** the keys of a dictionary, the elements of a set *)
Definition keys_of (b : obj) : list val :=
  match b with
  | ODict kvs => map fst kvs
  | OSet _ vs => vs
  | ORed _ _ _ _ di _ => map fst di
  | _ => []
  end.
Definition is_cell (b : obj) : Prop := match b with OCell _ => True | _ => False end.
(** what an object refers to; a function refers to the items of its globals rather than to the dictionary
    (the loaded function has a dictionary of its own) *)
Definition links (H : oid -> option obj) (b : obj) : list val :=
  match b with
  | OFun co (GCopy g m) n de cl st =>
      [co; n; de; cl; m] ++ (match H g with Some (ODict kvs) => flat kvs | _ => [] end) ++ state_vals st
  | _ => refs b
  end.
(** [near H v o]: following references from [v], but not the contents of closure cells, one gets to [o] *)
Inductive near (H : oid -> option obj) : val -> oid -> Prop :=
  | n_here o : near H (VR o) o
  | n_step o b v o' : H o = Some b -> ~ is_cell b -> In v (links H b) -> near H v o' -> near H (VR o) o'.

(** the loaded counterpart of [x] is there, with all of its contents, in the loaded heap [h] *)
Definition whole (R G : oid -> nat -> Prop) (H : oid -> option obj) (h : list obj) (x : oid) : Prop :=
  exists a b b', R x a /\ H x = Some b /\ nth_error h a = Some b' /\ obj_rel R H (G x) (fun a b => nth_error h a = Some b) b b'.
(** the correspondence between the dumped graph and the loaded one: [iso] of CoreSpec, with the relations named *)
Definition iso_by (R G : oid -> nat -> Prop) (H : oid -> option obj) (v : val) (h : list obj) (v' : val) : Prop :=
  val_rel R v v' /\
  (forall o a a', R o a -> R o a' -> a = a') /\
  (forall o o' a, R o a -> R o' a -> o = o') /\
  (forall f g g', G f g -> G f g' -> g = g') /\
  (forall f f' g, G f g -> G f' g -> f = f') /\
  (forall f g o, G f g -> ~ R o g) /\
  (forall o a, R o a -> exists b b', H o = Some b /\ nth_error h a = Some b' /\
                                     obj_rel R H (G o) (fun a b => nth_error h a = Some b) b b').
(** the opcodes [ops] run one after the other *)
Fixpoint runs (ops : list op) (m : vm) : option vm :=
  match ops with
  | [] => Some m
  | o :: r => match step o m with Some m' => runs r m' | None => None end
  end.
(** the unpickler before the first opcode *)
Definition start : vm := {| stk := []; meta := []; mem := []; heap := [] |}.
(** [inserts ops k a h]: while [ops] is loaded, [k] is hashed and put into the dictionary or set at address [a],
    at a moment when the loaded heap is [h] *)
Definition inserts (ops : list op) (k : val) (a : nat) (h : list obj) : Prop :=
  exists pre o rest m, ops = pre ++ o :: rest /\ runs pre start = Some m /\ In (k, a) (hashed o m) /\ heap m = h.
