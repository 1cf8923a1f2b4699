(** Specification for C28/C29. *)
From Coq Require Import String Ascii List Bool Arith.
From Verif Require Import PyDict NamesModel LoadModel.
Import ListNotations.
Local Open Scope string_scope.

(** a session of a module-type object is stored under "__runtime__.<name>" *)
Definition runtime_name (n : string) : string := "__runtime__." ++ n.
Definition is_runtime (n : string) : Prop := exists x, n = runtime_name x.

(** the module object is imported: it has a loader or is somewhere in sys.modules *)
Definition imported (s : st) (m : mid) : Prop :=
  (exists r, get m (heap s) = Some r /\ m_loader r = true) \/ (exists k, In (k, VMod m) (sysmod s)).
Definition named (s : st) (m : mid) (n : string) : Prop :=
  exists r, get m (heap s) = Some r /\ m_name r = n.

(** sys.modules agree except for modules newly imported from disk *)
Definition only_imports (s s' : st) (k : string) : Prop :=
  get k (sysmod s') = get k (sysmod s) \/
  (get k (sysmod s) = None /\ get k (disk s) <> None /\ exists m, get k (sysmod s') = Some (VMod m)).

(** the last value saved for a name *)
Fixpoint saved (l : list (string * value)) (n : string) : option value :=
  match l with
  | [] => None
  | (k, v) :: l' => match saved l' n with Some w => Some w | None => if String.eqb n k then Some v else None end
  end.

(** the module holds exactly: the saved values for saved names, and what it held before otherwise *)
Definition updated (before after : dict string value) (l : list (string * value)) : Prop :=
  forall n, get n after = match saved l n with Some v => Some v | None => get n before end.

(** a sane interpreter: module objects in sys.modules exist; importable names are not runtime names *)
Definition sane (s : st) : Prop :=
  (forall k m, In (k, VMod m) (sysmod s) -> get m (heap s) <> None) /\
  (forall k, get k (disk s) <> None -> ~ is_runtime k).
