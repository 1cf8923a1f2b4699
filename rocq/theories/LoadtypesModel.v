(** dill.load_types: the registry of objects (dill.objects) and the module of their types (dill.types). *)
From Coq Require Import String Ascii List Bool Arith.
From Verif Require Import PyDict FindModel.
Import ListNotations.
Local Open Scope string_scope.

Section Loadtypes.
  (** Python objects and types: opaque, with [type(obj)] [not in /repo] *)
  Context {O T : Type}.
  Variable type_of : O -> T.
  (** the three tables of dill._objects, filled once when it is first imported; all that is registered is also in succeeds (a.update(d)) [dill/_objects.py:121-125, 539] *)
  Record tables := Tables { succeeds : dict string O; failures : dict string O; registered : dict string O }.
  (** what a name in the namespace of dill.objtypes is bound to: dill's dictionary of objects, a str (the loop variable), a type, or something
      else (the name and the documentation of the module, its loader, ...) [the module's __dict__; not in /repo] *)
  Inductive cell := CObjects | CName (s : string) | CType (t : T) | COther (n : nat).

  (** [objects.pop(obj, None) for obj in d], in order [dill/__init__.py:75, 79] *)
  Definition pop_all (d objects : dict string O) : dict string O := fold_left (fun o k => del k o) (keys d) objects.
  (** the changes to dill.objects [dill/__init__.py:72-80] *)
  Definition select (W : tables) (pickleable unpickleable : bool) (objects : dict string O) : dict string O :=
    let o := if pickleable then update objects (succeeds W) else pop_all (succeeds W) objects in
    let o := if unpickleable then update o (failures W) else pop_all (failures W) o in
    update o (registered W).
  (** names that contain 'Type' are dropped from dill.types [dill/__init__.py:83-84] *)
  Definition empty_types (types : dict string cell) : dict string cell :=
    fold_left (fun t k => del k t) (filter (contains "Type") (keys types)) types.
  (** exec("k = type(objects['k'])") in the module; None: an exception, or a name of the statement means something else; names that are not
      identifiers are not modelled [dill/objtypes.py:18] *)
  Definition bind_type (objects : dict string O) (k : string) (types : dict string cell) : option (dict string cell) :=
    match get "type" types, get "objects" types, get k objects with
    | None, Some CObjects, Some o => Some (set k (CType (type_of o)) types)
    | _, _, _ => None
    end.
  (** the loop [dill/objtypes.py:17-18] *)
  Fixpoint bind_types (objects : dict string O) (ks : list string) (types : dict string cell) : option (dict string cell) :=
    match ks with
    | [] => Some types
    | k :: ks => match bind_type objects k (set "_type" (CName k) types) with Some t => bind_types objects ks t | None => None end
    end.
  (** reload(types): the module is executed again in the namespace it has [dill/objtypes.py:16-24; dill/__init__.py:86] *)
  Definition reload (objects : dict string O) (types : dict string cell) : option (dict string cell) :=
    match bind_types objects (keys objects) (set "objects" CObjects types) with
    | Some t => Some (del "_type" (del "objects" t))
    | None => None
    end.
  (** the two things load_types changes [dill.objects, dill.types] *)
  Record state := State { objects : dict string O; types : dict string cell }.
  (** [dill/__init__.py:54-86] *)
  Definition load_types (W : tables) (pickleable unpickleable : bool) (s : state) : option state :=
    let o := select W pickleable unpickleable (objects s) in
    option_map (State o) (reload o (empty_types (types s))).
  (** a session of calls [dill/__init__.py:54-86] *)
  Fixpoint calls (W : tables) (l : list (bool * bool)) (s : state) : option state :=
    match l with
    | [] => Some s
    | (p, u) :: l => match load_types W p u s with Some s => calls W l s | None => None end
    end.
End Loadtypes.
Arguments tables : clear implicits. Arguments cell : clear implicits. Arguments state : clear implicits.
