(** dill/pointers.py:15 "at", which is _locate_object, dill/_dill.py:1654-1668: the object at an address. *)
From Coq Require Import ZArith List Bool.
Import ListNotations.
Local Open Scope Z_scope.

(** What the caller gives as the address: an int, a float (equal to an int or to none: a fraction, nan, inf), something with __index__
    that is not equal to an int, anything else [dill/_dill.py:1654, argument address; CPython Objects/longobject.c] *)
Inductive address := AInt (z : Z) | AFloat (v : option Z) | AIndex (z : Z) | AOther.
(** address == id(obj) [dill/_dill.py:1658,1663; int and float equality of CPython] *)
Definition eq_id (a : address) (i : Z) : bool :=
  match a with AInt z => Z.eqb z i | AFloat (Some z) => Z.eqb z i | AFloat None | AIndex _ | AOther => false end.
(** hex(address): an int or an __index__; TypeError otherwise [dill/_dill.py:1665; CPython Python/bltinmodule.c builtin_hex] *)
Definition hex_ok (a : address) : bool := match a with AInt _ | AIndex _ => true | AFloat _ | AOther => false end.

Section At.
  Variable obj : Type.                 (* the objects *)
  Variable id : obj -> Z.              (* their addresses *)
  (** what at() does [dill/_dill.py:1654-1668] *)
  Inductive outcome := Found (o : obj) | RaisedReference | RaisedType.
  (** the loop: for obj in objects: if address == id(obj): return obj [dill/_dill.py:1657-1658, 1662-1663] *)
  Fixpoint scan (a : address) (l : list obj) : option obj :=
    match l with [] => None | o :: l' => if eq_id a (id o) then Some o else scan a l' end.
  (** [special] are None, True, False; [gc] is gc.get_objects(); [module] the values of the module's dictionary, when a module is given.
      Simplified: a module is true (no __bool__ of a subclass) and has a __dict__ [dill/_dill.py:1654-1668] *)
  Definition at_ (special gc : list obj) (a : address) (module : option (list obj)) : outcome :=
    match scan a special with
    | Some o => Found o
    | None =>
      match scan a (match module with Some vals => vals | None => gc end) with
      | Some o => Found o
      | None => if hex_ok a then RaisedReference else RaisedType
      end
    end.
End At.
Arguments Found {obj} o.
Arguments RaisedReference {obj}.
Arguments RaisedType {obj}.
Arguments at_ {obj}.
Arguments scan {obj}.

(** ** the interpreter's memory, as far as at() sees it [CPython; not in /repo] *)
(** an object: which one (never used twice), whether the garbage collector tracks it *)
Record thing := T { serial : nat; tracked : bool }.
(** the live objects with their addresses, and the number of objects made so far [CPython; not in /repo] *)
Record memory := M { live : list (thing * Z); made : nat }.
(** what the program may do: make an object at a free address; drop one; a container starts or stops being tracked [CPython; not in /repo] *)
Inductive event := New (addr : Z) (tr : bool) | Drop (n : nat) | Track (n : nat) (tr : bool).
(** [CPython; not in /repo] *)
Definition happens (e : event) (m : memory) : memory :=
  match e with
  | New a tr => if existsb (fun p => Z.eqb (snd p) a) (live m) then m else M ((T (made m) tr, a) :: live m) (S (made m))
  | Drop n => M (filter (fun p => negb (Nat.eqb (serial (fst p)) n)) (live m)) (made m)
  | Track n tr => M (map (fun p => if Nat.eqb (serial (fst p)) n then (T n tr, snd p) else p) (live m)) (made m)
  end.
(** [CPython; not in /repo] *)
Definition run (h : list event) : memory := fold_left (fun m e => happens e m) h (M [] 0).
(** gc.get_objects(): the tracked ones [CPython Modules/gcmodule.c; not in /repo] *)
Definition gc_objects (m : memory) : list (thing * Z) := filter (fun p => tracked (fst p)) (live m).
(** dill.detect.at(address) after the history; the singletons None, True, False are the objects at the addresses [s] [dill/_dill.py:1654-1668] *)
Definition at_now (s : list (thing * Z)) (m : memory) (a : address) : outcome (thing * Z) := at_ snd s (gc_objects m) a None.
