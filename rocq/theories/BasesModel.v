(** The bases of classes saved by value, dill/_dill.py:1891-1912: [hasattr(obj, '__orig_bases__')] decides between _create_type (601-602) with
    obj.__bases__ and types.new_class with obj.__orig_bases__ (types.py: new_class, resolve_bases; a class statement does the same,
    Python/bltinmodule.c update_bases and builtin___build_class__).
    A class is the index of its entry in a list, bases before subclasses; classes stand for themselves and their copies.
    Not modelled: everything else in the class dictionary (ClassModel), metaclasses, keyword arguments of the class statement. *)
From Coq Require Import String List Bool Arith.
From Verif Require Import PyDict ClassModel.
Import ListNotations.

(** what is written between the parentheses of a class statement: a class, or an object with __mro_entries__ such as List[int] [CPython, class statement] *)
Inductive item := Cls (c : nat) | Alias (a : nat).
(** [what dill/_dill.py:1859-1860, 1892-1894, 1908 look at] *)
Record bcls := BCls {
  bases : list nat;                  (* __bases__ *)
  orig : option (list item);         (* '__orig_bases__' in the class's own dictionary *)
  dyn : bool;                        (* saved by value *)
}.
Notation bhier := (list bcls) (only parsing).

Section Bases.
  (** alias.__mro_entries__(bases) *)
  Variable entries : nat -> list item -> list nat.
  (** [hasattr(base, "__mro_entries__"), CPython Lib/types.py:77-94] *)
  Definition is_alias (i : item) : bool := match i with Alias _ => true | Cls _ => false end.
  (** types.resolve_bases [CPython Lib/types.py:77-94] *)
  Definition resolve (l : list item) : list nat := flat_map (fun i => match i with Cls c => [c] | Alias a => entries a l end) l.
  (** a class statement, or types.new_class with a body that makes [own] of '__orig_bases__' [types.new_class as called at dill/_dill.py:1907-1909; CPython Lib/types.py:67-75] *)
  Definition new_class (l : list item) (own : option (list item)) (d : bool) : bcls :=
    {| bases := resolve l; orig := if existsb is_alias l then Some l else own; dyn := d |}.
  (** _create_type(type(obj), name, bases, dict) [dill/_dill.py:601-602, as called at 1893-1895] *)
  Definition create_type (bs : list nat) (own : option (list item)) (d : bool) : bcls := {| bases := bs; orig := own; dyn := d |}.

  (** method resolution order: ClassModel's, which looks only at the bases [type.__mro__, CPython; see ClassModel] *)
  Definition shape (H : bhier) : hier := map (fun k => PyClass "" (bases k) [] false false false false) H.
  (** [type.__mro__, CPython; see ClassModel] *)
  Definition bmro (H : bhier) (c : nat) : option (list nat) := mro (shape H) (S c) c.
  (** obj.__orig_bases__: the first class of the order that has it [hasattr(obj, "__orig_bases__") and obj.__orig_bases__, dill/_dill.py:1892, 1908] *)
  Fixpoint first_orig (H : bhier) (l : list nat) : option (list item) :=
    match l with
    | [] => None
    | c :: l => match nth_error H c with Some {| orig := Some o |} => Some o | _ => first_orig H l end
    end.
  (** [hasattr(obj, "__orig_bases__") and obj.__orig_bases__, dill/_dill.py:1892, 1908] *)
  Definition get_orig (H : bhier) (c : nat) : option (list item) := match bmro H c with Some l => first_orig H l | None => None end.

  (** save_type and load: the copy of class [c] [dill/_dill.py:1860, 1892-1909] *)
  Definition copied (H : bhier) (c : nat) (k : bcls) : bcls :=
    if dyn k then
      match get_orig H c with
      | None => create_type (bases k) (orig k) (dyn k)
      | Some l => new_class l (orig k) (dyn k)
      end
    else k.
  (** [all classes, dill/_dill.py:1808-1932] *)
  Fixpoint copy_from (H : bhier) (c : nat) (l : bhier) : bhier :=
    match l with [] => [] | k :: l => copied H c k :: copy_from H (S c) l end.
  (** [all classes, dill/_dill.py:1808-1932] *)
  Definition copy_all (H : bhier) : bhier := copy_from H 0 H.
End Bases.
