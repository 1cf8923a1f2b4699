(** Abstract base classes saved by value: dill/_dill.py:1786-1805 (_get_typedict_abc), 1879-1882 (its use in save_type), 1112-1160 (_save_with_postproc: the
    calls register(class) come after the class), and issubclass for abstract base classes (CPython Lib/_py_abc.py:108-147, ABCMeta.__subclasscheck__).
    Simplified: no __subclasshook__; ABCMeta.register records the class always (it skips classes that are subclasses already, which issubclass cannot tell). *)
From Coq Require Import List Bool Arith.
Import ListNotations.

Notation cid := nat (only parsing).
(** a class: its MRO, its bases, the classes registered with it (abc._get_dump: live ones) [what dill/_dill.py:1788, 1892-1895 look at; CPython Lib/_py_abc.py] *)
Record cls := Cls { c_mro : list cid; c_bases : list cid; c_reg : list cid }.
(** [the interpreter's classes; not in /repo] *)
Definition world := cid -> option cls.

(** ** dumping *)
(** the pickle of the classes [V], which are saved by value: each with its MRO and bases, and then the calls of register [what dill/_dill.py:1893-1895 and 1790 put into the pickle, as 1112-1160 order it] *)
Record pickle := Pickle { p_classes : list (cid * (list cid * list cid)); p_calls : list (cid * cid) }.
(** [dill/_dill.py:1893-1895] *)
Definition entry (W : world) (a : cid) : list (cid * (list cid * list cid)) := match W a with Some c => [(a, (c_mro c, c_bases c))] | None => [] end.
(** postproc_list.extend((register, (reg(),)) for reg in registry) [dill/_dill.py:1786-1796] *)
Definition calls (W : world) (a : cid) : list (cid * cid) := match W a with Some c => map (fun r => (a, r)) (c_reg c) | None => [] end.
(** [dill/_dill.py:1856-1910, 1112-1160] *)
Definition dump (W : world) (V : list cid) : pickle := Pickle (flat_map (entry W) V) (flat_map (calls W) V).

(** ** loading *)
(** the classes of the pickle are created anew: [f] gives each its new identity, and leaves the classes that were saved by reference [type(...), called by _create_type, dill/_dill.py:601-602] *)
Definition put (W : world) (a : cid) (c : cls) : world := fun x => if Nat.eqb x a then Some c else W x.
(** [ABCMeta.register, called for dill/_dill.py:1789-1790] *)
Definition register (W : world) (a r : cid) : world :=
  match W a with Some c => put W a (Cls (c_mro c) (c_bases c) (c_reg c ++ [r])) | None => W end.
(** [dill/_dill.py:601-602 and the calls of 1790, in the order of 1112-1160] *)
Definition load (W : world) (f : cid -> cid) (p : pickle) : world :=
  let W := fold_left (fun W '(a, (m, b)) => put W (f a) (Cls (map f m) (map f b) [])) (p_classes p) W in
  fold_left (fun W '(a, r) => register W (f a) (f r)) (p_calls p) W.

(** ** issubclass(c, a) [CPython Lib/_py_abc.py:108-147] *)
Inductive issub (W : world) : cid -> cid -> Prop :=
  | is_mro c a k : W c = Some k -> In a (c_mro k) -> issub W c a
  | is_reg c a k r : W a = Some k -> In r (c_reg k) -> issub W c r -> issub W c a
  | is_sub c a s k : W s = Some k -> In a (c_bases k) -> issub W c s -> issub W c a.
