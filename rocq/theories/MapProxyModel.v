(** Mapping proxies and dictionary views: _dictproxy_helper (dill/_dill.py:935-950), save_dictproxy (1601-1615), save_dict_view (1271-1283), and what they
    rest on: CPython's | operator (Objects/abstract.c binary_op1, Objects/descrobject.c mappingproxy_or, Objects/dictobject.c dict_or). *)
From Coq Require Import List Bool Arith.
From Verif Require Import PyDict.
Import ListNotations.

Notation oid := nat (only parsing).
(** what the class of a mapping does for |: it has dict's own __or__; it has an __or__ that makes an object of the class with the items of both
    (OrderedDict, defaultdict, UserDict, ChainMap); it has none, or one that declines a dictionary (Counter, most classes) [mappings and their classes, environment of dill/_dill.py:935-950, 1601-1615] *)
Inductive or_method := OrDict | OrOwn | OrDeclines.
(** ... and for copy() [mappings and their classes, environment of dill/_dill.py:935-950, 1601-1615] *)
Inductive copy_method := CopyDict | CopyOwn | NoCopy.
(** [mappings and their classes, environment of dill/_dill.py:935-950, 1601-1615] *)
Record cls := Cls { is_dict : bool (* the class dict itself *); c_or : or_method; c_copy : copy_method; c_tag : nat }.
(** [mappings and their classes, environment of dill/_dill.py:935-950, 1601-1615] *)
Definition dict_class : cls := Cls true OrDict CopyDict 0.
(** [mappings and their classes, environment of dill/_dill.py:935-950, 1601-1615] *)
Record mapping := Mapping { m_cls : cls; m_items : dict nat nat }.
(** [mappings and their classes, environment of dill/_dill.py:935-950, 1601-1615] *)
Record heap := Heap { objs : oid -> option mapping; next : oid }.

(** [mappings and their classes, environment of dill/_dill.py:935-950, 1601-1615] *)
Definition alloc (H : heap) (m : mapping) : oid * heap :=
  (next H, Heap (fun o => if Nat.eqb o (next H) then Some m else objs H o) (S (next H))).
(** m | _dictproxy_helper_instance; the helper is an empty dictionary whose class is a subclass of dict with __ror__ (which returns the other operand).
    The right operand's method comes first if its class is a subclass of the left operand's; the left operand's next; the right one's last [_dictproxy_helper, dill/_dill.py:935-950, as used in 1605] *)
Definition or_helper (H : heap) (o : oid) : option (oid * heap) :=
  match objs H o with
  | None => None
  | Some m =>
    if is_dict (m_cls m) then Some (o, H)
    else match c_or (m_cls m) with
         | OrDict => Some (alloc H (Mapping dict_class (m_items m)))
         | OrOwn => Some (alloc H (Mapping (m_cls m) (m_items m)))
         | OrDeclines => Some (o, H)
         end
  end.
(** m.copy(); None is an AttributeError [mapping.copy(), dill/_dill.py:1607-1613] *)
Definition copy_of (H : heap) (o : oid) : option (oid * heap) :=
  match objs H o with
  | None => None
  | Some m => match c_copy (m_cls m) with
              | CopyDict => Some (alloc H (Mapping dict_class (m_items m)))
              | CopyOwn => Some (alloc H (Mapping (m_cls m) (m_items m)))
              | NoCopy => None
              end
  end.
(** the mapping that is pickled for a proxy or view of the mapping [o]; [trick]: MAPPING_PROXY_TRICK, CPython 3.9 and later (views: 3.10 and later) *)
Definition saved_mapping (trick : bool) (H : heap) (o : oid) : option (oid * heap) := if trick then or_helper H o else copy_of H o.

(** loading: [cp] gives the copy of each pickled object; the copied proxy or view is one of the copied mapping.
    Simplified: the copies of the items are the items [reading back what dill/_dill.py:1271-1283, 1601-1615 save] *)
Definition loaded (H L : heap) (cp : oid -> oid) : Prop := forall o m, objs H o = Some m -> objs L (cp o) = Some m.
(** what a proxy or view of [o] shows [reading back what dill/_dill.py:1271-1283, 1601-1615 save] *)
Definition shows (L : heap) (o : oid) : option (dict nat nat) := option_map m_items (objs L o).
(** o[k] = v [the program's own assignment, environment of dill/_dill.py:1601-1615] *)
Definition setitem (L : heap) (o k v : oid) : heap :=
  Heap (fun x => if Nat.eqb x o then option_map (fun m => Mapping (m_cls m) (set k v (m_items m))) (objs L o) else objs L x) (next L).
