(** Classes saved by value: _get_typedict_type (dill/_dill.py:1761-1784), the slots and ABC handling of
    save_type (1866-1906), _get_typedict_abc's dictionary part (1786-1806), _create_type (601-602) and what
    CPython's type.__new__ does with the dictionary (Objects/typeobject.c type_new_slots, type_new_set_module,
    type_new_set_doc, type_ready_set_hash, mro_implementation, pmerge), and _Py_Mangle.
    Values stand for themselves and their copies (copying is in CoreModel); a class is the index of its
    entry in a list, bases before subclasses.
    Not modelled: metaclass code other than ABCMeta's, __orig_bases__, __init_subclass__/__set_name__ hooks. *)
From Coq Require Import String Ascii List Bool Arith.
From Verif Require Import PyDict.
Import ListNotations.
Local Open Scope string_scope.

(** values of a class dictionary: ordinary objects; slot (member) descriptors and the __dict__/__weakref__/
    _abc_impl entries, created by the interpreter for one class ([owner]); None; a __slots__ declaration [the values of obj.__dict__, dill/_dill.py:1866] *)
Inductive cv :=
| VObj (o : nat)
| VMember (owner : nat) (n : string)
| VOwn (owner : nat) (n : string)
| VNone
| VSlotStr (s : string)
| VSlots (l : list string).

(** [list equality; not in /repo] *)
Definition list_string_eqb (a b : list string) : bool := if list_eq_dec string_dec a b then true else false.
(** Python's [is]; strings and slot lists are compared by contents, which only makes identity larger [value is base_value, dill/_dill.py:1773] *)
Definition cv_is (a b : cv) : bool :=
  match a, b with
  | VObj x, VObj y => Nat.eqb x y
  | VMember o n, VMember o' n' => Nat.eqb o o' && String.eqb n n'
  | VOwn o n, VOwn o' n' => Nat.eqb o o' && String.eqb n n'
  | VNone, VNone => true
  | VSlotStr s, VSlotStr s' => String.eqb s s'
  | VSlots l, VSlots l' => list_string_eqb l l'
  | _, _ => false
  end.
(** hasattr(value, '__qualname__'); [hq] for ordinary objects [dill/_dill.py:1773] *)
Definition has_qualname (hq : nat -> bool) (v : cv) : bool :=
  match v with VObj o => hq o | VMember _ _ => true | VOwn _ n => negb (String.eqb n "_abc_impl") | _ => false end.

(** [what dill/_dill.py:1761-1784, 1856-1909 look at] *)
Record pyclass := PyClass {
  c_name : string; c_bases : list nat; c_dict : dict string cv;
  c_abc : bool;                      (* isinstance(cls, ABCMeta) *)
  c_dyn : bool;                      (* saved by value: not importable by name *)
  c_base_dict : bool;                (* the base's instances already have a __dict__ *)
  c_base_weak : bool;                (* ... already support weak references *)
}.
(** [the classes; not in /repo] *)
Definition hier := list pyclass.
(** [cls.__dict__, dill/_dill.py:1764, 1768] *)
Definition dict_of (H : hier) (c : nat) : dict string cv := match nth_error H c with Some k => c_dict k | None => [] end.

(** lines 1763-1768 *)
Definition inherited_dict (H : hier) (bases : list nat) : dict string cv :=
  match bases with
  | [b] => dict_of H b
  | _ => fold_left (fun acc b => update acc (dict_of H b)) (rev bases) []
  end.
(** lines 1769-1778: the names removed *)
Definition to_remove (hq : nat -> bool) (inherited clsdict : dict string cv) : list string :=
  map fst (filter (fun p => match get (fst p) inherited with
                            | Some bv => cv_is (snd p) bv && has_qualname hq (snd p) | None => false end) clsdict).
(** _get_typedict_type [dill/_dill.py:1761-1784] *)
Definition get_typedict (hq : nat -> bool) (H : hier) (k : pyclass) : dict string cv :=
  let d := fold_left (fun d n => del n d) (to_remove hq (inherited_dict H (c_bases k)) (c_dict k)) (c_dict k) in
  del "__weakref__" (del "__dict__" d).
(** the names save_type pops from the dictionary: _dict.get('__slots__', ()), a str being one name, lines 1871-1874 *)
Definition popped_slots (v : option cv) : list string :=
  match v with None => [] | Some (VSlotStr s) => [s] | Some (VSlots l) => l | Some _ => [] end.
(** the slots type.__new__ makes of a declaration (typeobject.c type_new_slots): a str is one slot [dill/_dill.py:1871-1877; CPython Objects/typeobject.c type_new_slots] *)
Definition slot_names (v : option cv) : list string :=
  match v with Some (VSlotStr s) => [s] | Some (VSlots l) => l | _ => [] end.
(** the dictionary pickled: lines 1866-1882 *)
Definition saved_dict (hq : nat -> bool) (H : hier) (k : pyclass) : dict string cv :=
  let d := get_typedict hq H k in
  let d := fold_left (fun d n => del n d) (popped_slots (get "__slots__" d)) d in
  if c_abc k then del "_abc_impl" d else d.

(** _Py_Mangle, Python/compile.c [CPython Python/compile.c _Py_Mangle, of the names dill/_dill.py:1876-1877 pops] *)
Fixpoint lstrip_us (s : string) : string :=
  match s with String "_"%char r => lstrip_us r | _ => s end.
(** [CPython Python/compile.c _Py_Mangle, of the names dill/_dill.py:1876-1877 pops] *)
Fixpoint has_dot (s : string) : bool := match s with EmptyString => false | String "."%char _ => true | String _ r => has_dot r end.
(** [CPython Python/compile.c _Py_Mangle, of the names dill/_dill.py:1876-1877 pops] *)
Definition starts2 (s : string) : bool := match s with String "_"%char (String "_"%char _) => true | _ => false end.
(** [CPython Python/compile.c _Py_Mangle, of the names dill/_dill.py:1876-1877 pops] *)
Fixpoint ends2 (s : string) : bool :=
  match s with String "_"%char (String "_"%char EmptyString) => true | String _ r => ends2 r | EmptyString => false end.
(** [CPython Python/compile.c _Py_Mangle, of the names dill/_dill.py:1876-1877 pops] *)
Definition mangle (cls n : string) : string :=
  if starts2 n && negb (ends2 n) && negb (has_dot n) then
    match lstrip_us cls with EmptyString => n | c => "_" ++ c ++ n end
  else n.

(** type.__new__(metaclass, name, bases, dict): the new class dictionary, or None for an error.
    [self] is the new class; [modname] the __name__ of the calling frame's globals [CPython Objects/typeobject.c type_new, called by dill/_dill.py:601-602] *)
Definition setdefault (n : string) (x : cv) (d : dict string cv) := if has n d then d else set n x d.
(** [CPython Objects/typeobject.c type_new, called by dill/_dill.py:601-602] *)
Definition special_slot (n : string) : bool := String.eqb n "__dict__" || String.eqb n "__weakref__".
(** [CPython Objects/typeobject.c type_new, called by dill/_dill.py:601-602] *)
Definition type_new (self : nat) (modname : nat) (k : pyclass) (d : dict string cv) : option (dict string cv) :=
  let members := map (mangle (c_name k)) (filter (fun n => negb (special_slot n)) (slot_names (get "__slots__" d))) in
  let add_dict := negb (c_base_dict k) && (negb (has "__slots__" d) || memb "__dict__" (slot_names (get "__slots__" d))) in
  let add_weak := negb (c_base_weak k) && (negb (has "__slots__" d) || memb "__weakref__" (slot_names (get "__slots__" d))) in
  if c_base_dict k && memb "__dict__" (slot_names (get "__slots__" d)) then None          (* TypeError: __dict__ slot disallowed *)
  else if c_base_weak k && memb "__weakref__" (slot_names (get "__slots__" d)) then None
  else if existsb (fun n => has n d) members then None                                     (* ValueError: conflicts with class variable *)
  else
    let d := setdefault "__module__" (VObj modname) d in
    let d := setdefault "__doc__" VNone d in
    let d := fold_left (fun d n => setdefault n (VMember self n) d) members d in
    let d := if add_dict then setdefault "__dict__" (VOwn self "__dict__") d else d in
    let d := if add_weak then setdefault "__weakref__" (VOwn self "__weakref__") d else d in
    let d := if has "__eq__" d && negb (has "__hash__" d) then set "__hash__" VNone d else d in
    Some (if c_abc k then set "_abc_impl" (VOwn self "_abc_impl") d else d).

(** dump and load one class: the bases and the values are there already [dill/_dill.py:1860-1909 and 601-602] *)
Definition rebuild1 (hq : nat -> bool) (modname : nat) (H : hier) (c : nat) (k : pyclass) : option pyclass :=
  if c_dyn k then
    match type_new c modname k (saved_dict hq H k) with
    | Some d => Some {| c_name := c_name k; c_bases := c_bases k; c_dict := d; c_abc := c_abc k; c_dyn := c_dyn k;
                        c_base_dict := c_base_dict k; c_base_weak := c_base_weak k |}
    | None => None
    end
  else Some k.
(** [dill/_dill.py:1808-1932, for each class] *)
Fixpoint rebuild_from (hq : nat -> bool) (modname : nat) (H : hier) (c : nat) (l : list pyclass) : option hier :=
  match l with
  | [] => Some []
  | k :: l => match rebuild1 hq modname H c k, rebuild_from hq modname H (S c) l with
              | Some k', Some l' => Some (k' :: l') | _, _ => None end
  end.
(** [dill/_dill.py:1808-1932, for each class] *)
Definition rebuild (hq : nat -> bool) (modname : nat) (H : hier) : option hier := rebuild_from hq modname H 0 H.

(** C3, typeobject.c pmerge: take the first head that is in no tail [CPython Objects/typeobject.c pmerge; not in /repo] *)
Definition in_tails (h : nat) (seqs : list (list nat)) : bool := existsb (fun s => memb h (tl s)) seqs.
(** [CPython Objects/typeobject.c pmerge; not in /repo] *)
Definition candidate (seqs : list (list nat)) : option nat :=
  match find (fun s => match s with [] => false | h :: _ => negb (in_tails h seqs) end) seqs with
  | Some (h :: _) => Some h | _ => None end.
(** [CPython Objects/typeobject.c pmerge; not in /repo] *)
Definition drop_head (h : nat) (s : list nat) : list nat := match s with x :: r => if Nat.eqb x h then r else s | [] => [] end.
(** [CPython Objects/typeobject.c pmerge; not in /repo] *)
Fixpoint c3_merge (fuel : nat) (seqs : list (list nat)) : option (list nat) :=
  match fuel with
  | 0 => None
  | S f => if forallb (fun s => match s with [] => true | _ => false end) seqs then Some []
           else match candidate seqs with
                | None => None
                | Some h => option_map (cons h) (c3_merge f (map (drop_head h) seqs))
                end
  end.
(** [option; not in /repo] *)
Fixpoint all_some {A} (l : list (option A)) : option (list A) :=
  match l with [] => Some [] | Some x :: l => option_map (cons x) (all_some l) | None :: _ => None end.
(** mro_implementation, with its fast path for a single base [CPython Objects/typeobject.c mro_implementation; not in /repo] *)
Fixpoint mro (H : hier) (fuel : nat) (c : nat) : option (list nat) :=
  match fuel with
  | 0 => None
  | S f =>
    match nth_error H c with
    | None => None
    | Some k =>
      match c_bases k with
      | [] => Some [c]
      | [b] => option_map (cons c) (mro H f b)
      | bs => match all_some (map (mro H f) bs) with
              | Some ms => option_map (cons c) (c3_merge (S (length (concat (ms ++ [bs])))) (ms ++ [bs])%list)
              | None => None
              end
      end
    end
  end.

(** attribute lookup on a class: the first class of the method resolution order that has the name [CPython Objects/typeobject.c find_name_in_mro; not in /repo] *)
Fixpoint lookup_in (H : hier) (l : list nat) (n : string) : option cv :=
  match l with
  | [] => None
  | c :: l => match get n (dict_of H c) with Some v => Some v | None => lookup_in H l n end
  end.
(** [CPython Objects/typeobject.c find_name_in_mro; not in /repo] *)
Definition lookup (H : hier) (c : nat) (n : string) : option cv :=
  match mro H (S c) c with Some l => lookup_in H l n | None => None end.
