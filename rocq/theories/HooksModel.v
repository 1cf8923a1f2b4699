(** What happens besides the copying when a class saved by value is created again: dill/_dill.py:601-602 (_create_type: typeobj(name, bases, dict)), 1892-1909
    (save_type: _create_type, or types.new_class with {'metaclass': type(obj)} if the class has __orig_bases__); CPython Objects/typeobject.c type_new_impl
    (type_new_set_names: __set_name__ of every value of the namespace, in order; then type_new_init_subclass: super().__init_subclass__ with the keywords of
    the class statement), Lib/types.py new_class (calls __prepare__), Lib/enum.py:EnumType.__new__ (needs the namespace its __prepare__ made).
    Simplified: __init_subclass__ hooks take keyword parameters and store each under its name in the new class, and may append the class to a list of the
    base; hooks call the next one with the remaining keywords and object's rejects any left; __set_name__ records the name in the descriptor; the values of
    the dictionary are saved as they are or, descriptors, copied; what _get_typedict_type removes is ClassModel's. *)
From Coq Require Import String List Bool Arith.
From Verif Require Import PyDict.
Import ListNotations.
Local Open Scope string_scope.

Notation cid := nat (only parsing).
Notation did := nat (only parsing).
(** a value of a class dictionary: an object, or a descriptor that has __set_name__ [the class dictionaries and hooks of CPython Objects/typeobject.c, environment of dill/_dill.py:601-602, 1892-1909] *)
Inductive av := AVal (v : nat) | ADesc (d : did).
(** a hook: its parameters with their defaults, and whether it records the class in the list of the base [the class dictionaries and hooks of CPython Objects/typeobject.c, environment of dill/_dill.py:601-602, 1892-1909] *)
Record hook := Hook { h_params : list (string * option nat); h_log : bool }.
(** a class: its dictionary [the class dictionaries and hooks of CPython Objects/typeobject.c, environment of dill/_dill.py:601-602, 1892-1909] *)
Record world := World { classes : cid -> option (dict string av); descs : did -> option (option string); registry : list cid }.

(** [the class dictionaries and hooks of CPython Objects/typeobject.c, environment of dill/_dill.py:601-602, 1892-1909] *)
Definition put {A} (f : nat -> option A) (n : nat) (x : A) : nat -> option A := fun m => if Nat.eqb m n then Some x else f m.

(** type_new_set_names [CPython Objects/typeobject.c type_new_set_names, run by dill/_dill.py:601-602] *)
Definition set_name (D : did -> option (option string)) (e : string * av) : did -> option (option string) :=
  match snd e with ADesc d => put D d (Some (fst e)) | AVal _ => D end.
(** [CPython Objects/typeobject.c type_new_set_names, run by dill/_dill.py:601-602] *)
Definition set_names (D : did -> option (option string)) (ns : dict string av) : did -> option (option string) := fold_left set_name ns D.

(** the value of a parameter: the keyword's or the default; None: TypeError, missing argument [an __init_subclass__ hook called by CPython Objects/typeobject.c type_new_init_subclass, run by dill/_dill.py:601-602] *)
Definition argument (kw : dict string nat) (p : string * option nat) : option (string * nat) :=
  match get (fst p) kw with
  | Some v => Some (fst p, v)
  | None => match snd p with Some v => Some (fst p, v) | None => None end
  end.
(** [an __init_subclass__ hook called by CPython Objects/typeobject.c type_new_init_subclass, run by dill/_dill.py:601-602] *)
Fixpoint arguments (kw : dict string nat) (ps : list (string * option nat)) : option (list (string * nat)) :=
  match ps with
  | [] => Some []
  | p :: ps => match argument kw p, arguments kw ps with Some a, Some l => Some (a :: l) | _, _ => None end
  end.
(** cls.p = p [an __init_subclass__ hook called by CPython Objects/typeobject.c type_new_init_subclass, run by dill/_dill.py:601-602] *)
Definition set_params (ns : dict string av) (l : list (string * nat)) : dict string av := fold_left (fun ns a => set (fst a) (AVal (snd a)) ns) l ns.

(** [an __init_subclass__ hook called by CPython Objects/typeobject.c type_new_init_subclass, run by dill/_dill.py:601-602] *)
Definition all_params (hs : list hook) : list (string * option nat) := flat_map h_params hs.
(** [an __init_subclass__ hook called by CPython Objects/typeobject.c type_new_init_subclass, run by dill/_dill.py:601-602] *)
Definition logged (hs : list hook) (c : cid) : list cid := flat_map (fun h => if h_log h then [c] else []) hs.

(** type(name, bases, ns, kw): [prepared] tells whether ns is the namespace made by __prepare__, [needs] whether the metaclass needs it [type(name, bases, dict, kw), as called in dill/_dill.py:601-602 and by types.new_class in 1892-1909] *)
Definition create (W : world) (hs : list hook) (needs prepared : bool) (c : cid) (ns : dict string av) (kw : dict string nat) : option world :=
  if needs && negb prepared then None
  else if negb (forallb (fun k => memb k (map fst (all_params hs))) (keys kw)) then None        (* TypeError: takes no keyword arguments *)
  else match arguments kw (all_params hs) with
       | None => None
       | Some l => Some (World (put (classes W) c (set_params ns l)) (set_names (descs W) ns) (registry W ++ logged hs c))
       end.

(** class C(bases, metaclass=M, kw): ns [the program's class statement, environment of dill/_dill.py:1807-1932] *)
Definition class_statement (W : world) (hs : list hook) (needs : bool) (c : cid) (ns : dict string av) (kw : dict string nat) : option world :=
  create W hs needs true c ns kw.

(** later assignments: C.n = v, del C.n [the program's later assignments, environment of dill/_dill.py:1807-1932] *)
Inductive change := SetAttr (n : string) (v : av) | DelAttr (n : string).
(** [the program's later assignments, environment of dill/_dill.py:1807-1932] *)
Definition change1 (W : world) (c : cid) (x : change) : world :=
  match classes W c with
  | None => W
  | Some d => World (put (classes W) c (match x with SetAttr n v => set n v d | DelAttr n => del n d end)) (descs W) (registry W)
  end.
(** [the program's later assignments, environment of dill/_dill.py:1807-1932] *)
Definition later (W : world) (c : cid) (l : list change) : world := fold_left (fun W x => change1 W c x) l W.

(** ** dumps and loads *)
(** the descriptors are copied with their state to new ones, [f] [the saved dictionary of the class, dill/_dill.py:1761-1784, 1856-1910] *)
Definition copy_av (f : did -> did) (v : av) : av := match v with ADesc d => ADesc (f d) | AVal x => AVal x end.
(** [the saved dictionary of the class, dill/_dill.py:1761-1784, 1856-1910] *)
Definition copy_descs (D D0 : did -> option (option string)) (f : did -> did) (ns : dict string av) : did -> option (option string) :=
  fold_left (fun D e => match snd e with ADesc d => match D0 d with Some s => put D (f d) s | None => D end | AVal _ => D end) ns D.
(** loading, in the same process, the pickle of class c: [orig_bases] chooses types.new_class, which prepares the namespace [dill/_dill.py:1856-1910 with 601-602] *)
Definition copy_class (W : world) (hs : list hook) (needs orig_bases : bool) (c c' : cid) (f : did -> did) : option world :=
  match classes W c with
  | None => None
  | Some d =>
    let W1 := World (classes W) (copy_descs (descs W) (descs W) f d) (registry W) in
    create W1 hs needs orig_bases c' (map (fun e => (fst e, copy_av f (snd e))) d) []
  end.
