(** numpy arrays, ufuncs and dtypes: the recognition by class name (dill/_dill.py:103-142), the registration that
    Pickler.save makes while it runs (dill/_dill.py:376-423), the table lookup of the standard pickler that follows, and
    [_create_array] (dill/_dill.py:982-989).

    Environment: what a class is at a given moment (its method resolution order as pairs of module and name, whether it
    has its own __reduce__ or __reduce_ex__), which may change between dumps; the copyreg table; numpy itself: an
    array's __reduce__ gives a function, arguments and a state, calling the function runs the class's
    __array_finalize__, which may set attributes.  Simplified: save functions are named by what they are. *)
From Coq Require Import String List Bool Arith.
From Verif Require Import PyDict.
Import ListNotations.
Local Open Scope string_scope.

(** a class: [own_reduce], [own_reduce_ex]: not those of numpy.ndarray [dill/_dill.py:121-142] *)
Record cls : Type := Cls {
  mro : list (string * string);
  own_reduce : bool;
  own_reduce_ex : bool;
  is_type : bool;               (* the class [type] itself *)
  metaclass : bool;             (* a subclass of [type] *)
  dtype_meta : bool             (* type(numpy.dtype) *)
}.

(** save functions [dill/_dill.py:376-423] *)
Inductive saver : Type :=
| SArray | SUfunc | SDtype      (* those defined in Pickler.save *)
| SType                         (* save_type, from __missing__ *)
| SUser (n : nat)               (* registered by the user or another part of dill *)
| SCopyreg (n : nat)            (* a function of copyreg's table *)
| SReduce.                      (* the object's own __reduce_ex__ *)

(** is a class of that module and name among them? [dill/_dill.py:122, 132, 134] *)
Definition has_class (p : string * string) (c : cls) : bool := existsb (eqb p) (mro c).

(** numpyufunc(obj_type) [dill/_dill.py:131-132] *)
Definition numpyufunc (c : cls) : bool := has_class ("numpy", "ufunc") c.
(** numpydtype(obj_type) [dill/_dill.py:133-138] *)
Definition numpydtype (c : cls) : bool := if negb (has_class ("numpy", "dtype") c) then false else dtype_meta c.
(** ndarraysubclassinstance(obj_type) [dill/_dill.py:121-130] *)
Definition ndarraysubclassinstance (c : cls) : bool :=
  if negb (has_class ("numpy", "ndarray") c) then false
  else if own_reduce_ex c || own_reduce c then false
  else true.

(** Pickler.dispatch: class -> save function; classes are numbered [dill/_dill.py:314-335] *)
Definition table := list (nat * saver).

(** the registrations made by Pickler.save for an object of class [t]; [numpy]: numpy is installed [dill/_dill.py:376-418] *)
Definition hack (numpy : bool) (D : table) (t : nat) (c : cls) : table :=
  if numpy && negb (is_type c || has t D) then
    let D1 := if numpyufunc c then set t SUfunc D else D in
    let D2 := if numpydtype c then set t SDtype D1 else D1 in
    if ndarraysubclassinstance c then set t SArray D2 else D2
  else D.

(** the lookup of the standard pickler: self.dispatch.get(t), with MetaCatchingDict.__missing__; copyreg's table; reduce [dill/_dill.py:324-335, 423] *)
Definition lookup (D : table) (copyreg : list (nat * nat)) (t : nat) (c : cls) : saver :=
  match get t D with
  | Some s => s
  | None => if metaclass c then SType
            else match get t copyreg with Some n => SCopyreg n | None => SReduce end
  end.

(** Pickler.save of an object of class [t]: the table afterwards and the function that saves it [dill/_dill.py:376-423] *)
Definition save (numpy : bool) (D : table) (copyreg : list (nat * nat)) (t : nat) (c : cls) : table * saver :=
  let D' := hack numpy D t c in (D', lookup D' copyreg t c).

(** what a program does between two dumps: dill.register / dill.pickle, copyreg.pickle, a change of a class, a dump [dill/_dill.py:376-423, 470-482] *)
Inductive event : Type :=
| Register (t n : nat)
| Copyreg (t n : nat)
| Change (t : nat) (c : cls)
| Dump (t : nat).
(** the state of the process [dill/_dill.py:376-423] *)
Record state : Type := State { dispatch : table; copyregs : list (nat * nat); classes : list (nat * cls) }.
(** one event, and the save function a dump used [dill/_dill.py:376-423, 470-482] *)
Definition step (numpy : bool) (s : state) (e : event) : state * option saver :=
  match e with
  | Register t n => (State (set t (SUser n) (dispatch s)) (copyregs s) (classes s), None)
  | Copyreg t n => (State (dispatch s) (set t n (copyregs s)) (classes s), None)
  | Change t c => (State (dispatch s) (copyregs s) (set t c (classes s)), None)
  | Dump t =>
      match get t (classes s) with
      | Some c => let (D, f) := save numpy (dispatch s) (copyregs s) t c in (State D (copyregs s) (classes s), Some f)
      | None => (s, None)
      end
  end.
(** [dill/_dill.py:376-423] *)
Fixpoint run (numpy : bool) (s : state) (l : list event) : state :=
  match l with [] => s | e :: r => run numpy (fst (step numpy s e)) r end.

(** ** the contents *)
(** an array: its class, data (shape, type, bytes) and __dict__, None for a plain ndarray [dill/_dill.py:408-418] *)
Record array : Type := Array { a_class : nat; a_data : nat; a_dict : option (list (string * nat)) }.
(** what save_numpy_array stores: the class for the reconstructing function, the state, the __dict__ [dill/_dill.py:411-416] *)
Definition save_array (a : array) : nat * nat * option (list (string * nat)) := (a_class a, a_data a, a_dict a).
(** _create_array: [finalize t] is the __dict__ that a new array of class [t] has after __array_finalize__ [dill/_dill.py:982-989] *)
Definition create_array (finalize : nat -> option (list (string * nat))) (p : nat * nat * option (list (string * nat))) : array :=
  let '(t, d, npdict) := p in
  Array t d (match npdict with
             | None => finalize t
             | Some upd => match finalize t with Some own => Some (update own upd) | None => Some upd end
             end).
