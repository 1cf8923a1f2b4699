(** dill/_dill.py: _create_capsule (1004-1032); save_module_dict (1245-1268).
    A dotted name is the list of its components; __import__(name) on success returns the top-level package. *)
From Coq Require Import String List Bool Arith.
Import ListNotations.

(** * capsules *)
Notation oid := nat (only parsing).
(** what __import__ of a dotted name does: loads it (the package and its submodules are then there), raises ImportError, or raises something else [__import__, as dill/_dill.py:1011-1014 uses it] *)
Inductive import_result := Imported | NoModule | ImportRaises.
(** [what dill/_dill.py:1004-1032 looks at] *)
Record cenv := CEnv {
  import_ : list string -> import_result;
  top : string -> oid;                       (* sys.modules[first component], once imported *)
  attr : oid -> string -> option oid;        (* getattr; None: AttributeError *)
  capsule_name : oid -> option (list string) (* of a PyCapsule: its name; None: not a capsule, or without a name *)
}.
(** the capsule found, UnpicklingError, or a new capsule around the pointer in the pickle [the outcomes of dill/_dill.py:1024-1032] *)
Inductive cresult := Found (c : oid) | NotACapsule | NewCapsule (pointer : nat).

(** [dill/_dill.py:1015-1017] *)
Fixpoint getattrs (E : cenv) (o : oid) (l : list string) : option oid :=
  match l with [] => Some o | a :: l => match attr E o a with Some o' => getattrs E o' l | None => None end end.
(** uname.rsplit('.', i): the module part and the i last components [dill/_dill.py:1010] *)
Definition rsplit (name : list string) (i : nat) : list string * list string := (firstn (length name - i) name, skipn (length name - i) name).
(** the loop, from i (as written, no turn reaches the next: each finds the attribute or ends in an exception); [module]: the local variable, unbound at first.  None: not found or an exception (both caught) [dill/_dill.py:1006-1022] *)
Fixpoint find_loop (E : cenv) (name : list string) (module : option oid) (is_ : list nat) : option oid :=
  match is_ with
  | [] => None
  | i :: is_ =>
    let (m, attrs) := rsplit name i in
    let step (module : option oid) :=
      match module with
      | None => None                           (* UnboundLocalError *)
      | Some o => getattrs E o attrs           (* found: break; AttributeError: out of the loop *)
      end in
    match import_ E m with
    | Imported => step (match m with c :: _ => Some (top E c) | [] => None end)
    | NoModule => step module
    | ImportRaises => None
    end
  end.
(** [dill/_dill.py:1004-1032] *)
Definition create_capsule (E : cenv) (pointer : nat) (name : option (list string)) : cresult :=
  match name with
  | None => NewCapsule pointer                 (* name.decode: AttributeError *)
  | Some n =>
    match find_loop E n None (seq 1 (length n - 1)) with
    | Some c => if match capsule_name E c with Some n' => if list_eq_dec string_dec n' n then true else false | None => false end
                then Found c else NotACapsule
    | None => NewCapsule pointer
    end
  end.

(** * save_module_dict *)
(** how a dictionary is stored: c__builtin__ __main__ (D1), c__main__ __dict__ (D3), c<name> __dict__ (D4), or its items (D2) [dill/_dill.py:1245-1268] *)
Inductive stored := D1 | D2 | D3 | D4 (name : string).
(** [what dill/_dill.py:1246-1257 looks at] *)
Record denv := DEnv {
  dill : bool;                               (* is_dill(pickler, child=False) *)
  pmain : oid;                               (* pickler._main.__dict__ *)
  main : oid;                                (* _main_module.__dict__ *)
  deq : oid -> oid -> bool;                  (* dict == *)
  session : bool; first_pass : bool;
  name_of : oid -> option string;            (* obj['__name__'] if it is there and a str *)
  module_dict : string -> option oid         (* getattr(_import_module(name, True), '__dict__', None) *)
}.
(** [dill/_dill.py:1245-1268] *)
Definition save_module_dict (E : denv) (o : oid) : stored :=
  if dill E && deq E o (pmain E) && negb (session E && first_pass E) then D1
  else if negb (dill E) && deq E o (main E) then D3
  else match name_of E o with
       | Some n => if negb (deq E o (main E)) && match module_dict E n with Some o' => Nat.eqb o o' | None => false end then D4 n else D2
       | None => D2
       end.
(** what it loads as, in the same process: an existing dictionary, or a new one [find_class, dill/_dill.py:437-443; CPython Lib/pickle.py:1572-1584] *)
Definition loads_as (E : denv) (s : stored) : option oid :=
  match s with D1 => Some (pmain E) | D3 => Some (main E) | D4 n => module_dict E n | D2 => None end.
