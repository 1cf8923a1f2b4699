(** Naming: dill/_dill.py:1057-1074 (_import_module), 1077-1088 (_getattribute), 1090-1104
    (_locate_function), the choice by-reference/by-value in save_function (1962-1963, 2068-2071) and
    save_type (1856-1931, 1911-1931), Unpickler.find_class (437-443), Unpickler.load (452-460), and
    CPython 3.11 pickle.save_global / _Unpickler.find_class that they call. *)
From Coq Require Import String Ascii List Bool Arith.
From Verif Require Import PyDict.
Import ListNotations.
Local Open Scope string_scope.

Notation oid := nat (only parsing).

(** [exceptions of dill/_dill.py:437-443, 1057-1104] *)
Inductive exn := ImportError | AttributeError | KeyError | PicklingError | RecursionError | OtherError (n : nat).
(** [exceptions of dill/_dill.py:437-443, 1057-1104] *)
Inductive res (A : Type) := Ok (a : A) | Err (e : exn).
Arguments Ok {A}. Arguments Err {A}.

(** ** strings *)
(** [name.split('.')] [str methods used in dill/_dill.py:437-443, 1057-1104] *)
Fixpoint split_dot_aux (cur : string) (s : string) : list string :=
  match s with
  | EmptyString => [cur]
  | String c s' => if Ascii.eqb c "." then cur :: split_dot_aux EmptyString s'
                   else split_dot_aux (cur ++ String c EmptyString) s'
  end.
(** [str methods used in dill/_dill.py:437-443, 1057-1104] *)
Definition split_dot (s : string) : list string := split_dot_aux EmptyString s.
(** ['.'.join(items)] [str methods used in dill/_dill.py:437-443, 1057-1104] *)
Fixpoint join_dot (l : list string) : string :=
  match l with [] => "" | [x] => x | x :: l' => x ++ "." ++ join_dot l' end.
(** ['.' in s] [str methods used in dill/_dill.py:437-443, 1057-1104] *)
Fixpoint has_dot (s : string) : bool :=
  match s with EmptyString => false | String c s' => Ascii.eqb c "." || has_dot s' end.
(** [s.startswith(p)] [str methods used in dill/_dill.py:437-443, 1057-1104] *)
Fixpoint startswith (p s : string) : bool :=
  match p, s with
  | EmptyString, _ => true
  | String a p', String b s' => Ascii.eqb a b && startswith p' s'
  | _, EmptyString => false
  end.
(** [name.rpartition('.')[2]] [str methods used in dill/_dill.py:437-443, 1057-1104] *)
Definition last_part (s : string) : string := last (split_dot s) "".

(** ** environment *)
(** A process, as far as naming is concerned.
    [modules]: the modules importable by name (sys.modules after importing them); simplification:
    importing is a lookup without side effects.
    [attr o]: what getattr(o, name) finds.  [is_mod_or_type o]: isinstance(o, (ModuleType, type)).
    [none]: the object None. [sys.modules, getattr and __import__, used in dill/_dill.py:1057-1104] *)
Record env := Env {
  modules : dict string oid;
  attr : oid -> dict string oid;
  is_mod_or_type : oid -> bool;
  none : oid;
  none_type : oid;                       (* type(None) *)
  (* pickle's compatibility tables, used for protocols below 3 *)
  name_mapping : dict (string * string) (string * string);
  import_mapping : dict string string;
  rev_name_mapping : dict (string * string) (string * string);
  rev_import_mapping : dict string string;
}.

(** [sys.modules, getattr and __import__, used in dill/_dill.py:1057-1104] *)
Definition getattr (E : env) (o : oid) (n : string) : res oid :=
  match get n (attr E o) with Some x => Ok x | None => Err AttributeError end.
(** [__import__(m, ..., fromlist)] / [__import__(m); sys.modules[m]]: the module object itself [sys.modules, getattr and __import__, used in dill/_dill.py:1057-1104] *)
Definition import_ (E : env) (m : string) : res oid :=
  match get m (modules E) with Some x => Ok x | None => Err ImportError end.

(** _import_module, dill/_dill.py:1057-1074, with safe=False.  For an undotted name
    [__import__(name)] returns that module. *)
Definition import_module_raw (E : env) (name : string) : res oid :=
  if startswith "__runtime__." name then
    match get name (modules E) with Some x => Ok x | None => Err KeyError end
  else if has_dot name then
    let items := split_dot name in
    let m := join_dot (removelast items) in
    let obj := last items "" in
    match import_ E m with
    | Err e => Err e
    | Ok mo =>
      match getattr E mo obj with
      | Err e => Err e
      | Ok sub => if is_mod_or_type E sub then Ok sub else import_ E name
      end
    end
  else import_ E name.
(** ... with safe: ImportError, AttributeError, KeyError give None. [dill/_dill.py:1057-1074] *)
Definition _import_module (E : env) (name : string) (safe : bool) : res oid :=
  match import_module_raw E name with
  | Ok x => Ok x
  | Err e => match e with
             | ImportError | AttributeError | KeyError => if safe then Ok (none E) else Err e
             | _ => Err e
             end
  end.

(** _getattribute, dill/_dill.py:1077-1088 (and pickle._getattribute): (object, parent) *)
Fixpoint getattribute_path (E : env) (o parent : oid) (path : list string) : res (oid * oid) :=
  match path with
  | [] => Ok (o, parent)
  | sub :: path' =>
    if String.eqb sub "<locals>" then Err AttributeError
    else match getattr E o sub with
         | Err _ => Err AttributeError
         | Ok o' => getattribute_path E o' o path'
         end
  end.
(** [dill/_dill.py:1077-1088] *)
Definition _getattribute (E : env) (o : oid) (name : string) : res (oid * oid) :=
  getattribute_path E o o (split_dot name).

(** A function or class as seen by the savers: identity and the three naming attributes. [what dill/_dill.py:1090-1104, 1856-1931, 1961-2071 read] *)
Record named := Named { n_id : oid; n_module : option string; n_qualname : option string; n_name : string }.

(** The pickler's state that matters: [Some name] when pickling a session whose main module has that
    __name__ ([pickler._session and pickler._main.__name__]; is_dill(pickler, child=False) is true
    for dill's own Pickler), the protocol, fix_imports and _byref. [what dill/_dill.py:1090-1104, 1856-1931, 1961-2071 read] *)
Record pickler := Pickler { session_main : option string; proto : nat; fix_imports : bool; byref : bool }.

(** _locate_function, dill/_dill.py:1090-1104 *)
Definition _locate_function (E : env) (p : pickler) (o : named) : bool :=
  match n_module o with
  | None => false
  | Some m =>
    if String.eqb m "__main__" then false
    else if match session_main p with Some s => String.eqb m s | None => false end then false
    else match n_qualname o with
         | Some q =>
           match _import_module E m true with
           | Err _ => false   (* not reached: safe *)
           | Ok mo => match _getattribute E mo q with
                      | Ok (found, _) => Nat.eqb found (n_id o)
                      | Err _ => false
                      end
           end
         | None =>
           match _import_module E (m ++ "." ++ n_name o) true with
           | Ok found => Nat.eqb found (n_id o)
           | Err _ => false
           end
         end
  end.

(** What a by-reference save writes: STACK_GLOBAL/GLOBAL module name, a getattr reduction on the
    parent for nested names below protocol 4, or (for that parent) something saved by value. [pickle.py save_global and whichmodule, called in dill/_dill.py:1930, 2071] *)
Inductive ref := RGlobal (m n : string) | RGetattr (r : ref) (n : string) | RByValue (o : oid).

Section Save.
  Variable E : env.
  Variable p : pickler.
  (** the naming attributes of any object reached as a parent *)
  Variable describe : oid -> named.
  (** which objects are saved through save_function/save_type at all *)
  Variable is_fun_or_class : oid -> bool.

  (** pickle.whichmodule: obj.__module__, or a search through sys.modules, or '__main__'.
      Simplification: for an object without __module__ the search result is left open
      ([other_module]); it does not matter below because save_global re-checks it. *)
  Variable other_module : oid -> string.
  (** [pickle.py save_global and whichmodule, called in dill/_dill.py:1930, 2071] *)
  Definition whichmodule (o : named) : string :=
    match n_module o with Some m => m | None => other_module (n_id o) end.

  (** pickle save_global (3.11), with name = __qualname__ or __name__ (dill/_dill.py:1911-1931, 2070).
      The extension registry is not modelled (dill never uses it). *)
  Fixpoint save_global (fuel : nat) (o : named) : res ref :=
    match fuel with
    | O => Err RecursionError
    | S fuel =>
      let name := match n_qualname o with Some q => q | None => n_name o end in
      let m := whichmodule o in
      match import_ E m with
      | Err _ => Err PicklingError
      | Ok mo =>
        match _getattribute E mo name with
        | Err _ => Err PicklingError
        | Ok (o2, parent) =>
          if negb (Nat.eqb o2 (n_id o)) then Err PicklingError
          else
            let lastname := last_part name in
            let name := if Nat.eqb parent mo then lastname else name in
            if Nat.leb 4 (proto p) then Ok (RGlobal m name)
            else if negb (Nat.eqb parent mo) then
              (* self.save_reduce(getattr, (parent, lastname)): the parent is saved first *)
              match (if is_fun_or_class parent && _locate_function E p (describe parent)
                     then save_global fuel (describe parent) else Ok (RByValue parent)) with
              | Ok r => Ok (RGetattr r lastname)
              | Err e => Err e
              end
            else if Nat.leb 3 (proto p) then Ok (RGlobal m name)
            else if fix_imports p then
              match get (m, name) (rev_name_mapping E) with
              | Some (m', n') => Ok (RGlobal m' n')
              | None => match get m (rev_import_mapping E) with
                        | Some m' => Ok (RGlobal m' name)
                        | None => Ok (RGlobal m name)
                        end
              end
            else Ok (RGlobal m name)
        end
      end
    end.

  (** [dill/_dill.py:1856-1931, 1961-2071] *)
  Inductive saved := ByRef (r : ref) | ByValue.
  (** save_function, dill/_dill.py:1962-1963 and 2068-2071 *)
  Definition save_function (fuel : nat) (o : named) : res saved :=
    if _locate_function E p o then
      match save_global fuel o with Ok r => Ok (ByRef r) | Err e => Err e end
    else Ok ByValue.
  (** save_type, the last branch, dill/_dill.py:1856-1931.  [recursive]: id(obj) in pickler._postproc *)
  Definition save_type (fuel : nat) (recursive : bool) (o : named) : res saved :=
    if negb (byref p) && negb recursive && negb (_locate_function E p o) then Ok ByValue
    else match save_global fuel o with Ok r => Ok (ByRef r) | Err e => Err e end.
End Save.

(** ** loading *)
(** what find_class can return: an object, or the main module's dictionary [pickle.py find_class, called in dill/_dill.py:443] *)
Inductive found := FObj (o : oid) | FMainDict.

(** pickle._Unpickler.find_class (3.11), with the unpickler's protocol (of the pickle being read) [pickle.py find_class, called in dill/_dill.py:443] *)
Definition stock_find_class (E : env) (proto : nat) (fix_imports : bool) (m n : string) : res oid :=
  let (m, n) :=
    if Nat.ltb proto 3 && fix_imports then
      match get (m, n) (name_mapping E) with
      | Some mn => mn
      | None => match get m (import_mapping E) with Some m' => (m', n) | None => (m, n) end
      end
    else (m, n) in
  match import_ E m with
  | Err e => Err e
  | Ok mo => if Nat.leb 4 proto then
               match _getattribute E mo n with Ok (o, _) => Ok o | Err e => Err e end
             else getattr E mo n
  end.

(** Unpickler.find_class, dill/_dill.py:437-443 *)
Definition find_class (E : env) (proto : nat) (fix_imports : bool) (m n : string) : res found :=
  if String.eqb m "__builtin__" && String.eqb n "__main__" then Ok FMainDict
  else if String.eqb m "__builtin__" && String.eqb n "NoneType" then Ok (FObj (none_type E))
  else let m := if String.eqb m "dill.dill" then "dill._dill" else m in
       match stock_find_class E proto fix_imports m n with Ok o => Ok (FObj o) | Err e => Err e end.

(** reading back what save_global wrote [reading back with dill/_dill.py:437-443] *)
Fixpoint load_ref (E : env) (proto : nat) (fix_imports : bool) (r : ref) : res found :=
  match r with
  | RGlobal m n => find_class E proto fix_imports m n
  | RGetattr r n => match load_ref E proto fix_imports r with
                    | Ok (FObj o) => match getattr E o n with Ok x => Ok (FObj x) | Err e => Err e end
                    | Ok FMainDict => Err AttributeError
                    | Err e => Err e
                    end
  | RByValue _ => Err PicklingError
  end.

(** ** Unpickler.load, dill/_dill.py:452-460 *)
Record cls := Cls { c_id : oid; c_module : string; c_name : string }.
(** result of the assignment obj.__class__ = x [dill/_dill.py:452-460] *)
Inductive assigned := AOk (c : cls) | AAttributeError | ATypeError | AOther (e : exn).
(** [main_name]: getattr(_main_module, '__name__', '__main__');
    [main_attr n]: getattr(self._main, n), None for AttributeError;
    [assign v]: the effect of obj.__class__ = v.  The result is the object's class afterwards. [dill/_dill.py:452-460] *)
Definition load_class (main_name : string) (main_attr : string -> option oid)
    (assign : oid -> assigned) (ignore : bool) (c : cls) : res cls :=
  if String.eqb (c_module c) main_name then
    if negb ignore then
      match main_attr (c_name c) with
      | None => Ok c
      | Some v => match assign v with
                  | AOk c' => Ok c'
                  | AAttributeError | ATypeError => Ok c
                  | AOther e => Err e
                  end
      end
    else Ok c
  else Ok c.
