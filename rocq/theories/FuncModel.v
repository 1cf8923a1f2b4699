(** Function attributes: the tuple save_function stores (dill/_dill.py:1986-2049), _create_function
    (604-618), FunctionType and pickle's BUILD.  What happens to the values themselves (copying,
    sharing, cycles) is in CoreModel; here a value stands for itself and its copy. *)
From Coq Require Import String List Bool Arith.
From Verif Require Import PyDict.
Import ListNotations.
Local Open Scope string_scope.

Notation value := nat (only parsing).
(** [None; not in /repo] *)
Definition VNone : nat := 0.

(** a code object, as far as FunctionType reads it: co_qualname (3.11+) and the docstring constant [obj.__code__, dill/_dill.py:2047; CPython Objects/funcobject.c] *)
Record code := Code { co_id : value; co_qualname : string; co_doc : value }.
(** a function; [f_module] is __module__, any object, None if unset; [f_dict] None: a __dict__ whose
    type is not exactly dict (value given by [f_odd_dict]) [what dill/_dill.py:1961-2049 reads of a function] *)
Record func := Func {
  f_code : code; f_name : string; f_qualname : string; f_module : value; f_doc : value;
  f_defaults : value; f_kwdefaults : value; f_annotations : value; f_type_params : value;
  f_dict : option (dict string value); f_odd_dict : value; f_closure : value;
}.

(** the interpreter: 3.11 and later have co_qualname [the interpreter; not in /repo] *)
Record version := Version { has_co_qualname : bool }.

(** the globals dictionary handed to _create_function: either a fresh {'__name__': obj.__module__}, or
    the dictionary of the module, by reference [dill/_dill.py:1991-2014] *)
Inductive globs := GFresh (name : value) | GModule (name : option value).
(** [globs["__name__"], dill/_dill.py:2036] *)
Definition globs_name (g : globs) : option value := match g with GFresh n => Some n | GModule n => n end.

(** what is pickled [dill/_dill.py:2046-2049] *)
Record saved := Saved {
  s_code : code; s_globs : globs; s_name : string; s_defaults : value; s_closure : value;
  s_state : option (dict string value);             (* goes to __dict__ *)
  s_slots : dict string (value + string);           (* set with setattr *)
}.

(** save_function, lines 2001-2049.  [module_globals]: the function's globals are the dictionary of its
    module (or of the session's module), with that '__name__' entry; else None *)
Definition save_function (module_globals : option (option value)) (f : func) : saved :=
  let g := match module_globals with Some n => GModule n | None => GFresh (f_module f) end in
  let d : dict string (value + string) := [] in
  let add (n : string) (v : value) d := if Nat.eqb v VNone then d else set n (inl v) d in
  let d := add "__annotations__" (f_annotations f) (add "__kwdefaults__" (f_kwdefaults f) (add "__doc__" (f_doc f) d)) in
  let d := if String.eqb (f_qualname f) (f_name f) then d else set "__qualname__" (inr (f_qualname f)) d in
  let d := match globs_name g with
           | Some n => if Nat.eqb (f_module f) n then d else set "__module__" (inl (f_module f)) d
           | None => set "__module__" (inl (f_module f)) d
           end in
  let d := match f_dict f with Some _ => d | None => set "__dict__" (inl (f_odd_dict f)) d end in
  {| s_code := f_code f; s_globs := g; s_name := f_name f; s_defaults := f_defaults f; s_closure := f_closure f;
     s_state := f_dict f; s_slots := d |}.

(** FunctionType(code, globals, name, defaults, closure), CPython funcobject.c PyFunction_NewWithQualName
    and func_new: __qualname__ from the code (3.11+, before: the name), __doc__ from the code's constants,
    __module__ from globals['__name__'] (None if absent), no annotations: getattr gives an empty
    dictionary [empty]. [empty_tuple]: __type_params__ of a new function. *)
Definition new_function (v : version) (empty empty_tuple : value) (c : code) (gname : option value) (name : string) (defaults closure : value) : func :=
  {| f_code := c; f_name := name; f_qualname := if has_co_qualname v then co_qualname c else name;
     f_module := match gname with Some n => n | None => VNone end; f_doc := co_doc c;
     f_defaults := defaults; f_kwdefaults := VNone; f_annotations := empty; f_type_params := empty_tuple;
     f_dict := Some []; f_odd_dict := VNone; f_closure := closure |}.

(** setattr on a function [CPython Objects/funcobject.c; the state of dill/_dill.py:2029-2044 is set by it] *)
Definition setattr (f : func) (n : string) (x : value + string) : func :=
  let (code, name, qualname, module, doc, defaults, kwdefaults, annotations, tp, d, od, closure) := f in
  match x with
  | inr q => if String.eqb n "__qualname__" then Func code name q module doc defaults kwdefaults annotations tp d od closure else f
  | inl v =>
    if String.eqb n "__doc__" then Func code name qualname module v defaults kwdefaults annotations tp d od closure
    else if String.eqb n "__kwdefaults__" then Func code name qualname module doc defaults v annotations tp d od closure
    else if String.eqb n "__annotations__" then Func code name qualname module doc defaults kwdefaults v tp d od closure
    else if String.eqb n "__module__" then Func code name qualname v doc defaults kwdefaults annotations tp d od closure
    else if String.eqb n "__dict__" then Func code name qualname module doc defaults kwdefaults annotations tp None v closure
    else f
  end.

(** load: _create_function then BUILD (pickle.py load_build).  [gname]: the '__name__' entry of the module
    dictionary in the loading process.  BUILD sees a pair (state, slots), state being skipped when empty or None [dill/_dill.py:604-618; CPython Lib/pickle.py:1712-1733] *)
Definition load_function (v : version) (empty empty_tuple : value) (gname : option value) (s : saved) : func :=
  let f := new_function v empty empty_tuple (s_code s) (match s_globs s with GFresh n => Some n | GModule _ => gname end)
             (s_name s) (s_defaults s) (s_closure s) in
  let f := match s_state s with
           | Some st => {| f_code := f_code f; f_name := f_name f; f_qualname := f_qualname f; f_module := f_module f; f_doc := f_doc f;
                           f_defaults := f_defaults f; f_kwdefaults := f_kwdefaults f; f_annotations := f_annotations f; f_type_params := f_type_params f;
                           f_dict := option_map (fun d => update d st) (f_dict f); f_odd_dict := f_odd_dict f; f_closure := f_closure f |}
           | None => f
           end in
  fold_left (fun f p => setattr f (fst p) (snd p)) (s_slots s) f.
