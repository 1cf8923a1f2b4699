(** Pickling module objects: _is_builtin_module (dill/_dill.py:1689-1706), _is_imported_module (1708-1709), save_module (1711-1755) and
    loading what it writes: _import_module (NamesModel), BUILD with a dictionary (pickle.py load_build: inst.__dict__ is updated).
    Simplified: IPYTHON_SINGLETONS is () as outside IPython; modules define no __setstate__; os.path.realpath is a parameter; the values of
    the saved dictionary are copied by a parameter (copying is CoreModel's). *)
From Coq Require Import String Ascii List Bool Arith.
From Verif Require Import PyDict NamesModel.
Import ListNotations.
Local Open Scope string_scope.

Notation oid := nat (only parsing).
(** s.endswith(x), x in s [str methods used in dill/_dill.py:1689-1706] *)
Fixpoint endswith (x s : string) : bool :=
  if string_dec s x then true else match s with EmptyString => false | String _ s' => endswith x s' end.
(** [str methods used in dill/_dill.py:1689-1706] *)
Fixpoint contains (x s : string) : bool :=
  startswith x s || match s with EmptyString => false | String _ s' => contains x s' end.

(** the __file__ of a module: no such attribute, None, or a path [what is read of a module and of the interpreter in dill/_dill.py:1689-1709] *)
Inductive file_attr := NoFile | FileNone | File (f : string).
(** [what is read of a module and of the interpreter in dill/_dill.py:1689-1709] *)
Record minfo := MInfo { m_name : string; m_file : file_attr; m_loader : bool (* __loader__ is not None *) }.
(** the interpreter: sys.prefix and the like that exist, os.path.realpath, importlib.machinery.EXTENSION_SUFFIXES [what is read of a module and of the interpreter in dill/_dill.py:1689-1709] *)
Record interp := Interp { prefixes : list string; realpath : string -> string; ext_suffixes : list string }.

(** [dill/_dill.py:1689-1706] *)
Definition is_builtin_module (P : interp) (i : minfo) : bool :=
  match m_file i with
  | NoFile => true
  | FileNone => false
  | File f => existsb (fun p => startswith p f || startswith (realpath P p) (realpath P f)) (prefixes P)
              || existsb (fun x => endswith x f) (ext_suffixes P)
              || contains "site-packages" f
  end.
(** [dill/_dill.py:1708-1709] *)
Definition is_imported_module (E : env) (i : minfo) (o : oid) : bool := m_loader i || existsb (fun p => Nat.eqb (snd p) o) (modules E).

(** what is written for a module [dill/_dill.py:1711-1755] *)
Inductive saved :=
  | PState (name : string) (d : dict string oid)   (* _import_module(name), then BUILD with the dictionary *)
  | PName (name : string)                           (* _import_module(name) *)
  | PDill.                                          (* the global dill._dill *)
(** [dill/_dill.py:1711-1755] *)
Definition save_module (P : interp) (E : env) (is_main : bool) (i : minfo) (o : oid) : saved :=
  if (negb (memb (m_name i) ["builtins"; "dill"; "dill._dill"]) && negb (is_builtin_module P i)) || is_main then
    PState (if is_imported_module E i o then m_name i else "__runtime__." ++ m_name i)
           (del "__loader__" (del "__builtins__" (attr E o)))
  else if String.eqb (m_name i) "dill._dill" then PDill else PName (m_name i).

(** object [o] gets the attributes [d] [_import_module, dill/_dill.py:1057-1074, and BUILD of pickle.py on what 1711-1755 saves] *)
Definition set_attrs (E : env) (o : oid) (d : dict string oid) : env :=
  {| modules := modules E; attr := fun x => if Nat.eqb x o then d else attr E x; is_mod_or_type := is_mod_or_type E; none := none E;
     none_type := none_type E; name_mapping := name_mapping E; import_mapping := import_mapping E; rev_name_mapping := rev_name_mapping E;
     rev_import_mapping := rev_import_mapping E |}.
(** loading: the object, and the process afterwards [_import_module, dill/_dill.py:1057-1074, and BUILD of pickle.py on what 1711-1755 saves] *)
Definition load_module_ref (cp : oid -> oid) (E : env) (p : saved) : res (oid * env) :=
  match p with
  | PName n => match _import_module E n false with Ok o => Ok (o, E) | Err e => Err e end
  | PState n d =>
    match _import_module E n false with
    | Ok o => Ok (o, set_attrs E o (update (attr E o) (map (fun kv => (fst kv, cp (snd kv))) d)))
    | Err e => Err e
    end
  | PDill => match import_ E "dill" with
             | Ok m => match getattr E m "_dill" with Ok o => Ok (o, E) | Err e => Err e end
             | Err e => Err e end
  end.
