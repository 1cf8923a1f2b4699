(** Saving a whole module and loading it back, opcode by opcode.
    Models: the part of save_module that pickles a session, dill/_dill.py:1733-1745, and what unpickler.load() in
    load_module, dill/session.py:552, does to the module it is loaded into; _restore_modules, dill/session.py:175-184,
    with what it leaves behind when it fails.  The pickler and unpickler are CoreModel's, looking up imported names
    is StashModel's. *)
From Coq Require Import String Ascii List Bool Arith ZArith.
From Verif Require Import PyDict CoreModel.
Import ListNotations.
Local Open Scope string_scope.

(** the callable of the reduce value, dill/_dill.py:1744, 1057-1074 *)
Definition g_import : val := VA (AGlob (GUser "dill._dill._import_module")) 0.
(** pickler.save_reduce(_import_module, (mod_name,), obj=obj, state=main_dict), dill/_dill.py:1737-1745: [name] is
    mod_name and [d] the namespace without __builtins__ and __loader__ *)
Definition session_obj (name : string) (d : list (val * val)) : obj :=
  ORed false g_import [VA (AStr name) 0] [] [] (SAttrs d None).

(** a value in the namespace of the module that is loaded into: one that was there before, or a loaded one
    [not in /repo] *)
Inductive nsval := Kept (n : nat) | Got (v : val).
(** the object on the unpickler's stack that is the live module: _import_module(name) returns the module itself,
    dill/_dill.py:1057-1074; it is called once, the module then comes from the memo *)
Definition is_live (name : string) (b : obj) : bool :=
  match b with
  | ORed false (VA (AGlob (GUser f)) _) [VA (AStr n) _] _ _ _ =>
      String.eqb f "dill._dill._import_module" && String.eqb n name
  | _ => false
  end.
(** inst.__dict__[k] = v for the items of the state [CPython Lib/pickle.py:1712-1733] *)
Definition ns_update (old : string -> option nsval) (st : state) (n : string) : option nsval :=
  match st with
  | SAttrs d _ => match getitem d (VA (AStr n) 0) with Some v => Some (Got v) | None => old n end
  | _ => old n
  end.
(** the namespace of the live module, when it was [old] before the load and the unpickler is in state [m]: only BUILD
    changes it, dill/session.py:552 *)
Definition namespace (name : string) (old : string -> option nsval) (m : vm) (n : string) : option nsval :=
  match find (is_live name) (heap m) with
  | Some (ORed _ _ _ _ _ st) => ns_update old st n
  | _ => old n
  end.
