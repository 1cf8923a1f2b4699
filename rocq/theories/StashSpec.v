(** Specification for C30. *)
From Coq Require Import String Ascii List Bool Arith.
From Verif Require Import PyDict NamesModel NamesSpec StashModel.
Import ListNotations.
Local Open Scope string_scope.

(** module [m] of sys.modules, other than the module being saved and __main__, binds [n] to [o] *)
Definition provides (W : sworld) (m n : string) (o : oid) : Prop :=
  exists mo, get m (modules (sw_env W)) = Some mo /\ m <> "__main__" /\ m <> "__mp_main__" /\
    sw_is_module W mo = true /\ mo <> sw_main W /\ get n (attr (sw_env W) mo) = Some o.

(** the packages whose objects may be bound under another name (session.py:116-118): these four modules, and concurrent.futures and
    multiprocessing with the modules directly inside them *)
Definition listed_package (m : string) : Prop :=
  In m ["ctypes"; "typing"; "subprocess"; "threading"] \/
  exists p, In p ["concurrent.futures"; "multiprocessing"] /\ (m = p \/ exists w, m = p ++ "." ++ w /\ w <> "" /\ Forall (fun c => is_word c = true) (list_ascii_of_string w)).
(** the objects whose name may differ from the name in the source module: modules, classes,
    functions, methods, capsules, and anything defined by one of a few listed packages *)
Definition renamable (W : sworld) (o : oid) : Prop :=
  sw_as_type W o = true \/ exists m, sw_obj_module W o = Some m /\ listed_package m.

(** [name = o] in the saved module counts as imported *)
Definition imported_name (W : sworld) (name : string) (o : oid) : Prop :=
  o <> sw_main W /\ o <> sw_main_dict W /\
  o <> none (sw_env W) /\ o <> sw_false W /\ o <> sw_true W /\
  ~ (sw_is_module W o = true /\ sw_is_builtin_module W o = true) /\
  ((exists m, provides W m name o) \/
   (renamable W o /\ exists m n, provides W m n o) \/
   (exists m, get m (modules (sw_env W)) = Some o /\ m <> "__main__" /\ m <> "__mp_main__" /\ sw_is_module W o = true /\ has_dot m = false)).

(** the names that the saved session uses for itself *)
Definition reserved (n : string) : Prop :=
  n = "__dill_imported" \/ n = "__dill_imported_as" \/ n = "__dill_imported_top_level".

(** a sane interpreter for this purpose: dictionaries have unique keys, attribute names have no dots,
    no imported module has a name that pickle or dill's unpickler redirects *)
Record sane_world (W : sworld) (proto : nat) (fix_imports : bool) : Prop := {
  sane_modules : wf (modules (sw_env W));
  sane_attrs : forall m mo, get m (modules (sw_env W)) = Some mo -> wf (attr (sw_env W) mo);
  sane_main : wf (attr (sw_env W) (sw_main W));
  sane_names : forall m mo n o, get m (modules (sw_env W)) = Some mo -> get n (attr (sw_env W) mo) = Some o ->
                 has_dot n = false /\ n <> "<locals>";
  sane_redirect : forall m mo n o, get m (modules (sw_env W)) = Some mo -> get n (attr (sw_env W) mo) = Some o ->
                 m <> "__builtin__" /\ m <> "dill.dill" /\
                 (proto < 3 -> fix_imports = true -> to_py3 (sw_env W) (m, n) = (m, n));
  sane_none : none (sw_env W) <> sw_main W /\ none (sw_env W) <> sw_main_dict W;
  sane_reserved : forall n, reserved n -> get n (attr (sw_env W) (sw_main W)) = None;
}.
