(** refimported sessions: dill/session.py:94-111 (_module_map), 113-118 (the IMPORTED_AS constants), 120-131
    (_lookup_module), 133-173 (_stash_modules), 175-184 (_restore_modules), with the part of
    save_module that picks the stored name and state, dill/_dill.py:1708-1709, 1733-1745.
    Importing, getattr and find_class are those of NamesModel. *)
From Coq Require Import String Ascii List Bool Arith.
From Verif Require Import PyDict NamesModel.
Import ListNotations.
Local Open Scope string_scope.

(** What the classification asks about objects.  [sw_env E]: sys.modules is [modules E]; a module's
    __dict__ is [attr E m] (simplification: getattr on a module reads its __dict__). [what dill/session.py:94-131 asks about objects and names] *)
Record sworld := SWorld {
  sw_env : env;
  sw_is_module : oid -> bool;             (* isinstance(o, ModuleType) *)
  sw_is_builtin_module : oid -> bool;     (* _is_builtin_module(o), dill/_dill.py:1689-1706 *)
  sw_as_type : oid -> bool;               (* isinstance(o, IMPORTED_AS_TYPES) *)
  sw_obj_module : oid -> option string;   (* getattr(o, '__module__', None) *)
  sw_false : oid; sw_true : oid;
  sw_main : oid;                          (* main_module *)
  sw_main_dict : oid;                     (* the dictionary object main_module.__dict__ *)
  sw_main_name : string;                  (* main_module.__name__ *)
}.

(** IMPORTED_AS_MODULES, session.py:116-118; \w is restricted to ASCII *)
Definition is_word (c : ascii) : bool :=
  let n := nat_of_ascii c in
  (Nat.leb 48 n && Nat.leb n 57) || (Nat.leb 65 n && Nat.leb n 90) || (Nat.leb 97 n && Nat.leb n 122) || Nat.eqb n 95.
(** [what dill/session.py:94-131 asks about objects and names] *)
Fixpoint all_word (s : string) : bool :=
  match s with EmptyString => true | String c s' => is_word c && all_word s' end.
(** fullmatch of p followed by an optional dot and word [what dill/session.py:94-131 asks about objects and names] *)
Definition opt_sub (p s : string) : bool :=
  String.eqb s p ||
  (startswith (p ++ ".") s &&
   let r := substring (String.length p + 1) (String.length s) s in negb (String.eqb r "") && all_word r).
(** [what dill/session.py:94-131 asks about objects and names] *)
Definition imported_as_module (m : string) : bool :=
  String.eqb m "ctypes" || String.eqb m "typing" || String.eqb m "subprocess" || String.eqb m "threading"
  || opt_sub "concurrent.futures" m || opt_sub "multiprocessing" m.

(** _module_map: the modules looked at, session.py:103-105 *)
Definition mapped (W : sworld) : list (string * oid) :=
  filter (fun p => negb (String.eqb (fst p) "__main__" || String.eqb (fst p) "__mp_main__") && sw_is_module W (snd p))
         (modules (sw_env W)).
(** by_name[objname] and by_id[id(obj)] as the list of all (modobj, objname, modname), session.py:108-110 *)
Definition entries (W : sworld) : list (oid * string * string) :=
  flat_map (fun p => map (fun q => (snd q, fst q, fst p)) (attr (sw_env W) (snd p))) (mapped W).
(** top_level: later modules overwrite earlier ones, session.py:106-107 *)
Definition top_level (W : sworld) : dict oid string :=
  fold_left (fun d p => if has_dot (fst p) then d else set (snd p) (fst p) d) (mapped W) [].

(** sys.modules[modname] is not main_module [what dill/session.py:94-131 asks about objects and names] *)
Definition not_main (W : sworld) (modname : string) : bool :=
  match get modname (modules (sw_env W)) with Some m => negb (Nat.eqb m (sw_main W)) | None => false end.

(** _lookup_module, session.py:120-131 *)
Definition _lookup_module (W : sworld) (name : string) (obj : oid) : option (string * string) :=
  match find (fun e => String.eqb (snd (fst e)) name && Nat.eqb (fst (fst e)) obj && not_main W (snd e)) (entries W) with
  | Some e => Some (snd e, name)
  | None =>
    if sw_as_type W obj || match sw_obj_module W obj with Some m => imported_as_module m | None => false end then
      match find (fun e => Nat.eqb (fst (fst e)) obj && not_main W (snd e)) (entries W) with
      | Some e => Some (snd e, snd (fst e))
      | None => None
      end
    else None
  end.

(** A value in a stashed namespace [newmod.__dict__, dill/session.py:133-173] *)
Inductive sval :=
| VObj (o : oid) | VNewMod | VNewDict | VStr (s : string) | VTrue
| VImp (l : list (string * string)) | VImpAs (l : list (string * string * string)) | VImpTop (l : list (string * string)).

(** [dill/session.py:141-161] *)
Inductive class := COrig (v : sval) | CImp (m : string) | CImpAs (m o : string) | CTop (m : string).

(** the chain of tests in _stash_modules, session.py:141-161 *)
Definition classify (W : sworld) (name : string) (obj : oid) : class :=
  if Nat.eqb obj (sw_main W) then COrig VNewMod
  else if Nat.eqb obj (sw_main_dict W) then COrig VNewDict
  else if (Nat.eqb obj (none (sw_env W)) || Nat.eqb obj (sw_false W) || Nat.eqb obj (sw_true W))
          || (sw_is_module W obj && sw_is_builtin_module W obj) then COrig (VObj obj)
  else match _lookup_module W name obj with
       | Some (m, o) => if String.eqb o name then CImp m else CImpAs m o
       | None => match get obj (top_level W) with
                 | Some m => CTop m
                 | None => COrig (VObj obj)
                 end
       end.

(** [dill/session.py:133-173] *)
Record stash := Stash {
  original : dict string sval;
  imported : list (string * string);
  imported_as : list (string * string * string);
  imported_top_level : list (string * string);
}.
(** the loop of _stash_modules, session.py:141-161 *)
Definition stash_step (W : sworld) (s : stash) (p : string * oid) : stash :=
  let (name, obj) := p in
  match classify W name obj with
  | COrig v => {| original := set name v (original s); imported := imported s; imported_as := imported_as s; imported_top_level := imported_top_level s |}
  | CImp m => {| original := original s; imported := imported s ++ [(m, name)]; imported_as := imported_as s; imported_top_level := imported_top_level s |}
  | CImpAs m o => {| original := original s; imported := imported s; imported_as := imported_as s ++ [(m, o, name)]; imported_top_level := imported_top_level s |}
  | CTop m => {| original := original s; imported := imported s; imported_as := imported_as s; imported_top_level := imported_top_level s ++ [(m, name)] |}
  end.
(** [dill/session.py:133-173] *)
Definition stash_loop (W : sworld) : stash :=
  fold_left (stash_step W) (attr (sw_env W) (sw_main W)) {| original := []; imported := []; imported_as := []; imported_top_level := [] |}.

(** ModuleType(name).__dict__ [dill/session.py:135, 168] *)
Definition fresh_dict (W : sworld) : dict string sval :=
  [("__name__", VStr (sw_main_name W)); ("__doc__", VObj (none (sw_env W))); ("__package__", VObj (none (sw_env W)));
   ("__loader__", VObj (none (sw_env W))); ("__spec__", VObj (none (sw_env W)))].

(** _is_imported_module(main_module), dill/_dill.py:1708-1709 *)
Definition main_imported (W : sworld) : bool :=
  match get "__loader__" (attr (sw_env W) (sw_main W)) with Some o => negb (Nat.eqb o (none (sw_env W))) | None => false end
  || existsb (fun p => Nat.eqb (snd p) (sw_main W)) (modules (sw_env W)).

(** [dill/session.py:135, 168] *)
Definition is_none (W : sworld) (v : sval) : bool :=
  match v with VObj o => Nat.eqb o (none (sw_env W)) | _ => false end.

(** the module _stash_modules returns: [Some d] a new module with namespace d, [None] main_module
    itself; session.py:168-180 *)
Definition _stash_modules (W : sworld) : option (dict string sval) :=
  let s := stash_loop W in
  if Nat.ltb (length (original s)) (length (attr (sw_env W) (sw_main W))) then
    let d := update (fresh_dict W) (original s) in
    let d := set "__dill_imported" (VImp (imported s)) d in
    let d := set "__dill_imported_as" (VImpAs (imported_as s)) d in
    let d := set "__dill_imported_top_level" (VImpTop (imported_top_level s)) d in
    let no_loader := match get "__loader__" d with Some v => is_none W v | None => true end in
    Some (if no_loader && main_imported W then set "__loader__" VTrue d else d)
  else None.

(** the namespace of the module handed to the pickler [dill/session.py:163-173] *)
Definition saved_dict (W : sworld) : dict string sval :=
  match _stash_modules W with
  | Some d => d
  | None => map (fun p => (fst p, VObj (snd p))) (attr (sw_env W) (sw_main W))
  end.
(** save_module's state, dill/_dill.py:1739-1745 (IPython's own variables left out) *)
Definition saved_state (W : sworld) : dict string sval :=
  del "__loader__" (del "__builtins__" (saved_dict W)).
(** save_module's mod_name, line 1737, for the module handed to the pickler: a new module is not in
    sys.modules *)
Definition saved_name (W : sworld) : string :=
  let imp := match _stash_modules W with
             | Some d => match get "__loader__" d with Some v => negb (is_none W v) | None => false end
             | None => main_imported W
             end in
  if imp then sw_main_name W else "__runtime__." ++ sw_main_name W.

(** ** loading *)
(** The value a saved value loads as.  [cp] is what pickling and unpickling one object gives (see
    CoreModel); the module being saved and its dictionary load as the target module (save_module's
    REDUCE, memo) and its dictionary (save_module_dict's D1, Unpickler.find_class).  The lists of
    imported names load as themselves. [pickle.py BUILD and the loading of dill/session.py:552] *)
Inductive lval := LObj (o : oid) | LStr (s : string) | LImp (l : list (string * string))
                | LImpAs (l : list (string * string * string)) | LImpTop (l : list (string * string)).
(** [pickle.py BUILD and the loading of dill/session.py:552] *)
Definition load_val (W : sworld) (cp : oid -> oid) (target target_dict : oid) (v : sval) : lval :=
  match v with
  | VObj o => if Nat.eqb o (sw_main W) then LObj target
              else if Nat.eqb o (sw_main_dict W) then LObj target_dict else LObj (cp o)
  | VNewMod => LObj target
  | VNewDict => LObj target_dict
  | VStr s => LStr s
  | VTrue => LObj (cp (sw_true W))
  | VImp l => LImp l | VImpAs l => LImpAs l | VImpTop l => LImpTop l
  end.
(** BUILD on a module: update of its __dict__ with the state [pickle.py BUILD and the loading of dill/session.py:552] *)
Definition build (W : sworld) (cp : oid -> oid) (target target_dict : oid) (d0 : dict string lval) : dict string lval :=
  update d0 (map (fun p => (fst p, load_val W cp target target_dict (snd p))) (saved_state W)).

(** _restore_modules, session.py:175-184.  [fc m n] is unpickler.find_class(m, n), [imp m] is
    __import__(m) (undotted names only).  KeyError anywhere in the try block ends it silently. *)
Section Restore.
  Variable fc : string -> string -> res oid.
  Variable imp : string -> res oid.
  (** [dill/session.py:175-184] *)
  Fixpoint assign_all {A} (look : A -> res oid) (key : A -> string) (l : list A) (d : dict string lval) : option exn * dict string lval :=
    match l with
    | [] => (None, d)
    | x :: l' => match look x with
                 | Ok o => assign_all look key l' (set (key x) (LObj o) d)
                 | Err e => (Some e, d)
                 end
    end.
  (** [dill/session.py:175-184] *)
  Definition finish (r : option exn * dict string lval) : res (dict string lval) :=
    match r with (Some KeyError, d) => Ok d | (Some e, _) => Err e | (None, d) => Ok d end.
  (** [dill/session.py:175-184] *)
  Definition _restore_modules (d : dict string lval) : res (dict string lval) :=
    match get "__dill_imported" d with
    | Some (LImp l1) =>
      match assign_all (fun x => fc (fst x) (snd x)) snd l1 (del "__dill_imported" d) with
      | (None, d) =>
        match get "__dill_imported_as" d with
        | Some (LImpAs l2) =>
          match assign_all (fun x => fc (fst (fst x)) (snd (fst x))) snd l2 (del "__dill_imported_as" d) with
          | (None, d) =>
            match get "__dill_imported_top_level" d with
            | Some (LImpTop l3) => finish (assign_all (fun x => imp (fst x)) snd l3 (del "__dill_imported_top_level" d))
            | _ => Ok (del "__dill_imported_top_level" d)
            end
          | r => finish r
          end
        | _ => Ok (del "__dill_imported_as" d)
        end
      | r => finish r
      end
    | _ => Ok (del "__dill_imported" d)        (* pop raises KeyError; a foreign value: see hypotheses *)
    end.
End Restore.

(** find_class as used by _restore_modules; an attribute equal to __main__'s dictionary object [unpickler.find_class, dill/_dill.py:437-443, called in dill/session.py:175-184] *)
Definition fc_of (W : sworld) (target_dict : oid) (proto : nat) (fix_imports : bool) (m n : string) : res oid :=
  match find_class (sw_env W) proto fix_imports m n with
  | Ok (FObj o) => Ok o
  | Ok FMainDict => Ok target_dict
  | Err e => Err e
  end.

(** dump_module(refimported=True) then load_module into [target] whose namespace was [d0] [dill/session.py:277-319 then 488-565] *)
Definition session_roundtrip (W : sworld) (cp : oid -> oid) (target target_dict : oid)
    (proto : nat) (fix_imports : bool) (d0 : dict string lval) : res (dict string lval) :=
  _restore_modules (fc_of W target_dict proto fix_imports) (import_ (sw_env W))
    (build W cp target target_dict d0).
