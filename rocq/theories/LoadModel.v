(** load_module and load_module_asdict: dill/session.py:488-565 and 629-662, with
    dill/_dill.py:1057-1074 (_import_module) and 1708-1709 (_is_imported_module). *)
From Coq Require Import String Ascii List Bool Arith.
From Verif Require Import PyDict NamesModel.
Import ListNotations.
Local Open Scope string_scope.

Notation mid := nat (only parsing).

(** A value in sys.modules or in a module's namespace: None, a module object, anything else. [sys.modules, modules and exceptions as used in dill/session.py:488-565, 629-662] *)
Inductive value := VNone | VMod (m : mid) | VAtom (n : nat).

(** A module object: its __name__, whether its __loader__ is set (not None), and the rest of its
    namespace. [sys.modules, modules and exceptions as used in dill/session.py:488-565, 629-662] *)
Record modrec := Mod { m_name : string; m_loader : bool; m_dict : dict string value }.

(** The interpreter state touched: sys.modules, the module objects, and the importable modules that
    are not imported yet.  Importing [n] from [disk] creates a module object with [m_loader] set,
    enters it in sys.modules and, for a dotted name, binds it in its parent package.
    Simplifications: importing runs no user code, and the parent of a submodule on disk must have
    been imported before. [sys.modules, modules and exceptions as used in dill/session.py:488-565, 629-662] *)
Record st := St { sysmod : dict string value; heap : dict mid modrec; disk : dict string (dict string value) }.

(** [sys.modules, modules and exceptions as used in dill/session.py:488-565, 629-662] *)
Inductive exn := ImportError | AttributeError | KeyError | TypeError | ValueError | UnpicklingError
               | AssertionError | LoadFailed (n : nat).
(** [sys.modules, modules and exceptions as used in dill/session.py:488-565, 629-662] *)
Inductive res (A : Type) := Ok (a : A) | Err (e : exn).
Arguments Ok {A}. Arguments Err {A}.

(** [ModuleType(name), sys.modules[name] = and del, getattr and setattr of a module, in dill/session.py:511-565, 629-662] *)
Definition new_mid (s : st) : mid := S (fold_right Nat.max 0 (map fst (heap s))).

(** ModuleType(name) [ModuleType(name), sys.modules[name] = and del, getattr and setattr of a module, in dill/session.py:511-565, 629-662] *)
Definition new_module (name : string) (d : dict string value) (ld : bool) (s : st) : mid * st :=
  let i := new_mid s in
  (i, {| sysmod := sysmod s; heap := set i {| m_name := name; m_loader := ld; m_dict := d |} (heap s); disk := disk s |}).

(** [ModuleType(name), sys.modules[name] = and del, getattr and setattr of a module, in dill/session.py:511-565, 629-662] *)
Definition set_sysmod (n : string) (v : value) (s : st) : st :=
  {| sysmod := set n v (sysmod s); heap := heap s; disk := disk s |}.
(** [ModuleType(name), sys.modules[name] = and del, getattr and setattr of a module, in dill/session.py:511-565, 629-662] *)
Definition del_sysmod (n : string) (s : st) : st :=
  {| sysmod := del n (sysmod s); heap := heap s; disk := disk s |}.
(** [ModuleType(name), sys.modules[name] = and del, getattr and setattr of a module, in dill/session.py:511-565, 629-662] *)
Definition set_attr (m : mid) (n : string) (v : value) (s : st) : st :=
  match get m (heap s) with
  | Some r => {| sysmod := sysmod s; disk := disk s;
                 heap := set m {| m_name := m_name r; m_loader := m_loader r; m_dict := set n v (m_dict r) |} (heap s) |}
  | None => s
  end.
(** [ModuleType(name), sys.modules[name] = and del, getattr and setattr of a module, in dill/session.py:511-565, 629-662] *)
Definition get_attr (m : mid) (n : string) (s : st) : option value :=
  match get m (heap s) with Some r => get n (m_dict r) | None => None end.

(** the import system for one absolute name [__import__, called in dill/_dill.py:1057-1074 and dill/session.py:530] *)
Definition import_abs (n : string) (s : st) : res mid * st :=
  match get n (sysmod s) with
  | Some (VMod m) => (Ok m, s)
  | Some _ => (Err ImportError, s)
  | None =>
    match get n (disk s) with
    | None => (Err ImportError, s)
    | Some d =>
      let items := split_dot n in
      let parent := join_dot (removelast items) in
      if has_dot n then
        match get parent (sysmod s) with
        | Some (VMod p) =>
          let (i, s) := new_module n d true s in
          (Ok i, set_attr p (last items "") (VMod i) (set_sysmod n (VMod i) s))
        | _ => (Err ImportError, s)
        end
      else
        let (i, s) := new_module n d true s in (Ok i, set_sysmod n (VMod i) s)
    end
  end.

(** _import_module, dill/_dill.py:1057-1074, safe=False.  [__import__(m, None, None, [obj])]: imports m,
    and if m has no attribute obj tries to import m.obj (a failure to find it is ignored). *)
Definition _import_module (n : string) (s : st) : res mid * st :=
  if startswith "__runtime__." n then
    match get n (sysmod s) with Some (VMod m) => (Ok m, s) | _ => (Err KeyError, s) end
  else if has_dot n then
    let items := split_dot n in
    let m := join_dot (removelast items) in
    let obj := last items "" in
    match import_abs m s with
    | (Err e, s) => (Err e, s)
    | (Ok p, s) =>
      let s := match get_attr p obj s with Some _ => s | None => snd (import_abs n s) end in
      match get_attr p obj s with
      | Some (VMod sub) => (Ok sub, s)
      | Some _ => import_abs n s
      | None => (Err AttributeError, s)
      end
    end
  else import_abs n s.

(** _is_imported_module, dill/_dill.py:1708-1709 *)
Definition _is_imported_module (m : mid) (s : st) : bool :=
  match get m (heap s) with Some r => m_loader r | None => false end
  || existsb (fun p => match snd p with VMod k => Nat.eqb k m | _ => false end) (sysmod s).

(** What the session file contains: the name stored by save_module (line 1733-1744) and the saved
    namespace; [s_fail]: unpickling raises after restoring this many names.  Simplification:
    unpickling the contents has no other effect on modules. *)
Record session := Session { s_main : string; s_state : list (string * value); s_fail : option nat }.

(** what _identify_module does: find the name, fail (UnpicklingError), or find the stream unpeekable [dill/session.py:363-384] *)
Inductive ident := Name | Unpeekable | Garbage.

(** unpickler.load(): the pickle is REDUCE _import_module(s_main) then BUILD with the saved state [unpickler.load() at dill/session.py:552, the pickle of dill/_dill.py:1711-1755] *)
Definition unpickle (se : session) (s : st) : res mid * st :=
  match _import_module (s_main se) s with
  | (Err e, s) => (Err e, s)
  | (Ok m, s) =>
    let n := match s_fail se with Some k => Nat.min k (length (s_state se)) | None => length (s_state se) end in
    let s := fold_left (fun s p => set_attr m (fst p) (snd p) s) (firstn n (s_state se)) s in
    match s_fail se with Some k => (Err (LoadFailed k), s) | None => (Ok m, s) end
  end.

(** the argument module [the argument and the result of load_module, dill/session.py:488-565] *)
Inductive marg := ArgNone | ArgName (n : string) | ArgMod (m : mid) | ArgOther.

(** [the argument and the result of load_module, dill/session.py:488-565] *)
Inductive ret := RNone | RModule (m : mid).

(** load_module, dill/session.py:488-565 (the 'main' keyword alias and file handling left out:
    file opening is in SafeOpenModel).  [main_mod]: the module object _main_module. *)
Definition load_module (main_mod : mid) (id : ident) (se : session) (arg : marg) (s : st) : res ret * st :=
  (* pickle_main = _identify_module(file, main) *)
  match (match id with
         | Name => Ok (Some (s_main se))
         | Unpeekable => match arg with ArgNone => Err UnpicklingError | _ => Ok None end
         | Garbage => Err UnpicklingError
         end) with
  | Err e => (Err e, s)
  | Ok pickle_main =>
    (* if main is None and pickle_main is not None: main = pickle_main *)
    let main := match arg, pickle_main with ArgNone, Some n => ArgName n | a, _ => a end in
    let resolved : res mid * st :=
      match main with
      | ArgName n =>
        if startswith "__runtime__." n then
          (* ModuleType(main.partition('.')[-1]) *)
          let (i, s) := new_module (match split_dot n with _ :: rest => join_dot rest | [] => "" end) [] false s in (Ok i, s)
        else _import_module n s
      | ArgMod m => (Ok m, s)
      | ArgOther => (Err TypeError, s)
      | ArgNone => (Ok main_mod, s)
      end in
    match resolved with
    | (Err e, s) => (Err e, s)
    | (Ok m, s) =>
      let imported := _is_imported_module m s in
      let name := match get m (heap s) with Some r => m_name r | None => "" end in
      let mismatch :=
        match pickle_main with
        | None => false
        | Some pn =>
          let runtime := startswith "__runtime__." pn in
          let pn := if runtime then match split_dot pn with _ :: rest => join_dot rest | [] => "" end else pn in
          (runtime && imported) || (negb runtime && negb imported) || negb (String.eqb name pn)
        end in
      if mismatch then (Err ValueError, s)
      else
        let rt := "__runtime__." ++ name in
        let s := if imported then s else set_sysmod rt (VMod m) s in
        let (loaded, s) := unpickle se s in
        (* finally: del sys.modules[runtime_main], KeyError/NameError ignored *)
        let s := if imported then s else del_sysmod rt s in
        match loaded with
        | Err e => (Err e, s)
        | Ok l =>
          if negb (Nat.eqb l m) then (Err AssertionError, s)
          else (Ok (if Nat.eqb m main_mod || match arg with ArgMod k => Nat.eqb k m | _ => false end
                    then RNone else RModule m), s)
        end
    end
  end.

(** load_module_asdict, dill/session.py:629-662.  The result is the module whose dictionary is
    returned. *)
Definition load_module_asdict (main_mod : mid) (id : ident) (se : session) (update : bool) (s : st) : res mid * st :=
  match id with
  | Unpeekable | Garbage => (Err UnpicklingError, s)     (* old_main unset: NameError, ignored *)
  | Name =>
    let main_name := s_main se in
    let old := match get main_name (sysmod s) with Some VNone => None | x => x end in   (* sys.modules.get *)
    let (m, s) := new_module main_name [] false s in
    let restore (old : option value) (s : st) : option exn * st :=
      match old with
      | None => match get main_name (sysmod s) with
                | None => (Some KeyError, s)             (* del: KeyError is not caught *)
                | Some _ => (None, del_sysmod main_name s)
                end
      | Some v => (None, set_sysmod main_name v s)
      end in
    let prepared : res (option value) * st :=
      if update then
        match old with
        | None => match _import_module main_name s with
                  | (Err e, s) => (Err e, s)
                  | (Ok o, s) =>
                    (* main.__dict__.update(old_main.__dict__) *)
                    let d := match get o (heap s) with Some r => m_dict r | None => [] end in
                    (Ok (Some (VMod o)), fold_left (fun s p => set_attr m (fst p) (snd p) s) d s)
                  end
        | Some (VMod o) =>
          let d := match get o (heap s) with Some r => m_dict r | None => [] end in
          (Ok old, fold_left (fun s p => set_attr m (fst p) (snd p) s) d s)
        | Some _ => (Err AttributeError, s)               (* no __dict__ *)
        end
      else (Ok old, set_attr m "__builtins__" (VAtom 0) s) in
    match prepared with
    | (Err e, s) =>
      (* the finally clause runs with old_main as found by sys.modules.get *)
      let (x, s) := restore old s in
      (match x with Some e' => Err e' | None => Err e end, s)
    | (Ok old, s) =>
      let s := set_sysmod main_name (VMod m) s in
      let (r, s) := load_module main_mod Name se ArgNone s in
      let (x, s) := restore old s in
      match x with
      | Some e' => (Err e', s)
      | None => match r with Err e => (Err e, s) | Ok _ => (Ok m, s) end
      end
    end
  end.
