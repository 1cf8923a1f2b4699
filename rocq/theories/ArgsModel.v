(** The arguments of dump_module, load_module, load_module_asdict and their old names: dill/session.py:89-92, 277-306,
    322-324, 488-508, 566-570, 629-638. *)
From Coq Require Import String List Bool Arith.
From Verif Require Import PyDict.
Import ListNotations.
Local Open Scope string_scope.

(** An argument: None, a boolean, a string, a module, an object with a method write (a stream), any other object; the
    boolean of the last three is bool(x).  [the values dill/session.py:277-306 distinguishes] *)
Inductive arg := ANone | ABool (b : bool) | AStr (s : string) | AModule (n : nat) (t : bool) | AStream (n : nat) (t : bool)
               | AOther (n : nat) (t : bool).
(** bool(x) [the condition of dill/session.py:283] *)
Definition truth (a : arg) : bool :=
  match a with
  | ANone => false | ABool b => b | AStr s => negb (String.eqb s "") | AModule _ t | AStream _ t | AOther _ t => t
  end.

(** keyword arguments [the kwds of dill/session.py] *)
Definition kwds := dict string arg.

(** [dill/session.py:280-284, 323, 491-494, 569; 89-92] *)
Inductive warning := Renamed (old new : string) | RenamedFunction (old new : string) | DefaultPath.
(** [dill/session.py:284, 296, 494, 630; the call protocol of Python] *)
Inductive error :=
| BothUsed (new old : string)         (* TypeError: both %r and %r arguments were used *)
| MultipleValues (name : string)      (* TypeError: got multiple values for keyword argument *)
| NotAModule                          (* TypeError: %r is not a module *)
| ImportFailed
| InvalidKeyword (name : string).     (* TypeError of load_module_asdict *)

(** where the session goes to or comes from [dill/session.py:297-303, 498-504, 631-637] *)
Inductive place := TheStream (n : nat) | ThePath (p : arg) | TheDefaultPath.

(** What dump_module is asked to do once its arguments are read: which module (as an object), where to, with
    refimported or not, and the keywords for the Pickler.  [dill/session.py:286-306] *)
Record job := Job { j_main : nat; j_place : place; j_refimported : bool; j_kwds : kwds }.

Section Args.
(** [main_module]: dill's _main_module; [importm]: _import_module, the module of a name or None for ImportError *)
Variable main_module : nat.
Variable importm : string -> option nat.

(** dill/session.py:288-296: main = module; None, a name, a module *)
Definition find_main (module : arg) : nat + error :=
  match module with
  | ANone => inl main_module
  | AStr s => match importm s with Some m => inl m | None => inr ImportFailed end
  | AModule m _ => inl m
  | _ => inr NotAModule
  end.

(** dill/session.py:297-303, 498-504, 631-637, with _warn_if_default_path, 89-92; a stream has write, or read when loading *)
Definition find_place (filename : arg) : list warning * place :=
  match filename with
  | AStream n _ => ([], TheStream n)
  | ANone => ([DefaultPath], TheDefaultPath)
  | p => ([], ThePath p)
  end.

(** the loop of dill/session.py:277-284: the warnings given, and the error raised if any *)
Fixpoint renamed (pars : list (string * string)) (values : string -> arg) (kw : kwds) : list warning * option error :=
  match pars with
  | [] => ([], None)
  | (old, par) :: rest =>
      if has old kw then
        if truth (values par) then ([Renamed old par], Some (BothUsed par old))
        else let (ws, e) := renamed rest values kw in (Renamed old par :: ws, e)
      else renamed rest values kw
  end.

(** kwds.pop(name, default) [dill/session.py:285-286, 495] *)
Definition pop (name : string) (default : arg) (kw : kwds) : arg * kwds :=
  match get name kw with Some v => (v, del name kw) | None => (default, kw) end.

(** dump_module(filename, module, refimported, **kwds) up to the creation of the pickler, dill/session.py:277-306 *)
Definition dump_module (filename module refimported : arg) (kw : kwds) : list warning * (job + error) :=
  let values := fun par => if String.eqb par "module" then module else refimported in          (* locals() *)
  match renamed [("main", "module"); ("byref", "refimported")] values kw with
  | (ws, Some e) => (ws, inr e)
  | (ws, None) =>
    let (refimported, kw) := pop "byref" refimported kw in
    let (module, kw) := pop "main" module kw in
    match find_main module with
    | inr e => (ws, inr e)
    | inl m => let (ws', pl) := find_place filename in ((ws ++ ws')%list, inl (Job m pl (truth refimported) kw))
    end
  end.

(** dump_session(filename, main, byref, **kwds), dill/session.py:322-324; a keyword module or refimported in kwds is
    passed to dump_module twice *)
Definition dump_session (filename main byref : arg) (kw : kwds) : list warning * (job + error) :=
  let w := RenamedFunction "dump_session" "dump_module" in
  if has "module" kw then ([w], inr (MultipleValues "module"))
  else if has "refimported" kw then ([w], inr (MultipleValues "refimported"))
  else let (ws, r) := dump_module filename main byref kw in (w :: ws, r).

(** What load_module is asked to do: the argument module, where from, the keywords for the Unpickler.
    [dill/session.py:488-508] *)
Record ljob := LJob { l_module : arg; l_place : place; l_kwds : kwds }.

(** dill/session.py:488-504: the alias main, then the file *)
Definition load_module (filename module : arg) (kw : kwds) : list warning * (ljob + error) :=
  let go (ws : list warning) (module : arg) (kw : kwds) : list warning * (ljob + error) := let (ws', pl) := find_place filename in ((ws ++ ws')%list, inl (LJob module pl kw)) in
  if has "main" kw then
    match module with
    | ANone => let (module, kw) := pop "main" ANone kw in go [Renamed "main" "module"] module kw
    | _ => ([Renamed "main" "module"], inr (BothUsed "module" "main"))
    end
  else go [] module kw.

(** load_session(filename, main, **kwds), dill/session.py:567-570 *)
Definition load_session (filename main : arg) (kw : kwds) : list warning * (ljob + error) :=
  let w := RenamedFunction "load_session" "load_module" in
  if has "module" kw then ([w], inr (MultipleValues "module"))
  else let (ws, r) := load_module filename main kw in (w :: ws, r).

(** load_module_asdict(filename, update, **kwds), dill/session.py:629-647: what it asks of load_module, with the file
    it has opened (the stream number [opened]) *)
Definition load_module_asdict (filename : arg) (opened : nat) (kw : kwds) : list warning * (ljob + error) :=
  if has "module" kw then ([], inr (InvalidKeyword "module"))
  else
    let (ws, pl) := find_place filename in
    let file := match pl with TheStream n => AStream n true | _ => AStream opened true end in
    let (ws', r) := load_module file ANone kw in ((ws ++ ws')%list, r).
End Args.
