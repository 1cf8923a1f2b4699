(** findsource: dill/source.py:105-258, put together: which file, or the interpreter's history, is searched (115-176), and for what (178-258, searches of FindModel).
    Simplified: not in IPython; getmodule(object, file), which serves modules that are loaded lazily from an archive, is left out (170-174); what linecache reads is a function of the
    file name; the search for a typed lambda, see MatchModel, is a parameter. *)
From Coq Require Import String Ascii List Bool Arith.
From Verif Require Import PyDict FindModel GetmoduleModel.
Import ListNotations.
Local Open Scope string_scope.

(** the files and the history [environment of dill/source.py:141-176] *)
Record files := Files {
  srcfile : string -> option string;        (* getsourcefile of what getfile gave: None if there is no source file *)
  contents : string -> list string;         (* linecache.getlines, empty if it cannot be read *)
  typed : option (list string);             (* the history of readline, None if there is no readline *)
  first : nat -> nat;                       (* co_firstlineno *)
  fname : nat -> string;                    (* __name__ of a function, a class *)
  class_of : nat -> nat;
  typed_lambda : nat -> list string -> nat  (* the line found for a lambda *)
}.

(** [dill/source.py:153, 166, 177, 256-258 and what getfile raises] *)
Inductive failure := FIOError | FTypeError | FIndexError.
(** [what getfile raises, dill/source.py:116, 156-164] *)
Definition as_failure (e : raised) : failure := match e with TypeError => FTypeError | OSError => FIOError end.

(** file[:1] + file[-1:] == '<>' [dill/source.py:165] *)
Fixpoint last_char (s : string) : option ascii := match s with EmptyString => None | String c EmptyString => Some c | String _ r => last_char r end.
(** [dill/source.py:165] *)
Definition angles (s : string) : bool :=
  match s with String c _ => Ascii.eqb c "<" && match last_char s with Some d => Ascii.eqb d ">" | None => false end | EmptyString => false end.

(** getfile(module), module possibly None [dill/source.py:116, 157] *)
Definition getfile_of (W : world) (mods : registry) (m : option nat) : string + raised :=
  match m with Some x => getfile W mods x | None => inr TypeError end.

(** the file to read [dill/source.py:155-168] *)
Definition which_file (W : world) (F : files) (mods : registry) (m : option nat) (o : nat) : string + failure :=
  let with_source f := match srcfile F f with
                       | Some p => inl p
                       | None => if angles f then inl f else inr FIOError
                       end in
  match (match kind W o with KClass => getfile W mods o | _ => getfile_of W mods m end) with
  | inl f => with_source f
  | inr OSError => inr FIOError
  | inr TypeError => match getfile W mods o with
                     | inl f => with_source f
                     | inr e => inr (as_failure e)
                     end
  end.

(** the lines to search [dill/source.py:115-177] *)
Definition which_lines (W : world) (F : files) (mods : registry) (C : caches) (o : nat) : list string + failure :=
  let m := fst (getmod W mods C o) in
  match getfile_of W mods m with
  | inr OSError => inr FIOError
  | file =>
    let no_file := match file with inl _ => false | inr _ => true end in
    let is_main := match m with Some x => String.eqb (mname W x) "__main__" && no_file | None => false end in
    let lines := if is_main then match typed F with Some l => inl l | None => inr FIOError end
                 else match which_file W F mods m o with inl f => inl (contents F f) | inr e => inr e end in
    match lines with
    | inl [] => inr FIOError
    | x => x
    end
  end.

(** a code object that is not that of a function asked for, typed: the last line that could be one, above its decorators [dill/source.py:206-229, stdin, name = ''] *)
Fixpoint find_any (lines : list string) (n : nat) : nat :=
  match n with 0 => 0 | S k => if pat_code (nth n lines "") then n - hats lines n else find_any lines k end.

(** the line in them; [name]: the name of the function, if one was given [dill/source.py:202-229] *)
Definition search_code (F : files) (lines : list string) (name : option (nat * string)) (co : nat) (filename : string) : nat + failure :=
  if String.eqb filename "<stdin>" then
    match name with
    | Some (f, n) => if String.eqb n "<lambda>" then inl (typed_lambda F f lines) else inl (find_history lines n)
    | None => inl (find_any lines (List.length lines - 1))
    end
  else match find_code lines (first F co) with Some i => inl i | None => inr FIndexError end.

(** what is searched for, after __func__, __code__, tb_frame, f_code [dill/source.py:179-258] *)
Definition search (W : world) (F : files) (lines : list string) (o : nat) : nat + failure :=
  let of_code name co := match kind W co with KCode f => search_code F lines name co f | _ => inr FIOError end in
  let of_frame fr := match kind W fr with KFrame co => of_code None co | _ => inr FIOError end in
  let of_class c := match find_class lines (fname F c) with Some i => inl i | None => inr FIOError end in
  match kind W o with
  | KModule => inl 0
  | KMethod f => match kind W f with KFunction co => of_code (Some (f, fname F f)) co | _ => inr FIOError end
  | KFunction co => of_code (Some (o, fname F o)) co
  | KTraceback fr => of_frame fr
  | KFrame co => of_code None co
  | KCode f => search_code F lines None o f
  | KClass => of_class o
  | KOther => of_class (class_of F o)
  end.

(** findsource(object) [dill/source.py:105-258] *)
Definition findsource (W : world) (F : files) (mods : registry) (C : caches) (o : nat) : (list string * nat) + failure :=
  match which_lines W F mods C o with
  | inr e => inr e
  | inl lines => match search W F lines o with inl i => inl (lines, i) | inr e => inr e end
  end.
