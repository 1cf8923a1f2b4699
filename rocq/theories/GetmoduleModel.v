(** dill/detect.py: getmodule (22-30); dill/source.py: isfrommain (35-40), isdynamic (43-49).
    inspect.getmodule and inspect.getfile of CPython 3.11 are part of the model, with the two caches that outlive a call. *)
From Coq Require Import String Ascii List Bool Arith.
From Verif Require Import PyDict.
Import ListNotations.
Local Open Scope string_scope.

(** what inspect.getfile tells apart [environment of dill/source.py:45, CPython Lib/inspect.py:892-919] *)
Inductive okind :=
| KModule
| KClass
| KMethod (f : nat)              (* __func__ *)
| KFunction (co : nat)           (* __code__ *)
| KTraceback (fr : nat)          (* tb_frame *)
| KFrame (co : nat)              (* f_code *)
| KCode (filename : string)      (* co_filename *)
| KOther.
(** the objects.  Simplified: __module__ is a str or None; __file__ is a str that is not empty, or counts as missing; modules are true
    [environment of dill/detect.py:22-30, dill/source.py:35-49] *)
Record world := World {
  kind : nat -> okind;
  module_attr : nat -> option (option string);     (* obj.__module__, if it has one *)
  name_attr : nat -> option string;                (* obj.__name__ of an object that is no module *)
  mname : nat -> string;                           (* module.__name__ *)
  mfile : nat -> option string;                    (* module.__file__ *)
  mdict : nat -> dict string nat;                  (* vars(module) *)
  shown : nat -> string;                           (* getname(obj, force=True) of an object without a module: its repr, mostly [dill/source.py:609-615] *)
  absfile : string -> string;                      (* normcase(abspath(the source file)) *)
  realfile : string -> string;                     (* realpath *)
  builtins : nat }.
(** sys.modules [environment of dill/detect.py:25] *)
Definition registry := dict string nat.
(** inspect.modulesbyfile and inspect._filesbymodname [environment of dill/detect.py:25, CPython Lib/inspect.py:966-967] *)
Record caches := Caches { byfile : dict string string; byname : dict string string }.

(** [dill/source.py:45-46] *)
Inductive raised := TypeError | OSError.
(** what it is for after __func__, __code__, tb_frame, f_code; [inspect.getfile, called in dill/source.py:45, CPython Lib/inspect.py:906-915] *)
Definition unwrapped (W : world) (o : nat) : okind :=
  let step1 := match kind W o with KMethod f => f | _ => o end in
  let step2 := match kind W step1 with KFunction co => co | _ => step1 end in
  let step3 := match kind W step2 with KTraceback fr => fr | _ => step2 end in
  let step4 := match kind W step3 with KFrame co => co | _ => step3 end in
  kind W step4.
(** inspect.getfile(object) [called in dill/source.py:45, CPython Lib/inspect.py:892-919] *)
Definition getfile (W : world) (mods : registry) (o : nat) : string + raised :=
  match kind W o with
  | KModule => match mfile W o with Some f => inl f | None => inr TypeError end
  | KClass =>
    match module_attr W o with
    | Some m =>
      match match m with Some n => get n mods | None => None end with
      | Some x => match mfile W x with
                  | Some f => inl f
                  | None => if match m with Some n => String.eqb n "__main__" | None => false end then inr OSError else inr TypeError
                  end
      | None => if match m with Some n => String.eqb n "__main__" | None => false end then inr OSError else inr TypeError
      end
    | None => inr TypeError
    end
  | _ => match unwrapped W o with KCode f => inl f | _ => inr TypeError end
  end.

(** one module is entered in the caches [inspect.getmodule, called in dill/detect.py:25, CPython Lib/inspect.py:990-1000] *)
Definition scan_step (W : world) (C : caches) (p : string * nat) : caches :=
  match kind W (snd p), mfile W (snd p) with
  | KModule, Some f =>
    if match get (fst p) (byname C) with Some f' => String.eqb f f' | None => false end then C
    else Caches (set (realfile W (absfile W f)) (mname W (snd p)) (set (absfile W f) (mname W (snd p)) (byfile C))) (set (fst p) f (byname C))
  | _, _ => C
  end.
(** the object is looked for in __main__ and builtins by its name [inspect.getmodule, called in dill/detect.py:25, CPython Lib/inspect.py:1003-1017] *)
Definition by_name (W : world) (mods : registry) (o : nat) : option nat :=
  match name_attr W o with
  | None => None
  | Some n =>
    let has := fun m => match get m mods with Some x => match get n (mdict W x) with Some y => Nat.eqb y o | None => false end | None => false end in
    if has "__main__" then get "__main__" mods else if has "builtins" then get "builtins" mods else None
  end.
(** inspect.getmodule(object) and the caches after it.  Simplified: __main__ and builtins are in sys.modules; the question asked again by
    getsourcefile for a file that does not exist, which changes nothing more, is left out [called in dill/detect.py:25, CPython Lib/inspect.py:969-1017] *)
Definition getmod (W : world) (mods : registry) (C : caches) (o : nat) : option nat * caches :=
  match kind W o with
  | KModule => (Some o, C)
  | _ =>
    match module_attr W o with
    | Some m => (match m with Some n => get n mods | None => None end, C)
    | None =>
      match getfile W mods o with
      | inr _ => (None, C)
      | inl f0 =>
        let f := absfile W f0 in
        match get f (byfile C) with
        | Some n => (get n mods, C)
        | None =>
          let C' := fold_left (scan_step W) mods C in
          match get f (byfile C') with
          | Some n => (get n mods, C')
          | None => (by_name W mods o, C')
          end
        end
      end
    end
  end.
(** getmodule(object, force=...) [dill/detect.py:22-30] *)
Definition getmodule (W : world) (mods : registry) (C : caches) (force : bool) (o : nat) : option nat * caches :=
  let (m, C') := getmod W mods C o in
  match m with
  | Some x => (Some x, C')
  | None => if negb force then (None, C')
            else (if has (shown W o) (mdict W (builtins W)) then Some (builtins W) else None, C')
  end.
(** isfrommain(obj) [dill/source.py:35-40] *)
Definition isfrommain (W : world) (mods : registry) (C : caches) (o : nat) : bool :=
  match fst (getmod W mods C o) with
  | Some x => String.eqb (mname W x) "__main__"
  | None => false
  end.
(** isdynamic(obj) [dill/source.py:43-49] *)
Definition isdynamic (W : world) (mods : registry) (C : caches) (o : nat) : bool + raised :=
  match getfile W mods o with
  | inl f => inl (if String.eqb f "<stdin>" then isfrommain W mods C o else false)
  | inr TypeError => inl false
  | inr OSError => inr OSError
  end.

(** what happens between two questions: a module is imported, a module is asked for [dill/detect.py:22-30] *)
Inductive event := Import (name : string) (x : nat) | Ask (o : nat).
(** [dill/detect.py:22-30] *)
Definition after (W : world) (s : registry * caches) (e : event) : registry * caches :=
  match e with
  | Import n x => (set n x (fst s), snd s)
  | Ask o => (fst s, snd (getmod W (fst s) (snd s) o))
  end.
(** [dill/detect.py:22-30] *)
Definition history (W : world) (es : list event) : registry * caches := fold_left (after W) es ([], Caches [] []).
