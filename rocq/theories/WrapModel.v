(** _wrap: dill/source.py:536-549, and the threads that call wrapped functions.  The text that getimportable gives (dill/source.py:1013-1014, importable: ImportModel, ClosureModel,
    ClosrcModel) is executed in the namespace of dill.source; here it is what it binds there.
    Simplified: executing the text is one step of its thread, the lookup of _ and the entry into the function found another. *)
From Coq Require Import String List Bool Arith.
From Verif Require Import PyDict.
Import ListNotations.
Local Open Scope string_scope.

(** [what dill/source.py:536-549 asks of the functions] *)
Record functions := Functions {
  binds : nat -> option (list (string * nat));  (* executing getimportable(f, alias='_') binds these names, in order; None: an exception *)
  body : nat -> list nat;                       (* the wrapped functions that calling f calls, in order *)
}.

(** func(args) of _wrap(f): the exec, and the lookup and call of _ [dill/source.py:540-546] *)
Inductive action := Exec (f : nat) | Call (f : nat).
(** [dill/source.py:540-546] *)
Definition wrapped (f : nat) : list action := [Exec f; Call f].

(** what one sees: that for the call of _wrap(f) the function h was called; that ImportError was raised for it; that there was no _ [dill/source.py:543-546] *)
Inductive event := Called (f h : nat) | ImportError (f : nat) | NameError (f : nat).

(** __globals__, what each thread has left to do, and what happened [dill/source.py:536-549] *)
Record state := State { globals : dict string nat; left : nat -> list action; events : list event }.

(** names bound one after the other [exec, dill/source.py:543] *)
Definition rebind (g : dict string nat) (l : list (string * nat)) : dict string nat := fold_left (fun g p => set (fst p) (snd p) g) l g.

(** [threads running dill/source.py:540-546] *)
Definition upd (f : nat -> list action) (i : nat) (a : list action) : nat -> list action := fun j => if Nat.eqb j i then a else f j.

(** one step of thread [i]; a thread that gets an exception ends [dill/source.py:540-546] *)
Definition step (F : functions) (s : state) (i : nat) : state :=
  match left s i with
  | [] => s
  | Exec f :: r =>
    match binds F f with
    | Some b => State (rebind (globals s) b) (upd (left s) i r) (events s)
    | None => State (globals s) (upd (left s) i []) (events s ++ [ImportError f])
    end
  | Call f :: r =>
    match get "_" (globals s) with
    | Some h => State (globals s) (upd (left s) i (flat_map wrapped (body F h) ++ r)) (events s ++ [Called f h])
    | None => State (globals s) (upd (left s) i []) (events s ++ [NameError f])
    end
  end.

(** a schedule: the thread of each step [threads running dill/source.py:540-546] *)
Definition run (F : functions) (sched : list nat) (s : state) : state := fold_left (step F) sched s.

(** the threads with the wrapped functions each calls [threads running dill/source.py:540-546] *)
Definition initial (g : dict string nat) (calls : nat -> list nat) : state := State g (fun i => flat_map wrapped (calls i)) [].
