(** Threads that pickle functions with recurse=True while other threads do the same or print.
    dill/temp.py:23-41 (capture), dill/detect.py:139-162 (nestedglobals: the disassembly of the function is printed to sys.stdout inside capture, then read).
    A thread switch can happen between any two of: orig = getattr(sys, stream); setattr(sys, stream, StringIO()); out = getattr(sys, stream); each print of
    dis.dis (print looks sys.stdout up at each call); setattr(sys, stream, orig); out.getvalue().
    Simplified: one stream; a print is one step; lines carry the thread that wrote them (ghost information); what dis.dis prints for a function is a parameter. *)
From Coq Require Import String List Bool Arith.
From Verif Require Import GlobalsModel.
Import ListNotations.
Local Open Scope string_scope.

(** what a thread does: nestedglobals of a function whose disassembly is [lines], or a print [threads running dill/detect.py:139-162 and dill/temp.py:23-41] *)
Inductive task := Names (lines : list string) | Say (line : string).
(** where a thread is in nestedglobals [threads running dill/detect.py:139-162 and dill/temp.py:23-41] *)
Inductive place :=
  | Idle
  | Saved (orig : nat) (lines : list string)
  | SetIt (orig : nat) (lines : list string)
  | Inside (orig out : nat) (lines rest : list string)
  | Left (out : nat).
(** [threads running dill/detect.py:139-162 and dill/temp.py:23-41] *)
Record thread := Th { todo : list task; at_ : place; results : list (list (nat * string)) }.
(** streams are numbered; 0: the terminal [threads running dill/detect.py:139-162 and dill/temp.py:23-41] *)
Record state := St { stdout : nat; streams : nat -> list (nat * string); fresh : nat; threads : nat -> thread }.

(** [threads running dill/detect.py:139-162 and dill/temp.py:23-41] *)
Definition upd {A} (f : nat -> A) (i : nat) (a : A) : nat -> A := fun j => if Nat.eqb j i then a else f j.
(** [threads running dill/detect.py:139-162 and dill/temp.py:23-41] *)
Definition write (i : nat) (l : string) (s : state) : nat -> list (nat * string) := upd (streams s) (stdout s) ((streams s (stdout s) ++ [(i, l)])%list).

(** the next step of thread [i]; None: it has finished [dill/temp.py:23-41 with dill/detect.py:146-150] *)
Definition step (i : nat) (s : state) : option state :=
  let t := threads s i in
  let go p := upd (threads s) i (Th (todo t) p (results t)) in
  match at_ t with
  | Idle =>
    match todo t with
    | [] => None
    | Say l :: r => Some (St (stdout s) (write i l s) (fresh s) (upd (threads s) i (Th r Idle (results t))))
    | Names ls :: r => Some (St (stdout s) (streams s) (fresh s) (upd (threads s) i (Th r (Saved (stdout s) ls) (results t))))
    end
  | Saved o ls => Some (St (fresh s) (streams s) (S (fresh s)) (go (SetIt o ls)))
  | SetIt o ls => Some (St (stdout s) (streams s) (fresh s) (go (Inside o (stdout s) ls ls)))
  | Inside o b ls (l :: rest) => Some (St (stdout s) (write i l s) (fresh s) (go (Inside o b ls rest)))
  | Inside o b ls [] => Some (St o (streams s) (fresh s) (go (Left b)))
  | Left b => Some (St (stdout s) (streams s) (fresh s) (upd (threads s) i (Th (todo t) Idle (results t ++ [streams s b])%list)))
  end.

(** a schedule: which thread makes the next step [schedules of the threads, environment of dill/detect.py:139-162] *)
Fixpoint run (sched : list nat) (s : state) : option state :=
  match sched with [] => Some s | i :: r => match step i s with Some s' => run r s' | None => None end end.

(** [schedules of the threads, environment of dill/detect.py:139-162] *)
Definition start (progs : nat -> list task) : state := St 0 (fun _ => []) 1 (fun i => Th (progs i) Idle []).

(** the names found in the captured text: nestedglobals, lines 152-158 *)
Definition found (ls : list (nat * string)) : list string :=
  map (fun l => parse_line true (snd l)) (filter (fun l => match String.index 0 "_GLOBAL" (snd l) with Some _ => true | None => false end) ls).
