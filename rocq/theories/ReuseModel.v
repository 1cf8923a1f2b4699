(** One Pickler used for several dumps, and one or several Unpicklers reading them: Pickler.dump
    (dill/_dill.py:427-429), the attributes that outlive a dump, self.memo (CPython Lib/pickle.py:464-489)
    and self._postproc (dill/_dill.py:373, 1112-1160), Unpickler.load (CPython Lib/pickle.py:1187-1216,
    dill/_dill.py:452-453).  Built on CoreModel. *)
From Coq Require Import String List Bool Arith ZArith.
From Verif Require Import PyDict CoreModel.
Import ListNotations.
Local Open Scope list_scope.

(** what is done with a Pickler.  [dill/_dill.py:427-429; CPython Lib/pickle.py:466-474] *)
Inductive use := Dump (v : val) | Clear.

(** a new Pickler.  [dill/_dill.py:360-374; CPython Lib/pickle.py:458-463] *)
Definition new_pickler : pst := {| memo := []; post := [] |}.
(** a new Unpickler.  [CPython Lib/pickle.py:1179-1185] *)
Definition new_unpickler : vm := {| stk := []; meta := []; mem := []; heap := [] |}.

(** The stream a Pickler writes; [stop] at the first exception, leaving the Pickler's state.
    [dill/_dill.py:427-429] *)
Fixpoint write (proto : nat) (H : oid -> option obj) (fuel : nat) (us : list use) (s : pst) : res (list op * pst) :=
  match us with
  | [] => Ok ([], s)
  | Clear :: us => write proto H fuel us (clear_memo s)
  | Dump v :: us =>
    match dump proto H fuel v s with
    | Fail e s => Fail e s
    | Ok (l, s) => match write proto H fuel us s with Fail e s => Fail e s | Ok (l', s) => Ok (l ++ l', s) end
    end
  end.

(** Unpickler.load starts with empty stacks and the memo of the loads before; the objects made are
    those of the process.  [CPython Lib/pickle.py:1187-1216] *)
Definition again (m : vm) : vm := {| stk := []; meta := []; mem := mem m; heap := heap m |}.
(** n loads with one Unpickler.  [CPython Lib/pickle.py:1187-1216; dill/_dill.py:452-453] *)
Fixpoint read (n : nat) (stream : list op) (m : vm) : option (list val * vm * list op) :=
  match n with
  | 0 => Some ([], m, stream)
  | S n => match load stream (again m) with
           | None => None
           | Some (v, m, rest) =>
             match read n rest m with None => None | Some (vs, m, rest) => Some (v :: vs, m, rest) end
           end
  end.
(** n loads, each with a new Unpickler (dill.load(file) n times), in one process.
    [dill/_dill.py:292-298] *)
Definition renew (m : vm) : vm := {| stk := []; meta := []; mem := []; heap := heap m |}.
(** [dill/_dill.py:292-298] *)
Fixpoint read_new (n : nat) (stream : list op) (m : vm) : option (list val * vm * list op) :=
  match n with
  | 0 => Some ([], m, stream)
  | S n => match load stream (renew m) with
           | None => None
           | Some (v, m, rest) =>
             match read_new n rest m with None => None | Some (vs, m, rest) => Some (v :: vs, m, rest) end
           end
  end.
