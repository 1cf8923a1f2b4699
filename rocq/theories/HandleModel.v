(** dill/_dill.py, the handle of a thread (Python 3.13): _create_thread_handle 805-810, save_thread_handle 1358-1364. *)
From Coq Require Import ZArith List Bool.
Import ListNotations.

(** the states of a handle, and the handle: the thread's ident, its state, whether the event "the thread is exiting" is set
    [CPython 3.13 Modules/_threadmodule.c ThreadHandle; not in /repo] *)
Inductive hstate := NotStarted | Running | Finished.
(** [CPython 3.13 Modules/_threadmodule.c ThreadHandle; not in /repo] *)
Record handle := Hd { ident : Z; hst : hstate; exiting : bool }.
(** a handle as threading.Thread makes it: _ThreadHandle() [CPython 3.13 Lib/threading.py Thread.__init__; not in /repo] *)
Definition new_handle : handle := Hd 0 NotStarted false.
(** handle.is_done() [CPython 3.13 Modules/_threadmodule.c] *)
Definition is_done (h : handle) : bool := exiting h.
(** _start_joinable_thread(f, handle=h): RuntimeError when it is started already; None is that error [CPython 3.13 Modules/_threadmodule.c ThreadHandle_start] *)
Definition start (i : Z) (h : handle) : option handle := match hst h with NotStarted => Some (Hd i Running false) | _ => None end.
(** what handle.join() does, in another thread [CPython 3.13 Modules/_threadmodule.c ThreadHandle_join] *)
Inductive joining := JReturns | JWaits | JRaises.
(** [CPython 3.13 Modules/_threadmodule.c ThreadHandle_join] *)
Definition join (h : handle) : joining := match hst h with NotStarted => JRaises | _ => if exiting h then JReturns else JWaits end.
(** handle._set_done(): RuntimeError when it is not started; also what the thread does with its own handle when it ends
    [CPython 3.13 Modules/_threadmodule.c ThreadHandle_set_done] *)
Definition set_done (h : handle) : option handle := match hst h with NotStarted => None | _ => Some (Hd (ident h) Finished true) end.
(** threading._make_thread_handle(ident): a running handle for a thread that is there already [CPython 3.13 Modules/_threadmodule.c] *)
Definition make_thread_handle (i : Z) : handle := Hd i Running false.

(** what is put in the pickle: (obj.ident, obj.is_done()) [save_thread_handle, dill/_dill.py:1358-1364] *)
Definition save_thread_handle (h : handle) : Z * bool := (ident h, is_done h).
(** [_create_thread_handle, dill/_dill.py:805-810] *)
Definition create_thread_handle (p : Z * bool) : option handle :=
  let h := make_thread_handle (fst p) in if snd p then set_done h else Some h.

(** ** several handles in one program [not in /repo] *)
(** start the i-th handle's thread with the ident [z]; the thread of the i-th handle ends; copy the i-th handle with dill (a new one, at the end) [the caller; not in /repo] *)
Inductive hevent := EStart (i : nat) (z : Z) | EEnds (i : nat) | ECopy (i : nat).
(** [list update; not in /repo] *)
Fixpoint put (i : nat) (h : handle) (l : list handle) : list handle :=
  match l, i with [], _ => [] | _ :: l', O => h :: l' | x :: l', S i' => x :: put i' h l' end.
(** a call that raises changes nothing; only a handle that started a thread itself is told when the thread ends: [own] lists those [CPython 3.13; not in /repo] *)
Record world := Wd { handles : list handle; own : list nat }.
(** [CPython 3.13; save_thread_handle and _create_thread_handle, dill/_dill.py:805-810,1358-1364] *)
Definition hstep (e : hevent) (w : world) : world :=
  match e with
  | EStart i z =>
    match nth_error (handles w) i with
    | Some h => match start z h with Some h' => Wd (put i h' (handles w)) (i :: own w) | None => w end
    | None => w
    end
  | EEnds i =>
    match nth_error (handles w) i with
    | Some h => if existsb (Nat.eqb i) (own w) then match set_done h with Some h' => Wd (put i h' (handles w)) (own w) | None => w end else w
    | None => w
    end
  | ECopy i =>
    match nth_error (handles w) i with
    | Some h => match create_thread_handle (save_thread_handle h) with Some h' => Wd (handles w ++ [h']) (own w) | None => w end
    | None => w
    end
  end.
(** [not in /repo] *)
Definition hrun (es : list hevent) (w : world) : world := fold_left (fun w e => hstep e w) es w.
