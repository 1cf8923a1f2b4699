(** Locks: dill/_dill.py:812-818 (_create_lock), 820-826 (_create_rlock), 1366-1371 (save_lock),
    1373-1381 (save_rlock), and the behaviour of _thread.lock / _thread.RLock of CPython 3.11
    (Modules/_threadmodule.c) that those functions use. *)
From Coq Require Import String List Bool Ascii Arith NArith Lia.
From Coq Require Import DecimalString DecimalN.
From Verif Require Import PyDict.
Import ListNotations.
Local Open Scope string_scope.

(** [exceptions of dill/_dill.py:812-826, 1366-1381] *)
Inductive exn := UnpicklingError | ValueError | IndexError | Blocked.
(** [exceptions of dill/_dill.py:812-826, 1366-1381] *)
Inductive res (A : Type) := Ok (a : A) | Err (e : exn).
Arguments Ok {A}. Arguments Err {A}.

(** ** threading.Lock *)
(** _thread.lock: one bit. [CPython Modules/_threadmodule.c lock objects, used in dill/_dill.py:812-818, 1366-1371] *)
Record lock := Lock { locked : bool }.
(** [threading.Lock()] [CPython Modules/_threadmodule.c lock objects, used in dill/_dill.py:812-818, 1366-1371] *)
Definition new_lock : lock := {| locked := false |}.
(** [lock.acquire(False)]: returns whether it was taken. [CPython Modules/_threadmodule.c lock objects, used in dill/_dill.py:812-818, 1366-1371] *)
Definition lock_acquire_nb (l : lock) : lock * bool :=
  if locked l then (l, false) else ({| locked := true |}, true).

(** save_lock, dill/_dill.py:1369: the argument tuple stored in the pickle *)
Definition save_lock (l : lock) : bool := locked l.

(** _create_lock, dill/_dill.py:812-818 *)
Definition _create_lock (arg : bool) : res lock :=
  let l := new_lock in
  if arg then
    let (l', ok) := lock_acquire_nb l in
    if ok then Ok l' else Err UnpicklingError
  else Ok l.

(** ** threading.RLock *)
(** rlockobject of _threadmodule.c: the inner lock, the owner's thread id (0 = nobody), the count.
    Thread ids are positive (get_ident()); printed with %ld, so below 2^63. [CPython Modules/_threadmodule.c, used in dill/_dill.py:820-826] *)
Record rlock := RLock { held : bool; owner : N; count : N }.
(** [RLockType()] [CPython Modules/_threadmodule.c, used in dill/_dill.py:820-826] *)
Definition new_rlock : rlock := {| held := false; owner := 0; count := 0 |}.

(** rlock_acquire with blocking=False, called by thread [tid]. [CPython Modules/_threadmodule.c, used in dill/_dill.py:820-826] *)
Definition rlock_acquire_nb (tid : N) (l : rlock) : rlock * bool :=
  if (negb (N.eqb (count l) 0)) && N.eqb (owner l) tid then
    ({| held := held l; owner := owner l; count := count l + 1 |}, true)
  else if held l then (l, false)
  else ({| held := true; owner := tid; count := 1 |}, true).

(** rlock_release called by thread [tid]; [false] models the RuntimeError "cannot release un-acquired lock". [CPython Modules/_threadmodule.c, used in dill/_dill.py:820-826] *)
Definition rlock_release (tid : N) (l : rlock) : rlock * bool :=
  if N.eqb (count l) 0 || negb (N.eqb (owner l) tid) then (l, false)
  else if N.eqb (count l) 1 then ({| held := false; owner := 0; count := 0 |}, true)
  else ({| held := held l; owner := owner l; count := count l - 1 |}, true).

(** rlock_acquire_restore((count, owner)): takes the inner lock (blocking if it is taken),
    then stores owner and count. [CPython Modules/_threadmodule.c, used in dill/_dill.py:820-826] *)
Definition rlock_acquire_restore (c o : N) (l : rlock) : res rlock :=
  if held l then Err Blocked else Ok {| held := true; owner := o; count := c |}.

(** rlock_is_owned called by thread [tid] [CPython Modules/_threadmodule.c, used in dill/_dill.py:820-826] *)
Definition rlock_is_owned (tid : N) (l : rlock) : bool :=
  (negb (N.eqb (count l) 0)) && N.eqb (owner l) tid.

(** decimal notation, as printed by %ld / %lu and read by int() [the repr read in dill/_dill.py:1374-1381] *)
Definition dec (n : N) : string := NilZero.string_of_uint (N.to_uint n).
(** [the repr read in dill/_dill.py:1374-1381] *)
Definition undec (s : string) : option N :=
  match NilZero.uint_of_string s with Some u => Some (N.of_uint u) | None => None end.

(** rlock_repr: "<%s %s object owner=%ld count=%lu at %p>".  [addr] is the text of %p. [the repr read in dill/_dill.py:1374-1381] *)
Definition rlock_repr (tyname addr : string) (l : rlock) : string :=
  "<" ++ (if N.eqb (count l) 0 then "unlocked" else "locked") ++ " " ++ tyname ++ " object owner="
  ++ dec (owner l) ++ " count=" ++ dec (count l) ++ " at " ++ addr ++ ">".

(** [s.split(sep)[1]] for a non-empty separator: the text between the first and the second
    occurrence of [sep] (to the end if there is only one); IndexError if there is none. [str methods used in dill/_dill.py:1375-1378] *)
Fixpoint prefix_of (p s : string) : option string :=
  match p, s with
  | EmptyString, _ => Some s
  | String a p', String b s' => if Ascii.eqb a b then prefix_of p' s' else None
  | _, EmptyString => None
  end.
(** [str methods used in dill/_dill.py:1375-1378] *)
Fixpoint after (sep s : string) : option string :=
  match prefix_of sep s with
  | Some r => Some r
  | None => match s with EmptyString => None | String _ s' => after sep s' end
  end.
(** [str methods used in dill/_dill.py:1375-1378] *)
Fixpoint before (sep s : string) : string :=
  match prefix_of sep s with
  | Some _ => EmptyString
  | None => match s with EmptyString => EmptyString | String c s' => String c (before sep s') end
  end.
(** [str methods used in dill/_dill.py:1375-1378] *)
Definition split_1 (sep s : string) : option string :=
  match after sep s with Some r => Some (before sep r) | None => None end.

(** [s.split()[0]]: the first whitespace-separated word; IndexError if there is none.
    Simplification: whitespace is the six ASCII characters. [str methods used in dill/_dill.py:1375-1378] *)
Definition is_space (c : ascii) : bool :=
  let n := nat_of_ascii c in Nat.eqb n 32 || (Nat.leb 9 n && Nat.leb n 13).
(** [str methods used in dill/_dill.py:1375-1378] *)
Fixpoint lstrip (s : string) : string :=
  match s with String c s' => if is_space c then lstrip s' else s | EmptyString => s end.
(** [str methods used in dill/_dill.py:1375-1378] *)
Fixpoint word (s : string) : string :=
  match s with String c s' => if is_space c then EmptyString else String c (word s') | EmptyString => s end.
(** [str methods used in dill/_dill.py:1375-1378] *)
Definition split_0 (s : string) : option string :=
  match word (lstrip s) with EmptyString => None | w => Some w end.

(** [s.rstrip('>')] [str methods used in dill/_dill.py:1375-1378] *)
Fixpoint rstrip_gt (s : string) : string :=
  match s with
  | EmptyString => EmptyString
  | String c s' => match rstrip_gt s' with
                   | EmptyString => if Ascii.eqb c ">" then EmptyString else String c EmptyString
                   | r => String c r
                   end
  end.

(** save_rlock, dill/_dill.py:1374-1381: the argument tuple (count, owner) parsed from repr(obj) *)
Definition save_rlock (tyname addr : string) (l : rlock) : res (N * N) :=
  let r := rlock_repr tyname addr l in
  match split_1 "count=" r with
  | None => Err IndexError
  | Some s => match split_0 s with
    | None => Err IndexError
    | Some s => match undec (rstrip_gt s) with
      | None => Err ValueError
      | Some c =>
        match split_1 "owner=" r with
        | None => Err IndexError
        | Some s => match split_0 s with
          | None => Err IndexError
          | Some s => match undec s with None => Err ValueError | Some o => Ok (c, o) end
          end
        end
      end
    end
  end.

(** _create_rlock, dill/_dill.py:820-826, run by thread [tid].  [owner] comes out of save_rlock, so it
    is an int, never None: the test [owner is not None] is always true. *)
Definition _create_rlock (tid c o : N) : res rlock :=
  match rlock_acquire_restore c o new_rlock with
  | Err e => Err e
  | Ok l => if (negb (N.eqb o 0)) && negb (rlock_is_owned tid l) then Err UnpicklingError else Ok l
  end.

(** loads(dumps(l)) for an RLock, loaded by thread [tid] [dill/_dill.py:1373-1381 then 820-826] *)
Definition copy_rlock (tyname addr : string) (tid : N) (l : rlock) : res rlock :=
  match save_rlock tyname addr l with Err e => Err e | Ok (c, o) => _create_rlock tid c o end.
(** [dill/_dill.py:1366-1371 then 812-818] *)
Definition copy_lock (l : lock) : res lock := _create_lock (save_lock l).

(** what programs can do with an RLock: non-blocking acquire or release by some thread [the program's own use of the lock, environment of dill/_dill.py:1373-1381] *)
Inductive rop := Acquire (tid : N) | Release (tid : N).
(** [the program's own use of the lock, environment of dill/_dill.py:1373-1381] *)
Definition rstep (l : rlock) (o : rop) : rlock * bool :=
  match o with Acquire t => rlock_acquire_nb t l | Release t => rlock_release t l end.
(** [the program's own use of the lock, environment of dill/_dill.py:1373-1381] *)
Fixpoint rrun (l : rlock) (ops : list rop) : list bool :=
  match ops with [] => [] | o :: ops' => let (l', b) := rstep l o in b :: rrun l' ops' end.
(** [the program's own use of the lock, environment of dill/_dill.py:1373-1381] *)
Fixpoint rstate (l : rlock) (ops : list rop) : rlock :=
  match ops with [] => l | o :: ops' => rstate (fst (rstep l o)) ops' end.
