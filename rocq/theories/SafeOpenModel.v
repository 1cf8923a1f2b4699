(** Opening session files: dill/session.py:45-82 (_O_NOFOLLOW, _check_symlink,
    _safe_open_for_writing, _safe_open_for_reading), over the part of a POSIX file system that
    matters: one path, its directory entry, and the files (inodes). *)
From Coq Require Import String List Bool Arith NArith.
From Verif Require Import PyDict.
Import ListNotations.

Notation ino := nat (only parsing).

(** what the directory holds at the path: nothing, a file, a directory, or a symbolic link to a file
    (or to nothing) [open(2) and lstat(2), called in dill/session.py:45-82] *)
Inductive entry := Absent | Reg (i : ino) | Dir | Link (target : option ino).
(** [open(2) and lstat(2), called in dill/session.py:45-82] *)
Record inode := Inode { data : list nat; perm : N }.
(** [open(2) and lstat(2), called in dill/session.py:45-82] *)
Record fs := Fs { at_path : entry; inodes : dict ino inode }.

(** [open(2) and lstat(2), called in dill/session.py:45-82] *)
Inductive exn := FileExistsError | FileNotFoundError | LoopError | IsADirectoryError | SymlinkRefused.
(** [open(2) and lstat(2), called in dill/session.py:45-82] *)
Inductive res (A : Type) := Ok (a : A) | Err (e : exn).
Arguments Ok {A}. Arguments Err {A}.

(** flags of os.open used by dill (access mode does not matter here) [open(2) and lstat(2), called in dill/session.py:45-82] *)
Record flags := Flags { o_creat_excl : bool; o_trunc : bool; o_nofollow : bool }.

(** a new inode number [open(2) and lstat(2), called in dill/session.py:45-82] *)
Definition fresh (f : fs) : ino := S (fold_right Nat.max 0 (map fst (inodes f))).

(** [open(2) and lstat(2), called in dill/session.py:45-82] *)
Definition open_inode (fl : flags) (f : fs) (i : ino) : res (ino * fs) :=
  match get i (inodes f) with
  | None => Err FileNotFoundError
  | Some nd =>
    if o_trunc fl then
      Ok (i, {| at_path := at_path f; inodes := set i {| data := []; perm := perm nd |} (inodes f) |})
    else Ok (i, f)
  end.

(** os.open(path, flags, mode) (open(2)).  [umask] removes permission bits of a created file.
    Not modelled: EACCES and other environmental failures (they only make the call fail). [open(2) and lstat(2), called in dill/session.py:45-82] *)
Definition os_open (umask : N) (fl : flags) (mode : N) (f : fs) : res (ino * fs) :=
  if o_creat_excl fl then
    match at_path f with
    | Absent => let i := fresh f in
                Ok (i, {| at_path := Reg i;
                          inodes := set i {| data := []; perm := N.ldiff mode umask |} (inodes f) |})
    | _ => Err FileExistsError          (* O_CREAT|O_EXCL never follows a link *)
    end
  else
    match at_path f with
    | Absent => Err FileNotFoundError
    | Dir => Err IsADirectoryError      (* O_WRONLY: EISDIR; O_RDONLY: os.fdopen refuses a directory *)
    | Reg i => open_inode fl f i
    | Link t => if o_nofollow fl then Err LoopError
                else match t with Some i => open_inode fl f i | None => Err FileNotFoundError end
    end.

(** _check_symlink, dill/session.py:47-55 (os.lstat never follows the final link) *)
Definition _check_symlink (f : fs) : res unit :=
  match at_path f with
  | Link _ => Err SymlinkRefused
  | _ => Ok tt
  end.

Section Open.
  (** dill/session.py:45: _O_NOFOLLOW is the flag where the platform has it, 0 elsewhere *)
  Variable has_nofollow : bool.
  Variable umask : N.

  (** _safe_open_for_writing, dill/session.py:57-72.  [adv1], [adv2]: everything other processes do
      between the three system calls. *)
  Definition _safe_open_for_writing (adv1 adv2 : fs -> fs) (f : fs) : res (ino * fs) :=
    match os_open umask {| o_creat_excl := true; o_trunc := false; o_nofollow := has_nofollow |} 384 f with
    | Ok r => Ok r
    | Err FileExistsError =>
      let f1 := adv1 f in
      match _check_symlink f1 with
      | Err e => Err e
      | Ok _ =>
        let f2 := adv2 f1 in
        os_open umask {| o_creat_excl := false; o_trunc := true; o_nofollow := has_nofollow |} 384 f2
      end
    | Err e => Err e
    end.

  (** _safe_open_for_reading, dill/session.py:74-82 *)
  Definition _safe_open_for_reading (adv : fs -> fs) (f : fs) : res (ino * fs) :=
    match _check_symlink f with
    | Err e => Err e
    | Ok _ =>
      let f1 := adv f in
      os_open umask {| o_creat_excl := false; o_trunc := false; o_nofollow := has_nofollow |} 511 f1
    end.
End Open.
