(** dump_module's effect on its file: dill/session.py:277-319.  The byte content is what the pickler
    hands to file.write, in chunks; the file object is an io.BufferedWriter (os.fdopen(fd, 'wb')). *)
From Coq Require Import String List Bool Arith NArith.
From Verif Require Import PyDict SafeOpenModel.
Import ListNotations.

(** [how dill/session.py:277-319 ends] *)
Inductive dexn := ArgError (n : nat) | OpenError (e : exn) | PickleFailed (n : nat).
(** [how dill/session.py:277-319 ends] *)
Inductive outcome := Returned | Raised (e : dexn) | Crashed.

(** The file object: bytes accepted but not yet on disk, and whether it is closed. [the file of dill/session.py:303; CPython io] *)
Record handle := Handle { h_ino : ino; h_buf : list nat; h_closed : bool }.

(** [CPython io; not in /repo] *)
Definition append_data (i : ino) (bs : list nat) (f : fs) : fs :=
  match get i (inodes f) with
  | Some nd => {| at_path := at_path f; inodes := set i {| data := data nd ++ bs; perm := perm nd |} (inodes f) |}
  | None => f
  end.

(** write: the bytes enter the buffer; [flushed] of the buffered bytes reach the disk at once
    (BufferedWriter decides how many; any number is possible). [file.write, called by pickler.dump, dill/session.py:315] *)
Definition h_write (chunk : list nat) (flushed : nat) (h : handle) (f : fs) : handle * fs :=
  let buf := h_buf h ++ chunk in
  ({| h_ino := h_ino h; h_buf := skipn flushed buf; h_closed := h_closed h |},
   append_data (h_ino h) (firstn flushed buf) f).
(** close: flush everything [file.close(), dill/session.py:316-318] *)
Definition h_close (h : handle) (f : fs) : handle * fs :=
  ({| h_ino := h_ino h; h_buf := []; h_closed := true |}, append_data (h_ino h) (h_buf h) f).

(** [dill/session.py:297-303] *)
Inductive target := Path | Stream.

(** One run of dump_module.
    [arg_error]: the error, if any, of lines 277-296 (keyword check, _import_module of the module
      name, isinstance test), which come before the file is opened;
    [chunks]: what the pickler writes, each with the number of bytes flushed at that write;
    [fail]: [Some (k, n)]: pickling raises exception n after k writes; None: it succeeds;
    [crash]: [Some k]: the process dies after k writes (the finally clause never runs). *)
Record run := Run { arg_error : option nat; chunks : list (list nat * nat); fail : option (nat * nat); crash : option nat }.

(** [the writes of pickler.dump, dill/session.py:315] *)
Fixpoint do_writes (ws : list (list nat * nat)) (h : handle) (f : fs) : handle * fs :=
  match ws with
  | [] => (h, f)
  | (c, n) :: ws' => let (h, f) := h_write c n h f in do_writes ws' h f
  end.

(** the writes executed before success, failure or crash [the writes of pickler.dump, dill/session.py:315] *)
Definition executed (r : run) : list (list nat * nat) :=
  let n := length (chunks r) in
  let n := match fail r with Some (k, _) => Nat.min n k | None => n end in
  let n := match crash r with Some k => Nat.min n k | None => n end in
  firstn n (chunks r).

(** dump_module to a path: lines 297-319 with _safe_open_for_writing; the handle is None when the
    file was never opened. *)
Definition dump_to_path (umask : N) (r : run) (f : fs) : outcome * option handle * fs :=
  match arg_error r with
  | Some n => (Raised (ArgError n), None, f)
  | None =>
    match _safe_open_for_writing true umask (fun f => f) (fun f => f) f with
    | Err e => (Raised (OpenError e), None, f)
    | Ok (i, f1) =>
      let (h, f2) := do_writes (executed r) {| h_ino := i; h_buf := []; h_closed := false |} f1 in
      match crash r with
      | Some _ => (Crashed, Some h, f2)
      | None =>
        let (h, f3) := h_close h f2 in                   (* finally: file.close() *)
        match fail r with
        | Some (_, n) => (Raised (PickleFailed n), Some h, f3)
        | None => (Returned, Some h, f3)
        end
      end
    end
  end.

(** dump_module to a stream passed by the caller: [file is filename], so it is not closed
    (lines 297-298, 316-318).  The stream is the sequence of bytes written to it. *)
Record stream := Strm { s_data : list nat; s_closed : bool }.
(** [dill/session.py:297-298, 304-319] *)
Definition dump_to_stream (r : run) (s : stream) : outcome * stream :=
  match arg_error r with
  | Some n => (Raised (ArgError n), s)
  | None =>
    let s' := {| s_data := s_data s ++ concat (map fst (executed r)); s_closed := s_closed s |} in
    match crash r with
    | Some _ => (Crashed, s')
    | None => match fail r with
              | Some (_, n) => (Raised (PickleFailed n), s')
              | None => (Returned, s')
              end
    end
  end.
