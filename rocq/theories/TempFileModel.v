(** dill/temp.py: load (120-133), dump (135-165), loadIO (167-180), dumpIO (182-195), over a file
    system, tempfile.NamedTemporaryFile's wrapper (a buffered read/write stream that removes its file
    when closed or collected) and io.BytesIO.
    Simplified: bytes are numbers; what pickle.dump writes and what pickle.load reads of a byte string
    are parameters; a handle nobody refers to any more is closed at once (CPython's reference counts). *)
From Coq Require Import String List Bool Arith.
From Verif Require Import PyDict.
Import ListNotations.

Notation bytes := (list nat) (only parsing).

(** Exceptions seen by the caller.  [dill/temp.py:120-195] *)
Inductive error := FileNotFound | ClosedFile | BadPickle | PickleFailed | NotABuffer.
(** [dill/temp.py:120-195] *)
Inductive result (A : Type) := Ok (a : A) | Err (e : error).
Arguments Ok {A} _. Arguments Err {A} _.

(** Writing [bs] at position [p] of a file's contents (the contents reach at least to p in every use
    here; a gap is filled with zeros as the system does).  [the file written in dill/temp.py:161-164] *)
Definition write_at (old : bytes) (p : nat) (bs : bytes) : bytes :=
  firstn p old ++ repeat 0 (p - length old) ++ bs ++ skipn (p + length bs) old.

(** The stream NamedTemporaryFile returns: the file's name, the position in the file where the
    pending bytes go, the pending (not yet written) bytes, delete=, and whether it is closed.
    [dill/temp.py:161-162] *)
Record handle := Handle { h_name : nat; h_pos : nat; h_pending : bytes; h_delete : bool; h_closed : bool }.

(** The process: files by name, streams by id, and BytesIO buffers (contents, position, closed).
    [what dill/temp.py:120-195 acts on] *)
Record world := World { files : dict nat bytes; handles : dict nat handle; buffers : dict nat (bytes * nat * bool) }.

(** Flushing the first k pending bytes (the whole lot for flush(), any part when the stream's buffer
    is full).  [dill/temp.py:164] *)
Definition flush (k : nat) (W : world) (h : nat) : world :=
  match get h (handles W) with
  | Some d =>
    match get (h_name d) (files W) with
    | Some old =>
      let now := firstn k (h_pending d) in
      World (set (h_name d) (write_at old (h_pos d) now) (files W))
            (set h (Handle (h_name d) (h_pos d + length now) (skipn k (h_pending d)) (h_delete d) (h_closed d)) (handles W))
            (buffers W)
    | None => W
    end
  | None => W
  end.
(** file.flush().  [dill/temp.py:164] *)
Definition flush_all (W : world) (h : nat) : world :=
  match get h (handles W) with Some d => flush (length (h_pending d)) W h | None => W end.
(** file.write(bs).  [pickle.dump's writes, dill/temp.py:163] *)
Definition write (W : world) (h : nat) (bs : bytes) : world :=
  match get h (handles W) with
  | Some d => World (files W) (set h (Handle (h_name d) (h_pos d) (h_pending d ++ bs) (h_delete d) (h_closed d)) (handles W)) (buffers W)
  | None => W
  end.
(** file.seek(p), which flushes first.  [user code; the stream of dill/temp.py:162] *)
Definition seek (W : world) (h p : nat) : world :=
  let W := flush_all W h in
  match get h (handles W) with
  | Some d => World (files W) (set h (Handle (h_name d) p (h_pending d) (h_delete d) (h_closed d)) (handles W)) (buffers W)
  | None => W
  end.
(** file.close(), also by collection: flush, close, and remove the file if delete is set.
    [tempfile._TemporaryFileCloser; the kwds of dill/temp.py:161-162] *)
Definition close (W : world) (h : nat) : world :=
  let W := flush_all W h in
  match get h (handles W) with
  | Some d =>
    if h_closed d then W
    else World (if h_delete d then del (h_name d) (files W) else files W)
               (set h (Handle (h_name d) (h_pos d) (h_pending d) (h_delete d) true) (handles W)) (buffers W)
  | None => W
  end.

Section Temp.
  Variable V : Type.
  (** what pickle.dump writes for an object, in order, and whether it then succeeds *)
  Variable dumps : V -> list bytes * bool.
  (** what pickle.load makes of a stream that holds these bytes from its position on *)
  Variable loads : bytes -> option V.

  (** dump(object, delete=...): [name] and [h] are the name and stream NamedTemporaryFile made.
      [spill] says how many bytes of each chunk the stream writes out on its own.
      [dill/temp.py:158-165] *)
  Fixpoint write_all (W : world) (h : nat) (chunks : list bytes) (spill : list nat) : world :=
    match chunks with
    | [] => W
    | c :: chunks =>
      let W := write W h c in
      match spill with
      | [] => write_all W h chunks []
      | k :: spill => write_all (flush k W h) h chunks spill
      end
    end.
  (** [dill/temp.py:158-165] *)
  Definition dump (v : V) (delete : option bool) (name h : nat) (spill : list nat) (W : world) : world * result nat :=
    let del_ := match delete with Some b => b | None => true end in            (* setdefault('delete', True) *)
    let W := World (set name [] (files W)) (set h (Handle name 0 [] del_ false) (handles W)) (buffers W) in
    let W := write_all W h (fst (dumps v)) spill in
    if snd (dumps v) then (flush_all W h, Ok h)
    else (close W h, Err PickleFailed).                                         (* the stream is collected *)

  (** what load is given: a stream (anything with a name) or a file name.  [dill/temp.py:132] *)
  Inductive target := THandle (h : nat) | TName (name : nat).
  (** [dill/temp.py:132] *)
  Definition target_name (W : world) (t : target) : option nat :=
    match t with THandle h => option_map h_name (get h (handles W)) | TName n => Some n end.
  (** load(file): opens the file by its name and reads one pickle from its beginning.
      [dill/temp.py:130-133] *)
  Definition load (W : world) (t : target) : result V :=
    match target_name W t with
    | None => Err FileNotFound
    | Some n =>
      match get n (files W) with
      | None => Err FileNotFound
      | Some bs => match loads bs with Some v => Ok v | None => Err BadPickle end
      end
    end.

  (** dumpIO(object).  [dill/temp.py:182-195] *)
  Definition dumpIO (v : V) (b : nat) (W : world) : world * result nat :=
    if snd (dumps v) then
      let bs := concat (fst (dumps v)) in
      (World (files W) (handles W) (set b (bs, length bs, false) (buffers W)), Ok b)
    else (W, Err PickleFailed).
  (** what loadIO is given: an io.BytesIO, a bytes object, or something else.  [dill/temp.py:178-179] *)
  Inductive source := SBuffer (b : nat) | SBytes (bs : bytes) | SOther.
  (** loadIO(buffer).  [dill/temp.py:167-180] *)
  Definition loadIO (W : world) (s : source) : result V :=
    match s with
    | SBuffer b =>
      match get b (buffers W) with
      | None => Err ClosedFile
      | Some (bs, _, closed) =>
        if closed then Err ClosedFile
        else match loads bs with Some v => Ok v | None => Err BadPickle end
      end
    | SBytes bs => match loads bs with Some v => Ok v | None => Err BadPickle end
    | SOther => Err NotABuffer
    end.

  (** What a program does with these: each step of a history.  Fresh names and ids are what
      tempfile and the allocator give.  [callers of dill/temp.py:120-195] *)
  Inductive event :=
  | EDump (v : V) (delete : option bool) (name h : nat) (spill : list nat)
  | EWrite (h : nat) (bs : bytes)
  | EFlush (h : nat)
  | ESpill (h : nat) (k : nat)
  | ESeek (h p : nat)
  | EClose (h : nat)                       (* close(), or the last reference dropped *)
  | EUnlink (name : nat)                   (* os.remove, by anybody *)
  | EDumpIO (v : V) (b : nat)
  | EWriteIO (b : nat) (bs : bytes)        (* buffer.write at its position *)
  | ESeekIO (b p : nat)
  | ECloseIO (b : nat).

  (** [callers of dill/temp.py:120-195] *)
  Definition is_open (W : world) (h : nat) : bool :=
    match get h (handles W) with Some d => negb (h_closed d) | None => false end.
  (** [callers of dill/temp.py:120-195] *)
  Definition step (W : world) (e : event) : world :=
    match e with
    | EDump v delete name h spill => fst (dump v delete name h spill W)
    | EWrite h bs => if is_open W h then write W h bs else W
    | EFlush h => if is_open W h then flush_all W h else W
    | ESpill h k => if is_open W h then flush k W h else W
    | ESeek h p => if is_open W h then seek W h p else W
    | EClose h => close W h
    | EUnlink n => World (del n (files W)) (handles W) (buffers W)
    | EDumpIO v b => fst (dumpIO v b W)
    | EWriteIO b bs =>
      match get b (buffers W) with
      | Some (old, p, false) => World (files W) (handles W) (set b (write_at old p bs, p + length bs, false) (buffers W))
      | _ => W
      end
    | ESeekIO b p =>
      match get b (buffers W) with
      | Some (old, _, false) => World (files W) (handles W) (set b (old, p, false) (buffers W))
      | _ => W
      end
    | ECloseIO b =>
      match get b (buffers W) with
      | Some (old, p, _) => World (files W) (handles W) (set b (old, p, true) (buffers W))
      | None => W
      end
    end.
  (** [callers of dill/temp.py:120-195] *)
  Definition run (W : world) (es : list event) : world := fold_left step es W.
End Temp.
