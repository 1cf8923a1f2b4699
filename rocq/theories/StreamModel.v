(** The file argument of load_module and load_module_asdict: dill/session.py:327-361 (_PeekableReader,
    _make_peekable), 498-508, 552-561 and 631-657 (opening, peeking, reading, closing). *)
From Coq Require Import String List Bool Arith NArith.
From Verif Require Import IdentifyModel.
Import ListNotations.

(** A file-like object.  [a_peek], [a_tell], [a_seek]: which of these methods it has (hasattr); [a_raw]: whether
    io.BufferedReader accepts it (it has readable() and readinto()); [tell_ok], [seek_ok]: whether tell() and seek()
    return, rather than raise OSError (as they do on a pipe or a socket).  [f_data]: the bytes it delivers from its
    start, [f_pos]: how many it has delivered; [f_ahead]: how many more its own buffer holds (an object with peek()),
    [f_chunk]: how many bytes one fill of a buffer asks for.  [the objects dill/session.py:327-361 deals with] *)
Record fileobj := File {
  a_peek : bool; a_tell : bool; a_seek : bool; a_raw : bool; tell_ok : bool; seek_ok : bool;
  f_data : list N; f_pos : nat; f_ahead : nat; f_chunk : nat; f_closed : bool }.

(** changing the position, the buffer, the closed flag [environment of dill/session.py:327-361] *)
Definition at_pos (f : fileobj) (p : nat) : fileobj :=
  File (a_peek f) (a_tell f) (a_seek f) (a_raw f) (tell_ok f) (seek_ok f) (f_data f) p (f_ahead f) (f_chunk f) (f_closed f).
(** [environment of dill/session.py:327-361] *)
Definition with_ahead (f : fileobj) (n : nat) : fileobj :=
  File (a_peek f) (a_tell f) (a_seek f) (a_raw f) (tell_ok f) (seek_ok f) (f_data f) (f_pos f) n (f_chunk f) (f_closed f).
(** close() [dill/session.py:335-336, 555, 649] *)
Definition close (f : fileobj) : fileobj :=
  File (a_peek f) (a_tell f) (a_seek f) (a_raw f) (tell_ok f) (seek_ok f) (f_data f) (f_pos f) (f_ahead f) (f_chunk f) true.

(** read(n) of the object itself: the next n bytes or what is left.  What its own buffer holds afterwards, when the
    read goes past it, is [left] of the new position.  [environment of dill/session.py:331-332] *)
Definition f_read (left : nat -> nat) (n : nat) (f : fileobj) : list N * fileobj :=
  let chunk := firstn n (skipn (f_pos f) (f_data f)) in
  let p := f_pos f + length chunk in
  let f' := at_pos f p in
  (chunk, if a_peek f then with_ahead f' (if length chunk <=? f_ahead f then f_ahead f - length chunk else left p)
          else f').

(** tell() and seek(position): None when the method is missing or raises OSError [dill/session.py:343-346] *)
Definition f_tell (f : fileobj) : option nat := if a_tell f && tell_ok f then Some (f_pos f) else None.
(** [dill/session.py:344, 346] *)
Definition f_seek (p : nat) (f : fileobj) : option fileobj := if a_seek f && seek_ok f then Some (at_pos f p) else None.

(** What load_module reads from: the object itself, a _PeekableReader around it, or a new io.BufferedReader around
    it together with the bytes it has read ahead.  [dill/session.py:351-361] *)
Inductive handle := Itself | PeekableReader | NewBuffered (buf : list N).

(** _make_peekable, dill/session.py:351-361 *)
Definition _make_peekable (f : fileobj) : handle :=
  if a_peek f then Itself
  else if negb (a_tell f && a_seek f) then
    if a_raw f then NewBuffered []             (* io.BufferedReader(stream) *)
    else PeekableReader                        (* it raised: pass *)
  else PeekableReader.

(** one raw read of an io.BufferedReader: readinto() of a full buffer [environment of dill/session.py:357] *)
Definition fill (buf : list N) (f : fileobj) : list N * fileobj :=
  let chunk := firstn (f_chunk f) (skipn (f_pos f) (f_data f)) in
  ((buf ++ chunk)%list, at_pos f (f_pos f + length chunk)).

(** peek(n): the bytes, or None for NotImplementedError; the handle and the object afterwards.
    [_PeekableReader.peek, dill/session.py:337-349; io.BufferedReader.peek] *)
Definition peek (left : nat -> nat) (n : nat) (h : handle) (f : fileobj) : option (list N) * handle * fileobj :=
  match h with
  | Itself =>
      let k := if f_ahead f =? 0 then Nat.min (f_chunk f) (length (f_data f) - f_pos f) else f_ahead f in
      (Some (firstn k (skipn (f_pos f) (f_data f))), Itself, with_ahead f k)
  | PeekableReader =>
      match f_tell f with                                    (* position = stream.tell() *)
      | None => (None, h, f)
      | Some position =>
          match f_seek position f with                       (* assert seek() works before reading *)
          | None => (None, h, f)
          | Some f =>
              let (chunk, f) := f_read left n f in           (* chunk = stream.read(n) *)
              match f_seek position f with                   (* stream.seek(position) *)
              | None => (None, h, f)
              | Some f => (Some chunk, h, f)
              end
          end
      end
  | NewBuffered [] => let (buf, f) := fill [] f in (Some buf, NewBuffered buf, f)
  | NewBuffered buf => (Some buf, NewBuffered buf, f)
  end.

(** read(n) of an io.BufferedReader: raw reads until n bytes are there or the end is reached
    [environment of dill/session.py:357; one raw read per unit of fuel] *)
Fixpoint fill_to (fuel n : nat) (buf : list N) (f : fileobj) : list N * fileobj :=
  match fuel with
  | O => (buf, f)
  | S fuel => if n <=? length buf then (buf, f)
              else if length (f_data f) <=? f_pos f then (buf, f)
              else let (buf, f) := fill buf f in fill_to fuel n buf f
  end.
(** read(n) of what load_module reads from [dill/session.py:331-332] *)
Definition read (left : nat -> nat) (n : nat) (h : handle) (f : fileobj) : list N * handle * fileobj :=
  match h with
  | Itself | PeekableReader => let (c, f) := f_read left n f in (c, h, f)
  | NewBuffered buf => let (buf, f) := fill_to (S (length (f_data f))) n buf f in
                       (firstn n buf, NewBuffered (skipn n buf), f)
  end.

(** what remains to be read: of the object, and through the handle [not in /repo] *)
Definition remaining (f : fileobj) : list N := skipn (f_pos f) (f_data f).
(** [not in /repo] *)
Definition unread (h : handle) (f : fileobj) : list N :=
  match h with NewBuffered buf => (buf ++ remaining f)%list | _ => remaining f end.

(** How a call ends.  [dill/session.py:488-565] *)
Inductive outcome :=
| Loaded (p : list N)             (* unpickler.load() has read exactly these bytes *)
| NotIdentified                   (* UnpicklingError of _identify_module *)
| Refused                         (* the module and the session do not fit: ValueError, TypeError, ImportError *)
| LoadError                       (* unpickler.load() raised *)
| OpenError.                      (* the file could not be opened *)

Section Load.
(** [size l]: how many bytes unpickler.load() reads when [l] is what it can read, and whether it succeeds: it reads
    up to the STOP opcode and no further (CPython Modules/_pickle.c gives back what it has prefetched through peek).
    [fits name]: the checks of dill/session.py:511-546 pass.  [left]: see f_read. *)
Variable size : list N -> nat * bool.
Variable fits : option (list N) -> bool.
Variable left : nat -> nat.

(** the body of the try statement: _make_peekable, _identify_module (IdentifyModel), the checks, unpickler.load();
    [main_given]: a module was passed.  dill/session.py:506-552 *)
Definition body (main_given : bool) (h : handle) (f : fileobj) : outcome * handle * fileobj :=
  let '(chunk, h, f) := peek left 256 h f in
  let id := match chunk with
            | Some chunk => identify_loop (S (length chunk)) false chunk
            | None => if main_given then INone else IUnpicklingError
            end in
  let main (name : option (list N)) :=
    if negb (fits name) then (Refused, h, f)
    else
      let (n, ok) := size (unread h f) in
      let '(p, h, f) := read left n h f in
      (if ok then Loaded p else LoadError, h, f) in
  match id with
  | IName s => main (Some s)
  | INone => main None
  | _ => (NotIdentified, h, f)
  end.

(** the objects local to the call go away: io.BufferedReader.__del__ closes what it wraps, _PeekableReader has no
    __del__ [CPython Modules/_io/iobase.c iobase_finalize, for dill/session.py:357] *)
Definition collect (h : handle) (f : fileobj) : fileobj :=
  match h with NewBuffered _ => close f | _ => f end.

(** load_module(f, module), f an open file-like object, dill/session.py:498-499, 505-561: not closed in the finally clause *)
Definition load_module_stream (main_given : bool) (f : fileobj) : outcome * fileobj :=
  let '(r, h, f) := body main_given (_make_peekable f) f in (r, collect h f).

(** load_module(path, module): [opened]: what _safe_open_for_reading returns, None if it raises (before the try
    statement); the file is closed in the finally clause, dill/session.py:500-504, 554-555 *)
Definition load_module_path (main_given : bool) (opened : option fileobj) : outcome * option fileobj :=
  match opened with
  | None => (OpenError, None)
  | Some f => let '(r, h, f) := body main_given (_make_peekable f) f in (r, Some (close f))
  end.

(** load_module_asdict, dill/session.py:631-657: identifies the module through the wrapper, then calls
    load_module(file) on the wrapper, which has peek() and is used as it is; [prepared]: lines 641-646 did not raise *)
Definition asdict_body (prepared : bool) (h : handle) (f : fileobj) : outcome * handle * fileobj :=
  let '(chunk, h, f) := peek left 256 h f in
  match match chunk with
        | Some chunk => identify_loop (S (length chunk)) false chunk
        | None => IUnpicklingError
        end with
  | IName _ => if prepared then body false h f else (Refused, h, f)
  | _ => (NotIdentified, h, f)
  end.
(** dill/session.py:631-657, an open file-like object *)
Definition asdict_stream (prepared : bool) (f : fileobj) : outcome * fileobj :=
  let '(r, h, f) := asdict_body prepared (_make_peekable f) f in (r, collect h f).
(** dill/session.py:633-637, 647-649, a path *)
Definition asdict_path (prepared : bool) (opened : option fileobj) : outcome * option fileobj :=
  match opened with
  | None => (OpenError, None)
  | Some f => let '(r, h, f) := asdict_body prepared (_make_peekable f) f in (r, Some (close f))
  end.
End Load.
