(** dill/logger.py: TraceAdapter.addHandler, removeHandler (118-123), TraceFormatter (170-209), the handler of stderr (213-215) and the handlers
    of redirected contexts (267-285): which characters the tree is drawn with, and on which streams a line arrives. *)
From Coq Require Import String Ascii List Bool Arith NArith ZArith.
From Verif Require Import PyDict LocksModel TraceModel.
Import ListNotations.

(** text as code points [str, environment of dill/logger.py:170-209] *)
Definition text := list N.
(** [str, environment of dill/logger.py:170-209] *)
Fixpoint text_of (s : string) : text := match s with EmptyString => [] | String c s => N_of_ascii c :: text_of s end.

(** a stream: its attribute encoding, None if there is none or it is None; the characters its write() takes [environment of dill/logger.py:179-182; io.TextIOWrapper, io.StringIO] *)
Record stream := Stream { encoding : option string; takes : N -> bool }.
(** codecs.lookup(e).name, None: LookupError; locale.getpreferredencoding() [environment of dill/logger.py:183-189] *)
Record codec_info := Codecs { lookup : string -> option string; preferred : string }.

(** is_utf8 of the formatter made for a handler of this stream [TraceFormatter.__init__, dill/logger.py:177-190] *)
Definition is_utf8 (K : codec_info) (st : stream) : bool :=
  let e := match encoding st with Some e => e | None => preferred K end in
  match lookup K e with
  | None => false
  | Some n => match lookup K "utf-8" with Some u => String.eqb n u | None => false end
  end.

(** the tree characters [dill/logger.py:195-199] *)
Definition glyph_char (g : glyph) : N := match g with Bar => 9474 | Tee => 9500 | Down => 9516 | Corner => 9492 end%N.
(** str.translate with ASCII_MAP [dill/logger.py:57, 201] *)
Definition ascii_map (c : N) : N :=
  (if c =? 9474 then 124 else if c =? 9500 then 124 else if c =? 9516 then 43 else if c =? 9492 then 96 else c)%N.

(** the prefix of a line [dill/logger.py:192-202] *)
Definition prefix_text (utf8 : bool) (m : string) (d : Z) : text :=
  if (0 <? d)%Z then
    let p := map glyph_char (prefix m d) in
    (if utf8 then p else map ascii_map p ++ [45%N]) ++ [32%N]
  else [].
(** its suffix; None: IndexError [dill/logger.py:203-207] *)
Definition suffix_text (sz : option Z) : option text :=
  match suffix sz with
  | None => None
  | Some None => Some []
  | Some (Some (n, u)) => Some (text_of (" [" ++ dec (Z.to_N n) ++ " " ++ match u with Plain => "" | Prefixed c => String c "i" end ++ "B]")%string)
  end.
(** TraceFormatter.format; [full]: the message with its arguments, of which the record's msg is the template [dill/logger.py:191-209] *)
Definition format (utf8 : bool) (r : record) (full : text) : option text :=
  match suffix_text (size r) with
  | None => None
  | Some sfx => Some (prefix_text utf8 (msg r) (depth r) ++ full ++ sfx)
  end.

(** the state: the stream sys.stderr is; the handlers of the logger, in order, 0 the one of stderr; the stream of each other handler; the formatter of each
    handler; the number of handlers made; what was written on each stream, and the records that were not written
    [dill/logger.py:118-123, 211-215, 267-285] *)
Record fstate := FS { err : nat; on : list nat; stream_of : dict nat nat; fmt : dict nat bool; made : nat;
                      written : list (nat * text); lost : list (nat * record) }.

Section Streams.
  Variable K : codec_info.
  Variable S : nat -> stream.

  (** handler.stream: of stderr's handler, what sys.stderr is now [dill/logger.py:179; CPython logging/__init__.py:1237-1251] *)
  Definition the_stream (s : fstate) (h : nat) : nat :=
    if Nat.eqb h 0 then err s else match get h (stream_of s) with Some i => i | None => err s end.
  (** TraceAdapter.addHandler: a new formatter, also if the handler is there [dill/logger.py:118-121] *)
  Definition attach (h : nat) (s : fstate) : fstate :=
    FS (err s) (add_handler h (on s)) (stream_of s) (set h (is_utf8 K (S (the_stream s h))) (fmt s)) (made s) (written s) (lost s).
  (** TraceAdapter.removeHandler [dill/logger.py:122-123] *)
  Definition detach (h : nat) (s : fstate) : fstate :=
    FS (err s) (remove_handler h (on s)) (stream_of s) (fmt s) (made s) (written s) (lost s).
  (** StreamHandler.emit: any exception of formatting or writing is reported on stderr and the record is lost
      [dill/logger.py:191-209; CPython logging/__init__.py:1098-1118] *)
  Definition emit (r : record) (full : text) (s : fstate) (h : nat) : fstate :=
    let i := the_stream s h in
    match format (match get h (fmt s) with Some b => b | None => false end) r full with
    | Some t => if forallb (takes (S i)) (t ++ [10%N])
                then FS (err s) (on s) (stream_of s) (fmt s) (made s) (written s ++ [(i, t ++ [10%N])]) (lost s)
                else FS (err s) (on s) (stream_of s) (fmt s) (made s) (written s) (lost s ++ [(h, r)])
    | None => FS (err s) (on s) (stream_of s) (fmt s) (made s) (written s) (lost s ++ [(h, r)])
    end.

  (** what happens: sys.stderr is replaced; a redirected context is entered, with a stream; it is left, [h] its handler; a record is logged while tracing is on
      [programs using dill/logger.py:217-285] *)
  Inductive fevent := SetErr (i : nat) | Enter (i : nat) | Exit (h : nat) | Log (r : record) (full : text).
  (** [dill/logger.py:267-285] *)
  Definition happen (s : fstate) (e : fevent) : fstate :=
    match e with
    | SetErr i => FS i (on s) (stream_of s) (fmt s) (made s) (written s) (lost s)
    | Enter i =>
      let h := made s in
      let s := detach 0 (FS (err s) (on s) (set h i (stream_of s)) (fmt s) (Datatypes.S h) (written s) (lost s)) in
      attach h s
    | Exit h => attach 0 (detach h s)
    | Log r full => fold_left (emit r full) (on s) s
    end.
  (** after import of dill, with [i] as sys.stderr [dill/logger.py:211-215] *)
  Definition imported (i : nat) : fstate := attach 0 (FS i [] [] [] 1 [] []).
  (** [programs using dill/logger.py:217-285] *)
  Definition after (i : nat) (es : list fevent) : fstate := fold_left happen es (imported i).
End Streams.
