(** Identification of the module stored in a session file: dill/session.py:327-384 (_PeekableReader,
    _make_peekable, _identify_module), and the first bytes dump_module writes: CPython 3.11 pickle
    Pickler.dump/framer, save_global, save_str, save_tuple, put, called from save_module
    (dill/_dill.py:1737-1745) through save_reduce(_import_module, (mod_name,)). *)
From Coq Require Import String Ascii List Bool Arith NArith.
Import ListNotations.
Local Open Scope N_scope.

Notation byte := N (only parsing).           (* 0..255 *)
Notation text := (list N) (only parsing).    (* a Python str: code points *)

(** [str of Python as a list of code points, environment of dill/session.py:363-384] *)
Definition text_of (s : string) : list N := map N_of_ascii (list_ascii_of_string s).

(** ** text codecs *)
(** str.encode('utf-8', 'surrogatepass') [the codec used by pickle.py save_str and pickletools.read_unicodestring1/4/8, for dill/session.py:369-378] *)
Definition utf8_char (c : N) : list N :=
  if c <? 128 then [c]
  else if c <? 2048 then [192 + c / 64; 128 + c mod 64]
  else if c <? 65536 then [224 + c / 4096; 128 + (c / 64) mod 64; 128 + c mod 64]
  else [240 + c / 262144; 128 + (c / 4096) mod 64; 128 + (c / 64) mod 64; 128 + c mod 64].
(** [the codec used by pickle.py save_str and pickletools.read_unicodestring1/4/8, for dill/session.py:369-378] *)
Definition utf8 (s : list N) : list N := flat_map utf8_char s.
(** bytes.decode('utf-8', 'surrogatepass'); simplification: overlong forms are not rejected [the codec used by pickle.py save_str and pickletools.read_unicodestring1/4/8, for dill/session.py:369-378] *)
Definition cont (b : N) : option N := if (128 <=? b) && (b <? 192) then Some (b - 128) else None.
(** [the codec used by pickle.py save_str and pickletools.read_unicodestring1/4/8, for dill/session.py:369-378] *)
Fixpoint utf8_decode (l : list N) : option (list N) :=
  match l with
  | [] => Some []
  | b :: l1 =>
    if b <? 128 then option_map (cons b) (utf8_decode l1)
    else if b <? 192 then None
    else if b <? 224 then
      match l1 with
      | b1 :: l2 => match cont b1 with Some c1 => option_map (cons ((b - 192) * 64 + c1)) (utf8_decode l2) | None => None end
      | _ => None
      end
    else if b <? 240 then
      match l1 with
      | b1 :: b2 :: l3 => match cont b1, cont b2 with
                          | Some c1, Some c2 => option_map (cons ((b - 224) * 4096 + c1 * 64 + c2)) (utf8_decode l3)
                          | _, _ => None end
      | _ => None
      end
    else
      match l1 with
      | b1 :: b2 :: b3 :: l4 =>
          match cont b1, cont b2, cont b3 with
          | Some c1, Some c2, Some c3 => option_map (cons ((b - 240) * 262144 + c1 * 4096 + c2 * 64 + c3)) (utf8_decode l4)
          | _, _, _ => None end
      | _ => None
      end
  end.

(** hexadecimal digits, lower case as CPython writes them *)
Definition hexdigit (n : N) : N := if n <? 10 then 48 + n else 87 + n.
(** [CPython Objects/unicodeobject.c, raw-unicode-escape, used by pickle.py:865-870 and pickletools.py read_unicodestringnl] *)
Definition unhex (c : N) : option N :=
  if (48 <=? c) && (c <=? 57) then Some (c - 48)
  else if (97 <=? c) && (c <=? 102) then Some (c - 87)
  else if (65 <=? c) && (c <=? 70) then Some (c - 55)
  else None.
(** [CPython Objects/unicodeobject.c, raw-unicode-escape, used by pickle.py:865-870 and pickletools.py read_unicodestringnl] *)
Fixpoint hex (digits : nat) (n : N) : list N :=
  match digits with O => [] | S d => hex d (n / 16) ++ [hexdigit (n mod 16)] end.
(** [CPython Objects/unicodeobject.c, raw-unicode-escape, used by pickle.py:865-870 and pickletools.py read_unicodestringnl] *)
Fixpoint unhexs (l : list N) (acc : N) : option N :=
  match l with [] => Some acc | c :: l' => match unhex c with Some d => unhexs l' (acc * 16 + d) | None => None end end.

(** the protocol-0 escape in save_str followed by .encode('raw-unicode-escape'): pickle.py:865-870 *)
Definition esc4 (c : N) : list N := 92 :: 117 :: hex 4 c.       (* \uXXXX *)
(** [pickle.py:865-870] *)
Definition esc8 (c : N) : list N := 92 :: 85 :: hex 8 c.        (* \UXXXXXXXX *)
(** [pickle.py:865-870] *)
Definition rue_char (c : N) : list N :=
  if (c =? 92) || (c =? 0) || (c =? 10) || (c =? 13) || (c =? 26) then esc4 c
  else if c <? 256 then [c] else if c <? 65536 then esc4 c else esc8 c.
(** [pickle.py:865-870] *)
Definition rue (s : list N) : list N := flat_map rue_char s.
(** str(data, 'raw-unicode-escape') [pickletools.py read_unicodestringnl, for dill/session.py:369-378] *)
Fixpoint rue_decode (fuel : nat) (l : list N) : option (list N) :=
  match fuel with
  | O => match l with [] => Some [] | _ => None end
  | S fuel =>
    match l with
    | [] => Some []
    | b :: l1 =>
      if b =? 92 then
        match l1 with
        | u :: l2 =>
          if u =? 117 then
            if (length l2 <? 4)%nat then None else
            match unhexs (firstn 4 l2) 0 with Some c => option_map (cons c) (rue_decode fuel (skipn 4 l2)) | None => None end
          else if u =? 85 then
            if (length l2 <? 8)%nat then None else
            match unhexs (firstn 8 l2) 0 with Some c => option_map (cons c) (rue_decode fuel (skipn 8 l2)) | None => None end
          else option_map (cons 92) (rue_decode fuel l1)
        | [] => Some [92]
        end
      else option_map (cons b) (rue_decode fuel l1)
    end
  end.

(** ** opcodes [struct.pack and pickletools read_uint4 / read_uint8, for dill/session.py:369-378] *)
Fixpoint le (k : nat) (n : N) : list N := match k with O => [] | S k => n mod 256 :: le k (n / 256) end.
(** [struct.pack and pickletools read_uint4 / read_uint8, for dill/session.py:369-378] *)
Fixpoint unle (l : list N) : N := match l with [] => 0 | b :: l' => b + 256 * unle l' end.

(** [the opcodes of pickletools.py that dill/session.py:369-378 can meet before the name] *)
Inductive opc :=
| PROTO (n : N) | FRAME (l : N) | SHORT_BINUNICODE (s : list N) | BINUNICODE (s : list N) | UNICODE (s : list N)
| GLOBAL (m n : list N) | STACK_GLOBAL | MEMOIZE | BINPUT (n : N) | PUT (digit : N) | MARK | STOP.

(** the bytes pickle writes for each [pickle.py save_global, save_str, save_tuple, memoize, Framer, for dill/session.py:314] *)
Definition bytes_of (o : opc) : list N :=
  match o with
  | PROTO n => [128; n]
  | FRAME l => 149 :: le 8 l
  | SHORT_BINUNICODE s => 140 :: N.of_nat (length (utf8 s)) :: utf8 s
  | BINUNICODE s => 88 :: le 4 (N.of_nat (length (utf8 s))) ++ utf8 s
  | UNICODE s => 86 :: rue s ++ [10]
  | GLOBAL m n => 99 :: m ++ [10] ++ n ++ [10]
  | STACK_GLOBAL => [147]
  | MEMOIZE => [148]
  | BINPUT n => [113; n]
  | PUT d => [112; 48 + d; 10]
  | MARK => [40]
  | STOP => [46]
  end.

(** what dump_module writes up to and including the module name, pickle.py dump/save_reduce/
    save_global/save_str/save_tuple/put; [flen]: length of the first frame [pickle.py dump and save_reduce for dill/_dill.py:1711-1755, called from dill/session.py:314] *)
Definition header (proto : nat) (flen : N) (name : list N) : list opc :=
  let dd := text_of "dill._dill" in
  let im := text_of "_import_module" in
  match proto with
  | O => [GLOBAL dd im; PUT 0; MARK; UNICODE name]
  | 1%nat => [GLOBAL dd im; BINPUT 0; MARK; BINUNICODE name]
  | 2%nat | 3%nat => [PROTO (N.of_nat proto); GLOBAL dd im; BINPUT 0; BINUNICODE name]
  | _ => [PROTO (N.of_nat proto); FRAME flen; SHORT_BINUNICODE dd; MEMOIZE; SHORT_BINUNICODE im; MEMOIZE;
          STACK_GLOBAL; MEMOIZE;
          if N.of_nat (length (utf8 name)) <=? 255 then SHORT_BINUNICODE name else BINUNICODE name]
  end.
(** [pickle.py dump and save_reduce for dill/_dill.py:1711-1755, called from dill/session.py:314] *)
Definition header_bytes (proto : nat) (flen : N) (name : list N) : list N := flat_map bytes_of (header proto flen name).

(** ** pickletools.genops on the opcodes that can come before the name [pickletools.py:2277-2299] *)
Inductive gen := GOp (o : opc) (rest : list N) | GValueError | GNotModelled.

(** f.readline() [file.readline() and file.read(n) in pickletools.py readers, for dill/session.py:369-378] *)
Fixpoint readline (l : list N) : option (list N * list N) :=
  match l with
  | [] => None                                     (* no newline: ValueError in the callers *)
  | b :: l' => if b =? 10 then Some ([], l') else
               match readline l' with Some (x, r) => Some (b :: x, r) | None => None end
  end.
(** [file.readline() and file.read(n) in pickletools.py readers, for dill/session.py:369-378] *)
Definition take (k : nat) (l : list N) : option (list N * list N) :=
  if (length l <? k)%nat then None else Some (firstn k l, skipn k l).

(** one step of genops (pickletools.py:2277-2299) with the readers of each opcode's argument.
    Undecodable text raises UnicodeDecodeError, a ValueError.  read_stringnl's escape_decode is the
    identity on the names written here (no backslash) and is left out. *)
Definition genop (l : list N) : gen :=
  match l with
  | [] => GValueError                              (* pickle exhausted before seeing STOP *)
  | c :: l =>
    if c =? 128 then match take 1 l with Some ([n], r) => GOp (PROTO n) r | _ => GValueError end
    else if c =? 149 then match take 8 l with Some (x, r) => GOp (FRAME (unle x)) r | None => GValueError end
    else if c =? 140 then
      match take 1 l with
      | Some ([n], l) => match take (N.to_nat n) l with
                         | Some (x, r) => match utf8_decode x with Some s => GOp (SHORT_BINUNICODE s) r | None => GValueError end
                         | None => GValueError
                         end
      | _ => GValueError
      end
    else if c =? 88 then
      match take 4 l with
      | Some (x, l) => match take (N.to_nat (unle x)) l with
                       | Some (x, r) => match utf8_decode x with Some s => GOp (BINUNICODE s) r | None => GValueError end
                       | None => GValueError
                       end
      | None => GValueError
      end
    else if c =? 86 then
      match readline l with
      | Some (x, r) => match rue_decode (length x) x with Some s => GOp (UNICODE s) r | None => GValueError end
      | None => GValueError
      end
    else if c =? 99 then
      match readline l with
      | Some (m, l) => match readline l with Some (n, r) => GOp (GLOBAL m n) r | None => GValueError end
      | None => GValueError
      end
    else if c =? 147 then GOp STACK_GLOBAL l
    else if c =? 148 then GOp MEMOIZE l
    else if c =? 113 then match take 1 l with Some ([n], r) => GOp (BINPUT n) r | _ => GValueError end
    else if c =? 112 then
      match readline l with
      | Some ([d], r) => if (48 <=? d) && (d <=? 57) then GOp (PUT (d - 48)) r else GValueError
      | Some (_, _) => GNotModelled                (* longer numbers: valid, but not written here *)
      | None => GValueError
      end
    else if c =? 40 then GOp MARK l
    else if c =? 46 then GOp STOP l
    else GNotModelled
  end.

(** arg.endswith('_import_module') [dill/session.py:371-375] *)
Fixpoint list_eqb (a b : list N) : bool :=
  match a, b with [], [] => true | x :: a, y :: b => (x =? y) && list_eqb a b | _, _ => false end.
(** [dill/session.py:371-375] *)
Definition endswith (s suf : list N) : bool :=
  (length suf <=? length s)%nat && list_eqb (skipn (length s - length suf) s) suf.
(** [dill/session.py:371-375] *)
Definition import_name : list N := text_of "_import_module".

(** [outcome of dill/session.py:363-384] *)
Inductive ident := IName (s : list N) | INone | IUnpicklingError | INotModelled.

(** the loop of _identify_module, session.py:369-378, on the peeked bytes *)
Fixpoint identify_loop (fuel : nat) (found : bool) (l : list N) : ident :=
  match fuel with
  | O => IUnpicklingError                          (* not reached: every opcode takes a byte *)
  | S fuel =>
    match genop l with
    | GValueError => IUnpicklingError
    | GNotModelled => INotModelled
    | GOp o r =>
      if negb found then
        let found := match o with
                     | GLOBAL m n => endswith (m ++ [32] ++ n) import_name
                     | SHORT_BINUNICODE s => endswith s import_name
                     | _ => false
                     end in
        match o with STOP => IUnpicklingError | _ => identify_loop fuel found r end
      else
        match o with
        | UNICODE s | BINUNICODE s | SHORT_BINUNICODE s => IName s
        | STOP => IUnpicklingError
        | _ => identify_loop fuel true r
        end
    end
  end.

(** ** streams *)
(** A seekable stream without peek (wrapped in _PeekableReader), or a buffered reader: [s_buf] is
    what it has read ahead, [s_rest] what follows in the file, [s_read k]: how many bytes one raw
    read asking for a full buffer delivers. [the stream of dill/session.py:327-361] *)
Inductive stream :=
| Seekable (data : list N) (pos : nat)
| Buffered (buf rest : list N) (rawread : nat)
| Unseekable (data : list N).

(** file.peek(256): (bytes, stream afterwards), None: NotImplementedError.
    _PeekableReader.peek: session.py:339-349.  io.BufferedReader.peek (CPython
    _bufferedreader_peek_unlocked): returns all the buffered bytes if there are any, else fills the
    buffer with one raw read and returns that. *)
Definition peek256 (s : stream) : option (list N) * stream :=
  match s with
  | Seekable data pos =>
    let chunk := firstn 256 (skipn pos data) in
    let after := Seekable data (Nat.min (length data) (pos + length chunk)) in     (* read(n) *)
    match after with
    | Seekable data _ => (Some chunk, Seekable data pos)                           (* seek(position) *)
    | x => (None, x)
    end
  | Buffered buf rest raw =>
    match buf with
    | [] => (Some (firstn raw rest), Buffered (firstn raw rest) (skipn raw rest) raw)
    | _ => (Some buf, Buffered buf rest raw)
    end
  | Unseekable data => (None, Unseekable data)
  end.
(** what reading from the stream will deliver [the stream of dill/session.py:327-361] *)
Definition remaining (s : stream) : list N :=
  match s with
  | Seekable data pos => skipn pos data
  | Buffered buf rest _ => buf ++ rest
  | Unseekable data => data
  end.

(** _identify_module, session.py:363-384; [main_given]: main is not None *)
Definition _identify_module (s : stream) (main_given : bool) : ident * stream :=
  match peek256 s with
  | (Some chunk, s) => (identify_loop (S (length chunk)) false chunk, s)
  | (None, s) => (if main_given then INone else IUnpicklingError, s)
  end.
