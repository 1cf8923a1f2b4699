(** The bytes of a pickle.  The opcodes of CoreModel as pickle.py (3.11) writes them, with the choices it makes by protocol and size: save_long
    (751-780), save_bool (745-749), save_float (782-787), save_bytes (790-808), encode_long (354-382), save_str (852-876), put and get (512-534), save_global (1056-1120), save_tuple, the framer (197-255) and
    dill's own writes of module dictionaries (dill/_dill.py:1246-1262); and the loader that reads them, _pickle.c's Unpickler (the one dill uses:
    dill/_dill.py:22), opcode by opcode: load_int, load_long, load_binint*, load_counted_long, load_unicode, load_counted_binunicode, load_global,
    load_stack_global, load_get/binget/long_binget, load_put/binput/long_binput/memoize, load_frame.

    Simplified:
    - floats are written in protocol 0 as their repr, which is not modelled: from protocol 1 on; bytes are constants from protocol 3 on (before,
      they are calls of codecs.encode, reduce values of CoreModel); a float is its 64 bits (struct.pack and unpack keep them);
    - strings are of code points below 256 (CoreModel's are Coq strings);
    - what module and name are written for an object stored by reference, and what the loader finds under them, are parameters; the objects dill
      stores through its shims (_shims._setattr, _delattr, _CELL_EMPTY: a call of getattr) are written like other globals;
    - extension codes (copyreg.add_extension) are not used;
    - decimal numbers with leading zeros, which pickle never writes, are read as decimal. *)
From Coq Require Import String Ascii List Bool Arith NArith ZArith DecimalN.
From Verif Require Import PyDict CoreModel.
From Verif Require IdentifyModel.
Import ListNotations.
Local Open Scope N_scope.

Notation utf8 := IdentifyModel.utf8.
Notation utf8_decode := IdentifyModel.utf8_decode.
Notation rue := IdentifyModel.rue.
Notation rue_decode := IdentifyModel.rue_decode.
Notation le := IdentifyModel.le.
Notation unle := IdentifyModel.unle.
Notation readline := IdentifyModel.readline.
Notation take := IdentifyModel.take.
Notation text_of := IdentifyModel.text_of.

(** ** decimal numbers: repr(n), int(s) [CPython repr(int), int(str), used by Lib/pickle.py:751-779, 514-533, 1269-1297, 1608-1647; not in /repo] *)
Fixpoint digits (u : Decimal.uint) : list N :=
  match u with
  | Decimal.Nil => []
  | Decimal.D0 u => 48 :: digits u | Decimal.D1 u => 49 :: digits u | Decimal.D2 u => 50 :: digits u | Decimal.D3 u => 51 :: digits u
  | Decimal.D4 u => 52 :: digits u | Decimal.D5 u => 53 :: digits u | Decimal.D6 u => 54 :: digits u | Decimal.D7 u => 55 :: digits u
  | Decimal.D8 u => 56 :: digits u | Decimal.D9 u => 57 :: digits u
  end.
(** [CPython repr(int), int(str), used by Lib/pickle.py:751-779, 514-533, 1269-1297, 1608-1647; not in /repo] *)
Fixpoint undigits (l : list N) : option Decimal.uint :=
  match l with
  | [] => Some Decimal.Nil
  | c :: l =>
    match undigits l with
    | None => None
    | Some u =>
      if c =? 48 then Some (Decimal.D0 u) else if c =? 49 then Some (Decimal.D1 u) else if c =? 50 then Some (Decimal.D2 u)
      else if c =? 51 then Some (Decimal.D3 u) else if c =? 52 then Some (Decimal.D4 u) else if c =? 53 then Some (Decimal.D5 u)
      else if c =? 54 then Some (Decimal.D6 u) else if c =? 55 then Some (Decimal.D7 u) else if c =? 56 then Some (Decimal.D8 u)
      else if c =? 57 then Some (Decimal.D9 u) else None
    end
  end.
(** [CPython repr(int), int(str), used by Lib/pickle.py:751-779, 514-533, 1269-1297, 1608-1647; not in /repo] *)
Definition dec (n : N) : list N := digits (N.to_uint n).
(** [CPython repr(int), int(str), used by Lib/pickle.py:751-779, 514-533, 1269-1297, 1608-1647; not in /repo] *)
Definition undec (l : list N) : option N := match l with [] => None | _ => option_map N.of_uint (undigits l) end.
(** [CPython repr(int), int(str), used by Lib/pickle.py:751-779, 514-533, 1269-1297, 1608-1647; not in /repo] *)
Definition decz (z : Z) : list N := match z with Zneg p => 45 :: dec (Npos p) | _ => dec (Z.to_N z) end.
(** [CPython repr(int), int(str), used by Lib/pickle.py:751-779, 514-533, 1269-1297, 1608-1647; not in /repo] *)
Definition undecz (l : list N) : option Z :=
  match l with
  | c :: l' => if c =? 45 then option_map (fun n => Z.opp (Z.of_N n)) (undec l') else option_map Z.of_N (undec l)
  | [] => None
  end.

(** ** two's complement *)
(** int.to_bytes(n, 'little', signed=True); struct.pack('<i', z) is the case n = 4 [CPython int.to_bytes, int.from_bytes, struct; Lib/pickle.py:354-405, 1280-1312; not in /repo] *)
Definition tobytes (n : nat) (z : Z) : list N := le n (Z.to_N (z mod 256 ^ Z.of_nat n)).
(** int.from_bytes(l, 'little', signed=True) [CPython int.to_bytes, int.from_bytes, struct; Lib/pickle.py:354-405, 1280-1312; not in /repo] *)
Definition frombytes (l : list N) : Z :=
  match l with
  | [] => 0%Z
  | _ => if last l 0 <? 128 then Z.of_N (unle l) else (Z.of_N (unle l) - 256 ^ Z.of_nat (length l))%Z
  end.
(** encode_long, pickle.py:375-382; x.bit_length() *)
Definition bit_length (z : Z) : nat := N.to_nat (N.size (Z.abs_N z)).
(** [CPython Lib/pickle.py:354-382, the class that dill/_dill.py:22 imports as StockPickler] *)
Definition encode_long (z : Z) : list N :=
  if (z =? 0)%Z then [] else
  let nbytes := S (bit_length z / 8) in
  let result := tobytes nbytes z in
  if (z <? 0)%Z && (1 <? nbytes)%nat && (last result 0 =? 255) && (128 <=? last (removelast result) 0) then removelast result else result.

(** ** the opcodes [CPython Lib/pickle.py:107-190; dill/_dill.py:1249, 1253, 1259 write GLOBAL themselves] *)
Inductive rop :=
  | ROp (o : op)                                   (* an opcode without argument, or PROTO *)
  | BININT1 (n : N) | BININT2 (n : N) | BININT (z : Z) | LONG1 (z : Z) | LONG4 (z : Z) | INT (z : Z) | LONG (z : Z)
  | SHORT_BINUNICODE (s : string) | BINUNICODE (s : string) | BINUNICODE8 (s : string) | UNICODE (s : string)
  | GLOBAL (m n : string) | STACK_GLOBAL
  | BINGET (i : N) | LONG_BINGET (i : N) | GETT (i : N) | BINPUT (i : N) | LONG_BINPUT (i : N) | PUTT (i : N)
  | FRAME (n : N)
  | INTBOOL (b : bool) | BINFLOAT (bits : N) | SHORT_BINBYTES (s : string) | BINBYTES (s : string) | BINBYTES8 (s : string).

(** [CPython Lib/pickle.py:851-871] *)
Definition ulen (s : string) : N := N.of_nat (length (utf8 (text_of s))).
(** len(obj) [CPython Lib/pickle.py:798] *)
Definition blen (s : string) : N := N.of_nat (length (text_of s)).
(** [CPython Lib/pickle.py:107-190, 741-749] *)
Definition plain (o : op) : option N :=
  match o with
  | STOP => Some 46 | MARK => Some 40 | POP => Some 48 | POP_MARK => Some 49
  | CONST ANone => Some 78 | CONST (ABool true) => Some 136 | CONST (ABool false) => Some 137
  | EMPTY_TUPLE => Some 41 | TUPLE => Some 116 | TUPLEN 1 => Some 133 | TUPLEN 2 => Some 134 | TUPLEN 3 => Some 135
  | EMPTY_LIST => Some 93 | LIST => Some 108 | APPEND => Some 97 | APPENDS => Some 101
  | EMPTY_DICT => Some 125 | DICT => Some 100 | SETITEM => Some 115 | SETITEMS => Some 117
  | MEMOIZE => Some 148 | REDUCE => Some 82 | NEWOBJ => Some 129 | BUILD => Some 98
  | EMPTY_SET => Some 143 | ADDITEMS => Some 144 | FROZENSET => Some 145
  | _ => None
  end.
(** [a name ends at the newline, CPython Lib/pickle.py:1526-1531] *)
Definition no_nl (s : string) : bool := forallb (fun c => negb (c =? 10)) (text_of s).
(** what is written for an opcode; None: struct.error, or not an opcode [CPython Lib/pickle.py:107-190, 514-533, 740-779, 851-871, 1056-1120; not in /repo] *)
Definition enc (r : rop) : option (list N) :=
  match r with
  | ROp (PROTO p) => if (p <? 256)%nat then Some [128; N.of_nat p] else None
  | ROp o => match plain o with Some c => Some [c] | None => None end
  | BININT1 n => if n <? 256 then Some [75; n] else None
  | BININT2 n => if n <? 65536 then Some (77 :: le 2 n) else None
  | BININT z => if (-2147483648 <=? z)%Z && (z <=? 2147483647)%Z then Some (74 :: tobytes 4 z) else None
  | LONG1 z => let l := encode_long z in if N.of_nat (length l) <? 256 then Some (138 :: N.of_nat (length l) :: l) else None
  | LONG4 z => let l := encode_long z in if N.of_nat (length l) <? 2147483648 then Some (139 :: le 4 (N.of_nat (length l)) ++ l)%list else None
  | INT z => Some (73 :: decz z ++ [10])%list
  | LONG z => Some (76 :: decz z ++ [76; 10])%list
  | SHORT_BINUNICODE s => if ulen s <? 256 then Some (140 :: ulen s :: utf8 (text_of s)) else None
  | BINUNICODE s => if ulen s <? 4294967296 then Some (88 :: le 4 (ulen s) ++ utf8 (text_of s))%list else None
  | BINUNICODE8 s => if ulen s <? 2 ^ 64 then Some (141 :: le 8 (ulen s) ++ utf8 (text_of s))%list else None
  | UNICODE s => Some (86 :: rue (text_of s) ++ [10])%list
  | GLOBAL m n => (* a name with a newline would make a pickle that cannot be read: not modelled *)
    if no_nl m && no_nl n then Some (99 :: utf8 (text_of m) ++ [10] ++ utf8 (text_of n) ++ [10])%list else None
  | STACK_GLOBAL => Some [147]
  | BINGET i => if i <? 256 then Some [104; i] else None
  | LONG_BINGET i => if i <? 4294967296 then Some (106 :: le 4 i) else None
  | GETT i => Some (103 :: dec i ++ [10])%list
  | BINPUT i => if i <? 256 then Some [113; i] else None
  | LONG_BINPUT i => if i <? 4294967296 then Some (114 :: le 4 i) else None
  | PUTT i => Some (112 :: dec i ++ [10])%list
  | FRAME n => if n <? 2 ^ 64 then Some (149 :: le 8 n) else None
  | INTBOOL b => Some [73; 48; if b then 49 else 48; 10]
  | BINFLOAT n => if n <? 2 ^ 64 then Some (71 :: rev (le 8 n)) else None
  | SHORT_BINBYTES s => if blen s <? 256 then Some (67 :: blen s :: text_of s) else None
  | BINBYTES s => if blen s <? 4294967296 then Some (66 :: le 4 (blen s) ++ text_of s)%list else None
  | BINBYTES8 s => if blen s <? 2 ^ 64 then Some (142 :: le 8 (blen s) ++ text_of s)%list else None
  end.
(** [CPython Lib/pickle.py:107-190, 514-533, 740-779, 851-871, 1056-1120; not in /repo] *)
Fixpoint enc_all (l : list rop) : option (list N) :=
  match l with
  | [] => Some []
  | r :: l' => match enc r, enc_all l' with Some a, Some b => Some (a ++ b)%list | _, _ => None end
  end.

(** ** the pickler's choices *)
Section Writer.
  Variable proto : nat.
  (** the module and name written for an object stored by reference, or for a module's dictionary *)
  Variable naming : atom -> string * string.
  (** does [save(module_name)] find the string in the memo?  It does if the very same str object has been pickled before; [reuse k] tells
      for the k-th name written: the memo entry that is this object, if any *)
  Variable reuse : nat -> option nat.

  (** the state of the writer: where the entries of CoreModel's memo are (protocol 4 and later: module and object names are
      memoized as well), the strings in the memo, the string just written, and the number of names written so far [self.memo, CPython Lib/pickle.py:466-512] *)
  Record wst := W { where_ : list nat; strs : list (option string); top : option string; names : nat }.

  (** [CPython Lib/pickle.py:751-779] *)
  Definition w_int (z : Z) : rop :=
    if (1 <=? proto)%nat && ((0 <=? z)%Z && (z <=? 255)%Z) then BININT1 (Z.to_N z)
    else if (1 <=? proto)%nat && ((0 <=? z)%Z && (z <=? 65535)%Z) then BININT2 (Z.to_N z)
    else if (1 <=? proto)%nat && ((-2147483648 <=? z)%Z && (z <=? 2147483647)%Z) then BININT z
    else if (2 <=? proto)%nat then (if (length (encode_long z) <? 256)%nat then LONG1 z else LONG4 z)
    else if (-2147483648 <=? z)%Z && (z <=? 2147483647)%Z then INT z else LONG z.
  (** [CPython Lib/pickle.py:851-871] *)
  Definition w_str (s : string) : rop :=
    if (1 <=? proto)%nat then
      if (ulen s <=? 255) && (4 <=? proto)%nat then SHORT_BINUNICODE s
      else if (4294967295 <? ulen s) && (4 <=? proto)%nat then BINUNICODE8 s
      else BINUNICODE s
    else UNICODE s.
  (** [CPython Lib/pickle.py:745-749] *)
  Definition w_bool (b : bool) : rop := if (2 <=? proto)%nat then ROp (CONST (ABool b)) else INTBOOL b.
  (** [CPython Lib/pickle.py:782-787] *)
  Definition w_float (bits : N) : option rop := if (1 <=? proto)%nat then Some (BINFLOAT bits) else None.
  (** [CPython Lib/pickle.py:790-808] *)
  Definition w_bytes (s : string) : option rop :=
    if (3 <=? proto)%nat then
      Some (if blen s <=? 255 then SHORT_BINBYTES s else if (4294967295 <? blen s) && (4 <=? proto)%nat then BINBYTES8 s else BINBYTES s)
    else None.
  (** [CPython Lib/pickle.py:526-533] *)
  Definition w_get (i : nat) : rop :=
    if (1 <=? proto)%nat then if N.of_nat i <? 256 then BINGET (N.of_nat i) else LONG_BINGET (N.of_nat i) else GETT (N.of_nat i).
  (** [CPython Lib/pickle.py:491-524] *)
  Definition w_put (i : nat) : rop :=
    if (1 <=? proto)%nat then if N.of_nat i <? 256 then BINPUT (N.of_nat i) else LONG_BINPUT (N.of_nat i) else PUTT (N.of_nat i).
  (** save(module_name), save(name) within save_global [CPython Lib/pickle.py:1056-1120 (protocol 4), which saves the two names with save_str, 851-871] *)
  Definition w_name (s : string) (st : wst) : list rop * wst :=
    let fresh := ([w_str s; ROp MEMOIZE], W (where_ st) (strs st ++ [Some s]) (Some s) (S (names st))) in
    match reuse (names st) with
    | Some j => match nth_error (strs st) j with
                | Some (Some s') => if string_dec s s' then ([w_get j], W (where_ st) (strs st) (Some s) (S (names st))) else fresh
                | _ => fresh
                end
    | None => fresh
    end.
  (** [the bytes(..., encoding="ascii") of CPython Lib/pickle.py:1056-1120] *)
  Definition ascii_only (s : string) : bool := forallb (fun c => c <? 128) (text_of s).
  (** before protocol 3 names must be ASCII; dill writes the names of modules' dictionaries itself, in UTF-8 [CPython Lib/pickle.py:1056-1120; dill/_dill.py:1249, 1253, 1259] *)
  Definition w_global (a : atom) : option rop :=
    let (m, n) := naming a in
    if (3 <=? proto)%nat || (ascii_only m && ascii_only n) then Some (GLOBAL m n) else None.
  (** [the writes of CPython Lib/pickle.py:476-1120, op by op] *)
  Definition w_op (o : op) (st : wst) : option (list rop * wst) :=
    let quiet l := Some (l, W (where_ st) (strs st) None (names st)) in
    match o with
    | CONST ANone => quiet [ROp o]
    | CONST AEmptyTuple => None                     (* never emitted: save_tuple's EMPTY_TUPLE, or MARK TUPLE *)
    | CONST (AScalar z) => quiet [w_int z]
    | CONST (AStr s) => Some ([w_str s], W (where_ st) (strs st) (Some s) (names st))
    | CONST (ABool b) => quiet [w_bool b]
    | CONST (AFloat n) => match w_float n with Some r => quiet [r] | None => None end
    | CONST (ABytes s) => match w_bytes s with Some r => quiet [r] | None => None end
    | CONST ((AModDict _) as a) => quiet [GLOBAL (fst (naming a)) (snd (naming a))]
    | CONST a =>
      if (4 <=? proto)%nat then
        let (m, n) := naming a in
        let (l1, st) := w_name m st in
        let (l2, st) := w_name n st in
        Some ((l1 ++ l2 ++ [STACK_GLOBAL])%list, W (where_ st) (strs st) None (names st))
      else match w_global a with Some r => quiet [r] | None => None end
    | GET i =>
      if (4 <=? proto)%nat then match nth_error (where_ st) i with Some j => quiet [w_get j] | None => None end
      else quiet [w_get i]
    | PUT i => if (4 <=? proto)%nat then None else quiet [w_put i]
    | MEMOIZE =>
      if (4 <=? proto)%nat then Some ([ROp MEMOIZE], W (where_ st ++ [length (strs st)]) (strs st ++ [top st]) (top st) (names st)) else None
    | _ => quiet [ROp o]
    end.
  (** [the writes of CPython Lib/pickle.py:476-1120, op by op] *)
  Fixpoint w_ops (l : list op) (st : wst) : option (list rop * wst) :=
    match l with
    | [] => Some ([], st)
    | o :: l => match w_op o st with
                | Some (r, st) => match w_ops l st with Some (r', st) => Some ((r ++ r')%list, st) | None => None end
                | None => None end
    end.
  (** [Pickler.dump, dill/_dill.py:427-429; CPython Lib/pickle.py:476-489] *)
  Definition written (ops : list op) : option (list rop) :=
    match w_ops ops (W [] [] None 0) with Some (r, _) => Some r | None => None end.
End Writer.

(** the framer, protocol 4 and later: what follows PROTO is cut into pieces between opcodes; a piece is written with FRAME and its length
    before it, or as it is (shorter than four bytes; a string of 64 KiB or more).  Where the cuts are depends on sizes and on the calls of
    save(): any cutting is considered here [CPython Lib/pickle.py:200-261] *)
Inductive framed : list rop -> list N -> Prop :=
  | fr_nil : framed [] []
  | fr_frame l b b' l' f : l <> [] -> enc_all l = Some b -> enc (FRAME (N.of_nat (length b))) = Some f -> framed l' b' -> framed (l ++ l') (f ++ b ++ b')
  | fr_raw l b b' l' : enc_all l = Some b -> framed l' b' -> framed (l ++ l') (b ++ b').
(** the bytes of a pickle [Pickler.dump, dill/_dill.py:427-429; CPython Lib/pickle.py:476-489] *)
Inductive pickled (proto : nat) : list rop -> list N -> Prop :=
  | pk_plain l b : (proto < 4)%nat -> enc_all l = Some b -> pickled proto l b
  | pk_framed p0 l b b' : (4 <= proto)%nat -> enc (ROp (PROTO p0)) = Some b -> framed l b' -> pickled proto (ROp (PROTO p0) :: l) (b ++ b').

(** ** the loader [option; not in /repo] *)
Definition bind {A B} (o : option A) (f : A -> option B) : option B := match o with Some x => f x | None => None end.
(** [bytes to str, CPython Lib/pickle.py:1358-1376; not in /repo] *)
Fixpoint str_of (l : list N) : option string :=
  match l with
  | [] => Some EmptyString
  | c :: l => if c <? 256 then option_map (String (ascii_of_N c)) (str_of l) else None
  end.
(** [self.readline, CPython Lib/pickle.py:300-311] *)
Definition line {A} (l : list N) (f : list N -> option A) : option (A * list N) :=
  bind (readline l) (fun '(x, r) => option_map (fun a => (a, r)) (f x)).
(** [self.read, CPython Lib/pickle.py:287-298] *)
Definition counted {A} (n : nat) (l : list N) (f : list N -> option A) : option (A * list N) :=
  bind (take n l) (fun '(x, r) => option_map (fun a => (a, r)) (f x)).
(** [self.read, CPython Lib/pickle.py:287-298] *)
Definition counted2 {A} (k : nat) (l : list N) (f : list N -> option A) : option (A * list N) :=
  bind (take k l) (fun '(x, r) => counted (N.to_nat (unle x)) r f).
(** [bytes to str, CPython Lib/pickle.py:1358-1376; not in /repo] *)
Definition text (x : list N) : option string := bind (utf8_decode x) str_of.
(** the bytes before a final L [CPython Lib/pickle.py:1292-1297] *)
Definition strip_L (x : list N) : list N := match rev x with 76 :: y => rev y | _ => x end.

(** load_int: "00" and "01" are booleans [CPython Lib/pickle.py:1269-1279] *)
Definition int_or_bool (x : list N) : option rop :=
  match x with
  | [48; 48] => Some (INTBOOL false)
  | [48; 49] => Some (INTBOOL true)
  | _ => option_map INT (undecz x)
  end.
(** the opcode at the beginning of the stream, and what follows it [CPython Lib/pickle.py:1187-1216 and the arguments each load_ function reads, 1229-1748] *)
Definition lex (l : list N) : option (rop * list N) :=
  match l with
  | [] => None
  | c :: r =>
    let one o := Some (ROp o, r) in
    match c with
    | 46 => one STOP | 40 => one MARK | 48 => one POP | 49 => one POP_MARK | 78 => one (CONST ANone)
    | 41 => one EMPTY_TUPLE | 116 => one TUPLE | 133 => one (TUPLEN 1) | 134 => one (TUPLEN 2) | 135 => one (TUPLEN 3)
    | 93 => one EMPTY_LIST | 108 => one LIST | 97 => one APPEND | 101 => one APPENDS
    | 125 => one EMPTY_DICT | 100 => one DICT | 115 => one SETITEM | 117 => one SETITEMS
    | 148 => one MEMOIZE | 82 => one REDUCE | 129 => one NEWOBJ | 98 => one BUILD
    | 143 => one EMPTY_SET | 144 => one ADDITEMS | 145 => one FROZENSET
    | 128 => counted 1 r (fun x => Some (ROp (PROTO (N.to_nat (unle x)))))
    | 75 => counted 1 r (fun x => Some (BININT1 (unle x)))
    | 77 => counted 2 r (fun x => Some (BININT2 (unle x)))
    | 74 => counted 4 r (fun x => Some (BININT (frombytes x)))
    | 138 => counted2 1 r (fun x => Some (LONG1 (frombytes x)))
    | 139 => counted2 4 r (fun x => Some (LONG4 (frombytes x)))
    | 73 => line r int_or_bool
    | 136 => one (CONST (ABool true)) | 137 => one (CONST (ABool false))
    | 71 => counted 8 r (fun x => Some (BINFLOAT (unle (rev x))))
    | 67 => counted2 1 r (fun x => option_map SHORT_BINBYTES (str_of x))
    | 66 => counted2 4 r (fun x => option_map BINBYTES (str_of x))
    | 142 => counted2 8 r (fun x => option_map BINBYTES8 (str_of x))
    | 76 => line r (fun x => option_map LONG (undecz (strip_L x)))
    | 140 => counted2 1 r (fun x => option_map SHORT_BINUNICODE (text x))
    | 88 => counted2 4 r (fun x => option_map BINUNICODE (text x))
    | 141 => counted2 8 r (fun x => option_map BINUNICODE8 (text x))
    | 86 => line r (fun x => option_map UNICODE (bind (rue_decode (length x) x) str_of))
    | 99 => bind (readline r) (fun '(x, r) => line r (fun y => bind (text x) (fun m => option_map (GLOBAL m) (text y))))
    | 147 => Some (STACK_GLOBAL, r)
    | 104 => counted 1 r (fun x => Some (BINGET (unle x)))
    | 106 => counted 4 r (fun x => Some (LONG_BINGET (unle x)))
    | 103 => line r (fun x => option_map GETT (undec x))
    | 113 => counted 1 r (fun x => Some (BINPUT (unle x)))
    | 114 => counted 4 r (fun x => Some (LONG_BINPUT (unle x)))
    | 112 => line r (fun x => option_map PUTT (undec x))
    | 149 => (* load_frame: the whole frame must be there; its opcodes are then read as any others *)
      bind (take 8 r) (fun '(x, r) => if (length r <? N.to_nat (unle x))%nat then None else Some (FRAME (unle x), r))
    | _ => None
    end
  end.

Section Loader.
  (** find_class *)
  Variable find : string -> string -> option atom.
  (** [CPython Lib/pickle.py:1526-1540, find_class of dill/_dill.py:437-443] *)
  Definition find_push (m n : string) (s : vm) : option vm := option_map (fun a => push (VA a 0) s) (find m n).
  (** [CPython Lib/pickle.py:1229-1748] *)
  Definition rstep (r : rop) (m : vm) : option vm :=
    match r with
    | ROp o => step o m
    | BININT1 n | BININT2 n => step (CONST (AScalar (Z.of_N n))) m
    | BININT z | LONG1 z | LONG4 z | INT z | LONG z => step (CONST (AScalar z)) m
    | SHORT_BINUNICODE s | BINUNICODE s | BINUNICODE8 s | UNICODE s => step (CONST (AStr s)) m
    | INTBOOL b => step (CONST (ABool b)) m
    | BINFLOAT n => step (CONST (AFloat n)) m
    | SHORT_BINBYTES s | BINBYTES s | BINBYTES8 s => step (CONST (ABytes s)) m
    | GLOBAL md n => find_push md n m
    | STACK_GLOBAL =>
      match stk m with
      | VA (AStr n) _ :: VA (AStr md) _ :: s => find_push md n (set_stk s m)
      | _ => None
      end
    | BINGET i | LONG_BINGET i | GETT i => step (GET (N.to_nat i)) m
    | BINPUT i | LONG_BINPUT i | PUTT i => step (PUT (N.to_nat i)) m
    | FRAME _ => Some m
    end.
  (** Unpickler.load: the value, the machine, and the bytes left; every opcode takes a byte, so the length is enough fuel [Unpickler.load, dill/_dill.py:452-453; CPython Lib/pickle.py:1187-1216] *)
  Fixpoint bload (fuel : nat) (l : list N) (m : vm) : option (val * vm * list N) :=
    match fuel with
    | O => None
    | S fuel =>
      match lex l with
      | None => None
      | Some (ROp STOP, rest) => match stk m with v :: _ => Some (v, m, rest) | [] => None end
      | Some (r, rest) => match rstep r m with Some m' => bload fuel rest m' | None => None end
      end
    end.
  (** [Unpickler.load, dill/_dill.py:452-453; CPython Lib/pickle.py:1187-1216] *)
  Definition loadb (l : list N) : option (val * vm * list N) := bload (length l) l {| stk := []; meta := []; mem := []; heap := [] |}.
End Loader.
