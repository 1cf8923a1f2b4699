(** check(): dill/_dill.py:2205-2244, with what it relies on: repr of bytes (CPython Objects/bytesobject.c PyBytes_Repr), the reading of a bytes literal
    (_PyBytes_DecodeEscape), str.split(None, n) (Objects/stringlib/split.h), and the exec of the operating system.
    Texts are strings of characters below 256. *)
From Coq Require Import String Ascii List Bool Arith.
Import ListNotations.
Local Open Scope string_scope.

(** [ord; not in /repo] *)
Definition code := nat_of_ascii.
(** str.isspace of the characters below 256 [CPython str.split(None, n), called at dill/_dill.py:2241] *)
Definition is_space (c : ascii) : bool :=
  let n := code c in (Nat.leb 9 n && Nat.leb n 13) || (Nat.leb 28 n && Nat.leb n 32) || Nat.eqb n 133 || Nat.eqb n 160.
(** [CPython str.split(None, n), called at dill/_dill.py:2241] *)
Fixpoint lstrip (s : string) : string := match s with String c r => if is_space c then lstrip r else s | EmptyString => EmptyString end.
(** the first word and what follows it [CPython str.split(None, n), called at dill/_dill.py:2241] *)
Fixpoint word (s : string) : string * string :=
  match s with
  | EmptyString => (EmptyString, EmptyString)
  | String c r => if is_space c then (EmptyString, s) else let (w, r') := word r in (String c w, r')
  end.
(** s.split(None, n) [CPython str.split(None, n), called at dill/_dill.py:2241] *)
Fixpoint split_ws (n : nat) (s : string) : list string :=
  match lstrip s with
  | EmptyString => []
  | s' => match n with 0 => [s'] | S n => let (w, r) := word s' in w :: split_ws n r end
  end.

(** repr of bytes [CPython repr(bytes), called at dill/_dill.py:2240] *)
Definition apos : ascii := "'".
(** [CPython repr(bytes), called at dill/_dill.py:2240] *)
Definition dquote : ascii := ascii_of_nat 34.
(** [CPython repr(bytes), called at dill/_dill.py:2240] *)
Definition bslash : ascii := ascii_of_nat 92.
(** [CPython repr(bytes), called at dill/_dill.py:2240] *)
Fixpoint has_char (c : ascii) (s : string) : bool := match s with EmptyString => false | String a s => Ascii.eqb a c || has_char c s end.
(** [CPython repr(bytes), called at dill/_dill.py:2240] *)
Definition hexdigit (n : nat) : ascii := ascii_of_nat (if Nat.ltb n 10 then 48 + n else 87 + n).
(** [CPython repr(bytes), called at dill/_dill.py:2240] *)
Definition escape (q c : ascii) : string :=
  if Ascii.eqb c q || Ascii.eqb c bslash then String bslash (String c "")
  else if Nat.eqb (code c) 9 then String bslash "t"
  else if Nat.eqb (code c) 10 then String bslash "n"
  else if Nat.eqb (code c) 13 then String bslash "r"
  else if Nat.ltb (code c) 32 || Nat.leb 127 (code c) then
    String bslash (String "x" (String (hexdigit (code c / 16)) (String (hexdigit (code c mod 16)) "")))
  else String c "".
(** [CPython repr(bytes), called at dill/_dill.py:2240] *)
Fixpoint escapes (q : ascii) (b : string) : string := match b with EmptyString => "" | String c b => escape q c ++ escapes q b end.
(** [CPython repr(bytes), called at dill/_dill.py:2240] *)
Definition quote_for (b : string) : ascii := if has_char apos b && negb (has_char dquote b) then dquote else apos.
(** [CPython repr(bytes), called at dill/_dill.py:2240] *)
Definition bytes_repr (b : string) : string := "b" ++ String (quote_for b) (escapes (quote_for b) b ++ String (quote_for b) "").

(** line 2240 *)
Definition program_head : string := "import dill; print(dill.loads(".
(** [dill/_dill.py:2240] *)
Definition message (python b : string) : string := python ++ " -c " ++ program_head ++ bytes_repr b ++ "))".
(** [dill/_dill.py:2241] *)
Definition argv (python b : string) : list string := split_ws 2 (message python b).

(** how a bytes literal is read, after its opening quote [q]: the bytes and the text after the closing quote.
    Simplified: octal escapes, which repr does not write, are refused [CPython, the bytes literal of the program at dill/_dill.py:2240] *)
Definition unhex (c : ascii) : option nat :=
  let n := code c in
  if Nat.leb 48 n && Nat.leb n 57 then Some (n - 48)
  else if Nat.leb 97 n && Nat.leb n 102 then Some (n - 87)
  else if Nat.leb 65 n && Nat.leb n 70 then Some (n - 55) else None.
(** the character meant by a backslash and the character, for the escapes of one character [CPython, the bytes literal of the program at dill/_dill.py:2240] *)
Definition simple_escape (c : ascii) : option ascii :=
  match c with
  | "a"%char => Some (ascii_of_nat 7) | "b"%char => Some (ascii_of_nat 8) | "t"%char => Some (ascii_of_nat 9) | "n"%char => Some (ascii_of_nat 10)
  | "v"%char => Some (ascii_of_nat 11) | "f"%char => Some (ascii_of_nat 12) | "r"%char => Some (ascii_of_nat 13)
  | _ => if Ascii.eqb c bslash || Ascii.eqb c apos || Ascii.eqb c dquote then Some c else None
  end.
(** [CPython, the bytes literal of the program at dill/_dill.py:2240] *)
Definition is_octal (c : ascii) : bool := Nat.leb 48 (code c) && Nat.leb (code c) 55.
(** [CPython, the bytes literal of the program at dill/_dill.py:2240] *)
Definition put (l : string) (r : option (string * string)) : option (string * string) :=
  match r with Some (b, t) => Some (l ++ b, t) | None => None end.
(** [CPython, the bytes literal of the program at dill/_dill.py:2240] *)
Fixpoint read_bytes (q : ascii) (s : string) : option (string * string) :=
  match s with
  | EmptyString => None                                        (* the literal is not closed *)
  | String c r =>
    if Ascii.eqb c q then Some ("", r)
    else if Nat.eqb (code c) 10 || Nat.leb 128 (code c) then None   (* a line end; bytes can only contain ASCII literal characters *)
    else if Ascii.eqb c bslash then
      match r with
      | EmptyString => None
      | String d r' =>
        if Ascii.eqb d "x" then
          match r' with
          | String h (String l r'') => match unhex h, unhex l with Some h, Some l => put (String (ascii_of_nat (16 * h + l)) "") (read_bytes q r'') | _, _ => None end
          | _ => None
          end
        else if is_octal d then None
        else if Nat.eqb (code d) 10 then read_bytes q r'
        else match simple_escape d with Some x => put (String x "") (read_bytes q r') | None => put (String bslash (String d "")) (read_bytes q r') end
      end
    else put (String c "") (read_bytes q r)
  end.
(** [str.startswith; not in /repo] *)
Fixpoint drop_prefix (p s : string) : option string :=
  match p, s with
  | EmptyString, _ => Some s
  | String a p, String b s => if Ascii.eqb a b then drop_prefix p s else None
  | _, EmptyString => None
  end.
(** the bytes that a program of the form "import dill; print(dill.loads(b'...'))" loads; None: another program [the program of dill/_dill.py:2240] *)
Definition loaded_bytes (prog : string) : option string :=
  match drop_prefix program_head prog with
  | Some (String "b" (String q r)) =>
    if Ascii.eqb q apos || Ascii.eqb q dquote then match read_bytes q r with Some (b, rest) => if string_dec rest "))" then Some b else None | None => None end else None
  | _ => None
  end.

(** the machine: [limit] the longest argument, [runs p prog] the exit status of the interpreter [p] run with -c [prog], None if there is no such file;
    [runs_other] the exit status of any other command [the operating system under dill/_dill.py:2241; not in /repo] *)
Record machine := Machine { limit : nat; runs : string -> string -> option nat; runs_other : list string -> option nat }.
(** subprocess.call: the exit status, None for an OSError [subprocess.call, dill/_dill.py:2241] *)
Definition call (M : machine) (l : list string) : option nat :=
  if existsb (fun a => Nat.ltb (limit M) (String.length a)) l then None
  else match l with [p; c; prog] => if String.eqb c "-c" then runs M p prog else runs_other M l | _ => runs_other M l end.

(** check(obj, python=python, verbose=verbose): what it prints and whether it returns or raises; [dumped] is dumps(obj), None if it raises [dill/_dill.py:2228-2244] *)
Inductive outcome := Returns | Raises.
(** [dill/_dill.py:2205-2244] *)
Definition check (M : machine) (python : string) (verbose : bool) (dumped : option string) : list string * outcome :=
  match dumped with
  | None => (if verbose then ["DUMP FAILED"] else [], Raises)
  | Some b => match call M (argv python b) with
              | None => ([], Raises)
              | Some n => (if verbose then [if Nat.eqb n 0 then "SUCCESS" else "LOAD FAILED"] else [], Returns)
              end
  end.
