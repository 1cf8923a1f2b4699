(** findsource: dill/source.py:183-258 (the search among the lines of the file, or of the interpreter's history), with the regular expressions it uses.
    Texts are strings of characters below 256.  Simplified: word characters (\w, \b) are those of ASCII names; the lines are given (linecache, readline). *)
From Coq Require Import String Ascii List Bool Arith NArith.
From Verif Require Import PyDict DescrModel CheckModel.
Import ListNotations.
Local Open Scope string_scope.

(** ** the regular expressions *)
(** the whitespace at the beginning and the rest [\s* of the patterns, dill/source.py:184-211, 238] *)
Fixpoint lead (s : string) : string * string :=
  match s with String c r => if is_space c then let (w, t) := lead r in (String c w, t) else ("", s) | EmptyString => ("", "") end.
(** ^(\s*def\s) [dill/source.py:189, 196, 211] *)
Definition m_def (s : string) : bool := match drop_prefix "def" (snd (lead s)) with Some (String c _) => is_space c | _ => false end.
(** ^(\s*@) [dill/source.py:184, 211] *)
Definition m_at (s : string) : bool := match snd (lead s) with String c _ => Ascii.eqb c "@" | EmptyString => false end.
(** (.*(?<!\w)lambda(:|\s)); [prev]: the character before is a word character [dill/source.py:188, 194, 211] *)
Fixpoint m_lambda_from (prev : bool) (s : string) : bool :=
  match s with
  | EmptyString => false
  | String c r =>
    (negb prev && match drop_prefix "lambda" s with Some (String d _) => Ascii.eqb d ":" || is_space d | _ => false end)
    || (if Ascii.eqb c (ascii_of_nat 10) then false else m_lambda_from (is_name_char c) r)
  end.
(** [dill/source.py:188, 194, 211] *)
Definition m_lambda (s : string) : bool := m_lambda_from false s.
(** ^( \s* )class\s* name\b: group(1) [dill/source.py:238, 244] *)
Definition boundary (t : string) : bool := match t with EmptyString => true | String c _ => negb (is_name_char c) end.
(** [dill/source.py:238, 244] *)
Definition m_class (name s : string) : option string :=
  let (w, r) := lead s in
  match drop_prefix "class" r with
  | Some r => match drop_prefix name (lstrip r) with Some t => if boundary t then Some w else None | None => None end
  | None => None
  end.

(** ** functions: lines 202-229 *)
(** a code object of a file: [first] is co_firstlineno; None: IndexError [dill/source.py:214-228, not stdin] *)
Fixpoint up (p : string -> bool) (lines : list string) (n : nat) : nat :=
  match n with 0 => 0 | S k => if p (nth n lines "") then n else up p lines k end.
(** [dill/source.py:211] *)
Definition pat_code (s : string) : bool := m_def s || m_lambda s || m_at s.
(** [dill/source.py:202-229, not stdin] *)
Definition find_code (lines : list string) (first : nat) : option nat :=
  let lnum := first - 1 in
  if Nat.ltb 0 lnum && Nat.leb (List.length lines) lnum then None else Some (up pat_code lines lnum).
(** [name in line] [name in line, dill/source.py:221] *)
Fixpoint contains (p s : string) : bool :=
  match drop_prefix p s with Some _ => true | None => match s with String _ r => contains p r | EmptyString => false end end.
(** how many of the lines above line n are decorators [dill/source.py:222-225] *)
Fixpoint hats (lines : list string) (n : nat) : nat :=
  match n with 0 => 0 | S k => if m_at (nth k lines "") then S (hats lines k) else 0 end.
(** a named function of an interactive session: from the last line up; line 0 is not looked at *)
Fixpoint find_history_from (lines : list string) (name : string) (n : nat) : nat :=
  match n with
  | 0 => 0
  | S k => if m_def (nth n lines "") && contains name (nth n lines "") then n - hats lines n else find_history_from lines name k
  end.
(** [dill/source.py:206-229, stdin] *)
Definition find_history (lines : list string) (name : string) : nat := find_history_from lines name (List.length lines - 1).

(** ** classes: lines 231-257 *)
(** order of strings, of tuples [candidates.sort(), dill/source.py:254-255] *)
Fixpoint sleb (a b : string) : bool :=
  match a, b with
  | EmptyString, _ => true
  | _, EmptyString => false
  | String x a, String y b => if Ascii.eqb x y then sleb a b else Nat.ltb (nat_of_ascii x) (nat_of_ascii y)
  end.
(** [candidates.sort(), dill/source.py:254-255] *)
Definition cleb (x y : string * nat) : bool := if String.eqb (fst x) (fst y) then Nat.leb (snd x) (snd y) else sleb (fst x) (fst y).
(** candidates.sort(); candidates[0] [candidates.sort(), dill/source.py:254-255] *)
Fixpoint least (c : string * nat) (l : list (string * nat)) : string * nat :=
  match l with [] => c | x :: l => least (if cleb c x then c else x) l end.
(** [dill/source.py:242-257] *)
Fixpoint scan (lines : list string) (name : string) (n : nat) (cands : list (string * nat)) : option nat :=
  match n with
  | 0 => match cands with [] => None (* IOError *) | c :: l => Some (snd (least c l)) end
  | S i =>
    let line := nth i lines "" in
    match m_class name line with
    | Some w => if match line with String c _ => Ascii.eqb c "c" | EmptyString => false end then Some i else scan lines name i (cands ++ [(w, i)])
    | None => scan lines name i cands
    end
  end.
(** [dill/source.py:236-257] *)
Definition find_class (lines : list string) (name : string) : option nat := scan lines name (List.length lines) [].
