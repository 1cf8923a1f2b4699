(** getblocks: dill/source.py:261-329, and getsourcelines 332-346 (its last block), for objects that are not modules, lstrip=False.
    Simplified: [blen i] is the number of lines of inspect.getblock(lines[i:]), or 1 where it raises TokenError (lines 299-300, 312-313); lines have their newline;
    word characters as in FindModel. *)
From Coq Require Import String Ascii List Bool Arith.
From Verif Require Import CheckModel FindModel.
Import ListNotations.
Local Open Scope string_scope.

(** inspect.indentsize: the leading whitespace after expandtabs [CPython Lib/inspect.py indentsize, used at dill/source.py:278, 301] *)
Fixpoint indent_from (total col : nat) (s : string) : nat :=
  match s with
  | EmptyString => total
  | String c r =>
    if Ascii.eqb c (ascii_of_nat 9) then let w := 8 - Nat.modulo col 8 in indent_from (total + w) (col + w) r
    else if is_space c then indent_from (S total) (if Ascii.eqb c (ascii_of_nat 10) || Ascii.eqb c (ascii_of_nat 13) then 0 else S col) r
    else total
  end.
(** [CPython Lib/inspect.py indentsize, used at dill/source.py:278, 301] *)
Definition indentsize (s : string) : nat := indent_from 0 0 s.
(** pat1, pat2 [dill/source.py:285, 297] *)
Definition pat1 (s : string) : bool := m_def s || m_lambda s.
(** [dill/source.py:286, 311] *)
Definition pat2 (s : string) : bool := m_at s.

Section File.
  Variable lines : list string.
  Variable blen : nat -> nat.
  (** [lines[line], dill/source.py:297] *)
  Definition line (i : nat) : string := nth i lines "".
  (** lines[a:a+n], joined ["".join(code), dill/source.py:294, 303] *)
  Definition text (a n : nat) : string := String.concat "" (firstn n (skipn a lines)).
  (** how many of the lines after the first of the block at [a] are decorators [dill/source.py:315-317] *)
  Fixpoint more_hats (a n : nat) : nat := match n with 0 => 0 | S n => if pat2 (line a) then S (more_hats (S a) n) else 0 end.

  (** a block: its first line, how many lines, the line number reported for it *)
  Notation block := (nat * nat * nat)%type (only parsing).
  (** the loop; (cs, cl): the first line and the length of [code]; None: the fuel is used up [dill/source.py:291-322] *)
  Fixpoint scan (fuel : nat) (target : string) (indent lnum : nat) (l skip cs cl : nat) (acc : list block) : option (list block) :=
    match fuel with
    | 0 => None
    | S fuel =>
      if Nat.ltb lnum l then Some acc
      else if pat1 (line l) then
        let (cs, cl) := if Nat.eqb skip 0 then (l, blen l) else (cs, cl) in
        if Nat.ltb indent (indentsize (line l)) then scan fuel target indent lnum (l + cl - skip) 0 cs cl acc
        else if contains target (text cs cl) then scan fuel target indent lnum (l + cl - skip) 0 cs cl (acc ++ [(cs, cl, l - skip)])%list
        else scan fuel target indent lnum (l + 1) 0 cs cl acc
      else if pat2 (line l) then
        let cs := l in let cl := blen l in
        let skip := 1 + more_hats (l + 1) (cl - 1) in
        scan fuel target indent lnum (l + skip) skip cs cl acc
      else scan fuel target indent lnum (l + 1) 0 cs cl acc
    end.

  (** getblocks(object, enclosing, locate=True) [dill/source.py:261-329] *)
  Definition getblocks (fuel : nat) (enclosing : bool) (lnum : nat) : option (list block) :=
    let indent := indentsize (line lnum) in
    let own := (lnum, blen lnum, lnum) in
    if negb enclosing || Nat.eqb indent 0 then Some [own]
    else match scan fuel (text lnum (blen lnum)) indent lnum 0 0 0 0 [] with
         | Some [] => Some [own]
         | r => r
         end.
  (** getsourcelines: the last block and its line number [dill/source.py:332-347] *)
  Definition getsourcelines (fuel : nat) (enclosing : bool) (lnum : nat) : option block :=
    match getblocks fuel enclosing lnum with Some bs => Some (last bs (0, 0, 0)) | None => None end.
End File.
