(** The source line of a lambda defined in an interactive session: [_matchlambda] (dill/source.py:52-102) and the part of
    [findsource] that uses it (dill/source.py:202-229).

    Parameters: [compile], the bytecode (co_code) of what eval gives for a text, None if it raises; the bytecode of the
    dummy function.  A function is given by its bytecode and the names that detect.freevars, varnames and globalvars give
    for it.  Lines are strings; the bytes of a co_code are numbers. *)
From Coq Require Import String Ascii List Bool Arith.
From Verif Require Import PyDict CheckModel FindModel.
Import ListNotations.
Local Open Scope string_scope.

(** the lambda that is looked for [dill/source.py:52-82] *)
Record lam : Type := Lam {
  co_code : list nat;
  freevars : list string;        (* names of the non-empty cells *)
  varnames : list string;        (* locals and cell variables *)
  globalvars : list string       (* globals it refers to *)
}.

(** s.split(sep, 1): the text before and after the first [sep]; None if there is none [dill/source.py:58, 83] *)
Fixpoint cut (sep s : string) : option (string * string) :=
  match drop_prefix sep s with
  | Some r => Some ("", r)
  | None => match s with
            | EmptyString => None
            | String c r => match cut sep r with Some (a, b) => Some (String c a, b) | None => None end
            end
  end.
(** s.split(sep, 1)[-1] [dill/source.py:58, 83] *)
Definition after (sep s : string) : string := match cut sep s with Some (_, b) => b | None => s end.

(** what _matchlambda does: an answer, or an exception: ValueError of the unpacking, or TypeError / IndexError of
    splitting bytes at a number [dill/source.py:52-102] *)
Inductive answer : Type := Yes | No | ValueError | TypeError.

(** [line.count(name)] is not 0 for each name [dill/source.py:66-79] *)
Definition all_in (names : list string) (line : string) : bool := forallb (fun n => contains n line) names.
(** line.count('lambda ') > 1: a second one after the first [dill/source.py:81] *)
Definition second_lambda (line : string) : bool :=
  match cut "lambda " line with Some (_, r) => contains "lambda " r | None => false end.
(** the pairs of different bytes at the same place, as a set: is there exactly one? [dill/source.py:91-93] *)
Fixpoint diffs (a b : list nat) : list (nat * nat) :=
  match a, b with
  | x :: a, y :: b => if Nat.eqb x y then diffs a b else (x, y) :: diffs a b
  | _, _ => []
  end.
(** len of the set is 1 [dill/source.py:93] *)
Definition one_pair (l : list (nat * nat)) : bool :=
  match l with [] => false | p :: r => forallb (fun q => eqb p q) r end.
(** indentsize(line) is not 0: the line begins with a blank (a line with a lambda is not blank) [dill/source.py:96] *)
Definition indented (line : string) : bool := match line with String c _ => is_space c | EmptyString => false end.
(** the text that is evaluated [dill/source.py:60, 85] *)
Definition text (lhs rhs : string) : string := "lambda " ++ lhs ++ " : " ++ rhs.

Section Match.
  Variable compile : string -> option (list nat).
  Variable dummy : list nat.

  (** eval, or the dummy [dill/source.py:59-61, 84-86] *)
  Definition code_of (lhs rhs : string) : list nat := match compile (text lhs rhs) with Some c => c | None => dummy end.

  (** are two bytecodes the same? [dill/source.py:68] *)
  Fixpoint same_code (a b : list nat) : bool :=
    match a, b with
    | [], [] => true
    | x :: a, y :: b => Nat.eqb x y && same_code a b
    | _, _ => false
    end.

  (** _matchlambda(func, line) [dill/source.py:52-102] *)
  Definition matchlambda (f : lam) (line : string) : answer :=
    match cut ":" (after "lambda " line) with
    | None => ValueError
    | Some (lhs, rhs) =>
      let c := code_of lhs rhs in
      match freevars f with
      | [] => if same_code c (co_code f) then Yes else No
      | _ =>
        if negb (all_in (freevars f) line) then No
        else if negb (all_in (varnames f) line) then No
        else if negb (all_in (globalvars f) line) then No
        else if second_lambda line && memb lhs (freevars f) then
          match cut ":" (after "lambda " rhs) with
          | None => ValueError
          | Some (lhs2, rhs2) =>
            let c2 := code_of lhs2 rhs2 in
            if negb (Nat.eqb (List.length c2) (List.length (co_code f))) then No
            else if one_pair (diffs c2 (co_code f)) then Yes else No
          end
        else if negb (indented line) then No
        else TypeError              (* bytes.split(int) *)
      end
    end.

  (** the search, from line [n] up; line 0 is not looked at.  The result: the line number, or an exception [dill/source.py:202-229] *)
  Fixpoint search (f : lam) (lines : list string) (n : nat) : answer * nat :=
    match n with
    | 0 => (Yes, 0)
    | S k =>
      if m_lambda (nth n lines "") then
        match matchlambda f (nth n lines "") with
        | Yes => (Yes, n)
        | No => search f lines k
        | e => (e, n)
        end
      else search f lines k
    end.

  (** findsource of a lambda whose co_filename is <stdin>: from the last line [dill/source.py:207-229] *)
  Definition find_lambda (f : lam) (lines : list string) : answer * nat := search f lines (List.length lines - 1).
End Match.
