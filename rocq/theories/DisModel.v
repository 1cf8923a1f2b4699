(** dill/detect.py, nestedglobals 139-162 on the text that dis.dis prints (CPython 3.11 Lib/dis.py): the names of globals are read off its lines. *)
From Coq Require Import String Ascii List Bool Arith.
From Verif Require Import PyDict GlobalsModel.
Import ListNotations.
Local Open Scope string_scope.

(** an instruction as dis shows it: what is left of its name (line number, arrow, jump mark, offset), its name, its argument, and what is in parentheses
    [Instruction, CPython Lib/dis.py:244-283] *)
Record instr := Ins { left_ : string; opname : string; oparg : option string; argrepr : string }.
(** a code object: its repr, its instructions, its constants (None: one that is not code) [_disassemble_recursive, CPython Lib/dis.py:484-497; not in /repo] *)
Inductive dcode := DCode (repr : string) (instrs : list instr) (consts : list (option dcode)).
(** [CPython Lib/dis.py:484-497; not in /repo] *)
Definition drepr (c : dcode) := let (r, _, _) := c in r.
(** [CPython Lib/dis.py:484-497; not in /repo] *)
Definition dinstrs (c : dcode) := let (_, i, _) := c in i.
(** [CPython Lib/dis.py:484-497; not in /repo] *)
Definition dconsts (c : dcode) := let (_, _, k) := c in k.
(** n spaces [str.ljust, str.rjust; not in /repo] *)
Fixpoint blanks (n : nat) : string := match n with O => "" | S n => String " " (blanks n) end.
(** s.ljust(n) [str.ljust; not in /repo] *)
Definition ljust (n : nat) (s : string) : string := s ++ blanks (n - String.length s).
(** s.rjust(n) [str.rjust; not in /repo] *)
Definition rjust (n : nat) (s : string) : string := blanks (n - String.length s) ++ s.
(** Instruction._disassemble; the final rstrip() takes away the padding of a name without an argument [CPython Lib/dis.py:291-327] *)
Definition line (i : instr) : string :=
  left_ i ++ " " ++
  match oparg i with
  | None => opname i
  | Some a => ljust 20 (opname i) ++ " " ++ rjust 5 a ++ (if String.eqb (argrepr i) "" then "" else " (" ++ argrepr i ++ ")")
  end.
(** the lines dis.dis(code) prints: those of the code, then for every constant that is code a title and its lines.  The empty lines between source
    lines and the exception table (numbers only) are left out: they have no _GLOBAL [_disassemble_recursive, CPython Lib/dis.py:484-497] *)
Fixpoint listing (c : dcode) : list string :=
  match c with
  | DCode _ instrs consts =>
    (map line instrs ++ flat_map (fun k => match k with Some d => "" :: ("Disassembly of " ++ drepr d ++ ":")%string :: listing d | None => [] end) consts)%list
  end.
(** p in s [str.__contains__; not in /repo] *)
Fixpoint infix (p s : string) : bool :=
  match strip_prefix p s with
  | Some _ => true
  | None => match s with EmptyString => false | String _ s' => infix p s' end
  end.
(** the names on the lines with _GLOBAL [dill/detect.py:152-158] *)
Definition names_on (can_null : bool) (l : list string) : list string := map (parse_line can_null) (filter (infix "_GLOBAL") l).
(** nestedglobals(code, recurse), up to order and repetition [dill/detect.py:139-162] *)
Fixpoint text_globals (can_null recurse : bool) (c : dcode) : list string :=
  match c with
  | DCode _ _ consts =>
    (names_on can_null (listing c) ++
     (if recurse then flat_map (fun k => match k with Some d => text_globals can_null true d | None => [] end) consts else []))%list
  end.
