(** dill/source.py: indent (483-511), _outdent (514-524), outdent (526-532).
    A str is the list of its code points. *)
From Coq Require Import List Bool Arith NArith ZArith.
Import ListNotations.
Local Open Scope N_scope.

(** [str of Python, environment of dill/source.py:483-532] *)
Definition str := list N.
(** [str of Python, environment of dill/source.py:483-532] *)
Definition nl : N := 10. Definition tab : N := 9. Definition cr : N := 13. Definition sp : N := 32.
(** str.isspace of one character [str of Python, environment of dill/source.py:483-532] *)
Definition is_space (c : N) : bool :=
  ((9 <=? c) && (c <=? 13)) || ((28 <=? c) && (c <=? 32)) || (c =? 133) || (c =? 160) || (c =? 5760) ||
  ((8192 <=? c) && (c <=? 8202)) || (c =? 8232) || (c =? 8233) || (c =? 8239) || (c =? 8287) || (c =? 12288).

(** code.split('\n') and '\n'.join(lines) [dill/source.py:490, 509, 530-532] *)
Fixpoint split (s : str) : list str :=
  match s with
  | [] => [[]]
  | c :: s => if c =? nl then [] :: split s
              else match split s with l :: ls => (c :: l) :: ls | [] => [[c]] end
  end.
(** [dill/source.py:490, 509, 530-532] *)
Fixpoint join (ls : list str) : str :=
  match ls with [] => [] | l :: ls => match ls with [] => l | _ => l ++ nl :: join ls end end.

(** str.expandtabs() with tab size 8, at column [col] [inspect.indentsize, called in dill/source.py:492, 516, 529] *)
Fixpoint expandtabs (col : nat) (s : str) : str :=
  match s with
  | [] => []
  | c :: s => if c =? tab then let k := (8 - col mod 8)%nat in repeat sp k ++ expandtabs (col + k) s
              else if (c =? nl) || (c =? cr) then c :: expandtabs 0 s
              else c :: expandtabs (S col) s
  end.
(** how many characters lstrip() removes [inspect.indentsize, called in dill/source.py:492, 516, 529] *)
Fixpoint lead (s : str) : nat := match s with [] => 0 | c :: s => if is_space c then S (lead s) else 0 end.
(** inspect.indentsize(line): expline = line.expandtabs(); len(expline) - len(expline.lstrip()) [inspect.indentsize, called in dill/source.py:492, 516, 529] *)
Definition indentsize (s : str) : nat := lead (expandtabs 0 s).

(** [dill/source.py:493-511] *)
Definition blank (l : str) : bool := forallb is_space l.        (* l.strip() == '' *)
(** [dill/source.py:493-511] *)
Definition fix_last (ls : list str) : list str := if blank (last ls []) then removelast ls ++ [[]] else ls.
(** indent(code, spaces), [pad] being the string of spaces [dill/source.py:483-511] *)
Definition indent (code pad : str) : str :=
  let ind := indentsize code in
  join (fix_last (map (fun l => if (indentsize l <? ind)%nat then l else pad ++ l) (split code))).
(** [dill/source.py:514-532] *)
Definition spaces (n : nat) : str := repeat sp n.

(** lines 517 and 529: spaces is None or spaces > indent or spaces < 0 *)
Definition amount (n : option Z) (ind : nat) : nat :=
  match n with
  | None => ind
  | Some n => if (Z.of_nat ind <? n)%Z || (n <? 0)%Z then ind else Z.to_nat n
  end.
(** [dill/source.py:514-524] *)
Definition cut (k : nat) (l : str) : str := skipn (if (indentsize l <? k)%nat then indentsize l else k) l.
(** [dill/source.py:514-524] *)
Definition outdent_lines (ls : list str) (n : option Z) (all : bool) : list str :=
  let k := amount n (indentsize (hd [] ls)) in
  if all then map (cut k) ls else match ls with l :: ls => cut k l :: ls | [] => [] end.
(** [dill/source.py:526-532] *)
Definition outdent (code : str) (n : option Z) (all : bool) : str :=
  let k := amount n (indentsize code) in
  if all then join (outdent_lines (split code) (Some (Z.of_nat k)) all) else skipn k code.
