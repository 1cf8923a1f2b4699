(** range objects: save_singleton (dill/_dill.py:1624-1631), _eval_repr (979-980); CPython's repr of a range (Objects/rangeobject.c range_repr), of an int with
    the limit of sys.set_int_max_str_digits (Objects/longobject.c long_to_decimal_string_internal), and the evaluation of "range(...)". *)
From Coq Require Import NArith ZArith List Bool Arith.
From Verif Require Import BytesModel.
Import ListNotations.
Local Open Scope N_scope.

(** range(start, stop, step), step not 0 [repr(obj), called in dill/_dill.py:1624-1631] *)
Record range := Range { start : Z; stop : Z; step : Z }.

(** the digits of a number, without its sign [repr(obj), called in dill/_dill.py:1624-1631] *)
Definition ndigits (z : Z) : nat := List.length (dec (Z.abs_N z)).
(** str(z) with at most [limit] digits; 0: no limit [repr(obj), called in dill/_dill.py:1624-1631] *)
Definition too_long (limit : nat) (z : Z) : bool := negb (Nat.eqb limit 0) && Nat.ltb limit (ndigits z).
(** [repr(obj), called in dill/_dill.py:1624-1631] *)
Definition str_of (limit : nat) (z : Z) : option (list N) := if too_long limit z then None else Some (decz z).

(** [repr(obj), called in dill/_dill.py:1624-1631] *)
Definition open_ : list N := [114; 97; 110; 103; 101; 40].   (* range( *)
(** [repr(obj), called in dill/_dill.py:1624-1631] *)
Definition comma : list N := [44; 32].
(** repr(r): the step is left out if it is 1; None is a ValueError [repr(obj), called in dill/_dill.py:1624-1631] *)
Definition range_repr (limit : nat) (r : range) : option (list N) :=
  match str_of limit (start r), str_of limit (stop r) with
  | Some a, Some b => if (step r =? 1)%Z then Some (open_ ++ a ++ comma ++ b ++ [41])%list
    else match str_of limit (step r) with Some c => Some (open_ ++ a ++ comma ++ b ++ comma ++ c ++ [41])%list | None => None end
  | _, _ => None
  end.

(** evaluation of the text: the arguments up to the closing parenthesis, separated by commas; spaces are skipped [eval, called in _eval_repr, dill/_dill.py:979-980] *)
Fixpoint args (cur : list N) (s : list N) : option (list (list N)) :=
  match s with
  | [] => None
  | c :: s => if c =? 41 then match s with [] => Some [rev cur] | _ => None end
              else if c =? 44 then option_map (cons (rev cur)) (args [] s)
              else if c =? 32 then args cur s
              else args (c :: cur) s
  end.
(** an int literal, with a sign; too many digits are a SyntaxError [eval, called in _eval_repr, dill/_dill.py:979-980] *)
Definition int_literal (limit : nat) (s : list N) : option Z :=
  match undecz s with Some z => if too_long limit z then None else Some z | None => None end.
(** [eval, called in _eval_repr, dill/_dill.py:979-980] *)
Fixpoint all_some {A} (l : list (option A)) : option (list A) :=
  match l with [] => Some [] | Some x :: l => option_map (cons x) (all_some l) | None :: _ => None end.
(** [eval, called in _eval_repr, dill/_dill.py:979-980] *)
Fixpoint drop (p s : list N) : option (list N) :=
  match p, s with [], _ => Some s | a :: p, b :: s => if a =? b then drop p s else None | _, [] => None end.
(** eval(text); None is an exception; range() takes one to three arguments, and no step 0 [eval, called in _eval_repr, dill/_dill.py:979-980] *)
Definition eval_range (limit : nat) (text : list N) : option range :=
  match drop open_ text with
  | None => None
  | Some s =>
    match args [] s with
    | None => None
    | Some l =>
      match all_some (map (int_literal limit) l) with
      | Some [b] => Some (Range 0 b 1)
      | Some [a; b] => Some (Range a b 1)
      | Some [a; b; c] => if (c =? 0)%Z then None else Some (Range a b c)
      | _ => None
      end
    end
  end.

(** dump in a process with the limit [l1], load in one with [l2] [dill/_dill.py:1624-1631 then 979-980] *)
Definition reload (l1 l2 : nat) (r : range) : option range := match range_repr l1 r with Some t => eval_range l2 t | None => None end.
