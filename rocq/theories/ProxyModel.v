(** dill/_dill.py, how a weak proxy's target is found: _proxy_helper 1633-1652, _locate_object 1654-1668, save_weakproxy 1679-1687
    (CPython; the PyPy branch 1644-1650 is not modelled).
    repr() of a live proxy is CPython's (Objects/weakrefobject.c proxy_repr, 3.8 to 3.12): '<weakproxy at 0x.. to C at 0x..>'; str() of a proxy is
    str() of its target, or ReferenceError ([None]) if the target is dead.  Strings are ASCII. Addresses are numbers. *)
From Coq Require Import String Ascii List Bool Arith NArith ZArith.
Import ListNotations.
Local Open Scope string_scope.

(** str.rstrip('>') [str methods used in dill/_dill.py:1633-1652] *)
Fixpoint rstrip_gt (s : string) : string :=
  match s with
  | "" => ""
  | String c r => let r' := rstrip_gt r in if Ascii.eqb c ">" && String.eqb r' "" then "" else String c r'
  end.
(** str.split(' at ')[-1]: separators are found from the left and do not overlap [str methods used in dill/_dill.py:1633-1652] *)
Definition at_sep : string := " at ".
(** [str methods used in dill/_dill.py:1633-1652] *)
Fixpoint drop (n : nat) (s : string) : string := match n, s with S n, String _ r => drop n r | _, _ => s end.
(** [str methods used in dill/_dill.py:1633-1652] *)
Fixpoint last_piece (start : string) (skip : nat) (s : string) : string :=
  match s with
  | "" => start
  | String c r =>
    match skip with
    | S k => last_piece start k r
    | O => if prefix at_sep s then last_piece (drop 4 s) 3 r else last_piece start 0 r
    end
  end.
(** [str methods used in dill/_dill.py:1633-1652] *)
Definition split_last (s : string) : string := last_piece s 0 s.

(** int(s, base=16) (Python/longobject.c PyLong_FromString): surrounding white space, a sign, 0x, digits with single underscores between them [int(text, base=16), called in dill/_dill.py:1633-1652] *)
Definition digit (c : ascii) : option Z :=
  let n := Z.of_N (N_of_ascii c) in
  if (48 <=? n)%Z && (n <=? 57)%Z then Some (n - 48)%Z
  else if (97 <=? n)%Z && (n <=? 102)%Z then Some (n - 87)%Z
  else if (65 <=? n)%Z && (n <=? 70)%Z then Some (n - 55)%Z else None.
(** [int(text, base=16), called in dill/_dill.py:1633-1652] *)
Definition space (c : ascii) : bool := let n := N_of_ascii c in ((9 <=? n)%N && (n <=? 13)%N) || (n =? 32)%N.
(** [int(text, base=16), called in dill/_dill.py:1633-1652] *)
Fixpoint spaces (s : string) : bool := match s with "" => true | String c r => space c && spaces r end.
(** [int(text, base=16), called in dill/_dill.py:1633-1652] *)
Fixpoint lstrip (s : string) : string := match s with String c r => if space c then lstrip r else s | "" => "" end.
(** digits, [ok] saying whether the number may end here or an underscore may come next [int(text, base=16), called in dill/_dill.py:1633-1652] *)
Fixpoint digits (acc : Z) (ok : bool) (s : string) : option Z :=
  match s with
  | "" => if ok then Some acc else None
  | String c r =>
    match digit c with
    | Some d => digits (16 * acc + d)%Z true r
    | None => if Ascii.eqb c "_" then if ok then digits acc false r else None
              else if ok && spaces s then Some acc else None
    end
  end.
(** [int(text, base=16), called in dill/_dill.py:1633-1652] *)
Definition unsigned (s : string) : option Z :=
  match s with
  | String c0 (String c1 r) =>
    if Ascii.eqb c0 "0" && (Ascii.eqb c1 "x" || Ascii.eqb c1 "X")
    then match r with String c2 r' => if Ascii.eqb c2 "_" then digits 0 false r' else digits 0 false r | "" => None end
    else digits 0 false s
  | _ => digits 0 false s
  end.
(** [int(text, base=16), called in dill/_dill.py:1633-1652] *)
Definition int16 (s : string) : option Z :=
  match lstrip s with
  | String c r => if Ascii.eqb c "-" then option_map Z.opp (unsigned r) else if Ascii.eqb c "+" then unsigned r else unsigned (String c r)
  | "" => None
  end.

(** 1633-1652; None: ValueError *)
Definition proxy_helper (id_none id_obj : Z) (repr_ : string) (str_ : option string) : option Z :=
  match str_ with
  | None => Some id_none
  | Some s =>
    if String.eqb s repr_ then Some id_obj
    else match int16 (split_last (rstrip_gt s)) with
         | Some a => Some a
         | None => int16 (split_last (rstrip_gt repr_))
         end
  end.
(** 1654-1668: [special] None, True and False, [gc] the objects gc.get_objects() lists; None: ReferenceError *)
Definition locate_object (special gc : list Z) (address : Z) : option Z := find (Z.eqb address) (special ++ gc).
(** 1684: the address of the object saved [dill/_dill.py:1679-1687] *)
Definition save_target (id_none id_true id_false id_obj : Z) (gc : list Z) (repr_ : string) (str_ : option string) : option Z :=
  match proxy_helper id_none id_obj repr_ str_ with
  | Some a => locate_object [id_none; id_true; id_false] gc a
  | None => None
  end.

(** how CPython writes an address ("%p", lower case), and the two representations *)
Definition hexdigit (n : N) : ascii := ascii_of_N (if (n <? 10)%N then 48 + n else 87 + n)%N.
(** [the reprs read in dill/_dill.py:1633-1652] *)
Fixpoint hex_aux (fuel : nat) (n : N) (acc : string) : string :=
  let acc' := String (hexdigit (n mod 16)%N) acc in
  match fuel with O => acc' | S f => if (n <? 16)%N then acc' else hex_aux f (n / 16)%N acc' end.
(** [the reprs read in dill/_dill.py:1633-1652] *)
Definition hex (n : N) : string := "0x" ++ hex_aux (N.size_nat n) n "".
(** [the reprs read in dill/_dill.py:1633-1652] *)
Definition object_repr (qual : string) (a : N) : string := "<" ++ qual ++ " object at " ++ hex a ++ ">".
(** [the reprs read in dill/_dill.py:1633-1652] *)
Definition weakproxy_repr (p : N) (cls : string) (a : N) : string := "<weakproxy at " ++ hex p ++ " to " ++ cls ++ " at " ++ hex a ++ ">".
