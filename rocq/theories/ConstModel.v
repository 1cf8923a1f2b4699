(** getimport of a value of a builtin class (a number, text, list, ...): dill/source.py:605-672, 676-719 (_getimport), 724-774 (getimport), 839-889 (_closuredimport, where importable takes it from there).
    The code of getimport is as in ImportModel, with the import statement that is tried (line 713) read as Python reads it: lists of names, brackets, keywords.
    Simplified: what Python tells about the value is the record of InstanceModel; statements with text that is not import clauses are SyntaxErrors. *)
From Coq Require Import String Ascii List Bool Arith.
From Verif Require Import PyDict NamesModel DescrModel ImportModel NamespaceModel InstanceModel.
Import ListNotations.
Local Open Scope string_scope.

(** ** the import statement [Python's grammar, for the exec at dill/source.py:713] *)
(** the words that are no names [Python's keywords, for the exec at dill/source.py:713] *)
Definition keywords : list string :=
  ["False"; "None"; "True"; "and"; "as"; "assert"; "async"; "await"; "break"; "class"; "continue"; "def"; "del"; "elif"; "else"; "except"; "finally"; "for"; "from"; "global";
   "if"; "import"; "in"; "is"; "lambda"; "nonlocal"; "not"; "or"; "pass"; "raise"; "return"; "try"; "while"; "with"; "yield"].
(** [Python's names, for the exec at dill/source.py:713] *)
Definition is_nm (s : string) : bool := is_ident s && negb (memb s keywords).
(** without the spaces in front [Python's grammar, for the exec at dill/source.py:713] *)
Fixpoint skip (s : string) : string := match s with String " " r => skip r | _ => s end.
(** name [as name] [Python's grammar, for the exec at dill/source.py:713] *)
Definition clause (s : string) : option (string * string) :=
  match split " " (skip s) with
  | [t] => if is_nm t then Some (t, t) else None
  | [t; a; b] => if is_nm t && String.eqb a "as" && is_nm b then Some (t, b) else None
  | _ => None
  end.
(** all, or nothing [Python's grammar, for the exec at dill/source.py:713] *)
Fixpoint all_some {A} (l : list (option A)) : option (list A) :=
  match l with [] => Some [] | Some x :: r => match all_some r with Some r => Some (x :: r) | None => None end | None :: _ => None end.
(** the last character off, if it is c [Python's grammar, for the exec at dill/source.py:713] *)
Fixpoint ending (c : ascii) (s : string) : option string :=
  match s with EmptyString => None | String a EmptyString => if Ascii.eqb a c then Some EmptyString else None | String a r => match ending c r with Some r => Some (String a r) | None => None end end.
(** the clauses after import: (a, b as c,) or a, b as c [Python's grammar, for the exec at dill/source.py:713] *)
Definition clauses (s : string) : option (list (string * string)) :=
  match s with
  | String "(" r =>
    match ending ")" r with
    | Some r => all_some (map clause (split "," (match ending "," r with Some r => r | None => r end)))
    | None => None
    end
  | _ => all_some (map clause (split "," s))
  end.
(** from h import l: what it binds [Python's import statement, for the exec at dill/source.py:713] *)
Fixpoint bring (E : env) (h : string) (l : list (string * string)) (g : dict string nat) : res (dict string nat) :=
  match l with
  | [] => Ok g
  | (t, a) :: l => match from_import E h t with Ok o => bring E h l (set a o g) | Err e => Err e end
  end.
(** exec(_str) for  from HEAD import CLAUSES [dill/source.py:703-713] *)
Definition exec_from (E : env) (h rest : string) (g : dict string nat) : res (dict string nat) :=
  if forallb is_nm (split_dot h) then match clauses rest with Some l => bring E h l g | None => Err SyntaxError end else Err SyntaxError.

(** ** getimport *)
(** what follows the word import [dill/source.py:703-707] *)
Definition imported (tail alias : string) : string := if String.eqb alias "" || String.eqb alias tail then tail else tail ++ " as " ++ alias.
(** _getimport(head, tail, alias, verify, builtin), [head] not empty and without a dot [dill/source.py:676-719] *)
Definition getimport1 (E : env) (head tail alias : string) (verify builtin : bool) : res string :=
  let in_types := String.eqb head "types" in
  if in_types && String.eqb tail "None" then Ok (assign alias tail)
  else
  let head := if in_types && memb tail ["Ellipsis"; "NotImplemented"] then "builtins" else head in
  let tail := if is_builtins head && String.eqb tail "ellipsis" then "EllipsisType" else tail in
  let to_types := is_builtins head && intypes E tail in
  if is_builtins head && negb to_types && negb builtin then Ok (assign alias tail)
  else
  let head := if to_types then "types" else head in
  let str := "from " ++ head ++ " import " ++ imported tail alias ++ nl in
  if verify && negb (startswith "dill." head) then
    match exec_from E head (imported tail alias) [] with
    | Ok _ => Ok str
    | Err ImportError => Ok str                                  (* _head == head: the head has no dot *)
    | Err e => Err e
    end
  else Ok str.
(** getimport(obj, alias, verify, builtin) for a value whose namespace is [head; tail] [dill/source.py:742-774] *)
Definition getimport2 (E : env) (head tail : string) (name : option string) (alias : string) (verify builtin : bool) : res string :=
  let by_tail :=
    match getimport1 E head tail alias verify builtin with
    | Err (OtherError 1) => if is_builtins head then Ok (assign alias tail) else Err SyntaxError
    | r => r
    end in
  match name with
  | None => by_tail
  | Some n =>
    match getimport1 E head n alias verify builtin with
    | Err ImportError => by_tail
    | Err (OtherError 1) => if is_builtins head then Ok (assign alias n) else by_tail
    | r => r
    end
  end.
(** getimport(obj, alias, verify, builtin) of a value; None: the namespace has not two parts, see InstanceModel [dill/source.py:724-774] *)
Definition getimport_value (E : env) (o : thing) (alias : string) (verify builtin : bool) : option (res string) :=
  match namespace_of E o with
  | [head; tail] =>
    let name :=
      if styled (repr_ o) then Some None
      else if is_builtins head then Some (Some (repr_ o))
      else match isinstance_ o with
           | None => None
           | Some true => match getname o true with Some n => Some (Some (before_paren n)) | None => None end
           | Some false => Some (Some (before_paren (repr_ o)))
           end in
    match name with
    | None => Some (Err NoName)
    | Some n => Some (getimport2 E head tail (match n with Some "" => None | _ => n end) alias verify builtin)
    end
  | _ => None
  end.
(** importable(obj, alias, source=False, builtin): no free variables, and no enclosing function [dill/source.py:870-875, 957-972] *)
Definition importable_value (E : env) (o : thing) (alias : string) (builtin : bool) : option (res string) := getimport_value E o alias true builtin.
