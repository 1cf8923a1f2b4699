(** getimport: dill/source.py:676-719 (_getimport), 724-774 (getimport), 468-475 (_intypes), and the statements it writes, as Python runs them.
    Simplified: the namespace of the object (_namespace) and the name its repr gives are parameters; a module's import is a lookup (NamesModel). *)
From Coq Require Import String Ascii List Bool Arith.
From Verif Require Import PyDict NamesModel DescrModel.
Import ListNotations.
Local Open Scope string_scope.

Notation oid := nat (only parsing).
(** [exceptions and line ends of the statements of dill/source.py:703-719] *)
Definition SyntaxError : exn := OtherError 1.
(** [exceptions and line ends of the statements of dill/source.py:703-719] *)
Definition nl : string := String (ascii_of_nat 10) EmptyString.

(** ** running an import statement *)
(** from h import t, for dotted h: an attribute of the module, or a submodule [Python's import statement, environment of dill/source.py:703-719 (exec at 717)] *)
Definition from_import (E : env) (h t : string) : res oid :=
  match import_ E h with
  | Err e => Err e
  | Ok m => match get t (attr E m) with
            | Some o => Ok o
            | None => import_ E (h ++ "." ++ t) end
  end.
(** the statement: what it binds; builtin names are found in [builtin_ns] [Python's import statement, environment of dill/source.py:703-719 (exec at 717)] *)
Definition run_words (E : env) (bi : dict string oid) (l : list string) : res (list (string * oid)) :=
  let from_ h t a := if forallb is_ident (split_dot h) && is_ident t && is_ident a then
      match from_import E h t with Ok o => Ok [(a, o)] | Err e => Err e end else Err SyntaxError in
  let import_as t a := if is_ident t && is_ident a then match import_ E t with Ok o => Ok [(a, o)] | Err e => Err e end else Err SyntaxError in
  match l with
  | [f; h; i; t] => if String.eqb f "from" && String.eqb i "import" then from_ h t t
                    else if String.eqb f "import" && String.eqb i "as" then import_as h t else Err SyntaxError
  | [f; h; i; t; s; a] => if String.eqb f "from" && String.eqb i "import" && String.eqb s "as" then from_ h t a else Err SyntaxError
  | [i; t] => if String.eqb i "import" then import_as t t else Err SyntaxError
  | [a; e; n] => if String.eqb e "=" && is_ident a && is_ident n then match get n bi with Some o => Ok [(a, o)] | None => Err (OtherError 2) end else Err SyntaxError
  | [n] => if is_ident n then match get n bi with Some _ => Ok [] | None => Err (OtherError 2) end else Err SyntaxError
  | _ => Err SyntaxError
  end.
(** drop the line end [Python's import statement, environment of dill/source.py:703-719 (exec at 717)] *)
Fixpoint chomp (s : string) : string :=
  match s with EmptyString => EmptyString | String c r => match r with EmptyString => if Ascii.eqb c (ascii_of_nat 10) then EmptyString else s | _ => String c (chomp r) end end.
(** exec(text) for texts of one line, words separated by single spaces [Python's import statement, environment of dill/source.py:703-719 (exec at 717)] *)
Definition exec (E : env) (bi : dict string oid) (text : string) : res (list (string * oid)) := run_words E bi (split " " (chomp text)).

(** ** _getimport [dill/source.py:693-701] *)
Definition is_builtins (h : string) : bool := memb h ["builtins"; "__builtin__"].
(** hasattr(types, name), 'ellipsis' being 'EllipsisType' [dill/source.py:468-475] *)
Definition intypes (E : env) (n : string) : bool :=
  let n := if String.eqb n "ellipsis" then "EllipsisType" else n in
  match get "types" (modules E) with Some m => has n (attr E m) | None => false end.
(** [dill/source.py:693-712] *)
Definition assign (alias n : string) : string :=
  (if String.eqb alias "" || String.eqb alias n then "" else alias ++ " = ") ++ n ++ nl.
(** [dill/source.py:693-712] *)
Definition statement (head : list string) (tail alias : string) : string :=
  (match head with [] => "import " ++ tail | _ => "from " ++ join_dot head ++ " import " ++ tail end)
  ++ (if String.eqb alias "" || String.eqb alias tail then nl else " as " ++ alias ++ nl).

(** head is given as its parts; [fuel] as many as there are parts [dill/source.py:676-719] *)
Fixpoint getimport_ (fuel : nat) (E : env) (bi : dict string oid) (head : list string) (tail alias : string) (verify builtin : bool) : res string :=
  (* lines 685-690 *)
  let special := String.eqb (join_dot head) "types" in
  if special && String.eqb tail "None" then Ok (assign alias tail)
  else
  let head := if special && memb tail ["Ellipsis"; "NotImplemented"] then ["builtins"] else head in
  (* lines 693-701 *)
  let tail' := if is_builtins (join_dot head) && String.eqb tail "ellipsis" then "EllipsisType" else tail in
  let to_types := is_builtins (join_dot head) && intypes E tail' in
  if is_builtins (join_dot head) && negb to_types && negb builtin then Ok (assign alias tail')
  else
  let head := if to_types then ["types"] else head in
  (* lines 703-719 *)
  let str := statement head tail' alias in
  if verify && negb (startswith "dill." (join_dot head)) then
    match exec E bi str with
    | Ok _ => Ok str
    | Err ImportError =>
      match head with
      | [] => Err ImportError                       (* not _head: raise *)
      | [_] => Ok str                               (* _head == head *)
      | _ => match fuel with
             | 0 => Err RecursionError
             | S fuel => getimport_ fuel E bi (removelast head) tail' alias verify false
             end
      end
    | Err e => Err e
    end
  else Ok str.
(** [dill/source.py:676-719] *)
Definition _getimport (E : env) (bi : dict string oid) (head : list string) (tail alias : string) (verify builtin : bool) : res string :=
  getimport_ (S (List.length head)) E bi head tail alias verify builtin.

(** getimport(obj, alias, verify, builtin): [qual] is the namespace of the object, [name] the name got from its repr, if any [dill/source.py:724-774] *)
Definition getimport (E : env) (bi : dict string oid) (qual : list string) (name : option string) (alias : string) (verify builtin : bool) : res string :=
  let head := removelast qual in
  let tail := last qual "" in
  let by_tail :=
    match _getimport E bi head tail alias verify builtin with
    | Err (OtherError 1) => if is_builtins (join_dot head) then Ok (assign alias tail) else Err SyntaxError
    | r => r
    end in
  match name with
  | None => by_tail
  | Some n =>
    match _getimport E bi head n alias verify builtin with
    | Err ImportError => by_tail
    | Err (OtherError 1) => if is_builtins (join_dot head) then Ok (assign alias n) else by_tail
    | r => r
    end
  end.
