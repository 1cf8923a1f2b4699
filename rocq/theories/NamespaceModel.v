(** _namespace of functions, classes and modules: dill/source.py:633-656, and getimport of them: dill/source.py:724-774.
    Simplified: the object has a module (getmodule) and a name (getname: AliasModel); str(module) is given as a text; not instances. *)
From Coq Require Import String Ascii List Bool Arith.
From Verif Require Import PyDict NamesModel DescrModel CheckModel ImportModel.
Import ListNotations.
Local Open Scope string_scope.

(** str.strip(c) for one character [dill/source.py:648] *)
Fixpoint lstrip_char (c : ascii) (s : string) : string := match s with String x r => if Ascii.eqb x c then lstrip_char c r else s | EmptyString => "" end.
(** [str.strip, dill/source.py:648] *)
Fixpoint rstrip_char (c : ascii) (s : string) : string :=
  match s with EmptyString => "" | String x r => match rstrip_char c r with EmptyString => if Ascii.eqb x c then "" else String x "" | r => String x r end end.
(** [str.strip, dill/source.py:648] *)
Definition strip_char (c : ascii) (s : string) : string := rstrip_char c (lstrip_char c s).
(** the second word of str(module), without '>', double quotes and apostrophes at its ends; None: IndexError [dill/source.py:648] *)
Definition module_name (mrepr : string) : option string :=
  match split_ws 2 mrepr with
  | _ :: w :: _ => Some (strip_char apos (strip_char dquote (strip_char ">" w)))
  | _ => None
  end.
(** _namespace(obj); [name]: None for a module, else getname(obj) [dill/source.py:633-656] *)
Definition _namespace (E : env) (mrepr : string) (name : option string) : option (list string) :=
  match module_name mrepr with
  | None => None
  | Some m =>
    let qual := split_dot m in
    match name with
    | None => Some qual
    | Some n => if is_builtins m && intypes E n then Some ["types"; n] else Some (qual ++ [n])%list
    end
  end.
(** repr(obj).split('<',1)[1].split('>',1)[1] succeeds: there is a '<' and a '>' after it [dill/source.py:743] *)
Fixpoint after (c : ascii) (s : string) : option string := match s with EmptyString => None | String x r => if Ascii.eqb x c then Some r else after c r end.
(** [dill/source.py:742-751] *)
Definition styled (r : string) : bool := match after "<" r with Some t => match after ">" t with Some _ => true | None => false end | None => false end.
(** s.split('(')[0] [dill/source.py:751] *)
Fixpoint before_paren (s : string) : string := match s with EmptyString => "" | String c r => if Ascii.eqb c "(" then "" else String c (before_paren r) end.
(** the name got from the repr of an object that is no instance [dill/source.py:742-751] *)
Definition repr_name (head repr : string) : option string :=
  if styled repr then None
  else let n := if is_builtins head then repr else before_paren repr in if String.eqb n "" then None else Some n.
(** getimport(obj, alias, verify, builtin); None: the namespace is not found this way [dill/source.py:724-774] *)
Definition getimport_of (E : env) (bi : dict string nat) (mrepr : string) (name : option string) (repr alias : string) (verify builtin : bool) : option (res string) :=
  match _namespace E mrepr name with
  | None => None
  | Some qual => Some (getimport E bi qual (repr_name (join_dot (removelast qual)) repr) alias verify builtin)
  end.
