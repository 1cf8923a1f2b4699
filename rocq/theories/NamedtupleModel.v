(** Namedtuple classes: the T6 branch of save_type (dill/_dill.py:1815-1831), _create_namedtuple (996-1002)
    and collections.namedtuple (CPython 3.11 Lib/collections/__init__.py:350-530), as far as the name, the
    fields, the defaults, the module and further class attributes go. *)
From Coq Require Import String Ascii List Bool Arith.
From Verif Require Import PyDict NamesModel.
Import ListNotations.
Local Open Scope string_scope.

(** [collections/__init__.py namedtuple, called in dill/_dill.py:996-1002] *)
Record ntclass := NT {
  nt_name : string; nt_qualname : string; nt_module : string;
  nt_fields : list string;
  nt_defaults : dict string nat;       (* _field_defaults *)
  nt_extra : dict string nat;          (* attributes set on the class afterwards, methods included *)
}.

(** [collections/__init__.py namedtuple, called in dill/_dill.py:996-1002] *)
Definition underscore (s : string) : bool := match s with String "_"%char _ => true | _ => false end.
(** str(n) for the names made by rename; only their first character matters here [collections/__init__.py namedtuple, called in dill/_dill.py:996-1002] *)
Definition renamed (digits : nat -> string) (i : nat) : string := "_" ++ digits i.
(** rename=True: replace the invalid names, the names with a leading underscore and the repeated names [collections/__init__.py namedtuple, called in dill/_dill.py:996-1002] *)
Fixpoint rename_fields (ident : string -> bool) (digits : nat -> string) (i : nat) (seen : list string) (l : list string) : list string :=
  match l with
  | [] => []
  | f :: l => (if negb (ident f) || underscore f || memb f seen then renamed digits i else f)
              :: rename_fields ident digits (S i) (f :: seen) l
  end.
(** [collections/__init__.py namedtuple, called in dill/_dill.py:996-1002] *)
Fixpoint no_dups (l : list string) : bool := match l with [] => true | x :: l => negb (memb x l) && no_dups l end.
(** zip from the right: the defaults belong to the last fields [collections/__init__.py namedtuple, called in dill/_dill.py:996-1002] *)
Definition right_zip (fields : list string) (ds : list nat) : dict string nat :=
  combine (skipn (length fields - length ds) fields) ds.
(** collections.namedtuple(name, fields, rename=, defaults=, module=); None: ValueError or TypeError [collections/__init__.py namedtuple, called in dill/_dill.py:996-1002] *)
Definition namedtuple (ident : string -> bool) (digits : nat -> string) (rename : bool) (name : string) (fields : list string) (ds : list nat) (module : string) : option ntclass :=
  let fields := if rename then rename_fields ident digits 0 [] fields else fields in
  if negb (ident name) then None
  else if negb (forallb ident fields) then None
  else if existsb (fun f => underscore f && negb rename) fields || negb (no_dups fields) then None
  else if Nat.ltb (length fields) (length ds) then None
  else Some {| nt_name := name; nt_qualname := name; nt_module := module; nt_fields := fields; nt_defaults := right_zip fields ds; nt_extra := [] |}.

(** what is pickled: the arguments of _create_namedtuple, and the __qualname__ set afterwards if it differs [dill/_dill.py:1815-1831] *)
Record saved_nt := SavedNT { s_name : string; s_fields : list string; s_module : string; s_defaults : option (list nat); s_qualname : option string }.
(** [dill/_dill.py:1815-1831] *)
Definition save_namedtuple (c : ntclass) : saved_nt :=
  {| s_name := nt_name c; s_fields := nt_fields c; s_module := nt_module c;
     s_defaults := match nt_defaults c with [] => None
       | fd => Some (concat (map (fun f => match get f fd with Some x => [x] | None => [] end) (nt_fields c))) end;
     s_qualname := if String.eqb (nt_name c) (nt_qualname c) then None else Some (nt_qualname c) |}.

(** [dill/_dill.py:996-1002] *)
Inductive loaded := Found (o : oid) | Fresh (c : ntclass) | Failed.
(** _create_namedtuple [dill/_dill.py:996-1002] *)
Definition create_namedtuple (ident : string -> bool) (digits : nat -> string) (E : env) (s : saved_nt) : loaded :=
  match _import_module E (s_module s ++ "." ++ s_name s) true with
  | Err _ => Failed
  | Ok o =>
    if Nat.eqb o (none E) then
      match namedtuple ident digits false (s_name s) (s_fields s) (match s_defaults s with Some l => l | None => [] end) (s_module s) with
      | Some c => Fresh {| nt_name := nt_name c; nt_qualname := match s_qualname s with Some q => q | None => nt_qualname c end;
                           nt_module := nt_module c; nt_fields := nt_fields c; nt_defaults := nt_defaults c; nt_extra := nt_extra c |}
      | None => Failed
      end
    else Found o
  end.
