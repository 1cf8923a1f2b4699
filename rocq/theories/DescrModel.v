(** Descriptors: _getattr (dill/_dill.py:1034-1051), save_wrapper_descriptor (1534-1554), save_property (1934-1940), save_classmethod
    (1942-1959), and what CPython 3.11 does with them: Objects/descrobject.c (the descriptors' repr, property_init, property_copy,
    the __doc__ member), Objects/funcobject.c (functools_wraps of staticmethod and classmethod). *)
From Coq Require Import String Ascii List Bool Arith.
From Verif Require Import PyDict NamesModel.
Import ListNotations.
Local Open Scope string_scope.

Notation oid := nat (only parsing).
(** ** descriptors of C types and of slots [the character at which dill/_dill.py:1037 splits] *)
Definition quote : ascii := "'".
(** s.split(c) for one character c [str.split, dill/_dill.py:1037] *)
Fixpoint split_aux (c : ascii) (cur s : string) : list string :=
  match s with
  | EmptyString => [cur]
  | String a s' => if Ascii.eqb a c then cur :: split_aux c EmptyString s' else split_aux c (cur ++ String a EmptyString) s'
  end.
(** [str.split, dill/_dill.py:1037] *)
Definition split (c : ascii) (s : string) : list string := split_aux c EmptyString s.

(** the repr of the descriptor of [name] of the class with tp_name [cls]; [kind]: method, slot wrapper, member, attribute [CPython Objects/descrobject.c, the repr that dill/_dill.py:1542-1543 stores] *)
Definition descr_repr (kind name cls : string) : string := "<" ++ kind ++ " '" ++ name ++ "' of '" ++ cls ++ "' objects>".

(** a process: [ns] the names of dill._dill and of builtins, [att o] the attributes of o, [cdict o] its __dict__ (None: it has none),
    [other s] the value of an expression s that is not a dotted name (None: an exception) [what dill/_dill.py:1034-1051 looks at] *)
Record proc := Proc { ns : dict string oid; att : oid -> dict string oid; cdict : oid -> option (dict string oid); other : string -> option oid }.

(** the characters of names; simplified: ASCII names [CPython names; not in /repo] *)
Definition is_start (c : ascii) : bool :=
  let n := nat_of_ascii c in (Nat.leb 65 n && Nat.leb n 90) || (Nat.leb 97 n && Nat.leb n 122) || Nat.eqb n 95.
(** [CPython names; not in /repo] *)
Definition is_name_char (c : ascii) : bool := let n := nat_of_ascii c in is_start c || (Nat.leb 48 n && Nat.leb n 57).
(** [CPython names; not in /repo] *)
Fixpoint all_chars (f : ascii -> bool) (s : string) : bool := match s with EmptyString => true | String c s => f c && all_chars f s end.
(** [CPython names; not in /repo] *)
Definition is_ident (s : string) : bool := match s with EmptyString => false | String c s => is_start c && all_chars is_name_char s end.

(** [eval, dill/_dill.py:1038] *)
Fixpoint walk (P : proc) (o : oid) (l : list string) : option oid :=
  match l with [] => Some o | n :: l => match get n (att P o) with Some o => walk P o l | None => None end end.
(** the value of the expression [s] in dill._dill [eval, dill/_dill.py:1038] *)
Definition eval_expr (P : proc) (s : string) : option oid :=
  if forallb is_ident (split_dot s) then
    match split_dot s with n :: l => match get n (ns P) with Some o => walk P o l | None => None end | [] => None end
  else other P s.
(** eval(attr + '.__dict__["' + name + '"]') [dill/_dill.py:1038] *)
Definition eval_entry (P : proc) (a name : string) : option oid :=
  match eval_expr P a with Some o => match cdict P o with Some d => get name d | None => None end | None => None end.

(** _getattr, lines 1034-1051; classes: the __dict__ of a class is a DictProxyType.  Simplified: the interpreter is older than 3.15 (line 1043),
    getattr of a class finds its own and inherited entries ([att]) *)
Definition getattr_ (P : proc) (objclass : oid) (name repr_str : string) : res oid :=
  match match nth_error (split quote repr_str) 3 with Some a => eval_entry P a name | None => None end with
  | Some o => Ok o
  | None => match cdict P objclass with
            | Some d => match get name d with
                        | Some o => Ok o
                        | None => match get name (att P objclass) with Some o => Ok o | None => Err AttributeError end end
            | None => match get name (att P objclass) with Some o => Ok o | None => Err AttributeError end
            end
  end.

(** [what dill/_dill.py:1540-1545 stores] *)
Record descr := Descr { d_kind : string; d_name : string; d_cls : string (* the tp_name of __objclass__ *) }.
(** save_wrapper_descriptor, then loading: [c] is what the class __objclass__ loads as [dill/_dill.py:1540-1545, 1034-1051] *)
Definition load_descr (P : proc) (d : descr) (c : oid) : res oid := getattr_ P c (d_name d) (descr_repr (d_kind d) (d_name d) (d_cls d)).

(** ** properties *)
(** [fdoc f] is f.__doc__ [CPython Objects/descrobject.c, property; what dill/_dill.py:1938 reads] *)
Record property := Property {
  p_abstract : bool;                     (* abc.abstractproperty, a subclass with a docstring of its own *)
  p_get : option oid; p_set : option oid; p_del : option oid;
  p_doc : option string;                 (* prop_doc *)
  p_getter_doc : bool;                   (* prop_doc was taken from the getter *)
  p_dict_doc : option (option string);   (* the instance's own __doc__, of abstractproperty objects *)
}.
(** [CPython Objects/descrobject.c, property; what dill/_dill.py:1938 reads] *)
Definition class_doc : option string := Some "A decorator indicating abstract properties. ...".
(** p.__doc__ [CPython Objects/descrobject.c, property; what dill/_dill.py:1938 reads] *)
Definition doc_of (p : property) : option string :=
  if p_abstract p then match p_dict_doc p with Some d => d | None => class_doc end else p_doc p.

(** property(fget, fset, fdel, doc): descrobject.c property_init_impl [CPython Objects/descrobject.c property_init_impl, called for dill/_dill.py:1938] *)
Definition property_init (fdoc : oid -> option string) (abstract : bool) (g s d : option oid) (doc : option string) : property :=
  match doc, g with
  | None, Some f => if abstract then Property true g s d None true (Some (fdoc f)) else Property false g s d (fdoc f) true None
  | _, _ => Property abstract g s d doc false None
  end.
(** p.getter(f), p.setter(f), p.deleter(f): property_copy [CPython Objects/descrobject.c, property; not in /repo] *)
Inductive accessor := AGet (f : oid) | ASet (f : oid) | ADel (f : oid).
(** [CPython Objects/descrobject.c, property; not in /repo] *)
Definition property_copy (fdoc : oid -> option string) (p : property) (a : accessor) : property :=
  let g := match a with AGet f => Some f | _ => p_get p end in
  let s := match a with ASet f => Some f | _ => p_set p end in
  let d := match a with ADel f => Some f | _ => p_del p end in
  let doc := if p_getter_doc p && match g with Some _ => true | None => false end then None else p_doc p in
  property_init fdoc (p_abstract p) g s d doc.
(** p.__doc__ = x [CPython Objects/descrobject.c, property; not in /repo] *)
Definition set_doc (p : property) (x : option string) : property :=
  if p_abstract p then Property true (p_get p) (p_set p) (p_del p) (p_doc p) (p_getter_doc p) (Some x)
  else Property false (p_get p) (p_set p) (p_del p) x (p_getter_doc p) (p_dict_doc p).
(** save_property, then loading: [cp] is what the functions load as, [fdoc] their __doc__ in the loading process [dill/_dill.py:1934-1940] *)
Definition reload_property (fdoc : oid -> option string) (cp : oid -> oid) (p : property) : property :=
  property_init fdoc (p_abstract p) (option_map cp (p_get p)) (option_map cp (p_set p)) (option_map cp (p_del p)) (doc_of p).

(** ** staticmethod, classmethod and their abstract subclasses [CPython Objects/funcobject.c, staticmethod and classmethod, called for dill/_dill.py:1958] *)
Definition wrapped_names : list string := ["__module__"; "__name__"; "__qualname__"; "__doc__"; "__annotations__"].
(** [CPython Objects/funcobject.c, staticmethod and classmethod, called for dill/_dill.py:1958] *)
Record wrapper := Wrapper { w_kind : nat; w_func : oid; w_dict : dict string oid }.
(** staticmethod(f): functools_wraps copies the attributes of f; [fattr f] are those it has [CPython Objects/funcobject.c, staticmethod and classmethod, called for dill/_dill.py:1958] *)
Definition copied (d : dict string oid) : dict string oid :=
  fold_left (fun acc n => match get n d with Some v => set n v acc | None => acc end) wrapped_names [].
(** [CPython Objects/funcobject.c, staticmethod and classmethod, called for dill/_dill.py:1958] *)
Definition wrap (fattr : oid -> dict string oid) (k : nat) (f : oid) : wrapper := Wrapper k f (copied (fattr f)).
(** w.n = v [CPython Objects/funcobject.c, staticmethod and classmethod, called for dill/_dill.py:1958] *)
Definition set_attr (w : wrapper) (n : string) (v : oid) : wrapper := Wrapper (w_kind w) (w_func w) (set n v (w_dict w)).
(** save_classmethod, then loading [dill/_dill.py:1942-1959] *)
Definition reload_wrapper (fattr : oid -> dict string oid) (cp : oid -> oid) (w : wrapper) : wrapper := wrap fattr (w_kind w) (cp (w_func w)).
