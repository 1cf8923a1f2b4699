(** Parametrised types of the typing module: [save_generic_alias] (dill/_dill.py:1341-1356) and [_create_typing_tuple]
    (dill/_dill.py:797-805), with the typing module of CPython as the environment: subscription, [_GenericAlias.__reduce__]
    and the two representations of Tuple[()] (its __args__ is ((),) before 3.11 and () from 3.11 on).

    Simplified.  Types, type variables and other arguments are opaque; TypeVarTuple is left out; the cache of typing's
    subscription is not visible, as aliases are compared with ==, by origin and arguments.  Only exact _GenericAlias objects
    are modelled: Union, Callable, Literal, Annotated have classes and reduce methods of their own. *)
From Coq Require Import String List Bool Arith.
From Verif Require Import PyDict.
Import ListNotations.

(** a formal parameter of a generic class of the user's: a TypeVar or a ParamSpec [dill/_dill.py:1341-1356] *)
Inductive param : Type := PVar | PSpec.

(** what is subscripted: typing.Tuple; another alias of typing with a number of parameters, such as List, Dict
    (found again by its _name); a generic class of the user's [dill/_dill.py:1341-1356] *)
Inductive kind : Type :=
| KTuple
| KAlias (name : string) (nparams : nat)
| KClass (id : nat) (params : list param).

(** arguments of a subscription [dill/_dill.py:1341-1356] *)
Inductive arg : Type :=
| AType (id : nat)                      (* a class, type variable, ...: anything callable *)
| ANoneType
| ANone
| AStr (s : string)
| AFwd (s : string)                     (* ForwardRef *)
| AEllipsis
| ATuple (l : list arg)                 (* a tuple *)
| ABare (k : kind)                      (* the unsubscripted alias or class: typing.List *)
| AAlias (k : kind) (args : list arg).  (* _GenericAlias: __origin__ / _name and __args__ *)

(** equality with the empty tuple, the only comparison of arguments dill makes [dill/_dill.py:803, 1348] *)
Definition is_unit (a : arg) : bool := match a with ATuple [] => true | _ => false end.
(** args == ((),) [dill/_dill.py:803, 1348] *)
Definition is_unit1 (l : list arg) : bool := match l with [a] => is_unit a | _ => false end.
(** [not args] [dill/_dill.py:801, 1348] *)
Definition is_nil (l : list arg) : bool := match l with [] => true | _ => false end.

(** typing's _type_check: None and strings are converted, an ellipsis or a tuple is a TypeError [dill/_dill.py:805] *)
Definition check (a : arg) : option arg :=
  match a with
  | ANone => Some ANoneType
  | AStr s => Some (AFwd s)
  | AEllipsis | ATuple _ => None
  | _ => Some a
  end.
(** [dill/_dill.py:805] *)
Fixpoint checks (l : list arg) : option (list arg) :=
  match l with
  | [] => Some []
  | a :: r => match check a, checks r with Some b, Some s => Some (b :: s) | _, _ => None end
  end.
(** typing's _type_convert, which user classes use: no check [dill/_dill.py:1354] *)
Definition convert (a : arg) : arg :=
  match a with ANone => ANoneType | AStr s => AFwd s | _ => a end.
(** typing's _is_param_expr [dill/_dill.py:1354] *)
Definition is_param_expr (a : arg) : bool := match a with AEllipsis | ATuple _ => true | _ => false end.
(** an ellipsis where a type variable stands, or a tuple there, is accepted by no class (_check_generic counts only, but
    TypeVar.__typing_subst__ checks); where a ParamSpec stands it must be one of them [dill/_dill.py:1354] *)
Fixpoint fits (ps : list param) (l : list arg) : bool :=
  match ps, l with
  | [], [] => true
  | PVar :: ps, a :: l => negb (is_param_expr a) && fits ps l
  | PSpec :: ps, a :: l => is_param_expr a && fits ps l
  | _, _ => false
  end.

(** subscription [k\[x\]]; [old]: before Python 3.11 [dill/_dill.py:797-805, 1354] *)
Definition params_of (x : arg) : list arg := match x with ATuple l => l | _ => [x] end.
(** the one ParamSpec of a class takes a bare list of types: Z\[int, str\] is Z\[\[int, str\]\] [dill/_dill.py:1354] *)
Definition prepare (ps : list param) (l : list arg) : list arg :=
  match ps, l with
  | [PSpec], a :: _ => if is_param_expr a then l else [ATuple l]
  | _, _ => l
  end.
(** [dill/_dill.py:797-805, 1354] *)
Definition subscript (old : bool) (k : kind) (x : arg) : option arg :=
  let l := params_of x in
  match k with
  | KTuple =>
      if old && is_nil l then Some (AAlias KTuple [ATuple []])
      else if Nat.leb 2 (List.length l) && match last l ANone with AEllipsis => true | _ => false end
           then match checks (removelast l) with Some l' => Some (AAlias KTuple (l' ++ [AEllipsis])) | None => None end
           else match checks l with Some l' => Some (AAlias KTuple l') | None => None end
  | KAlias _ n =>
      match checks l with
      | Some l' => if Nat.eqb (List.length l') n then Some (AAlias k l') else None
      | None => None
      end
  | KClass _ ps =>
      let l' := prepare ps (map convert l) in
      if fits ps l' then Some (AAlias k l') else None
  end.

(** alias.copy_with(args) [dill/_dill.py:802] *)
Definition copy_with (a : arg) (args : list arg) : option arg :=
  match a with AAlias k _ => Some (AAlias k args) | _ => None end.

(** _GenericAlias.__reduce__ of a subscripted alias: the second argument of operator.getitem [dill/_dill.py:1354] *)
Definition getitem_arg (args : list arg) : arg :=
  match args with
  | [ATuple l] => ATuple args
  | [a] => a
  | _ => ATuple args
  end.

(** the reduce value chosen [dill/_dill.py:1341-1356] *)
Inductive reduced : Type :=
| Ga1 (args : list arg)               (* _create_typing_tuple(args) *)
| Ga2 (k : kind) (x : arg).           (* operator.getitem(origin, x) *)
(** [dill/_dill.py:1348-1355] *)
Definition save_alias (k : kind) (args : list arg) : reduced :=
  if match k with KTuple => true | _ => false end && (is_nil args || is_unit1 args)
  then Ga1 args
  else Ga2 k (getitem_arg args).

(** _create_typing_tuple(argz) in the reading interpreter [dill/_dill.py:797-805] *)
Definition create_typing_tuple (old : bool) (argz : list arg) : option arg :=
  if is_nil argz then
    match subscript old KTuple (ATuple []) with Some t => copy_with t [] | None => None end
  else if is_unit1 argz then subscript old KTuple (ATuple [])
  else subscript old KTuple (ATuple argz).

(** calling the reduce value in the reading interpreter [dill/_dill.py:797-805, 1354] *)
Definition rebuild (old : bool) (r : reduced) : option arg :=
  match r with
  | Ga1 args => create_typing_tuple old args
  | Ga2 k x => subscript old k x
  end.

(** replacing the arguments inside the reduce value by their copies [dill/_dill.py:1341-1356] *)
Definition with_args (r : reduced) (args' : list arg) : reduced :=
  match r with
  | Ga1 _ => Ga1 args'
  | Ga2 k (ATuple _) => Ga2 k (ATuple args')
  | Ga2 k x => Ga2 k (match args' with [a] => a | _ => ATuple args' end)
  end.

(** all or none [dill/_dill.py:1341-1356] *)
Fixpoint all_some (l : list (option arg)) : option (list arg) :=
  match l with
  | [] => Some []
  | o :: r => match o, all_some r with Some a, Some b => Some (a :: b) | _, _ => None end
  end.

(** dumping in one interpreter and loading in one that is [old] or not: an unsubscripted alias by name (Ga0, or the class
    by name), a subscripted one from the copies of its arguments [dill/_dill.py:797-805, 1341-1356] *)
Fixpoint copy (old : bool) (a : arg) : option arg :=
  match a with
  | ATuple l => match all_some (map (copy old) l) with Some l' => Some (ATuple l') | None => None end
  | AAlias k args =>
      match all_some (map (copy old) args) with
      | Some args' => rebuild old (with_args (save_alias k args) args')
      | None => None
      end
  | _ => Some a
  end.
