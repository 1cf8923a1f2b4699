(** Objects dill stores as one call of a constructor, and the compatibility shims of dill/_shims.py.
    Covered: [Reduce], [_CallableReduce], [Getattr], [move_to], [register_shim] (dill/_shims.py:58-193), [Sentinel]
    (dill/_dill.py:205-225), [save_super] 1502-1507, [save_instancemethod0] 1511-1533, [save_slice] 1617-1622,
    [save_context] 2126-2130 and the dataclasses constants 2137-2163.

    Simplified.  A pickle is a list of four kinds of instruction run on a stack: push a value, look a global up by
    module and dotted path, make a tuple, call.  The memo (sharing, cycles) is the subject of CoreModel and is left
    out here.  An object of any other type ([VObj]) is stored as itself; its attributes are a dict. *)
From Coq Require Import String List Bool ZArith.
From Verif Require Import PyDict NamesModel.
Import ListNotations.
Local Open Scope string_scope.

(** the dataclasses constants with a save function of their own [dill/_dill.py:2137-2163] *)
Inductive dconst : Type :=
| HasDefaultFactory
| Missing
| KwOnly
| FieldBase (name : string).

(** Python values, as far as these functions tell them apart [dill/_dill.py:205-225, 1502-1533, 1617-1622, 2126-2163, dill/_shims.py:58-107] *)
Inductive val : Type :=
| VNone
| VBool (b : bool)
| VInt (z : Z)
| VStr (s : string)
| VTuple (l : list val)
| VMod (m : string)                                     (* a module, stored by name *)
| VName (m q : string)                                  (* a function or type of the standard library, stored by name *)
| VObj (id : nat) (call : bool) (attrs : list (string * val))
| VSlice (a b c : val)
| VMeth (f self : val)                                  (* types.MethodType *)
| VSuper (cls self : val)                               (* super(cls, self); self is None: unbound *)
| VCtx (items : list (val * val))                       (* contextvars.Context *)
| VCtxVar (id : nat)                                    (* contextvars.ContextVar: has no reduce value *)
| VConst (c : dconst)                                   (* a constant of the dataclasses module *)
| VSent (name modname : string)                         (* dill._dill.Sentinel *)
| VRed (call : bool) (reduction : list val)             (* dill._shims.Reduce / _CallableReduce *)
| VApp (f : val) (args : list val).                     (* what calling [f] with [args] returned *)

(** the modules of an interpreter: name -> namespace [dill/_shims.py:55] *)
Definition env := list (string * list (string * val)).

(** builtin callable(obj) [dill/_shims.py:83-87, 107] *)
Definition callable (v : val) : bool :=
  match v with
  | VName _ _ => true
  | VObj _ c _ => c
  | VMeth _ _ => true
  | VRed c _ => c
  | _ => false
  end.

(** the attribute [a] of [v], as far as it is modelled: module globals and instance attributes [dill/_shims.py:133-138] *)
Definition attr (E : env) (v : val) (a : string) : option val :=
  match v with
  | VMod m => match get m E with Some ns => get a ns | None => None end
  | VObj _ _ attrs => get a attrs
  | _ => None
  end.

(** pickle's _getattribute: a dotted path from a module [dill/_dill.py:222-225] *)
Fixpoint path (E : env) (v : val) (l : list string) : option val :=
  match l with
  | [] => Some v
  | a :: r => match attr E v a with Some w => path E w r | None => None end
  end.

(** the functions the reduce values name [dill/_dill.py:1505, 1531, 1620, 2129, dill/_shims.py:133-136] *)
Definition f_getattr : val := VName "builtins" "getattr".
(** [dill/_dill.py:1620] *)
Definition f_slice : val := VName "builtins" "slice".
(** [dill/_dill.py:1531] *)
Definition f_method : val := VName "types" "MethodType".
(** [dill/_dill.py:1505] *)
Definition f_super : val := VName "builtins" "super".
(** [dill/_dill.py:2129] *)
Definition f_context : val := VName "_contextvars" "Context".

(** calling a value: Python's own behaviour of the constructors above; anything else callable returns [VApp]
    (Context takes no arguments; MethodType wants a callable and an instance that is not None; super's check that self
    is an instance of cls is left out: a stored super object has passed it) [dill/_dill.py:1505, 1531, 1620, 2129] *)
Definition apply (E : env) (f : val) (args : list val) : option val :=
  match f with
  | VName "builtins" "getattr" =>
      match args with
      | [o; VStr a] => attr E o a
      | [o; VStr a; d] => match attr E o a with Some v => Some v | None => Some d end
      | _ => None
      end
  | VName "builtins" "slice" =>
      match args with
      | [b] => Some (VSlice VNone b VNone)
      | [a; b] => Some (VSlice a b VNone)
      | [a; b; c] => Some (VSlice a b c)
      | _ => None
      end
  | VName "types" "MethodType" =>
      match args with
      | [g; VNone] => None
      | [g; o] => if callable g then Some (VMeth g o) else None
      | _ => None
      end
  | VName "builtins" "super" =>
      match args with
      | [c] => Some (VSuper c VNone)
      | [c; o] => Some (VSuper c o)
      | _ => None
      end
  | VName "_contextvars" "Context" =>
      match args with [] => Some (VCtx []) | _ => None end
  | _ => if callable f then Some (VApp f args) else None
  end.

(** instructions of a pickle [dill/_dill.py:2137-2163] *)
Inductive op : Type :=
| Push (v : val)
| Global (m : string) (p : list string)
| Tup (n : nat)
| Call.

(** pickle's save_reduce on a reduce value: the function must be callable [dill/_dill.py:1505, 1531, 1620, 2129] *)
Definition reduce (f : val) (fops : option (list op)) (argops : option (list op)) (n : nat) : option (list op) :=
  if callable f then
    match fops, argops with
    | Some a, Some b => Some (a ++ b ++ [Tup n; Call])%list
    | _, _ => None
    end
  else None.

(** one after another; the first that fails fails the whole [dill/_dill.py:2129] *)
Fixpoint all_ops (l : list (option (list op))) : option (list op) :=
  match l with
  | [] => Some []
  | o :: r => match o, all_ops r with Some a, Some b => Some (a ++ b)%list | _, _ => None end
  end.

(** the name each constant is written under [dill/_dill.py:2141, 2148, 2155, 2162] *)
Definition dconst_name (c : dconst) : string :=
  match c with
  | HasDefaultFactory => "_HAS_DEFAULT_FACTORY"
  | Missing => "MISSING"
  | KwOnly => "KW_ONLY"
  | FieldBase n => n
  end.

Section Save.
  (** the interpreter that writes *)
  Variable W : env.
  (** [look c o a]: the attribute [a] that super(c, o) finds in the classes after [c] in the method resolution order
      of [o], if one defines it; super objects look there first *)
  Variable look : val -> val -> string -> option val.
  (** is the interpreter PyPy? *)
  Variable pypy : bool.
  (** is this callable one of PyPy's builtin functions (its __code__ is not a CodeType)? *)
  Variable builtin_code : val -> bool.
  (** __name__ of a callable *)
  Variable name_of : val -> string.
  (** getattr(self, name) == the bound method itself? *)
  Variable found_again : val -> val -> bool.

  (** reading an attribute of a super object: a bound one searches the classes first, then itself; an unbound one only itself [dill/_dill.py:1505] *)
  Definition super_attr (c o : val) (a : string) (own : val) : val :=
    match o with
    | VNone => own
    | _ => match look c o a with Some v => v | None => own end
    end.

  (** the object under the name and module the sentinel gives, which must be that sentinel itself; VSent is determined by name and module [dill/_dill.py:222-225] *)
  Definition same_sentinel (v : option val) (n m : string) : bool :=
    match v with
    | Some (VSent n' m') => andb (String.eqb n n') (String.eqb m m')
    | _ => false
    end.

  (** save: one case per save function [dill/_dill.py:205-225, 1502-1507, 1511-1533, 1617-1622, 2126-2163, dill/_shims.py:94-97];
      the arguments of super are read with [super_attr], which may give a value that is not a part of the object, hence
      the bound [fuel] on the depth of the values saved *)
  Fixpoint save (fuel : nat) (v : val) : option (list op) :=
    match fuel with
    | O => None
    | S k =>
      match v with
      | VNone | VBool _ | VInt _ | VStr _ | VMod _ | VName _ _ | VObj _ _ _ | VApp _ _ => Some [Push v]
      | VTuple l => match all_ops (map (save k) l) with Some a => Some (a ++ [Tup (List.length l)])%list | None => None end
      | VSlice a b c => reduce f_slice (save k f_slice) (all_ops (map (save k) [a; b; c])) 3
      | VMeth f o =>
          if andb (andb pypy (builtin_code f)) (found_again f o)
          then reduce f_getattr (save k f_getattr) (all_ops (map (save k) [o; VStr (name_of f)])) 2
          else reduce f_method (save k f_method) (all_ops (map (save k) [f; o])) 2
      | VSuper c o =>
          reduce f_super (save k f_super)
            (all_ops (map (save k) [super_attr c o "__thisclass__" c; super_attr c o "__self__" o])) 2
      | VCtx items =>
          reduce f_context (save k f_context) (all_ops (map (fun p => save k (VTuple [fst p; snd p])) items)) (List.length items)
      | VCtxVar _ => None
      | VConst c => Some [Global "dataclasses" [dconst_name c]]
      | VSent n m =>
          if same_sentinel (path W (VMod m) (split_dot n)) n m then Some [Global m (split_dot n)] else None
      | VRed _ (f :: VTuple args :: nil) => reduce f (save k f) (all_ops (map (save k) args)) (List.length args)
      | VRed _ _ => None       (* a reduce value of another shape: with state and item iterators it is not modelled *)
      end
    end.
End Save.

(** the loading side: the instructions run on a stack in the reading interpreter [dill/_dill.py:292-312] *)
Fixpoint run (R : env) (ops : list op) (st : list val) : option (list val) :=
  match ops with
  | [] => Some st
  | Push v :: r => run R r (v :: st)
  | Global m p :: r =>
      match path R (VMod m) p with Some v => run R r (v :: st) | None => None end
  | Tup n :: r =>
      if Nat.leb n (List.length st) then run R r (VTuple (rev (firstn n st)) :: skipn n st) else None
  | Call :: r =>
      match st with
      | VTuple args :: f :: st' => match apply R f args with Some v => run R r (v :: st') | None => None end
      | _ => None
      end
  end.

(** load: the value left on the stack [dill/_dill.py:292-312] *)
Definition load (R : env) (ops : list op) : option val :=
  match run R ops [] with Some [v] => Some v | _ => None end.

(** ** dill/_shims.py *)

(** Reduce with a reduction and is_callable=b [dill/_shims.py:71-87] *)
Definition Reduce (reduction : list val) (is_callable : bool) : val := VRed is_callable reduction.

(** Getattr.NO_DEFAULT [dill/_shims.py:109, 140-141] *)
Definition NO_DEFAULT : val := VSent "Getattr.NO_DEFAULT" "dill._shims".
(** [default is Getattr.NO_DEFAULT] [dill/_shims.py:133, 177] *)
Definition is_no_default (v : val) : bool :=
  match v with VSent n m => andb (String.eqb n "Getattr.NO_DEFAULT") (String.eqb m "dill._shims") | _ => false end.

(** Getattr(object, name, default) [dill/_shims.py:111-138] *)
Definition Getattr (o : val) (name : string) (default : val) : val :=
  Reduce (if is_no_default default then [f_getattr; VTuple [o; VStr name]]
          else [f_getattr; VTuple [o; VStr name; default]])
         (callable default).

(** assignment func.__module__ = name: functions take it, and so do callable Reduce objects, which have a __dict__
    (their class defines no __slots__); plain Reduce objects, numbers, strings, ... raise AttributeError [dill/_shims.py:175] *)
Definition set_module (v : val) (m : string) : option val :=
  match v with
  | VObj i c attrs => Some (VObj i c (set "__module__" (VStr m) attrs))
  | VRed true r => Some (VRed true r)
  | _ => None
  end.

(** register_shim(name, default), with the namespace [G] of dill._shims and the namespace [D] of dill._dill.
    The result: [D] afterwards, and the Reduce object, or None for the AttributeError of the assignment of __module__
    (raised after the entry has been made).  The function is one object: its new __module__ is seen through [D] [dill/_shims.py:154-184] *)
Definition register_shim (G D : list (string * val)) (name : string) (default : val)
  : list (string * val) * option val :=
  let shim := Getattr (VMod "dill._dill") name default in
  match get name G with
  | None | Some VNone => (D, Some shim)
  | Some f =>
      match set_module f "dill._dill" with
      | Some f' => (set name f' D, Some shim)
      | None => (set name f D, None)
      end
  end.

(** @move_to(module, name) on a function: [D] is the module's namespace, [mname] its name [dill/_shims.py:143-152] *)
Definition move_to (D : list (string * val)) (mname : string) (name : option string) (fname : string) (f : val)
  : list (string * val) * option val :=
  let n := match name with None => fname | Some n => n end in
  match set_module f mname with
  | Some f' => (set n f' D, Some f')
  | None => (set n f D, None)
  end.

(** _CallableReduce.__call__: evaluate the reduction here and now, then call the result [dill/_shims.py:102-107] *)
Definition call_shim (E : env) (shim : val) (args : list val) : option val :=
  match shim with
  | VRed true (f :: VTuple fargs :: _) =>
      match apply E f fargs with
      | Some o => apply E o args
      | None => None
      end
  | _ => None
  end.
