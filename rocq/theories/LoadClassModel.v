(** Unpickler.load: what happens to the class of the object just loaded.  dill/_dill.py:452-460
    (Unpickler.load), and CPython 3.11's assignment to __class__
    (object.__setattr__ and the __class__ descriptor of Objects/typeobject.c) that it uses. *)
From Coq Require Import String List Bool Arith.
From Verif Require Import PyDict.
Import ListNotations.
Local Open Scope string_scope.

Notation oid := nat (only parsing).

(** Exceptions the assignment can raise; [except (AttributeError,TypeError): pass] tells the first two
    (and their subclasses, e.g. dataclasses.FrozenInstanceError) from the others.
    [dill/_dill.py:457-458] *)
Inductive exn := AttributeError | TypeError | OtherError (n : nat).

(** What [type(obj).__setattr__] does when given the name '__class__': object's own behaviour, an
    exception of its own, or (a proxy-like class) storing the value in the instance.
    [the assignment of dill/_dill.py:457] *)
Inductive hook := HObject | HRaise (e : exn) | HStore.

(** A class: __module__, __name__, __qualname__, whether it is a heap type whose instances may change
    class, its memory layout (solid base, slots, __dict__ and __weakref__: simplified to one number
    that has to agree), and its __setattr__.  [what dill/_dill.py:454-457 reads] *)
Record cls := Cls { c_module : string; c_name : string; c_qualname : string;
                    c_mutable : bool; c_layout : nat; c_hook : hook }.
(** An object: its class (an object id) and its attributes.  [what dill/_dill.py:454-457 changes] *)
Record obj := Obj { o_class : oid; o_state : dict string oid }.

(** The process after the stock unpickler is done: the classes, the other objects, the namespaces of
    modules (a class, an ordinary object or a function, all by id).  [dill/_dill.py:453] *)
Record proc := Proc { classes : dict oid cls; objects : dict oid obj }.

(** [obj.__class__ = v] for object.__setattr__: v has to be a class, both classes mutable heap types,
    and the layouts compatible; TypeError if not.  [Objects/typeobject.c object_set_class, for
    dill/_dill.py:457] *)
Definition set_class (P : proc) (x : oid) (v : oid) : proc * option exn :=
  match get x (objects P) with
  | None => (P, Some TypeError)
  | Some o =>
    match get (o_class o) (classes P), get v (classes P) with
    | Some old, Some new =>
      if c_mutable old && c_mutable new && Nat.eqb (c_layout old) (c_layout new)
      then (Proc (classes P) (set x (Obj v (o_state o)) (objects P)), None)
      else (P, Some TypeError)
    | _, _ => (P, Some TypeError)
    end
  end.

(** [obj.__class__ = v] through the class's __setattr__.  [dill/_dill.py:457] *)
Definition assign (P : proc) (x : oid) (v : oid) : proc * option exn :=
  match get x (objects P) with
  | None => (P, Some TypeError)
  | Some o =>
    match get (o_class o) (classes P) with
    | None => (P, Some TypeError)
    | Some c =>
      match c_hook c with
      | HObject => set_class P x v
      | HRaise e => (P, Some e)
      | HStore => (Proc (classes P) (set x (Obj (o_class o) (set "__class__" v (o_state o))) (objects P)), None)
      end
    end
  end.

(** [main_name]: getattr(_main_module, '__name__', '__main__').  [dill/_dill.py:454] *)
Definition main_name (attr_name : option string) : string :=
  match attr_name with Some n => n | None => "__main__" end.

(** Unpickler.load after StockUnpickler.load returned the object x: [ns] is self._main's namespace
    (getattr on the module, simplified to its dictionary), [name] the __name__ of dill's _main_module.
    [dill/_dill.py:452-460] *)
Definition load (ns : dict string oid) (name : option string) (ignore : bool) (P : proc) (x : oid)
    : proc * option exn :=
  match get x (objects P) with
  | None => (P, None)
  | Some o =>
    match get (o_class o) (classes P) with
    | None => (P, None)
    | Some c =>
      if String.eqb (c_module c) (main_name name) then
        if negb ignore then
          match get (c_name c) ns with
          | None => (P, None)                                   (* getattr: AttributeError, passed *)
          | Some v =>
            match assign P x v with
            | (P', None) => (P', None)
            | (P', Some AttributeError) | (P', Some TypeError) => (P', None)
            | (P', Some e) => (P', Some e)
            end
          end
        else (P, None)
      else (P, None)
    end
  end.
