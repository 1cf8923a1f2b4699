(** Classes and functions that dill meets again while it is saving them: dill/_dill.py:1126-1131 (_save_with_postproc: an object on the stack of deferred
    updates is saved as a global, with a PicklingWarning), 1857-1860 and 1911-1932 (save_type: the same decision), 2015-2026 (save_function appends an update of
    a globals dictionary that is then never saved).  Extends CoreModel, where this is the failure [Recursive]; what follows is Pickler.save_global (CPython
    Lib/pickle.py: the name is looked up, the object must be found there, the global is written and memoized), the effect on Pickler.save_reduce (an object
    that is in the memo by then: POP, GET), and loading, where the name is looked up and attributes are set on what is found.
    Simplified: save_global as one opcode as in CoreModel (no attribute of a class as parent); setting attributes of an object found by name succeeds and its
    effect is not recorded. *)
From Coq Require Import String List Bool Arith.
From Verif Require Import PyDict CoreModel.
Import ListNotations.
Local Open Scope string_scope.

Section Rec.
  Variable proto : nat.
  Variable H : oid -> option obj.
  (** "module.qualname" of an object, if looking it up gives the object *)
  Variable names : oid -> option string.

  (** Pickler.save_global; PicklingError if the object is not found [pickle.py save_global, called in dill/_dill.py:1930, 2071] *)
  Definition save_global (o : oid) : act :=
    match names o with
    | Some n => emit [CONST (AGlob (GUser n))] ;; memoize proto (KObj o)
    | None => fail Recursive
    end.

  Section Save.
    Variable sv : val -> act.

    (** save_type [dill/_dill.py:1856-1931] *)
    Definition save_type_r (o : oid) (mt name bases : val) (d : list (val * val)) : act := fun s =>
      if memb o (map fst (post s)) then save_global o s
      else save_type proto H sv o mt name bases d s.

    (** save_function: if one of the globals is on the stack, an update of the new globals dictionary is scheduled before the object is saved as a global,
        and that dictionary is not in the memo when the update is written: KeyError [dill/_dill.py:1961-2071] *)
    Definition save_function_r (o : oid) (code : val) (gl : globals) (name defaults closure : val) (st : state) : act := fun s =>
      if memb o (map fst (post s)) then
        match gl with
        | GRef _ => save_global o s
        | GCopy g _ =>
          match H g with
          | Some (ODict kvs) => match first_in (map snd kvs) (post s) with Some _ => Fail KeyErr s | None => save_global o s end
          | _ => Fail Dangling s
          end
        end
      else save_function proto H sv o code gl name defaults closure st s.

    (** [Pickler.save and dump, dill/_dill.py:376-429, with pickle.py] *)
    Definition save_obj_r (o : oid) (b : obj) : act :=
      match b with
      | OFun code gl name defaults closure st => save_function_r o code gl name defaults closure st
      | OType mt name bases d _ => save_type_r o mt name bases d
      | _ => save_obj proto H sv o b
      end.
    (** [Pickler.save and dump, dill/_dill.py:376-429, with pickle.py] *)
    Definition save_val_r (v : val) : act := fun s =>
      match v with
      | VA a i => save_atom proto a i s
      | VR o =>
        match memo_get (KObj o) s with
        | Some n => Ok ([GET n], s)
        | None => match H o with Some b => save_obj_r o b s | None => Fail Dangling s end
        end
      end.
  End Save.

  (** [Pickler.save and dump, dill/_dill.py:376-429, with pickle.py] *)
  Fixpoint save_r (fuel : nat) (v : val) : act := match fuel with 0 => fail OutOfFuel | S n => save_val_r (save_r n) v end.

  (** [Pickler.save and dump, dill/_dill.py:376-429, with pickle.py] *)
  Definition dumps_r (fuel : nat) (v : val) : res (list op) :=
    match save_r fuel v {| memo := []; post := [] |} with
    | Fail e s => Fail e s
    | Ok (l, _) => Ok ((if Nat.leb 2 proto then [PROTO proto] else []) ++ l ++ [STOP])%list
    end.
End Rec.

(** ** loading in a process where the names [defined] are defined *)
Section Load.
  Variable defined : string -> bool.
  (** [pickle.py _Unpickler.load, called in dill/_dill.py:452-460] *)
  Definition step_r (o : op) (m : vm) : option vm :=
    match o with
    | CONST (AGlob (GUser n)) => if defined n then step o m else None                       (* AttributeError *)
    | REDUCE =>
      match stk m with
      | args :: VA (AGlob GSetattr) _ :: s =>
        match tuple_items (heap m) args with
        | Some (VA (AGlob (GUser _)) _ :: _) => Some (push vNone (set_stk s m))             (* setattr of an object found by name *)
        | _ => step o m
        end
      | _ => step o m
      end
    | BUILD =>
      match stk m with
      | _ :: VA (AGlob (GUser n)) i :: s => Some (set_stk (VA (AGlob (GUser n)) i :: s) m)
      | _ => step o m
      end
    | _ => step o m
    end.
  (** [pickle.py _Unpickler.load, called in dill/_dill.py:452-460] *)
  Fixpoint load_r (ops : list op) (m : vm) : option (val * vm * list op) :=
    match ops with
    | [] => None
    | STOP :: rest => match stk m with v :: _ => Some (v, m, rest) | [] => None end
    | o :: rest => match step_r o m with Some m' => load_r rest m' | None => None end
    end.
  (** [pickle.py _Unpickler.load, called in dill/_dill.py:452-460] *)
  Definition loads_r (ops : list op) : option (val * vm * list op) := load_r ops {| stk := []; meta := []; mem := []; heap := [] |}.
End Load.
