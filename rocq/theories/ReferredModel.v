(** dill.detect.referrednested: the functions built from code nested in a function, found through the garbage collector. *)
From Coq Require Import String List Bool Arith.
From Verif Require Import PyDict.
Import ListNotations.
Local Open Scope string_scope.

(** an object's identity [not in /repo] *)
Definition oid := nat.
(** objects; [more]: what else the object refers to directly (globals, closure, defaults, locals, ...).  Code objects compare equal if they have
    the same [value] (code_richcompare).  Any other object has attributes and referents [the objects and attributes used in dill/detect.py:60-114; CPython Objects/codeobject.c, Objects/funcobject.c, Objects/frameobject.c] *)
Inductive obj :=
  | OFunc (co : oid) (more : list oid)
  | OMethod (func self : oid)
  | OFrame (co : oid) (more : list oid)
  | OTraceback (frame : oid) (more : list oid)
  | OCode (value : nat) (consts : list oid)
  | ONone
  | OOther (attrs : dict string oid) (refs : list oid).

Section Referred.
  Variable H : oid -> obj.

  (** code(func); None: it has none [dill/detect.py:73-83] *)
  Definition code (o : oid) : option oid :=
    let o := match H o with OMethod f _ => f | _ => o end in
    let o := match H o with OFunc c _ => c | _ => o end in
    let o := match H o with OTraceback f _ => f | _ => o end in
    let o := match H o with OFrame c _ => c | _ => o end in
    match H o with OCode _ _ => Some o | _ => None end.
  (** co == co' for code objects [CPython Objects/codeobject.c, code_richcompare] *)
  Definition same_code (c d : oid) : bool :=
    match H c, H d with OCode v _, OCode w _ => Nat.eqb v w | _, _ => false end.
  (** nested.add(co): an equal member stays [set.add; dill/detect.py:69] *)
  Definition add (c : oid) (s : list oid) : list oid := if existsb (same_code c) s then s else (s ++ [c])%list.
  (** nested |= set(...) [dill/detect.py:70] *)
  Definition union (s t : list oid) : list oid := fold_left (fun s c => add c s) t s.
  (** nestedcode(func, recurse); None: deeper than [fuel] (RecursionError) [dill/detect.py:60-71] *)
  Fixpoint nestedcode (fuel : nat) (recurse : bool) (func : oid) : option (list oid) :=
    match fuel with
    | 0 => None
    | S fuel =>
      match code func with
      | None => Some []
      | Some f =>
        let consts := match H f with OCode _ l => l | _ => [] end in
        fold_left (fun acc k =>
          match acc with
          | None => None
          | Some nested =>
            match H k with ONone => Some nested | _ =>
              match code k with
              | None => Some nested
              | Some co => if recurse then match nestedcode fuel true co with Some l => Some (union (add co nested) l) | None => None end
                           else Some (add co nested)
              end
            end
          end) consts (Some [])
      end
    end.
  (** getattr(o, name, None): a bound method passes on what it does not have to its function [CPython Objects/classobject.c, method_getattro; the attributes read in dill/detect.py:102-108] *)
  Definition own_attr (o : oid) (name : string) : option oid :=
    match H o with
    | OFunc c _ => if String.eqb name "__code__" then Some c else None
    | OFrame c _ => if String.eqb name "f_code" then Some c else None
    | OOther attrs _ => get name attrs
    | _ => None
    end.
  (** [the attributes read in dill/detect.py:102-108] *)
  Definition attr (o : oid) (name : string) : option oid :=
    match H o with
    | OMethod f _ => if String.eqb name "__func__" then Some f else own_attr f name
    | _ => own_attr o name
    end.
  (** what an object refers to directly, as the collector sees it; code objects are not tracked [gc.get_referrers, dill/detect.py:100; CPython Modules/gcmodule.c] *)
  Definition referents (o : oid) : list oid :=
    match H o with
    | OFunc c more => c :: more
    | OMethod f self => [f; self]
    | OFrame c more => c :: more
    | OTraceback f more => f :: more
    | OCode _ _ | ONone => []
    | OOther _ refs => refs
    end.
  (** gc.get_referrers(co); [live]: all objects [dill/detect.py:100] *)
  Definition get_referrers (live : list oid) (co : oid) : list oid := filter (fun x => memb co (referents x)) live.
  (** the four tests; the last needs a code object among the referrers: there is none [dill/detect.py:101-108] *)
  Definition refers (co x : oid) : bool :=
    let is_co v := match v with Some c => Nat.eqb c co | None => false end in
    if match attr x "__func__" with Some f => is_co (attr f "__code__") | None => false end then true
    else if is_co (attr x "__code__") then true
    else if is_co (attr x "f_code") then true
    else match H x with OCode _ _ => Nat.eqb x co | _ => false end.
  (** referrednested(func, recurse); functions, methods and frames are compared by identity, and so is anything else here [dill/detect.py:86-114] *)
  Definition referrednested (fuel : nat) (live : list oid) (recurse : bool) (func : oid) : option (list oid) :=
    match nestedcode fuel recurse func with
    | None => None
    | Some l => Some (nodup Nat.eq_dec (flat_map (fun co => filter (refers co) (get_referrers live co)) l))
    end.
End Referred.
