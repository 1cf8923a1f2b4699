(** What unpickling hashes: the keys and elements that each opcode puts into a dictionary or set.
    Models the calls of dict.__setitem__, set.update, set() and frozenset() made by CPython's Unpickler
    (Lib/pickle.py load_dict 1473-1477, load_setitem 1686-1691, load_setitems 1694-1698, load_additems
    1701-1709, load_frozenset 1463-1465, load_reduce 1586-1590) on the opcodes written for dill's
    objects (CoreModel).
    Simplification: attribute names set by BUILD (interned strings) are left out. *)
From Coq Require Import String List Bool Arith ZArith.
From Verif Require Import PyDict CoreModel.
Import ListNotations.
Local Open Scope list_scope.

(** [hashed o m]: the values that opcode [o], run on the unpickler state [m], hashes to insert them into a
    dictionary or set, each with the address of that container; a container made by the opcode itself
    gets the next free address [CPython Lib/pickle.py:1463-1477, 1586-1590, 1686-1709] *)
Definition hashed (o : op) (m : vm) : list (val * nat) :=
  match o with
  | SETITEM => match stk m with _ :: k :: VR a :: _ => [(k, a)] | _ => [] end
  | SETITEMS =>
    match meta m, pairs (rev (stk m)) with
    | (VR a :: _) :: _, Some kvs => map (fun p => (fst p, a)) kvs
    | _, _ => []
    end
  | DICT =>
    match pairs (rev (stk m)) with
    | Some kvs => map (fun p => (fst p, length (heap m))) kvs
    | None => []
    end
  | ADDITEMS =>
    match meta m with
    | (VR a :: _) :: _ => map (fun v => (v, a)) (rev (stk m))
    | _ => []
    end
  | FROZENSET => map (fun v => (v, length (heap m))) (rev (stk m))
  | REDUCE =>
    match stk m with
    | args :: VA (AGlob GSet) _ :: _ | args :: VA (AGlob GFrozenset) _ :: _ =>
      match tuple_items (heap m) args with
      | Some [VR l] => match nth_error (heap m) l with Some (OList vs) => map (fun v => (v, length (heap m))) vs | _ => [] end
      | _ => []
      end
    | _ => []
    end
  | _ => []
  end.
