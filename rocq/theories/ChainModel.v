(** dill/pointers.py: parent (17-34), parents (37-51), children (54-74), find_chain (83-115).
    Objects are numbers; [none] is the object None, which [parent[id(obj)] = None] confuses with "no parent".
    Simplified: the function's own queue, dictionaries, frames and lists of referrers, which it puts into [ignore]
    itself, are left out of the graph, and gc.get_referents/get_referrers are functions (nothing runs meanwhile). *)
From Coq Require Import List Bool Arith ZArith.
From Verif Require Import PyDict.
Import ListNotations.

Notation oid := nat (only parsing).
(** the object None: [dill/pointers.py:86, 100-101] *)
Definition none : oid := 0.

(** the for loop over referrers, lines 108-114: [depth], [parent] and [queue] *)
Record bfs := BFS { queue : list oid; depth : dict oid Z; par : dict oid oid }.
(** [dill/pointers.py:108-114] *)
Definition visit (ign : oid -> bool) (target : oid) (td : Z) (s : bfs) (source : oid) : bfs :=
  if ign source then s
  else if has source (depth s) then s
  else BFS (queue s ++ [source]) (set source (td + 1)%Z (depth s)) (set source target (par s)).

(** the while loop that rebuilds the chain, lines 100-103; [par] binds an object to its parent; no binding is the
    None of the start, and a parent that is the object None ends the chain as well *)
Fixpoint unwind (fuel : nat) (p : dict oid oid) (target : oid) : option (list oid) :=
  match fuel with
  | 0 => None
  | S fuel =>
    match get target p with
    | None => Some []
    | Some t => if Nat.eqb t none then Some [] else match unwind fuel p t with Some c => Some (t :: c) | None => None end
    end
  end.

(** the main loop, lines 96-115; None: out of fuel *)
Fixpoint search (fuel : nat) (obj : oid) (pred : oid -> bool) (edges : oid -> list oid) (max_depth : Z) (ign : oid -> bool) (s : bfs) : option (list oid) :=
  match fuel with
  | 0 => None
  | S fuel' =>
    match queue s with
    | [] => Some [obj]
    | target :: q =>
      let s := BFS q (depth s) (par s) in
      if pred target then match unwind (S (length (par s))) (par s) target with Some c => Some (target :: c) | None => None end
      else
        let td := match get target (depth s) with Some d => d | None => 0%Z end in
        if (td <? max_depth)%Z then search fuel' obj pred edges max_depth ign (fold_left (visit ign target td) (edges target) s)
        else search fuel' obj pred edges max_depth ign s
    end
  end.
(** [dill/pointers.py:83-115] *)
Definition find_chain (fuel : nat) (obj : oid) (pred : oid -> bool) (edges : oid -> list oid) (max_depth : Z) (ign : oid -> bool) : option (list oid) :=
  search fuel obj pred edges max_depth ign (BFS [obj] [(obj, 0%Z)] []).

(** the argument ignore: an object without __len__, or one with, which is iterated [dill/pointers.py:47, 70] *)
Inductive ignore_arg := IgnOne (o : oid) | IgnSized (self : oid) (tuple : bool) (items : list oid).
(** [dill/pointers.py:47-48, 70-71] *)
Definition ignored_ids (a : ignore_arg) : list oid := match a with IgnOne o => [o] | IgnSized _ _ l => l end.

(** parents: the ids to ignore are computed and not used [dill/pointers.py:37-51] *)
Definition parents (fuel : nat) (refs : oid -> list oid) (obj : oid) (pred : oid -> bool) (d : Z) (ignore : ignore_arg) : option (list oid) :=
  option_map (@rev oid) (find_chain fuel obj pred refs d (fun _ => false)).
(** [dill/pointers.py:17-34] *)
Definition parent (fuel : nat) (refs : oid -> list oid) (obj : oid) (pred : oid -> bool) (ignore : ignore_arg) : option (option oid) :=
  match parents fuel refs obj pred 1 ignore with
  | Some chain => let p := last chain obj in Some (if Nat.eqb p obj then None else Some p)
  | None => None
  end.
(** [dill/pointers.py:54-74] *)
Definition children (fuel : nat) (referrers : oid -> list oid) (obj : oid) (pred : oid -> bool) (d : Z) (ignore : ignore_arg) : option (list oid) :=
  find_chain fuel obj pred referrers d (fun o => if in_dec Nat.eq_dec o (ignored_ids ignore) then true else false).
