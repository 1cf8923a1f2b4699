(** dill/__diff.py: get_attrs (37-44), get_seq (47-78), memorise (81-120), whats_changed (129-204), has_changed (207-209).
    An object is what these functions see of it -- its __dict__ and its items -- and a rest they do not see ([hidden]:
    slots, closures, the state of C types).  Ids are the objects themselves: memorised objects are kept alive by id_to_obj.
    Simplified: release_gone and the import hook are in [HookModel]; the items of a container are the same objects each time
    it is iterated, in the same order if it has not changed. *)
From Coq Require Import String List Bool Arith.
From Verif Require Import PyDict.
Import ListNotations.

Notation oid := nat (only parsing).
(** [the results of get_seq, dill/__diff.py:47-78] *)
Inductive seqv := SList (items : list oid) | SMap (items : dict oid oid).
(** get_attrs(obj) and get_seq(obj), as ids [dill/__diff.py:37-78] *)
Record node := Node { attrs : option (dict string oid); seq : option seqv; hidden : nat }.

(** [the calls of mem, dill/__diff.py:109-120] *)
Definition seq_children (s : option seqv) : list oid :=
  match s with None => [] | Some (SList l) => l | Some (SMap d) => flat_map (fun p => [fst p; snd p]) d end.
(** [the calls of mem, dill/__diff.py:109-120] *)
Definition attr_children (a : option (dict string oid)) : list oid := match a with None => [] | Some d => map snd d end.
(** [the calls of mem, dill/__diff.py:109-120] *)
Definition children (n : node) : list oid := attr_children (attrs n) ++ seq_children (seq n).

(** [the list comprehensions of dill/__diff.py:111-119] *)
Fixpoint fold_opt {A B} (f : A -> B -> option A) (l : list B) (a : A) : option A :=
  match l with [] => Some a | b :: l => match f a b with Some a' => fold_opt f l a' | None => None end end.

(** memorise(obj, force); [dont] is dont_memo; None: recursion deeper than [fuel] [dill/__diff.py:81-120] *)
Fixpoint memorise (fuel : nat) (H : oid -> node) (dont : oid -> bool) (force : bool) (m : dict oid node) (obj : oid) : option (dict oid node) :=
  match fuel with
  | O => None
  | S fuel =>
    if (has obj m && negb force) || dont obj then Some m
    else fold_opt (memorise fuel H dont false) (children (H obj)) (set obj (H obj) m)
  end.

(** seen: attribute names found changed, and whether the items were [the values of seen, dill/__diff.py:154, 164, 201] *)
Definition mark := (list string * bool)%type.
(** [any(seen[obj_id]), dill/__diff.py:149] *)
Definition truthy (k : mark) : bool := match k with ([], b) => b | _ => true end.
(** the result of a call with simple=True, and the cache [seen] [dill/__diff.py:129-204] *)
Definition answer := (bool * dict oid mark)%type.

(** lines 177-179: for key, o in attrs.items() *)
Fixpoint attr_loop (ch : oid -> dict oid mark -> option answer) (old : dict string oid) (l : dict string oid) (changed : list string) (seen : dict oid mark)
  : option (list string * dict oid mark) :=
  match l with
  | [] => Some (changed, seen)
  | (key, o) :: l =>
    match get key old with
    | Some o' => if Nat.eqb o o' then
                   match ch o seen with
                   | None => None
                   | Some (b, seen) => attr_loop ch old l (if b then changed ++ [key] else changed) seen
                   end
                 else attr_loop ch old l (changed ++ [key]) seen
    | None => attr_loop ch old l (changed ++ [key]) seen
    end
  end.
(** lines 190-195 *)
Fixpoint map_loop (ch : oid -> dict oid mark -> option answer) (old : dict oid oid) (l : dict oid oid) (seen : dict oid mark) : option answer :=
  match l with
  | [] => Some (false, seen)
  | (key, item) :: l =>
    match get key old with
    | Some o' => if Nat.eqb item o' then
                   match ch key seen with
                   | None => None
                   | Some (true, seen) => Some (true, seen)
                   | Some (false, seen) => match ch item seen with
                                           | None => None
                                           | Some (true, seen) => Some (true, seen)
                                           | Some (false, seen) => map_loop ch old l seen
                                           end
                   end
                 else Some (true, seen)
    | None => Some (true, seen)
    end
  end.
(** lines 197-200: for i, j in zip(items, obj_seq) *)
Fixpoint list_loop (ch : oid -> dict oid mark -> option answer) (l : list (oid * oid)) (seen : dict oid mark) : option answer :=
  match l with
  | [] => Some (false, seen)
  | (i, j) :: l => if Nat.eqb i j then
                     match ch i seen with
                     | None => None
                     | Some (true, seen) => Some (true, seen)
                     | Some (false, seen) => list_loop ch l seen
                     end
                   else Some (true, seen)
  end.
(** lines 182-200; an object whose kind of items changed is left out (the code would raise) *)
Definition seq_diff (ch : oid -> dict oid mark -> option answer) (old now : option seqv) (seen : dict oid mark) : option answer :=
  match now, old with
  | Some (SList l), Some (SList l0) => if Nat.eqb (length l) (length l0) then list_loop ch (combine l l0) seen else Some (true, seen)
  | Some (SMap d), Some (SMap d0) => if Nat.eqb (length d) (length d0) then map_loop ch d0 d seen else Some (true, seen)
  | _, _ => Some (false, seen)
  end.
(** [dill/__diff.py:170-179] *)
Definition attr_diff (ch : oid -> dict oid mark -> option answer) (old now : option (dict string oid)) (seen : dict oid mark) : option (list string * dict oid mark) :=
  match now, old with
  | Some d, Some d0 => attr_loop ch d0 d (filter (fun k => negb (has k d)) (keys d0)) seen
  | _, _ => Some ([], seen)
  end.

(** whats_changed(obj, seen, simple=True, first); None: recursion deeper than [fuel] [dill/__diff.py:129-204] *)
Fixpoint whats_changed (fuel : nat) (H : oid -> node) (dont : oid -> bool) (m : dict oid node) (obj : oid) (seen : dict oid mark) : option answer :=
  match fuel with
  | O => None
  | S fuel =>
    match get obj seen with
    | Some k => Some (truthy k, seen)
    | None =>
      if dont obj then Some (false, set obj ([], false) seen)
      else match get obj m with
      | None => Some (true, seen)
      | Some old =>
        let ch := whats_changed fuel H dont m in
        match attr_diff ch (attrs old) (attrs (H obj)) (set obj ([], false) seen) with
        | None => None
        | Some (changed, seen) =>
          match seq_diff ch (seq old) (seq (H obj)) seen with
          | None => None
          | Some (sd, seen) => Some (truthy (changed, sd), set obj (changed, sd) seen)
          end
        end
      end
    end
  end.
(** [dill/__diff.py:207-209] *)
Definition has_changed (fuel : nat) (H : oid -> node) (dont : oid -> bool) (m : dict oid node) (obj : oid) : option bool :=
  option_map fst (whats_changed fuel H dont m obj []).
