(** Specification for C01-C07: well-formed source heaps and isomorphism of object graphs. *)
From Coq Require Import String List Bool Arith ZArith.
From Verif Require Import PyDict CoreModel.
Import ListNotations.
Local Open Scope string_scope.
Local Open Scope list_scope.

(** ** well-formed source objects *)

(** the call failed with [e] (whatever state it left the Pickler in) *)
Definition failed {A} (r : res A) (e : exn) : Prop := exists s, r = Fail e s.

(** no two keys of a dictionary are equal *)
Fixpoint keys_distinct (d : list (val * val)) : Prop :=
  match d with
  | [] => True
  | (k, _) :: d' => (forall k' v', In (k', v') d' -> keyeq k k' = false) /\ keys_distinct d'
  end.
(** no two elements of a set are equal *)
Fixpoint elems_distinct (l : list val) : Prop :=
  match l with
  | [] => True
  | v :: l' => (forall v', In v' l' -> keyeq v v' = false) /\ elems_distinct l'
  end.
Definition state_wf (H : oid -> option obj) (st : state) : Prop :=
  match st with
  | SNone => True
  | SVal v => match v with
              | VR o => match H o with Some (ODict _) | Some (OTup _) => False | _ => True end
              | VA a _ => a <> AEmptyTuple
              end
  | SAttrs d sl => keys_distinct d /\ match sl with Some s => keys_distinct s | None => True end
  end.
Definition obj_wf (H : oid -> option obj) (b : obj) : Prop :=
  match b with
  | OTup vs => vs <> []
  | OList _ => True
  (* the sentinel _CELL_EMPTY stands for an empty cell *)
  | OCell c => forall i, c <> Some (VA ACellEmpty i)
  | ODict kvs => keys_distinct kvs
  | OSet _ vs => elems_distinct vs
  (* the constructor is a user's class or callable, not one of dill's helpers *)
  | ORed _ c _ _ di st => (match c with VR _ | VA (AGlob (GUser _)) _ => True | _ => False end) /\ keys_distinct di /\ state_wf H st
  | OFun _ gl _ _ _ st =>
      (match gl with GRef _ => True | GCopy g _ => exists kvs, H g = Some (ODict kvs) end) /\
      (* dill always stores a pair (__dict__, other attributes) *)
      (match st with SAttrs d (Some s) => keys_distinct d /\ keys_distinct s | _ => False end)
  | OType _ _ _ d _ => keys_distinct d
  end.
Definition flat (d : list (val * val)) : list val := flat_map (fun p => [fst p; snd p]) d.
Definition state_vals (st : state) : list val :=
  match st with
  | SNone => []
  | SVal v => [v]
  | SAttrs d None => flat d
  | SAttrs d (Some s) => flat d ++ flat s
  end.
(** everything an object refers to *)
Definition refs (b : obj) : list val :=
  match b with
  | OTup vs => vs
  | OList vs => vs
  | ODict d => flat d
  | OSet _ vs => vs
  | ORed _ c args li di st => c :: args ++ li ++ flat di ++ state_vals st
  | OFun co gl n de cl st =>
      [co; n; de; cl] ++ (match gl with GRef _ => [] | GCopy g m => [VR g; m] end) ++ state_vals st
  | OType mt n bs d q => [mt; n; bs; q] ++ flat d
  | OCell (Some v) => [v]
  | OCell None => []
  end.
(** [reach H v o]: following references from [v] one gets to [o] *)
Inductive reach (H : oid -> option obj) : val -> oid -> Prop :=
  | r_here o : reach H (VR o) o
  | r_step o b v o' : H o = Some b -> In v (refs b) -> reach H v o' -> reach H (VR o) o'.
(** an instance with list items must not be reachable from its class or its constructor's arguments: the items would be written twice *)
Definition items_once (H : oid -> option obj) (o : oid) (b : obj) : Prop :=
  match b with
  | ORed _ c args (_ :: _) _ _ => forall v, In v (c :: args) -> ~ reach H v o
  | _ => True
  end.
Definition heap_wf (H : oid -> option obj) : Prop := forall o b, H o = Some b -> obj_wf H b /\ items_once H o b.

(** ** isomorphism *)
Section Rel.
  (** which source object corresponds to which loaded object *)
  Variable R : oid -> nat -> Prop.

  Definition val_rel (v v' : val) : Prop :=
    match v, v' with
    | VA a _, VA b j => a = b /\ j = 0
    | VR o, VR a => R o a
    | _, _ => False
    end.
  Definition item_rel (p p' : val * val) : Prop := val_rel (fst p) (fst p') /\ val_rel (snd p) (snd p').
  Definition state_rel (s s' : state) : Prop :=
    match s, s' with
    | SNone, SNone => True
    | SVal v, SVal v' => val_rel v v'
    | SAttrs d None, SAttrs d' None => Forall2 item_rel d d'
    | SAttrs d (Some s), SAttrs d' (Some s') => Forall2 item_rel d d' /\ Forall2 item_rel s s'
    | _, _ => False
    end.

  (** the copy of a globals dictionary: {'__name__': m, '__builtins__': ...} updated with the items *)
  Definition globals_copy (m : val) (kvs : list (val * val)) : list (val * val) :=
    setitems [(VA (AStr "__name__") 0, m); (VA (AStr "__builtins__") 0, VA (AModDict "builtins") 0)] kvs.

  Variable H : oid -> option obj.
  Variable G : nat -> Prop.            (* which loaded dictionary is the function's globals *)
  Variable hp : nat -> obj -> Prop.    (* the loaded heap *)

  Definition globals_rel (gl gl' : globals) : Prop :=
    match gl, gl' with
    | GRef a, GRef b => a = b
    | GCopy g m, GCopy g' m' =>
      val_rel m m' /\ G g' /\
      exists kvs d, H g = Some (ODict kvs) /\ hp g' (ODict d) /\ Forall2 item_rel (globals_copy m kvs) d
    | _, _ => False
    end.

  Definition obj_rel (b b' : obj) : Prop :=
    match b, b' with
    | OTup vs, OTup vs' => Forall2 val_rel vs vs'
    | OList vs, OList vs' => Forall2 val_rel vs vs'
    | ODict d, ODict d' => Forall2 item_rel d d'
    | OSet f vs, OSet f' vs' => f = f' /\ Forall2 val_rel vs vs'
    | ORed nb c args li di st, ORed nb' c' args' li' di' st' =>
        nb = nb' /\ val_rel c c' /\ Forall2 val_rel args args' /\ Forall2 val_rel li li' /\ Forall2 item_rel di di' /\ state_rel st st'
    | OFun co gl n de cl st, OFun co' gl' n' de' cl' st' =>
        val_rel co co' /\ globals_rel gl gl' /\ val_rel n n' /\ val_rel de de' /\ val_rel cl cl' /\ state_rel st st'
    | OType mt n bs d q, OType mt' n' bs' d' q' =>
        val_rel mt mt' /\ val_rel n n' /\ val_rel bs bs' /\ Forall2 item_rel d d' /\ val_rel q q'
    | OCell (Some v), OCell (Some v') => val_rel v v'
    | OCell None, OCell None => True
    | _, _ => False
    end.
End Rel.

(** the graph reachable from [v'] in the loaded heap [h] is isomorphic to the one reachable from [v] in
    [H]: there is a one-to-one correspondence R relating the roots, under which related objects have
    the same shape and related components; the globals of functions saved with a copy of their globals
    are new dictionaries, one per function *)
Definition iso (H : oid -> option obj) (v : val) (h : list obj) (v' : val) : Prop :=
  exists (R G : oid -> nat -> Prop),
    val_rel R v v' /\
    (forall o a a', R o a -> R o a' -> a = a') /\
    (forall o o' a, R o a -> R o' a -> o = o') /\
    (forall f g g', G f g -> G f g' -> g = g') /\
    (forall f f' g, G f g -> G f' g -> f = f') /\
    (forall f g o, G f g -> ~ R o g) /\
    (forall o a, R o a -> exists b b', H o = Some b /\ nth_error h a = Some b' /\
                                       obj_rel R H (G o) (fun a b => nth_error h a = Some b) b b').

(** ** following references *)

(** one step from an object to one of its components *)
Inductive sel :=
  | SItem (n : nat)                  (* element of a tuple, list or set *)
  | SKey (n : nat) | SValue (n : nat)(* n-th key and value of a dictionary *)
  | SCtor | SArg (n : nat) | SState  (* reduce value *)
  | SAttrKey (n : nat) | SAttr (n : nat) | SSlotKey (n : nat) | SSlot (n : nat)
  | SCode | SName | SDefaults | SClosure
  | SGlobal (k : atom)               (* function globals, by name *)
  | SMeta | SBases | SClsKey (n : nat) | SClsVal (n : nat) | SQual
  | SContents.                       (* of a closure cell *)

Definition opt_map {A B} (f : A -> B) (o : option A) : option B := match o with Some x => Some (f x) | None => None end.
Definition comp (hp : nat -> option obj) (b : obj) (s : sel) : option val :=
  match b, s with
  | OTup vs, SItem n => nth_error vs n
  | OList vs, SItem n => nth_error vs n
  | OSet _ vs, SItem n => nth_error vs n
  | ODict kvs, SKey n => opt_map fst (nth_error kvs n)
  | ODict kvs, SValue n => opt_map snd (nth_error kvs n)
  | ORed _ c _ _ _ _, SCtor => Some c
  | ORed _ _ args _ _ _, SArg n => nth_error args n
  | ORed _ _ _ li _ _, SItem n => nth_error li n
  | ORed _ _ _ _ di _, SKey n => opt_map fst (nth_error di n)
  | ORed _ _ _ _ di _, SValue n => opt_map snd (nth_error di n)
  | ORed _ _ _ _ _ (SVal v), SState => Some v
  | ORed _ _ _ _ _ (SAttrs d _), SAttrKey n => opt_map fst (nth_error d n)
  | ORed _ _ _ _ _ (SAttrs d _), SAttr n => opt_map snd (nth_error d n)
  | ORed _ _ _ _ _ (SAttrs _ (Some d)), SSlotKey n => opt_map fst (nth_error d n)
  | ORed _ _ _ _ _ (SAttrs _ (Some d)), SSlot n => opt_map snd (nth_error d n)
  | OFun c _ _ _ _ _, SCode => Some c
  | OFun _ _ n _ _ _, SName => Some n
  | OFun _ _ _ d _ _, SDefaults => Some d
  | OFun _ _ _ _ c _, SClosure => Some c
  | OFun _ (GCopy g _) _ _ _ _, SGlobal k =>
      match hp g with Some (ODict kvs) => getitem kvs (VA k 0) | _ => None end
  | OFun _ _ _ _ _ (SAttrs d _), SAttrKey n => opt_map fst (nth_error d n)
  | OFun _ _ _ _ _ (SAttrs d _), SAttr n => opt_map snd (nth_error d n)
  | OFun _ _ _ _ _ (SAttrs _ (Some d)), SSlotKey n => opt_map fst (nth_error d n)
  | OFun _ _ _ _ _ (SAttrs _ (Some d)), SSlot n => opt_map snd (nth_error d n)
  | OType m _ _ _ _, SMeta => Some m
  | OType _ n _ _ _, SName => Some n
  | OType _ _ b _ _, SBases => Some b
  | OType _ _ _ d _, SClsKey n => opt_map fst (nth_error d n)
  | OType _ _ _ d _, SClsVal n => opt_map snd (nth_error d n)
  | OType _ _ _ _ q, SQual => Some q
  | OCell c, SContents => c
  | _, _ => None
  end.
(** follow a path of references from a value *)
Fixpoint follow (hp : nat -> option obj) (v : val) (p : list sel) : option val :=
  match p with
  | [] => Some v
  | s :: p' => match v with
               | VR o => match hp o with
                         | Some b => match comp hp b s with Some w => follow hp w p' | None => None end
                         | None => None end
               | VA _ _ => None
               end
  end.

(** ** two loaded graphs are the same up to a one-to-one renaming of addresses *)
Section Same.
  Variable R : nat -> nat -> Prop.
  Definition obj_same (b b' : obj) : Prop :=
    match b, b' with
    | OTup vs, OTup vs' => Forall2 (val_rel R) vs vs'
    | OList vs, OList vs' => Forall2 (val_rel R) vs vs'
    | ODict d, ODict d' => Forall2 (item_rel R) d d'
    | OSet f vs, OSet f' vs' => f = f' /\ Forall2 (val_rel R) vs vs'
    | ORed nb c args li di st, ORed nb' c' args' li' di' st' =>
        nb = nb' /\ val_rel R c c' /\ Forall2 (val_rel R) args args' /\ Forall2 (val_rel R) li li' /\ Forall2 (item_rel R) di di' /\ state_rel R st st'
    | OFun co gl n de cl st, OFun co' gl' n' de' cl' st' =>
        val_rel R co co' /\
        (match gl, gl' with
         | GRef a, GRef b => a = b
         | GCopy g m, GCopy g' m' => R g g' /\ val_rel R m m'
         | _, _ => False
         end) /\
        val_rel R n n' /\ val_rel R de de' /\ val_rel R cl cl' /\ state_rel R st st'
    | OType mt n bs d q, OType mt' n' bs' d' q' =>
        val_rel R mt mt' /\ val_rel R n n' /\ val_rel R bs bs' /\ Forall2 (item_rel R) d d' /\ val_rel R q q'
    | OCell (Some v), OCell (Some v') => val_rel R v v'
    | OCell None, OCell None => True
    | _, _ => False
    end.
End Same.
Definition same_graph (h1 : list obj) (v1 : val) (h2 : list obj) (v2 : val) : Prop :=
  exists R : nat -> nat -> Prop,
    val_rel R v1 v2 /\
    (forall a b b', R a b -> R a b' -> b = b') /\ (forall a a' b, R a b -> R a' b -> a = a') /\
    (forall a b, R a b -> exists x y, nth_error h1 a = Some x /\ nth_error h2 b = Some y /\ obj_same R x y).

(** ** C07: which objects an object needs before it can be built *)
(** what must exist before the object itself can be created: elements of a tuple or of a set, constructor and
    arguments, code, name, defaults and closure of a function, metaclass, bases and dictionary of a
    class. Lists, dictionaries, attributes, globals and cell contents are filled in afterwards. *)
Definition parts (b : obj) : list val :=
  match b with
  | OTup vs => vs
  | OSet _ vs => vs
  | ORed _ c args _ _ _ => c :: args
  | OFun co gl n de cl _ => [co; n; de; cl] ++ (match gl with GRef _ => [] | GCopy _ m => [m] end)
  | OType mt n bs d _ => [mt; n; bs] ++ flat d
  | _ => []
  end.
Definition needs (H : oid -> option obj) (o o' : oid) : Prop := exists b, H o = Some b /\ In (VR o') (parts b).
(** outside of any function or class being saved, a cell is created with its contents *)
Definition needs_top (H : oid -> option obj) (o o' : oid) : Prop :=
  H o = Some (OCell (Some (VR o'))) \/
  (needs H o o' /\ match H o with Some (OFun _ _ _ _ _ _) | Some (OType _ _ _ _ _) => False | _ => True end).
Inductive trans (E : oid -> oid -> Prop) : oid -> oid -> Prop :=
  | t_step x y : E x y -> trans E x y
  | t_trans x y z : trans E x y -> E y z -> trans E x z.
(** no object is needed for its own construction *)
Definition acyclic (E : oid -> oid -> Prop) : Prop := forall x, ~ trans E x x.
(** [D] contains everything reachable from [v] *)
Definition vD (D : list oid) (v : val) : Prop := match v with VR o => In o D | VA _ _ => True end.
Definition closed (H : oid -> option obj) (D : list oid) : Prop :=
  forall o b v, In o D -> H o = Some b -> In v (refs b) -> vD D v.
(** the recursion depth sufficient for n reachable objects *)
Definition depth_bound (n : nat) : nat := (n + 1) * (2 * n + 2) + 1.

(** ** C07: objects met while a function or class is being created *)
Definition glob_vals (H : oid -> option obj) (g : oid) : list (val * val) := match H g with Some (ODict kvs) => kvs | _ => [] end.
(** the references of an object that are followed at once while [e] is being created: all, except the contents of cells, and the globals of
    functions whose globals have [e] itself as a value: those are filled in when [e] is there *)
Definition at_once (H : oid -> option obj) (e : oid) (b : obj) : list val :=
  match b with
  | OCell _ => []
  | OFun co gl n de cl st =>
      [co; n; de; cl] ++ state_vals st ++
      match gl with
      | GRef _ => []
      | GCopy g m => m :: (if in_dec val_eq_dec (VR e) (map snd (glob_vals H g)) then [] else flat (glob_vals H g))
      end
  | _ => refs b
  end.
(** [during H e o]: [o] is met while [e] is being created *)
Inductive during (H : oid -> option obj) (e : oid) : oid -> Prop :=
  | du_part b o : H e = Some b -> In (VR o) (parts b) -> during H e o
  | du_step o b o' : during H e o -> H o = Some b -> In (VR o') (at_once H e b) -> during H e o'.
(** no function or class is met while it is itself being created *)
Definition definable (H : oid -> option obj) : Prop :=
  forall e, match H e with Some (OFun _ _ _ _ _ _) | Some (OType _ _ _ _ _) => ~ during H e e | _ => True end.
