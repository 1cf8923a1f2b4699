(** dill/_dill.py on top of the pickling core (CoreModel): what is saved for weak references (save_weakref 1670-1677,
    _create_weakref 964-969), weak proxies (save_weakproxy 1679-1687, _create_weakproxy 971-977), dictionary views
    (save_dict_view 1270-1323) and functions with an lru_cache (save_lru_cache 1485-1500), as objects with a reduce value,
    and what the loaded objects are.
    Simplified: the target of a proxy is given (_proxy_helper reads its address off a string: ProxyModel);
    an object is dead once nothing strongly reachable from the loaded object refers to it (in CPython, when its reference count
    falls to zero or the collector has run). *)
From Coq Require Import String List Bool Arith ZArith.
From Verif Require Import PyDict CoreModel CoreSpec.
Import ListNotations.
Local Open Scope string_scope.

(** [the program's own objects, environment of dill/_dill.py:1670-1687] *)
Definition user (n : string) : val := VA (AGlob (GUser n)) 0.
(** save_weakref: refobj = obj() is None if the reference is dead [dill/_dill.py:1670-1677] *)
Definition weakref_obj (target : val) : obj := ORed false (user "_create_weakref") [target] [] [] SNone.
(** [dill/_dill.py:1679-1687] *)
Definition weakproxy_obj (target : val) (callable : bool) : obj :=
  ORed false (user "_create_weakproxy") [target; VA (AScalar (if callable then 1 else 0)%Z) 0] [] [] SNone.
(** the objects made by these calls do not keep their argument alive [weakref objects made by dill/_dill.py:964-977] *)
Definition weak (b : obj) : bool :=
  match b with
  | ORed _ (VA (AGlob (GUser n)) _) _ _ _ _ => String.eqb n "_create_weakref" || String.eqb n "_create_weakproxy"
  | _ => false
  end.

(** [CPython's reference counting, environment of dill/_dill.py:964-977] *)
Definition flat (d : list (val * val)) : list val := flat_map (fun p => [fst p; snd p]) d.
(** [CPython's reference counting, environment of dill/_dill.py:964-977] *)
Definition state_refs (st : state) : list val :=
  match st with SNone => [] | SVal v => [v] | SAttrs d None => flat d | SAttrs d (Some s) => (flat d ++ flat s)%list end.
(** the objects an object holds strong references to [CPython's reference counting, environment of dill/_dill.py:964-977] *)
Definition strong (hp : nat -> option obj) (b : obj) : list val :=
  match b with
  | OTup vs | OList vs | OSet _ vs => vs
  | ODict d => flat d
  | ORed _ c args li di st =>
      if weak b then (li ++ flat di ++ state_refs st)%list else (c :: args ++ li ++ flat di ++ state_refs st)%list
  | OFun co gl n de cl st =>
    ([co; n; de; cl] ++ state_refs st ++
     match gl with GRef _ => [] | GCopy g m => m :: match hp g with Some (ODict d) => flat d | _ => [] end end)%list
  | OType mt n bs d q => ([mt; n; bs; q] ++ flat d)%list
  | OCell c => match c with Some v => [v] | None => [] end
  end.
(** [CPython's reference counting, environment of dill/_dill.py:964-977] *)
Inductive strong_reach (hp : nat -> option obj) (root : val) : nat -> Prop :=
| sr_root o : root = VR o -> strong_reach hp root o
| sr_step o b o' : strong_reach hp root o -> hp o = Some b -> In (VR o') (strong hp b) -> strong_reach hp root o'.

(** a view: which of keys, values and items of dictionary [d] [dill/_dill.py:1271-1283] *)
Inductive view := VKeys | VValues | VItems.
(** [dill/_dill.py:1271-1283] *)
Definition view_fun (k : view) : string := match k with VKeys => "dict.keys" | VValues => "dict.values" | VItems => "dict.items" end.
(** Python 3.10 and later: the dictionary itself is saved [dill/_dill.py:1271-1283] *)
Definition view_obj (k : view) (d : nat) : obj := ORed false (user (view_fun k)) [VR d] [] [] SNone.
(** [dill/_dill.py:1271-1283] *)
Definition shown (k : view) (d : list (val * val)) : list (list val) :=
  match k with VKeys => map (fun p => [fst p]) d | VValues => map (fun p => [snd p]) d | VItems => map (fun p => [fst p; snd p]) d end.

(** what the calls in the pickle make when it is loaded: _create_weakref 964-969, _create_weakproxy 971-977 (bool(callable) decides between
    weakref.proxy of a callable and of another object), dict.keys, dict.values, dict.items *)
Inductive made := MRef (target : val) | MProxy (callable : bool) (target : val) | MView (k : view) (d : val) | MOther.
(** [dill/_dill.py:964-977, 1271-1323, 1483-1500] *)
Definition made_by (b : obj) : made :=
  match b with
  | ORed false (VA (AGlob (GUser f)) _) [x] [] [] SNone =>
    if String.eqb f "_create_weakref" then MRef x
    else if String.eqb f "dict.keys" then MView VKeys x
    else if String.eqb f "dict.values" then MView VValues x
    else if String.eqb f "dict.items" then MView VItems x
    else MOther
  | ORed false (VA (AGlob (GUser f)) _) [x; VA (AScalar z) _] [] [] SNone =>
    if String.eqb f "_create_weakproxy" then MProxy (negb (z =? 0)%Z) x else MOther
  | _ => MOther
  end.

(** save_lru_cache's own copy of the defaults, 1495: args == (128, False); cache_parameters(): maxsize None or an int [dill/_dill.py:1483-1500] *)
Definition lru_default : val * val := (VA (AScalar 128) 0, VA (AScalar 0) 0).
(** [dill/_dill.py:1483-1500] *)
Definition same_const (a b : val) : bool := match a, b with VA x _, VA y _ => if atom_eq_dec x y then true else false | _, _ => false end.
(** Python 3.9 and later: the reduce value, and the object for the shim Reduce(lru_cache, args), if any, at address [r] [dill/_dill.py:1483-1500] *)
Definition lru_saved (maxsize typed : val) (r : nat) (fn : val) : obj * option obj :=
  if same_const maxsize (fst lru_default) && same_const typed (snd lru_default)
  then (ORed false (user "functools.lru_cache") [fn] [] [] SNone, None)
  else (ORed false (VR r) [fn] [] [] SNone, Some (ORed false (user "functools.lru_cache") [maxsize; typed] [] [] SNone)).
(** Python 3.8: cache_info() has no typed; args = (maxsize,), which never equals the pair of defaults [dill/_dill.py:1483-1500] *)
Definition lru_saved38 (maxsize : val) (r : nat) (fn : val) : obj * option obj :=
  (ORed false (VR r) [fn] [] [] SNone, Some (ORed false (user "functools.lru_cache") [maxsize] [] [] SNone)).
(** functools.lru_cache(user_function): maxsize, typed = 128, False (CPython, Lib/functools.py lru_cache) *)
Definition bare_lru : val * val := (VA (AScalar 128) 0, VA (AScalar 0) 0).
(** the configuration of a loaded wrapper: lru_cache(fn) has the defaults, lru_cache(maxsize, typed)(fn) what it was given [dill/_dill.py:1483-1500] *)
Definition lru_config (hp : nat -> option obj) (b : obj) : option (val * val * val) :=
  match b with
  | ORed false (VA (AGlob (GUser n)) _) [fn] [] [] SNone => if String.eqb n "functools.lru_cache" then Some (fst bare_lru, snd bare_lru, fn) else None
  | ORed false (VR r) [fn] [] [] SNone =>
    match hp r with
    | Some (ORed false (VA (AGlob (GUser n)) _) [ms; ty] [] [] SNone) => if String.eqb n "functools.lru_cache" then Some (ms, ty, fn) else None
    | Some (ORed false (VA (AGlob (GUser n)) _) [ms] [] [] SNone) => if String.eqb n "functools.lru_cache" then Some (ms, snd bare_lru, fn) else None
    | _ => None
    end
  | _ => None
  end.

(** Python 3.8 and 3.9 (1284-1310): a view is saved as the same kind of view of a dictionary made from what the view shows:
    Reduce(dict.fromkeys, (list(obj),)), Reduce(dict, (enumerate(obj),)) or dict(obj).  [fresh] is the address of that dictionary (the
    objects before it are the list or the enumerated pairs); what matters here is that it is not the dictionary viewed. *)
Definition view_obj39 (k : view) (fresh : nat) : obj := ORed false (user (view_fun k)) [VR fresh] [] [] SNone.
(** [dill/_dill.py:1284-1323] *)
Definition view_dict39 (k : view) (d : list (val * val)) : list (val * val) :=
  match k with
  | VKeys => map (fun p => (fst p, VA ANone 0)) d
  | VValues => map (fun p => (VA (AScalar (Z.of_nat (fst p))) 0, snd (snd p))) (combine (List.seq 0 (length d)) d)
  | VItems => d
  end.
