(** dill/_dill.py: pickles (2168-2203); dill/detect.py: baditems (231-238), badobjects (241-248).
    What copying, comparing and testing for truth do is a parameter: each either returns or raises.
    Simplified: an exception is the set of classes it is an instance of, among those named in the code. *)
From Coq Require Import List Bool Arith String.
From Verif Require Import PyDict.
Import ListNotations.

(** [exceptions of dill/_dill.py:2168-2203] *)
Record exc := Exc { is_exception : bool; is_type_error : bool; is_assertion : bool; is_notimplemented : bool; is_pickling : bool; is_unpickling : bool; is_attribute : bool }.
(** [exceptions of dill/_dill.py:2168-2203] *)
Inductive res (A : Type) := Ret (a : A) | Raise (e : exc).
Arguments Ret {A} _. Arguments Raise {A} _.

(** lines 2180-2182 *)
Definition trapped (safe : bool) (e : exc) : bool :=
  if safe then is_exception e
  else is_type_error e || is_assertion e || is_notimplemented e || is_pickling e || is_unpickling e.

(** warnings.filters; an entry is an arbitrary tuple here, [ignore_all] the one of filterwarnings('ignore').
    warnings.filterwarnings (CPython Lib/warnings.py:_add_filter): remove the entry if it is there, put it first *)
Definition filter_entry := nat.
(** [warnings.filterwarnings and the filter list, dill/_dill.py:2186-2203] *)
Definition ignore_all : filter_entry := 0.
(** [warnings.filterwarnings and the filter list, dill/_dill.py:2186-2203] *)
Fixpoint remove1 (x : filter_entry) (l : list filter_entry) : list filter_entry :=
  match l with [] => [] | y :: l => if Nat.eqb x y then l else y :: remove1 x l end.
(** [warnings.filterwarnings and the filter list, dill/_dill.py:2186-2203] *)
Definition filterwarnings_ignore (l : list filter_entry) : list filter_entry := ignore_all :: remove1 ignore_all l.
(** [warnings.filterwarnings and the filter list, dill/_dill.py:2186-2203] *)
Definition del_first (l : list filter_entry) : list filter_entry := match l with [] => [] | _ :: l => l end.

(** the object [pik == obj] [what ==, !=, type and copy give, dill/_dill.py:2179-2201] *)
Record cmp := Cmp { has_toarray : bool; toarray_all : res bool; truth : res bool }.
(** what happens to one object [what ==, !=, type and copy give, dill/_dill.py:2179-2201] *)
Record world := World {
  copying : res unit;              (* pik = copy(obj, **kwds) *)
  cmp_all : res bool;              (* bool(pik.all() == obj.all()) *)
  eq : res cmp;                    (* pik == obj *)
  eq_filters : list filter_entry -> list filter_entry;  (* what == does to warnings.filters *)
  same_type : res bool;            (* type(pik) == type(obj), as a truth value *)
  same_repr : res bool             (* repr(type(pik)) == repr(type(obj)) *)
}.

(** lines 2196-2201 *)
Definition last_resort (w : world) (exact : bool) : res bool :=
  if exact then Ret false
  else match same_type w with
       | Raise e => Raise e
       | Ret true => Ret true
       | Ret false => same_repr w
       end.
(** lines 2193-2201, on the result of == *)
Definition judge (w : world) (exact : bool) (q : cmp) : res bool :=
  match (if has_toarray q then toarray_all q else truth q) with
  | Raise e => Raise e
  | Ret true => Ret true
  | Ret false => last_resort w exact
  end.
(** the body of the try statement [dill/_dill.py:2168-2203] *)
Definition body (w : world) (exact : bool) (filters : list filter_entry) : res bool * list filter_entry :=
  match copying w with
  | Raise e => (Raise e, filters)
  | Ret _ =>
    match cmp_all w with
    | Ret true => (Ret true, filters)
    | Ret false => (last_resort w exact, filters)
    | Raise e =>
      if is_attribute e || is_type_error e then
        let filters := eq_filters w (filterwarnings_ignore filters) in
        match eq w with
        | Raise e => (Raise e, filters)
        | Ret q => (judge w exact q, del_first filters)
        end
      else (Raise e, filters)
    end
  end.
(** [dill/_dill.py:2168-2203] *)
Definition pickles (w : world) (exact safe : bool) (filters : list filter_entry) : res bool * list filter_entry :=
  match body w exact filters with
  | (Raise e, f) => if trapped safe e then (Ret false, f) else (Raise e, f)
  | r => r
  end.

(** ** badobjects(obj, 0), baditems: items are numbers, [none] is the object None; [pk i] is pickles(i), [eqv x i] is
    "x is i or x == i" [dill/detect.py:241-248] *)
Definition none : nat := 0.
(** [dill/detect.py:241-248] *)
Definition badobjects (pk : nat -> res bool) (i : nat) : res nat :=
  match pk i with Raise e => Raise e | Ret true => Ret none | Ret false => Ret i end.
(** the list comprehension of line 237 *)
Fixpoint collect (pk : nat -> res bool) (eqv : nat -> nat -> bool) (l : list nat) (acc : list nat) : res (list nat) :=
  match l with
  | [] => Ret acc
  | i :: l => if existsb (fun x => eqv x i) acc then collect pk eqv l acc
              else match badobjects pk i with Raise e => Raise e | Ret b => collect pk eqv l (acc ++ [b]) end
  end.
(** [dill/detect.py:231-238] *)
Definition not_none (l : list nat) : list nat := filter (fun j => negb (Nat.eqb j none)) l.
(** [items]: the values of a mapping, the items of another iterable, None if not iterable [dill/detect.py:231-238] *)
Definition baditems (pk : nat -> res bool) (eqv : nat -> nat -> bool) (obj : nat) (items : option (list nat)) : res (list nat) :=
  match items with
  | None => match badobjects pk obj with Raise e => Raise e | Ret b => Ret (not_none [b]) end
  | Some l => match collect pk eqv l [] with Raise e => Raise e | Ret a => Ret (not_none a) end
  end.
