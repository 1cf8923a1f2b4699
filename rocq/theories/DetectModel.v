(** badobjects, badtypes, errors with a depth: dill/detect.py:241-284. *)
From Coq Require Import String List Bool Arith.
From Verif Require Import PyDict.
Import ListNotations.
Local Open Scope string_scope.

Notation oid := nat (only parsing).
Notation exc := nat (only parsing).
(** [a value or an exception; not in /repo] *)
Inductive res (A : Type) := Ret (a : A) | Raise (e : exc).
Arguments Ret {A}. Arguments Raise {A}.

(** the program: dir(o), getattr(o, n), pickles(o, exact, safe), type(o); for errors: dill.copy(o) and how the copy compares.
    Simplified: these do not change from one call to the next [what dill/detect.py:241-284 looks at] *)
Record world := World {
  dir : oid -> list string;
  getattr : oid -> string -> res oid;
  pickles : oid -> res bool;
  typ : oid -> oid;
  copy : oid -> res unit;               (* pik = copy(obj) *)
  equal : oid -> res bool;              (* pik == obj *)
  same_type : oid -> bool;              (* type(pik) == type(obj) *)
}.
(** [dill/detect.py:266-269] *)
Definition assertion_error : exc := 0.
Section Detect.
Variable W : world.

(** the result: None, an object (for badtypes a type, for errors an exception), or a dictionary [the results of dill/detect.py:241-284] *)
Inductive tree := TNone | TObj (o : nat) | TDict (d : list (string * tree)).

(** the loop over dir(obj): keep an attribute that does not pickle [dill/detect.py:247-248, 256-257] *)
Fixpoint scan (f : oid -> res tree) (o : oid) (l : list string) : res (list (string * tree)) :=
  match l with
  | [] => Ret []
  | n :: l =>
    match getattr W o n with
    | Raise e => Raise e
    | Ret x =>
      match pickles W x with
      | Raise e => Raise e
      | Ret true => scan f o l
      | Ret false =>
        match f x with
        | Raise e => Raise e
        | Ret t => match scan f o l with Raise e => Raise e | Ret r => Ret ((n, t) :: r) end
        end
      end
    end
  end.
(** badobjects, lines 240-247 *)
Fixpoint badobjects (depth : nat) (o : oid) : res tree :=
  match depth with
  | 0 => match pickles W o with Raise e => Raise e | Ret true => Ret TNone | Ret false => Ret (TObj o) end
  | S depth => match scan (badobjects depth) o (dir W o) with Raise e => Raise e | Ret d => Ret (TDict d) end
  end.
(** badtypes, lines 249-256 *)
Fixpoint badtypes (depth : nat) (o : oid) : res tree :=
  match depth with
  | 0 => match pickles W o with Raise e => Raise e | Ret true => Ret TNone | Ret false => Ret (TObj (typ W o)) end
  | S depth => match scan (badtypes depth) o (dir W o) with Raise e => Raise e | Ret d => Ret (TDict d) end
  end.
(** errors, lines 258-283; every exception here is an Exception.  Lines 275-279: an attribute that cannot be had is entered with its exception *)
Fixpoint scan_errors (f : oid -> res tree) (o : oid) (l : list string) : res (list (string * tree)) :=
  match l with
  | [] => Ret []
  | n :: l =>
    match getattr W o n with
    | Raise e => match scan_errors f o l with Raise e => Raise e | Ret r => Ret ((n, TObj e) :: r) end
    | Ret x =>
      match pickles W x with
      | Raise e => Raise e
      | Ret true => scan_errors f o l
      | Ret false =>
        match f x with
        | Raise e => Raise e
        | Ret t => match scan_errors f o l with Raise e => Raise e | Ret r => Ret ((n, t) :: r) end
        end
      end
    end
  end.
(** [dill/detect.py:259-284] *)
Fixpoint errors (exact : bool) (depth : nat) (o : oid) : res tree :=
  match depth with
  | 0 =>
    match copy W o with
    | Raise e => Ret (TObj e)
    | Ret _ =>
      match (if exact then equal W o else Ret true) with
      | Raise e => Ret (TObj e)
      | Ret false => Ret (TObj assertion_error)
      | Ret true => if same_type W o then Ret TNone else Ret (TObj assertion_error)
      end
    end
  | S depth => match scan_errors (errors exact depth) o (dir W o) with Raise e => Raise e | Ret d => Ret (TDict d) end
  end.
End Detect.
