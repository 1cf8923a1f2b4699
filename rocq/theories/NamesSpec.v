(** Specification for C08/C12: names resolve to objects. *)
From Coq Require Import String Ascii List Bool Arith.
From Verif Require Import PyDict NamesModel.
Import ListNotations.
Local Open Scope string_scope.

(** following attributes one after another *)
Inductive follows (E : env) : oid -> list string -> oid -> Prop :=
| follows_nil o : follows E o [] o
| follows_cons a s b path c :
    get s (attr E a) = Some b -> s <> "<locals>" -> follows E b path c -> follows E a (s :: path) c.

(** "module m, qualified name q" denotes object o *)
Definition denotes (E : env) (m q : string) (o : oid) : Prop :=
  exists mo path, get m (modules E) = Some mo /\ q = join_dot path /\ path <> [] /\
    Forall (fun s => has_dot s = false) path /\ follows E mo path o.

(** a reference with no part saved by value *)
Fixpoint pure_ref (r : ref) : Prop :=
  match r with RGlobal _ _ => True | RGetattr r _ => pure_ref r | RByValue _ => False end.
(** a reference that does not use one of the names dill's unpickler redirects *)
Fixpoint not_redirected (r : ref) : Prop :=
  match r with
  | RGlobal m n => (m, n) <> ("__builtin__", "__main__") /\ (m, n) <> ("__builtin__", "NoneType") /\ m <> "dill.dill"
  | RGetattr r _ => not_redirected r
  | RByValue _ => True
  end.

(** the Python-2 name translation tables of pickle undo each other on the names that exist here *)
Definition to_py2 (E : env) (mn : string * string) : string * string :=
  match get mn (rev_name_mapping E) with
  | Some x => x
  | None => match get (fst mn) (rev_import_mapping E) with Some m' => (m', snd mn) | None => mn end
  end.
Definition to_py3 (E : env) (mn : string * string) : string * string :=
  match get mn (name_mapping E) with
  | Some x => x
  | None => match get (fst mn) (import_mapping E) with Some m' => (m', snd mn) | None => mn end
  end.
Definition compat_ok (E : env) : Prop :=
  forall m n mo x, get m (modules E) = Some mo -> get n (attr E mo) = Some x -> to_py3 E (to_py2 E (m, n)) = (m, n).
