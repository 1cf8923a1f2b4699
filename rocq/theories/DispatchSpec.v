(** Specification for C09/C10, on histories only. *)
From Coq Require Import String List Bool Arith.
From Verif Require Import PyDict DispatchModel.
Import ListNotations.

(** the function most recently registered for [t] in a history, newest call last *)
Fixpoint registered (h : list call) (t : ty) : option fn :=
  match h with
  | [] => None
  | c :: h' =>
    match registered h' t with
    | Some f => Some f
    | None => match c with
              | Register t' f => if Nat.eqb t t' then Some f else None
              | Extend _ => None
              end
    end
  end.

(** ... counting the stock table found at import as registered before everything else *)
Definition newest_registration (orig : dict ty fn) (h : list call) (t : ty) : option fn :=
  match registered h t with Some f => Some f | None => get t orig end.

(** what was current for [t] when extend(True) was last called in the history *)
Fixpoint last_pushed_aux (orig : dict ty fn) (before h : list call) (t : ty) : option fn :=
  match h with
  | [] => None
  | c :: h' =>
    match last_pushed_aux orig (before ++ [c]) h' t with
    | Some f => Some f
    | None => match c with
              | Extend true => newest_registration orig before t
              | _ => None
              end
    end
  end.
Definition last_pushed orig h t := last_pushed_aux orig [] h t.
