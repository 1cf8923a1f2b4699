(** _restore_modules, dill/session.py:175-184, together with the namespace it leaves behind when it fails
    (StashModel keeps only the exception).  Looking up names is as in StashModel. *)
From Coq Require Import String List Bool.
From Verif Require Import PyDict NamesModel StashModel.
Import ListNotations.
Local Open Scope string_scope.

Section Left.
  Variable fc : string -> string -> res oid.
  Variable imp : string -> res oid.
  (** "except KeyError: pass", dill/session.py:183-184 *)
  Definition swallow (r : option exn * dict string lval) : option exn * dict string lval :=
    match r with (Some KeyError, d) => (None, d) | r => r end.
  (** the namespace of the module after _restore_modules, and the exception it raised, dill/session.py:175-184 *)
  Definition restore_left (d : dict string lval) : option exn * dict string lval :=
    match get "__dill_imported" d with
    | Some (LImp l1) =>
      match assign_all (fun x => fc (fst x) (snd x)) snd l1 (del "__dill_imported" d) with
      | (None, d) =>
        match get "__dill_imported_as" d with
        | Some (LImpAs l2) =>
          match assign_all (fun x => fc (fst (fst x)) (snd (fst x))) snd l2 (del "__dill_imported_as" d) with
          | (None, d) =>
            match get "__dill_imported_top_level" d with
            | Some (LImpTop l3) => swallow (assign_all (fun x => imp (fst x)) snd l3 (del "__dill_imported_top_level" d))
            | _ => (None, del "__dill_imported_top_level" d)
            end
          | r => swallow r
          end
        | _ => (None, del "__dill_imported_as" d)
        end
      | r => swallow r
      end
    | _ => (None, del "__dill_imported" d)
    end.
End Left.
(** the end of load_module for a session saved with refimported=True: the state [s] has been stored in the namespace
    [d0] by BUILD, then _restore_modules runs, dill/session.py:552-560 *)
Definition load_refimported (fc : string -> string -> res oid) (imp : string -> res oid) (d0 s : dict string lval) : option exn * dict string lval :=
  restore_left fc imp (update d0 s).
