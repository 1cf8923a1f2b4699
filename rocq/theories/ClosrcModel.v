(** The source text of closures: dill/source.py:892-929 (_closuredsource), with importable (931-1009, in ImportableModel) calling itself for the functions among the free variables.
    Simplified: what getsource and freevars give for each object are parameters (AliasModel, GlobalsModel); an exception is None; so is RecursionError, when [fuel], the depth
    of calls that Python allows, is used up. *)
From Coq Require Import String Ascii List Bool Arith.
From Verif Require Import PyDict DescrModel CheckModel FindModel BlocksModel NamesModel ImportableModel.
Import ListNotations.
Local Open Scope string_scope.

(** [what dill/source.py:892-929 and 931-1009 ask of the objects] *)
Record closures := Closures {
  vars : nat -> list (string * nat);                       (* freevars(obj).items() *)
  isfun : nat -> bool;                                     (* isfunction(obj) *)
  text_of : nat -> string -> bool -> bool -> bool -> option string;  (* getsource(obj, alias, lstrip, enclosing, force) *)
  rest : string -> world;                                  (* for importable(_, alias): the import branch, isfrommain, globalvars *)
}.

(** the loop over the free variables: the texts of the others joined, and the pairs of the functions [dill/source.py:903-921] *)
Fixpoint free_sources (W : closures) (imp : nat -> string -> option bool -> option string) (func : nat) (alias : string) (l : list (string * nat))
  : option (string * list (string * option string)) :=
  match l with
  | [] => Some ("", [])
  | (name, o) :: l =>
    if isfun W o then
      match text_of W o alias false false false with
      | None => None
      | Some src =>
        match (if startswith "@" (lstrip src)
               then match text_of W func "" false true false, imp o alias (Some true) with Some org, Some src => Some (org, Some src) | _, _ => None end
               else match imp o name None, text_of W func alias true false false with Some src, Some org => Some (src, Some org) | _, _ => None end),
              free_sources W imp func alias l with
        | Some p, Some (values, pairs) => Some (values, p :: pairs)
        | _, _ => None
        end
      end
    else
      match text_of W o name false false true, free_sources W imp func alias l with
      | Some t, Some (values, pairs) => Some (t ++ values, pairs)
      | _, _ => None
      end
  end.

(** what importable asks, with _closuredsource for the closures of functions [dill/source.py:969-1003] *)
Definition asks (W : closures) (alias : string) (cs : nat -> option ((string * option string) * list (string * option string))) : world :=
  let R := rest W alias in
  {| frommain := frommain R; isbuiltin_ := isbuiltin_ R; isinst := isinst R; inst_import := inst_import R; closure_imports := closure_imports R;
     closure_sources := fun x => match x with Obj o => cs o | Globals _ => closure_sources R x end;
     globalvars_ := globalvars_ R; source_as := fun o name => text_of W o name false false true |}.

(** importable, an exception being None [dill/source.py:931-1009] *)
Definition text_or_none (x : outcome) : option string := match x with Text t => Some t | _ => None end.

(** _closuredsource(func, alias) [dill/source.py:892-929] *)
Fixpoint closuredsource (fuel : nat) (W : closures) (func : nat) (alias : string) : option ((string * option string) * list (string * option string)) :=
  match fuel with
  | 0 => None
  | S fuel =>
    let imp o a source := text_or_none (importable 2 (asks W a (fun o => closuredsource fuel W o a)) o source true) in
    match free_sources W imp func alias (vars W func) with
    | None => None
    | Some (values, []) => match text_of W func alias true false true with Some org => Some ((values, Some org), []) | None => None end
    | Some (values, pairs) => Some ((values, None), pairs)
    end
  end.

(** importable(obj, alias, source) [dill/source.py:931-1009] *)
Definition importable_source (fuel : nat) (W : closures) (o : nat) (alias : string) (source : option bool) : option string :=
  text_or_none (importable 2 (asks W alias (fun o => closuredsource fuel W o alias)) o source true).
