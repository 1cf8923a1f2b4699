(** dill/source.py:931-1009 (importable: by import or by source, whichever works), 974-980 (its _code_stitcher), 386-403 (getsource of an instance, force=True:
    the class is found by evaluating text).
    Simplified: what closure sources and imports, the sources and imports of single objects are for an object is a parameter (None: an exception). *)
From Coq Require Import String Ascii List Bool Arith.
From Verif Require Import GlobalsModel.
Import ListNotations.
Local Open Scope string_scope.

(** what the variable obj of importable can be: the object, or the dictionary of the globals it refers to (line 997) *)
Inductive subject := Obj (o : nat) | Globals (d : list (string * nat)).

(** [what importable asks of getimport, getsource, globalvars and freevars, dill/source.py:931-1009] *)
Record world := World {
  frommain : subject -> bool;                                 (* isfrommain *)
  isbuiltin_ : subject -> bool;
  isinst : subject -> bool;                                   (* _isinstance *)
  inst_import : subject -> option string;                     (* _importable(obj, alias, source=False) *)
  closure_imports : subject -> option (list string);          (* _closuredimport(obj).values() *)
  (* _closuredsource(obj): the pair under None, then the other pairs *)
  closure_sources : subject -> option ((string * option string) * list (string * option string));
  globalvars_ : subject -> option (list (string * nat));
  source_as : nat -> string -> option string }.               (* getsource(_obj, name, force=True) *)

(** _code_stitcher: '\n'.join(block), or the part there is [_code_stitcher, dill/source.py:974-980] *)
Definition newline : string := String (ascii_of_nat 10) EmptyString.
(** [_code_stitcher, dill/source.py:974-980] *)
Definition stitch (b : string * option string) : string :=
  match b with
  | (a, Some c) => if String.eqb a "" then c else if String.eqb c "" then a else a ++ newline ++ c
  | (a, None) => a
  end.
(** [dill/source.py:982-1000] *)
Definition nonempty (l : list string) : list string := filter (fun s => negb (String.eqb s "")) l.
(** [dill/source.py:982-1000] *)
Fixpoint sources (W : world) (d : list (string * nat)) : option (list string) :=
  match d with
  | [] => Some []
  | (n, o) :: d => if isbuiltin_ W (Obj o) then sources W d
                   else match source_as W o n with
                        | Some t => match sources W d with Some l => Some (t :: l) | None => None end
                        | None => None
                        end
  end.

(** the import branch [dill/source.py:955-967] *)
Definition by_import (W : world) (x : subject) : option string :=
  if isinst W x then inst_import W x
  else match closure_imports W x with Some [t] => Some t | _ => None end.
(** the source branch: the text, or what obj is when the exception is raised [dill/source.py:969-1003] *)
Definition by_source (W : world) (x : subject) : string + subject :=
  match closure_sources W x with
  | None => inr x
  | Some (first, others) =>
    let src := String.concat newline (nonempty (stitch first :: map stitch others)) in
    match globalvars_ W x with
    | None => inr x
    | Some d =>
      match sources W d with
      | None => inr (Globals d)                               (* obj = globalvars(obj) has been executed *)
      | Some l => let g := String.concat newline l in inl (if String.eqb g "" then src else if String.eqb src "" then g else g ++ src)
      end
    end
  end.
(** the loop; the flags are tried_source, tried_import; None: an exception, or the fuel is used up [dill/source.py:953-1009] *)
Inductive outcome := Text (t : string) | Raises | Loops.
(** [dill/source.py:953-1009] *)
Fixpoint attempts (fuel : nat) (W : world) (x : subject) (source tried_source tried_import : bool) : outcome :=
  match fuel with
  | 0 => Loops
  | S fuel =>
    let source_branch (tried_import : bool) :=
      match by_source W x with
      | inl t => Text t
      | inr x' => if tried_import then Raises else attempts fuel W x' (negb source) true tried_import
      end in
    if source then source_branch tried_import
    else match by_import W x with
         | Some t => Text t
         | None => if tried_source then Raises else source_branch true
         end
  end.
(** importable(obj, alias, source, builtin) [dill/source.py:931-1009] *)
Definition importable (fuel : nat) (W : world) (o : nat) (source : option bool) (builtin : bool) : outcome :=
  attempts fuel W (Obj o) (match source with None => frommain W (Obj o) | Some b => if builtin && isbuiltin_ W (Obj o) then false else b end) false false.

(** ** getsource of an instance of a class of an importable module, if its source is not found directly *)
(** str.lstrip(chars) [dill/source.py:384-411] *)
Fixpoint lstrip_of (chars s : string) : string :=
  match s with String c r => if has_char c chars then lstrip_of chars r else s | EmptyString => EmptyString end.
(** [dill/source.py:384-411] *)
Definition quoted (s : string) : string := "'" ++ s ++ "'".
(** __import__('%s', fromlist=['%s']).%s\n [dill/source.py:384-411] *)
Definition class_expr (modname name : string) : string := "__import__(" ++ quoted modname ++ ", fromlist=[" ++ quoted name ++ "])." ++ name ++ newline.
(** lines[0].lstrip(name + ' = '), which is evaluated [dill/source.py:384-411] *)
Definition evaluated (modname name : string) : string := lstrip_of (name ++ " = ") (name ++ " = " ++ class_expr modname name).
