(** Code objects across Python versions: ALL_CODE_PARAMS and version detection (dill/_dill.py:665-680),
    save_code (1163-1237), _create_code (682-788), class match (620-662).
    Modelled: the argument tuples, their order, the pattern matching on the number of arguments, the
    defaults, the str-to-bytes encoding.  Simplified: a field value is an int, bytes, str, None or an opaque
    object; CodeType accepts a value when it has the type of the field and checks nothing else. *)
From Coq Require Import String List Bool ZArith.
From Verif Require Import PyDict.
Import ListNotations.
Local Open Scope string_scope.

(** [the arguments of dill/_dill.py:1175-1234] *)
Inductive cval := CInt (z : Z) | CBytes (b : list nat) | CStr (s : string) | CNone | COther (id : nat).

(** the six layouts of CodeType, named after the version keys of ALL_CODE_PARAMS (lines 665-673) *)
Inductive version := V311a | V311 | V311p | V310 | V38 | V37.

(** the constructor parameters of CodeType in each version: lines 667-672 *)
Definition params (v : version) : list string :=
  match v with
  | V311a => ["argcount"; "posonlyargcount"; "kwonlyargcount"; "nlocals"; "stacksize"; "flags"; "code"; "consts"; "names"; "varnames"; "filename"; "name"; "qualname"; "firstlineno"; "linetable"; "endlinetable"; "columntable"; "exceptiontable"; "freevars"; "cellvars"]
  | V311 => ["argcount"; "posonlyargcount"; "kwonlyargcount"; "nlocals"; "stacksize"; "flags"; "code"; "consts"; "names"; "varnames"; "filename"; "name"; "qualname"; "firstlineno"; "linetable"; "exceptiontable"; "freevars"; "cellvars"]
  | V311p => ["argcount"; "posonlyargcount"; "kwonlyargcount"; "nlocals"; "stacksize"; "flags"; "code"; "consts"; "names"; "varnames"; "filename"; "name"; "qualname"; "firstlineno"; "linetable"; "freevars"; "cellvars"]
  | V310 => ["argcount"; "posonlyargcount"; "kwonlyargcount"; "nlocals"; "stacksize"; "flags"; "code"; "consts"; "names"; "varnames"; "filename"; "name"; "firstlineno"; "linetable"; "freevars"; "cellvars"]
  | V38 => ["argcount"; "posonlyargcount"; "kwonlyargcount"; "nlocals"; "stacksize"; "flags"; "code"; "consts"; "names"; "varnames"; "filename"; "name"; "firstlineno"; "lnotab"; "freevars"; "cellvars"]
  | V37 => ["argcount"; "kwonlyargcount"; "nlocals"; "stacksize"; "flags"; "code"; "consts"; "names"; "varnames"; "filename"; "name"; "firstlineno"; "lnotab"; "freevars"; "cellvars"]
  end.

(** the loop of lines 674-678: the first entry whose new attribute CodeType has; [has_attr] is hasattr(CodeType, 'co_' + .) *)
Definition detect (has_attr : string -> bool) : option version :=
  let fix go (l : list (version * string)) := match l with
    | [] => None | (v, a) :: l => if has_attr a then Some v else go l end in
  go [(V311a, "endlinetable"); (V311, "exceptiontable"); (V311p, "qualname"); (V310, "linetable"); (V38, "posonlyargcount"); (V37, "kwonlyargcount")].

(** a code object: its fields in constructor order *)
Notation pycode := (@dict string cval) (only parsing).

(** [CPython Objects/codeobject.c code_new, the types of the fields named at dill/_dill.py:665-673] *)
Definition int_fields := ["argcount"; "posonlyargcount"; "kwonlyargcount"; "nlocals"; "stacksize"; "flags"; "firstlineno"].
(** [CPython Objects/codeobject.c code_new, the types of the fields named at dill/_dill.py:665-673] *)
Definition bytes_fields := ["code"; "lnotab"; "linetable"; "exceptiontable"].
(** [CPython Objects/codeobject.c code_new, the types of the fields named at dill/_dill.py:665-673] *)
Definition str_fields := ["filename"; "name"; "qualname"].
(** the type test of CodeType for one argument (the endlinetable and columntable of the 3.11 alphas may be None) [CPython Objects/codeobject.c code_new, the types of the fields named at dill/_dill.py:665-673] *)
Definition typed (n : string) (x : cval) : bool :=
  match x with
  | CInt _ => memb n int_fields
  | CBytes _ => memb n bytes_fields || memb n ["endlinetable"; "columntable"]
  | CStr _ => memb n str_fields
  | CNone => memb n ["endlinetable"; "columntable"]
  | COther _ => memb n ["consts"; "names"; "varnames"; "freevars"; "cellvars"]
  end.
(** CodeType applied to positional arguments: None is a TypeError [CPython Objects/codeobject.c code_new, called at dill/_dill.py:696-788] *)
Definition CodeType (v : version) (args : list cval) : option pycode :=
  let c := combine (params v) args in
  if Nat.eqb (length args) (length (params v)) && forallb (fun p => typed (fst p) (snd p)) c then Some c else None.

(** getattr of several attributes; None if one is missing [obj.co_..., dill/_dill.py:1176-1234; fields[k], 786-787] *)
Fixpoint getattrs (c : pycode) (ns : list string) : option (list cval) :=
  match ns with
  | [] => Some []
  | n :: ns => match get n c, getattrs c ns with Some x, Some l => Some (x :: l) | _, _ => None end
  end.

(** save_code, lines 1173-1236: the arguments pickled for _create_code.  [lnotab]: what the property
    co_lnotab computes for this object on 3.10+ (None when the interpreter has no such attribute). *)
Definition save_code (lnotab : option cval) (c : pycode) : option (list cval) :=
  let with_lnotab (l : option cval) ns := match l, getattrs c ns with Some t, Some l => Some (t :: l) | _, _ => None end in
  if has "endlinetable" c then
    with_lnotab lnotab ["argcount"; "posonlyargcount"; "kwonlyargcount"; "nlocals"; "stacksize"; "flags"; "code"; "consts"; "names"; "varnames"; "filename"; "name"; "qualname"; "firstlineno"; "linetable"; "endlinetable"; "columntable"; "exceptiontable"; "freevars"; "cellvars"]
  else if has "exceptiontable" c then
    with_lnotab (match lnotab with Some t => Some t | None => Some (CBytes []) end)
      ["argcount"; "posonlyargcount"; "kwonlyargcount"; "nlocals"; "stacksize"; "flags"; "code"; "consts"; "names"; "varnames"; "filename"; "name"; "qualname"; "firstlineno"; "linetable"; "exceptiontable"; "freevars"; "cellvars"]
  else if has "qualname" c then
    with_lnotab lnotab ["argcount"; "posonlyargcount"; "kwonlyargcount"; "nlocals"; "stacksize"; "flags"; "code"; "consts"; "names"; "varnames"; "filename"; "name"; "qualname"; "firstlineno"; "linetable"; "freevars"; "cellvars"]
  else if has "linetable" c then
    with_lnotab lnotab ["argcount"; "posonlyargcount"; "kwonlyargcount"; "nlocals"; "stacksize"; "flags"; "code"; "consts"; "names"; "varnames"; "filename"; "name"; "firstlineno"; "linetable"; "freevars"; "cellvars"]
  else if has "posonlyargcount" c then
    getattrs c ["argcount"; "posonlyargcount"; "kwonlyargcount"; "nlocals"; "stacksize"; "flags"; "code"; "consts"; "names"; "varnames"; "filename"; "name"; "firstlineno"; "lnotab"; "freevars"; "cellvars"]
  else
    getattrs c ["argcount"; "kwonlyargcount"; "nlocals"; "stacksize"; "flags"; "code"; "consts"; "names"; "varnames"; "filename"; "name"; "firstlineno"; "lnotab"; "freevars"; "cellvars"].

(** x.encode() if hasattr(x, 'encode') else x; [utf8] is str.encode [dill/_dill.py:698-701, 786] *)
Definition encode (utf8 : string -> list nat) (x : cval) : cval :=
  match x with CStr s => CBytes (utf8 s) | _ => x end.
(** ENCODE_PARAMS, lines 679-680 *)
Definition encode_params (w : version) : list string :=
  filter (fun n => memb n ["code"; "lnotab"; "linetable"; "endlinetable"; "columntable"; "exceptiontable"]) (params w).

(** encode the arguments at positions [i, j) [dill/_dill.py:696-703, 713-719, 729-735, 749-755, 765-771] *)
Definition encode_at (utf8 : string -> list nat) (is : list nat) (args : list cval) : list cval :=
  map (fun p => if memb (fst p) is then encode utf8 (snd p) else snd p) (combine (seq 0 (length args)) args).

(** CODE_VERSION >= (3,10): tuple comparison [dill/_dill.py:738] *)
Definition ge310 (w : version) : bool := match w with V311a | V311 | V311p | V310 => true | _ => false end.

(** [dict.setdefault, dill/_dill.py:778-784] *)
Definition setdefault (n : string) (x : cval) (d : pycode) : pycode := if has n d then d else set n x d.

(** lines 778-788: rebuild from named fields; None is an error *)
Definition create_fields (utf8 : string -> list nat) (w : version) (LNOTAB : cval) (fields : pycode) : option pycode :=
  let fields := setdefault "posonlyargcount" (CInt 0) fields in
  let fields := setdefault "lnotab" LNOTAB fields in
  let fields := setdefault "linetable" (CBytes []) fields in
  match get "name" fields with
  | None => None
  | Some nm =>
    let fields := setdefault "qualname" nm fields in
    let fields := setdefault "exceptiontable" (CBytes []) fields in
    let fields := setdefault "endlinetable" CNone fields in
    let fields := setdefault "columntable" CNone fields in
    match getattrs fields (params w) with
    | None => None
    | Some args => CodeType w (map (fun p => if memb (fst p) (encode_params w) then encode utf8 (snd p) else snd p) (combine (params w) args))
    end
  end.

(** _create_code, lines 682-775: [w] is CODE_VERSION; None stands for the exceptions raised *)
Definition create_code (utf8 : string -> list nat) (w : version) (args0 : list cval) : option pycode :=
  let '(LNOTAB, args) := match args0 with
    | CInt _ :: _ => (CBytes [], args0)
    | t :: rest => (t, rest)
    | [] => (CBytes [], [])
    end in
  match length args with
  | 18 =>
    match w with
    | V311 => CodeType w (encode_at utf8 [6; 14; 15] args)
    | _ => create_fields utf8 w LNOTAB (combine ["argcount"; "posonlyargcount"; "kwonlyargcount"; "nlocals"; "stacksize"; "flags"; "code"; "consts"; "names"; "varnames"; "filename"; "name"; "qualname"; "firstlineno"; "linetable"; "exceptiontable"; "freevars"; "cellvars"] args)
    end
  | 17 =>
    match w with
    | V311p => CodeType w (encode_at utf8 [6; 14] args)
    | _ => create_fields utf8 w LNOTAB (combine ["argcount"; "posonlyargcount"; "kwonlyargcount"; "nlocals"; "stacksize"; "flags"; "code"; "consts"; "names"; "varnames"; "filename"; "name"; "qualname"; "firstlineno"; "linetable"; "freevars"; "cellvars"] args)
    end
  | 16 =>
    match w with
    | V310 | V38 => CodeType w (encode_at utf8 [6; 13] args)
    | _ =>
      let fields := combine ["argcount"; "posonlyargcount"; "kwonlyargcount"; "nlocals"; "stacksize"; "flags"; "code"; "consts"; "names"; "varnames"; "filename"; "name"; "firstlineno"; "LNOTAB_OR_LINETABLE"; "freevars"; "cellvars"] args in
      match get "LNOTAB_OR_LINETABLE" fields with
      | None => None
      | Some t =>
        let fields := if ge310 w then set "linetable" t fields
          else set "lnotab" (match LNOTAB with CBytes [] => t | _ => LNOTAB end) fields in
        create_fields utf8 w LNOTAB fields
      end
    end
  | 15 =>
    match w with
    | V37 => CodeType w (encode_at utf8 [5; 12] args)
    | _ => create_fields utf8 w LNOTAB (combine ["argcount"; "kwonlyargcount"; "nlocals"; "stacksize"; "flags"; "code"; "consts"; "names"; "varnames"; "filename"; "name"; "firstlineno"; "lnotab"; "freevars"; "cellvars"] args)
    end
  | 20 =>
    match w with
    | V311a => CodeType w (encode_at utf8 [6; 14; 15; 16; 17] args)
    | _ => create_fields utf8 w LNOTAB (combine ["argcount"; "posonlyargcount"; "kwonlyargcount"; "nlocals"; "stacksize"; "flags"; "code"; "consts"; "names"; "varnames"; "filename"; "name"; "qualname"; "firstlineno"; "linetable"; "endlinetable"; "columntable"; "exceptiontable"; "freevars"; "cellvars"] args)
    end
  | _ => None                                      (* UnpicklingError *)
  end.
