(** importable of an instance: dill/source.py:448-465 (_isinstance), 605-630 (getname), 633-672 (_namespace, the part for instances), 724-774 (getimport), 777-835 (_importable).
    Simplified: what Python tells about the object is a record; getsource is a parameter (None: an exception); lambdas and modules, for which see AliasModel and NamespaceModel, are left out;
    enclosing=False. *)
From Coq Require Import String Ascii List Bool Arith.
From Verif Require Import PyDict NamesModel DescrModel CheckModel ImportModel NamespaceModel.
Import ListNotations.
Local Open Scope string_scope.

(** [what dill/source.py:448-465, 605-672 ask Python about the object] *)
Record thing := Thing {
  special : bool;                   (* it has code, or is a class, module, traceback, frame or code object *)
  in_module : option string;        (* getmodule(obj).__name__, None: no module *)
  module_str : string;              (* str(getmodule(obj)) *)
  module_attr : string;             (* obj.__module__; asked for only if there is a module *)
  name_attr : option string;        (* obj.__name__, None: AttributeError *)
  scalar : option string;           (* it has a dtype, and no shape: repr(obj.tolist()) *)
  repr_ : string;
  str_ : string;
  type_module : option string;      (* getmodule(type(obj)).__name__ *)
  class_module : option string;     (* obj.__class__.__module__ *)
  class_name : string;              (* obj.__class__.__name__ *)
  class_str : string }.             (* str(obj.__class__), repr(type(obj)) *)

(** [AttributeError raised in dill/source.py:749, 815, 832] *)
Definition NoName : exn := OtherError 3.

(** getname(obj, force) [dill/source.py:605-630] *)
Definition getname (o : thing) (force : bool) : option string :=
  match in_module o with
  | None => if force then Some (match scalar o with Some t => class_name o ++ "(" ++ t ++ ")" | None => repr_ o end) else None
  | Some m =>
    match name_attr o with
    | Some n => Some (if is_builtins m && String.eqb n "ellipsis" then "EllipsisType" else n)
    | None => if force then (if startswith "<" (repr_ o) then None else Some (repr_ o)) else None
    end
  end.

(** _isinstance(obj); None: AttributeError, the class has no module [dill/source.py:448-465] *)
Definition isinstance_ (o : thing) : option bool :=
  if special o then Some false
  else
    let rest :=
      if negb (startswith "<class " (class_str o) || startswith "<type 'instance'>" (class_str o)) then Some false
      else match in_module o with
           | None => Some false
           | Some _ => Some (negb (is_builtins (module_attr o)) && negb (match getname o true with Some n => String.eqb n "array" | None => false end))
           end in
    match in_module o with
    | None => match type_module o with None => None | Some m => if String.eqb m "numpy" then Some true else rest end
    | Some _ => rest
    end.

(** s[:-2] [dill/source.py:664] *)
Definition but_two (s : string) : string := substring 0 (String.length s - 2) s.
(** qual[qual.index("'")+1:-2], or qual [dill/source.py:663-665] *)
Definition class_path (s : string) : list string := split_dot (match after apos s with Some r => but_two r | None => s end).
(** [x[-1] = y; dill/source.py:669] *)
Definition with_last (l : list string) (y : string) : list string := (removelast l ++ [y])%list.
(** the second half of _namespace [dill/source.py:657-672] *)
Definition by_class (E : env) (o : thing) : list string :=
  if memb (str_ o) ["inf"; "nan"; "Inf"; "NaN"] then ["numpy"; str_ o]
  else
    let qual := class_path (class_str o) in
    match class_module o with
    | Some m =>
      if is_builtins m then
        let qual := if String.eqb (last qual "") "ellipsis" then with_last qual "EllipsisType" else qual in
        (if intypes E (last qual "") then "types" else m) :: qual
      else qual
    | None => qual
    end.
(** _namespace(obj) [dill/source.py:633-672] *)
Definition namespace_of (E : env) (o : thing) : list string :=
  match in_module o with
  | None => by_class E o                                          (* str(None).split()[1]: IndexError *)
  | Some _ =>
    match getname o false with
    | None => by_class E o                                        (* obj.__name__: AttributeError *)
    | Some n => match _namespace E (module_str o) (Some n) with Some q => q | None => by_class E o end
    end
  end.

(** getimport(obj, alias, verify, builtin) [dill/source.py:724-774] *)
Definition getimport_thing (E : env) (bi : dict string nat) (o : thing) (alias : string) (verify builtin : bool) : res string :=
  let qual := namespace_of E o in
  let head := join_dot (removelast qual) in
  let go (n : string) := getimport E bi qual (if String.eqb n "" then None else Some n) alias verify builtin in
  if styled (repr_ o) then go ""
  else if is_builtins head then go (repr_ o)
  else match isinstance_ o with
       | None => Err NoName
       | Some true => match getname o true with Some n => go (before_paren n) | None => Err NoName end
       | Some false => go (before_paren (repr_ o))
       end.

(** the import, and the name or repr [dill/source.py:805-820] *)
Definition import_text (E : env) (bi : dict string nat) (o : thing) (alias : string) (force builtin : bool) : res string :=
  match isinstance_ o with
  | None => Err NoName
  | Some false => getimport_thing E bi o alias (negb force) builtin
  | Some true =>
    match getimport_thing E bi o "" (negb force) builtin with
    | Err e => Err e
    | Ok imp => match getname o true with
                | None => Err NoName
                | Some n => if String.eqb n "" then Err NoName else Ok (imp ++ assign alias n)
                end
    end
  end.
(** _importable(obj, alias, source, force, builtin); [src]: getsource(obj, alias, ...) [dill/source.py:777-835] *)
Definition _importable (E : env) (bi : dict string nat) (o : thing) (src : option string) (alias : string) (source force builtin : bool) : res string :=
  match (if source then src else None) with
  | Some t => Ok t
  | None =>
    match import_text E bi o alias force builtin with
    | Ok t => Ok t
    | Err _ =>
      match (if source then None else src) with
      | Some t => Ok t
      | None =>
        match getname o force with
        | None => Err NoName
        | Some n => if String.eqb n "" || startswith "<" n then Err NoName else Ok (assign alias n)
        end
      end
    end
  end.

(** ** running such a text *)
Section Run.
  Variable call : nat -> string -> option nat.                 (* what calling it with these arguments (the text between the brackets) returns *)
  Variable literal : string -> option nat.                     (* the value of an expression that is neither a name nor a call *)
  (** the value of a dotted name [Python's evaluation of the line written at dill/source.py:818] *)
  Fixpoint walk (E : env) (o : nat) (l : list string) : option nat :=
    match l with [] => Some o | a :: r => match get a (attr E o) with Some x => walk E x r | None => None end end.
  (** [Python's evaluation of the line written at dill/source.py:818] *)
  Definition dotted (E : env) (bi g : dict string nat) (s : string) : option nat :=
    match split_dot s with
    | x :: l => match (match get x g with Some o => Some o | None => get x bi end) with Some o => walk E o l | None => None end
    | [] => None
    end.
  (** [Python's evaluation of the line written at dill/source.py:818] *)
  Definition eval (E : env) (bi g : dict string nat) (e : string) : option nat :=
    if forallb is_ident (split_dot (before_paren e)) then
      match after "(" e with
      | None => dotted E bi g e
      | Some r => match dotted E bi g (before_paren e) with Some f => call f (substring 0 (String.length r - 1) r) | None => None end
      end
    else literal e.
  (** the part before " = ", if it is a name, and the rest [Python's assignment, the line written at dill/source.py:816-818] *)
  Definition assignment (s : string) : option (string * string) :=
    match after "=" s with
    | Some (String " " r) =>
      let a := substring 0 (String.length s - String.length r - 3) s in if is_ident a && String.eqb s (a ++ " = " ++ r) then Some (a, r) else None
    | _ => None
    end.
  (** one line [Python's exec of the text of dill/source.py:818] *)
  Definition line (E : env) (bi g : dict string nat) (s : string) : option (dict string nat) :=
    if startswith "from " s || startswith "import " s then
      match ImportModel.exec E bi s with Ok l => Some (fold_left (fun g p => set (fst p) (snd p) g) l g) | Err _ => None end
    else match assignment s with
         | Some (a, e) => match eval E bi g e with Some v => Some (set a v g) | None => None end
         | None => match eval E bi g s with Some _ => Some g | None => None end
         end.
  (** [Python's exec of the text of dill/source.py:818] *)
  Fixpoint lines (E : env) (bi g : dict string nat) (l : list string) : option (dict string nat) :=
    match l with [] => Some g | s :: l => match line E bi g s with Some g => lines E bi g l | None => None end end.
  (** [Python's exec of the text of dill/source.py:818] *)
  Definition run (E : env) (bi g : dict string nat) (text : string) : option (dict string nat) := lines E bi g (split (ascii_of_nat 10) (chomp text)).
End Run.
