(** The import of a function made by another function: dill/detect.py:32-58 (outermost), dill/source.py:839-889 (_closuredimport).
    Simplified: what freevars, getsource, getsourcelines, findsource, getname, getmodule and getimport give for each object are parameters (they are modelled in
    GlobalsModel, AliasModel, BlocksModel, FindModel, NamespaceModel); characters are ASCII, a line has a newline only at its end. *)
From Coq Require Import String Ascii List Bool Arith.
From Verif Require Import PyDict NamesModel DescrModel CheckModel ImportModel FindModel DumpsourceModel AliasModel ImportableModel.
Import ListNotations.
Local Open Scope string_scope.

(** [what dill/source.py:839-889 and dill/detect.py:32-58 ask of the objects] *)
Record objects := Objects {
  free : nat -> list (string * nat);                       (* freevars(obj).items() *)
  is_function : nat -> bool;                               (* isfunction(obj) *)
  global_names : nat -> option (list (string * nat));      (* func.__globals__.items(), of functions and methods; None: neither *)
  block_of : nat -> bool -> option (list string * nat);    (* getsourcelines(obj, enclosing=...); None: an exception *)
  file_of : nat -> option (list string);                   (* findsource(obj)[0]; None: an exception *)
  source_of : nat -> option string;                        (* getsource(obj); None: an exception *)
  name_of : nat -> option string;                          (* getname(obj); None: it gives None *)
  module_of : nat -> option string;                        (* getname(getmodule(obj)) *)
  import_of : nat -> option string;                        (* getimport(obj, alias=alias, builtin=builtin); None: an exception *)
  called : nat -> string;                                  (* getname(func, force=True), a key only *)
}.

(** outermost(func); the first global that the enclosing lines have the name of, and that has these lines [dill/detect.py:32-58] *)
Definition outermost (W : objects) (f : nat) : option nat :=
  match global_names W f with
  | None => None
  | Some g =>
    match block_of W f true with
    | None => None                                          (* lines, lnum = [], None: equal to no getsourcelines(obj) *)
    | Some (lines, lnum) =>
      match find (fun p => contains (fst p) (String.concat "" lines) &&
                  match block_of W (snd p) false with Some (l, n) => (if list_eq_dec string_dec l lines then true else false) && Nat.eqb n lnum | None => false end) g with
      | Some p => Some (snd p)
      | None => None
      end
    end
  end.

(** [\w\s] [dill/source.py:853, 883] *)
Definition word_or_space (c : ascii) : bool := is_name_char c || is_space c.
(** re.match(r'.*[\w\s]=\s*' + p, line); [prev]: the character before is one of [\w\s] [dill/source.py:853-858, 863-864, 882-883] *)
Fixpoint m_assigned_from (prev : bool) (p s : string) : bool :=
  match s with
  | EmptyString => false
  | String c r =>
    (prev && Ascii.eqb c "=" && match drop_prefix p (lstrip r) with Some _ => true | None => false end)
    || (if Ascii.eqb c (ascii_of_nat 10) then false else m_assigned_from (word_or_space c) p r)
  end.
(** [dill/source.py:853-858, 863-864, 882-883] *)
Definition m_assigned (p s : string) : bool := m_assigned_from false p s.
(** candidate.split('=',1)[0].split()[-1].strip(); None: IndexError [dill/source.py:867, 886] *)
Definition assigned_name (line : string) : option string :=
  let s := before_eq line in
  match split_ws (String.length s) s with [] => None | l => Some (last l "") end.
(** the last of the lines [n in line] that match [dill/source.py:857-858, 863-866, 882-885] *)
Definition candidate (n p : string) (lines : list string) : option string :=
  match filter (fun l => contains n l && m_assigned p l) lines with [] => None | l => Some (last l "") end.

(** _getimport(mod, name, alias=alias, builtin=builtin), verify=True; None: an exception, as for a mod that is None [dill/source.py:868, 887; 676-719] *)
Definition import_name (E : env) (bi : dict string nat) (m : option string) (name alias : string) (builtin : bool) : option string :=
  match m with
  | Some m => match _getimport E bi (split_dot m) name alias true builtin with Ok t => Some t | Err _ => None end
  | None => None
  end.
(** the name and the import that the last candidate gives [dill/source.py:866-868, 885-887] *)
Definition import_candidate (E : env) (bi : dict string nat) (m : option string) (line alias : string) (builtin : bool) : option (string * string) :=
  match assigned_name line with
  | Some v => match import_name E bi m v alias builtin with Some t => Some (v, t) | None => None end
  | None => None
  end.

(** one free variable that is a function [dill/source.py:845-869] *)
Definition function_var (E : env) (bi : dict string nat) (W : objects) (func : nat) (alias : string) (builtin : bool) (name : string) (fobj : nat) : option (string * string) :=
  match source_of W fobj with
  | None => None
  | Some src =>
    if startswith "@" (lstrip src) then match import_of W fobj with Some t => Some (name, t) | None => None end
    else
      match outermost W func with
      | None => None                                        (* getname(None) is None: TypeError *)
      | Some encl =>
        match name_of W encl, name_of W fobj, file_of W encl with
        | Some n, Some fn, Some lines =>
          let p := n ++ "(" ++ fn in
          match candidate n p lines with
          | Some line => import_candidate E bi (module_of W encl) line alias builtin
          | None =>
            match file_of W fobj with
            | Some lines => match candidate fn p lines with
                            | Some line => import_candidate E bi (module_of W fobj) line alias builtin
                            | None => None end              (* TypeError *)
            | None => None
            end
          end
        | _, _, _ => None
        end
      end
  end.
(** the loop over the free variables [dill/source.py:845-869] *)
Fixpoint function_vars (E : env) (bi : dict string nat) (W : objects) (func : nat) (alias : string) (builtin : bool) (vars : list (string * nat)) (acc : dict string string) : option (dict string string) :=
  match vars with
  | [] => Some acc
  | (name, o) :: vars =>
    if is_function W o then
      match function_var E bi W func alias builtin name o with
      | Some (k, t) => function_vars E bi W func alias builtin vars (set k t acc)
      | None => None
      end
    else function_vars E bi W func alias builtin vars acc
  end.
(** _closuredimport(func, alias, builtin); None: an exception [dill/source.py:839-889] *)
Definition closuredimport (E : env) (bi : dict string nat) (W : objects) (func : nat) (alias : string) (builtin : bool) : option (dict string string) :=
  match function_vars E bi W func alias builtin (free W func) [] with
  | None => None
  | Some [] =>
    let own := match import_of W func with Some t => Some [(called W func, t)] | None => None end in
    match outermost W func with
    | None => own
    | Some o =>
      match module_of W o with
      | None => own
      | Some m =>
        if Nat.eqb o func then own
        else match file_of W o, name_of W o with
             | Some lines, Some n =>
               match candidate n (n ++ "(") lines with
               | Some line => match import_candidate E bi (Some m) line alias builtin with Some (v, t) => Some [(v, t)] | None => None end
               | None => None
               end
             | _, _ => None
             end
      end
    end
  | Some d => Some d
  end.

(** importable's view of these objects: the import branch is _closuredimport [dill/source.py:955-967] *)
Definition importing (E : env) (bi : dict string nat) (W : objects) (alias : string) (builtin : bool) (rest : ImportableModel.world) : ImportableModel.world :=
  {| frommain := frommain rest; isbuiltin_ := isbuiltin_ rest; isinst := isinst rest; inst_import := inst_import rest;
     closure_imports := fun x => match x with Obj o => option_map (map snd) (closuredimport E bi W o alias builtin) | Globals _ => closure_imports rest x end;
     closure_sources := closure_sources rest; globalvars_ := globalvars_ rest; source_as := source_as rest |}.
