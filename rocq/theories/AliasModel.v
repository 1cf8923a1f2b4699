(** getsource with alias and lstrip: dill/source.py:350-441, _outdent 514-524, getname of a lambda 605-621; and the running of the texts it gives.
    Simplified: the lines getsourcelines found (BlocksModel, FindModel) and repr(object) are parameters; force=False; the module is known; characters below 256. *)
From Coq Require Import String Ascii List Bool Arith.
From Verif Require Import PyDict DescrModel CheckModel FindModel BlocksModel NamesModel DumpsourceModel.
Import ListNotations.
Local Open Scope string_scope.

(** ** the text *)
(** lines[i][k:] [dill/source.py:523] *)
Fixpoint drop (k : nat) (s : string) : string := match k, s with S k, String _ s => drop k s | _, _ => s end.
(** _outdent(lines): the indentation of the first line is cut from each [dill/source.py:514-524] *)
Definition outdent (lines : list string) : list string :=
  let k := indentsize (nth 0 lines "") in
  map (fun l => drop (if Nat.ltb (indentsize l) k then indentsize l else k) l) lines.
(** str.strip() [dill/source.py:426, 433, 621] *)
Fixpoint rstrip (s : string) : string :=
  match s with EmptyString => "" | String c r => match rstrip r with EmptyString => if is_space c then "" else String c "" | r => String c r end end.
(** str.strip() [dill/source.py:426, 433, 621] *)
Definition strip (s : string) : string := rstrip (lstrip s).
(** line.split('=')[0] [dill/source.py:426, 433, 621] *)
Fixpoint before_eq (s : string) : string := match s with EmptyString => "" | String c r => if Ascii.eqb c "=" then "" else String c (before_eq r) end.
(** how many lines are decorators: the loop [dill/source.py:417-419] *)
Fixpoint at_lines (lines : list string) : nat := match lines with l :: r => if startswith "@" l then S (at_lines r) else 0 | [] => 0 end.
(** the line appended for an alias [dill/source.py:423, 430, 439] *)
Definition alias_line (alias name : string) : string := nl ++ alias ++ " = " ++ name ++ nl.
(** lines.append(...) unless the name is the alias [dill/source.py:422-423, 429-430, 438-439] *)
Definition with_name (alias name : string) (lines : list string) : list string :=
  if String.eqb alias name then lines else (lines ++ [alias_line alias name])%list.
(** '%s = %s' % (alias, lines[i]) unless the line assigns to the alias first [dill/source.py:426-427, 433-434] *)
Definition with_prefix (alias line : string) : string :=
  if String.eqb alias (strip (before_eq line)) then line else alias ++ " = " ++ line.
(** the i-th line changed [dill/source.py:427, 434] *)
Fixpoint change (f : string -> string) (i : nat) (lines : list string) : list string :=
  match lines, i with l :: r, 0 => f l :: r | l :: r, S i => l :: change f i r | [], _ => [] end.
(** what the object is: a callable with code, of that __name__; a class, of that __name__; an instance, of that repr [dill/source.py:368-371, 414-440] *)
Inductive object := Callable (name : string) | Class (name : string) | Instance (repr : string).
(** what is added to the lines for an alias; None: IndexError [dill/source.py:413-440] *)
Definition aliased (x : object) (alias : string) (lines : list string) : option (list string) :=
  match x with
  | Callable name =>
    let i := at_lines lines in
    match nth_error lines i with
    | None => None
    | Some l =>
      if startswith "def " (lstrip l) then Some (with_name alias name lines)
      else if contains "lambda " l then Some (change (with_prefix alias) i lines)
      else Some (with_name alias name lines)
    end
  | Class name => Some (with_name alias name lines)
  | Instance _ => Some (change (with_prefix alias) (List.length lines - 1) lines)
  end.
(** getsource(object, alias, lstrip); [lines]: what getsourcelines gave; an instance's repr has a '(' [dill/source.py:350-441] *)
Definition getsource (x : object) (alias : string) (lstrip_ : bool) (lines : list string) : option string :=
  let lines := if lstrip_ || negb (String.eqb alias "") then outdent lines else lines in
  let lines := match x with Instance r => (lines ++ [(r ++ nl)%string])%list | _ => lines end in
  match (if String.eqb alias "" then Some lines else aliased x alias lines) with
  | Some l => Some (String.concat "" l)
  | None => None
  end.
(** getname(obj) of a callable: its __name__, or the text before the first '=' of the source of a lambda [dill/source.py:615-621] *)
Definition getname (name : string) (lines : list string) : option string :=
  if String.eqb name "<lambda>" then match getsource (Callable name) "" false lines with Some t => Some (strip (before_eq t)) | None => None end
  else Some name.

(** ** running a text: the part of Python that is needed *)
(** [proc]: the object made by the text of an expression, or of a def or class statement with its decorators; [namespace]: the variables [exec of the texts of dill/source.py:350-441] *)
Notation made := (list string -> nat) (only parsing).
(** [exec of the texts of dill/source.py:350-441] *)
Notation namespace := (dict string nat) (only parsing).

(** open brackets after a line that starts with [d] open, [q] being the string literal one is in; None: a closing bracket without its opening one.
    Simplified: literals of one line, no backslashes [the logical lines of Python, for the texts of dill/source.py:350-441] *)
Fixpoint depth (q : option ascii) (d : nat) (s : string) : option nat :=
  match s with
  | EmptyString => Some d
  | String c r =>
    match q with
    | Some a => depth (if Ascii.eqb c a then None else q) d r
    | None =>
      if Ascii.eqb c "#" then Some d
      else if Ascii.eqb c apos || Ascii.eqb c dquote then depth (Some c) d r
      else if has_char c "([{" then depth None (S d) r
      else if has_char c ")]}" then match d with 0 => None | S d => depth None d r end
      else depth None d r
    end
  end.
(** t1 = t2 = ... = e: the targets and e [assignment statements of Python, for the texts of dill/source.py:350-441] *)
Fixpoint targets (fuel : nat) (s : string) : list string * string :=
  match fuel with
  | 0 => ([], s)
  | S fuel =>
    let (n, r) := span s in
    if is_name n then
      match lstrip r with
      | String c r' => if Ascii.eqb c "=" && negb (startswith "=" r') then let (ts, e) := targets fuel (lstrip r') in (n :: ts, e) else ([], s)
      | EmptyString => ([], s)
      end
    else ([], s)
  end.
(** the keywords an expression can begin with [the syntax of Python, for the texts of dill/source.py:350-441] *)
Definition expr_words : list string := ["lambda"; "not"; "None"; "True"; "False"; "await"].
(** whether a text can be an expression, as far as its first word and the character after it show [the syntax of Python, for the texts of dill/source.py:350-441] *)
Definition expr_ok (s : string) : bool :=
  match s with
  | EmptyString => false
  | String c _ =>
    if is_start c then
      let (n, r) := span s in
      (is_name n || memb n expr_words) && (String.eqb n "lambda" || negb (startswith ":" (lstrip r)))
    else has_char c "0123456789([{-+~." || Ascii.eqb c apos || Ascii.eqb c dquote
  end.
(** the value of an expression [exec of the texts of dill/source.py:350-441] *)
Definition eval (P : made) (g : namespace) (e : string) : option nat :=
  if is_name e then get e g else if expr_ok e then Some (P [e]) else None.
(** binding some names to one object [exec of the texts of dill/source.py:350-441] *)
Fixpoint bind (ts : list string) (v : nat) (g : namespace) : namespace := match ts with [] => g | t :: ts => bind ts v (set t v g) end.
(** a statement of one logical line: an assignment, an annotated assignment, an expression [exec of the texts of dill/source.py:350-441] *)
Definition simple (P : made) (s : string) (g : namespace) : option namespace :=
  let (ts, e) := targets (String.length s) s in
  match ts with
  | _ :: _ => match eval P g (rstrip e) with Some v => Some (bind ts v g) | None => None end
  | [] =>
    let (n, r) := span s in
    match is_name n, lstrip r with
    | true, String ":" r =>
      let e := snd (targets 1 ("_" ++ drop (String.length (before_eq r)) r)) in
      match eval P g (rstrip e) with Some v => Some (set n v g) | None => None end
    | _, _ => match eval P g (rstrip s) with Some _ => Some g | None => None end
    end
  end.
(** the name a def or class statement binds [exec of the texts of dill/source.py:350-441] *)
Definition header (s : string) : option string :=
  let name r := let n := fst (span r) in if is_name n then Some n else None in
  match drop_prefix "def " s with
  | Some r => name r
  | None => match drop_prefix "async def " s with
            | Some r => name r
            | None => match drop_prefix "class " s with Some r => name r | None => None end
            end
  end.
(** where one is: at the start of a statement; after decorators; in the body of a def or class; in brackets.  [acc]: the lines of the statement so far, last first *)
Inductive state :=
| Idle (g : namespace)
| Hats (acc : list string) (g : namespace)
| Block (name : string) (acc : list string) (g : namespace)
| Open (d : nat) (before acc : list string) (g : namespace).
(** the text of a def or class statement: without the empty lines at its end [exec of the texts of dill/source.py:350-441] *)
Fixpoint trim (acc : list string) : list string := match acc with l :: r => if all_space l then trim r else acc | [] => [] end.
(** a logical line is complete; [acc]: its lines, last first, [before]: the decorators before it [exec of the texts of dill/source.py:350-441] *)
Definition logical (P : made) (before acc : list string) (g : namespace) : option state :=
  let s := unlines (rev acc) in
  if startswith "@" s then Some (Hats (acc ++ before)%list g)
  else match header s with
       | Some n => Some (Block n (acc ++ before)%list g)
       | None => match before with
                 | [] => match simple P s g with Some g => Some (Idle g) | None => None end
                 | _ => None
                 end
       end.
(** a line at the start of a statement, or after decorators [exec of the texts of dill/source.py:350-441] *)
Definition start (P : made) (before : list string) (g : namespace) (l : string) : option state :=
  if match l with String c _ => is_space c | EmptyString => true end then None                     (* IndentationError *)
  else match depth None 0 l with
       | None => None
       | Some 0 => logical P before [l] g
       | Some d => Some (Open d before [l] g)
       end.
(** one line [exec of the texts of dill/source.py:350-441] *)
Definition step (P : made) (st : option state) (l : string) : option state :=
  match st with
  | None => None
  | Some (Idle g) => if all_space l then Some (Idle g) else start P [] g l
  | Some (Hats acc g) => if all_space l then Some (Hats acc g) else start P acc g l
  | Some (Block n acc g) =>
    match l with
    | EmptyString => Some (Block n (l :: acc) g)
    | String c _ => if is_space c then Some (Block n (l :: acc) g) else start P [] (set n (P (rev (trim acc))) g) l
    end
  | Some (Open d before acc g) =>
    match depth None d l with
    | None => None
    | Some 0 => logical P before (l :: acc) g
    | Some d => Some (Open d before (l :: acc) g)
    end
  end.
(** the end of the text [exec of the texts of dill/source.py:350-441] *)
Definition finish (P : made) (st : option state) : option namespace :=
  match st with
  | Some (Idle g) => Some g
  | Some (Block n acc g) => Some (set n (P (rev (trim acc))) g)
  | _ => None                                                                                     (* SyntaxError *)
  end.
(** exec(text, g); None: an exception [exec of the texts of dill/source.py:350-441] *)
Definition exec (P : made) (text : string) (g : namespace) : option namespace := finish P (fold_left (step P) (split lf text) (Some (Idle g))).
