(** dumpsource: dill/source.py:552-602 (_enclose, dumpsource), 483-511 (indent), and the statements it writes, as Python runs them.
    The pickle is a string of bytes (dumps), the text a string of characters below 256; loads is a parameter of the process that runs the text. *)
From Coq Require Import String Ascii List Bool Arith NArith.
From Verif Require Import PyDict NamesModel DescrModel CheckModel.
Import ListNotations.
Local Open Scope string_scope.

(** [newlines in text; not in /repo] *)
Definition lf : ascii := ascii_of_nat 10.
(** [newlines in text; not in /repo] *)
Definition nl : string := String lf EmptyString.
(** [newlines in text; not in /repo] *)
Fixpoint unlines (l : list string) : string := match l with [] => "" | [x] => x | x :: l => x ++ nl ++ unlines l end.
(** [str.strip() == "", dill/source.py:510] *)
Fixpoint all_space (s : string) : bool := match s with EmptyString => true | String c s => is_space c && all_space s end.

(** indent(code), 483-511.  Simplified: the first line of the code is not indented, so no line is less indented than it (IndentModel has the general case) *)
Definition indent4 (code : string) : string :=
  let ls := map (fun l => "    " ++ l) (split lf code) in
  unlines (if all_space (last ls "") then (removelast ls ++ [""])%list else ls).

(** 555-556, 577 *)
Definition fn : string := "__this_is_a_big_dummy_enclosing_function__".
(** [dill/source.py:556, 578] *)
Definition stub : string := "__this_is_a_stub_variable__".
(** _enclose, 552-563; [src] is getsource(object, alias=stub, lstrip=True, force=True) *)
Definition enclose_ (src alias : string) : string :=
  "def " ++ fn ++ "():" ++ nl ++ indent4 src ++ indent4 ("return " ++ stub ++ nl)
  ++ (if String.eqb alias "" then "" else alias ++ " = ") ++ fn ++ "(); del " ++ fn ++ nl.

(** '\n'.join(l[-3:]) [dill/source.py:599-600] *)
Definition last3 (l : list string) : list string := skipn (List.length l - 3) l.
(** dumpsource, 566-602: [b] is dumps(object), [src] the source of the dummy string; [new]: the object is an instance and new=True; then the text of
    its class (getsource) and its __module__ *)
Definition dumpsource (b alias src : string) (new : option (string * string)) (enclose : bool) : string :=
  let pre := if enclose then stub ++ " = " else if String.eqb alias "" then "" else alias ++ " = " in
  let new := if enclose then None else new in
  let code := "import dill" ++ nl ++
    match new with
    | None => pre ++ "dill.loads(" ++ bytes_repr b ++ ")" ++ nl
    | Some (cls, m) => cls ++ pre ++ "dill.loads(" ++ bytes_repr b ++ ".replace(b'" ++ m ++ "',bytes(__name__,""UTF-8"")))" ++ nl
    end in
  if enclose then
    let dummy := split lf (enclose_ src alias) in
    hd "" dummy ++ nl ++ indent4 code ++ unlines (last3 dummy)
  else code.

(** ** running the text [CPython, running the text of dill/source.py:566-602] *)
Inductive value := VObj (o : nat) | VDill | VFunc (body : list string).
Notation space := (dict string value) (only parsing).
(** the process: dill.loads (None: an exception) and the __name__ of the module the text runs in [CPython, running the text of dill/source.py:566-602] *)
Record proc := Proc { loads : string -> option nat; mod_name : string }.
(** [CPython, running the text of dill/source.py:566-602] *)
Definition keywords : list string := ["False"; "None"; "True"; "and"; "as"; "assert"; "async"; "await"; "break"; "class"; "continue"; "def"; "del"; "elif"; "else"; "except";
  "finally"; "for"; "from"; "global"; "if"; "import"; "in"; "is"; "lambda"; "nonlocal"; "not"; "or"; "pass"; "raise"; "return"; "try"; "while"; "with"; "yield"].
(** [CPython, running the text of dill/source.py:566-602] *)
Definition is_name (s : string) : bool := is_ident s && negb (memb s keywords).
(** the longest prefix made of the characters of names [CPython, running the text of dill/source.py:566-602] *)
Fixpoint span (s : string) : string * string :=
  match s with String c r => if is_name_char c then let (w, t) := span r in (String c w, t) else ("", s) | EmptyString => ("", "") end.

(** bytes.replace(old, new), old not empty [bytes.replace, in the text of dill/source.py:591] *)
Fixpoint replace_aux (fuel : nat) (old new b : string) : string :=
  match fuel with
  | 0 => b
  | S fuel => match drop_prefix old b with
              | Some r => new ++ replace_aux fuel old new r
              | None => match b with String c r => String c (replace_aux fuel old new r) | EmptyString => "" end
              end
  end.
(** [bytes.replace, in the text of dill/source.py:591] *)
Definition replace (old new b : string) : string := replace_aux (S (String.length b)) old new b.

(** expressions: dill.loads(b'...'), dill.loads(b'...'.replace(b'm',bytes(__name__,"UTF-8"))), a call f(), a name [CPython, running the text of dill/source.py:552-602] *)
Inductive expr := ELoads (b : string) | ELoadsNew (b m : string) | ECall (f : string) | EName (x : string).
(** [CPython, running the text of dill/source.py:552-602] *)
Definition parse_expr (s : string) : option (expr * string) :=
  match drop_prefix "dill.loads(" s with
  | Some (String "b" (String q r)) =>
    if Ascii.eqb q apos || Ascii.eqb q dquote then
      match read_bytes q r with
      | None => None
      | Some (b, rest) =>
        match drop_prefix ")" rest with
        | Some t => Some (ELoads b, t)
        | None => match drop_prefix ".replace(b'" rest with
                  | None => None
                  | Some r => let (m, r) := span r in
                              match drop_prefix "',bytes(__name__,""UTF-8"")))" r with Some t => Some (ELoadsNew b m, t) | None => None end
                  end
        end
      end
    else None
  | Some _ => None
  | None => let (x, r) := span s in
            if is_name x then match drop_prefix "()" r with Some t => Some (ECall x, t) | None => Some (EName x, r) end else None
  end.
(** [CPython, running the text of dill/source.py:552-602] *)
Inductive stmt := SImport | SAssign (x : string) (e : expr) | SExpr (e : expr) | SDel (x : string) | SReturn (x : string) | SDef (f : string).
(** [CPython, running the text of dill/source.py:552-602] *)
Definition parse_simple (s : string) : option (stmt * string) :=
  let (w, r) := span s in
  if String.eqb w "import" then match drop_prefix " dill" r with Some t => Some (SImport, t) | None => None end
  else if String.eqb w "del" then match drop_prefix " " r with Some r => let (x, t) := span r in if is_name x then Some (SDel x, t) else None | None => None end
  else if String.eqb w "return" then match drop_prefix " " r with Some r => let (x, t) := span r in if is_name x then Some (SReturn x, t) else None | None => None end
  else if String.eqb w "def" then
    match drop_prefix " " r with
    | Some r => let (f, t) := span r in if is_name f then match drop_prefix "():" t with Some t => Some (SDef f, t) | None => None end else None
    | None => None end
  else match drop_prefix " = " r with
       | Some r' => if is_name w then match parse_expr r' with Some (e, t) => Some (SAssign w e, t) | None => None end else None
       | None => match parse_expr s with Some (e, t) => Some (SExpr e, t) | None => None end
       end.
(** a line: statements separated by '; '; None: not in this language [CPython, running the text of dill/source.py:552-602] *)
Fixpoint parse_line (fuel : nat) (s : string) : option (list stmt) :=
  match fuel with
  | 0 => None
  | S fuel => match parse_simple s with
              | None => None
              | Some (st, "") => Some [st]
              | Some (st, t) => match drop_prefix "; " t with
                                | Some r => match parse_line fuel r with Some l => Some (st :: l) | None => None end
                                | None => None end
              end
  end.
(** [CPython, running the text of dill/source.py:552-602] *)
Definition parse (s : string) : option (list stmt) := parse_line (S (String.length s)) s.

(** reading a name: the local names, then the global ones [CPython, running the text of dill/source.py:552-602] *)
Definition look (l g : space) (x : string) : option value := match get x l with Some v => Some v | None => get x g end.
(** an expression without calls; None: an exception [CPython, running the text of dill/source.py:552-602] *)
Definition eval_ (P : proc) (l g : space) (e : expr) : option value :=
  let load b := match look l g "dill" with Some VDill => option_map VObj (loads P b) | _ => None end in
  match e with
  | ELoads b => load b
  | ELoadsNew b m => load (replace m (mod_name P) b)
  | EName x => look l g x
  | ECall _ => None
  end.
(** the body of a function: the names it binds are its own.  Some v: it returns v; the functions here end by a return [CPython, running the text of dill/source.py:552-602] *)
Fixpoint run_body (P : proc) (g : space) (sts : list stmt) (l : space) : option value :=
  match sts with
  | [] => None
  | SImport :: r => run_body P g r (set "dill" VDill l)
  | SAssign x e :: r => match eval_ P l g e with Some v => run_body P g r (set x v l) | None => None end
  | SExpr e :: r => match eval_ P l g e with Some _ => run_body P g r l | None => None end
  | SReturn x :: _ => look l g x
  | _ => None
  end.
(** [CPython, running the text of dill/source.py:552-602] *)
Fixpoint parse_all (ls : list string) : option (list stmt) :=
  match ls with
  | [] => Some []
  | x :: r => match parse x, parse_all r with Some a, Some b => Some (a ++ b)%list | _, _ => None end
  end.
(** [CPython, running the text of dill/source.py:552-602] *)
Definition call (P : proc) (g : space) (f : string) : option value :=
  match get f g with
  | Some (VFunc body) => match parse_all body with Some sts => run_body P g sts [] | None => None end
  | _ => None
  end.
(** [CPython, running the text of dill/source.py:552-602] *)
Definition eval_top (P : proc) (g : space) (e : expr) : option value := match e with ECall f => call P g f | _ => eval_ P [] g e end.
(** [CPython, running the text of dill/source.py:552-602] *)
Fixpoint run_top (P : proc) (sts : list stmt) (g : space) : option space :=
  match sts with
  | [] => Some g
  | SImport :: r => run_top P r (set "dill" VDill g)
  | SAssign x e :: r => match eval_top P g e with Some v => run_top P r (set x v g) | None => None end
  | SExpr e :: r => match eval_top P g e with Some _ => run_top P r g | None => None end
  | SDel x :: r => match get x g with Some _ => run_top P r (del x g) | None => None end
  | _ => None
  end.
(** the indented lines at the beginning, without their indentation, and the others [CPython, running the text of dill/source.py:552-602] *)
Fixpoint block (ls : list string) : list string * list string :=
  match ls with
  | x :: r => match drop_prefix "    " x with Some y => let (b, t) := block r in (y :: b, t) | None => ([], ls) end
  | [] => ([], [])
  end.
(** the lines of a module; empty lines are skipped [CPython, running the text of dill/source.py:552-602] *)
Fixpoint run_lines (fuel : nat) (P : proc) (ls : list string) (g : space) : option space :=
  match fuel with
  | 0 => None
  | S fuel =>
    match ls with
    | [] => Some g
    | "" :: r => run_lines fuel P r g
    | x :: r => match parse x with
                | Some [SDef f] => let (body, r) := block r in match body with [] => None | _ => run_lines fuel P r (set f (VFunc body) g) end
                | Some sts => match run_top P sts g with Some g => run_lines fuel P r g | None => None end
                | None => None
                end
    end
  end.
(** exec(text, g): the global names afterwards; None: an exception [CPython, running the text of dill/source.py:552-602] *)
Definition exec (P : proc) (text : string) (g : space) : option space :=
  let ls := split lf text in run_lines (S (List.length ls)) P ls g.

(** for the bytes of pickles, as numbers [notation of bytes; not in /repo] *)
Definition bytes_of (s : string) : list N := map N_of_ascii (list_ascii_of_string s).
