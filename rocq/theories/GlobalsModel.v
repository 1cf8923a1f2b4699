(** dill/detect.py: nestedcode (60-71), code (73-83), freevars (117-136), nestedglobals (139-162),
    globalvars (168-218).
    Simplified: sets are lists (the order in which a set is iterated does not matter to the results);
    dis.dis is the list of instructions that carry a name, in source form only in [parse_line]. *)
From Coq Require Import String Ascii List Bool Arith.
From Verif Require Import PyDict.
Import ListNotations.
Local Open Scope string_scope.

Notation oid := nat (only parsing).

(** instructions that name a global or builtin: LOAD/STORE/DELETE_GLOBAL, or LOAD_NAME (class bodies) *)
Inductive op := OpGlobal | OpName.
(** a code object: [co_name], the named instructions of its own body, co_names, co_freevars, and co_consts, where
    None is a constant that is not a code object [the attributes read in dill/detect.py:60-83, 122-127, 177-214] *)
Inductive code := Code (co_name : string) (instrs : list (op * string)) (co_names co_freevars : list string) (consts : list (option code)).
(** [the attributes read in dill/detect.py:60-83, 122-127, 177-214] *)
Definition co_name (c : code) := let (n, _, _, _, _) := c in n.
(** [the attributes read in dill/detect.py:60-83, 122-127, 177-214] *)
Definition co_instrs (c : code) := let (_, i, _, _, _) := c in i.
(** [the attributes read in dill/detect.py:60-83, 122-127, 177-214] *)
Definition co_names (c : code) := let (_, _, n, _, _) := c in n.
(** [the attributes read in dill/detect.py:60-83, 122-127, 177-214] *)
Definition co_freevars (c : code) := let (_, _, _, f, _) := c in f.
(** [the attributes read in dill/detect.py:60-83, 122-127, 177-214] *)
Definition co_consts (c : code) := let (_, _, _, _, k) := c in k.

(** nestedglobals: the names on the lines with '_GLOBAL' in dis.dis(code), which includes nested code, and
    those of the code constants again [dill/detect.py:139-162] *)
Fixpoint nestedglobals (c : code) : list string :=
  match c with
  | Code _ instrs _ _ consts =>
    (map snd (filter (fun p => match fst p with OpGlobal => true | OpName => false end) instrs) ++
     flat_map (fun k => match k with Some c => nestedglobals c | None => [] end) consts)%list
  end.

(** nestedcode(code, recurse) [dill/detect.py:60-71] *)
Fixpoint nestedcode (c : code) : list code :=
  match c with
  | Code _ _ _ _ consts => flat_map (fun k => match k with Some c => c :: nestedcode c | None => [] end) consts
  end.
(** [dill/detect.py:60-71] *)
Definition nestedcode1 (c : code) : list code :=
  flat_map (fun k => match k with Some c => [c] | None => [] end) (co_consts c).

(** objects; a function has its code, its globals dictionary and its cells ([None]: an empty cell) [what globalvars and freevars are given, dill/detect.py:117-136, 168-218] *)
Inductive obj :=
| OFunc (co : code) (globals : dict string oid) (closure : list (option oid))
| OMethod (func : oid)
| OCode (co : code)
| OOther.

(** [the for loops of dill/detect.py:177-216, stopping at the first exception] *)
Fixpoint fold_opt {A B} (f : A -> B -> option A) (l : list B) (a : A) : option A :=
  match l with [] => Some a | b :: l => match f a b with Some a' => fold_opt f l a' | None => None end end.

(** dict((name, globs[name]) for name in names if name in globs) [dill/detect.py:218] *)
Definition pick (names : list string) (globs : dict string oid) : dict string oid :=
  fold_left (fun d n => match get n globs with Some v => set n v d | None => d end) names [].

(** line 172: ismethod(func): func = func.__func__ *)
Definition unmethod (H : oid -> obj) (o : oid) : oid := match H o with OMethod f => f | _ => o end.

(** one closure cell, lines 177-185: the names and globals found so far *)
Definition cell_step (gv : oid -> option (dict string oid)) (st : list string * dict string oid) (cell : option oid) : option (list string * dict string oid) :=
  match cell with
  | None => Some st
  | Some c => match gv c with
              | Some vars => Some ((fst st ++ keys vars)%list, update (snd st) vars)
              | None => None
              end
  end.
(** one name, lines 194-199 *)
Definition name_step (gv : oid -> option (dict string oid)) (globs : dict string oid) (orig : oid) (names : list string) (key : string) : option (list string) :=
  match get key globs with
  | None => Some names                                   (* globalvars(None) is {} *)
  | Some x => if Nat.eqb x orig then Some names
              else match gv x with Some vars => Some (names ++ keys vars)%list | None => None end
  end.
(** ... of a code object, lines 209-214 *)
Definition name_step_code (gv : oid -> option (dict string oid)) (globs : dict string oid) (orig : string) (names : list string) (key : string) : option (list string) :=
  if String.eqb key orig then Some names
  else match get key globs with
       | None => Some names
       | Some x => match gv x with Some vars => Some (names ++ keys vars)%list | None => None end
       end.

(** globalvars(o, recurse, builtin); [bi] is the dictionary of builtins; None: recursion deeper than [fuel] [dill/detect.py:168-218] *)
Fixpoint globalvars (fuel : nat) (H : oid -> obj) (bi : dict string oid) (recurse builtin : bool) (o : oid) : option (dict string oid) :=
  match fuel with
  | 0 => None
  | S fuel =>
    let gv := globalvars fuel H bi recurse builtin in
    let gvT := globalvars fuel H bi true builtin in
    let globs0 := if builtin then bi else [] in
    match H (unmethod H o) with
    | OFunc co g cells =>
      match fold_opt (cell_step gv) cells ([], globs0) with
      | None => None
      | Some (names, globs) =>
        let globs := update globs g in
        if recurse then
          let names := (names ++ nestedglobals co)%list in
          match fold_opt (name_step gvT globs (unmethod H o)) names names with
          | Some names => Some (pick names globs)
          | None => None
          end
        else Some (pick (names ++ co_names co)%list globs)
      end
    | OCode co =>
      if recurse then
        let names := nestedglobals co in
        match fold_opt (name_step_code gvT globs0 (co_name co)) names names with
        | Some names => Some (pick names globs0)
        | None => None
        end
      else Some (pick (co_names co) globs0)
    | _ => Some []
    end
  end.

(** freevars(func) [get_cell_contents, dill/detect.py:128-134] *)
Definition cell_contents (cells : list (option oid)) (names : list string) : dict string oid :=
  fold_left (fun d p => match snd p with Some v => set (fst p) v d | None => d end) (combine names cells) [].
(** [dill/detect.py:117-136] *)
Definition freevars (H : oid -> obj) (o : oid) : dict string oid :=
  match H (unmethod H o) with
  | OFunc co _ cells => cell_contents cells (co_freevars co)
  | _ => []
  end.

(** reading a name off a disassembly line, lines 152-158: line.split('(')[-1].split(')')[0], then
    replace('NULL + ', '') and replace(' + NULL', '') *)
Fixpoint has_char (ch : ascii) (s : string) : bool :=
  match s with EmptyString => false | String b s' => Ascii.eqb b ch || has_char ch s' end.
(** the part after the last [ch]; the whole string if there is none [str.split and str.replace as used in dill/detect.py:152-158] *)
Fixpoint after_last (ch : ascii) (s : string) : string :=
  match s with
  | EmptyString => EmptyString
  | String a r => if Ascii.eqb a ch || has_char ch r then after_last ch r else s
  end.
(** [str.split and str.replace as used in dill/detect.py:152-158] *)
Fixpoint before_first (ch : ascii) (s : string) : string :=
  match s with EmptyString => EmptyString | String a r => if Ascii.eqb a ch then EmptyString else String a (before_first ch r) end.
(** [str.split and str.replace as used in dill/detect.py:152-158] *)
Fixpoint strip_prefix (p s : string) : option string :=
  match p, s with
  | EmptyString, _ => Some s
  | String a p', String b s' => if Ascii.eqb a b then strip_prefix p' s' else None
  | _, EmptyString => None
  end.
(** s.replace(p, '') for non-empty p [str.split and str.replace as used in dill/detect.py:152-158] *)
Fixpoint remove_all (fuel : nat) (p s : string) : string :=
  match fuel with
  | 0 => s
  | S f => match strip_prefix p s with
           | Some r => remove_all f p r
           | None => match s with EmptyString => EmptyString | String a r => String a (remove_all f p r) end
           end
  end.
(** [str.split and str.replace as used in dill/detect.py:152-158] *)
Definition replace (p s : string) : string := remove_all (S (String.length s)) p s.
(** [dill/detect.py:152-158] *)
Definition parse_line (can_null : bool) (line : string) : string :=
  let name := before_first ")" (after_last "(" line) in
  if can_null then replace " + NULL" (replace "NULL + " name) else name.
