(** File handles: dill/_dill.py:829-898 (_create_filehandle) and 1390-1414 (_save_file).
    [open], [os.open], [os.fdopen], [tempfile.TemporaryFile] on a file system of plain files. *)
From Coq Require Import String Ascii List Bool Arith.
From Verif Require Import PyDict.
Import ListNotations.
Local Open Scope string_scope.

(** contents as bytes; a str is represented by its encoding (strict UTF-8: [decodable] tells which
    byte strings are encodings) *)
Notation bytes := (list nat) (only parsing).

(** ** modes, as reported by the handle's .mode [obj.mode, dill/_dill.py:1411] *)
Inductive mkind := R | W | A | X.
(** [obj.mode, dill/_dill.py:1411] *)
Record mode := Mode { m_kind : mkind; m_plus : bool; m_bin : bool }.
(** FileIO reports a binary handle opened with "w+b" as "rb+" (CPython fileio.c mode_string) *)
Definition reported (m : mode) : mode :=
  match m_kind m with W => if m_plus m && m_bin m then {| m_kind := R; m_plus := true; m_bin := true |} else m | _ => m end.
(** ["w" in mode, "r" in mode, dill/_dill.py:850, 866-868, 876] *)
Definition is_kind (k : mkind) (m : mode) : bool :=
  match k, m_kind m with R, R | W, W | A, A | X, X => true | _, _ => false end.

(** ** file system [the file system and the standard streams; not in /repo] *)
Inductive node := NFile (content : list nat) (readable writable : bool) | NDir.
(** [std i]: the process's own stdin, stdout, stderr (0,1,2): (closed, position) [the file system and the standard streams; not in /repo] *)
Record world := World { fs : dict string node; creatable : string -> bool; decodable : list nat -> bool;
                        std : nat -> bool * nat }.
(** [the file system and the standard streams; not in /repo] *)
Definition set_node (n : string) (x : node) (w : world) : world :=
  {| fs := set n x (fs w); creatable := creatable w; decodable := decodable w; std := std w |}.
(** [the file system and the standard streams; not in /repo] *)
Definition set_std (i : nat) (x : bool * nat) (w : world) : world :=
  {| fs := fs w; creatable := creatable w; decodable := decodable w; std := fun j => if Nat.eqb i j then x else std w j |}.

(** [dill/_dill.py:848-849, 857-858, 891-893] *)
Inductive exn := OSError | FileNotFoundError | ValueError | TypeError | AttributeError | UnicodeDecodeError | UnpicklingError.
(** [a value or an exception; not in /repo] *)
Inductive res (A : Type) := Ok (a : A) | Err (e : exn).
Arguments Ok {A}. Arguments Err {A}.

(** A handle: a named file, an anonymous temporary file, or a standard stream [a file object, dill/_dill.py:1390-1414; CPython io] *)
Inductive target := TNamed (n : string) | TTemp | TStd (i : nat).
(** [a file object, dill/_dill.py:1390-1414; CPython io] *)
Record handle := Handle { h_target : target; h_mode : mode; h_pos : nat; h_closed : bool }.

(** [CPython open(name, mode), called at dill/_dill.py:866, 870, 883, 890, 1400] *)
Definition needs_read (m : mode) : bool := is_kind R m || m_plus m.
(** [CPython open(name, mode), called at dill/_dill.py:866, 870, 883, 890, 1400] *)
Definition needs_write (m : mode) : bool := negb (is_kind R m) || m_plus m.

(** open(name, mode) [CPython open(name, mode), called at dill/_dill.py:866, 870, 883, 890, 1400] *)
Definition open_ (n : string) (m : mode) (w : world) : res handle * world :=
  match get n (fs w) with
  | None =>
    match m_kind m with
    | R => (Err OSError, w)
    | _ => if creatable w n then (Ok {| h_target := TNamed n; h_mode := m; h_pos := 0; h_closed := false |}, set_node n (NFile [] true true) w)
           else (Err OSError, w)
    end
  | Some NDir => (Err OSError, w)
  | Some (NFile c r wr) =>
    if (needs_read m && negb r) || (needs_write m && negb wr) then (Err OSError, w)
    else match m_kind m with
         | X => (Err OSError, w)
         | W => (Ok {| h_target := TNamed n; h_mode := m; h_pos := 0; h_closed := false |}, set_node n (NFile [] r wr) w)
         | A => (Ok {| h_target := TNamed n; h_mode := m; h_pos := length c; h_closed := false |}, w)
         | R => (Ok {| h_target := TNamed n; h_mode := m; h_pos := 0; h_closed := false |}, w)
         end
  end.

(** os.fdopen(os.open(name, O_CREAT | O_RDWR or O_WRONLY), mode), lines 878-888; f.name is set to name *)
Definition open_no_truncate (n : string) (m : mode) (w : world) : res handle * world :=
  let h := {| h_target := TNamed n; h_mode := m; h_pos := 0; h_closed := false |} in
  match get n (fs w) with
  | None => if creatable w n then (Ok h, set_node n (NFile [] true true) w) else (Err OSError, w)
  | Some NDir => (Err OSError, w)
  | Some (NFile c r wr) => if (m_plus m && negb r) || negb wr then (Err OSError, w) else (Ok h, w)
  end.

(** text-mode reading translates line ends (universal newlines) [f.read(), dill/_dill.py:1400-1401; CPython io] *)
Fixpoint universal (l : list nat) : list nat :=
  match l with
  | [] => []
  | 13 :: l' => match l' with 10 :: l'' => 10 :: universal l'' | _ => 10 :: universal l' end
  | b :: l' => b :: universal l'
  end.

(** f.write(text) on a handle just opened with truncation; a binary handle raises TypeError.
    Simplifications: '\n' is written as such (POSIX); writes do not fail. [f.write(fdata), dill/_dill.py:867] *)
Definition write_text (h : handle) (t : list nat) (w : world) : res handle * world :=
  if m_bin (h_mode h) then (Err TypeError, w)
  else match h_target h with
       | TNamed n => match get n (fs w) with
                     | Some (NFile _ r wr) => (Ok {| h_target := h_target h; h_mode := h_mode h; h_pos := length t; h_closed := h_closed h |},
                                               set_node n (NFile t r wr) w)
                     | _ => (Err OSError, w)
                     end
       | _ => (Err OSError, w)
       end.

(** [dill/_dill.py:233-239] *)
Inductive fmode := HANDLE_FMODE | CONTENTS_FMODE | FILE_FMODE.
(** [dill/_dill.py:233-239] *)
Definition is_file_fmode (f : fmode) : bool := match f with FILE_FMODE => true | _ => false end.
(** [dill/_dill.py:233-239] *)
Definition is_contents_fmode (f : fmode) : bool := match f with CONTENTS_FMODE => true | _ => false end.
(** [dill/_dill.py:233-239] *)
Definition is_handle_fmode (f : fmode) : bool := match f with HANDLE_FMODE => true | _ => false end.

(** the arguments stored in the pickle; [None] position is -1 [dill/_dill.py:1411-1413] *)
Record saved := Saved { s_name : string; s_mode : mode; s_pos : option nat; s_closed : bool;
                        s_strictio : bool; s_fmode : fmode; s_data : list nat }.

(** [obj.name]: for the standard streams the names Python gives them [dill/_dill.py:833-836] *)
Definition std_name (i : nat) : string := match i with 0 => "<stdin>" | 1 => "<stdout>" | _ => "<stderr>" end.
(** [dill/_dill.py:833-836] *)
Definition std_of_name (n : string) : option nat :=
  if String.eqb n "<stdin>" then Some 0 else if String.eqb n "<stdout>" then Some 1
  else if String.eqb n "<stderr>" then Some 2 else None.

(** _save_file, lines 1390-1414, for a handle with a str name (not a temporary file) *)
Definition _save_file (strictio : bool) (fm : fmode) (h : handle) (w : world) : res saved :=
  let name := match h_target h with TNamed n => n | TStd i => std_name i | TTemp => "" end in
  let pos := if h_closed h then Some 0 else match h_target h with TStd _ => None | _ => Some (h_pos h) end in
  let data := if is_file_fmode fm then
                match open_ name {| m_kind := R; m_plus := false; m_bin := false |} w with
                | (Err e, _) => Err e
                | (Ok _, _) => match get name (fs w) with
                               | Some (NFile c _ _) => if decodable w c then Ok (universal c) else Err UnicodeDecodeError
                               | _ => Err OSError
                               end
                end
              else Ok [] in
  match data with
  | Err e => Err e
  | Ok d => Ok {| s_name := name; s_mode := reported (h_mode h); s_pos := pos; s_closed := h_closed h;
                  s_strictio := strictio; s_fmode := fm; s_data := d |}
  end.

(** [dill/_dill.py:894-895] *)
Definition close (h : handle) (w : world) : handle * world :=
  ({| h_target := h_target h; h_mode := h_mode h; h_pos := h_pos h; h_closed := true |},
   match h_target h with TStd i => set_std i (true, snd (std w i)) w | _ => w end).
(** [dill/_dill.py:896-897] *)
Definition seek (h : handle) (p : nat) (w : world) : handle * world :=
  ({| h_target := h_target h; h_mode := h_mode h; h_pos := p; h_closed := h_closed h |},
   match h_target h with TStd i => set_std i (fst (std w i), p) w | _ => w end).
(** [tempfile.TemporaryFile(mode), dill/_dill.py:841, 873] *)
Definition temporary (m : mode) : handle := {| h_target := TTemp; h_mode := m; h_pos := 0; h_closed := false |}.

(** the try block, lines 863-893: OSErrors become UnpicklingError, others pass *)
Definition as_unpickling {A} (r : res A * world) : res A * world :=
  match r with
  | (Err OSError, w) | (Err FileNotFoundError, w) => (Err UnpicklingError, w)
  | x => x
  end.

(** lines 894-898 *)
Definition finish (s : saved) (h : handle) (pos : option nat) (w : world) : res handle * world :=
  if s_closed s then let (h, w) := close h w in (Ok h, w)
  else match pos with
       | Some p => if is_handle_fmode (s_fmode s) then (Ok h, w) else let (h, w) := seek h p w in (Ok h, w)
       | None => (Ok h, w)
       end.
(** _create_filehandle, lines 829-898.  The name '<tmpfile>' reaches os.tmpfile, which Python 3 does
    not have. *)
Definition _create_filehandle (s : saved) (w : world) : res handle * world :=
  match std_of_name (s_name s) with
  | Some i => finish s {| h_target := TStd i; h_mode := s_mode s; h_pos := snd (std w i); h_closed := fst (std w i) |} (s_pos s) w
  | None =>
    if String.eqb (s_name s) "<tmpfile>" then (Err AttributeError, w)
    else if String.eqb (s_name s) "<fdopen>" then finish s (temporary (s_mode s)) (s_pos s) w
    else
      let exists_ := match get (s_name s) (fs w) with Some _ => true | None => false end in
      if negb exists_ && s_strictio s then (Err FileNotFoundError, w)
      else
        let temp := negb exists_ && is_kind R (s_mode s) && negb (is_file_fmode (s_fmode s)) in
        let size := match get (s_name s) (fs w) with Some (NFile c _ _) => length c | _ => 0 end in
        let too_far := match s_pos s with Some p => Nat.ltb size p | None => false end in
        if too_far && s_strictio s then (Err ValueError, w)
        else
          let pos := if too_far && is_contents_fmode (s_fmode s) then Some size else s_pos s in
          let opened :=
            as_unpickling
            (if is_file_fmode (s_fmode s) then
               let m := if is_kind W (s_mode s) then s_mode s else {| m_kind := W; m_plus := false; m_bin := false |} in
               match open_ (s_name s) m w with
               | (Err e, w) => (Err e, w)
               | (Ok f, w) =>
                 match write_text f (s_data s) w with
                 | (Err e, w) => (Err e, w)
                 | (Ok f, w) =>
                   if negb (is_kind W (s_mode s)) then open_ (s_name s) (s_mode s) w else (Ok f, w)
                 end
               end
             else if temp then (Ok (temporary (s_mode s)), w)
             else if is_contents_fmode (s_fmode s) && (is_kind W (s_mode s) || is_kind X (s_mode s)) then
               open_no_truncate (s_name s) (s_mode s) w
             else open_ (s_name s) (s_mode s) w) in
          match opened with
          | (Err e, w) => (Err e, w)
          | (Ok f, w) => finish s f pos w
          end
  end.
