(** dill/logger.py: TraceAdapter.trace_setup (127-135), TraceAdapter.trace (136-168), TraceFormatter.format (191-209),
    TraceManager (260-285), trace (217-258); pickle.py: _Framer.commit_frame, write, write_large_bytes (197-255). *)
From Coq Require Import String Ascii List Bool Arith ZArith Lia.
Import ListNotations.
Local Open Scope Z_scope.

(** * Tracing one dump *)

(** what pickler._file.tell() does: works, is missing (AttributeError, TypeError), or raises something else
    (io.UnsupportedOperation on a pipe) [what dill/logger.py:136-168 reads of the pickler, and the record it makes] *)
Inductive tell_kind := Tellable | NoTell | TellRaises.
(** a log record; [size] is None if the extra field is absent [what dill/logger.py:136-168 reads of the pickler, and the record it makes] *)
Record record := Rec { msg : string; depth : Z; size : option Z }.
(** what the outside sees, in order: bytes added to the stream (into the file or the frame being filled) and records [what dill/logger.py:136-168 reads of the pickler, and the record it makes] *)
Inductive event := EBytes (n : Z) | ELog (r : record).

(** pickler._file.tell(), pickler.framer.current_frame (its length), _trace_depth (absent = tracing off), _size_stack [what dill/logger.py:136-168 reads of the pickler, and the record it makes] *)
Record pstate := PS { file : Z; frame : option Z; tdepth : option Z; sstack : list Z }.
(** [what dill/logger.py:136-168 reads of the pickler, and the record it makes] *)
Definition add_bytes (n : Z) (s : pstate) : pstate :=
  match frame s with
  | None => PS (file s + n) None (tdepth s) (sstack s)
  | Some f => PS (file s) (Some (f + n)) (tdepth s) (sstack s)
  end.
(** pickle.py:213-238 commit_frame: FRAME header of 9 bytes unless the frame is shorter than 4 *)
Definition commit_frame (force : bool) (s : pstate) : pstate * list event :=
  match frame s with
  | None => (s, [])
  | Some f => if (65536 <=? f) || force then
                let h := if 4 <=? f then 9 else 0 in (PS (file s + h + f) (Some 0) (tdepth s) (sstack s), [EBytes h])
              else (s, [])
  end.

(** [what dill/logger.py:136-168 reads of the pickler, and the record it makes] *)
Definition starts_hash (m : string) : bool := match m with String "#" _ => true | _ => false end.

(** logger.py:136-168 trace; [on]: self.isEnabledFor(INFO) at this moment; None: an exception *)
Definition trace (tk : tell_kind) (on : bool) (m : string) (s : pstate) : option (pstate * list event) :=
  match tdepth s with
  | None => Some (s, [])
  | Some d =>
    let pushed := starts_hash m in
    let sz := match tk with TellRaises => None | NoTell => Some None | Tellable => Some (Some (file s + match frame s with Some f => f | None => 0 end)) end in
    match sz with
    | None => None
    | Some sz =>
      let popped :=
        match sz with
        | None => Some (sstack s, None)
        | Some n => if pushed then match sstack s with [] => None | top :: st => Some (st, Some (n - top)) end else Some (n :: sstack s, None)
        end in
      match popped with
      | None => None
      | Some (st, extra) =>
        let d := if pushed then d - 1 else d in
        Some (PS (file s) (frame s) (Some (if pushed then d else d + 1)) st, if on then [ELog (Rec m d extra)] else [])
      end
    end
  end.

(** What the save functions do, as far as tracing goes: write, hand a large object over, start a new frame, raise, and call a
    save function -- every one of dill's save functions traces "X: ..." first, then works, then traces "# X" (_dill.py:385-2150)
    unless its work raises. *)
Inductive prog := Done | Write (n : nat) (k : prog) | Large (n : nat) (k : prog) | Commit (k : prog) | Save (tag text : string) (body k : prog) | Raise.
(** [the calls logger.trace(pickler, ...) at the two ends of the savers of dill/_dill.py, e.g. 1264-1267] *)
Definition entry_msg (tag text : string) : string := (tag ++ ": " ++ text)%string.
(** [the calls logger.trace(pickler, ...) at the two ends of the savers of dill/_dill.py, e.g. 1264-1267] *)
Definition exit_msg (tag : string) : string := String "#" (String " " tag).

(** result: state, events, and whether it returned [saving with traces, dill/_dill.py:376-429 and dill/logger.py:136-168] *)
Fixpoint run (tk : tell_kind) (on : bool) (p : prog) (s : pstate) : pstate * list event * bool :=
  match p with
  | Done => (s, [], true)
  | Raise => (s, [], false)
  | Write n k => let '(s, e, b) := run tk on k (add_bytes (Z.of_nat n) s) in (s, EBytes (Z.of_nat n) :: e, b)
  | Commit k => let '(s, e0) := commit_frame false s in let '(s, e, b) := run tk on k s in (s, e0 ++ e, b)
  | Large n k => let '(s, e0) := commit_frame true s in
                 let '(s, e, b) := run tk on k (PS (file s + Z.of_nat n) (frame s) (tdepth s) (sstack s)) in (s, e0 ++ EBytes (Z.of_nat n) :: e, b)
  | Save tag text body k =>
    match trace tk on (entry_msg tag text) s with
    | None => (s, [], false)
    | Some (s, e0) =>
      let '(s, e1, b) := run tk on body s in
      if b then match trace tk on (exit_msg tag) s with
                | None => (s, e0 ++ e1, false)
                | Some (s, e2) => let '(s, e3, b) := run tk on k s in (s, e0 ++ e1 ++ e2 ++ e3, b)
                end
      else (s, e0 ++ e1, false)
    end
  end.

(** logger.py:127-135 trace_setup, with is_dill(pickler, child=False) *)
Definition trace_setup (on : bool) (s : pstate) : pstate := if on then PS (file s) (frame s) (Some 1) [] else PS (file s) (frame s) None (sstack s).
(** Pickler.dump, _dill.py:427-429 *)
Definition dump (tk : tell_kind) (on : bool) (p : prog) (s : pstate) : pstate * list event * bool := run tk on p (trace_setup on s).

(** * The line printed: logger.py:191-209, the tree characters as in the code, one Coq constructor each *)
Inductive glyph := Bar (* │ *) | Tee (* ├ *) | Down (* ┬ *) | Corner (* └ *).
(** [dill/logger.py:193-202] *)
Definition prefix (m : string) (d : Z) : list glyph :=
  if 0 <? d then
    if starts_hash m then repeat Bar (Z.to_nat (d - 1)) ++ [Corner]
    else if d =? 1 then [Down]
    else repeat Bar (Z.to_nat (d - 2)) ++ [Tee; Down]
  else [].

(** the suffix: the number and the unit shown.  int(math.log(size, 2)) is taken to be the exact floor. None: IndexError [dill/logger.py:203-207] *)
Inductive unit_shown := Plain | Prefixed (c : ascii).
(** [dill/logger.py:203-207] *)
Definition suffix (sz : option Z) : option (option (Z * unit_shown)) :=
  match sz with
  | None => Some None
  | Some n => if 1 <=? n then
                let power := Z.log2 n / 10 in
                let shown := Z.shiftr n (power * 10) in
                if power =? 0 then Some (Some (shown, Plain))
                else match String.get (Z.to_nat power) "KMGTP" with Some c => Some (Some (shown, Prefixed c)) | None => None end
              else Some None
  end.

(** * Trace contexts *)
(** handlers are numbers; 0 is stderr_handler.  [level] of the 'dill' logger, 0 = NOTSET; [root]: the effective level then [the logging library as used in dill/logger.py:211-285] *)
Record lstate := LS { level : nat; handlers : list nat; nexth : nat; root : nat; out : list (nat * string) }.
(** [the logging library as used in dill/logger.py:211-285] *)
Definition INFO := 20%nat. Definition WARNING := 30%nat.
(** [the logging library as used in dill/logger.py:211-285] *)
Definition effective (s : lstate) : nat := match level s with O => root s | l => l end.
(** [the logging library as used in dill/logger.py:211-285] *)
Definition remove_handler (h : nat) (l : list nat) : list nat := filter (fun x => negb (Nat.eqb x h)) l.
(** [the logging library as used in dill/logger.py:211-285] *)
Definition add_handler (h : nat) (l : list nat) : list nat := if existsb (Nat.eqb h) l then l else l ++ [h].
(** [the logging library as used in dill/logger.py:211-285] *)
Definition set_level (l : nat) (s : lstate) : lstate := LS l (handlers s) (nexth s) (root s) (out s).
(** [the logging library as used in dill/logger.py:211-285] *)
Definition set_handlers (hs : list nat) (s : lstate) : lstate := LS (level s) hs (nexth s) (root s) (out s).
(** __enter__, 267-278: the state, the handler made, old_level; None: the file cannot be opened *)
Definition enter (redirect : bool) (open_ok : bool) (s : lstate) : option (lstate * option nat * nat) :=
  if redirect then
    if open_ok then
      let h := nexth s in
      let s := LS (level s) (add_handler h (remove_handler 0 (handlers s))) (Datatypes.S h) (root s) (out s) in
      Some (set_level INFO s, Some h, effective s)
    else None
  else Some (set_level INFO s, None, effective s).
(** __exit__, 279-285 *)
Definition exit (h : option nat) (old : nat) (s : lstate) : lstate :=
  let s := set_level old s in
  match h with None => s | Some h => set_handlers (add_handler 0 (remove_handler h (handlers s))) s end.
(** programs: log, trace(True) / trace(False), raise, with trace(...): ... (each with its own manager) [programs using dill/logger.py:217-285] *)
Inductive tprog := TSkip | TLog (m : string) | TTrace (b : bool) | TRaise | TSeq (p q : tprog) | TTry (p : tprog) | TWith (redirect open_ok : bool) (body : tprog).
(** [programs using dill/logger.py:217-285] *)
Definition log (m : string) (s : lstate) : lstate :=
  if Nat.leb (effective s) INFO then LS (level s) (handlers s) (nexth s) (root s) (out s ++ map (fun h => (h, m)) (handlers s)) else s.
(** [programs using dill/logger.py:217-285] *)
Fixpoint trun (p : tprog) (s : lstate) : lstate * bool :=
  match p with
  | TSkip => (s, true)
  | TLog m => (log m s, true)
  | TTrace b => (set_level (if b then INFO else WARNING) s, true)
  | TRaise => (s, false)
  | TSeq p q => let '(s, b) := trun p s in if b then trun q s else (s, false)
  | TTry p => (fst (trun p s), true)
  | TWith r o body =>
    match enter r o s with
    | None => (s, false)
    | Some (s, h, old) => let '(s, b) := trun body s in (exit h old s, b)
    end
  end.
