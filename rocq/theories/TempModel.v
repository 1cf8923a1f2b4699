(** dill/temp.py: capture (23-41), b (43-45), load_source (47-73), dump_source (75-118), loadIO_source (197-222),
    dumpIO_source (224-246).
    Simplified: what importable(object) and getname(object) return is a parameter, and the source is not executed:
    the result of loading is the expression that is evaluated after it.  A str is the list of its code points (IndentModel). *)
From Coq Require Import String List Bool Arith NArith.
From Verif Require Import PyDict IndentModel.
Import ListNotations.
Local Open Scope N_scope.

(** ** dump_source and load_source [exceptions of dill/temp.py:47-118, 197-246] *)
Inductive error := UnicodeEncodeError | UnicodeDecodeError | UnknownName | IndexError.
(** [exceptions of dill/temp.py:47-118, 197-246] *)
Inductive result (A : Type) := Ok (a : A) | Err (e : error).
Arguments Ok {A} _. Arguments Err {A} _.

(** codecs.latin_1_encode [codecs used in dill/temp.py:43-45, 63, 97-117, 205] *)
Definition latin1 (s : str) : result (list N) := if forallb (fun c => c <? 256) s then Ok s else Err UnicodeEncodeError.
(** bytes.decode() and open(..., 'r') in a UTF-8 locale [codecs used in dill/temp.py:43-45, 63, 97-117, 205] *)
Definition cont (c : N) : bool := (128 <=? c) && (c <=? 191).
(** [codecs used in dill/temp.py:43-45, 63, 97-117, 205] *)
Fixpoint utf8 (fuel : nat) (s : list N) : option str :=
  match fuel with
  | O => match s with [] => Some [] | _ => None end
  | S f =>
    match s with
    | [] => Some []
    | a :: s1 =>
      if a <? 128 then option_map (cons a) (utf8 f s1)
      else match s1 with
        | [] => None
        | b :: s2 =>
          if (194 <=? a) && (a <=? 223) && cont b then option_map (cons ((a - 192) * 64 + (b - 128))) (utf8 f s2)
          else match s2 with
            | [] => None
            | c :: s3 =>
              let n := (a - 224) * 4096 + (b - 128) * 64 + (c - 128) in
              if (224 <=? a) && (a <=? 239) && cont b && cont c && (2048 <=? n) && negb ((55296 <=? n) && (n <=? 57343)) then option_map (cons n) (utf8 f s3)
              else match s3 with
                | [] => None
                | d :: s4 =>
                  let m := (a - 240) * 262144 + (b - 128) * 4096 + (c - 128) * 64 + (d - 128) in
                  if (240 <=? a) && (a <=? 244) && cont b && cont c && cont d && (65536 <=? m) && (m <=? 1114111) then option_map (cons m) (utf8 f s4)
                  else None
                end
            end
        end
    end
  end.
(** [codecs used in dill/temp.py:43-45, 63, 97-117, 205] *)
Definition decode (s : list N) : result str := match utf8 (length s) s with Some t => Ok t | None => Err UnicodeDecodeError end.
(** text files: universal newlines [codecs used in dill/temp.py:43-45, 63, 97-117, 205] *)
Fixpoint newlines (s : str) : str :=
  match s with
  | [] => []
  | c :: s => if c =? cr then match s with d :: s' => if d =? nl then nl :: newlines s' else nl :: newlines s | [] => [nl] end
              else c :: newlines s
  end.

(** "\n#NAME: %s\n" [dill/temp.py:75-118 and 224-246] *)
Definition tag_word : str := [35; 78; 65; 77; 69; 58].          (* #NAME: *)
(** [dill/temp.py:75-118 and 224-246] *)
Definition trailer (name : str) : str := nl :: tag_word ++ sp :: name ++ [nl].
(** dump_source / dumpIO_source: name = str(alias) or getname(object); getname may return None, printed as 'None' [dill/temp.py:75-118 and 224-246] *)
Definition none_text : str := [78; 111; 110; 101].
(** [dill/temp.py:75-118 and 224-246] *)
Definition dump_name (alias : str) (getname : option str) : str :=
  match alias with [] => match getname with Some n => n | None => none_text end | _ => alias end.
(** [dill/temp.py:75-118 and 224-246] *)
Definition dump_source (source : str -> str) (alias : str) (getname : option str) : result (list N) :=
  latin1 (source alias ++ trailer (dump_name alias getname)).

(** str.strip(), str.splitlines()[-1], str.split() [str methods used in dill/temp.py:65, 213] *)
Definition lstrip (s : str) : str := skipn (lead s) s.
(** [str methods used in dill/temp.py:65, 213] *)
Definition strip (s : str) : str := rev (lstrip (rev (lstrip s))).
(** [str methods used in dill/temp.py:65, 213] *)
Definition is_break (c : N) : bool :=
  ((10 <=? c) && (c <=? 13)) || ((28 <=? c) && (c <=? 30)) || (c =? 133) || (c =? 8232) || (c =? 8233).
(** the last line of a text that does not end in a line break (it has been stripped) [str methods used in dill/temp.py:65, 213] *)
Fixpoint last_line (s acc : str) : str :=
  match s with [] => rev acc | c :: s => if is_break c then last_line s [] else last_line s (c :: acc) end.
(** [str methods used in dill/temp.py:65, 213] *)
Fixpoint words (s : str) (acc : str) : list str :=
  match s with
  | [] => match acc with [] => [] | _ => [rev acc] end
  | c :: s => if is_space c then match acc with [] => words s [] | _ => rev acc :: words s [] end else words s (c :: acc)
  end.
(** the name that is evaluated: lines 64-73 and 212-222 *)
Definition read_name (source alias : str) : result str :=
  match alias with
  | _ :: _ => Ok alias
  | [] => match strip source with
          | [] => Err IndexError
          | s => match words (last_line s []) [] with
                 | [] => Err IndexError
                 | w :: ws => if forallb (fun p => fst p =? snd p) (combine w tag_word) && (length w =? length tag_word)%nat then Ok (last (w :: ws) [])
                              else Err UnknownName
                 end
          end
  end.
(** [dill/temp.py:197-222] *)
Definition loadIO_source (file : list N) (alias : str) : result str :=
  match decode file with Ok s => read_name s alias | Err e => Err e end.
(** [dill/temp.py:47-73] *)
Definition load_source (file : list N) (alias : str) : result str :=
  match decode file with Ok s => read_name (newlines s) alias | Err e => Err e end.

(** ** capture *)
Local Close Scope N_scope.
(** programs that use it: writing to sys.<stream>, assigning sys.<stream>, raising, try/except, with capture(stream) [the program inside capture and sys's streams, environment of dill/temp.py:23-41] *)
Inductive prog :=
| Skip
| Write (stream : string) (text : list nat)
| Assign (stream : string) (handle : nat)
| Raise
| Seq (p q : prog)
| Try (p handler : prog)
| Capture (stream : string) (p : prog).

(** [streams]: sys's attributes; [text h]: what was written to the stream object [h]; [next]: the next new object [the program inside capture and sys's streams, environment of dill/temp.py:23-41] *)
Record state := St { streams : dict string nat; text : nat -> list nat; next : nat }.
(** [the program inside capture and sys's streams, environment of dill/temp.py:23-41] *)
Definition upd {A} (f : nat -> A) (k : nat) (v : A) : nat -> A := fun x => if Nat.eqb x k then v else f x.

(** [true]: an exception escapes [dill/temp.py:23-41] *)
Fixpoint exec (p : prog) (s : state) : state * bool :=
  match p with
  | Skip => (s, false)
  | Write n t => match get n (streams s) with
                 | Some h => (St (streams s) (upd (text s) h (text s h ++ t)) (next s), false)
                 | None => (s, true)
                 end
  | Assign n h => (St (set n h (streams s)) (text s) (next s), false)
  | Raise => (s, true)
  | Seq p q => let (s1, e) := exec p s in if e then (s1, true) else exec q s1
  | Try p h => let (s1, e) := exec p s in if e then exec h s1 else (s1, false)
  | Capture n p =>
    match get n (streams s) with
    | None => (s, true)                                            (* getattr raises *)
    | Some orig =>
      let buf := next s in
      let (s1, e) := exec p (St (set n buf (streams s)) (upd (text s) buf []) (S buf)) in
      (St (set n orig (streams s1)) (text s1) (next s1), e)        (* finally *)
    end
  end.
