(** Specification for C72: what each thread should see, and schedules in which captures do not overlap. *)
From Coq Require Import String List Bool Arith.
From Verif Require Import ThreadsModel.
Import ListNotations.

(** the texts the thread's nestedglobals should see, and the lines it prints itself *)
Definition disassembled (p : list task) : list (list string) := flat_map (fun t => match t with Names ls => [ls] | Say _ => [] end) p.
Definition said (p : list task) : list string := flat_map (fun t => match t with Say l => [l] | Names _ => [] end) p.
(** everything the thread prints *)
Definition printed (p : list task) : list string := flat_map (fun t => match t with Say l => [l] | Names ls => ls end) p.
(** the lines of thread [i] in a stream *)
Definition lines_of (i : nat) (ls : list (nat * string)) : list string := map snd (filter (fun l => Nat.eqb (fst l) i) ls).

Definition busy (t : thread) : Prop := at_ t <> Idle.
Definition finished (s : state) : Prop := forall i, todo (threads s i) = [] /\ at_ (threads s i) = Idle.

(** no thread makes a step while another one is in nestedglobals *)
Fixpoint exclusive (sched : list nat) (s : state) : Prop :=
  match sched with
  | [] => True
  | i :: r => (forall j, busy (threads s j) -> j = i) /\ match step i s with Some s' => exclusive r s' | None => True end
  end.
(** overlapping captures are nested: sys.stdout is set only by the thread that set it last, or that read it since *)
Definition innermost (s : state) (i : nat) (own : nat -> nat) : Prop :=
  match at_ (threads s i) with
  | Saved o _ => o = stdout s
  | Inside _ _ _ [] => own i = stdout s
  | _ => True
  end.
(** the stream thread [i] has created last *)
Definition own' (own : nat -> nat) (s : state) (i : nat) : nat -> nat := match at_ (threads s i) with Saved _ _ => upd own i (fresh s) | _ => own end.
Fixpoint nested (sched : list nat) (s : state) (own : nat -> nat) : Prop :=
  match sched with
  | [] => True
  | i :: r => innermost s i own /\ match step i s with Some s' => nested r s' (own' own s i) | None => True end
  end.
