(** C63: types pickled by a name of dill's own. *)
From Coq Require Import String List Bool Arith.
From Verif Require Import PyDict TypemapModel.
Import ListNotations.
Local Open Scope string_scope.

(** the type has a name in the module builtins or types, or dill gave it one, before the table was inverted *)
Definition builtin_type (P : python) (t : nat) : Prop :=
  (exists n, get n (types P) = Some t /\ plain_builtin P t = true /\ get n (by_hand P) = None) \/
  (exists n, get n (builtins P) = Some t /\ get n (types P) = None /\ plain_builtin P t = true /\ get n (by_hand P) = None) \/
  (exists n, get n (by_hand P) = Some t).
Definition sound (P : python) : Prop := wf (builtins P) /\ wf (types P) /\ wf (by_hand P) /\ wf (late P).

Lemma invert_spec (d : dict string nat) : forall acc t n, get t (fold_left (fun acc kv => set (snd kv) (fst kv) acc) d acc) = Some n ->
  In (n, t) d \/ get t acc = Some n.
Proof.
  induction d as [|[k v] d IH]; intros acc t n H; [right; exact H|]. cbn [fold_left] in H. destruct (IH _ _ _ H) as [A|A]; [left; right; exact A|].
  cbn [fst snd] in A. destruct (Nat.eq_dec t v) as [->|N].
  - rewrite get_set_same in A. injection A as ->. left. left. reflexivity.
  - rewrite get_set_other in A by exact N. auto.
Qed.
Lemma invert_some (d : dict string nat) : forall acc t, (exists n, In (n, t) d) \/ (exists n, get t acc = Some n) ->
  exists n, get t (fold_left (fun acc kv => set (snd kv) (fst kv) acc) d acc) = Some n.
Proof.
  induction d as [|[k v] d IH]; intros acc t H; cbn [fold_left fst snd].
  - destruct H as [(n & [])|H]. exact H.
  - apply IH. destruct H as [(n & [A|A])|(n & A)].
    + injection A as -> ->. right. exists n. apply get_set_same.
    + left. exists n. exact A.
    + right. destruct (Nat.eq_dec t v) as [->|N]; [exists k; apply get_set_same|]. exists n. rewrite get_set_other by exact N. exact A.
Qed.

Lemma wf_filter (f : string * nat -> bool) (d : dict string nat) : wf d -> wf (filter f d).
Proof.
  unfold wf, keys. induction d as [|[k v] d IH]; intros H; [exact H|]. cbn in *. inversion H as [|x l A B]; subst.
  destruct (f (k, v)); [|apply IH; exact B]. cbn. constructor; [|apply IH; exact B].
  intros I. apply A. apply in_map_iff in I as (p & E & I). apply filter_In in I as [I _]. apply in_map_iff. exists p. auto.
Qed.
Lemma get_filter (f : string * nat -> bool) (d : dict string nat) k v : wf d -> (get k (filter f d) = Some v <-> get k d = Some v /\ f (k, v) = true).
Proof.
  intros W. split.
  - intros H. apply get_In in H. apply filter_In in H as [A B]. split; [apply In_get; assumption|exact B].
  - intros [A B]. apply In_get; [apply wf_filter; exact W|]. apply filter_In. split; [apply get_In; exact A|exact B].
Qed.

Lemma create_wf P : sound P -> wf (create_typemap P).
Proof. intros (A & B & C & D). apply wf_filter. apply wf_update. exact A. Qed.
Lemma early_wf P : sound P -> wf (reverse_early P).
Proof. intros S. apply wf_update. apply create_wf. exact S. Qed.

(** ** C63 *)
(** every builtin type is saved by a name, and that name loads the same type in a Python with the same tables *)
Theorem C63_same_python : forall P t, sound P -> builtin_type P t -> (forall n, In n (keys (late P)) -> ~ In n (keys (reverse_early P))) ->
  exists n, save_type P t = T1 n /\ load_type P n = Some t.
Proof.
  intros P t S B L. pose proof (early_wf P S) as W. pose proof (create_wf P S) as WC. destruct S as (S1 & S2 & S3 & S4).
  assert (exists n, In (n, t) (reverse_early P)) as I.
  { destruct B as [(n & T & Q & N)|[(n & T & T' & Q & N)|(n & N)]]; exists n; apply get_In; unfold reverse_early; rewrite get_update by assumption.
    - rewrite N. apply get_filter; [apply wf_update; exact S1|]. split; [|exact Q]. rewrite get_update by assumption. rewrite T. reflexivity.
    - rewrite N. apply get_filter; [apply wf_update; exact S1|]. split; [|exact Q]. rewrite get_update by assumption. rewrite T'. exact T.
    - rewrite N. reflexivity. }
  destruct (invert_some (reverse_early P) [] t (or_introl I)) as (n & E). exists n. unfold save_type, typemap, invert. rewrite E. split; [reflexivity|].
  destruct (invert_spec _ _ _ _ E) as [A|A]; [|discriminate]. apply In_get in A; [|exact W].
  unfold load_type, reverse_typemap. rewrite get_update by assumption.
  destruct (get n (late P)) as [x|] eqn:X; [|exact A]. exfalso. apply (L n); [apply get_In in X; apply in_map_iff; exists (n, x); auto|].
  apply get_In in A. apply in_map_iff. exists (n, t). auto.
Qed.
(** whatever is saved by a name was a type of that name *)
Theorem C63_name_is_own : forall P t n, sound P -> save_type P t = T1 n -> get n (reverse_early P) = Some t.
Proof.
  intros P t n S H. unfold save_type, typemap, invert in H. destruct (get t _) as [m|] eqn:E; [|discriminate]. injection H as <-.
  destruct (invert_spec _ _ _ _ E) as [A|A]; [|discriminate]. apply In_get; [apply early_wf; exact S|exact A].
Qed.
(** in another Python, the type that has this name there is loaded; a KeyError if none has *)
Definition named (Q : python) (n : string) : option nat :=
  match get n (late Q), get n (by_hand Q), get n (types Q), get n (builtins Q) with
  | Some t, _, _, _ => Some t
  | None, Some t, _, _ => Some t
  | None, None, Some t, _ => if plain_builtin Q t then Some t else None
  | None, None, None, Some t => if plain_builtin Q t then Some t else None
  | None, None, None, None => None
  end.
Theorem C63_other_python : forall P Q t n, sound P -> sound Q -> save_type P t = T1 n -> load_type Q n = named Q n.
Proof.
  intros P Q t n _ (S1 & S2 & S3 & S4) _. unfold load_type, reverse_typemap, reverse_early, named. rewrite get_update by exact S4.
  destruct (get n (late Q)) as [x|]; [reflexivity|]. rewrite get_update by exact S3. destruct (get n (by_hand Q)) as [x|]; [reflexivity|].
  unfold create_typemap. assert (wf (update (builtins Q) (types Q))) as W by (apply wf_update; exact S1).
  pose proof (get_update (types Q) S2 (builtins Q) n) as U.
  destruct (get n (filter (fun kv => plain_builtin Q (snd kv)) (update (builtins Q) (types Q)))) as [y|] eqn:Y.
  - apply get_filter in Y as [Y1 Y2]; [|exact W]. rewrite U in Y1. cbn in Y2.
    destruct (get n (types Q)) as [z|]; [injection Y1 as ->; rewrite Y2; reflexivity|]. rewrite Y1, Y2. reflexivity.
  - destruct (get n (update (builtins Q) (types Q))) as [z|] eqn:Z.
    + assert (plain_builtin Q z = false) as E.
      { destruct (plain_builtin Q z) eqn:E; [|reflexivity]. assert (get n (filter (fun kv => plain_builtin Q (snd kv)) (update (builtins Q) (types Q))) = Some z) as X
          by (apply get_filter; [exact W|split; [exact Z|exact E]]). congruence. }
      destruct (get n (types Q)) as [t'|]; [injection U as <-; rewrite E; reflexivity|]. rewrite <- U, E. reflexivity.
    + destruct (get n (types Q)) as [t'|]; [discriminate|]. rewrite <- U. reflexivity.
Qed.
(** REFUTED for the type of capsules: it is entered in the table of names after the table was inverted, so it has a name but is not saved by it *)
Theorem C63_late_refuted : forall P t n, sound P -> get n (late P) = Some t -> (forall m, get m (reverse_early P) <> Some t) ->
  load_type P n = Some t /\ save_type P t = Otherwise.
Proof.
  intros P t n S L N. split.
  - unfold load_type, reverse_typemap. rewrite get_update; [rewrite L; reflexivity|apply S].
  - destruct (save_type P t) as [m|] eqn:E; [|reflexivity]. destruct (N m). apply C63_name_is_own; assumption.
Qed.

(** example: types 1 int, 2 function (two names), 3 OSError (two names), 4 the type of dict views, 5 capsules *)
Definition ex_py : python := {|
  builtins := [("int", 1); ("OSError", 3); ("IOError", 3); ("print", 9)]; types := [("FunctionType", 2); ("LambdaType", 2)];
  plain_builtin := fun o => negb (Nat.eqb o 9); by_hand := [("DictKeysType", 4)]; late := [("PyCapsuleType", 5)] |}.
Example ex_function : save_type ex_py 2 = T1 "LambdaType" /\ load_type ex_py "LambdaType" = Some 2. Proof. split; reflexivity. Qed.
Example ex_oserror : save_type ex_py 3 = T1 "IOError" /\ load_type ex_py "IOError" = Some 3. Proof. split; reflexivity. Qed.
Example ex_capsule : load_type ex_py "PyCapsuleType" = Some 5 /\ save_type ex_py 5 = Otherwise. Proof. split; reflexivity. Qed.
Example ex_print : save_type ex_py 9 = Otherwise. Proof. reflexivity. Qed.
