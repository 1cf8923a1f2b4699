(** C112: the handle of a thread, copied. *)
From Coq Require Import ZArith List Bool Arith Lia.
From Verif Require Import HandleModel.
Import ListNotations.

(** ** Specification *)
(** two handles that no call of is_done, join or start, nor the attribute ident, tells apart now *)
Definition same_now (a b : handle) : Prop :=
  ident a = ident b /\ is_done a = is_done b /\ join a = join b /\ (forall i, start i a = None <-> start i b = None).
(** a handle a program can have: made by Thread, started, ended *)
Inductive real : handle -> Prop :=
  | r_new : real new_handle
  | r_started h i h' : real h -> start i h = Some h' -> real h'
  | r_ended h h' : real h -> set_done h = Some h' -> real h'
  | r_copied h h' : real h -> create_thread_handle (save_thread_handle h) = Some h' -> real h'.

(** ** Proof *)
Definition fine (h : handle) : Prop := match hst h with NotStarted => exiting h = false | Running => exiting h = false | Finished => exiting h = true end.
Lemma fine_start i h h' : start i h = Some h' -> fine h'.
Proof. unfold start. destruct (hst h); intros [= <-]; reflexivity. Qed.
Lemma fine_done h h' : set_done h = Some h' -> fine h'.
Proof. unfold set_done. destruct (hst h); intros [= <-]; reflexivity. Qed.
Lemma copy_is h : create_thread_handle (save_thread_handle h) = Some (Hd (ident h) (if exiting h then Finished else Running) (exiting h)).
Proof. unfold create_thread_handle, save_thread_handle, is_done. cbn. destruct (exiting h); reflexivity. Qed.
Lemma fine_real h : real h -> fine h.
Proof.
  induction 1; [reflexivity|eapply fine_start; eauto|eapply fine_done; eauto|]. rewrite copy_is in H0. injection H0 as <-. unfold fine. cbn. destruct (exiting h); reflexivity.
Qed.
Lemma put_other i j h l : i <> j -> nth_error (put i h l) j = nth_error l j.
Proof. revert i j. induction l as [|x l IH]; intros [|i] [|j] N; cbn; auto; try congruence. Qed.
Lemma put_length i h l : List.length (put i h l) = List.length l.
Proof. revert i. induction l as [|x l IH]; intros [|i]; cbn; auto. Qed.
Lemma kept es : forall w c h, nth_error (handles w) c = Some h -> hst h <> NotStarted -> ~ In c (own w) -> nth_error (handles (hrun es w)) c = Some h.
Proof.
  induction es as [|e es IH]; intros w c h N S0 O; auto. cbn. apply IH; auto; destruct e as [i z|i|i]; cbn; destruct (nth_error (handles w) i) as [x|] eqn:Q; auto.
  - unfold start. destruct (hst x) eqn:Sx; auto. cbn. rewrite put_other; auto. intros ->. congruence.
  - destruct (existsb _ _) eqn:E; auto. destruct (set_done x); auto. cbn. rewrite put_other; auto. intros ->. apply O. apply existsb_exists in E as (k & I0 & E). apply Nat.eqb_eq in E. now subst.
  - rewrite copy_is. cbn. rewrite nth_error_app1; auto. apply nth_error_Some. congruence.
  - unfold start. destruct (hst x) eqn:Sx; auto. cbn. intros [->|I0]; auto. congruence.
  - destruct (existsb _ _); auto. destruct (set_done x); auto.
  - rewrite copy_is. auto.
Qed.

(** ** C112 *)
(** a copy of the handle of a thread that was started cannot be told from it: same ident, is_done, join; neither can be started again *)
Theorem C112_copy_partial : forall h, real h -> hst h <> NotStarted -> exists h', create_thread_handle (save_thread_handle h) = Some h' /\ same_now h h'.
Proof.
  intros h R N. apply fine_real in R. rewrite copy_is. eexists. split; [reflexivity|]. unfold same_now, is_done, join, start, fine in *. cbn.
  destruct (hst h); [congruence| |]; rewrite R; cbn; repeat split; auto.
Qed.
(** loading never raises *)
Theorem C112_loads : forall h, exists h', create_thread_handle (save_thread_handle h) = Some h'.
Proof. intros h. rewrite copy_is. eauto. Qed.
(** the copy is fixed at the time of the dump: whatever is started, ends or is copied later, it is done if the original was then, else never, and join waits for ever *)
Theorem C112_fixed : forall w i h es, nth_error (handles w) i = Some h -> ~ In (List.length (handles w)) (own w) ->
  exists h', nth_error (handles (hrun (ECopy i :: es) w)) (List.length (handles w)) = Some h' /\ ident h' = ident h /\ is_done h' = is_done h /\ join h' = (if is_done h then JReturns else JWaits).
Proof.
  intros w i h es N O. cbn [hrun fold_left hstep]. rewrite N, copy_is. eexists. split.
  - apply kept; cbn; auto.
    + rewrite nth_error_app2, Nat.sub_diag by lia. reflexivity.
    + cbn. destruct (exiting h); discriminate.
  - cbn. unfold is_done, join. cbn. destruct (exiting h); auto.
Qed.
(** REFUTED: the copy of the handle of a thread that is not started yet is "running": it cannot be started, and join waits where the original's raises *)
Theorem C112_unstarted_refuted : exists h h', real h /\ create_thread_handle (save_thread_handle h) = Some h' /\ (exists i k, start i h = Some k) /\ (forall i, start i h' = None) /\
  join h = JRaises /\ join h' = JWaits.
Proof. exists new_handle, (Hd 0 Running false). split; [constructor|]. split; [reflexivity|]. split; [exists 7%Z; eexists; reflexivity|]. split; [intros; reflexivity|]. split; reflexivity. Qed.
(** REFUTED: in the same program, the thread ends, the original knows and the copy does not *)
Theorem C112_running_refuted : exists es a b, nth_error (handles (hrun es (Wd [new_handle] []))) 0 = Some a /\ nth_error (handles (hrun es (Wd [new_handle] []))) 1 = Some b /\
  join a = JReturns /\ join b = JWaits.
Proof. exists [EStart 0 7; ECopy 0; EEnds 0]. eexists _, _. cbn. repeat split. Qed.
(** a running and a finished handle meet the hypotheses *)
Theorem C112_case : real (Hd 7 Running false) /\ real (Hd 7 Finished true) /\ create_thread_handle (save_thread_handle (Hd 7 Finished true)) = Some (Hd 7 Finished true) /\
  join (Hd 7 Finished true) = JReturns.
Proof.
  assert (A : real (Hd 7 Running false)) by (eapply r_started; [constructor|reflexivity]). split; auto. split; [eapply r_ended; [exact A|reflexivity]|]. split; reflexivity.
Qed.
