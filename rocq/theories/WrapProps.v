(** C89: calling _wrap(f) calls f. *)
From Coq Require Import String List Bool Arith Lia.
From Verif Require Import PyDict WrapModel.
Import ListNotations.
Local Open Scope string_scope.

(** ** specification *)
(** executing the text for [f] binds _ to [f] *)
Definition right_text (F : functions) (f : nat) : Prop := match binds F f with Some b => forall g, get "_" (rebind g b) = Some f | None => True end.
(** thread [i] has executed the text of a function and not yet called it *)
Definition between (s : state) (i : nat) : Prop := exists f r, left s i = Call f :: r.
(** no other thread makes a step while one is there *)
Fixpoint undisturbed (F : functions) (sched : list nat) (s : state) : Prop :=
  match sched with [] => True | i :: r => (forall j, between s j -> j = i) /\ undisturbed F r (step F s i) end.
(** what happens for a call of _wrap(f): f is called; or, if its text cannot be had or fails, ImportError *)
Definition faithful (F : functions) (e : event) : Prop := match e with Called f h => f = h | ImportError f => binds F f = None | NameError _ => False end.

(** ** calls *)
Inductive pairs : list action -> Prop :=
| no_pairs : pairs []
| a_pair f r : pairs r -> pairs (Exec f :: Call f :: r).
Lemma wrapped_pairs l r : pairs r -> pairs (flat_map wrapped l ++ r).
Proof. intros H. induction l as [|f l IH]; [exact H|]. cbn [flat_map wrapped app]. constructor. exact IH. Qed.
Definition good (s : state) : Prop :=
  (forall i, pairs (left s i) \/ exists f r, left s i = Call f :: r /\ pairs r /\ get "_" (globals s) = Some f).
Lemma good_step F s i : (forall f, right_text F f) -> good s -> (forall j, between s j -> j = i) -> Forall (faithful F) (events s) ->
  good (step F s i) /\ Forall (faithful F) (events (step F s i)).
Proof.
  intros T G B E. unfold step. destruct (left s i) as [|[f|f] r] eqn:L.
  - split; assumption.
  - assert (exists r', r = Call f :: r' /\ pairs r') as (r' & Er & Pr).
    { destruct (G i) as [P|(f' & r' & X & _)]; [|congruence]. rewrite L in P. inversion P; subst. eauto. }
    assert (forall j, j <> i -> pairs (left s j)) as O.
    { intros j N. destruct (G j) as [P|(f' & r'' & X & _)]; [exact P|]. exfalso. apply N, B. exists f', r''. exact X. }
    specialize (T f). unfold right_text in T. destruct (binds F f) as [b|] eqn:Bf.
    + split; [|exact E]. intros j. cbn [left globals]. unfold upd. destruct (Nat.eqb_spec j i) as [->|N]; [|left; apply O, N].
      right. exists f, r'. split; [exact Er|]. split; [exact Pr|apply T].
    + split.
      * intros j. cbn [left globals]. unfold upd. destruct (Nat.eqb_spec j i) as [->|N]; [left; constructor|left; apply O, N].
      * cbn [events]. apply Forall_app. split; [exact E|]. constructor; [exact Bf|constructor].
  - destruct (G i) as [P|(f' & r' & X & Pr & Gf)]; [rewrite L in P; inversion P|]. rewrite L in X. injection X; intros; subst f' r'. rewrite Gf. split.
    + intros j. cbn [left globals]. unfold upd. destruct (Nat.eqb_spec j i) as [->|N]; [left; apply wrapped_pairs, Pr|].
      destruct (G j) as [P|(f' & r'' & Y & _)]; [left; exact P|]. exfalso. apply N, B. exists f', r''. exact Y.
    + cbn [events]. apply Forall_app. split; [exact E|]. constructor; [reflexivity|constructor].
Qed.
Lemma good_run F : (forall f, right_text F f) -> forall sched s, good s -> undisturbed F sched s -> Forall (faithful F) (events s) -> Forall (faithful F) (events (run F sched s)).
Proof.
  intros T. induction sched as [|i r IH]; intros s G U E; [exact E|]. destruct U as [B U]. destruct (good_step F s i T G B E) as [G' E'].
  change (run F (i :: r) s) with (run F r (step F s i)). apply IH; assumption.
Qed.
Lemma good_initial g calls : good (initial g calls).
Proof. intros i. left. cbn [initial left]. rewrite <- (app_nil_r (flat_map wrapped (calls i))). apply wrapped_pairs. constructor. Qed.

(** if no thread is disturbed between the exec and the call: whatever the functions call, however deep *)
Theorem C89_undisturbed_partial : forall F g calls sched, (forall f, right_text F f) -> undisturbed F sched (initial g calls) ->
  Forall (faithful F) (events (run F sched (initial g calls))).
Proof. intros F g calls sched T U. apply good_run; [exact T|apply good_initial|exact U|constructor]. Qed.

(** one thread is never disturbed *)
Theorem C89_alone_partial : forall F g calls i n, (forall f, right_text F f) -> (forall j, j <> i -> calls j = []) ->
  Forall (faithful F) (events (run F (repeat i n) (initial g calls))).
Proof.
  intros F g calls i n T Z. apply C89_undisturbed_partial; [exact T|].
  assert (forall s, (forall j, j <> i -> left s j = []) -> undisturbed F (repeat i n) s) as H.
  { induction n as [|n IH]; intros s L; [exact I|]. cbn [repeat undisturbed]. split.
    - intros j (f & r & X). destruct (Nat.eq_dec j i) as [E|N]; [exact E|]. rewrite (L j N) in X. discriminate.
    - apply IH. intros j N. unfold step. destruct (left s i) as [|[f|f] r]; [apply L, N| |].
      + destruct (binds F f); cbn [left]; unfold upd; rewrite (proj2 (Nat.eqb_neq j i) N); apply L, N.
      + destruct (get "_" (globals s)); cbn [left]; unfold upd; rewrite (proj2 (Nat.eqb_neq j i) N); apply L, N. }
  apply H. intros j N. cbn [initial left]. rewrite (Z j N). reflexivity.
Qed.

(** two threads that call any two wrapped functions: there is a schedule in which the call of the first calls the other function *)
Theorem C89_threads_refuted : forall F g f h bf bh, binds F f = Some bf -> binds F h = Some bh -> right_text F h ->
  exists sched, In (Called f h) (events (run F sched (initial g (fun i => match i with 0 => [f] | 1 => [h] | _ => [] end)))).
Proof.
  intros F g f h bf bh Bf Bh T. exists [0; 1; 0]. unfold right_text in T. rewrite Bh in T.
  unfold run, initial. cbn [fold_left]. unfold step at 3. cbn [left globals events flat_map wrapped app]. rewrite Bf.
  unfold step at 2. cbn [left globals events upd Nat.eqb flat_map wrapped app]. rewrite Bh.
  unfold step. cbn [left globals events upd Nat.eqb]. rewrite T. cbn [events app]. left. reflexivity.
Qed.

(** ** what else changes in dill.source *)
Lemma rebind_other n l : forall g, (forall p, In p l -> fst p <> n) -> get n (rebind g l) = get n g.
Proof.
  induction l as [|[m o] l IH]; intros g H; [reflexivity|]. change (rebind g ((m, o) :: l)) with (rebind (set m o g) l).
  rewrite IH by (intros p X; apply H; right; exact X). apply get_set_other. intros E. apply (H (m, o) (or_introl eq_refl)). symmetry; exact E.
Qed.
(** nothing, if the texts are imports as _, which bind nothing else - in every schedule *)
Theorem C89_names_partial : forall F g calls n, n <> "_" -> (forall f b, binds F f = Some b -> forall p, In p b -> fst p = "_") ->
  forall sched, get n (globals (run F sched (initial g calls))) = get n g.
Proof.
  intros F g calls n N H sched. assert (forall s, get n (globals (run F sched s)) = get n (globals s)) as A.
  { induction sched as [|i r IH]; intros s; [reflexivity|]. change (run F (i :: r) s) with (run F r (step F s i)). rewrite IH. unfold step.
    destruct (left s i) as [|[f|f] l]; [reflexivity| |destruct (get "_" (globals s)); reflexivity].
    destruct (binds F f) as [b|] eqn:B; [|reflexivity]. cbn [globals]. apply rebind_other. intros p X E. apply N. rewrite <- E. apply (H f b B p X). }
  rewrite A. reflexivity.
Qed.
(** a function that cannot be imported is executed as source text: a function with the name of one of dill.source replaces it.
    def indent(x): ... in a nested scope: the text is  def indent(x): ...; _ = indent  *)
Theorem C89_names_refuted : forall F g f n o, binds F f = Some [(n, f); ("_", f)] -> n <> "_" -> get n g = Some o -> o <> f ->
  get n (globals (run F [0] (initial g (fun i => match i with 0 => [f] | _ => [] end)))) = Some f.
Proof.
  intros F g f n o B N _ _. unfold run, initial. cbn [fold_left]. unfold step. cbn [left flat_map wrapped app globals]. rewrite B. cbn [globals].
  unfold rebind. cbn [fold_left fst snd]. rewrite get_set_other by exact N. apply get_set_same.
Qed.

(** a case: 0 calls the wrapped 1 and 2, and itself *)
Definition three : functions := {| binds := fun f => if Nat.leb f 2 then Some [("_", f)] else None; body := fun f => match f with 0 => [1; 0; 2] | 1 => [3] | _ => [] end |}.
Theorem C89_case : (forall f, right_text three f) /\
  events (run three (repeat 5 5) (initial [] (fun i => if Nat.eqb i 5 then [0] else []))) = [Called 0 0; Called 1 1; ImportError 3] /\
  undisturbed three [0; 0; 1; 1; 0; 0] (initial [] (fun i => match i with 0 => [2] | 1 => [1] | _ => [] end)) /\
  events (run three [0; 0; 1; 1; 0; 0] (initial [] (fun i => match i with 0 => [2] | 1 => [1] | _ => [] end))) = [Called 2 2; Called 1 1] /\
  events (run three [0; 1; 0; 1] (initial [] (fun i => match i with 0 => [2] | 1 => [1] | _ => [] end))) = [Called 2 1; Called 1 1].
Proof.
  split; [|split; [vm_compute; reflexivity|split; [|split; vm_compute; reflexivity]]].
  - intros f. unfold right_text, three. cbn [binds]. destruct (Nat.leb f 2); [|exact I]. intros g. apply get_set_same.
  - cbn [undisturbed]. repeat split; intros j (f & r & X); revert X; vm_compute; destruct j as [|[|j]]; intros X; try reflexivity; discriminate.
Qed.
