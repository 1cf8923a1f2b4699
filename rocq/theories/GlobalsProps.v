(** C33-C35: globalvars, freevars, nestedcode. *)
From Coq Require Import String Ascii List Bool Arith Lia.
From Verif Require Import PyDict GlobalsModel GlobalsProofs.
Import ListNotations.
Local Open Scope string_scope.

Definition wf_world (H : nat -> obj) (bi : dict string nat) : Prop :=
  wf bi /\ forall o co g cells, H o = OFunc co g cells -> wf g.

(** what a function with globals [G] sees under a global name: the global, else the builtin *)
Definition sees (bi : dict string nat) (builtin : bool) (G : dict string nat) (n : string) : option nat :=
  match get n G with Some v => Some v | None => if builtin then get n bi else None end.

Lemma cells_globs gv : forall cells st st', fold_opt (cell_step gv) cells st = Some st' ->
  (forall c vars, gv c = Some vars -> wf vars) ->
  forall n x, get n (snd st') = Some x -> get n (snd st) = Some x \/ exists c vars, In (Some c) cells /\ gv c = Some vars /\ get n vars = Some x.
Proof.
  intros cells. induction cells as [|cell cells IH]; intros st st' E Hw n x Hg; cbn [fold_opt] in E.
  - injection E as <-. auto.
  - destruct (cell_step gv st cell) as [st1|] eqn:E1; [|discriminate].
    destruct (IH _ _ E Hw n x Hg) as [H1|[c [vars [H1 [H2 H3]]]]].
    + destruct cell as [c0|]; cbn [cell_step] in E1.
      * destruct (gv c0) as [v0|] eqn:Ev; [|discriminate]. injection E1 as <-. cbn [snd] in H1.
        rewrite get_update in H1 by eauto. destruct (get n v0) eqn:Ex; [|auto]. injection H1 as ->. right. exists c0, v0. simpl; auto.
      * injection E1 as <-. auto.
    + right. exists c, vars. simpl; auto.
Qed.
Lemma cells_globs_kept gv : forall cells st st', fold_opt (cell_step gv) cells st = Some st' ->
  (forall c vars, gv c = Some vars -> wf vars) ->
  forall n x, get n (snd st) = Some x -> exists y, get n (snd st') = Some y.
Proof.
  intros cells. induction cells as [|cell cells IH]; intros st st' E Hw n x Hg; cbn [fold_opt] in E.
  - injection E as <-. eauto.
  - destruct (cell_step gv st cell) as [st1|] eqn:E1; [|discriminate].
    assert (Hx : exists y, get n (snd st1) = Some y).
    { destruct cell as [c0|]; cbn [cell_step] in E1.
      - destruct (gv c0) as [v0|] eqn:Ev; [|discriminate]. injection E1 as <-. cbn [snd]. rewrite get_update by eauto.
        destruct (get n v0); eauto.
      - injection E1 as <-. eauto. }
    destruct Hx as [y Hy]. eapply IH; eauto.
Qed.

(** C33.  Every binding in the result is the global of that name; a name that is not a global is bound to the
    builtin, or to what globalvars found for a function in the closure. *)
Theorem C33_bindings : forall H bi b fuel o r co g cells, wf_world H bi ->
  globalvars (S fuel) H bi true b o = Some r -> H (unmethod H o) = OFunc co g cells ->
  forall n v, get n r = Some v ->
    get n g = Some v \/
    (get n g = None /\ ((b = true /\ get n bi = Some v) \/
       exists c rc, In (Some c) cells /\ globalvars fuel H bi true b c = Some rc /\ get n rc = Some v)).
Proof.
  intros H bi b fuel o r co g cells [Hbi Hg] E Ho n v Hr.
  destruct (globalvars_func _ _ _ _ _ _ _ _ _ Ho E) as [names [globs [names' [E1 [E2 [-> Hi]]]]]].
  rewrite get_pick in Hr. destruct (memb n names'); [|discriminate]. rewrite get_update in Hr by eauto.
  destruct (get n g) as [v'|]; [left; congruence|]. right. split; auto.
  destruct (cells_globs _ _ _ _ E1 (fun c vars => globalvars_wf _ _ _ _ _ c vars) n v Hr) as [Hs|Hs]; auto.
  cbn [snd] in Hs. destruct b; [left; auto|discriminate].
Qed.
(** every global or builtin name in the function's code, nested code included, is in the result if it is
    bound, and bound to the same object if it is a global *)
Theorem C33_complete : forall H bi b fuel o r co g cells, wf_world H bi ->
  globalvars (S fuel) H bi true b o = Some r -> H (unmethod H o) = OFunc co g cells ->
  forall n v, In n (nestedglobals co) -> sees bi b g n = Some v ->
    exists v', get n r = Some v' /\ (get n g = Some v -> v' = v).
Proof.
  intros H bi b fuel o r co g cells [Hbi Hg] E Ho n v Hn Hs.
  destruct (globalvars_func _ _ _ _ _ _ _ _ _ Ho E) as [names [globs [names' [E1 [E2 [-> Hi]]]]]].
  rewrite get_pick. assert (Hm : memb n names' = true) by (apply memb_In, Hi, in_app_iff; auto). rewrite Hm.
  rewrite get_update by eauto. unfold sees in Hs. destruct (get n g) as [v'|]; [exists v'; split; congruence|].
  destruct b; [|discriminate].
  destruct (cells_globs_kept _ _ _ _ E1 (fun c vars => globalvars_wf _ _ _ _ _ c vars) n v Hs) as [y Hy]. exists y. split; auto. discriminate.
Qed.

(** a set of objects whose functions have the globals [G] and whose cells stay in the set: the functions of a
    module closing over functions of the same module *)
Definition one_module (H : nat -> obj) (G : dict string nat) (P : nat -> Prop) : Prop :=
  forall o co g cells, P o -> H (unmethod H o) = OFunc co g cells -> g = G /\ forall c, In (Some c) cells -> P c.

(** ... then the result is exactly what the function sees, for all the names in its code *)
Theorem C33_sees_partial : forall H bi b G P, wf_world H bi -> wf G -> one_module H G P ->
  forall fuel o r, P o -> globalvars fuel H bi true b o = Some r ->
  (forall n v, get n r = Some v -> sees bi b G n = Some v \/ (exists co, H (unmethod H o) = OCode co) /\ b = true /\ get n bi = Some v) /\
  (forall co g cells n, H (unmethod H o) = OFunc co g cells -> In n (nestedglobals co) -> get n r = sees bi b G n).
Proof.
  intros H bi b G P Hw HG Hm. induction fuel as [|fuel IH]; intros o r Po E; [discriminate|].
  assert (S1 : forall n v, get n r = Some v -> sees bi b G n = Some v \/ (exists co, H (unmethod H o) = OCode co) /\ b = true /\ get n bi = Some v).
  { intros n v Hr. destruct (H (unmethod H o)) as [co g cells| | |] eqn:Ho.
    - destruct (Hm o co g cells Po Ho) as [-> Hc]. left.
      destruct (C33_bindings _ _ _ _ _ _ _ _ _ Hw E Ho n v Hr) as [H1|[H1 [[Hb H2]|[c [rc [H2 [H3 H4]]]]]]]; unfold sees; rewrite H1; auto.
      { rewrite Hb. auto. }
      destruct (IH c rc (Hc c H2) H3) as [Hx _]. destruct (Hx n v H4) as [Hy|[_ [Hb Hy]]].
      + unfold sees in Hy. rewrite H1 in Hy. exact Hy.
      + rewrite Hb. exact Hy.
    - cbn [globalvars] in E. rewrite Ho in E. injection E as <-. discriminate.
    - right. split; [eauto|]. cbn [globalvars] in E. rewrite Ho in E. destruct (fold_opt _ _ _); [|discriminate]. injection E as <-.
      rewrite get_pick in Hr. destruct (memb n l); [|discriminate]. destruct b; [auto|discriminate].
    - cbn [globalvars] in E. rewrite Ho in E. injection E as <-. discriminate. }
  split; auto. intros co g cells n Ho Hn.
  destruct (Hm o co g cells Po Ho) as [-> Hcells].
  destruct (sees bi b G n) as [v|] eqn:Es.
  - destruct (C33_complete _ _ _ _ _ _ _ _ _ Hw E Ho n v Hn Es) as [v' [H1 H2]]. rewrite H1. f_equal.
    destruct (S1 n v' H1) as [Hx|[[co' Hx] _]]; [congruence|]. rewrite Ho in Hx. discriminate.
  - destruct (get n r) as [v|] eqn:Er; auto. destruct (S1 n v Er) as [Hx|[[co' Hx] _]]; [congruence|]. rewrite Ho in Hx. discriminate.
Qed.

(** the result is closed: whatever functions of the same module are reached through closures or through
    globals named in their code, all the globals they name are in the result *)
Inductive reach (H : nat -> obj) (G : dict string nat) : nat -> nat -> Prop :=
| reach_self o : reach H G o o
| reach_cell o co cells c y : H (unmethod H o) = OFunc co G cells -> In (Some c) cells -> reach H G c y -> reach H G o y
| reach_global o co cells n x y : H (unmethod H o) = OFunc co G cells -> In n (nestedglobals co) -> get n G = Some x -> reach H G x y -> reach H G o y.

Lemma globalvars_unmethod fuel H bi rc b o co g cells : H (unmethod H o) = OFunc co g cells ->
  globalvars fuel H bi rc b (unmethod H o) = globalvars fuel H bi rc b o.
Proof.
  intros Ho. assert (E : unmethod H (unmethod H o) = unmethod H o) by (unfold unmethod at 1; rewrite Ho; reflexivity).
  destruct fuel; [reflexivity|]. cbn [globalvars]. rewrite E. reflexivity.
Qed.

(** a bound method is treated as its function *)
Theorem C33_methods : forall fuel H bi rc b o f co g cells, H o = OMethod f -> H f = OFunc co g cells ->
  globalvars fuel H bi rc b o = globalvars fuel H bi rc b f /\ freevars H o = freevars H f.
Proof.
  intros fuel H bi rc b o f co g cells Ho Hf.
  assert (E1 : unmethod H o = f) by (unfold unmethod; now rewrite Ho).
  assert (E2 : unmethod H f = f) by (unfold unmethod; now rewrite Hf).
  split; [destruct fuel; [reflexivity|]; cbn [globalvars]; now rewrite E1, E2|unfold freevars; now rewrite E1, E2].
Qed.
Theorem C33_closed_partial : forall H bi b G o y, wf_world H bi -> reach H G o y ->
  forall fuel r co0 cells0 co cells, globalvars fuel H bi true b o = Some r ->
  H (unmethod H o) = OFunc co0 G cells0 -> H (unmethod H y) = OFunc co G cells ->
  forall n v, In n (nestedglobals co) -> get n G = Some v -> get n r = Some v.
Proof.
  intros H bi b G o y Hw Hr. induction Hr as [o|o co1 cells1 c y Ho Hc Hr IH|o co1 cells1 m x y Ho Hm Hx Hr IH];
  intros fuel r co0 cells0 co cells E Ho0 Hy n v Hn Hv.
  - destruct fuel; [discriminate|]. destruct (C33_complete _ _ _ _ _ _ _ _ _ Hw E Hy n v Hn) as [v' [H1 H2]].
    { unfold sees. rewrite Hv. reflexivity. }
    rewrite H1, (H2 Hv). reflexivity.
  - destruct fuel as [|fuel]; [discriminate|].
    destruct (globalvars_func _ _ _ _ _ _ _ _ _ Ho E) as [names [globs [names' [E1 [E2 [-> Hi]]]]]].
    rewrite get_pick, get_update by (eapply (proj2 Hw); eauto). rewrite Hv.
    destruct (fold_opt_each _ _ _ _ E1 (Some c) Hc) as [st [st' Es]]. cbn [cell_step] in Es.
    destruct (globalvars fuel H bi true b c) as [vars|] eqn:Ec; [|discriminate].
    assert (Hcf : (exists coc cellsc, H (unmethod H c) = OFunc coc G cellsc)).
    { inversion Hr; subst; eauto. }
    destruct Hcf as [coc [cellsc Hcf]].
    pose proof (IH fuel vars coc cellsc co cells Ec Hcf Hy n v Hn Hv) as Hg.
    destruct (cell_step_keys _ _ _ _ E1) as [_ Hk].
    assert (Hin : In n names') by (apply Hi, in_app_iff; left; eapply Hk; eauto; eapply get_Some_keys; eauto).
    apply memb_In in Hin. rewrite Hin. reflexivity.
  - destruct fuel as [|fuel]; [discriminate|].
    assert (Hxf : (exists cox cellsx, H (unmethod H x) = OFunc cox G cellsx)).
    { inversion Hr; subst; eauto. }
    destruct Hxf as [cox [cellsx Hxf]].
    destruct (Nat.eqb_spec x (unmethod H o)) as [Heq|Hne].
    { apply (IH (S fuel) r cox cellsx co cells); auto. rewrite Heq. erewrite globalvars_unmethod; eauto. }
    destruct (globalvars_func _ _ _ _ _ _ _ _ _ Ho E) as [names [globs [names' [E1 [E2 [-> Hi]]]]]].
    assert (HwG : wf G) by (eapply (proj2 Hw); eauto).
    rewrite get_pick, get_update by auto. rewrite Hv.
    assert (Hgx : get m (update globs G) = Some x) by (rewrite get_update, Hx by auto; reflexivity).
    assert (Hml : In m (names ++ nestedglobals co1)) by (apply in_app_iff; auto).
    destruct (fold_opt_each _ _ _ _ E2 m Hml) as [a [a' Es]]. unfold name_step in Es. rewrite Hgx in Es.
    destruct (Nat.eqb_spec x (unmethod H o)); [contradiction|].
    destruct (globalvars fuel H bi true b x) as [vars|] eqn:Ex; [|discriminate].
    pose proof (IH fuel vars cox cellsx co cells Ex Hxf Hy n v Hn Hv) as Hg.
    assert (Hin : In n names').
    { eapply (name_step_keys _ _ _ _ _ _ E2 m x vars); eauto. eapply get_Some_keys; eauto. }
    apply memb_In in Hin. rewrite Hin. reflexivity.
Qed.

(** ** What may be found and which functions may be entered *)
Inductive binds (H : nat -> obj) (bi : dict string nat) (b : bool) : nat -> string -> nat -> Prop :=
| binds_global o co g cells n x : H (unmethod H o) = OFunc co g cells -> get n g = Some x -> binds H bi b o n x
| binds_builtin o n x : b = true -> get n bi = Some x -> binds H bi b o n x
| binds_cell o co g cells c n x : H (unmethod H o) = OFunc co g cells -> get n g = None -> In (Some c) cells -> binds H bi b c n x -> binds H bi b o n x.
Inductive uses (H : nat -> obj) (bi : dict string nat) (b : bool) : nat -> string -> Prop :=
| uses_func o co g cells n : H (unmethod H o) = OFunc co g cells -> In n (nestedglobals co) -> uses H bi b o n
| uses_code o co n : H (unmethod H o) = OCode co -> In n (nestedglobals co) -> uses H bi b o n
| uses_call o x n : calls H bi b o x -> uses H bi b x n -> uses H bi b o n
with calls (H : nat -> obj) (bi : dict string nat) (b : bool) : nat -> nat -> Prop :=
| calls_cell o co g cells c : H (unmethod H o) = OFunc co g cells -> In (Some c) cells -> calls H bi b o c
| calls_name o co g cells n x : H (unmethod H o) = OFunc co g cells -> In n (nestedglobals co) -> binds H bi b o n x -> x <> unmethod H o -> calls H bi b o x
| calls_cellname o co g cells c n x : H (unmethod H o) = OFunc co g cells -> In (Some c) cells -> uses H bi b c n -> binds H bi b o n x -> x <> unmethod H o -> calls H bi b o x
| calls_code o co n x : H (unmethod H o) = OCode co -> In n (nestedglobals co) -> n <> co_name co -> b = true -> get n bi = Some x -> calls H bi b o x.

(** nothing else is in the result: each name is used by a function that is reached, each value is bound to it *)
Theorem C33_only_used : forall H bi b, wf_world H bi -> forall fuel o r, globalvars fuel H bi true b o = Some r ->
  forall n x, get n r = Some x -> uses H bi b o n /\ binds H bi b o n x.
Proof.
  intros H bi b Hw. induction fuel as [|fuel IH]; intros o r E n x Hr; [discriminate|].
  destruct (H (unmethod H o)) as [co g cells|f|co|] eqn:Ho.
  - assert (HB : forall n x, get n r = Some x -> binds H bi b o n x).
    { intros m y Hm. destruct (C33_bindings _ _ _ _ _ _ _ _ _ Hw E Ho m y Hm) as [H1|[H1 [[Hb H2]|[c [rc [H2 [H3 H4]]]]]]].
      - eapply binds_global; eauto.
      - eapply binds_builtin; eauto.
      - eapply binds_cell; eauto. eapply IH; eauto. }
    split; [|auto].
    destruct (globalvars_func _ _ _ _ _ _ _ _ _ Ho E) as [names [globs [names' [E1 [E2 [-> Hi]]]]]].
    rewrite get_pick in Hr. destruct (memb_spec n names') as [Hn|]; [|discriminate].
    assert (HN : forall m, In m names -> exists c, In (Some c) cells /\ uses H bi b c m).
    { assert (G : forall l st st', fold_opt (cell_step (globalvars fuel H bi true b)) l st = Some st' -> incl l cells ->
                 forall m, In m (fst st') -> In m (fst st) \/ exists c, In (Some c) cells /\ uses H bi b c m).
      { induction l as [|cell l IHl]; intros st st' El Hincl m Hm; cbn [fold_opt] in El; [injection El as <-; auto|].
        destruct (cell_step _ st cell) as [st1|] eqn:Ec; [|discriminate].
        assert (Hincl' : incl l cells) by (intros z Hz; apply Hincl; simpl; auto).
        destruct (IHl _ _ El Hincl' m Hm) as [Hm1|]; auto.
        destruct cell as [c|]; cbn [cell_step] in Ec; [|injection Ec as <-; auto].
        destruct (globalvars fuel H bi true b c) as [vars|] eqn:Ev; [|discriminate]. injection Ec as <-. cbn [fst] in Hm1.
        apply in_app_iff in Hm1 as [Hm1|Hm1]; auto. right. exists c. split; [apply Hincl; simpl; auto|].
        destruct (get m vars) as [z|] eqn:Ez; [|apply get_None_iff in Ez; tauto]. eapply IH; eauto. }
      intros m Hm. destruct (G cells _ _ E1 (incl_refl _) m Hm) as [[]|]; auto. }
    assert (HQ : forall m, In m (names ++ nestedglobals co) -> uses H bi b o m).
    { intros m Hm. apply in_app_iff in Hm as [Hm|Hm]; [|eapply uses_func; eauto].
      destruct (HN m Hm) as [c [Hc Hu]]. eapply uses_call; eauto. eapply calls_cell; eauto. }
    assert (Hglob : forall k y, get k (update globs g) = Some y -> binds H bi b o k y).
    { intros k y Hk. rewrite get_update in Hk by (eapply (proj2 Hw); eauto). destruct (get k g) as [z|] eqn:Ez.
      - injection Hk as <-. eapply binds_global; eauto.
      - destruct (cells_globs _ _ _ _ E1 (fun c vars => globalvars_wf _ _ _ _ _ c vars) k y Hk) as [Hs|[c [vars [H1 [H2 H3]]]]].
        + cbn [snd] in Hs. destruct b eqn:Eb; [|discriminate]. rewrite <- Eb. eapply binds_builtin; eauto.
        + eapply binds_cell; eauto. eapply IH; eauto. }
    revert n Hn x Hr. change (forall n, In n names' -> forall x, get n (update globs g) = Some x -> uses H bi b o n).
    assert (HR : (fun a => forall m, In m a -> uses H bi b o m) names').
    { refine (fold_opt_inv _ (fun a => forall m, In m a -> uses H bi b o m) _ _ _ _ HQ E2).
      intros a k a' Hk Ha Es m Hm. unfold name_step in Es. destruct (get k (update globs g)) as [y|] eqn:Ey; [|injection Es as <-; auto].
      destruct (Nat.eqb_spec y (unmethod H o)) as [|Hne]; [injection Es as <-; auto|].
      destruct (globalvars fuel H bi true b y) as [vars|] eqn:Ev; [|discriminate]. injection Es as <-.
      apply in_app_iff in Hm as [Hm|Hm]; auto.
      destruct (get m vars) as [z|] eqn:Ez; [|apply get_None_iff in Ez; tauto].
      destruct (IH _ _ Ev m z Ez) as [Hu _]. eapply uses_call; eauto.
      apply in_app_iff in Hk as [Hk|Hk].
      - destruct (HN k Hk) as [c [Hc Hu']]. eapply calls_cellname; eauto.
      - eapply calls_name; eauto. }
    intros n Hn x _. auto.
  - cbn [globalvars] in E. rewrite Ho in E. injection E as <-. discriminate.
  - cbn [globalvars] in E. rewrite Ho in E. destruct (fold_opt _ _ _) as [names'|] eqn:E2; [|discriminate]. injection E as <-.
    rewrite get_pick in Hr. destruct (memb_spec n names') as [Hn|]; [|discriminate].
    assert (HR : (fun a => forall m, In m a -> uses H bi b o m) names').
    { refine (fold_opt_inv _ (fun a => forall m, In m a -> uses H bi b o m) _ _ _ _ _ E2).
      2:{ intros m Hm. eapply uses_code; eauto. }
      intros a k a' Hk Ha Es m Hm. unfold name_step_code in Es. destruct (String.eqb_spec k (co_name co)) as [|Hne]; [injection Es as <-; auto|].
      destruct (get k (if b then bi else [])) as [y|] eqn:Ey; [|injection Es as <-; auto].
      destruct (globalvars fuel H bi true b y) as [vars|] eqn:Ev; [|discriminate]. injection Es as <-.
      apply in_app_iff in Hm as [Hm|Hm]; auto.
      destruct (get m vars) as [z|] eqn:Ez; [|apply get_None_iff in Ez; tauto].
      destruct (IH _ _ Ev m z Ez) as [Hu _]. eapply uses_call; [|exact Hu].
      destruct b eqn:Eb; [|discriminate]. eapply calls_code; eauto. }
    split; auto. destruct b eqn:Eb; [|discriminate]. eapply binds_builtin; eauto.
  - cbn [globalvars] in E. rewrite Ho in E. injection E as <-. discriminate.
Qed.

(** C34.  globalvars terminates on every object from which no infinite chain of calls starts ... *)
Theorem C34_terminates_partial : forall H bi b, wf_world H bi -> forall o,
  Acc (fun x o => calls H bi b o x) o -> exists fuel r, globalvars fuel H bi true b o = Some r.
Proof.
  intros H bi b Hw o HA. induction HA as [o _ IH].
  assert (Huni : forall (L : list nat), (forall x, In x L -> calls H bi b o x) -> exists F, forall x, In x L -> exists r, globalvars F H bi true b x = Some r).
  { induction L as [|x L IHL]; intros HL; [exists 0; intros x []|].
    destruct IHL as [F1 H1]; [intros y Hy; apply HL; simpl; auto|]. destruct (IH x (HL x (or_introl eq_refl))) as [F2 [r2 H2]].
    exists (F1 + F2). intros y [<-|Hy].
    - exists r2. eapply globalvars_le; [|exact H2]. lia.
    - destruct (H1 y Hy) as [r Hr]. exists r. eapply globalvars_le; [|exact Hr]. lia. }
  destruct (H (unmethod H o)) as [co g cells|f|co|] eqn:Ho.
  - destruct (Huni (flat_map (fun c => match c with Some c => [c] | None => [] end) cells)) as [F1 HF1].
    { intros x Hx. apply in_flat_map in Hx as [[c|] [Hc Hx]]; [destruct Hx as [<-|[]]|destruct Hx]. eapply calls_cell; eauto. }
    assert (Hcells : forall F, F1 <= F -> exists st, fold_opt (cell_step (globalvars F H bi true b)) cells ([], if b then bi else []) = Some st).
    { intros F HF. apply fold_opt_total. intros st [c|] Hc; cbn [cell_step]; [|eauto].
      destruct (HF1 c) as [r Hr]. { apply in_flat_map. exists (Some c). simpl; auto. }
      rewrite (globalvars_le H bi b F1 F true c r HF Hr). eauto. }
    destruct (Hcells F1 (le_n _)) as [[names globs] E1].
    assert (HN : forall m, In m names -> exists c, In (Some c) cells /\ uses H bi b c m).
    { assert (G : forall l st st', fold_opt (cell_step (globalvars F1 H bi true b)) l st = Some st' -> incl l cells ->
                 forall m, In m (fst st') -> In m (fst st) \/ exists c, In (Some c) cells /\ uses H bi b c m).
      { induction l as [|cell l IHl]; intros st st' El Hincl m Hm; cbn [fold_opt] in El; [injection El as <-; auto|].
        destruct (cell_step _ st cell) as [st1|] eqn:Ec; [|discriminate].
        assert (Hincl' : incl l cells) by (intros z Hz; apply Hincl; simpl; auto).
        destruct (IHl _ _ El Hincl' m Hm) as [Hm1|]; auto.
        destruct cell as [c|]; cbn [cell_step] in Ec; [|injection Ec as <-; auto].
        destruct (globalvars F1 H bi true b c) as [vars|] eqn:Ev; [|discriminate]. injection Ec as <-. cbn [fst] in Hm1.
        apply in_app_iff in Hm1 as [Hm1|Hm1]; auto. right. exists c. split; [apply Hincl; simpl; auto|].
        destruct (get m vars) as [z|] eqn:Ez; [|apply get_None_iff in Ez; tauto]. eapply C33_only_used; eauto. }
      intros m Hm. destruct (G cells _ _ E1 (incl_refl _) m Hm) as [[]|]; auto. }
    assert (Hglob : forall k y, get k (update globs g) = Some y -> binds H bi b o k y).
    { intros k y Hk. rewrite get_update in Hk by (eapply (proj2 Hw); eauto). destruct (get k g) as [z|] eqn:Ez.
      - injection Hk as <-. eapply binds_global; eauto.
      - destruct (cells_globs _ _ _ _ E1 (fun c vars => globalvars_wf _ _ _ _ _ c vars) k y Hk) as [Hs|[c [vars [H1 [H2 H3]]]]].
        + cbn [snd] in Hs. destruct b eqn:Eb; [|discriminate]. rewrite <- Eb. eapply binds_builtin; eauto.
        + eapply binds_cell; eauto. eapply C33_only_used; eauto. }
    set (next := fun k => match get k (update globs g) with Some y => if Nat.eqb y (unmethod H o) then [] else [y] | None => [] end).
    destruct (Huni (flat_map next (names ++ nestedglobals co))) as [F2 HF2].
    { intros x Hx. apply in_flat_map in Hx as [k [Hk Hx]]. unfold next in Hx. destruct (get k (update globs g)) as [y|] eqn:Ey; [|destruct Hx].
      destruct (Nat.eqb_spec y (unmethod H o)) as [|Hne]; [destruct Hx|destruct Hx as [<-|[]]].
      apply in_app_iff in Hk as [Hk|Hk].
      - destruct (HN k Hk) as [c [Hc Hu]]. eapply calls_cellname; eauto.
      - eapply calls_name; eauto. }
    exists (S (F1 + F2)). cbn [globalvars]. rewrite Ho.
    rewrite (fold_opt_mono _ (cell_step (globalvars (F1 + F2) H bi true b)) cells _ (names, globs)) with (2 := E1).
    2:{ intros st [c|] st' _; cbn [cell_step]; auto. destruct (globalvars F1 H bi true b c) eqn:Ec; [|discriminate].
        rewrite (globalvars_le H bi b F1 (F1 + F2) true c _ ltac:(lia) Ec). auto. }
    destruct (fold_opt_total (name_step (globalvars (F1 + F2) H bi true b) (update globs g) (unmethod H o)) (names ++ nestedglobals co)%list (names ++ nestedglobals co)%list) as [names' ->]; [|eauto].
    intros a k Hk. unfold name_step. destruct (get k (update globs g)) as [y|] eqn:Ey; [|eauto].
    destruct (Nat.eqb y (unmethod H o)) eqn:Ee; [eauto|].
    destruct (HF2 y) as [r Hr].
    { apply in_flat_map. exists k. split; auto. unfold next. rewrite Ey, Ee. simpl; auto. }
    rewrite (globalvars_le H bi b F2 (F1 + F2) true y r ltac:(lia) Hr). eauto.
  - exists 1. cbn [globalvars]. rewrite Ho. eauto.
  - set (globs := if b then bi else []).
    set (next := fun k => if String.eqb k (co_name co) then [] else match get k globs with Some y => [y] | None => [] end).
    destruct (Huni (flat_map next (nestedglobals co))) as [F HF].
    { intros x Hx. apply in_flat_map in Hx as [k [Hk Hx]]. unfold next in Hx. destruct (String.eqb_spec k (co_name co)) as [|Hne]; [destruct Hx|].
      destruct (get k globs) as [y|] eqn:Ey; [|destruct Hx]. destruct Hx as [<-|[]]. unfold globs in Ey. destruct b eqn:Eb; [|discriminate].
      eapply calls_code; eauto. }
    exists (S F). cbn [globalvars]. rewrite Ho. fold globs.
    destruct (fold_opt_total (name_step_code (globalvars F H bi true b) globs (co_name co)) (nestedglobals co) (nestedglobals co)) as [names' ->]; [|eauto].
    intros a k Hk. unfold name_step_code. destruct (String.eqb k (co_name co)) eqn:Ek; [eauto|].
    destruct (get k globs) as [y|] eqn:Ey; [|eauto]. destruct (HF y) as [r Hr].
    { apply in_flat_map. exists k. split; auto. unfold next. rewrite Ek, Ey. simpl; auto. }
    rewrite Hr. eauto.
  - exists 1. cbn [globalvars]. rewrite Ho. eauto.
Qed.

(** ... and REFUTED otherwise: a call enters every function in a closure cell and every global named in the
    code except itself, so a cycle of such references never returns *)
Definition must_call (H : nat -> obj) (o x : nat) : Prop :=
  exists co g cells, H (unmethod H o) = OFunc co g cells /\
    (In (Some x) cells \/ exists n, In n (nestedglobals co) /\ get n g = Some x /\ x <> unmethod H o).
Theorem C34_cycles_refuted : forall H bi b (s : nat -> nat), wf_world H bi -> (forall i, must_call H (s i) (s (S i))) ->
  forall fuel i, globalvars fuel H bi true b (s i) = None.
Proof.
  intros H bi b s Hw Hs. induction fuel as [|fuel IH]; intros i; [reflexivity|].
  destruct (globalvars (S fuel) H bi true b (s i)) as [r|] eqn:E; auto. exfalso.
  destruct (Hs i) as [co [g [cells [Ho Hx]]]].
  destruct (globalvars_func _ _ _ _ _ _ _ _ _ Ho E) as [names [globs [names' [E1 [E2 [_ Hi]]]]]].
  destruct Hx as [Hx|[n [Hn [Hg Hne]]]].
  - destruct (fold_opt_each _ _ _ _ E1 _ Hx) as [st [st' Es]]. cbn [cell_step] in Es. rewrite IH in Es. discriminate.
  - destruct (fold_opt_each _ _ _ _ E2 n) as [a [a' Es]]; [apply in_app_iff; auto|].
    unfold name_step in Es. rewrite get_update, Hg in Es by (eapply (proj2 Hw); eauto).
    destruct (Nat.eqb_spec (s (S i)) (unmethod H (s i))); [contradiction|]. rewrite IH in Es. discriminate.
Qed.
(** def f(): g()    def g(): f() *)
Definition leaf (name : string) (uses : list string) : code := Code name (map (pair OpGlobal) uses) uses [] [].
Definition G_mutual : dict string nat := [("f", 1); ("g", 2)].
Definition H_mutual (o : nat) : obj :=
  match o with 1 => OFunc (leaf "f" ["g"]) G_mutual [] | 2 => OFunc (leaf "g" ["f"]) G_mutual [] | _ => OOther end.
Lemma wf_mutual : wf_world H_mutual [].
Proof.
  split; [apply wf_nil|]. intros [|[|[|o]]] co g cells E; try discriminate; injection E as <- <- <-; repeat constructor; simpl; intuition discriminate.
Qed.
Theorem C34_mutual_recursion_refuted : forall fuel, globalvars fuel H_mutual [] true true 1 = None.
Proof.
  intros fuel. refine (C34_cycles_refuted H_mutual [] true (fun i => if Nat.even i then 1 else 2) wf_mutual _ fuel 0).
  intros i. rewrite Nat.even_succ, <- Nat.negb_even. destruct (Nat.even i); cbn [negb].
  - exists (leaf "f" ["g"]), G_mutual, []. split; auto. right. exists "g". split; [simpl; auto|]. split; [reflexivity|discriminate].
  - exists (leaf "g" ["f"]), G_mutual, []. split; auto. right. exists "f". split; [simpl; auto|]. split; [reflexivity|discriminate].
Qed.
(** a recursive inner function, whose cell holds itself *)
Definition H_inner (o : nat) : obj := match o with 1 => OFunc (leaf "fact" []) [] [Some 1] | _ => OOther end.
Theorem C34_inner_recursion_refuted : forall fuel, globalvars fuel H_inner [] true true 1 = None.
Proof.
  intros fuel. refine (C34_cycles_refuted H_inner [] true (fun _ => 1) _ _ fuel 0).
  - split; [apply wf_nil|]. intros [|[|o]] co g cells E; try discriminate. injection E as <- <- <-. apply wf_nil.
  - intros i. exists (leaf "fact" []), [], [Some 1]. split; auto. left. simpl; auto.
Qed.
(** global self-recursion terminates: def f(): f(); h() *)
Example ex_C34 : let G := [("f", 1); ("h", 2); ("K", 5)] in
  let H := fun o => match o with 1 => OFunc (leaf "f" ["f"; "h"]) G [] | 2 => OFunc (leaf "h" ["K"; "len"]) G [] | _ => OOther end in
  globalvars 9 H [("len", 8)] true true 1 = Some [("f", 1); ("h", 2); ("K", 5); ("len", 8)].
Proof. reflexivity. Qed.

(** C33 is REFUTED in general: 1. a global read in a class body inside the function (LOAD_NAME) is missed *)
Theorem C33_class_body_refuted : exists H G fuel r co, H 1 = OFunc co G [] /\
  (exists cls, In (Some cls) (co_consts co) /\ In (OpName, "K") (co_instrs cls)) /\ get "K" G = Some 5 /\
  globalvars fuel H [] true true 1 = Some r /\ get "K" r = None.
Proof.
  exists (fun o => match o with 1 => OFunc (Code "f" [] [] [] [Some (Code "A" [(OpName, "K")] ["K"] [] [])]) [("K", 5)] [] | _ => OOther end), [("K", 5)], 2, [].
  eexists. split; [reflexivity|]. split; [|repeat split].
  eexists. split; [left; reflexivity|]. left. reflexivity.
Qed.
(** 2. f uses the builtin len and closes over a function of another module that has its own global len:
    the copy of f is given that one *)
Theorem C33_closure_shadows_builtin_refuted : exists H fuel r co, H 1 = OFunc co [("x", 4)] [Some 2] /\ In "len" (nestedglobals co) /\
  sees [("len", 8)] true [("x", 4)] "len" = Some 8 /\
  globalvars fuel H [("len", 8)] true true 1 = Some r /\ get "len" r = Some 9.
Proof.
  exists (fun o => match o with 1 => OFunc (leaf "f" ["len"; "x"]) [("x", 4)] [Some 2] | 2 => OFunc (leaf "h" ["len"]) [("len", 9)] [] | _ => OOther end), 3.
  eexists. eexists. split; [reflexivity|]. split; [simpl; auto|]. split; [reflexivity|]. split; [vm_compute; reflexivity|reflexivity].
Qed.

(** C35: freevars are the non-empty cells under their names ... *)
Theorem C35_freevars : forall H o co g cells, H (unmethod H o) = OFunc co g cells -> NoDup (co_freevars co) -> length cells = length (co_freevars co) ->
  forall n v, get n (freevars H o) = Some v <-> exists i, nth_error (co_freevars co) i = Some n /\ nth_error cells i = Some (Some v).
Proof.
  intros H o co g cells Ho Hd Hl n v. unfold freevars. rewrite Ho. unfold cell_contents.
  assert (G : forall names cells acc, NoDup names -> length cells = length names -> (forall m, In m names -> get m acc = None) ->
     (get n (fold_left (fun d p => match snd p with Some v => set (fst p) v d | None => d end) (combine names cells) acc) = Some v <->
      get n acc = Some v \/ exists i, nth_error names i = Some n /\ nth_error cells i = Some (Some v))).
  { clear. induction names as [|m names IH]; intros cells acc Hd Hl Ha.
    - simpl. split; [auto|]. intros [Hx|[i [Hx _]]]; auto. destruct i; discriminate.
    - destruct cells as [|c cells]; [discriminate|]. cbn [combine fold_left fst snd]. inversion Hd as [|? ? Hni Hd']; subst.
      assert (Ha' : forall m', In m' names -> get m' (match c with Some v0 => set m v0 acc | None => acc end) = None).
      { intros m' Hm'. assert (m' <> m) by (intros ->; tauto). destruct c; [rewrite get_set_other by auto|]; apply Ha; simpl; auto. }
      rewrite IH by (auto; simpl in Hl; lia). clear IH.
      destruct (eqb_spec n m) as [->|Hne].
      + split.
        * intros [Hx|[i [Hx Hy]]].
          -- destruct c as [v0|].
             ++ rewrite get_set_same in Hx. injection Hx as ->. right. exists 0. auto.
             ++ rewrite (Ha m) in Hx by (simpl; auto). discriminate.
          -- right. exists (S i). auto.
        * intros [Hx|[[|i] [Hx Hy]]].
          -- rewrite (Ha m) in Hx by (simpl; auto). discriminate.
          -- cbn in Hy. injection Hy as ->. left. apply get_set_same.
          -- exfalso. apply Hni. eapply nth_error_In; eauto.
      + assert (Hg : get n (match c with Some v0 => set m v0 acc | None => acc end) = get n acc) by (destruct c; [apply get_set_other; auto|auto]).
        rewrite Hg. split; (intros [Hx|[i [Hx Hy]]]; [auto|right]).
        * exists (S i). auto.
        * destruct i as [|i]; [cbn in Hx; congruence|]. exists i. auto. }
  rewrite G by auto. simpl. split; [intros [Hx|Hx]; [discriminate|auto]|auto].
Qed.
(** ... and nestedcode is the set of code objects nested at any depth (at depth one without recurse) *)
Inductive nested_in : code -> code -> Prop :=
| nested_direct c k : In (Some k) (co_consts c) -> nested_in k c
| nested_deeper c m k : In (Some m) (co_consts c) -> nested_in k m -> nested_in k c.
Fixpoint code_size (c : code) : nat :=
  match c with Code _ _ _ _ consts => S (list_sum (map (fun k => match k with Some c => code_size c | None => 0 end) consts)) end.
Lemma code_size_in k c : In (Some k) (co_consts c) -> code_size k < code_size c.
Proof.
  destruct c as [nm ins ns fv consts]. cbn [co_consts code_size]. intros Hi. apply Nat.lt_succ_r.
  induction consts as [|x consts IH]; [destruct Hi|]. cbn [map list_sum fold_right]. destruct Hi as [->|Hi]; [lia|].
  specialize (IH Hi). unfold list_sum in IH. lia.
Qed.
Theorem C35_nestedcode : forall c k, In k (nestedcode c) <-> nested_in k c.
Proof.
  assert (G : forall n c, code_size c < n -> forall k, In k (nestedcode c) <-> nested_in k c).
  { induction n as [|n IH]; intros c Hs k; [lia|].
    assert (E : In k (nestedcode c) <-> exists m, In (Some m) (co_consts c) /\ (k = m \/ In k (nestedcode m))).
    { destruct c as [nm ins ns fv consts]. cbn [nestedcode co_consts]. rewrite in_flat_map. split.
      - intros [[m|] [Hm Hx]]; [|destruct Hx]. exists m. split; auto. destruct Hx as [->|Hx]; auto.
      - intros [m [Hm Hx]]. exists (Some m). split; auto. destruct Hx as [->|Hx]; simpl; auto. }
    rewrite E. split.
    - intros [m [Hm [->|Hx]]]; [apply nested_direct; auto|].
      apply IH in Hx; [eapply nested_deeper; eauto|]. pose proof (code_size_in m c Hm). lia.
    - intros Hn. inversion Hn as [c' k' Hm|c' m k' Hm Hk]; subst; [eauto|]. exists m. split; auto. right.
      apply IH; auto. pose proof (code_size_in m c Hm). lia. }
  intros c k. apply (G (S (code_size c))). lia.
Qed.
Theorem C35_nestedcode_depth_one : forall c k, In k (nestedcode1 c) <-> In (Some k) (co_consts c).
Proof.
  intros c k. unfold nestedcode1. rewrite in_flat_map. split.
  - intros [[m|] [Hm Hx]]; [destruct Hx as [<-|[]]; auto|destruct Hx].
  - intros Hm. exists (Some k). simpl; auto.
Qed.
(** the names globalvars starts from are exactly those of the global instructions of nested code *)
Theorem C35_nestedglobals : forall c n, In n (nestedglobals c) <-> exists k, (k = c \/ nested_in k c) /\ In (OpGlobal, n) (co_instrs k).
Proof.
  assert (G : forall m c, code_size c < m -> forall n, In n (nestedglobals c) <-> exists k, (k = c \/ nested_in k c) /\ In (OpGlobal, n) (co_instrs k)).
  { induction m as [|m IH]; intros c Hs n; [lia|].
    assert (E : In n (nestedglobals c) <-> In (OpGlobal, n) (co_instrs c) \/ exists k, In (Some k) (co_consts c) /\ In n (nestedglobals k)).
    { destruct c as [nm ins ns fv consts]. cbn [nestedglobals co_consts co_instrs]. rewrite in_app_iff, in_flat_map. split.
      - intros [Hx|[[k|] [Hk Hx]]]; [left|right; eauto|destruct Hx]. apply in_map_iff in Hx as [[op x] [<- Hx]].
        apply filter_In in Hx as [Hx Hop]. destruct op; [auto|discriminate].
      - intros [Hx|[k [Hk Hx]]]; [left|right; exists (Some k); auto]. apply in_map_iff. exists (OpGlobal, n). split; auto.
        apply filter_In. auto. }
    rewrite E. split.
    - intros [Hx|[k [Hk Hx]]]; [exists c; auto|]. apply IH in Hx; [|pose proof (code_size_in k c Hk); lia].
      destruct Hx as [k' [[->|Hk'] Hx]]; [exists k|exists k']; split; auto; right; [apply nested_direct|eapply nested_deeper]; eauto.
    - intros [k [[->|Hk] Hx]]; auto. right. inversion Hk as [c' k' Hm|c' k1 k' Hm Hk']; subst.
      + exists k. split; auto. apply IH; [pose proof (code_size_in k c Hm); lia|]. exists k. auto.
      + exists k1. split; auto. apply IH; [pose proof (code_size_in k1 c Hm); lia|]. exists k. auto. }
  intros c n. apply (G (S (code_size c))). lia.
Qed.
Example ex_C35 : let inner := Code "h" [(OpGlobal, "K")] ["K"] [] [] in let c := Code "f" [] [] ["x"; "y"] [None; Some (Code "g" [] [] [] [Some inner])] in
  nestedcode c = [Code "g" [] [] [] [Some inner]; inner] /\ nestedglobals c = ["K"] /\
  freevars (fun o => match o with 1 => OFunc c [] [Some 7; None] | 2 => OMethod 1 | _ => OOther end) 2 = [("x", 7)].
Proof. repeat split. Qed.
Print Assumptions C33_bindings.
Print Assumptions C33_complete.
Print Assumptions C33_sees_partial.
Print Assumptions C33_closed_partial.
Print Assumptions C33_only_used.
Print Assumptions C34_terminates_partial.
Print Assumptions C34_cycles_refuted.
Print Assumptions C35_freevars.
Print Assumptions C35_nestedcode.
Print Assumptions C35_nestedglobals.
