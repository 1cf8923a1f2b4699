(** Proofs about GlobalsModel. *)
From Coq Require Import String Ascii List Bool Arith Lia.
From Verif Require Import PyDict GlobalsModel.
Import ListNotations.
Local Open Scope string_scope.

Lemma fold_opt_inv {A B} (f : A -> B -> option A) (Q : A -> Prop) : forall l a a',
  (forall a b a', In b l -> Q a -> f a b = Some a' -> Q a') -> Q a -> fold_opt f l a = Some a' -> Q a'.
Proof.
  induction l as [|b l IH]; intros a a' Hs Hq E; cbn [fold_opt] in E; [injection E as <-; auto|].
  destruct (f a b) as [a1|] eqn:E1; [|discriminate]. eapply IH; [|eapply Hs; eauto; simpl; auto|exact E].
  intros x y z Hy. apply Hs. simpl; auto.
Qed.
Lemma fold_opt_each {A B} (f : A -> B -> option A) : forall l a a', fold_opt f l a = Some a' ->
  forall b, In b l -> exists x y, f x b = Some y.
Proof.
  induction l as [|b l IH]; intros a a' E c Hc; [destruct Hc|]. cbn [fold_opt] in E.
  destruct (f a b) as [a1|] eqn:E1; [|discriminate]. destruct Hc as [<-|Hc]; eauto.
Qed.
Lemma fold_opt_total {A B} (f : A -> B -> option A) : forall l a,
  (forall x b, In b l -> exists y, f x b = Some y) -> exists a', fold_opt f l a = Some a'.
Proof.
  induction l as [|b l IH]; intros a Ht; cbn [fold_opt]; [eauto|].
  destruct (Ht a b (or_introl eq_refl)) as [y ->]. apply IH. intros x c Hc. apply Ht. simpl; auto.
Qed.
Lemma fold_opt_mono {A B} (f g : A -> B -> option A) : forall l a a',
  (forall x b y, In b l -> f x b = Some y -> g x b = Some y) -> fold_opt f l a = Some a' -> fold_opt g l a = Some a'.
Proof.
  induction l as [|b l IH]; intros a a' Hm E; cbn [fold_opt] in *; auto.
  destruct (f a b) as [a1|] eqn:E1; [|discriminate]. rewrite (Hm a b a1 (or_introl eq_refl) E1). apply IH; auto.
  intros x c y Hc. apply Hm. simpl; auto.
Qed.
(** the accumulated list only grows *)
Lemma fold_opt_grows {B} (f : list string -> B -> option (list string)) : (forall a b a', f a b = Some a' -> incl a a') ->
  forall l a a', fold_opt f l a = Some a' -> incl a a'.
Proof.
  intros Hg. induction l as [|b l IH]; intros a a' E; cbn [fold_opt] in E; [injection E as <-; apply incl_refl|].
  destruct (f a b) as [a1|] eqn:E1; [|discriminate]. eapply incl_tran; [eapply Hg|eapply IH]; eauto.
Qed.

Lemma get_pick names globs n : get n (pick names globs) = if memb n names then get n globs else None.
Proof.
  unfold pick. assert (G : forall l acc, get n (fold_left (fun d n => match get n globs with Some v => set n v d | None => d end) l acc) =
     if memb n l then match get n globs with Some v => Some v | None => get n acc end else get n acc).
  { induction l as [|m l IH]; intros acc; cbn [fold_left memb]; [reflexivity|]. rewrite IH. destruct (eqb_spec n m) as [->|Hn].
    - destruct (get m globs) eqn:E; [rewrite get_set_same|]; destruct (memb m l); auto.
    - destruct (get m globs); [rewrite get_set_other by auto|]; reflexivity. }
  rewrite G. simpl. destruct (memb n names); auto. destruct (get n globs); auto.
Qed.
Lemma wf_pick names globs : wf (pick names globs).
Proof.
  unfold pick. assert (G : forall l acc, wf acc -> wf (fold_left (fun d n => match get n globs with Some v => set n v d | None => d end) l acc)).
  { induction l as [|m l IH]; intros acc Hw; cbn [fold_left]; auto. apply IH. destruct (get m globs); auto. apply wf_set; auto. }
  apply G, wf_nil.
Qed.
Lemma globalvars_wf fuel H bi rc b o r : globalvars fuel H bi rc b o = Some r -> wf r.
Proof.
  destruct fuel; [discriminate|]. cbn [globalvars]. destruct (H (unmethod H o)).
  - destruct (fold_opt _ _ _) as [[names globs]|]; [|discriminate]. destruct rc.
    + destruct (fold_opt _ _ _); [|discriminate]. intros E. injection E as <-. apply wf_pick.
    + intros E. injection E as <-. apply wf_pick.
  - intros E. injection E as <-. apply wf_nil.
  - destruct rc; [destruct (fold_opt _ _ _); [|discriminate]|]; intros E; injection E as <-; apply wf_pick.
  - intros E. injection E as <-. apply wf_nil.
Qed.

(** more fuel gives the same result *)
Lemma globalvars_mono H bi b : forall fuel rc o r, globalvars fuel H bi rc b o = Some r -> globalvars (S fuel) H bi rc b o = Some r.
Proof.
  induction fuel as [|fuel IH]; intros rc o r E; [discriminate|].
  assert (Hc : forall rc st cell st', cell_step (globalvars fuel H bi rc b) st cell = Some st' -> cell_step (globalvars (S fuel) H bi rc b) st cell = Some st').
  { intros rc' st [c|] st'; cbn [cell_step]; auto. destruct (globalvars fuel H bi rc' b c) eqn:E1; [|discriminate]. rewrite (IH _ _ _ E1). auto. }
  assert (Hn : forall globs orig l k l', name_step (globalvars fuel H bi true b) globs orig l k = Some l' -> name_step (globalvars (S fuel) H bi true b) globs orig l k = Some l').
  { intros globs orig l k l'. unfold name_step. destruct (get k globs); auto. destruct (Nat.eqb _ _); auto.
    destruct (globalvars fuel H bi true b n) eqn:E1; [|discriminate]. rewrite (IH _ _ _ E1). auto. }
  assert (Hnc : forall globs orig l k l', name_step_code (globalvars fuel H bi true b) globs orig l k = Some l' -> name_step_code (globalvars (S fuel) H bi true b) globs orig l k = Some l').
  { intros globs orig l k l'. unfold name_step_code. destruct (String.eqb _ _); auto. destruct (get k globs); auto.
    destruct (globalvars fuel H bi true b n) eqn:E1; [|discriminate]. rewrite (IH _ _ _ E1). auto. }
  remember (S fuel) as f1. cbn [globalvars]. subst f1. cbn [globalvars] in E.
  destruct (H (unmethod H o)); auto.
  - destruct (fold_opt _ closure _) as [[names globs]|] eqn:E1; [|discriminate].
    rewrite (fold_opt_mono _ (cell_step (globalvars (S fuel) H bi rc b)) _ _ _ (fun x b y _ => Hc rc x b y) E1). destruct rc; auto.
    destruct (fold_opt (name_step _ _ _) _ _) as [names'|] eqn:E2; [|discriminate].
    rewrite (fold_opt_mono _ (name_step (globalvars (S fuel) H bi true b) (update globs globals) (unmethod H o)) _ _ _ (fun x b y _ => Hn _ _ x b y) E2). auto.
  - destruct rc; auto. destruct (fold_opt _ _ _) as [names'|] eqn:E2; [|discriminate].
    rewrite (fold_opt_mono _ (name_step_code (globalvars (S fuel) H bi true b) (if b then bi else []) (co_name co)) _ _ _ (fun x b y _ => Hnc _ _ x b y) E2). auto.
Qed.
Lemma globalvars_le H bi b fuel fuel' rc o r : fuel <= fuel' -> globalvars fuel H bi rc b o = Some r -> globalvars fuel' H bi rc b o = Some r.
Proof. intros Hle E. induction Hle; auto. apply globalvars_mono. auto. Qed.

(** what the pieces of one call are: names and globals after the cells, then after the loop *)
Lemma globalvars_func fuel H bi b o co g cells r : H (unmethod H o) = OFunc co g cells ->
  globalvars (S fuel) H bi true b o = Some r ->
  exists names globs names',
    fold_opt (cell_step (globalvars fuel H bi true b)) cells ([], if b then bi else []) = Some (names, globs) /\
    fold_opt (name_step (globalvars fuel H bi true b) (update globs g) (unmethod H o)) (names ++ nestedglobals co)%list (names ++ nestedglobals co)%list = Some names' /\
    r = pick names' (update globs g) /\ incl (names ++ nestedglobals co)%list names'.
Proof.
  intros Ho E. cbn [globalvars] in E. rewrite Ho in E.
  destruct (fold_opt (cell_step _) _ _) as [[names globs]|] eqn:E1; [|discriminate].
  destruct (fold_opt (name_step _ _ _) _ _) as [names'|] eqn:E2; [|discriminate]. injection E as <-.
  exists names, globs, names'. repeat split; auto.
  eapply fold_opt_grows; [|exact E2]. intros a k a'. unfold name_step. destruct (get k (update globs g)).
  - destruct (Nat.eqb _ _); [intros Ex; injection Ex as <-; apply incl_refl|]. destruct (globalvars _ _ _ _ _ _); [|discriminate].
    intros Ex. injection Ex as <-. apply incl_appl, incl_refl.
  - intros Ex. injection Ex as <-. apply incl_refl.
Qed.
Lemma name_step_keys gv globs orig : forall l a a', fold_opt (name_step gv globs orig) l a = Some a' ->
  forall k x vars, In k l -> get k globs = Some x -> x <> orig -> gv x = Some vars -> incl (keys vars) a'.
Proof.
  induction l as [|k0 l IH]; intros a a' E k x vars Hk Hg Hx Hv; [destruct Hk|]. cbn [fold_opt] in E.
  destruct (name_step gv globs orig a k0) as [a1|] eqn:E1; [|discriminate].
  destruct Hk as [->|Hk]; [|eapply IH; eauto].
  unfold name_step in E1. rewrite Hg in E1. destruct (Nat.eqb_spec x orig); [contradiction|]. rewrite Hv in E1. injection E1 as <-.
  eapply incl_tran; [apply incl_appr, incl_refl|]. eapply fold_opt_grows; [|exact E].
  intros b k' b'. unfold name_step. destruct (get k' globs).
  - destruct (Nat.eqb _ _); [intros Ex; injection Ex as <-; apply incl_refl|]. destruct (gv n0); [|discriminate].
    intros Ex. injection Ex as <-. apply incl_appl, incl_refl.
  - intros Ex. injection Ex as <-. apply incl_refl.
Qed.
Lemma cell_step_keys gv : forall cells st st', fold_opt (cell_step gv) cells st = Some st' ->
  incl (fst st) (fst st') /\ forall c vars, In (Some c) cells -> gv c = Some vars -> incl (keys vars) (fst st').
Proof.
  induction cells as [|cell cells IH]; intros st st' E; cbn [fold_opt] in E.
  - injection E as <-. split; [apply incl_refl|intros c vars []].
  - destruct (cell_step gv st cell) as [st1|] eqn:E1; [|discriminate]. destruct (IH _ _ E) as [H1 H2].
    destruct cell as [c0|]; cbn [cell_step] in E1.
    + destruct (gv c0) as [v0|] eqn:Ev; [|discriminate]. injection E1 as <-. cbn [fst] in H1. split.
      * eapply incl_tran; [|exact H1]. apply incl_appl, incl_refl.
      * intros c vars [Hc|Hc] Hv; [|eapply H2; eauto]. injection Hc as ->. rewrite Ev in Hv. injection Hv as <-.
        eapply incl_tran; [|exact H1]. apply incl_appr, incl_refl.
    + injection E1 as <-. split; auto. intros c vars [Hc|Hc]; [discriminate|eauto].
Qed.
