(** C81: the keys of dictionaries and the elements of sets are complete when they are inserted. *)
From Coq Require Import String List Bool Arith ZArith Lia.
From Verif Require Import PyDict CoreModel CoreSpec CoreSim CoreStep CoreReduce CoreObj CoreProc CoreMain CoreReach CoreInd CoreProps HashModel HashSpec HashBase HashStep HashObj HashProc CoreExamples.
Import ListNotations.
Local Open Scope string_scope.
Local Open Scope list_scope.

Lemma iso_by_iso R G H v h v' : iso_by R G H v h v' -> iso H v h v'.
Proof. intros X. exists R, G. exact X. Qed.
Lemma iso_by_sim H v e' m' s' v' : Sim H X0 (Ik []) [] [] [] [] e' (heap m') (post s') -> sync H s' e' m' -> val_rel (Renv e') v v' ->
  iso_by (Renv e') (Genv e') H v (heap m') v'.
Proof.
  intros Si S Hv. pose proof (sy_env _ _ _ _ S) as E.
  assert (EP : post s' = []) by (pose proof (s_post Si) as F; inversion F; auto).
  split; auto. split; [intros; eapply env_Rfun; eauto|]. split; [intros; eapply env_Rinj; eauto|].
  split; [|split; [|split]].
  - intros f g g' A B. assert (X : VR g = VR g') by (eapply (ek_fun _ _ _ _ E); [|exact A|exact B]; discriminate). congruence.
  - intros f f' g A B. pose proof (ek_inj _ _ _ _ E _ _ _ A B). congruence.
  - intros f g o A B. pose proof (ek_inj _ _ _ _ E _ _ _ A B). discriminate.
  - intros o a Ho. destruct (s_cov Si o a Ho) as [[]|[[]|[C|(p & [[]|(x & Hx & _)] & _)]]]; [|rewrite EP in Hx; destruct Hx].
    destruct C as (b & b' & A & (B & _) & D). exists b, b'. split; auto. split; auto.
    eapply obj_rel_mono; [| | |exact D]; auto. intros x y _ [Hx _]. exact Hx.
Qed.
Lemma runs_run ops : forall m, runs ops m = run ops m.
Proof. induction ops as [|o ops IH]; intros m; cbn; auto. Qed.

Lemma in_flat_iff kvs w : In w (CoreSpec.flat kvs) -> exists k v, In (k, v) kvs /\ (w = k \/ w = v).
Proof. unfold CoreSpec.flat. intros Hi. apply in_flat_map in Hi as ([k v] & Hp & Hw). exists k, v. split; auto. destruct Hw as [<-|[<-|[]]]; auto. Qed.
Lemma items_has (R : oid -> nat -> Prop) d d' y : Forall2 (item_rel R) d d' -> In (VR y) (CoreSpec.flat d) -> exists a, R y a.
Proof.
  intros F Hi. apply in_flat_iff in Hi as (k & v & Hp & E).
  assert (X : exists p', item_rel R (k, v) p').
  { clear - F Hp. induction F as [|p q l l' X F IH]; [destruct Hp|]. destruct Hp as [->|Hp]; eauto. }
  destruct X as ([k' v'] & A & B). cbn [fst snd] in *. destruct E as [<-|<-]; [destruct k' as [|a]|destruct v' as [|a]]; cbn in *; try tauto; eauto.
Qed.
Lemma vals_has (R : oid -> nat -> Prop) l l' y : Forall2 (val_rel R) l l' -> In (VR y) l -> exists a, R y a.
Proof. intros F. induction F as [|p q l l' X F IH]; intros Hi; [destruct Hi|]. destruct Hi as [->|Hi]; auto. destruct q; cbn in X; [tauto|eauto]. Qed.
Lemma val_has (R : oid -> nat -> Prop) w w' y : val_rel R w w' -> w = VR y -> exists a, R y a.
Proof. intros X ->. destruct w'; cbn in X; [tauto|eauto]. Qed.
Lemma state_has (R : oid -> nat -> Prop) st st' y : state_rel R st st' -> In (VR y) (state_vals st) -> exists a, R y a.
Proof.
  intros X Hi. destruct st as [|v|d [sl|]], st' as [|v'|d' [sl'|]]; cbn in *; try tauto.
  - destruct Hi as [Hi|[]]. eapply (val_has R v v'); [exact X|exact Hi].
  - destruct X as [X Y]. apply in_app_iff in Hi as [Hi|Hi]; [eapply items_has; [exact X|exact Hi]|eapply items_has; [exact Y|exact Hi]].
  - rewrite ?app_nil_r in Hi. eapply items_has; eauto.
Qed.
Lemma keyeq_ref y k : keyeq (VR y) k = true -> k = VR y.
Proof. unfold keyeq. destruct k as [a i|o]; cbn; [destruct a; discriminate|]. intros E. apply Nat.eqb_eq in E. congruence. Qed.
Lemma globals_has (R : oid -> nat -> Prop) m kvs d y : keys_distinct kvs -> Forall2 (item_rel R) (globals_copy m kvs) d -> In (VR y) (CoreSpec.flat kvs) -> exists a, R y a.
Proof.
  intros Kd F Hi. eapply items_has; [exact F|]. apply in_flat_iff in Hi as (k & v & Hp & E). unfold globals_copy.
  assert (G : getitem kvs k = Some v).
  { clear - Kd Hp. induction kvs as [|[k1 v1] kvs IH]; [destruct Hp|]. destruct Kd as [A B]. cbn [getitem]. destruct Hp as [Hp|Hp].
    - injection Hp as -> ->. now rewrite keyeq_refl.
    - rewrite keyeq_sym, (A _ _ Hp). auto. }
  apply (getitem_setitems kvs [(sNAME, m); (sBUILTINS, vBUILTINS)] _ _ Kd) in G. apply getitem_in in G as (k' & G & K).
  destruct (in_flat _ _ _ G) as [G1 G2]. destruct E as [<-|<-]; auto. apply keyeq_ref in K. subst k'. auto.
Qed.
Lemma links_has (R : oid -> nat -> Prop) H G hp b b' y : heap_wf H -> ~ is_cell b -> obj_rel R H G hp b b' -> In (VR y) (links H b) -> exists a, R y a.
Proof.
  intros HW Nc O Hi.
  destruct b as [vs|vs|kvs|nb c args li di st|co gl n de cl st|mt n bs d q|c|fz vs]; destruct b' as [vs'|vs'|kvs'|nb' c' args' li' di' st'|co' gl' n' de' cl' st'|mt' n' bs' d' q'|c'|fz' vs'];
    try (exfalso; exact O); try (destruct c; exfalso; exact O); try (exfalso; apply Nc; exact I).
  - eapply vals_has; eauto.
  - eapply vals_has; eauto.
  - eapply items_has; eauto.
  - destruct O as (_ & A & B & B1 & B2 & D). cbn in Hi. rewrite !in_app_iff in Hi. destruct Hi as [Hi|[Hi|[Hi|[Hi|Hi]]]];
      [eapply val_has; [exact A|exact Hi]|eapply vals_has; [exact B|exact Hi]|eapply vals_has; [exact B1|exact Hi]|eapply items_has; [exact B2|exact Hi]|eapply state_has; [exact D|exact Hi]].
  - destruct O as (A & A2 & A3 & A4 & A5 & D). destruct gl as [ga|g m].
    + cbn in Hi. destruct Hi as [Hi|[Hi|[Hi|[Hi|Hi]]]]; try (eapply val_has; [|exact Hi]; eassumption). eapply state_has; eauto.
    + destruct gl' as [|g' m']; [destruct A2|]. destruct A2 as (X & _ & kvs & d & K1 & K2 & K3). cbn [links] in Hi. rewrite K1 in Hi.
      rewrite !in_app_iff in Hi. destruct Hi as [[Hi|[Hi|[Hi|[Hi|[Hi|[]]]]]]|[Hi|Hi]]; try (eapply val_has; [|exact Hi]; eassumption).
      * eapply globals_has; eauto. apply (proj1 (HW _ _ K1)).
      * eapply state_has; eauto.
  - destruct O as (A & A2 & A3 & D & A4). cbn in Hi. destruct Hi as [Hi|[Hi|[Hi|[Hi|Hi]]]]; try (eapply val_has; [|exact Hi]; eassumption). eapply items_has; eauto.
  - destruct O as [_ O]. eapply vals_has; eauto.
Qed.
Lemma links_reach H b x y : H x = Some b -> In (VR y) (links H b) -> reach H (VR x) y.
Proof.
  intros Hb Hi. assert (D : In (VR y) (refs b) -> reach H (VR x) y) by (intros; eapply r_step; eauto; constructor).
  destruct b as [vs|vs|kvs|nb c args li di st|co [ga|g m] n de cl st|mt n bs d q|c|fz vs]; auto.
  cbn [links] in Hi. rewrite !in_app_iff in Hi. cbn [refs] in D. rewrite !in_app_iff in D.
  destruct Hi as [[Hi|[Hi|[Hi|[Hi|[Hi|[]]]]]]|[Hi|Hi]]; try (apply D; cbn; auto 10; fail).
  destruct (H g) as [[]|] eqn:Hg; try destruct Hi. eapply r_step; [exact Hb| |eapply r_step; [exact Hg|exact Hi|constructor]]. cbn. auto 10.
Qed.
(** everything near an object that does not lead to the container is complete *)
Lemma near_whole H c s et mt : heap_wf H -> J H c s et mt -> forall v x, near H v x -> ~ reach H v c -> (forall y, v = VR y -> exists a, Renv et y a) ->
  cellH H x \/ whole (Renv et) (Genv et) H (heap mt) x.
Proof.
  intros HW (A & _ & _) v x N. induction N as [o|o b v x Hb Nc Hi N IH]; intros Nr Hy.
  - destruct (Hy o eq_refl) as (a & Ha). destruct (A o a Ha) as [(b & b' & X & Y & Z)|[X|X]]; auto; [|contradiction].
    right. exists a, b, b'. auto.
  - destruct (Hy o eq_refl) as (a & Ha). destruct (A o a Ha) as [(b0 & b' & X & Y & Z)|[(c' & X)|X]]; [| |contradiction].
    + rewrite Hb in X. injection X as <-. apply IH.
      * intros Rv. apply Nr. destruct v as [|y]; [inversion Rv|]. eapply reach_trans; [eapply links_reach; eauto|exact Rv].
      * intros y ->. eapply links_has; eauto.
    + rewrite Hb in X. injection X as ->. exfalso. apply Nc. exact I.
Qed.

(** C81: whenever loading a pickle hashes a value to put it into (the loaded counterpart of) a dictionary, a set
    or the items of an instance of the dumped graph, that value is the counterpart of one of its keys or
    elements, and, unless that key leads back to its own container, everything that can be reached from it
    without looking into closure cells has already been loaded completely *)
Theorem C81_keys_complete_partial : forall proto H fuel v ops,
  heap_wf H -> proto <= 5 -> dumps proto H fuel v = Ok ops ->
  exists v' mf R G, loads ops = Some (v', mf, []) /\ iso_by R G H v (heap mf) v' /\
    forall k a h c, inserts ops k a h -> R c a ->
      exists kx b, H c = Some b /\ In kx (keys_of b) /\ val_rel R kx k /\
        (~ reach H kx c -> forall x, near H kx x -> (exists b, H x = Some b /\ is_cell b) \/ whole R G H h x).
Proof.
  intros proto H fuel v ops HW Hp E. destruct (dumps_shape _ _ _ _ _ E) as (l & s' & -> & Es & Hn).
  destruct (save_ok proto H HW fuel v pst0 [] vm0 (sync0 H) _ _ Es) as (e' & m' & R & S & Si & v' & A & B & C).
  assert (HJ : forall y, v = VR y -> J H y pst0 [] vm0).
  { intros y _. split; [intros o a []|]. split; [intros o []|]. intros o l0 p []. }
  destruct (EV_save proto H HW fuel v pst0 [] vm0 (sync0 H) HJ _ _ _ _ Es R S) as (_ & V).
  exists v', m', (Renv e'), (Genv e'). split.
  { unfold loads. fold vm0. rewrite app_assoc. replace ((if Nat.leb 2 proto then [PROTO proto] else []) ++ l) with (((if Nat.leb 2 proto then [PROTO proto] else []) ++ l)) by reflexivity.
    rewrite (load_run _ _ vm0 m' Hn).
    - cbn [load]. rewrite A. reflexivity.
    - destruct (Nat.leb 2 proto); cbn [app]; auto. cbn [run step]. rewrite (proj2 (Nat.leb_le _ _) Hp). exact R. }
  split; [eapply iso_by_sim; eauto|].
  intros k a h c (pre & o & rest & m & Eo & Rp & Hi & <-) Hc. rewrite runs_run in Rp. change start with vm0 in Rp.
  assert (X : exists pre' rest', l = pre' ++ o :: rest' /\ run pre' vm0 = Some m).
  { assert (Q : forall l2 pre2, l ++ [STOP] = pre2 ++ o :: l2 -> run pre2 vm0 = Some m -> exists pre' rest', l = pre' ++ o :: rest' /\ run pre' vm0 = Some m).
    { intros l2 pre2 E2 R2. destruct (rev l2) as [|z l3] eqn:El.
      - apply (f_equal (@rev _)) in El. rewrite rev_involutive in El. cbn in El. subst l2. apply app_inj_tail in E2 as [_ <-]. destruct Hi.
      - apply (f_equal (@rev _)) in El. rewrite rev_involutive in El. cbn in El. subst l2. exists pre2, (rev l3).
        change (pre2 ++ o :: rev l3 ++ [z]) with (pre2 ++ (o :: rev l3) ++ [z]) in E2. rewrite app_assoc in E2. apply app_inj_tail in E2 as [E2 _]. auto. }
    destruct (Nat.leb 2 proto); [|eapply Q; eauto]. destruct pre as [|p pre]; cbn in Eo; [injection Eo as <- _; destruct Hi|].
    injection Eo as <- Eo. cbn [run step] in Rp. destruct (Nat.leb proto 5); [|discriminate]. eapply Q; eauto. }
  destruct X as (pre' & rest' & -> & Rp').
  destruct (V pre' o rest' m k a c eq_refl Rp' Hi Hc) as (s & et & kx & b & He & Hv & Hb & Hk & Hj).
  exists kx, b. split; auto. split; auto. split; [eapply val_rel_mono; [|exact Hv]; intros; apply He; auto|].
  intros Nr x N. destruct (near_whole H c s et m HW Hj kx x N Nr) as [(cc & X)|(ax & bx & bx' & X1 & X2 & X3 & X4)].
  - intros y ->. eapply val_has; eauto.
  - left. exists (OCell cc). split; [exact X|exact I].
  - right. exists ax, bx, bx'. split; [apply He; auto|]. split; auto. split; auto.
    eapply obj_rel_mono; [| | |exact X4]; auto.
    + intros o1 a1. apply He.
    + intros g. apply He.
Qed.
