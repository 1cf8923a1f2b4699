(** For C81: what is hashed while deferred updates are run, and while cells, classes and functions are loaded. *)
From Coq Require Import String List Bool Arith ZArith Lia.
From Verif Require Import PyDict CoreModel CoreSpec CoreSim CoreStep CoreReduce CoreObj CoreProc CoreMain CoreReach CoreInd CoreProps HashModel HashSpec HashBase HashStep HashObj.
Import ListNotations.
Local Open Scope string_scope.
Local Open Scope list_scope.

Section HashProc.
  Variable proto : nat.
  Variable H : oid -> option obj.
  Hypothesis HW : heap_wf H.
  Notation Sim := (Sim H).
  Notation sync := (sync H).
  Notation env_ok := (env_ok H).
  Notation ok := (ok H).
  Notation J := (J H).
  Notation PI := (PI H).
  Notation pi := (pi H).
  Notation EV := (EV H).
  Notation evs := (evs H).
  Notation good := (good H).
  Notation cellH := (cellH H).
  Notation sub := (sub H).
  Notation subp := (subp H).
  Notation MK := (MK H).
  Notation argsub := (argsub H).
  Variable sv : val -> act.
  Hypothesis SV : sv_ok H sv.
  Hypothesis SN : sv_new H sv.
  Hypothesis PS : forall v, pi (sv v).
  Hypothesis SE : forall v s e m, sync s e m -> (forall y, v = VR y -> J y s e m) -> EV (sv v) s e m.

  Ltac avs := intros ? Hav; cbn in Hav; repeat (destruct Hav as [<-|Hav]; [eexists; reflexivity|]); destruct Hav.

  (** ** deferred updates *)
  Lemma EV_setattr g x c (key_ : string) v s e m : (g = g_ GSetattr \/ g = VA (AGlob GSetattr) 1 \/ g = g_ GDelattr) -> sync s e m -> J x s e m -> sub x (VR c) -> Forall (sub x) v ->
    EV (save_reduce proto sv false g (AV (VR c) :: AV (VA (AStr key_) 0) :: map AV v) SNone None ;; emit [POP]) s e m.
  Proof.
    intros Hg S HJ Hc Hv.
    set (xs := AV (VR c) :: AV (VA (AStr key_) 0) :: map AV v).
    assert (MV : forall x, In x xs -> exists v, x = AV v).
    { intros y [<-|[<-|Hi]]; eauto. apply in_map_iff in Hi as (w & <- & _). eauto. }
    assert (Fx : Forall (argsub x) xs).
    { constructor; [exact Hc|]. constructor; [apply sub_a|]. apply Forall_forall. intros y Hi. apply in_map_iff in Hi as (w & <- & Hw). rewrite Forall_forall in Hv. cbn. auto. }
    assert (Hgs : sub x g) by (destruct Hg as [->|[->| ->]]; apply sub_a).
    eapply EV_ext with (B := (sv g ;; save_tuple proto sv KAnon xs) ;; (emit [REDUCE] ;; emit [POP])).
    { unfold seq at 1. rewrite reduce_none_eq. symmetry. rewrite <- seq_assoc. reflexivity. }
    eapply EV_seq0 with (I := Fl) (x := x); [exact S|apply save_call_ok; eauto using Fl_in, new_AV, once_AV|apply pi_call; auto|exact HJ|eapply EV_call; eauto using new_AV, once_AV|].
    intros s1 e1 m1 S1 Si1 HJ1 (t & c' & vs' & A & B & C & D & F).
    eapply EV_ext with (B := emit [REDUCE; POP]); [reflexivity|]. apply EV_emit_gen; auto. intros _ _ _. apply evs_hash; auto.
    cbn [hashed]. rewrite A. destruct c' as [a' i'|]; [|reflexivity]. destruct Hg as [->|[->| ->]]; cbn in C; destruct C as [<- _]; reflexivity.
  Qed.
  Lemma EV_pp p y L e0 h0 P0 s e m (I : key -> Prop) : sync s e m -> Sim X0 I L e0 h0 P0 e (heap m) (post s) -> In p L ->
    J y s e m -> reach H (VR y) (pp_tgt p) -> EV (exec_pp proto H sv p) s e m.
  Proof.
    intros S Si Hin HJy Hre.
    assert (Hr : ready H e (hidn X0 (length h0) (heap m)) p).
    { apply readyX0. pose proof (s_extra Si) as F. rewrite Forall_forall in F. auto. }
    pose proof (Jw _ _ _ _ _ _ HJy Hre) as HJ. clear HJy Hre y.
    destruct p as [c|f|t]; cbn [exec_pp pp_tgt] in *.
    - destruct (H c) as [[| | | | | |[v|]|]|] eqn:Hc; try apply EV_fail.
      apply EV_setattr with (x := c) (v := [v]); auto.
      + intros y Ey. injection Ey as <-. constructor.
      + constructor; [|constructor]. eapply sub_in; [exact Hc|left; auto].
    - destruct Hr as (a & g & co & g0 & mo & n & de & cl & st & kvs & co' & mo' & n' & de' & cl' & st' & d & A).
      destruct A as (Ha & Hg & Hf & Hk & (Hfa & _ & La) & (Hgd & _ & Lg) & V1 & V2 & V3 & V4 & V5 & V6 & V7).
      unfold glob_items. rewrite Hf, Hk. destruct kvs as [|kv0 kvs0] eqn:Ek; [now apply EV_nil|]. rewrite <- Ek in *. clear Ek kv0 kvs0.
      destruct (memo_get (KGlob f) s) as [i|] eqn:Em.
      2: { eapply EV_ext with (B := fail KeyErr); [rewrite Em; reflexivity|apply EV_fail]. }
      eapply EV_ext with (B := emit [GET i] ;; batch_setitems proto sv kvs ;; emit [POP]); [rewrite Em; reflexivity|].
      destruct (memo_get_some _ _ _ _ _ _ S Em) as (v & Hv & Eg & _).
      assert (v = VR g) by (eapply (ek_fun _ _ _ _ (sy_env _ _ _ _ S)); [|exact Hv|exact Hg]; discriminate). subst v.
      assert (Kd : keys_distinct kvs) by (apply (proj1 (HW _ _ Hk))).
      assert (exists d0, Forall2 (item_rel (Renv e)) d0 d) as (dd & Fd).
      { destruct V7 as [V7|V7]; eexists; exact V7. }
      set (m1 := push (VR g) m).
      assert (S1 : sync s e m1) by (eapply sync_stk; eauto).
      apply EV_bind; [|now apply EV_emit]. intros ops1 s1 E. injection E as <- <-. exists e, m1.
      split; [cbn [run step]; rewrite Eg; reflexivity|]. split; auto.
      assert (HT : CoreStep.T_dict ODict g (stk m) (meta m) Fl dd [] s e m1).
      { split; auto. split; auto. split; [apply Fl_in|]. exists d. split; auto. }
      eapply EV_seqA with (k0 := KGlob f) (x := f) (a := g) (I := Fl); [exact S1|apply batch_setitems_ok with (W := ODict) (d := dd); [exact SV|apply dict_like_dict|exact S1|exact HT]|apply pi_setitems; auto|exact HJ| | | |].
      + right; right. exists f. split; auto. constructor.
      + intros s2 e2 m2 _ Si2 _. apply (s_env Si2). exact Hg.
      + eapply EV_batch_setitems with (k0 := KGlob f) (x := f); eauto; [apply dict_like_dict|right; right; exists f; split; auto; constructor|].
        apply MK_anon; [right; exists f; split; auto; constructor|]. apply Forall_forall. intros [k v] Hi. apply in_flat in Hi as [X Y].
        assert (G : forall w, In w (CoreSpec.flat kvs) -> sub f w).
        { intros w Hw. eapply sub_w; [eapply r_step; [exact Hf| |constructor]|eapply sub_in; [exact Hk|exact Hw]]. cbn. right; right; right; right; left; auto. }
        split; apply G; auto.
      + intros. now apply EV_emit.
    - destruct (H t) as [[| | | | |mt nm bs d q| |]|] eqn:Ht; try apply EV_fail.
      apply EV_setattr with (x := t) (v := [q]); auto.
      + intros y Ey. injection Ey as <-. constructor.
      + constructor; [|constructor]. eapply sub_in; [exact Ht|]. right; right; right; left; auto.
  Qed.
  Lemma EV_pps keep y s0 e0 m0 L : J y s0 e0 m0 -> sync s0 e0 m0 ->
    (forall p, In p (keep ++ L) -> (exists c, p = PSetCell c) \/ reach H (VR (pp_tgt p)) y) ->
    (forall p, In p L -> reach H (VR y) (pp_tgt p)) ->
    forall s e m (I : key -> Prop), sync s e m -> (forall k, I k -> Ik (post s) k) -> PI (post s) ->
    Sim X0 I (keep ++ L) e0 (heap m0) (post s0) e (heap m) (post s) -> EV (seqs (exec_pp proto H sv) (rev L)) s e m.
  Proof.
    intros HJ S0. induction L as [|p L IH] using rev_ind; intros HC HR s e m I S HI HP Si; [now apply EV_nil|].
    rewrite rev_app_distr. cbn [rev app seqs].
    assert (HJs : J y s e m) by (eapply J_sim with (X := X0); eauto using X0_dec, Xok0).
    apply EV_bind.
    - intros ops1 s1 E1. rewrite app_assoc in Si. destruct (exec_pp_ok proto H HW sv SV p (keep ++ L) e0 (heap m0) (post s0) s e m I S HI Si _ _ E1) as (e1 & m1 & R1 & S1 & Si1 & X1 & _).
      exists e1, m1. split; auto. split; auto. eapply IH with (I := I); auto.
      + intros q Hq. apply HC. rewrite app_assoc. apply in_app_iff. auto.
      + intros q Hq. apply HR. apply in_app_iff. auto.
      + intros k Hk. specialize (HI k Hk). unfold Ik in *. rewrite (Sim_ids _ _ _ _ _ _ _ _ _ _ Si1). rewrite (Sim_ids _ _ _ _ _ _ _ _ _ _ Si) in HI. auto.
      + eapply (pi_exec proto H sv PS p); eauto.
    - eapply EV_pp; eauto; [apply in_app_iff; right; apply in_app_iff; right; left; auto|]. apply HR. apply in_app_iff. right; left; auto.
  Qed.

  (** ** _save_with_postproc *)
  Lemma EV_postproc keep o own red s e m : sync s e m -> J o s e m -> (forall p, In p (keep ++ own) -> pp_tgt p = o) -> pi red -> nw (reach H (VR o)) red ->
    (forall s1, sync s1 e m -> memo s1 = memo s -> post s1 = post s ++ [(o, own)] -> ~ In o (map fst (post s)) ->
       ok X0 (Ik (post s)) red s1 e m (fun s' e' m' => P_val (VR o) m s' e' m' /\
                                          Forall (readyX H X0 (length (heap m)) e' (heap m')) (keep ++ own))) ->
    (forall s1, sync s1 e m -> memo s1 = memo s -> post s1 = post s ++ [(o, own)] -> ~ In o (map fst (post s)) -> J o s1 e m -> EV red s1 e m) ->
    EV (save_with_postproc proto H sv o own red) s e m.
  Proof.
    intros S HJ Ho Hpi Hnw HO HV. unfold save_with_postproc.
    destruct (memb o (map fst (post s))) eqn:Em.
    { eapply EV_ext with (B := fail Recursive); [rewrite Em; reflexivity|apply EV_fail]. }
    assert (Hn : ~ In o (map fst (post s))) by (intros Hi; apply memb_In in Hi; congruence).
    eapply EV_ext with (B := push_post o own ;; red ;; pop_run proto H sv o); [rewrite Em; reflexivity|].
    set (s1 := {| memo := memo s; post := post s ++ [(o, own)] |}) in *.
    assert (S1 : sync s1 e m).
    { destruct S as [A B C]. constructor; auto. constructor; try apply C.
      intros f v Hf. cbn. rewrite map_app, in_app_iff. destruct (ek_gk _ _ _ _ C f v Hf); auto. }
    assert (HP1 : PI (post s1)).
    { apply PI_push; [apply HJ|]. intros p Hp. apply Ho. apply in_app_iff; auto. }
    assert (HJ1 : J o s1 e m).
    { destruct HJ as (A & B & C). split; [exact A|]. split; [|exact HP1]. intros y Hy. cbn in Hy. rewrite map_app in Hy. apply in_app_iff in Hy as [Hy|[<-|[]]]; auto. constructor. }
    apply EV_bind.
    2: { intros ops s' e' m' E R S'. injection E as <- <-. injection R as <-. rewrite (sync_fun _ _ _ _ _ S1 S'). split; [apply mono_refl|apply evs_nil]. }
    intros ops1 s1' E. injection E as <- <-. exists e, m. split; auto. split; [exact S1|].
    apply EV_bind; [|apply HV; auto].
    intros l2 s2 E2.
    destruct (HO s1 S1 eq_refl eq_refl Hn _ _ E2) as (e2 & m2 & R2 & S2 & Si2 & (vo & A2 & B2 & C2) & F2). cbn [post s1] in Si2.
    exists e2, m2. split; auto. split; auto.
    apply Forall_app in F2 as [Fk Fo].
    destruct (Sim_pop _ _ _ _ _ _ _ _ _ _ Si2 Fo) as (P' & n & EP & Si3).
    assert (Hn' : ~ In o (map fst P')) by (rewrite (Sim_ids _ _ _ _ _ _ _ _ _ _ Si3); auto).
    set (s3 := {| memo := memo s2; post := P' |}) in *.
    assert (S3 : sync s3 e2 m2).
    { destruct S2 as [A B C]. constructor; auto. constructor; try apply C.
      intros f v Hf. cbn. destruct (ek_gk _ _ _ _ C f v Hf) as [Hx|Hx]; auto. rewrite EP, map_app, in_app_iff in Hx.
      destruct Hx as [Hx|[Hx|[]]]; auto. cbn in Hx. subst f. left. destruct vo; cbn in C2; [tauto|]. eauto. }
    assert (Si3' : Sim X0 (Ik (post s)) (keep ++ (own ++ n)) e (heap m) (post s) e2 (heap m2) (post s3)).
    { constructor; try apply Si3.
      - apply Forall_app. split; auto. apply Si3.
      - intros o1 a Ho1. destruct (s_cov Si3 o1 a Ho1) as [?|[?|[?|(q & Hq & Ht & Hr)]]]; auto.
        right; right; right. exists q. split; auto. destruct Hq; auto. left. apply in_app_iff; auto. }
    pose proof (Hpi _ _ _ E2 HP1) as HP2.
    assert (HP3 : PI P') by (intros y l p Hy; apply HP2; rewrite EP; apply in_app_iff; auto).
    assert (En : Forall (fun q => reach H (VR o) (pp_tgt q)) n).
    { destruct (Hnw _ _ _ E2) as (_ & G). cbn [post s1] in G. destruct (grow_last _ _ _ _ _ G) as (l0 & n' & El & Fn & _).
      rewrite EP in El. apply app_inj_tail in El as (_ & El). injection El as El. apply app_inv_head in El. subst n'. exact Fn. }
    intros ops s' e' m' E R S'. unfold pop_run in E. rewrite EP, CoreMain.get_last, CoreMain.del_last in E by auto. fold s3 in E.
    refine (EV_pps keep o s e m (own ++ n) HJ S _ _ s3 e2 m2 (Ik (post s)) S3 _ HP3 Si3' _ _ _ _ E R S').
    - intros p Hp. rewrite app_assoc in Hp. apply in_app_iff in Hp as [Hp|Hp]; [right; rewrite (Ho _ Hp); constructor|].
      eapply (HP2 o (own ++ n)); [rewrite EP; apply in_app_iff; right; left; auto|apply in_app_iff; auto].
    - intros p Hp. apply in_app_iff in Hp as [Hp|Hp]; [rewrite Ho; [constructor|apply in_app_iff; auto]|]. rewrite Forall_forall in En. auto.
    - intros k. unfold Ik, s3. cbn [post]. rewrite (Sim_ids _ _ _ _ _ _ _ _ _ _ Si3). auto.
  Qed.

  (** ** objects made by a call *)
  Lemma seq_nil_r A (s : pst) : (A ;; emit []) s = A s.
  Proof. unfold seq, emit. destruct (A s) as [[l s1]|]; [|reflexivity]. now rewrite app_nil_r. Qed.
  Lemma nw_red o g i xs st : Forall (argsub o) xs -> Forall (sub o) (state_vals st) -> nw (reach H (VR o)) (save_reduce proto sv false (VA (AGlob g) i) xs st (Some (KObj o))).
  Proof.
    intros Fx Fs. apply nw_reduce.
    - intros w Hw. eapply nw_mono; [|apply SN]. intros o' Ro. destruct w as [|o1]; [inversion Ro|]. eapply reach_trans; eauto.
    - exact Logic.I.
    - assert (G : forall v, sub o v -> VV (reach H (VR o)) v) by (intros [|y] Hv; cbn; auto).
      intros x Hx. rewrite Forall_forall in Fx. specialize (Fx x Hx). destruct x as [v|k kvs|vs]; cbn in *; auto.
      + destruct Fx as (F & Hk). split; [destruct Hk as [->|(f & -> & _)]; exact Logic.I|]. intros w Hw. apply G. unfold CoreSpec.flat in Hw. apply in_flat_map in Hw as (p & Hp & Hw).
        rewrite Forall_forall in F. destruct (F p Hp) as [A B]. destruct Hw as [<-|[<-|[]]]; auto.
      + intros w Hw. rewrite Forall_forall in Fx. auto.
    - intros w Hw. rewrite Forall_forall in Fs. specialize (Fs w Hw). destruct w as [|y]; cbn; auto.
    - constructor.
  Qed.
  Definition made (o : oid) (b : obj) (e : env) (m1 : vm) (st0 : list val) : Prop :=
    exists m2 b1 h2, run [REDUCE] m1 = Some m2 /\ mem m2 = mem m1 /\ stk m2 = VR (length (heap m1)) :: st0 /\ heap m2 = h2 ++ [b1] /\ length h2 = length (heap m1) /\ kind b1 = kind b /\
      (forall a b, nth_error (heap m1) a = Some b -> nth_error h2 a = Some b \/ (Genv e o a /\ exists b', nth_error h2 a = Some b' /\ kind b' = kind b)).
  Lemma EV_red o g xs st b s e m (I : key -> Prop) : sync s e m -> H o = Some b -> J o s e m -> (forall k, I k -> Ik (post s) k) -> args_new I e (post s) xs -> once xs -> Forall (argsub o) xs ->
    state_wf H st -> Forall (sub o) (state_vals st) -> g <> GSet -> g <> GFrozenset ->
    (forall s1 e1 m1 t vs', sync s1 e1 m1 -> stk m1 = t :: g_ g :: stk m -> tuple_items (heap m1) t = Some vs' ->
       Forall2 (arg_rel e1 (heap m1) (length (heap m))) xs vs' -> made o b e1 m1 (stk m)) ->
    (forall s1 e1 m1, sync s1 e1 m1 -> Sim X0 I [] e (heap m) (post s) e1 (heap m1) (post s1) -> (forall v, ~ In (KObj o, v) e1) \/ st = SNone) ->
    EV (save_reduce proto sv false (g_ g) xs st (Some (KObj o))) s e m.
  Proof.
    intros S Ho HJ HI AN ON Fx Ws Fs G1 G2 HM HN.
    assert (ANF : args_new Fl e (post s) xs).
    { intros k kvs Hi. destruct (AN k kvs Hi) as (A & [B|(f & B & C & D & F)]); split; auto. right. exists f. repeat split; auto. }
    eapply EV_ext; [apply reduce_obj_eq|].
    eapply EV_seq0 with (I := I) (x := o); [exact S|apply save_call_ok; eauto|apply pi_call; auto|exact HJ|eapply EV_call; eauto; apply sub_a|].
    intros s1 e1 m1 S1 Si1 HJ1 (t & c' & vs' & A & B & C & D & F).
    apply (rel_atom _ (AGlob g) 0) in C. subst c'.
    destruct (HM _ _ _ _ _ S1 A D F) as (m2 & b1 & h2 & R2 & Em2 & St2 & Eh2 & Lh & Kb & HG).
    assert (Hh : hashed REDUCE m1 = []).
    { cbn [hashed]. rewrite A. unfold g_. destruct g; try reflexivity; congruence. }
    destruct (memo_get (KObj o) s1) as [i|] eqn:Em.
    - destruct (HN _ _ _ S1 Si1) as [Hn| ->].
      { destruct (memo_cases H (KObj o) s1 e1 m1 S1 ltac:(discriminate)) as [(j & v & _ & Hv & _)|[Hx _]]; [exfalso; eapply Hn; eauto|congruence]. }
      cbn [save_state]. eapply EV_ext; [apply seq_nil_r|].
      eapply EV_finish; [exact S1|reflexivity|exact Hh|exact R2|exact Em2|exact St2|auto].
    - eapply EV_construct; [exact S1|exact HJ1|exact Em|exact Ho|exact Kb|reflexivity|exact Hh|exact R2|exact Em2|exact St2|exact Eh2|exact Lh|exact HG|].
      intros s3 m3 Ep3 S3 HJ3 St3 Me3 Eh3. eapply EV_state; eauto.
  Qed.
  Lemma EV_addpp x p s e m : sync s e m -> EV (add_pp x p) s e m.
  Proof.
    intros S ops s' e' m' E R S'. injection E as <- <-. injection R as <-. rewrite (sync_fun _ _ _ _ _ (sync_addpp _ _ _ _ x p S) S').
    split; [apply mono_refl|apply evs_nil].
  Qed.

  (** ** cells *)
  Lemma EV_newcell o c x s e m : sync s e m -> H o = Some (OCell c) -> J o s e m -> sub o x ->
    EV (save_reduce proto sv false (g_ GCreateCell) [AV x] SNone (Some (KObj o))) s e m.
  Proof.
    intros S Ho HJ Hx. eapply EV_red with (I := Fl); [exact S|exact Ho|exact HJ|apply Fl_in|apply new_AV; avs|exact Logic.I|constructor; [exact Hx|constructor]|exact Logic.I|constructor|discriminate|discriminate| |auto].
    - intros s1 e1 m1 t vs' S1 A D F. inversion F as [|? x' ? ? Fx F']; subst. inversion F'; subst.
      exists (alloc (cell_of x') (set_stk (stk m) m1)), (cell_of x'), (heap m1). split.
      { cbn [run step]. rewrite A, D. cbn [call]. unfold cell_of. destruct x' as [[]|]; reflexivity. }
      repeat split; auto. unfold cell_of. destruct x' as [[]|]; reflexivity.
  Qed.
  Lemma EV_cell o c s e m : sync s e m -> H o = Some (OCell c) -> J o s e m -> (forall v, ~ In (KObj o, v) e) -> EV (save_cell proto sv o c) s e m.
  Proof.
    intros S Ho HJ Hn. unfold save_cell. destruct c as [v|].
    - set (dest := match v with
                   | VR f => if memb f (map fst (post s)) then Some f else match post s with [] => None | (x, _) :: _ => Some x end
                   | _ => match post s with [] => None | (x, _) :: _ => Some x end
                   end).
      destruct dest as [x|] eqn:Ed.
      + eapply EV_ext with (B := save_reduce proto sv false (g_ GCreateCell) [AV vNone] SNone (Some (KObj o)) ;; add_pp x (PSetCell o)).
        { unfold dest in Ed. cbv zeta. rewrite Ed. reflexivity. }
        apply EV_bind; [|eapply EV_newcell; eauto; apply sub_a].
        intros ops1 s1 E1. destruct (cell_new_ok proto H sv SV _ _ _ _ _ _ Fl S (fun k F => match F with end) Ho Hn _ _ E1) as (a & e1 & m1 & R1 & S1 & _).
        exists e1, m1. split; auto. split; auto. now apply EV_addpp.
      + eapply EV_ext with (B := save_reduce proto sv false (g_ GCreateCell) [AV v] SNone (Some (KObj o))).
        { unfold dest in Ed. cbv zeta. rewrite Ed. reflexivity. }
        eapply EV_newcell; eauto. eapply sub_in; [exact Ho|left; auto].
    - eapply EV_ext with (B := save_reduce proto sv false (g_ GCreateCell) [AV (VA ACellEmpty 0)] SNone (Some (KObj o)) ;; (save_reduce proto sv false (g_ GDelattr) [AV (VR o); AV sCONTENTS] SNone None ;; emit [POP])); [reflexivity|].
      apply EV_bind; [|eapply EV_newcell; eauto; apply sub_a].
      intros ops1 s1 E1. destruct (cell_new_ok proto H sv SV _ _ _ _ _ _ Fl S (fun k F => match F with end) Ho Hn _ _ E1) as (a & e1 & m1 & R1 & S1 & A & B & C & La & D).
      exists e1, m1. split; auto. split; auto.
      assert (HP1 : PI (post s1)) by (eapply (pi_reduce proto H sv PS); [exact E1|apply HJ]).
      assert (HJ1 : J o s1 e1 m1).
      { destruct D as [(Si & _)|(Si & _)].
        - eapply J_sim with (X := X0); eauto using X0_dec, Xok0. intros p [].
        - eapply J_sim with (X := eq a); eauto using eq_dec_X; [|intros p []]. eapply own_Xok with (k0 := KObj o); eauto. left; auto. }
      apply EV_setattr with (x := o) (v := []); auto.
      intros y Ey. injection Ey as <-. constructor.
  Qed.

  (** ** classes *)
  Lemma EV_type o mt n bs d q s e m : sync s e m -> H o = Some (OType mt n bs d q) -> (forall v, ~ In (KObj o, v) e) -> J o s e m ->
    EV (save_type proto H sv o mt n bs d) s e m.
  Proof.
    intros S Ho Hn HJ.
    assert (Hp : is_proc H o) by (unfold is_proc; rewrite Ho; exact Logic.I).
    pose proof (proj1 (HW _ _ Ho)) as Wf. cbn in Wf.
    assert (SB : forall v, In v (refs (OType mt n bs d q)) -> sub o v) by (intros; eapply sub_in; eauto).
    assert (Fx : Forall (argsub o) [AV mt; AV n; AV bs; AD KAnon d]).
    { constructor; [cbn; apply SB; cbn; auto|]. constructor; [cbn; apply SB; cbn; auto|]. constructor; [cbn; apply SB; cbn; auto|]. constructor; [|constructor]. cbn. split; auto.
      apply Forall_forall. intros [k v] Hi. apply in_flat in Hi as [A B]. split; apply SB; cbn; auto 6. }
    unfold save_type. apply EV_postproc with (keep := []); auto.
    - intros p [<-|[]]. reflexivity.
    - apply pi_reduce; auto.
    - apply nw_red; auto. constructor.
    - intros. eapply type_red; eauto.
    - intros s1 S1 Em1 Ep1 Hno HJ1. eapply EV_red with (I := eq (KObj o)); [exact S1|exact Ho|exact HJ1| | | |exact Fx|exact Logic.I|constructor|discriminate|discriminate| |auto].
      + intros k <-. rewrite Ep1. apply Ik_last.
      + intros k kvs [Hx|[Hx|[Hx|[Hx|[]]]]]; inversion Hx; subst. auto.
      + cbn. split; auto. intros; tauto.
      + intros s2 e2 m2 t vs' S2 A D F. inversion F as [|? y1 ? ? G1 F1]; subst. inversion F1 as [|? y2 ? ? G2 F2]; subst. inversion F2 as [|? y3 ? ? G3 F3]; subst.
        inversion F3 as [|? y4 ? ? G4 F4]; subst. inversion F4; subst. unfold arg_rel in G4. destruct G4 as (ad & d' & -> & Ld & _ & Hd & Fd).
        exists (alloc (OType y1 y2 y3 d' y2) (set_stk (stk m) m2)), (OType y1 y2 y3 d' y2), (heap m2). split.
        { cbn [run step]. rewrite A, D. unfold g_. cbn [call heap set_stk]. rewrite Hd. reflexivity. }
        repeat split; auto.
  Qed.

  (** ** functions *)
  Lemma fun_state o co gl n de cl st : H o = Some (OFun co gl n de cl st) -> state_wf H st.
  Proof.
    intros Ho. pose proof (proj1 (HW _ _ Ho)) as [_ Ws]. destruct st as [| |dd [sl|]]; cbn in *; tauto.
  Qed.
  Lemma EV_fun_ref o co ga n de cl st s e m : sync s e m -> H o = Some (OFun co (GRef ga) n de cl st) -> (forall v, ~ In (KObj o, v) e) -> J o s e m ->
    EV (save_function proto H sv o co (GRef ga) n de cl st) s e m.
  Proof.
    intros S Ho Hn HJ.
    assert (Hp : is_proc H o) by (unfold is_proc; rewrite Ho; exact Logic.I).
    pose proof (fun_state _ _ _ _ _ _ _ Ho) as Wst.
    assert (SB : forall v, In v (refs (OFun co (GRef ga) n de cl st)) -> sub o v) by (intros; eapply sub_in; eauto).
    assert (Fs : Forall (sub o) (state_vals st)) by (apply Forall_forall; intros v Hv; apply SB; cbn; auto 6).
    assert (Fx : Forall (argsub o) [AV co; AV (VA ga 0); AV n; AV de; AV cl]).
    { repeat (constructor; [cbn; first [apply sub_a|apply SB; cbn; auto 6]|]). constructor. }
    unfold save_function. apply EV_postproc with (keep := []); auto.
    - intros p [].
    - apply pi_reduce; auto.
    - apply nw_red; auto.
    - intros. eapply fun_ref_red; eauto.
    - intros s1 S1 Em1 Ep1 Hno HJ1. eapply EV_red with (I := eq (KObj o)); [exact S1|exact Ho|exact HJ1| |apply new_AV; avs|apply once_AV; avs|exact Fx|exact Wst|exact Fs|discriminate|discriminate| |].
      + intros k <-. rewrite Ep1. apply Ik_last.
      + intros s2 e2 m2 t vs' S2 A D F. inversion F as [|? y1 ? ? G1 F1]; subst. inversion F1 as [|? y2 ? ? G2 F2]; subst. inversion F2 as [|? y3 ? ? G3 F3]; subst.
        inversion F3 as [|? y4 ? ? G4 F4]; subst. inversion F4 as [|? y5 ? ? G5 F5]; subst. inversion F5; subst. unfold arg_rel in G2. apply (rel_atom _ ga 0) in G2. subst y2.
        exists (alloc (OFun y1 (GRef ga) y3 y4 y5 SNone) (set_stk (stk m) m2)), (OFun y1 (GRef ga) y3 y4 y5 SNone), (heap m2). split.
        { cbn [run step]. rewrite A, D. reflexivity. }
        repeat split; auto.
      + intros s2 e2 m2 S2 Si2. left. eapply proc_new; [exact Si2|auto|reflexivity|auto|apply (sy_env _ _ _ _ S2)].
  Qed.
  Lemma EV_fun_copy_red o co g0 mo n de cl st kvs P own s1 e m :
    H o = Some (OFun co (GCopy g0 mo) n de cl st) -> H g0 = Some (ODict kvs) ->
    (forall v, ~ In (KObj o, v) e) -> sync s1 e m -> post s1 = P ++ [(o, own)] -> (forall f v, In (KGlob f, v) e -> f <> o) -> J o s1 e m ->
    EV (save_reduce proto sv false (g_ GCreateFunction) [AV co; AD (KGlob o) [(sNAME, mo)]; AV n; AV de; AV cl] st (Some (KObj o))) s1 e m /\
    nw (reach H (VR o)) (save_reduce proto sv false (g_ GCreateFunction) [AV co; AD (KGlob o) [(sNAME, mo)]; AV n; AV de; AV cl] st (Some (KObj o))).
  Proof.
    intros Ho Hk Hn S1 Ep1 HG HJ1.
    assert (Hp : is_proc H o) by (unfold is_proc; rewrite Ho; exact Logic.I).
    pose proof (fun_state _ _ _ _ _ _ _ Ho) as Wst.
    assert (SB : forall v, In v (refs (OFun co (GCopy g0 mo) n de cl st)) -> sub o v) by (intros; eapply sub_in; eauto).
    assert (Fs : Forall (sub o) (state_vals st)) by (apply Forall_forall; intros v Hv; apply SB; cbn; auto 8).
    assert (Fx : Forall (argsub o) [AV co; AD (KGlob o) [(sNAME, mo)]; AV n; AV de; AV cl]).
    { constructor; [apply SB; cbn; auto|]. constructor.
      - split; [constructor; [|constructor]; split; [apply sub_a|apply SB; cbn; auto 8]|]. right. exists o. split; auto. constructor.
      - repeat (constructor; [apply SB; cbn; auto 8|]). constructor. }
    split; [|apply nw_red; auto].
    eapply EV_red with (I := eq (KObj o)); [exact S1|exact Ho|exact HJ1| | | |exact Fx|exact Wst|exact Fs|discriminate|discriminate| |].
    - intros k <-. rewrite Ep1. apply Ik_last.
    - intros k kvs' [Hx|[Hx|[Hx|[Hx|[Hx|[]]]]]]; inversion Hx; subst. split; [cbn; tauto|]. right. exists o. split; auto.
      split; [rewrite Ep1, map_app, in_app_iff; right; left; auto|]. split; [discriminate|]. intros v Hv. eapply HG; eauto.
    - cbn. split; auto. intros _ k' kvs' [Hx|[Hx|[Hx|[]]]]; inversion Hx.
    - intros s2 e2 m2 t vs' S2 A D F. inversion F as [|? y1 ? ? G1 F1]; subst. inversion F1 as [|? y2 ? ? G2 F2]; subst. inversion F2 as [|? y3 ? ? G3 F3]; subst.
      inversion F3 as [|? y4 ? ? G4 F4]; subst. inversion F4 as [|? y5 ? ? G5 F5]; subst. inversion F5; subst.
      unfold arg_rel in G2. destruct G2 as (g & d' & -> & Lg & Hgg & Hgd & Fd).
      inversion Fd as [|? [k1 mo'] ? ? [K1 K2] Fd']; subst. inversion Fd'; subst. cbn [fst snd] in K1, K2.
      apply (rel_atom _ (AStr "__name__") 0) in K1. subst k1.
      set (db := [(sNAME, mo'); (sBUILTINS, vBUILTINS)]). set (h2 := upd (heap m2) g (ODict db)).
      set (b1 := OFun y1 (GCopy g mo') y3 y4 y5 SNone).
      assert (Lh2 : length h2 = length (heap m2)) by (unfold h2; apply upd_length).
      exists (alloc b1 (set_heap h2 (set_stk (stk m) m2))), b1, h2. split.
      { cbn [run step]. rewrite A, D. unfold g_. cbn [call heap set_stk]. rewrite Hgd. reflexivity. }
      split; auto. split; [cbn; rewrite Lh2; reflexivity|]. split; auto. split; auto. split; auto.
      intros x b Hx. destruct (Nat.eq_dec g x) as [->|Hgx].
      + right. split; [apply Hgg; discriminate|]. exists (ODict db). unfold h2. split; [apply nth_upd_same; eapply nth_lt; eauto|]. rewrite Hgd in Hx. injection Hx as <-. reflexivity.
      + left. unfold h2. rewrite nth_upd_other; auto.
    - intros s2 e2 m2 S2 Si2. left. eapply proc_new; [exact Si2|auto|reflexivity|auto|apply (sy_env _ _ _ _ S2)].
  Qed.
  Lemma EV_fun_copy o co g0 mo n de cl st kvs s e m : sync s e m -> H o = Some (OFun co (GCopy g0 mo) n de cl st) ->
    H g0 = Some (ODict kvs) -> (forall v, ~ In (KObj o, v) e) -> J o s e m ->
    EV (save_function proto H sv o co (GCopy g0 mo) n de cl st) s e m.
  Proof.
    intros S Ho Hk Hn HJ.
    assert (Hp : is_proc H o) by (unfold is_proc; rewrite Ho; exact Logic.I).
    assert (HG : ~ In o (map fst (post s)) -> forall f v, In (KGlob f, v) e -> f <> o).
    { intros Hno f v Hv ->. destruct (ek_gk _ _ _ _ (sy_env _ _ _ _ S) _ _ Hv) as [(a & Ha)|Hx]; [eapply Hn; eauto|contradiction]. }
    unfold save_function. rewrite Hk.
    set (RED := save_reduce proto sv false (g_ GCreateFunction) [AV co; AD (KGlob o) [(sNAME, mo)]; AV n; AV de; AV cl] st (Some (KObj o))).
    assert (Hpi : pi RED) by (apply pi_reduce; auto).
    assert (Hnw : nw (reach H (VR o)) RED).
    { assert (SB : forall v, In v (refs (OFun co (GCopy g0 mo) n de cl st)) -> sub o v) by (intros; eapply sub_in; eauto).
      apply nw_red; [|apply Forall_forall; intros v Hv; apply SB; cbn; auto 8].
      constructor; [apply SB; cbn; auto|]. constructor.
      - split; [constructor; [|constructor]; split; [apply sub_a|apply SB; cbn; auto 8]|]. right. exists o. split; auto. constructor.
      - repeat (constructor; [apply SB; cbn; auto 8|]). constructor. }
    destruct (first_in (map snd kvs) (post s)) as [x|] eqn:Ex.
    - eapply EV_ext with (B := add_pp x (PSetItems o) ;; save_with_postproc proto H sv o [] RED); [cbv zeta; rewrite Ex; reflexivity|].
      pose proof (first_in_ids _ _ _ Ex) as Hx.
      set (sa := {| memo := memo s; post := append_pp x (PSetItems o) (post s) |}).
      pose proof (sync_addpp H s e m x (PSetItems o) S) as Sa. fold sa in Sa.
      assert (Ei : map fst (post sa) = map fst (post s)) by (cbn; apply append_ids).
      assert (HJa : J o sa e m).
      { destruct HJ as (A & B & C). split; [exact A|]. split; [rewrite Ei; exact B|]. apply PI_append; auto. right. cbn [pp_tgt]. eapply first_in_reach; eauto. }
      apply EV_bind; [|now apply EV_addpp]. intros ops1 s1 E. injection E as <- <-. exists e, m. split; auto. split; [exact Sa|]. fold sa.
      apply EV_postproc with (keep := [PSetItems o]); auto.
      + intros p [<-|[]]. reflexivity.
      + intros s2 S2 Em2 Ep2 Hno. rewrite Ei in Hno.
        eapply ok_conseq; [eapply fun_copy_red with (P := post sa) (own := []); eauto|].
        * rewrite Ei; auto.
        * rewrite Ep2. destruct (append_in x (PSetItems o) (post s) Hx) as (y & A & B).
          exists y. split; auto. apply in_app_iff. left. exact A.
        * intros s3 e3 m3 _ _ [A B]. split; auto. cbn [app]. auto.
      + intros s2 S2 Em2 Ep2 Hno HJ2. rewrite Ei in Hno. eapply EV_fun_copy_red; eauto.
    - eapply EV_ext with (B := save_with_postproc proto H sv o [PSetItems o] RED); [cbv zeta; rewrite Ex; apply seq_nil|].
      apply EV_postproc with (keep := []); auto.
      + intros p [<-|[]]. reflexivity.
      + intros s2 S2 Em2 Ep2 Hno.
        eapply ok_conseq; [eapply fun_copy_red with (P := post s) (own := [PSetItems o]); eauto|].
        * exists (o, [PSetItems o]). rewrite Ep2. split; [apply in_app_iff; right; left; auto|left; auto].
        * intros s3 e3 m3 _ _ [A B]. split; auto. cbn [app]. auto.
      + intros s2 S2 Em2 Ep2 Hno HJ2. eapply EV_fun_copy_red; eauto.
  Qed.

  (** ** the dispatch *)
  Lemma EV_atom a i s e m : sync s e m -> EV (save_atom proto a i) s e m.
  Proof.
    intros S. unfold save_atom.
    assert (G : EV (if memoized a then fun s => match memo_get (KAtom a i) s with Some n => Ok ([GET n], s) | None => (emit [CONST a] ;; memoize proto (KAtom a i)) s end else emit [CONST a]) s e m).
    { destruct (memoized a); [|now apply EV_emit]. destruct (memo_get (KAtom a i) s) as [n|] eqn:Em.
      - eapply EV_ext with (B := emit [GET n]); [rewrite Em; reflexivity|]. now apply EV_emit.
      - eapply EV_ext with (B := emit [CONST a] ;; memoize proto (KAtom a i)); [rewrite Em; reflexivity|].
        eapply EV_new; [exact S|reflexivity|reflexivity|reflexivity|discriminate|now apply evs_quiet]. }
    destruct a; try exact G. eapply EV_ext with (B := empty_tuple proto); [reflexivity|]. unfold empty_tuple. apply EV_emit; auto. destruct (bin proto); reflexivity.
  Qed.
  Lemma EV_val v s e m : sync s e m -> (forall y, v = VR y -> J y s e m) -> EV (save_val proto H sv v) s e m.
  Proof.
    intros S HJ. unfold save_val. destruct v as [a i|o]; [now apply EV_atom|]. specialize (HJ o eq_refl).
    destruct (memo_get (KObj o) s) as [i|] eqn:Em.
    { eapply EV_ext with (B := emit [GET i]); [rewrite Em; reflexivity|]. now apply EV_emit. }
    pose proof (memo_get_none _ _ _ _ _ S Em ltac:(discriminate)) as Hn.
    destruct (H o) as [b|] eqn:Ho.
    2: { eapply EV_ext with (B := fail Dangling); [rewrite Em; reflexivity|apply EV_fail]. }
    pose proof (HW _ _ Ho) as [W Wo].
    eapply EV_ext with (B := save_obj proto H sv o b); [rewrite Em; reflexivity|].
    assert (SB : forall v, In v (refs b) -> sub o v) by (intros; eapply sub_in; eauto).
    assert (Kn : key_new (KObj o) Fl e (post s)) by (split; auto; split; intros; discriminate).
    destruct b as [vs|vs|kvs|nb c args li di st|co gl n de cl st|mt n bs d q|c|fz vs]; cbn [save_obj].
    - eapply EV_tuple with (x := o); eauto.
      + apply new_AV. intros y Hi. apply in_map_iff in Hi as (w & <- & _). eauto.
      + apply once_AV. intros y Hi. apply in_map_iff in Hi as (w & <- & _). eauto.
      + apply Forall_forall. intros y Hi. apply in_map_iff in Hi as (w & <- & Hw). cbn. auto.
    - eapply EV_list with (x := o); eauto; [intros o' E; injection E as <-; auto|left; auto|]. apply Forall_forall. auto.
    - eapply EV_dict with (x := o); eauto; [intros o' E; injection E as <-; auto|left; auto|].
      apply Forall_forall. intros [k v] Hi. split.
      + apply in_flat in Hi as [A B]. split; apply SB; cbn; auto.
      + intros _. eexists. split; [exact Ho|]. cbn. apply in_map_iff. exists (k, v). auto.
    - eapply EV_inst; eauto.
    - destruct gl as [ga|g mo]; [eapply EV_fun_ref; eauto|]. destruct W as [(kvs & Hk) _]. eapply EV_fun_copy; eauto.
    - eapply EV_type; eauto.
    - eapply EV_cell; eauto.
    - eapply EV_set; eauto.
  Qed.
End HashProc.

Theorem EV_save proto H (HW : heap_wf H) fuel : forall v s e m, sync H s e m -> (forall y, v = VR y -> J H y s e m) -> EV H (save proto H fuel v) s e m.
Proof.
  induction fuel as [|n IH]; intros v s e m S HJ; [apply EV_fail|]. cbn [save]. apply EV_val; auto; [apply save_ok; auto|apply save_new|apply pi_save].
Qed.
