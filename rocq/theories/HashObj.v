(** For C81: what is hashed while instances, sets, cells, classes and functions are loaded. *)
From Coq Require Import String List Bool Arith ZArith Lia.
From Verif Require Import PyDict CoreModel CoreSpec CoreSim CoreStep CoreReduce CoreObj CoreProc CoreMain CoreReach CoreInd CoreProps HashModel HashSpec HashBase HashStep.
Import ListNotations.
Local Open Scope string_scope.
Local Open Scope list_scope.

Section HashObj.
  Variable proto : nat.
  Variable H : oid -> option obj.
  Hypothesis HW : heap_wf H.
  Notation Sim := (Sim H).
  Notation sync := (sync H).
  Notation env_ok := (env_ok H).
  Notation ok := (ok H).
  Notation J := (J H).
  Notation PI := (PI H).
  Notation pi := (pi H).
  Notation EV := (EV H).
  Notation evs := (evs H).
  Notation good := (good H).
  Notation cellH := (cellH H).
  Notation sub := (sub H).
  Notation subp := (subp H).
  Notation MK := (MK H).
  Notation argsub := (argsub H).
  Variable sv : val -> act.
  Hypothesis SV : sv_ok H sv.
  Hypothesis SN : sv_new H sv.
  Hypothesis PS : forall v, pi (sv v).
  Hypothesis SE : forall v s e m, sync s e m -> (forall y, v = VR y -> J y s e m) -> EV (sv v) s e m.

  Ltac avs := intros ? Hav; cbn in Hav; repeat (destruct Hav as [<-|Hav]; [eexists; reflexivity|]); destruct Hav.

  Lemma J_grow x s e m m' : J x s e m -> (forall a b, nth_error (heap m) a = Some b -> nth_error (heap m') a = Some b) -> J x s e m'.
  Proof.
    intros (A & B & C) Hh. split; [|auto]. intros o a Ho. destruct (A o a Ho) as [X|X]; auto. left. eapply complete_mono; [| |exact X]; auto.
  Qed.
  (** a new object for [x], whose globals dictionary may have been changed *)
  Lemma J_new x s e m s' m' a : J x s e m -> sync s e m -> post s' = post s ->
    (forall a b, nth_error (heap m) a = Some b -> nth_error (heap m') a = Some b \/ Genv e x a) -> J x s' (e ++ [(KObj x, VR a)]) m'.
  Proof.
    intros (A & B & C) S Ep Hh. pose proof (ek_inj _ _ _ _ (sy_env _ _ _ _ S)) as Inj. split; [|rewrite Ep; auto].
    intros o a0 Ho. apply in_app_iff in Ho as [Ho|[Ho|[]]]; [|injection Ho as <- <-; right; right; constructor].
    destruct (A o a0 Ho) as [(b & b' & Hb & Hb' & Hr)|X]; auto.
    destruct (Hh _ _ Hb') as [Hb2|Hg]; [|pose proof (Inj _ _ _ Ho Hg); discriminate].
    destruct (Nat.eq_dec o x) as [->|Hn]; [right; right; constructor|]. left. exists b, b'. split; auto. split; auto.
    eapply obj_rel_mono; [| | |exact Hr].
    - intros o' a'. unfold Renv. rewrite in_app_iff. auto.
    - intros g. unfold Genv. rewrite in_app_iff. auto.
    - intros g b0 Hg Hgb. destruct (Hh _ _ Hgb) as [X|X]; auto. pose proof (Inj _ _ _ Hg X). congruence.
  Qed.

  Lemma finish_again op1 k s i : memo_get k s = Some i -> finish_red proto op1 k s = emit [op1; POP; GET i] s.
  Proof. intros E. unfold finish_red, seq, emit. rewrite E. reflexivity. Qed.
  Lemma finish_first op1 k s : memo_get k s = None -> finish_red proto op1 k s = (emit [op1] ;; memoize proto k) s.
  Proof. intros E. unfold finish_red, seq, emit. rewrite E. reflexivity. Qed.
  Lemma evs_hash op1 m e l : (forall m1, run [op1] m = Some m1 -> True) -> hashed op1 m = [] -> forallb quiet l = true -> evs (op1 :: l) m e.
  Proof.
    intros _ Hh Q pre o rest mt k a c E R Hi Hc. destruct pre as [|o' pre].
    - injection E as <- <-. injection R as <-. rewrite Hh in Hi. destruct Hi.
    - injection E as <- ->. exfalso. rewrite forallb_app in Q. apply andb_true_iff in Q as [_ Q]. cbn in Q. apply andb_true_iff in Q as [Q _].
      destruct o; cbn in Q; try discriminate; destruct Hi.
  Qed.
  Lemma EV_finish op1 k s e m m2 r a : sync s e m -> puts op1 = false -> hashed op1 m = [] ->
    run [op1] m = Some m2 -> mem m2 = mem m -> stk m2 = VR a :: r -> length (heap m) <= a -> EV (finish_red proto op1 k) s e m.
  Proof.
    intros S Hp Hh R Em St La. destruct (memo_get k s) as [i|] eqn:E.
    - eapply EV_ext; [apply finish_again; exact E|]. apply EV_emit_gen; auto; [cbn; now rewrite Hp|]. intros. apply evs_hash; auto.
    - eapply EV_ext; [apply finish_first; exact E|]. eapply EV_new with (v := VR a); [exact S|exact R|exact Em|exact St|intros a' Ea; injection Ea as <-; auto|]. apply evs_hash; auto.
  Qed.
  Lemma EV_construct o op1 K b b1 r h2 s e m m2 : sync s e m -> J o s e m -> memo_get (KObj o) s = None ->
    H o = Some b -> kind b1 = kind b -> puts op1 = false -> hashed op1 m = [] ->
    run [op1] m = Some m2 -> mem m2 = mem m -> stk m2 = VR (length (heap m)) :: r -> heap m2 = h2 ++ [b1] -> length h2 = length (heap m) ->
    (forall a b, nth_error (heap m) a = Some b -> nth_error h2 a = Some b \/ (Genv e o a /\ exists b', nth_error h2 a = Some b' /\ kind b' = kind b)) ->
    (forall s3 m3, post s3 = post s -> sync s3 (e ++ [(KObj o, VR (length (heap m)))]) m3 -> J o s3 (e ++ [(KObj o, VR (length (heap m)))]) m3 ->
       stk m3 = VR (length (heap m)) :: r -> meta m3 = meta m2 -> heap m3 = heap m2 -> EV K s3 (e ++ [(KObj o, VR (length (heap m)))]) m3) ->
    EV (finish_red proto op1 (KObj o) ;; K) s e m.
  Proof.
    intros S HJ Em Hb Kb Hp Hh R Emm St Eh Lh HG HK. pose proof (memo_get_none _ _ _ _ _ S Em ltac:(discriminate)) as Hn.
    set (a := length (heap m)) in *.
    apply EV_bind; [|eapply EV_finish; eauto].
    intros ops1 s1 E. rewrite (finish_first _ _ _ Em) in E.
    destruct (memoize_run proto (KObj o) s e m2 (VR a) r) as (o2 & m3 & A & B & C & D & F & G); auto.
    { apply (sy_memo _ _ _ _ S). }
    { rewrite Emm. apply (sy_mem _ _ _ _ S). }
    unfold seq, emit in E. rewrite A in E. injection E as <- <-.
    exists (e ++ [(KObj o, VR a)]), m3. split; [change (run ([op1] ++ o2) m = Some m3); rewrite (run_app _ _ _ _ R); auto|].
    assert (S3 : sync {| memo := memo s ++ [KObj o]; post := post s |} (e ++ [(KObj o, VR a)]) m3).
    { constructor.
      - cbn. rewrite map_app, (sy_memo _ _ _ _ S). reflexivity.
      - exact G.
      - cbn [post]. rewrite F, Eh, <- Lh. eapply env_ok_alloc with (I := Fl).
        + eapply env_ok_heap; [apply (sy_env _ _ _ _ S)|lia|]. intros x y Hx. destruct (HG _ _ Hx) as [X|[_ X]]; eauto.
        + split; auto. split; intros; discriminate.
        + intros o' Eo. injection Eo as <-. eauto. }
    split; [exact S3|]. apply HK; auto.
    - eapply J_new; [exact HJ|exact S|reflexivity|]. intros x y Hx. rewrite F, Eh. destruct (HG _ _ Hx) as [X|[X _]]; auto. left.
      rewrite nth_app_l; auto. eapply nth_lt; eauto.
    - congruence.
  Qed.

  (** ** instances *)
  Lemma red_construct_EV (nb : bool) x c args s e m : sync s e m -> J x s e m -> sub x c -> Forall (sub x) args ->
    (match c with VR _ | VA (AGlob (GUser _)) _ => True | _ => False end) ->
    exists pre op1,
      (forall s, red_call proto sv nb c (map AV args) s = (pre ;; emit [op1]) s) /\ puts op1 = false /\ pi pre /\ EV pre s e m /\
      ok X0 Fl pre s e m (fun s' e' m' => exists c' vs',
        run [op1] m' = Some (alloc (ORed nb c' vs' [] [] SNone) {| stk := stk m; meta := meta m; mem := mem m'; heap := heap m' |}) /\ hashed op1 m' = [] /\
        val_rel (Renv e') c c' /\ Forall2 (val_rel (Renv e')) args vs').
  Proof.
    intros S HJ Hsc Hsa Hc.
    assert (MV : forall x, In x (map AV args) -> exists v, x = AV v).
    { intros y Hi. apply in_map_iff in Hi as (v & <- & _). eauto. }
    assert (MV' : forall x, In x (AV c :: map AV args) -> exists v, x = AV v).
    { intros y [<-|Hi]; eauto. }
    assert (FA : Forall (argsub x) (map AV args)).
    { apply Forall_forall. intros y Hi. apply in_map_iff in Hi as (v & <- & Hv). cbn. rewrite Forall_forall in Hsa. auto. }
    unfold red_call. destruct nb; [destruct (Nat.leb 2 proto)|].
    - exists (sv c ;; save_tuple proto sv KAnon (map AV args)), NEWOBJ. split; [intros; symmetry; apply seq_assoc|]. split; auto. split; [apply pi_call; auto|].
      split; [eapply EV_call; eauto using new_AV, once_AV|].
      eapply ok_conseq; [apply save_call_ok; eauto using Fl_in, new_AV, once_AV|]. intros s' e' m' S' Si (t & c' & vs' & A & B & C & D & E).
      exists c', vs'. apply args_vals in E. split; auto.
      cbn [run step]. rewrite A, D. unfold set_stk. rewrite B. reflexivity.
    - exists (sv (g_ GNewobj) ;; save_tuple proto sv KAnon (AV c :: map AV args)), REDUCE. split; [intros; symmetry; apply seq_assoc|]. split; auto. split; [apply pi_call; auto|].
      split; [eapply EV_call; eauto using new_AV, once_AV; apply sub_a|].
      eapply ok_conseq; [apply save_call_ok; eauto using Fl_in, new_AV, once_AV|]. intros s' e' m' S' Si (t & g' & vs' & A & B & C & D & E).
      destruct g'; cbn in C; [|tauto]. destruct C as [<- ->]. inversion E as [|? c' ? vs2 Ec E']; subst. exists c', vs2. apply args_vals in E'. split; [|split; auto].
      + cbn [run step]. rewrite A, D. unfold set_stk. rewrite B. reflexivity.
      + cbn [hashed]. rewrite A. reflexivity.
    - exists (sv c ;; save_tuple proto sv KAnon (map AV args)), REDUCE. split; [intros; symmetry; apply seq_assoc|]. split; auto. split; [apply pi_call; auto|].
      split; [eapply EV_call; eauto using new_AV, once_AV|].
      eapply ok_conseq; [apply save_call_ok; eauto using Fl_in, new_AV, once_AV|]. intros s' e' m' S' Si (t & c' & vs' & A & B & C & D & E).
      exists c', vs'. apply args_vals in E.
      assert (Ec : (exists nm, c' = VA (AGlob (GUser nm)) 0) \/ exists a, c' = VR a).
      { destruct c as [[| | | | |[| | | | | | | |nm]| | | |] i|o], c' as [a' i'|a']; cbn in C; try tauto; eauto. destruct C as [<- ->]. eauto. }
      split; [|split; auto].
      + cbn [run step]. rewrite A, D. unfold set_stk. rewrite B. destruct Ec as [(nm & ->)|(a & ->)]; reflexivity.
      + cbn [hashed]. rewrite A. destruct Ec as [(nm & ->)|(a & ->)]; reflexivity.
  Qed.
  Lemma EV_inst o nb c args li di st s e m : sync s e m ->
    H o = Some (ORed nb c args li di st) -> obj_wf H (ORed nb c args li di st) -> items_once H o (ORed nb c args li di st) ->
    (forall v, ~ In (KObj o, v) e) -> J o s e m -> EV (save_instance proto sv nb c (map AV args) li di st (KObj o)) s e m.
  Proof.
    intros S Ho (Wc & Wd & Ws) Once Hn HJ.
    assert (SB : forall v, In v (refs (ORed nb c args li di st)) -> sub o v) by (intros; eapply sub_in; eauto).
    assert (SBs : forall l, (forall v, In v l -> In v (refs (ORed nb c args li di st))) -> Forall (sub o) l) by (intros l Hl; apply Forall_forall; intros; apply SB; auto).
    destruct (red_construct_EV nb o c args s e m S HJ) as (pre & op1 & Epre & Pp & Pipre & Vpre & Opre); auto.
    { apply SB. left; auto. }
    { apply SBs. intros v Hv. cbn. right. apply in_app_iff; auto. }
    assert (Sli : Forall (sub o) li) by (apply SBs; intros v Hv; cbn; right; apply in_app_iff; right; apply in_app_iff; auto).
    assert (Sst : Forall (sub o) (state_vals st)) by (apply SBs; intros v Hv; cbn; right; rewrite !in_app_iff; auto).
    assert (Sdi : Forall (MK (KObj o) o) di).
    { apply Forall_forall. intros [k v] Hi. pose proof (in_flat _ _ _ Hi) as [A B]. split.
      - split; apply SB; cbn; right; rewrite !in_app_iff; auto.
      - intros _. eexists. split; [exact Ho|]. cbn. apply in_map_iff. exists (k, v). auto. }
    set (V := fun o' => exists v, In v (c :: args) /\ reach H v o').
    assert (Npre : nw V pre).
    { intros s0 ops0 s1 E0.
      assert (N : nw V (red_call proto sv nb c (map AV args))).
      { assert (SVV : forall w, VV V w -> nw V (sv w)).
        { intros w Hw. eapply nw_mono; [|apply SN]. intros o' Ro. destruct w as [|o1]; [inversion Ro|]. destruct Hw as (v & Hv & Rv).
          exists v. split; auto. eapply reach_trans; eauto. }
        assert (HV : forall w, In w (c :: args) -> VV V w).
        { intros [a0 i0|o1] Hw; cbn; auto. exists (VR o1). split; auto. constructor. }
        apply nw_call; [exact SVV|apply HV; left; auto|]. intros x Hx. apply in_map_iff in Hx as (w & <- & Hw). cbn. apply HV. right; auto. }
      refine (N s0 (ops0 ++ [op1]) s1 _). rewrite Epre. unfold seq, emit. rewrite E0. reflexivity. }
    unfold save_instance.
    eapply EV_ext with (B := pre ;; (finish_red proto op1 (KObj o) ;; batch_appends proto sv li ;; batch_setitems proto sv di ;; save_state proto sv st)).
    { etransitivity; [apply seq_cong_l; apply Epre|]. rewrite seq_assoc. apply seq_cong_r. intros s1. symmetry. apply seq_assoc. }
    eapply EV_seq0 with (x := o); [exact S|exact (ok_nw _ _ _ _ _ _ _ _ V Npre Opre)|exact Pipre|exact HJ|exact Vpre|].
    intros s1 e1 m1 S1 Si1 HJ1 ((c' & vs' & R1 & Hh & Vc & Va) & Gr).
    destruct (memo_cases H (KObj o) s1 e1 m1 S1 ltac:(discriminate)) as [(i & v & Em & Hv & Eg)|[Em Hv]].
    - (* the object was saved while saving its class or arguments *)
      destruct (ek_obj _ _ _ _ (sy_env _ _ _ _ S1) _ _ Hv) as (a & ->).
      assert (El : li = []).
      { destruct li as [|l0 li]; [reflexivity|]. exfalso. destruct Gr as (GM & _).
        assert (Hm : In (KObj o) (memo s1)) by (rewrite (sy_memo _ _ _ _ S1); apply in_map_iff; eexists; split; [|exact Hv]; reflexivity).
        destruct (GM _ Hm) as [Hm0|(w & Hw & Rw)].
        - rewrite (sy_memo _ _ _ _ S) in Hm0. apply in_map_iff in Hm0 as ([k w] & Ek & Hw). cbn in Ek. subst. eapply Hn; eauto.
        - eapply Once; eauto. }
      destruct (cov_complete H _ _ _ _ _ _ _ _ _ _ Si1 Hn Hv Ho) as (b & b' & Hb & (Hh' & _ & _) & Hr); [cbn; lia|].
      rewrite Ho in Hb; inversion Hb; subst b. destruct b' as [| | |nb' c2 args' li' di' st'| | | |]; cbn in Hr; try tauto.
      destruct Hr as (-> & _ & _ & Hli & Hdi & Hst). subst li. inversion Hli; subst li'.
      set (mb := alloc (ORed nb' c' vs' [] [] SNone) {| stk := stk m; meta := meta m; mem := mem m1; heap := heap m1 |}) in *.
      set (m2 := push (VR a) (set_stk (stk m) mb)).
      assert (Hg : forall x b, nth_error (heap m1) x = Some b -> nth_error (heap m2) x = Some b).
      { intros x b Ex. cbn. rewrite nth_app_l; auto. eapply nth_lt; eauto. }
      assert (S2 : sync s1 e1 m2).
      { eapply sync_vm; [exact S1|reflexivity|cbn; rewrite app_length; lia|]. intros x b Ex. exists b. split; auto. }
      assert (HJ2 : J o s1 e1 m2) by (eapply J_grow; eauto).
      apply EV_bind; [|eapply EV_finish with (m2 := mb); [exact S1|exact Pp|exact Hh|exact R1|reflexivity|reflexivity|cbn; auto]].
      intros ops1 s2 E. rewrite (finish_again _ _ _ _ Em) in E. injection E as <- <-. exists e1, m2. split.
      { change [op1; POP; GET i] with ([op1] ++ [POP; GET i]). rewrite (run_app _ _ _ _ R1). cbn [run step mb alloc stk set_stk mem]. rewrite Eg. reflexivity. }
      split; auto.
      eapply EV_ext with (B := batch_setitems proto sv di ;; save_state proto sv st).
      { apply seq_skip, appends_nil. }
      assert (Rf : forall o a a', Renv e1 o a -> Renv e1 o a' -> a = a') by (eapply env_Rfun; apply (sy_env _ _ _ _ S1)).
      assert (Ri : forall o o' a, Renv e1 o a -> Renv e1 o' a -> o = o') by (eapply env_Rinj; apply (sy_env _ _ _ _ S1)).
      set (W := fun d => ORed nb' c2 args' [] d st').
      assert (TA : T_again W a (stk m) (meta m) Fl di s1 e1 m2).
      { split; auto. split; auto. split; [apply Fl_in|]. exists di'. split; [apply Hg; exact Hh'|]. split; [eapply keys_distinct_rel; eauto|exact Hdi]. }
      eapply EV_seq0 with (x := o); [exact S2|eapply batch_setitems_again_ok; [exact SV|apply dict_like_red|exact S2|exact TA]|apply pi_setitems; auto|exact HJ2| |].
      + eapply EV_batch_setitems_again; eauto; [apply dict_like_red|left; reflexivity].
      + intros s3 e3 m3 S3 Si3 HJ3 _. eapply EV_state; eauto.
    - set (a := length (heap m1)).
      eapply EV_construct with (h2 := heap m1) (b1 := ORed nb c' vs' [] [] SNone); [exact S1|exact HJ1|exact Em|exact Ho|reflexivity|exact Pp|exact Hh|exact R1|reflexivity|reflexivity|reflexivity|reflexivity|auto|].
      intros s2 m2 Ep2 S2 HJ2 A2 B2 C2. fold a in S2, HJ2, A2 |- *. set (e2 := e1 ++ [(KObj o, VR a)]) in *.
      assert (Hi2 : In (KObj o, VR a) e2) by (apply in_app_iff; right; left; auto).
      assert (TL : CoreStep.T_list (fun l => ORed nb c' vs' l [] SNone) a (stk m) (meta m) Fl [] s2 e2 m2).
      { split; auto. split; auto. split; [apply Fl_in|]. exists []. rewrite C2. cbn. split; [apply nth_snoc|constructor]. }
      eapply EV_seqA with (k0 := KObj o) (x := o) (a := a); [exact S2|apply batch_appends_ok; [exact SV|apply list_like_red|exact S2|exact TL]|apply pi_appends; auto|exact HJ2|left; auto| | |].
      { intros s3 e3 m3 _ Si3 _. apply (s_env Si3); auto. }
      { eapply EV_batch_appends; eauto; [apply list_like_red|left; auto]. }
      intros s3 e3 m3 S3 Si3 HJ3 Hi3 (A3 & B3 & HI3 & li' & C3 & D3).
      assert (TD : CoreStep.T_dict (fun d => ORed nb c' vs' li' d SNone) a (stk m) (meta m) Fl [] [] s3 e3 m3).
      { split; [exact A3|]. split; [exact B3|]. split; [apply Fl_in|]. exists []. split; [exact C3|constructor]. }
      eapply EV_seqA with (k0 := KObj o) (x := o) (a := a); [exact S3|apply batch_setitems_ok with (W := fun d => ORed nb c' vs' li' d SNone); [exact SV|apply dict_like_red|exact S3|exact TD]|apply pi_setitems; auto|exact HJ3|left; auto| | |].
      { intros s4 e4 m4 _ Si4 _. apply (s_env Si4); auto. }
      { eapply EV_batch_setitems; eauto; [apply dict_like_red|left; auto]. }
      intros s4 e4 m4 S4 Si4 HJ4 Hi4 _. eapply EV_state; eauto.
  Qed.

  Lemma F2_in_r {A B} (R : A -> B -> Prop) l l' : Forall2 R l l' -> forall y, In y l' -> exists x, In x l /\ R x y.
  Proof. induction 1; intros z Hz; [destruct Hz|]. destruct Hz as [<-|Hz]; [eexists; split; [left|]; eauto|]. destruct (IHForall2 _ Hz) as (w & ? & ?). exists w. split; [right|]; auto. Qed.
  (** ** sets *)
  Lemma EV_add x o a st vs l s e m : sync s e m -> o = x -> H x = Some (OSet false vs) -> (forall v, In v l -> In v vs) -> In (KObj x, VR a) e -> J x s e m -> stk m = VR a :: st ->
    EV (add_batch sv l) s e m.
  Proof.
    intros S _ Ho Hl Hi HJ St. unfold add_batch. apply EV_mark with (x := x); auto. intros m0 S0 HJ0 A0 B0 C0.
    assert (Fs : Forall (sub x) l) by (apply Forall_forall; intros v Hv; eapply sub_in; [exact Ho|cbn; auto]).
    eapply EV_seq0 with (I := Fl) (x := x); [exact S0|apply (seqs_sv_ok _ _ SV); auto using Fl_in|apply pi_seqs; intros; apply PS|exact HJ0|eapply EV_svs; eauto|].
    intros s1 e1 m1 S1 Si1 HJ1 (vs' & A & B & C). rewrite A0, app_nil_r in A. rewrite B0, St in B.
    apply EV_one; auto. intros m' k a' c E S' Hh Hc. cbn in Hh. rewrite A, B, rev_involutive in Hh.
    apply in_map_iff in Hh as (v' & Ep & Hv'). injection Ep as <- <-.
    destruct (F2_in_r _ _ _ C _ Hv') as (v & Hv & Hr).
    eapply good_own with (k0 := KObj x) (x := x) (k := v); eauto; [left; auto|apply (s_env Si1); auto|].
    intros _. eexists. split; [exact Ho|]. cbn. auto.
  Qed.
  Lemma EV_made o fz vs vs' s e m : sync s e m -> H o = Some (OSet fz vs) -> J o s e m -> (forall v, ~ In (KObj o, v) e) ->
    Forall2 (val_rel (Renv e)) vs vs' -> forall k c, In k vs' -> Renv (e ++ [(KObj o, VR (length (heap m)))]) c (length (heap m)) -> good (e ++ [(KObj o, VR (length (heap m)))]) m k c.
  Proof.
    intros S Ho HJ Hn F k c Hk Hc. apply in_app_iff in Hc as [Hc|[Hc|[]]].
    - pose proof (ek_dom _ _ _ _ (sy_env _ _ _ _ S) _ _ Hc). lia.
    - injection Hc as <-. destruct (F2_in_r _ _ _ F _ Hk) as (v & Hv & Hr). exists s, e, v, (OSet fz vs).
      split; [intros z Hz; apply in_app_iff; auto|]. auto.
  Qed.
  Lemma EV_set o fz vs s e m : sync s e m -> H o = Some (OSet fz vs) -> (forall v, ~ In (KObj o, v) e) -> J o s e m ->
    EV (save_set proto sv (KObj o) fz vs) s e m.
  Proof.
    intros S Ho Hn HJ.
    assert (Fs : Forall (sub o) vs) by (apply Forall_forall; intros v Hv; eapply sub_in; [exact Ho|cbn; auto]).
    unfold save_set. destruct (Nat.leb 4 proto); [destruct fz|].
    - apply EV_mark with (x := o); auto. intros m0 S0 HJ0 A0 B0 C0.
      eapply EV_seq0 with (I := Fl) (x := o); [exact S0|apply (seqs_sv_ok _ _ SV); auto using Fl_in|apply pi_seqs; intros; apply PS|exact HJ0|eapply EV_svs; eauto|].
      intros s1 e1 m1 S1 Si1 HJ1 (vs' & A & B & C). rewrite A0, app_nil_r in A. rewrite B0 in B.
      eapply EV_ext with (B := fun s => match memo_get (KObj o) s with Some i => Ok ([POP_MARK] ++ [GET i], s) | None => (emit [FROZENSET] ;; memoize proto (KObj o)) s end); [reflexivity|].
      destruct (memo_get (KObj o) s1) as [i|] eqn:Em.
      + eapply EV_ext with (B := emit [POP_MARK; GET i]); [rewrite Em; reflexivity|]. now apply EV_emit.
      + pose proof (memo_get_none _ _ _ _ _ S1 Em ltac:(discriminate)) as Hn1.
        eapply EV_close with (mb := {| stk := stk m; meta := meta m; mem := mem m1; heap := heap m1 |}) (b' := OSet true (set_adds [] vs')); auto.
        * intros i. now apply evs_quiet.
        * cbn [run step]. unfold pop_mark. rewrite B, A, rev_involutive. reflexivity.
        * intros pre op rest mt k a c E Rp Hi Hc. destruct pre as [|? [|? ?]]; try discriminate. injection E as <- <-. injection Rp as <-.
          cbn in Hi. rewrite A, rev_involutive in Hi. apply in_map_iff in Hi as (v' & Ep & Hv'). injection Ep as <- <-. eapply EV_made; eauto.
    - set (a := length (heap m)).
      eapply EV_assoc.
      assert (K : key_new (KObj o) Fl e (post s)).
      { split; auto. split; [intros; discriminate|]. intros; discriminate. }
      eapply EV_seqA with (k0 := KObj o) (x := o) (a := a) (I := Fl) (Q := fun s' e' m' => In (KObj o, VR a) e' /\ CoreStep.T_set a (stk m) (meta m) Fl [] s' e' m'); [exact S| |apply pi_seq; [apply pi_emit|apply pi_memoize]|exact HJ|left; auto|intros ? ? ? ? ? [? ?]; auto| |].
      + eapply ok_new with (m1 := alloc (OSet false []) m) (v := VR a) (r := stk m); auto.
        * apply env_ok_alloc with (I := Fl); auto; [apply (sy_env _ _ _ _ S)|].
          intros o' Hk. inversion Hk; subst. exists (OSet false vs). split; auto.
        * apply Sim_alloc.
          -- intros x; split; auto.
          -- intros o' Hk. inversion Hk; subst. left. eapply no_proc; [exact Ho|discriminate|discriminate].
          -- apply K.
        * intros s' m' Ep S' St Me He. split; [apply in_app_iff; right; left; auto|]. split; auto.
          split; [rewrite Me; auto|]. split; [apply Fl_in|]. exists []. rewrite He. split; [apply nth_snoc|constructor].
      + eapply EV_new with (v := VR a); [exact S|reflexivity|reflexivity|reflexivity|intros a' E; injection E as <-; unfold a; auto|now apply evs_quiet].
      + intros s1 e1 m1 S1 Si1 HJ1 Hi1 (_ & HT).
        eapply EV_batches with (X := eq a) (T := CoreStep.T_set a (stk m) (meta m) Fl) (x := o) (k0 := KObj o) (a := a) (M := fun v => In v vs); eauto using eq_dec_X.
        * intros. eapply own_Xok; eauto. left; auto.
        * intros. apply T_set_many; auto.
        * intros. apply T_set_many; auto.
        * intros l y s2 e2 m2 HM S2 HT2 HJ2 Hi2. eapply EV_add with (x := o) (o := o); eauto; [|apply HT2]. intros v [<-|[]]; auto.
        * intros l l' s2 e2 m2 HM S2 HT2 HJ2 Hi2. eapply EV_add with (x := o) (o := o); eauto; [|apply HT2]. rewrite Forall_forall in HM. auto.
        * intros. apply pi_seq; [apply pi_emit|]. apply pi_seq; [apply pi_seqs; intros; apply PS|apply pi_emit].
        * intros. apply pi_seq; [apply pi_emit|]. apply pi_seq; [apply pi_seqs; intros; apply PS|apply pi_emit].
        * apply Forall_forall; auto.
    - set (g := if fz then GFrozenset else GSet).
      eapply EV_ext with (B := (sv (g_ g) ;; save_tuple proto sv KAnon [AL vs]) ;; finish_red proto REDUCE (KObj o)).
      { unfold save_reduce, red_call, red_memo, save_state, finish_red. rewrite !seq_assoc. apply seq_cong_r. intros s1. rewrite !seq_assoc. apply seq_cong_r. intros s2.
        apply seq_cong_r. intros s3. unfold seq, emit. destruct (memo_get (KObj o) s3); [reflexivity|]. destruct (memoize proto (KObj o) s3) as [[l s4]|]; [|reflexivity]. now rewrite app_nil_r. }
      assert (AN : args_new Fl e (post s) [AL vs]) by (intros k kvs [X|[]]; discriminate).
      eapply EV_seq0 with (I := Fl) (x := o); [exact S|apply save_call_ok; eauto using Fl_in; exact Logic.I|apply pi_call; auto|exact HJ|eapply EV_call; eauto; [exact Logic.I|apply sub_a]|].
      intros s1 e1 m1 S1 Si1 HJ1 (t & c' & vs' & A & B & C & D & E).
      assert (Ec : c' = g_ g) by (destruct c'; cbn in C; [|tauto]; destruct C as [<- ->]; reflexivity). subst c'.
      inversion E as [|? v0 ? ? Ev E']; subst. inversion E'; subst. destruct Ev as (a & d' & -> & _ & Hd & F).
      set (mb := {| stk := stk m; meta := meta m; mem := mem m1; heap := heap m1 |}).
      assert (R : run [REDUCE] m1 = Some (alloc (OSet fz (set_adds [] d')) mb)).
      { cbn [run step]. rewrite A, D. unfold set_stk. rewrite B. unfold g, g_. destruct fz; cbn [call heap]; rewrite Hd; reflexivity. }
      assert (Eh : hashed REDUCE m1 = map (fun v => (v, length (heap m1))) d').
      { cbn [hashed]. rewrite A. unfold g, g_. destruct fz; rewrite D, Hd; reflexivity. }
      eapply EV_ext with (B := fun s => match memo_get (KObj o) s with Some i => Ok ([REDUCE; POP] ++ [GET i], s) | None => (emit [REDUCE] ;; memoize proto (KObj o)) s end).
      { unfold finish_red, seq at 1, emit at 1. destruct (memo_get (KObj o) s1); reflexivity. }
      destruct (memo_get (KObj o) s1) as [i|] eqn:Em.
      + eapply EV_ext with (B := emit [REDUCE; POP; GET i]); [rewrite Em; reflexivity|]. apply EV_emit_gen; auto.
        intros _ _ _ pre op rest mt k a0 c Ep Rp Hi Hc. destruct pre as [|? pre].
        * injection Ep as <- <-. injection Rp as <-. rewrite Eh in Hi. apply in_map_iff in Hi as (v' & Ev & _). injection Ev as _ <-.
          pose proof (ek_dom _ _ _ _ (sy_env _ _ _ _ S1) _ _ Hc). lia.
        * injection Ep as <- Ep. destruct pre as [|? [|? [|? ?]]]; injection Ep as Ep; subst; try discriminate; destruct Hi.
      + pose proof (memo_get_none _ _ _ _ _ S1 Em ltac:(discriminate)) as Hn1.
        eapply EV_ext with (B := emit [REDUCE] ;; memoize proto (KObj o)); [rewrite Em; reflexivity|].
        eapply EV_new with (v := VR (length (heap m1))); [exact S1|exact R|reflexivity|reflexivity|intros a' Ea; injection Ea as <-; auto|].
        intros pre op rest mt k a0 c Ep Rp Hi Hc. destruct pre as [|? [|? ?]]; try discriminate. injection Ep as <- <-. injection Rp as <-.
        rewrite Eh in Hi. apply in_map_iff in Hi as (v' & Ev & Hv'). injection Ev as <- <-. eapply EV_made; eauto.
  Qed.
End HashObj.
