(** C82: loading a session changes the module at once or not at all. *)
From Coq Require Import String List Bool Arith ZArith Lia.
From Verif Require Import PyDict CoreModel CoreSpec CoreSim CoreStep CoreReach CoreReduce CoreObj CoreMain CoreProps HashSpec HashProps SessModel SessSpec SessBase.
Import ListNotations.
Local Open Scope string_scope.
Local Open Scope list_scope.

(** what the call _import_module(name) is pickled as, and what is there after it *)
Lemma call_run proto H fuel n ops s : proto <= 5 ->
  red_call proto (save proto H fuel) false g_import [AV (VA (AStr n) 0)] pst0 = Ok (ops, s) ->
  exists m, run ops vm0 = Some m /\ heap m = [OTup [VA (AStr n) 0]; ORed false g_import [VA (AStr n) 0] [] [] SNone].
Proof.
  intros Lp. destruct fuel as [|fuel]; [unfold red_call, seq; cbn [save fail]; discriminate|].
  assert (Hs : forall a i, save proto H (Datatypes.S fuel) (VA a i) = save_atom proto a i) by reflexivity.
  set (sv := save proto H (Datatypes.S fuel)) in *. clearbody sv.
  unfold red_call, save_tuple, g_import. cbn [length seqs save_arg]. rewrite !Hs. clear Hs sv.
  do 6 (destruct proto as [|proto]; [intros E; vm_compute in E; injection E as <- <-; eexists; (split; [vm_compute; reflexivity|reflexivity])|]). lia.
Qed.

Definition mod0 (n : string) : obj := ORed false g_import [VA (AStr n) 0] [] [] SNone.
(** the pickle of a session: the call, then the namespace, then BUILD and STOP *)
Lemma session_shape proto H fuel o n d ops : heap_wf H -> proto <= 5 -> H o = Some (session_obj n d) ->
  dumps proto H fuel (VR o) = Ok ops ->
  exists pre mid m1 m2, ops = pre ++ mid ++ [BUILD; STOP] /\
    run pre vm0 = Some m1 /\ heap m1 = [OTup [VA (AStr n) 0]; mod0 n] /\
    run mid m1 = Some m2 /\ nth_error (heap m2) 1 = Some (mod0 n) /\ exists x, stk m2 = [x; VR 1].
Proof.
  intros HW Lp Ho Ed. destruct (dumps_shape _ _ _ _ _ Ed) as (l & sf & -> & Es & _).
  destruct fuel as [|fuel]; [discriminate|]. cbn [save] in Es. set (sv := save proto H fuel) in *.
  assert (E1 : save_instance proto sv false g_import (map AV [VA (AStr n) 0]) [] [] (SAttrs d None) (KObj o) pst0 = Ok (l, sf)).
  { rewrite <- Es. unfold save_val. change (memo_get (KObj o) pst0) with (@None nat). cbn iota. rewrite Ho. reflexivity. }
  clear Es. assert (SV : sv_ok H sv) by (apply save_ok; exact HW). assert (SN : sv_new H sv) by apply save_new.
  destruct (HW _ _ Ho) as [W _]. destruct W as (_ & _ & Ws). cbn in Ws.
  destruct (red_construct proto H sv SV false g_import [VA (AStr n) 0] pst0 [] vm0 (Ik []) (sync0 H) (fun k x => x) Logic.I) as (pre & op1 & Epre & Opre).
  set (V := fun o' => exists v, In v [g_import; VA (AStr n) 0] /\ reach H v o').
  assert (Npre : nw V pre).
  { intros s0 ops0 s1 E0. assert (N : nw V (red_call proto sv false g_import (map AV [VA (AStr n) 0]))).
    { assert (SVV : forall w, VV V w -> nw V (sv w)).
      { intros w Hw. eapply nw_mono; [|apply SN]. intros o' Ro. destruct w as [|o1]; [inversion Ro|]. destruct Hw as (v & Hv & Rv).
        exists v. split; auto. eapply reach_trans; eauto. }
      assert (HV : forall w, In w [g_import; VA (AStr n) 0] -> VV V w).
      { intros [a0 i0|o1] Hw; cbn; auto. exists (VR o1). split; auto. constructor. }
      apply nw_call; [exact SVV|apply HV; left; auto|]. intros x Hx. apply in_map_iff in Hx as (w & <- & Hw). cbn. apply HV. right; auto. }
    refine (N s0 (ops0 ++ [op1]) s1 _). rewrite Epre. unfold seq, emit. rewrite E0. reflexivity. }
  unfold save_instance, seq in E1.
  destruct (red_call proto sv false g_import (map AV [VA (AStr n) 0]) pst0) as [[lc sc]|] eqn:Ec; [|discriminate].
  pose proof (call_run proto H fuel n lc sc Lp Ec) as (mc & Rc & Hc).
  rewrite Epre in Ec. unfold seq, emit in Ec. destruct (pre pst0) as [[lp sp]|] eqn:Ep; [|discriminate]. injection Ec as <- <-.
  destruct (ok_nw _ _ _ _ _ _ _ _ V Npre Opre _ _ Ep) as (e1 & m1 & R1 & S1 & Si1 & (c' & vs' & R2 & Vc & Va) & Gr).
  rewrite (run_app _ _ _ _ R1), R2 in Rc. injection Rc as <-. cbn [heap alloc] in Hc.
  assert (Em : memo_get (KObj o) sp = None).
  { destruct (memo_cases H (KObj o) sp e1 m1 S1 ltac:(discriminate)) as [(i & v & Em & Hv & Eg)|[Em Hv]]; [|exact Em]. exfalso.
    assert (Hm : In (KObj o) (memo sp)) by (rewrite (sy_memo _ _ _ _ S1); apply in_map_iff; eexists; split; [|exact Hv]; reflexivity).
    destruct (proj1 Gr _ Hm) as [[]|(w & [<-|[<-|[]]] & Rw)]; inversion Rw. }
  cbn [red_memo] in E1. rewrite Em in E1. destruct (memoize proto (KObj o) sp) as [[lm sm]|] eqn:Emm; [|discriminate].
  rewrite appends_nil in E1.
  assert (Eb : batch_setitems proto sv [] sm = Ok ([], sm)) by (unfold batch_setitems; destruct (bin proto); reflexivity). rewrite Eb in E1. clear Eb.
  cbn [save_state] in E1. unfold seq, emit in E1. destruct (save_dict proto sv KAnon d sm) as [[ld sd]|] eqn:Esd; [|discriminate]. injection E1 as <- <-.
  set (a := length (heap m1)) in *. set (b1 := ORed false c' vs' [] [] SNone) in *.
  assert (O2 : ok H (eq a) (Ik []) (emit [op1] ;; memoize proto (KObj o)) sp e1 m1
                 (fun s' e' m' => stk m' = [VR a] /\ heap m' = heap m1 ++ [b1] /\ post s' = post sp)).
  { eapply ok_new; [exact S1|exact R2|reflexivity|reflexivity| | |].
    - cbn [heap alloc]. eapply env_ok_alloc with (I := Ik []); [apply (sy_env _ _ _ _ S1)| |].
      + split; [intros _; eapply memo_get_none; eauto; discriminate|]. split; intros; discriminate.
      + intros o' Eo. inversion Eo; subst. exists (session_obj n d). auto.
    - cbn [heap alloc]. apply Sim_alloc.
      + intros x; split; auto.
      + intros o' Eo. inversion Eo; subst. left. eapply no_proc; eauto; discriminate.
      + intros; discriminate.
    - intros s2 m2 Ep2 S2 A B C. auto. }
  destruct (O2 ([op1] ++ lm) sm) as (e2 & m2 & Rm & S2 & Si2 & A2 & C2 & P2).
  { unfold seq, emit. rewrite Emm. reflexivity. }
  assert (Pn : post sp = []).
  { destruct Gr as [_ Gp]. inversion Gp. reflexivity. }
  assert (O3 : ok H X0 (Ik []) (save_dict proto sv KAnon d) sm e2 m2 (P_dict (length (heap m2)) KAnon d m2)).
  { apply save_dict_ok; auto.
    - rewrite P2, Pn. auto.
    - split; [intros X; congruence|]. split; intros; discriminate.
    - intros; discriminate.
    - apply Ws. }
  destruct (O3 _ _ Esd) as (e3 & m3 & R3 & S3 & Si3 & A3 & B3 & C3).
  exists ((if Nat.leb 2 proto then [PROTO proto] else []) ++ lp ++ [op1] ++ lm), ld, m2, m3.
  assert (Ea : a = 1 /\ b1 = mod0 n /\ heap m1 ++ [b1] = [OTup [VA (AStr n) 0]; mod0 n]).
  { unfold a. destruct (heap m1) as [|x [|y h]]; cbn in Hc; try discriminate; injection Hc; intros; subst; try (split; [reflexivity|split; reflexivity]).
    destruct h; discriminate. }
  destruct Ea as (Ea & Eb & Eh).
  split; [rewrite <- !app_assoc; reflexivity|]. split.
  { assert (X : run (lp ++ [op1] ++ lm) vm0 = Some m2) by (rewrite (run_app _ _ _ _ R1); exact Rm).
    destruct (Nat.leb 2 proto) eqn:El; [|exact X]. cbn [app run step]. rewrite (proj2 (Nat.leb_le proto 5) Lp). exact X. }
  split; [rewrite C2; exact Eh|]. split; [exact R3|].
  split; [apply (Sim0_heap _ _ _ _ _ _ _ _ _ _ _ Si3); rewrite C2, Eh; reflexivity|]. rewrite A3, A2, Ea. eauto.
Qed.

Lemma find_live_first n h : hgrows [OTup [VA (AStr n) 0]; mod0 n] h ->
  exists li di st, find (is_live n) h = Some (ORed false g_import [VA (AStr n) 0] li di st) /\ nth_error h 1 = Some (ORed false g_import [VA (AStr n) 0] li di st).
Proof.
  intros G. destruct (G 0 _ eq_refl) as (b0 & E0 & G0). destruct (G 1 _ eq_refl) as (b1 & E1 & G1).
  destruct h as [|x [|y h]]; try discriminate. injection E0 as ->. injection E1 as ->. cbn in G0.
  destruct b1 as [| | |nb c args li di st| | | |]; cbn in G1; try tauto. destruct G1 as (<- & <- & <- & _). exists li, di, st. split; [|reflexivity].
  assert (X : is_live n b0 = false) by (destruct b0; try reflexivity; destruct G0). cbn [find]. rewrite X. cbn [is_live g_import]. rewrite !String.eqb_refl. reflexivity.
Qed.
Lemma runs_run ops : forall m, runs ops m = run ops m.
Proof. induction ops as [|o ops IH]; intros m; cbn; auto. Qed.
Lemma run_split a b m m' : run (a ++ b) m = Some m' -> exists m1, run a m = Some m1 /\ run b m1 = Some m'.
Proof. revert m. induction a as [|o a IH]; cbn; intros m E; [eauto|]. destruct (step o m); [auto|discriminate]. Qed.
Lemma app_prefix {A} (a : list A) : forall b c d, a ++ b = c ++ d -> length a <= length c -> exists t, c = a ++ t.
Proof.
  induction a as [|x a IH]; intros b c d E L; [exists c; reflexivity|]. destruct c as [|y c]; [cbn in L; lia|]. cbn in E, L. injection E as -> E.
  destruct (IH _ _ _ E ltac:(lia)) as (t & ->). exists t. reflexivity.
Qed.
Lemma getitem_rel R n d : forall d', Forall2 (item_rel R) d d' ->
  match getitem d (VA (AStr n) 0), getitem d' (VA (AStr n) 0) with Some v, Some v' => val_rel R v v' | None, None => True | _, _ => False end.
Proof.
  induction d as [|[k v] d IH]; intros d' F; inversion F as [|? [k' v'] ? d'' [Hk Hv] F']; subst; cbn [getitem]; [exact Logic.I|]. cbn in Hk, Hv.
  assert (E : keyeq (VA (AStr n) 0) k = keyeq (VA (AStr n) 0) k').
  { destruct k, k'; cbn in *; try tauto. destruct Hk as [<- _]. reflexivity. }
  rewrite <- E. destruct (keyeq _ k); [exact Hv|]. apply IH; auto.
Qed.

(** C82: however far loading the pickle of a session gets, the namespace of the module is untouched unless the last
    but one opcode (BUILD) has been executed, and after it the session has been restored completely *)
Theorem C82_all_or_nothing_partial : forall proto H fuel root name d ops,
  heap_wf H -> proto <= 5 -> H root = Some (session_obj name d) -> dumps proto H fuel (VR root) = Ok ops ->
  exists v' mf R G, loads ops = Some (v', mf, []) /\ iso_by R G H (VR root) (heap mf) v' /\
    forall old pre rest m, ops = (pre ++ rest)%list -> runs pre start = Some m ->
      (2 <= length rest -> untouched old (namespace name old m)) /\
      (length rest <= 1 -> restored R d old (namespace name old m)).
Proof.
  intros proto H fuel root name d ops HW Lp Ho Ed.
  destruct (session_shape _ _ _ _ _ _ _ HW Lp Ho Ed) as (p1 & mid & m1 & m2 & Eo & R1 & H1 & R2 & H2 & x2 & K2).
  destruct (C81_keys_complete_partial _ _ _ _ _ HW Lp Ed) as (v' & mf & R & G & L & Iso & _).
  exists v', mf, R, G. split; [exact L|]. split; [exact Iso|]. intros old pre rest m Es Rm. rewrite runs_run in Rm. change start with vm0 in Rm. split.
  - intros Lr. rewrite Es in Eo.
    assert (X : exists t, p1 ++ mid = pre ++ t).
    { assert (Ll : length pre <= length (p1 ++ mid)).
      { apply (f_equal (@length op)) in Eo. rewrite !app_length in Eo. cbn in Eo. rewrite app_length. lia. }
      rewrite app_assoc in Eo. eapply app_prefix; eauto. }
    destruct X as (t & X).
    assert (Rt : run t m = Some m2).
    { assert (Y : run (p1 ++ mid) vm0 = Some m2) by (rewrite (run_app _ _ _ _ R1); exact R2). rewrite X, (run_app _ _ _ _ Rm) in Y. exact Y. }
    assert (St : forall b, find (is_live name) (heap m) = Some b -> match b with ORed _ _ _ _ _ st => st = SNone | _ => True end).
    { intros b Hb.
      destruct (le_lt_dec (length p1) (length pre)) as [Le|Lt].
      - (* the module is there *)
        assert (Y : exists u, pre = p1 ++ u).
        { eapply app_prefix; [exact X|exact Le]. }
        destruct Y as (u & ->). rewrite (run_app _ _ _ _ R1) in Rm. pose proof (run_grows _ _ _ Rm) as Gr. rewrite H1 in Gr.
        destruct (find_live_first _ _ Gr) as (li & di & st & Ef & En). rewrite Ef in Hb. injection Hb as <-.
        destruct (run_grows _ _ _ Rt _ _ En) as (b' & Eb & Gb). rewrite H2 in Eb. injection Eb as <-. cbn in Gb. destruct Gb as (_ & _ & _ & Gb).
        destruct st; auto; exfalso; apply Gb; congruence.
      - (* not yet *)
        assert (Y : exists u, p1 = pre ++ u).
        { eapply app_prefix; [symmetry; exact X|lia]. }
        destruct Y as (u & ->). rewrite (run_app _ _ _ _ Rm) in R1. pose proof (run_grows _ _ _ R1) as Gr. rewrite H1 in Gr.
        apply find_some in Hb as [Hb _]. apply In_nth_error in Hb as (x & Hx). destruct (Gr _ _ Hx) as (b' & Eb & Gb).
        destruct b as [| | |nb c args li di st| | | |]; auto.
        destruct x as [|[|x]]; cbn in Eb; [injection Eb as <-; destruct Gb|injection Eb as <-|destruct x; discriminate].
        cbn in Gb. destruct Gb as (_ & _ & _ & Gb). destruct st; auto; exfalso; apply Gb; congruence. }
    intros n. unfold namespace. destruct (find (is_live name) (heap m)) as [b|] eqn:Ef; [|reflexivity]. specialize (St _ eq_refl). destruct b; auto. subst. reflexivity.
  - intros Lr.
    assert (Er : rest = [STOP] /\ m = mf /\ exists r, stk m = v' :: r).
    { rewrite Es in Eo. destruct rest as [|o [|o' rest]]; [| |cbn in Lr; lia].
      - exfalso. rewrite app_nil_r in Eo. rewrite Eo, app_assoc in Rm. apply run_split in Rm as (mm & _ & Rm). cbn [run] in Rm. destruct (step BUILD mm); discriminate.
      - assert (Eo2 : pre ++ [o] = (p1 ++ mid ++ [BUILD]) ++ [STOP]) by (rewrite Eo, <- !app_assoc; reflexivity).
        apply app_inj_tail in Eo2 as [_ ->]. split; [reflexivity|].
        rewrite Es in L. unfold loads in L. destruct (dumps_shape _ _ _ _ _ Ed) as (l & sf & El & _ & Ns).
        rewrite Es, app_assoc in El. apply app_inj_tail in El as [El _]. rewrite <- El in Ns.
        pose proof (load_run _ [STOP] vm0 m Ns Rm) as Lr2. unfold vm0 in Lr2. rewrite Lr2 in L. clear Lr2. cbn [load] in L. destruct (stk m) as [|w r]; [discriminate|]. injection L as -> ->. eauto. }
    destruct Er as (-> & -> & r & Sk).
    assert (Y : pre = p1 ++ (mid ++ [BUILD])).
    { rewrite Es in Eo. assert (Eo2 : pre ++ [STOP] = (p1 ++ mid ++ [BUILD]) ++ [STOP]) by (rewrite Eo, <- !app_assoc; reflexivity). apply app_inj_tail in Eo2 as [-> _]. reflexivity. }
    rewrite Y, (run_app _ _ _ _ R1) in Rm.
    assert (Gr : hgrows [OTup [VA (AStr name) 0]; mod0 name] (heap mf)) by (rewrite <- H1; eapply run_grows; eauto).
    destruct (find_live_first _ _ Gr) as (li & di & st & Ef & En).
    assert (Ev : v' = VR 1).
    { rewrite (run_app _ _ _ _ R2) in Rm. cbn [run step] in Rm. rewrite K2, H2 in Rm. cbn [mod0] in Rm. injection Rm as <-. cbn in Sk. congruence. }
    subst v'. destruct Iso as (Rv & _ & _ & _ & _ & _ & Ro). cbn in Rv. destruct (Ro _ _ Rv) as (b & b' & Hb & Hh & O).
    rewrite Ho in Hb. injection Hb as <-. rewrite En in Hh. injection Hh as <-. unfold session_obj in O. cbn [obj_rel] in O.
    destruct O as (_ & _ & _ & _ & _ & O). destruct st as [|w|d' [sl|]]; cbn [state_rel] in O; try contradiction.
    intros n. unfold namespace. rewrite Ef. cbn [ns_update]. pose proof (getitem_rel R n _ _ O) as X.
    destruct (getitem d (VA (AStr n) 0)) as [v|], (getitem d' (VA (AStr n) 0)) as [w|]; try contradiction; eauto.
Qed.
