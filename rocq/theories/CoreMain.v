(** The simulation: deferred updates, classes, functions, and the whole pickler. *)
From Coq Require Import String List Bool Arith ZArith Lia.
From Verif Require Import PyDict CoreModel CoreSpec CoreSim CoreStep CoreReduce CoreReach CoreObj CoreProc.
Import ListNotations.
Local Open Scope string_scope.
Local Open Scope list_scope.

Section Main.
  Variable proto : nat.
  Variable H : oid -> option obj.
  Hypothesis HW : heap_wf H.
  Notation Sim := (Sim H).
  Notation sync := (sync H).
  Notation env_ok := (env_ok H).
  Notation ok := (ok H).

  Ltac avs := intros ? Hav; cbn in Hav; repeat (destruct Hav as [<-|Hav]; [eexists; reflexivity|]); destruct Hav.

  Section Sv.
  Variable sv : val -> act.
  Hypothesis SV : sv_ok H sv.

  (** an object is mutated and is complete afterwards *)
  Lemma Sim_complete I L' p e0 h0 P0 e h P f a b2 :
    Sim X0 I (L' ++ [p]) e0 h0 P0 e h P -> env_ok e h P -> tgt p = f -> Renv e f a -> length h0 <= a ->
    complete H e (hidn X0 (length h0) (upd h a b2)) f a ->
    (forall q, tgt q = f -> kind_ok H q -> ready H e (hidn X0 (length h0) (upd h a b2)) q) ->
    Sim X0 I L' e0 h0 P0 e (upd h a b2) P.
  Proof.
    intros S E Ht Ha La HC HR.
    assert (S1 : Sim (eq a) I (L' ++ [p]) e0 h0 P0 e h P).
    { eapply Sim_exempt with (f := f); [| | | |exact S].
      - intros x o <- Ho. eapply env_Rinj; eauto.
      - intros x o <- Ho. pose proof (ek_inj _ _ _ _ E _ _ _ Ha Ho). discriminate.
      - intros x Hx. eapply env_Rfun; [exact E|exact Ha|exact Hx].
      - intros x <-. auto. }
    assert (S2 : Sim (eq a) I (L' ++ [p]) e0 h0 P0 e (upd h a b2) P).
    { eapply Sim_trans; [exact S1|]. apply Sim_eq_mut. apply (ek_dom _ _ _ _ E _ _ Ha). }
    apply (Sim_finish H (eq a) I (L' ++ [p]) L'); [| | | | |exact S2].
    - intros ? <-. auto.
    - intros q Hq. apply in_app_iff. auto.
    - intros o x <- Ho. assert (o = f) by (eapply env_Rinj; [exact E|exact Ho|exact Ha]). subst o. auto.
    - intros o x q <- Ho. assert (o = f) by (eapply env_Rinj; [exact E|exact Ho|exact Ha]). subst o. auto.
    - intros q o x Hq Hn Hq' Ho. apply in_app_iff in Hq as [Hq|[<-|[]]]; [contradiction|].
      rewrite Hq' in Ht. subst o. assert (x = a) by (eapply env_Rfun; [exact E|exact Ho|exact Ha]). subst x. auto.
  Qed.

  (** ** running a deferred update *)
  Lemma exec_setattr_ok g c (key_ : string) v s e m (I : key -> Prop) a : (g = g_ GSetattr \/ g = VA (AGlob GSetattr) 1) ->
    sync s e m -> (forall k, I k -> Ik (post s) k) -> Renv e c a ->
    forall ops s', (save_reduce proto sv false g [AV (VR c); AV (VA (AStr key_) 0); AV v] SNone None ;; emit [POP]) s = Ok (ops, s') ->
    exists l e' m' t v', ops = l ++ [REDUCE; POP] /\ run l m = Some m' /\ sync s' e' m' /\
      Sim X0 I [] e (heap m) (post s) e' (heap m') (post s') /\
      stk m' = t :: VA (AGlob GSetattr) 0 :: stk m /\ meta m' = meta m /\
      tuple_items (heap m') t = Some [VR a; VA (AStr key_) 0; v'] /\ val_rel (Renv e') v v'.
  Proof.
    intros Hg S HI Ha ops s' E.
    assert (OC : ok X0 I (sv g ;; save_tuple proto sv KAnon [AV (VR c); AV (VA (AStr key_) 0); AV v]) s e m
                    (P_call g [AV (VR c); AV (VA (AStr key_) 0); AV v] m)).
    { apply save_call_ok; auto; [apply avs_new; avs|apply avs_once; avs]. }
    unfold seq at 1 in E. rewrite reduce_none_eq in E. unfold seq at 1, emit in E.
    destruct ((sv g ;; save_tuple proto sv KAnon [AV (VR c); AV (VA (AStr key_) 0); AV v]) s) as [[l s1]|] eqn:E1; [|discriminate].
    inversion E; subst. destruct (OC _ _ E1) as (e1 & m1 & R1 & S1 & Si1 & t & c' & vs' & A & B & C & D & F).
    inversion F as [|? y1 ? ? G1 F1]; subst. inversion F1 as [|? y2 ? ? G2 F2]; subst. inversion F2 as [|? y3 ? ? G3 F3]; subst. inversion F3; subst.
    unfold arg_rel in G1, G2, G3. apply rel_atom in G2. subst y2.
    apply (rel_ref _ _ _ _ _ a _ (sy_env _ _ _ _ S1)) in G1; [|now apply (s_env Si1)]. subst y1.
    assert (c' = VA (AGlob GSetattr) 0) by (destruct Hg as [->| ->]; [exact (rel_atom _ (AGlob GSetattr) 0 c' C)|exact (rel_atom _ (AGlob GSetattr) 1 c' C)]). subst c'.
    exists l, e1, m1, t, y3. rewrite <- app_assoc. cbn [app]. auto 10.
  Qed.

  Definition P_same (m : vm) (m' : vm) : Prop := stk m' = stk m /\ meta m' = meta m.

  Lemma exec_pp_ok p L' e0 h0 P0 s e m (I : key -> Prop) : sync s e m -> (forall k, I k -> Ik (post s) k) ->
    Sim X0 I (L' ++ [p]) e0 h0 P0 e (heap m) (post s) ->
    forall ops s', exec_pp proto H sv p s = Ok (ops, s') ->
    exists e' m', run ops m = Some m' /\ sync s' e' m' /\ Sim X0 I L' e0 h0 P0 e' (heap m') (post s') /\
                  (forall x, In x e -> In x e') /\ P_same m m'.
  Proof.
    intros S HI Si ops s' E.
    assert (Hr : ready H e (hidn X0 (length h0) (heap m)) p).
    { apply readyX0. pose proof (s_extra Si) as F. rewrite Forall_forall in F. apply F. apply in_app_iff. right; left; auto. }
    destruct p as [c|f|t]; cbn [exec_pp] in E.
    - (* a cell *)
      destruct Hr as (a & v & w & Ha & Hc & (Hw & _ & La)). rewrite Hc in E.
      destruct (exec_setattr_ok (g_ GSetattr) c "cell_contents" v s e m I a (or_introl eq_refl) S HI Ha _ _ E)
        as (l & e1 & m1 & t & v' & -> & R1 & S1 & Si1 & A & B & C & D).
      pose proof (Sim0_heap _ _ _ _ _ _ _ _ _ _ _ Si1 Hw) as Hw1. pose proof (s_env Si1 _ Ha) as Ha1.
      exists e1, (set_heap (upd (heap m1) a (OCell (Some v'))) (set_stk (stk m) m1)).
      split; [|split; [|split; [|split]]].
      + rewrite (run_app _ _ _ _ R1). cbn [run step]. rewrite A, C. cbn [call heap set_stk]. rewrite Hw1. reflexivity.
      + eapply sync_vm; [exact S1|reflexivity|cbn; rewrite upd_length; auto|cbn]. eapply kind_upd; eauto.
      + cbn [heap set_heap]. pose proof (nth_lt _ _ _ Hw1) as Ll. eapply Sim_complete with (p := PSetCell c) (f := c); eauto.
        * eapply Sim_trans; eauto.
        * apply (sy_env _ _ _ _ S1).
        * exists (OCell (Some v)), (OCell (Some v')). split; auto. split; [split; [apply nth_upd_same; auto|split; auto]|exact D].
        * intros q Hq K. destruct q; cbn in Hq, K; subst.
          -- exists a, v, (Some v'). split; auto. split; auto. split; [apply nth_upd_same; auto|split; auto].
          -- destruct K as (? & ? & ? & ? & ? & ? & ? & ? & K & _). congruence.
          -- destruct K as (? & ? & ? & ? & ? & K). congruence.
      + apply (s_env Si1).
      + split; cbn; auto.
    - (* the globals of a function *)
      destruct Hr as (a & g & co & g0 & mo & n & de & cl & st & kvs & co' & mo' & n' & de' & cl' & st' & d & A).
      destruct A as (Ha & Hg & Hf & Hk & (Hfa & _ & La) & (Hgd & _ & Lg) & V1 & V2 & V3 & V4 & V5 & V6 & V7).
      unfold glob_items in E. rewrite Hf, Hk in E.
      assert (Kd : keys_distinct kvs) by (apply (proj1 (HW _ _ Hk))).
      assert (FIN : forall e1 h1 P1 d1, Renv e1 f a -> Genv e1 f g -> (forall o x, Renv e o x -> Renv e1 o x) ->
                nth_error h1 a = Some (OFun co' (GCopy g mo') n' de' cl' st') -> nth_error h1 g = Some (ODict d1) ->
                Forall2 (item_rel (Renv e1)) (globals_copy mo kvs) d1 -> env_ok e1 h1 P1 ->
                complete H e1 (hidn X0 (length h0) h1) f a /\
                (forall q, tgt q = f -> kind_ok H q -> ready H e1 (hidn X0 (length h0) h1) q)).
      { intros e1 h1 P1 d1 Ha1 Hg1 HRR Hfa1 Hgd1 F1 E1.
        assert (W1 : forall v w, val_rel (Renv e) v w -> val_rel (Renv e1) v w) by (intros v w; apply val_rel_mono; auto).
        assert (W2 : state_rel (Renv e1) st st') by (eapply state_rel_mono; [|exact V6]; auto).
        split.
        - exists (OFun co (GCopy g0 mo) n de cl st), (OFun co' (GCopy g mo') n' de' cl' st'). split; auto.
          split; [split; auto|]. cbn. split; auto. split.
          + split; auto. split; auto. exists kvs, d1. split; auto. split; [split; auto|]. auto.
          + auto.
        - intros q Hq K. destruct q; cbn in Hq, K; subst.
          + destruct K as (? & K). congruence.
          + exists a, g, co, g0, mo, n, de, cl, st, kvs, co', mo', n', de', cl', st', d1.
            split; auto. split; auto. split; auto. split; auto. split; [split; auto|]. split; [split; auto|]. auto 10.
          + destruct K as (? & ? & ? & ? & ? & K). congruence. }
      destruct kvs as [|kv0 kvs0] eqn:Ek.
      + inversion E; subst. exists e, m. split; auto. split; auto. split; [|split; [auto|split; auto]].
        assert (F1 : Forall2 (item_rel (Renv e)) (globals_copy mo []) d) by (destruct V7; auto).
        destruct (FIN e (heap m) (post s') d Ha Hg (fun _ _ x => x) Hfa Hgd F1 (sy_env _ _ _ _ S)) as [HC HR].
        apply (Sim_finish H X0 I (L' ++ [PSetItems f]) L'); [| | | | |exact Si].
        * intros x [].
        * intros q Hq. apply in_app_iff. auto.
        * intros o x [].
        * intros o x q [].
        * intros q o x Hq Hn Hq' Ho. apply in_app_iff in Hq as [Hq|[<-|[]]]; [contradiction|].
          cbn in Hq'. subst o. assert (x = a) by (eapply env_Rfun; [apply (sy_env _ _ _ _ S)| |]; eauto). subst x. auto.
      + rewrite <- Ek in *. clear Ek kv0 kvs0.
        destruct (memo_get (KGlob f) s) as [i|] eqn:Em; [|discriminate].
        destruct (memo_get_some _ _ _ _ _ _ S Em) as (v & Hv & Eg & _).
        assert (v = VR g) by (eapply (ek_fun _ _ _ _ (sy_env _ _ _ _ S)); [|exact Hv|exact Hg]; discriminate). subst v.
        set (m1 := push (VR g) m).
        assert (S1 : sync s e m1) by (eapply sync_stk; eauto).
        assert (Hga : g <> a) by (intros ->; pose proof (ek_inj _ _ _ _ (sy_env _ _ _ _ S) _ _ _ Ha Hg); discriminate).
        unfold seq at 1, emit at 1 in E. unfold seq at 1, emit in E.
        destruct (batch_setitems proto sv kvs s) as [[l2 s2]|] eqn:E2; [|discriminate]. inversion E; subst ops s'.
        set (base := [(sNAME, mo); (sBUILTINS, vBUILTINS)]) in *.
        set (d0 := if Nat.eqb 0 0 then base else base).
        assert (exists d0, Forall2 (item_rel (Renv e)) d0 d /\ setitems d0 kvs = globals_copy mo kvs) as (dd & Fd & Ed).
        { destruct V7 as [V7|V7]; [exists base|exists (globals_copy mo kvs)]; split; auto. unfold globals_copy. now apply setitems_twice. }
        assert (HT : T_dict ODict g (stk m) (meta m) I dd [] s e m1).
        { split; auto. split; auto. split; auto. exists d. split; auto. }
        destruct (batch_setitems_ok proto H sv SV ODict g (stk m) (meta m) I dd kvs s e m1 dict_like_dict S1 HT _ _ E2)
          as (e2 & m2 & R2 & S2 & Si2 & A2 & B2 & _ & d2 & C2 & D2).
        rewrite Ed in D2. cbn [heap push m1] in Si2.
        exists e2, (set_stk (stk m) m2).
        pose proof (heap_eq _ _ _ _ _ _ _ _ _ _ Si2 a _ (not_eq_sym Hga) Hfa) as Hfa2.
        destruct (FIN e2 (heap m2) (post s2) d2 (s_env Si2 _ Ha) (s_env Si2 _ Hg) (fun o x => s_env Si2 _) Hfa2 C2 D2 (sy_env _ _ _ _ S2)) as [HC HR].
        split; [|split; [|split; [|split]]].
        * cbn [run step]. rewrite Eg. change (run (l2 ++ [POP]) m1 = Some (set_stk (stk m) m2)).
          rewrite (run_app _ _ _ _ R2). cbn [run step]. rewrite A2. reflexivity.
        * eapply sync_stk; eauto.
        * cbn [heap set_stk].
          set (X := fun x => x = a \/ x = g).
          assert (Sx : Sim X I (L' ++ [PSetItems f]) e0 h0 P0 e (heap m) (post s)).
          { eapply Sim_exempt with (f := f); [| | | |exact Si].
            - intros x o [->| ->] Ho.
              + eapply env_Rinj; [apply (sy_env _ _ _ _ S)|exact Ho|exact Ha].
              + pose proof (ek_inj _ _ _ _ (sy_env _ _ _ _ S) _ _ _ Hg Ho). discriminate.
            - intros x o [->| ->] Ho.
              + pose proof (ek_inj _ _ _ _ (sy_env _ _ _ _ S) _ _ _ Ha Ho). discriminate.
              + pose proof (ek_inj _ _ _ _ (sy_env _ _ _ _ S) _ _ _ Hg Ho) as Eo. congruence.
            - intros x Hx. left. eapply env_Rfun; [apply (sy_env _ _ _ _ S)| |]; eauto.
            - intros x [->| ->]; auto. }
          assert (Sy : Sim X I (L' ++ [PSetItems f]) e0 h0 P0 e2 (heap m2) (post s2)).
          { eapply Sim_trans; [exact Sx|]. eapply Sim_weaken; [| |exact Si2].
            - intros x [->| ->]; [eapply nth_lt; exact Hfa|eapply nth_lt; exact Hgd].
            - intros x <-. right; auto. }
          pose proof (sy_env _ _ _ _ S2) as E2'.
          assert (UX : forall o x, X x -> Renv e2 o x -> o = f /\ x = a).
          { intros o x [->| ->] Ho.
            - split; auto. eapply env_Rinj; [exact E2'|exact Ho|]. exact (s_env Si2 _ Ha).
            - pose proof (ek_inj _ _ _ _ E2' _ _ _ (s_env Si2 _ Hg) Ho). discriminate. }
          apply (Sim_finish H X I (L' ++ [PSetItems f]) L'); [| | | | |exact Sy].
          -- intros x [->| ->]; auto.
          -- intros q Hq. apply in_app_iff. auto.
          -- intros o x Xx Ho. destruct (UX o x Xx Ho); subst. auto.
          -- intros o x q Xx Ho. destruct (UX o x Xx Ho); subst. auto.
          -- intros q o x Hq Hn Hq' Ho. apply in_app_iff in Hq as [Hq|[<-|[]]]; [contradiction|].
             cbn in Hq'. subst o. assert (x = a) by (eapply env_Rfun; [exact E2'|exact Ho|exact (s_env Si2 _ Ha)]). subst x. auto.
        * apply (s_env Si2).
        * split; cbn; auto.
    - (* the qualified name of a class *)
      destruct Hr as (a & mt & n & bs & d & q & mt' & n' & bs' & d' & q' & Ha & Ht & (Hta & _ & La) & V1 & V2 & V3 & V4). rewrite Ht in E.
      destruct (exec_setattr_ok (VA (AGlob GSetattr) 1) t "__qualname__" q s e m I a (or_intror eq_refl) S HI Ha _ _ E)
        as (l & e1 & m1 & tt & v' & -> & R1 & S1 & Si1 & A & B & C & D).
      pose proof (Sim0_heap _ _ _ _ _ _ _ _ _ _ _ Si1 Hta) as Hw1. pose proof (s_env Si1 _ Ha) as Ha1.
      pose proof (nth_lt _ _ _ Hw1) as Ll.
      assert (W : forall v w, val_rel (Renv e) v w -> val_rel (Renv e1) v w) by (intros v w; eapply Sim_val; eauto).
      assert (W4 : Forall2 (item_rel (Renv e1)) d d') by (eapply Sim_items; eauto).
      exists e1, (set_heap (upd (heap m1) a (OType mt' n' bs' d' v')) (set_stk (stk m) m1)).
      split; [|split; [|split; [|split]]].
      + rewrite (run_app _ _ _ _ R1). cbn [run step]. rewrite A, C. cbn [call heap set_stk]. rewrite Hw1. reflexivity.
      + eapply sync_vm; [exact S1|reflexivity|cbn; rewrite upd_length; auto|cbn]. eapply kind_upd; eauto.
      + cbn [heap set_heap]. eapply Sim_complete with (p := PSetQual t) (f := t); eauto.
        * eapply Sim_trans; eauto.
        * apply (sy_env _ _ _ _ S1).
        * exists (OType mt n bs d q), (OType mt' n' bs' d' v'). split; auto. split; [split; [apply nth_upd_same; auto|split; auto]|]. cbn. auto.
        * intros q0 Hq K. destruct q0; cbn in Hq, K; subst.
          -- destruct K as (? & K). congruence.
          -- destruct K as (? & ? & ? & ? & ? & ? & ? & ? & K & _). congruence.
          -- exists a, mt, n, bs, d, q, mt', n', bs', d', v'. split; auto. split; auto. split; [split; [apply nth_upd_same; auto|split; auto]|]. auto.
      + apply (s_env Si1).
      + split; cbn; auto.
  Qed.

  Lemma exec_list_ok keep e0 h0 P0 L : forall s e m (I : key -> Prop), sync s e m -> (forall k, I k -> Ik (post s) k) ->
    Sim X0 I (keep ++ L) e0 h0 P0 e (heap m) (post s) ->
    forall ops s', seqs (exec_pp proto H sv) (rev L) s = Ok (ops, s') ->
    exists e' m', run ops m = Some m' /\ sync s' e' m' /\ Sim X0 I keep e0 h0 P0 e' (heap m') (post s') /\
                  (forall x, In x e -> In x e') /\ P_same m m'.
  Proof.
    induction L as [|p L IH] using rev_ind; intros s e m I S HI Si ops s' E.
    - cbn in E. inversion E; subst. rewrite app_nil_r in Si. exists e, m. repeat split; auto; try apply S; apply Si.
    - rewrite rev_app_distr in E. cbn [rev app seqs] in E. unfold seq in E.
      destruct (exec_pp proto H sv p s) as [[l1 s1]|] eqn:E1; [|discriminate].
      destruct (seqs (exec_pp proto H sv) (rev L) s1) as [[l2 s2]|] eqn:E2; [|discriminate]. inversion E; subst.
      rewrite app_assoc in Si.
      destruct (exec_pp_ok p (keep ++ L) e0 h0 P0 s e m I S HI Si _ _ E1) as (e1 & m1 & R1 & S1 & Si1 & X1 & [A1 B1]).
      assert (HI1 : forall k, I k -> Ik (post s1) k).
      { intros k Hk. specialize (HI k Hk). unfold Ik in *. rewrite (Sim_ids _ _ _ _ _ _ _ _ _ _ Si1). rewrite (Sim_ids _ _ _ _ _ _ _ _ _ _ Si) in HI. auto. }
      destruct (IH s1 e1 m1 I S1 HI1 Si1 _ _ E2) as (e2 & m2 & R2 & S2 & Si2 & X2 & [A2 B2]).
      exists e2, m2. split; [rewrite (run_app _ _ _ _ R1); auto|]. split; auto. split; auto. split; auto.
      split; congruence.
  Qed.

  (** ** _save_with_postproc *)
  Lemma Sim_pop I e h P o own e' h' P1 : Sim X0 I [] e h (P ++ [(o, own)]) e' h' P1 ->
    Forall (readyX H X0 (length h) e' h') own ->
    exists P' n, P1 = P' ++ [(o, own ++ n)] /\ Sim X0 I (own ++ n) e h P e' h' P'.
  Proof.
    intros S Fo. pose proof (s_post S) as F.
    apply Forall2_app_inv_l in F as (P' & Q & F1 & F2 & ->). inversion F2 as [|? [o' l] ? ? (A & n & B & C) F3]; subst. inversion F3; subst.
    cbn in A, B. subst o' l. exists P', n. split; auto. constructor; try apply S; auto.
    - apply Forall_app. split; auto.
    - intros o1 a Ho. destruct (s_cov S o1 a Ho) as [?|[?|[?|(q & [[]|(x & Hx & Hq)] & Ht & Hr)]]]; auto.
      right; right; right. exists q. split; auto. apply in_app_iff in Hx as [Hx|[<-|[]]]; [right; eauto|left; auto].
  Qed.

  Lemma get_last (P' : list (oid * list pp)) o l : ~ In o (map fst P') -> get o (P' ++ [(o, l)]) = Some l.
  Proof.
    induction P' as [|[y k] P' IH]; cbn; intros Hn; [now rewrite Nat.eqb_refl|].
    destruct (Nat.eqb_spec o y) as [->|]; [tauto|]. apply IH. tauto.
  Qed.
  Lemma del_last (P' : list (oid * list pp)) o l : ~ In o (map fst P') -> del o (P' ++ [(o, l)]) = P'.
  Proof.
    induction P' as [|[y k] P' IH]; cbn; intros Hn; [now rewrite Nat.eqb_refl|].
    destruct (Nat.eqb_spec o y) as [->|]; [tauto|]. cbn. f_equal. apply IH. tauto.
  Qed.

  Lemma postproc_ok keep o own red s e m : sync s e m -> is_proc H o ->
    (forall s1, sync s1 e m -> memo s1 = memo s -> post s1 = post s ++ [(o, own)] -> ~ In o (map fst (post s)) ->
       ok X0 (Ik (post s)) red s1 e m (fun s' e' m' => P_val (VR o) m s' e' m' /\
                                          Forall (readyX H X0 (length (heap m)) e' (heap m')) (keep ++ own))) ->
    forall ops s', save_with_postproc proto H sv o own red s = Ok (ops, s') ->
    exists e' m', run ops m = Some m' /\ sync s' e' m' /\
                  Sim X0 (Ik (post s)) keep e (heap m) (post s) e' (heap m') (post s') /\ P_val (VR o) m s' e' m'.
  Proof.
    intros S Hp HO ops s' E. unfold save_with_postproc in E.
    destruct (memb o (map fst (post s))) eqn:Em; [discriminate|].
    assert (Hn : ~ In o (map fst (post s))) by (intros Hi; apply memb_In in Hi; congruence).
    unfold seq at 1, push_post in E. set (s1 := {| memo := memo s; post := post s ++ [(o, own)] |}) in *.
    assert (S1 : sync s1 e m).
    { destruct S as [A B C]. constructor; auto. constructor; try apply C.
      intros f v Hf. cbn. rewrite map_app, in_app_iff. destruct (ek_gk _ _ _ _ C f v Hf); auto. }
    unfold seq in E. destruct (red s1) as [[l2 s2]|] eqn:E2; [|discriminate].
    destruct (HO s1 S1 eq_refl eq_refl Hn _ _ E2) as (e2 & m2 & R2 & S2 & Si2 & (vo & A2 & B2 & C2) & F2). cbn [post s1] in Si2.
    apply Forall_app in F2 as [Fk Fo].
    destruct (Sim_pop _ _ _ _ _ _ _ _ _ Si2 Fo) as (P' & n & EP & Si3).
    assert (Hn' : ~ In o (map fst P')) by (rewrite (Sim_ids _ _ _ _ _ _ _ _ _ _ Si3); auto).
    unfold pop_run in E. rewrite EP, get_last, del_last in E by auto.
    set (s3 := {| memo := memo s2; post := P' |}) in *.
    assert (S3 : sync s3 e2 m2).
    { destruct S2 as [A B C]. constructor; auto. constructor; try apply C.
      intros f v Hf. cbn. destruct (ek_gk _ _ _ _ C f v Hf) as [Hx|Hx]; auto. rewrite EP, map_app, in_app_iff in Hx.
      destruct Hx as [Hx|[Hx|[]]]; auto. cbn in Hx. subst f. left. destruct vo; cbn in C2; [tauto|]. eauto. }
    destruct (seqs (exec_pp proto H sv) (rev (own ++ n)) s3) as [[l4 s4]|] eqn:E4; [|discriminate]. inversion E; subst ops s'.
    assert (Si3' : Sim X0 (Ik (post s)) (keep ++ (own ++ n)) e (heap m) (post s) e2 (heap m2) (post s3)).
    { constructor; try apply Si3.
      - apply Forall_app. split; auto. apply Si3.
      - intros o1 a Ho. destruct (s_cov Si3 o1 a Ho) as [?|[?|[?|(q & Hq & Ht & Hr)]]]; auto.
        right; right; right. exists q. split; auto. destruct Hq; auto. left. apply in_app_iff; auto. }
    destruct (exec_list_ok keep e (heap m) (post s) (own ++ n) s3 e2 m2 (Ik (post s)) S3) with (ops := l4) (s' := s4) as (e4 & m4 & R4 & S4 & Si4 & X4 & [A4 B4]); auto.
    { intros k. unfold Ik, s3. cbn [post]. rewrite (Sim_ids _ _ _ _ _ _ _ _ _ _ Si3). auto. }
    exists e4, m4. split; [cbn [app]; rewrite (run_app _ _ _ _ R2); auto|]. split; auto. split; auto.
    exists vo. split; [congruence|]. split; [congruence|]. eapply val_rel_mono; [|exact C2]. intros o' a'. apply X4.
  Qed.

  Lemma Ik_app P o own k : Ik P k -> Ik (P ++ [(o, own)]) k.
  Proof. unfold Ik. rewrite map_app. destruct k; auto; intros; apply in_app_iff; auto. Qed.
  Lemma Ik_last P o own : Ik (P ++ [(o, own)]) (KObj o).
  Proof. cbn. rewrite map_app. apply in_app_iff. right; left; auto. Qed.

  (** after the arguments of a class or function are saved it is still not in the memo *)
  Lemma proc_new e h P o e' h' P' (I : key -> Prop) : Sim X0 I [] e h P e' h' P' -> is_proc H o ->
    I (KObj o) -> (forall v, ~ In (KObj o, v) e) -> env_ok e' h' P' -> forall v, ~ In (KObj o, v) e'.
  Proof.
    intros S Hp Hi Hn E v Hv. destruct (ek_obj _ _ _ _ E _ _ Hv) as (a & ->).
    destruct (s_kind S o a Hv) as [A|[A|A]]; [eapply Hn; eauto|contradiction|contradiction].
  Qed.

  Lemma own_post (F : pp -> Prop) P o own P' p :
    Forall2 (fun q q' : oid * list pp => fst q = fst q' /\ exists n, snd q' = snd q ++ n /\ Forall F n) (P ++ [(o, own)]) P' ->
    In p own -> exists x, In x P' /\ In p (snd x).
  Proof.
    intros F2 Hp. destruct (F2_in _ _ _ (o, own) p F2) as (y & A & _ & B); auto.
    - apply in_app_iff. right; left; auto.
    - eauto.
  Qed.

  (** ** classes *)
  Lemma type_red o mt n bs d q s e m : sync s e m -> H o = Some (OType mt n bs d q) -> (forall v, ~ In (KObj o, v) e) ->
    forall s1, sync s1 e m -> memo s1 = memo s -> post s1 = post s ++ [(o, [PSetQual o])] -> ~ In o (map fst (post s)) ->
    ok X0 (Ik (post s)) (save_reduce proto sv false (g_ GCreateType) [AV mt; AV n; AV bs; AD KAnon d] SNone (Some (KObj o))) s1 e m
      (fun s' e' m' => P_val (VR o) m s' e' m' /\ Forall (readyX H X0 (length (heap m)) e' (heap m')) ([] ++ [PSetQual o])).
  Proof.
    intros S Ho Hn s1 S1 Em1 Ep1 Hno.
    assert (Hp : is_proc H o) by (unfold is_proc; rewrite Ho; exact Logic.I).
    pose proof (proj1 (HW _ _ Ho)) as Wf. cbn in Wf.
    eapply ok_ext; [apply reduce_obj_eq|]. intros ops s' E.
    set (xs := [AV mt; AV n; AV bs; AD KAnon d]) in *.
    assert (OC : ok X0 (Ik (post s1)) (sv (g_ GCreateType) ;; save_tuple proto sv KAnon xs) s1 e m (P_call (g_ GCreateType) xs m)).
    { apply save_call_ok; auto.
      - intros k kvs [Hx|[Hx|[Hx|[Hx|[]]]]]; inversion Hx; subst. auto.
      - cbn. split; auto. intros; tauto. }
    unfold seq at 1 in E.
    destruct ((sv (g_ GCreateType) ;; save_tuple proto sv KAnon xs) s1) as [[l1 s2]|] eqn:E1; [|discriminate].
    destruct (OC _ _ E1) as (e1 & m1 & R1 & S2 & Si1 & t & c' & vs' & A & B & C & D & F).
    apply (rel_atom _ (AGlob GCreateType) 0) in C. subst c'.
    inversion F as [|? y1 ? ? G1 F1]; subst. inversion F1 as [|? y2 ? ? G2 F2]; subst. inversion F2 as [|? y3 ? ? G3 F3]; subst.
    inversion F3 as [|? y4 ? ? G4 F4]; subst. inversion F4; subst.
    unfold arg_rel in G1, G2, G3, G4. destruct G4 as (ad & d' & -> & Ld & _ & Hd & Fd).
    assert (Hv : forall v, ~ In (KObj o, v) e1).
    { eapply proc_new; [exact Si1|auto| |auto|apply (sy_env _ _ _ _ S2)]. rewrite Ep1. apply Ik_last. }
    assert (Em : memo_get (KObj o) s2 = None).
    { destruct (memo_cases H (KObj o) s2 e1 m1 S2 ltac:(discriminate)) as [(i & v & _ & Hx & _)|[Hx _]]; auto. exfalso; eapply Hv; eauto. }
    set (a := length (heap m1)).
    set (b1 := OType y1 y2 y3 d' y2). set (m2 := alloc b1 (set_stk (stk m) m1)).
    assert (R2 : run [REDUCE] m1 = Some m2).
    { cbn [run step]. rewrite A, D. cbn [call heap set_stk]. rewrite Hd. reflexivity. }
    assert (W : forall v w, val_rel (Renv e1) v w -> val_rel (Renv (e1 ++ [(KObj o, VR a)])) v w).
    { intros v w. apply val_rel_mono. intros o' a'. unfold Renv. rewrite in_app_iff. auto. }
    assert (W4 : Forall2 (item_rel (Renv (e1 ++ [(KObj o, VR a)]))) d d').
    { eapply items_mono; [|exact Fd]. intros o' a'. unfold Renv. rewrite in_app_iff. auto. }
    assert (Hr : forall nn, nn <= a -> ready H (e1 ++ [(KObj o, VR a)]) (hidn X0 nn (heap m1 ++ [b1])) (PSetQual o)).
    { intros nn Ln. exists a, mt, n, bs, d, q, y1, y2, y3, d', y2. split; [apply in_app_iff; right; left; auto|]. split; auto.
      split; [split; [apply nth_snoc|split; auto]|]. auto. }
    destruct (own_post _ _ _ _ _ (PSetQual o) ltac:(rewrite <- Ep1; exact (s_post Si1)) (or_introl eq_refl)) as (x & Hx & Hpx).
    assert (O : ok X0 (Ik (post s)) (finish_red proto REDUCE (KObj o) ;; save_state proto sv SNone) s2 e1 m1
               (fun s' e' m' => P_val (VR o) m s' e' m' /\ e' = e1 ++ [(KObj o, VR a)] /\ heap m' = heap m1 ++ [b1])).
    { eapply ok_seq with (Q := (fun s' e' m' => P_val (VR o) m s' e' m' /\ e' = e1 ++ [(KObj o, VR a)] /\ heap m' = heap m1 ++ [b1])).
      - eapply ok_ext with (B := emit [REDUCE] ;; memoize proto (KObj o)).
        { unfold finish_red, seq, emit. rewrite Em. reflexivity. }
        eapply ok_new; [exact S2|exact R2|reflexivity|reflexivity| | |].
        + cbn [heap alloc m2 set_stk]. eapply env_ok_alloc with (I := Ik (post s)); [apply (sy_env _ _ _ _ S2)| |].
          * split; auto. split; intros; discriminate.
          * intros o' Eo. inversion Eo; subst. exists (OType mt n bs d q). auto.
        + cbn [heap alloc m2 set_stk]. apply Sim_new.
          * rewrite app_length; lia.
          * intros a' b' Eb _. rewrite nth_app_l; auto. eapply nth_lt; eauto.
          * intros o' a' Eo Ea. inversion Eo; inversion Ea; subst o' a'. right; right. exists (PSetQual o), x.
            split; auto. split; auto. split; auto. right. apply Hr. auto.
          * intros o' Eo. inversion Eo; subst. right. exact Hno.
          * intros; discriminate.
          * intros a' Ea. inversion Ea; auto.
        + intros s3 m3 Ep3 S3 A3 B3 C3. split.
          * exists (VR a). split; auto. split; [rewrite B3; auto|]. cbn. apply in_app_iff; right; left; auto.
          * auto.
      - intros s3 e3 m3 S3 _ Q3. apply ok_nil; auto. }
    destruct ((finish_red proto REDUCE (KObj o) ;; save_state proto sv SNone) s2) as [[l3 s3]|] eqn:E3; [|discriminate]. inversion E; subst ops s'.
    destruct (O _ _ E3) as (e3 & m3 & R3 & S3 & Si3 & Q3 & -> & Hh3).
    exists (e1 ++ [(KObj o, VR a)]), m3. split; [rewrite (run_app _ _ _ _ R1); auto|]. split; auto. split.
    - eapply Sim_trans; [|exact Si3]. eapply Sim_I; [|exact Si1]. intros k Hk. rewrite Ep1. now apply Ik_app.
    - split; auto. cbn [app]. constructor; [|constructor]. right. rewrite Hh3. apply Hr. apply (s_len Si1).
  Qed.
  Lemma save_type_ok o mt n bs d q s e m : sync s e m -> H o = Some (OType mt n bs d q) -> (forall v, ~ In (KObj o, v) e) ->
    ok X0 (Ik (post s)) (save_type proto H sv o mt n bs d) s e m (P_val (VR o) m).
  Proof.
    intros S Ho Hn.
    assert (Hp : is_proc H o) by (unfold is_proc; rewrite Ho; exact Logic.I).
    unfold save_type. intros ops s' E.
    apply (postproc_ok [] o [PSetQual o] _ s e m S Hp) in E; auto. eapply type_red; eauto.
  Qed.

  (** ** functions *)
  Lemma fun_ref_red o co ga n de cl st s e m : sync s e m -> H o = Some (OFun co (GRef ga) n de cl st) -> (forall v, ~ In (KObj o, v) e) ->
    forall s1, sync s1 e m -> memo s1 = memo s -> post s1 = post s ++ [(o, [])] -> ~ In o (map fst (post s)) ->
    ok X0 (Ik (post s)) (save_reduce proto sv false (g_ GCreateFunction) [AV co; AV (VA ga 0); AV n; AV de; AV cl] st (Some (KObj o))) s1 e m
      (fun s' e' m' => P_val (VR o) m s' e' m' /\ Forall (readyX H X0 (length (heap m)) e' (heap m')) ([] ++ [])).
  Proof.
    intros S Ho Hn s1 S1 Em1 Ep1 Hno.
    assert (Hp : is_proc H o) by (unfold is_proc; rewrite Ho; exact Logic.I).
    pose proof (proj1 (HW _ _ Ho)) as [_ Ws].
    assert (Wst : state_wf H st) by (destruct st as [| |dd [sl|]]; cbn in *; tauto).
    eapply ok_ext; [apply reduce_obj_eq|].
    eapply ok_conseq with (Q := P_val (VR o) m); [|intros; split; auto; constructor].
    set (xs := [AV co; AV (VA ga 0); AV n; AV de; AV cl]) in *.
    assert (OC : ok X0 (Ik (post s1)) (sv (g_ GCreateFunction) ;; save_tuple proto sv KAnon xs) s1 e m (P_call (g_ GCreateFunction) xs m)).
    { apply save_call_ok; auto; [apply avs_new; avs|apply avs_once; avs]. }
    assert (HI1 : forall k, Ik (post s) k -> Ik (post s1) k) by (intros k Hk; rewrite Ep1; now apply Ik_app).
    intros ops s' E. unfold seq at 1 in E.
    destruct ((sv (g_ GCreateFunction) ;; save_tuple proto sv KAnon xs) s1) as [[l1 s2]|] eqn:E1; [|discriminate].
    destruct (OC _ _ E1) as (e1 & m1 & R1 & S2 & Si1 & t & c' & vs' & A & B & C & D & F).
    apply (rel_atom _ (AGlob GCreateFunction) 0) in C. subst c'.
    inversion F as [|? y1 ? ? G1 F1]; subst. inversion F1 as [|? y2 ? ? G2 F2]; subst. inversion F2 as [|? y3 ? ? G3 F3]; subst.
    inversion F3 as [|? y4 ? ? G4 F4]; subst. inversion F4 as [|? y5 ? ? G5 F5]; subst. inversion F5; subst.
    unfold arg_rel in G1, G2, G3, G4, G5. apply (rel_atom _ ga 0) in G2. subst y2.
    assert (Hv : forall v, ~ In (KObj o, v) e1).
    { eapply proc_new; [exact Si1|auto| |auto|apply (sy_env _ _ _ _ S2)]. rewrite Ep1. apply Ik_last. }
    assert (Em : memo_get (KObj o) s2 = None).
    { destruct (memo_cases H (KObj o) s2 e1 m1 S2 ltac:(discriminate)) as [(i & v & _ & Hx & _)|[Hx _]]; auto. exfalso; eapply Hv; eauto. }
    set (a := length (heap m1)).
    set (b1 := OFun y1 (GRef ga) y3 y4 y5 SNone). set (m2 := alloc b1 (set_stk (stk m) m1)).
    assert (R2 : run [REDUCE] m1 = Some m2).
    { cbn [run step]. rewrite A, D. reflexivity. }
    assert (O : ok (eq a) (Ik (post s)) (finish_red proto REDUCE (KObj o) ;; save_state proto sv st) s2 e1 m1
                (fun s' e' m' => stk m' = VR a :: stk m /\ meta m' = meta m /\ Renv e' o a /\
                   exists st', nth_error (heap m') a = Some (set_state b1 st') /\ state_rel (Renv e') st st')).
    { eapply ok_seq with (Q := fun s' e' m' => stk m' = VR a :: stk m /\ meta m' = meta m /\ Renv e' o a /\ nth_error (heap m') a = Some b1).
      - eapply ok_ext with (B := emit [REDUCE] ;; memoize proto (KObj o)).
        { unfold finish_red, seq, emit. rewrite Em. reflexivity. }
        eapply ok_new; [exact S2|exact R2|reflexivity|reflexivity| | |].
        + cbn [heap alloc m2 set_stk]. eapply env_ok_alloc with (I := Ik (post s)); [apply (sy_env _ _ _ _ S2)| |].
          * split; auto. split; intros; discriminate.
          * intros o' Eo. inversion Eo; subst. exists (OFun co (GRef ga) n de cl st). auto.
        + cbn [heap alloc m2 set_stk]. apply Sim_alloc.
          * intros x; split; auto.
          * intros o' Eo. inversion Eo; subst. right. exact Hno.
          * intros; discriminate.
        + intros s3 m3 Ep3 S3 A3 B3 C3. split; auto. split; [rewrite B3; auto|]. split; [apply in_app_iff; right; left; auto|].
          rewrite C3. cbn. apply nth_snoc.
      - intros s3 e3 m3 S3 Si3 (A3 & B3 & C3 & D3).
        eapply ok_conseq; [eapply save_state_ok with (b := b1); eauto|].
        + eapply Sim_inI; [exact Si3|]. eapply Sim_inI; [exact Si1|]. auto.
        + exact Logic.I.
        + intros s4 e4 m4 S4 Si4 (A4 & B4 & C4). rewrite A4, B4. repeat split; auto. apply (s_env Si4); auto. }
    destruct ((finish_red proto REDUCE (KObj o) ;; save_state proto sv st) s2) as [[l3 s3]|] eqn:E3; [|discriminate]. inversion E; subst ops s'.
    destruct (O _ _ E3) as (e3 & m3 & R3 & S3 & Si3 & A3 & B3 & C3 & st' & D3 & F3').
    exists e3, m3. split; [rewrite (run_app _ _ _ _ R1); auto|]. split; auto. split.
    - apply Sim_done with (a := a) (k := KObj o); auto.
      + apply (s_len Si1).
      + apply (sy_env _ _ _ _ S3).
      + intros o' Eo. inversion Eo; subst o'. exists (OFun co (GRef ga) n de cl st), (set_state b1 st'). split; auto. split.
        * split; auto. split; auto. apply (s_len Si1).
        * cbn. split; [eapply Sim_val; eauto|]. split; auto. split; [eapply Sim_val; eauto|]. split; [eapply Sim_val; eauto|].
          split; [eapply Sim_val; eauto|]. auto.
      + intros p o' Eo Ht K. inversion Eo; subst o'. destruct p; cbn in *; subst.
        * destruct K as (? & K). congruence.
        * destruct K as (? & ? & ? & ? & ? & ? & ? & ? & K & _). congruence.
        * destruct K as (? & ? & ? & ? & ? & K). congruence.
      + eapply Sim_trans; [|exact Si3]. eapply Sim_exempt_new; eauto; [apply (sy_env _ _ _ _ S2)|].
        eapply Sim_I; [|exact Si1]. auto.
    - exists (VR a). auto.
  Qed.

  Lemma fun_ref_ok o co ga n de cl st s e m : sync s e m -> H o = Some (OFun co (GRef ga) n de cl st) -> (forall v, ~ In (KObj o, v) e) ->
    ok X0 (Ik (post s)) (save_function proto H sv o co (GRef ga) n de cl st) s e m (P_val (VR o) m).
  Proof.
    intros S Ho Hn.
    assert (Hp : is_proc H o) by (unfold is_proc; rewrite Ho; exact Logic.I).
    unfold save_function. intros ops s' E.
    apply (postproc_ok [] o [] _ s e m S Hp) in E; auto. eapply fun_ref_red; eauto.
  Qed.

  Lemma fun_copy_red o co g0 mo n de cl st kvs P own s1 e m :
    H o = Some (OFun co (GCopy g0 mo) n de cl st) -> H g0 = Some (ODict kvs) ->
    (forall v, ~ In (KObj o, v) e) -> ~ In o (map fst P) ->
    sync s1 e m -> post s1 = P ++ [(o, own)] -> (forall f v, In (KGlob f, v) e -> f <> o) ->
    (exists y, In y (post s1) /\ In (PSetItems o) (snd y)) ->
    ok X0 (Ik P) (save_reduce proto sv false (g_ GCreateFunction)
                [AV co; AD (KGlob o) [(sNAME, mo)]; AV n; AV de; AV cl] st (Some (KObj o))) s1 e m
      (fun s' e' m' => P_val (VR o) m s' e' m' /\ readyX H X0 (length (heap m)) e' (heap m') (PSetItems o)).
  Proof.
    intros Ho Hk Hn Hno S1 Ep1 HG Hown.
    assert (Hp : is_proc H o) by (unfold is_proc; rewrite Ho; exact Logic.I).
    pose proof (proj1 (HW _ _ Ho)) as [_ Ws]. 
    assert (Wst : state_wf H st) by (destruct st as [| |dd [sl|]]; cbn in *; tauto).
    eapply ok_ext; [apply reduce_obj_eq|].
    set (xs := [AV co; AD (KGlob o) [(sNAME, mo)]; AV n; AV de; AV cl]) in *.
    set (I1 := fun k => Ik (post s1) k /\ k <> KGlob o).
    assert (OC : ok X0 I1 (sv (g_ GCreateFunction) ;; save_tuple proto sv KAnon xs) s1 e m (P_call (g_ GCreateFunction) xs m)).
    { apply save_call_ok; auto.
      - intros k [Hk' _]. auto.
      - intros k kvs' [Hx|[Hx|[Hx|[Hx|[Hx|[]]]]]]; inversion Hx; subst. split; [cbn; tauto|]. right. exists o. split; auto.
        split; [rewrite Ep1, map_app, in_app_iff; right; left; auto|]. split; [intros [_ Hx']; congruence|].
        intros v Hv. eapply HG; eauto.
      - cbn. split; auto. intros _ k' kvs' [Hx|[Hx|[Hx|[]]]]; inversion Hx. }
    assert (HI1 : forall k, Ik P k -> I1 k).
    { intros k Hk'. split; [rewrite Ep1; now apply Ik_app|]. intros ->. apply Hno. exact Hk'. }
    intros ops s' E. unfold seq at 1 in E.
    destruct ((sv (g_ GCreateFunction) ;; save_tuple proto sv KAnon xs) s1) as [[l1 s2]|] eqn:E1; [|discriminate].
    destruct (OC _ _ E1) as (e1 & m1 & R1 & S2 & Si1 & t & c' & vs' & A & B & C & D & F).
    apply (rel_atom _ (AGlob GCreateFunction) 0) in C. subst c'.
    inversion F as [|? y1 ? ? G1 F1]; subst. inversion F1 as [|? y2 ? ? G2 F2]; subst. inversion F2 as [|? y3 ? ? G3 F3]; subst.
    inversion F3 as [|? y4 ? ? G4 F4]; subst. inversion F4 as [|? y5 ? ? G5 F5]; subst. inversion F5; subst.
    unfold arg_rel in G1, G2, G3, G4, G5. destruct G2 as (g & d' & -> & Lg & Hgg & Hgd & Fd).
    inversion Fd as [|? [k1 mo'] ? ? [K1 K2] Fd']; subst. inversion Fd'; subst. cbn [fst snd] in K1, K2.
    apply (rel_atom _ (AStr "__name__") 0) in K1. subst k1.
    assert (Hv : forall v, ~ In (KObj o, v) e1).
    { eapply proc_new; [exact Si1|auto| |auto|apply (sy_env _ _ _ _ S2)]. split; [rewrite Ep1; apply Ik_last|discriminate]. }
    assert (Em : memo_get (KObj o) s2 = None).
    { destruct (memo_cases H (KObj o) s2 e1 m1 S2 ltac:(discriminate)) as [(i & v & _ & Hx & _)|[Hx _]]; auto. exfalso; eapply Hv; eauto. }
    pose proof (sy_env _ _ _ _ S2) as EV2. pose proof (nth_lt _ _ _ Hgd) as Lgm.
    set (a := length (heap m1)). assert (Hga : g <> a) by (unfold a; lia).
    set (b1 := OFun y1 (GCopy g mo') y3 y4 y5 SNone).
    set (db := [(sNAME, mo'); (sBUILTINS, vBUILTINS)]).
    set (h2 := upd (heap m1) g (ODict db)).
    set (m2 := alloc b1 (set_heap h2 (set_stk (stk m) m1))).
    assert (Lh2 : length h2 = a) by (unfold h2; apply upd_length).
    assert (R2 : run [REDUCE] m1 = Some m2).
    { cbn [run step]. rewrite A, D. cbn [call heap set_stk]. rewrite Hgd. reflexivity. }
    set (X := fun x => x = a \/ x = g).
    set (e2 := e1 ++ [(KObj o, VR a)]).
    assert (He2 : forall x, In x e1 -> In x e2) by (intros x Hx; apply in_app_iff; auto).
    assert (EVn : env_ok e2 (h2 ++ [b1]) (post s2)).
    { unfold e2. rewrite <- Lh2. eapply env_ok_alloc with (I := Ik P).
      - eapply env_ok_heap; [exact EV2|unfold h2; rewrite upd_length; auto|]. eapply kind_upd; eauto.
      - split; auto. split; intros; discriminate.
      - intros o' Eo. inversion Eo; subst. eexists. split; [exact Ho|reflexivity]. }
    assert (Sx : Sim X (Ik P) [] e (heap m) (post s1) e1 (heap m1) (post s2)).
    { eapply Sim_exempt with (f := o); [| | | |eapply Sim_I; [exact HI1|exact Si1]].
      - intros x o' [->| ->] Hx.
        + apply (ek_dom _ _ _ _ EV2) in Hx. unfold a in Hx. lia.
        + pose proof (ek_inj _ _ _ _ EV2 _ _ _ Hgg Hx). discriminate.
      - intros x o' [->| ->] Hx.
        + apply (ek_dom _ _ _ _ EV2) in Hx. unfold a in Hx. lia.
        + pose proof (ek_inj _ _ _ _ EV2 _ _ _ Hgg Hx). congruence.
      - intros x Hx. exfalso. eapply Hv; eauto.
      - intros x [->| ->]; [apply (s_len Si1)|auto]. }
    assert (Sn : Sim X (Ik P) [] e1 (heap m1) (post s2) e2 (h2 ++ [b1]) (post s2)).
    { apply Sim_new.
      - rewrite app_length. lia.
      - intros x b Hx Nx. rewrite nth_app_l by (apply nth_lt in Hx; fold a in Hx; lia).
        unfold h2. rewrite nth_upd_other; auto. intros ->. apply Nx. right; auto.
      - intros o' x Eo Ex. inversion Ex; subst x. left. left. auto.
      - intros o' Eo. inversion Eo; subst. right. exact Hno.
      - intros; discriminate.
      - intros x Ex. inversion Ex; auto. }
    assert (O : ok X (Ik P) (emit [REDUCE] ;; memoize proto (KObj o)) s2 e1 m1
               (fun s' e' m' => post s' = post s2 /\ e' = e2 /\ stk m' = VR a :: stk m /\ meta m' = meta m /\ heap m' = h2 ++ [b1])).
    { eapply ok_new; [exact S2|exact R2|reflexivity|cbn [stk alloc m2 set_heap heap]; rewrite Lh2; reflexivity|exact EVn|exact Sn|].
      intros s3 m3 Ep3 S3 A3 B3 C3. split; auto. split; auto. split; auto. split; [rewrite B3; auto|]. rewrite C3. reflexivity. }
    unfold seq at 1 in E.
    assert (Ef : finish_red proto REDUCE (KObj o) s2 = (emit [REDUCE] ;; memoize proto (KObj o)) s2).
    { unfold finish_red, seq, emit. rewrite Em. reflexivity. }
    rewrite Ef in E. destruct ((emit [REDUCE] ;; memoize proto (KObj o)) s2) as [[l3 s3]|] eqn:E3; [|discriminate].
    destruct (O _ _ E3) as (e3 & m3 & R3 & S3 & Si3 & Ep3 & -> & A3 & B3 & C3).
    assert (D3 : nth_error (heap m3) a = Some b1) by (rewrite C3, <- Lh2; apply nth_snoc).
    assert (D3g : nth_error (heap m3) g = Some (ODict db)).
    { rewrite C3, nth_app_l by (rewrite Lh2; unfold a; lia). unfold h2. now apply nth_upd_same. }
    assert (HI3 : forall k, Ik P k -> Ik (post s3) k).
    { intros k Hk'. rewrite Ep3. unfold Ik. rewrite (Sim_ids _ _ _ _ _ _ _ _ _ _ Si1), Ep1. now apply Ik_app. }
    assert (OS := save_state_ok proto H sv SV st a (stk m) b1 s3 e2 m3 (Ik P) S3 HI3 Wst A3 D3 Logic.I eq_refl).
    destruct (save_state proto sv st s3) as [[l4 s4]|] eqn:E4; [|discriminate]. inversion E; subst ops s'.
    destruct (OS _ _ E4) as (e4 & m4 & R4 & S4 & Si4 & A4 & B4 & st' & D4 & F4').
    pose proof (heap_eq _ _ _ _ _ _ _ _ _ _ Si4 g _ Hga D3g) as D4g.
    assert (Hoa : Renv e4 o a) by (apply (s_env Si4); apply in_app_iff; right; left; auto).
    assert (Hog : Genv e4 o g) by (apply (s_env Si4); apply He2; exact Hgg).
    assert (W : forall v w, val_rel (Renv e1) v w -> val_rel (Renv e4) v w).
    { intros v w. apply val_rel_mono. intros o' x Hx. apply (s_env Si4). apply He2. exact Hx. }
    assert (La : length (heap m) <= a) by apply (s_len Si1).
    assert (Hr : ready H e4 (hidn X0 (length (heap m)) (heap m4)) (PSetItems o)).
    { exists a, g, co, g0, mo, n, de, cl, st, kvs, y1, mo', y3, y4, y5, st', db.
      split; auto. split; auto. split; auto. split; auto. split; [split; [exact D4|split; auto]|]. split; [split; auto|].
      split; auto. split; auto. split; auto. split; auto. split; auto. split; auto. left.
      constructor; [split; [cbn; auto|cbn [snd]; auto]|]. constructor; [split; cbn; auto|constructor]. }
    assert (Sz : Sim X (Ik P) [] e (heap m) (post s1) e4 (heap m4) (post s4)).
    { eapply Sim_trans; [exact Sx|]. eapply Sim_trans; [exact Si3|]. eapply Sim_weaken; [| |exact Si4].
      - intros x [->| ->]; eapply nth_lt; eauto.
      - intros x <-. left; auto. }
    pose proof (sy_env _ _ _ _ S4) as EV4.
    assert (UX : forall o' x, X x -> Renv e4 o' x -> o' = o).
    { intros o' x [->| ->] Hx.
      - eapply env_Rinj; [exact EV4|exact Hx|exact Hoa].
      - pose proof (ek_inj _ _ _ _ EV4 _ _ _ Hog Hx). discriminate. }
    destruct Hown as (y & Hy & Hpy). destruct (F2_in _ _ _ _ _ (s_post Sz) Hy Hpy) as (z & Hz & _ & Hpz).
    exists e4, m4. split.
    { rewrite (run_app _ _ _ _ R1). rewrite (run_app _ _ _ _ R3). auto. }
    split; auto. split.
    - apply (Sim_finish H X (Ik P) [] []); [| | | | |exact Sz].
      + intros x [->| ->]; auto.
      + auto.
      + intros o' x Xx Hx. assert (o' = o) by eauto. subst o'. right; right. exists (PSetItems o). split; [right; eauto|]. auto.
      + intros o' x q Xx Hx Ht K. assert (Eo : o' = o) by eauto. rewrite Eo in Ht. destruct q; cbn in Ht, K; rewrite Ht in *; auto.
        * destruct K as (? & K). congruence.
        * destruct K as (? & ? & ? & ? & ? & K). congruence.
      + intros q o' x [].
    - split.
      + exists (VR a). split; [congruence|]. split; [congruence|]. exact Hoa.
      + right. exact Hr.
  Qed.

  Lemma first_in_ids vals P x : first_in vals P = Some x -> In x (map fst P).
  Proof.
    unfold first_in. destruct (find _ P) as [[y l]|] eqn:E; [|discriminate]. intros Ey; inversion Ey; subst.
    apply find_some in E as [A _]. apply in_map_iff. exists (x, l). auto.
  Qed.

  Lemma fun_copy_ok o co g0 mo n de cl st kvs s e m : sync s e m -> H o = Some (OFun co (GCopy g0 mo) n de cl st) ->
    H g0 = Some (ODict kvs) -> (forall v, ~ In (KObj o, v) e) ->
    ok X0 (Ik (post s)) (save_function proto H sv o co (GCopy g0 mo) n de cl st) s e m (P_val (VR o) m).
  Proof.
    intros S Ho Hk Hn.
    assert (Hp : is_proc H o) by (unfold is_proc; rewrite Ho; exact Logic.I).
    assert (HG : ~ In o (map fst (post s)) -> forall f v, In (KGlob f, v) e -> f <> o).
    { intros Hno f v Hv ->. destruct (ek_gk _ _ _ _ (sy_env _ _ _ _ S) _ _ Hv) as [(a & Ha)|Hx]; [eapply Hn; eauto|contradiction]. }
    unfold save_function. rewrite Hk. intros ops s' E. cbv zeta in E.
    destruct (first_in (map snd kvs) (post s)) as [x|] eqn:Ex.
    - pose proof (first_in_ids _ _ _ Ex) as Hx.
      unfold seq at 1, add_pp in E. set (sa := {| memo := memo s; post := append_pp x (PSetItems o) (post s) |}) in *.
      pose proof (sync_addpp H s e m x (PSetItems o) S) as Sa. fold sa in Sa.
      assert (Ei : map fst (post sa) = map fst (post s)) by (cbn; apply append_ids).
      destruct (save_with_postproc _ _ _ _ _ _ sa) as [[l1 s1]|] eqn:E1; [|discriminate]. inversion E; subst ops s'. cbn [app].
      apply (postproc_ok [PSetItems o] o [] _ sa e m Sa Hp) in E1.
      + destruct E1 as (e' & m' & R & S' & Si & Q). exists e', m'. split; auto. split; auto. split; auto.
        apply Sim_preadd with (x := x) (p := PSetItems o); auto.
        eapply Sim_I; [|exact Si]. intros k. unfold Ik. rewrite Ei. auto.
      + intros s2 S2 Em2 Ep2 Hno. rewrite Ei in Hno.
        eapply ok_conseq; [eapply fun_copy_red with (P := post sa) (own := []); eauto|].
        * rewrite Ei; auto.
        * rewrite Ep2. destruct (append_in x (PSetItems o) (post s) Hx) as (y & A & B).
          exists y. split; auto. apply in_app_iff. left. exact A.
        * intros s3 e3 m3 _ _ [A B]. split; auto. cbn [app]. auto.
    - rewrite seq_nil in E. apply (postproc_ok [] o [PSetItems o] _ s e m S Hp) in E; auto.
      intros s2 S2 Em2 Ep2 Hno.
      eapply ok_conseq; [eapply fun_copy_red with (P := post s) (own := [PSetItems o]); eauto|].
      + exists (o, [PSetItems o]). rewrite Ep2. split; [apply in_app_iff; right; left; auto|left; auto].
      + intros s3 e3 m3 _ _ [A B]. split; auto. cbn [app]. auto.
  Qed.

  (** ** the dispatch *)
  Hypothesis SN : sv_new H sv.
  Lemma save_val_ok : sv_ok H (save_val proto H sv).
  Proof.
    intros v s e m S. unfold save_val. destruct v as [a i|o]; [now apply save_atom_ok|].
    destruct (memo_cases H (KObj o) s e m S ltac:(discriminate)) as [(i & v & Em & Hv & Eg)|[Em Hv]].
    - destruct (ek_obj _ _ _ _ (sy_env _ _ _ _ S) _ _ Hv) as (a & ->).
      apply (ok_ext H _ _ _ (emit [GET i])); [rewrite Em; reflexivity|].
      apply ok_emit with (m' := push (VR a) m); auto.
      + cbn. rewrite Eg. reflexivity.
      + eapply sync_stk; eauto.
      + apply Sim_refl.
      + exists (VR a). auto.
    - destruct (H o) as [b|] eqn:Ho; [|intros ops s' E; rewrite Em in E; discriminate].
      pose proof (HW _ _ Ho) as [W Wo].
      apply (ok_ext H _ _ _ (save_obj proto H sv o b)); [rewrite Em; reflexivity|].
      destruct b as [vs|vs|kvs|nb c args li di st|co gl n de cl st|mt n bs d q|c|fz vs]; cbn [save_obj].
      + apply save_tuple_obj_ok; auto.
      + apply save_list_ok; auto.
      + apply save_dict_obj_ok; auto.
      + apply save_inst_ok; auto.
      + destruct gl as [ga|g mo]; [now apply fun_ref_ok|]. destruct W as [(kvs & Hk) _]. eapply fun_copy_ok; eauto.
      + eapply save_type_ok; eauto.
      + now apply save_cell_ok.
      + apply save_set_ok; auto.
  Qed.
  End Sv.

  Theorem save_ok fuel : sv_ok H (save proto H fuel).
  Proof.
    induction fuel as [|n IH]; [intros v s e m S ops s' E; discriminate|]. cbn [save]. apply save_val_ok; [exact IH|apply save_new].
  Qed.
End Main.
