(** The pickler's actions simulated by the unpickler: cells, deferred updates, classes and functions. *)
From Coq Require Import String List Bool Arith ZArith Lia.
From Verif Require Import PyDict CoreModel CoreSpec CoreSim CoreStep CoreReduce CoreObj.
Import ListNotations.
Local Open Scope string_scope.
Local Open Scope list_scope.

Lemma rel_atom (R : oid -> nat -> Prop) a i v' : val_rel R (VA a i) v' -> v' = VA a 0.
Proof. destruct v'; cbn; [intros [-> ->]; auto|tauto]. Qed.
Lemma rel_ref H e h P o a v' : env_ok H e h P -> Renv e o a -> val_rel (Renv e) (VR o) v' -> v' = VR a.
Proof. intros E A B. destruct v'; cbn in B; [tauto|]. f_equal. eapply env_Rfun; eauto. Qed.

Section Proc.
  Variable proto : nat.
  Variable H : oid -> option obj.
  Hypothesis HW : heap_wf H.
  Notation Sim := (Sim H).
  Notation sync := (sync H).
  Notation env_ok := (env_ok H).
  Notation ok := (ok H).
  Variable sv : val -> act.
  Hypothesis SV : sv_ok H sv.

  Lemma reduce_none_eq c xs s :
    save_reduce proto sv false c xs SNone None s = ((sv c ;; save_tuple proto sv KAnon xs) ;; emit [REDUCE]) s.
  Proof.
    unfold save_reduce, red_call, red_memo. rewrite !seq_assoc. cbn [save_state]. unfold seq, emit.
    destruct (sv c s) as [[? s1]|]; auto. destruct (save_tuple proto sv KAnon xs s1) as [[? s2]|]; auto.
    cbn. rewrite ?app_nil_r, <- ?app_assoc. reflexivity.
  Qed.
  Lemma reduce_obj_eq c xs st k s :
    save_reduce proto sv false c xs st (Some k) s =
    ((sv c ;; save_tuple proto sv KAnon xs) ;; (finish_red proto REDUCE k ;; save_state proto sv st)) s.
  Proof.
    unfold save_reduce, red_call, red_memo, finish_red. rewrite !seq_assoc. apply seq_cong_r. intros s1. rewrite !seq_assoc. apply seq_cong_r.
    intros s2. rewrite !seq_assoc. reflexivity.
  Qed.

  Lemma avs_new I e P xs : (forall x, In x xs -> exists v, x = AV v) -> args_new I e P xs.
  Proof. intros Hx k kvs Hi. destruct (Hx _ Hi). discriminate. Qed.
  Lemma avs_once xs : (forall x, In x xs -> exists v, x = AV v) -> once xs.
  Proof.
    induction xs as [|x xs IH]; intros Hx; cbn; auto. destruct (Hx x (or_introl eq_refl)) as (v & ->). apply IH. intros; apply Hx; right; auto.
  Qed.
  Ltac avs := intros ? Hav; cbn in Hav; repeat (destruct Hav as [<-|Hav]; [eexists; reflexivity|]); destruct Hav.


  (** ** deferred updates *)
  Lemma append_ids x p P : map fst (append_pp x p P) = map fst P.
  Proof. induction P as [|[y l] P IH]; cbn; auto. destruct (Nat.eqb x y); cbn; congruence. Qed.
  Lemma append_in x p P : In x (map fst P) -> exists y, In y (append_pp x p P) /\ In p (snd y).
  Proof.
    induction P as [|[y l] P IH]; cbn; [tauto|]. intros Hx. destruct (Nat.eqb_spec x y) as [->|Hn].
    - exists (y, l ++ [p]). split; [left; auto|]. cbn. apply in_app_iff. right; left; auto.
    - destruct Hx as [E|Hx]; [congruence|]. destruct (IH Hx) as (z & A & B). exists z. split; [right|]; auto.
  Qed.
  Lemma append_F2 (F : pp -> Prop) x p P : F p ->
    Forall2 (fun q q' => fst q = fst q' /\ exists n, snd q' = snd q ++ n /\ Forall F n) P (append_pp x p P).
  Proof.
    intros Fp. induction P as [|[y l] P IH]; cbn; [constructor|]. destruct (Nat.eqb_spec x y) as [->|Hn]; constructor; auto.
    - cbn. split; auto. exists [p]. auto.
    - clear. induction P as [|[z k] P IH]; constructor; auto. split; auto. exists []. rewrite app_nil_r; auto.
    - cbn. split; auto. exists []. rewrite app_nil_r; auto.
  Qed.
  Lemma F2_trans (F G : pp -> Prop) P0 P1 P2 : (forall p, F p -> G p) ->
    Forall2 (fun q q' : oid * list pp => fst q = fst q' /\ exists n, snd q' = snd q ++ n /\ Forall F n) P0 P1 ->
    Forall2 (fun q q' : oid * list pp => fst q = fst q' /\ exists n, snd q' = snd q ++ n /\ Forall G n) P1 P2 ->
    Forall2 (fun q q' : oid * list pp => fst q = fst q' /\ exists n, snd q' = snd q ++ n /\ Forall G n) P0 P2.
  Proof.
    intros FG F1. revert P2. induction F1 as [|x y P P' [A (n & B & C)] F' IH]; intros P2 F2; inversion F2; subst; constructor; auto.
    destruct H2 as [A' (n' & B' & C')]. split; [congruence|]. exists (n ++ n').
    rewrite B', B, app_assoc. split; auto. apply Forall_app. split; auto. eapply Forall_impl; eauto.
  Qed.
  Lemma F2_in (F : pp -> Prop) P P' x p : 
    Forall2 (fun q q' : oid * list pp => fst q = fst q' /\ exists n, snd q' = snd q ++ n /\ Forall F n) P P' ->
    In x P -> In p (snd x) -> exists y, In y P' /\ fst y = fst x /\ In p (snd y).
  Proof.
    induction 1 as [|a b P P' [A (n & B & C)] F' IH]; [intros []|]. intros [->|Hi] Hp.
    - exists b. split; [left; auto|]. split; auto. rewrite B. apply in_app_iff. auto.
    - destruct (IH Hi Hp) as (y & D & E). exists y. split; [right|]; auto.
  Qed.

  Lemma Sim_addpp X I L e h P e' h' P' x p : Sim X I L e h P e' h' P' -> readyX H X (length h) e' h' p ->
    Sim X I L e h P e' h' (append_pp x p P').
  Proof.
    intros S Hp. constructor; try apply S.
    - eapply F2_trans; [|apply (s_post S)|apply append_F2; auto]. auto.
    - intros o a Ho. destruct (s_cov S o a Ho) as [?|[?|[?|(q & Hq & Ht & Hr)]]]; auto.
      right; right; right. exists q. split; auto. destruct Hq as [Hq|(y & Hy & Hq)]; auto. right.
      destruct (F2_in _ _ _ _ _ (append_F2 (readyX H X (length h) e' h') x p P' Hp) Hy Hq) as (z & A & _ & B). eauto.
  Qed.
  Lemma Sim_preadd X I e h P e' h' P' x p : Sim X I [p] e h (append_pp x p P) e' h' P' -> In x (map fst P) -> Sim X I [] e h P e' h' P'.
  Proof.
    intros S Hx. assert (Hp : readyX H X (length h) e' h' p) by (pose proof (s_extra S) as F; inversion F; auto).
    constructor; try apply S; auto.
    - eapply F2_trans; [|apply append_F2; exact Hp|apply (s_post S)]. auto.
    - intros o a Ho. destruct (s_cov S o a Ho) as [?|[?|[?|(q & Hq & Ht & Hr)]]]; auto.
      right; right; right. exists q. split; auto. destruct Hq as [[<-|[]]|Hq]; auto. right.
      destruct (append_in x p P Hx) as (y & A & B). destruct (F2_in _ _ _ _ _ (s_post S) A B) as (z & C & _ & D). eauto.
  Qed.
  Lemma sync_addpp s e m x p : sync s e m -> sync {| memo := memo s; post := append_pp x p (post s) |} e m.
  Proof.
    intros [A B C]. constructor; auto. constructor; try apply C.
    intros f v Hf. cbn. rewrite append_ids. apply (ek_gk _ _ _ _ C f v Hf).
  Qed.

  (** ** cells *)
  Definition cell_of (x' : val) : obj := match x' with VA ACellEmpty _ => OCell None | _ => OCell (Some x') end.

  Lemma cell_new_ok o c x s e m (I : key -> Prop) : sync s e m -> (forall k, I k -> Ik (post s) k) ->
    H o = Some (OCell c) -> (forall v, ~ In (KObj o, v) e) ->
    forall ops s', save_reduce proto sv false (g_ GCreateCell) [AV x] SNone (Some (KObj o)) s = Ok (ops, s') ->
    exists a e' m', run ops m = Some m' /\ sync s' e' m' /\ stk m' = VR a :: stk m /\ meta m' = meta m /\ Renv e' o a /\
      length (heap m) <= a /\
      ((Sim X0 I [] e (heap m) (post s) e' (heap m') (post s') /\
        exists w, nth_error (heap m') a = Some (OCell w) /\ (c = None -> w = None)) \/
       (Sim (eq a) I [] e (heap m) (post s) e' (heap m') (post s') /\
        exists x', nth_error (heap m') a = Some (cell_of x') /\ val_rel (Renv e') x x')).
  Proof.
    intros S HI Ho Hn ops s' E.
    rewrite reduce_obj_eq in E.
    assert (OC : ok X0 I (sv (g_ GCreateCell) ;; save_tuple proto sv KAnon [AV x]) s e m (P_call (g_ GCreateCell) [AV x] m)).
    { apply save_call_ok; auto; [apply avs_new; avs|apply avs_once; avs]. }
    unfold seq at 1 in E. destruct ((sv (g_ GCreateCell) ;; save_tuple proto sv KAnon [AV x]) s) as [[l1 s1]|] eqn:E1; [|discriminate].
    destruct (OC _ _ E1) as (e1 & m1 & R1 & S1 & Si1 & t & c' & vs' & A & B & C & D & F).
    apply rel_atom in C. subst c'. inversion F as [|? x' ? ? Fx F']; subst. inversion F'; subst. cbn in Fx.
    set (m2 := alloc (cell_of x') (set_stk (stk m) m1)).
    assert (R2 : run [REDUCE] m1 = Some m2).
    { cbn [run step]. rewrite A, D. cbn [call]. unfold m2, cell_of. destruct x' as [[]|]; reflexivity. }
    destruct ((finish_red proto REDUCE (KObj o) ;; save_state proto sv SNone) s1) as [[l2 s2]|] eqn:E2; [|discriminate]. inversion E; subst ops s'. clear E.
    destruct (memo_cases H (KObj o) s1 e1 m1 S1 ltac:(discriminate)) as [(i & v & Em & Hv & Eg)|[Em Hv]].
    - destruct (ek_obj _ _ _ _ (sy_env _ _ _ _ S1) _ _ Hv) as (a & ->).
      assert (O : ok X0 I (finish_red proto REDUCE (KObj o) ;; save_state proto sv SNone) s1 e1 m1
                  (fun s' e' m' => s' = s1 /\ e' = e1 /\ stk m' = VR a :: stk m /\ meta m' = meta m /\ heap m' = heap m1 ++ [cell_of x'])).
      { eapply ok_seq.
        - eapply finish_red_again with (i := i) (v := VR a) (mb := m2)
            (Q := fun s' e' m' => s' = s1 /\ e' = e1 /\ stk m' = VR a :: stk m /\ meta m' = meta m /\
                                  heap m' = heap m1 ++ [cell_of x']); eauto; cbn; try reflexivity.
          + rewrite app_length; lia.
          + intros y b Ex. rewrite nth_app_l; auto. eapply nth_lt; eauto.
          + intros m' _ A1 A2 A3. rewrite A2. auto.
        - intros s3 e3 m3 S3 _ Q3. apply ok_nil; auto. }
      destruct (O _ _ E2) as (e2 & m3 & R3 & S3 & Si3 & -> & -> & A3 & B3 & C3).
      exists a, e1, m3. split; [rewrite (run_app _ _ _ _ R1); auto|]. split; auto. split; auto. split; auto. split; auto.
      assert (La : length (heap m) <= a /\ exists w, nth_error (heap m1) a = Some (OCell w) /\ (c = None -> w = None)).
      { destruct (s_cov Si1 o a Hv) as [Ex|[[]|[Ex|(p & _ & Ht & Hr)]]].
        - exfalso. eapply Hn; eauto.
        - destruct Ex as (b & b' & Hb & (X1 & X2 & X3) & Hr). split; auto. rewrite Ho in Hb. inversion Hb; subst b.
          destruct b' as [| | | | | |w|]; cbn in Hr; try (destruct c; tauto). exists w. split; auto. intros ->. destruct w; tauto.
        - apply readyX0 in Hr. pose proof (ready_kind _ _ _ _ Hr) as K. destruct p; cbn in Ht; subst; cbn in K, Hr.
          + destruct Hr as (a' & v & w & Q1 & Q2 & (Q3 & Q4 & Q5)).
            assert (a' = a) by (eapply env_Rfun; [apply (sy_env _ _ _ _ S1)|exact Q1|exact Hv]). subst a'.
            split; auto. exists w. split; auto. intros ->. congruence.
          + destruct K as (? & ? & ? & ? & ? & ? & ? & ? & K & _). congruence.
          + destruct K as (? & ? & ? & ? & ? & K). congruence. }
      destruct La as (La & w & Hw & Hc). split; auto. left. split; [eapply Sim_trans; eauto|].
      exists w. split; auto. rewrite C3, nth_app_l; auto. eapply nth_lt; eauto.
    - set (a := length (heap m1)).
      assert (O : ok (eq a) I (finish_red proto REDUCE (KObj o) ;; save_state proto sv SNone) s1 e1 m1
                  (fun s' e' m' => stk m' = VR a :: stk m /\ meta m' = meta m /\ Renv e' o a /\ nth_error (heap m') a = Some (cell_of x'))).
      { eapply ok_seq with (Q := fun s' e' m' => stk m' = VR a :: stk m /\ meta m' = meta m /\ Renv e' o a /\ nth_error (heap m') a = Some (cell_of x')).
        - eapply ok_ext with (B := emit [REDUCE] ;; memoize proto (KObj o)).
          { unfold finish_red, seq, emit. rewrite Em. reflexivity. }
          eapply ok_new; [exact S1|exact R2|reflexivity|reflexivity| | |].
          + cbn [heap alloc m2 set_stk]. eapply env_ok_alloc with (I := I); [apply (sy_env _ _ _ _ S1)| |].
            * split; auto. split; intros; discriminate.
            * intros o' Eo. inversion Eo; subst. exists (OCell c). split; auto. unfold cell_of. destruct x' as [[]|]; reflexivity.
          + cbn [heap alloc m2 set_stk]. apply Sim_alloc.
            * intros y; split; auto.
            * intros o' Eo. inversion Eo; subst. left. eapply no_proc; eauto; discriminate.
            * intros; discriminate.
          + intros s3 m3 Ep S3 A3 B3 C3. split; auto. split; [rewrite B3; auto|]. split; [apply in_app_iff; right; left; auto|].
            rewrite C3. cbn. apply nth_snoc.
        - intros s3 e3 m3 S3 _ Q3. apply ok_nil; auto. }
      destruct (O _ _ E2) as (e2 & m3 & R3 & S3 & Si3 & A3 & B3 & C3 & D3).
      exists a, e2, m3. split; [rewrite (run_app _ _ _ _ R1); auto|]. split; auto. split; auto. split; auto. split; auto.
      split; [apply (s_len Si1)|]. right. split.
      + eapply Sim_trans; [|exact Si3]. eapply Sim_exempt_new; eauto. apply (sy_env _ _ _ _ S1).
      + exists x'. split; auto. eapply Sim_val; eauto.
  Qed.

  Lemma Sim_finish_cell I e0 h0 P0 e h P o a v w : Sim (eq a) I [] e0 h0 P0 e h P -> env_ok e h P -> Renv e o a ->
    H o = Some (OCell (Some v)) -> nth_error h a = Some (OCell w) -> length h0 <= a ->
    (complete H e (hidn X0 (length h0) h) o a \/ exists x, In x P /\ In (PSetCell o) (snd x)) ->
    Sim X0 I [] e0 h0 P0 e h P.
  Proof.
    intros S E Ho Hc Hh La D.
    assert (Hr : ready H e (hidn X0 (length h0) h) (PSetCell o)).
    { exists a, v, w. split; auto. split; auto. split; auto. }
    apply (Sim_finish H (eq a) I [] []); [| | | | |exact S].
    - intros ? <-. auto.
    - auto.
    - intros o' a' <- Ho'. assert (o' = o) by (eapply env_Rinj; eauto). subst o'. right.
      destruct D as [D|D]; auto. right. exists (PSetCell o). auto.
    - intros o' a' p <- Ho' Ht K. assert (o' = o) by (eapply env_Rinj; eauto). subst o'. destruct p; cbn in *; subst; auto.
      + destruct K as (? & ? & ? & ? & ? & ? & ? & ? & K & _). congruence.
      + destruct K as (? & ? & ? & ? & ? & K). congruence.
    - intros p o' a' [].
  Qed.

  Lemma save_cell_ok o c s e m : sync s e m -> H o = Some (OCell c) -> (forall v, ~ In (KObj o, v) e) ->
    ok X0 (Ik (post s)) (save_cell proto sv o c) s e m (P_val (VR o) m).
  Proof.
    intros S Ho Hn. set (I := Ik (post s)). assert (HI : forall k, I k -> Ik (post s) k) by auto.
    pose proof (proj1 (HW _ _ Ho)) as Wf. cbn in Wf.
    destruct c as [v|].
    - set (dest := match v with
                   | VR f => if memb f (map fst (post s)) then Some f else match post s with [] => None | (x, _) :: _ => Some x end
                   | _ => match post s with [] => None | (x, _) :: _ => Some x end
                   end).
      assert (Hd : forall x, dest = Some x -> In x (map fst (post s))).
      { intros x. unfold dest. destruct v as [|f].
        - destruct (post s) as [|[y l] P]; [discriminate|]. intros E; inversion E; subst. left; auto.
        - destruct (memb f (map fst (post s))) eqn:Em.
          + intros E; inversion E; subst. now apply memb_In.
          + destruct (post s) as [|[y l] P]; [discriminate|]. intros E; inversion E; subst. left; auto. }
      intros ops s' E. unfold save_cell in E. fold dest in E. destruct dest as [x|].
      + (* Ce2 *)
        specialize (Hd x eq_refl). unfold seq in E.
        destruct (save_reduce proto sv false (g_ GCreateCell) [AV vNone] SNone (Some (KObj o)) s) as [[l1 s1]|] eqn:E1; [|discriminate].
        destruct (cell_new_ok _ _ _ _ _ _ I S HI Ho Hn _ _ E1) as (a & e' & m' & R & S' & A & B & C & La & D).
        unfold add_pp in E. inversion E; subst. exists e', m'. rewrite app_nil_r. split; auto. split; [now apply sync_addpp|].
        cbn [post]. split; [|exists (VR a); auto].
        assert (Hx : In x (map fst (post s1))).
        { destruct D as [[D _]|[D _]]; rewrite (Sim_ids _ _ _ _ _ _ _ _ _ _ D); auto. }
        destruct D as [(Si & w & Hw & _)|(Si & x' & Hx' & Hv)].
        * apply Sim_addpp; auto. right. exists a, v, w. split; auto. split; auto. split; auto.
        * assert (Hw : exists w, nth_error (heap m') a = Some (OCell w)).
          { rewrite Hx'. unfold cell_of. destruct x' as [[]|]; eauto. }
          destruct Hw as (w & Hw). eapply Sim_finish_cell with (a := a) (o := o); eauto.
          -- apply Sim_addpp; auto. left. split; [exists v; auto|]. exists a. auto.
          -- apply (sy_env _ _ _ _ (sync_addpp _ _ _ x (PSetCell o) S')).
          -- right. now apply append_in.
      + (* Ce1 *)
        destruct (cell_new_ok _ _ _ _ _ _ I S HI Ho Hn _ _ E) as (a & e' & m' & R & S' & A & B & C & La & D).
        exists e', m'. split; auto. split; auto. split; [|exists (VR a); auto].
        destruct D as [(Si & _)|(Si & x' & Hx' & Hv)]; auto.
        assert (Ex : cell_of x' = OCell (Some x')).
        { unfold cell_of. destruct x' as [[]|]; auto. destruct v as [av iv|]; cbn in Hv; [|tauto]. destruct Hv as [-> _].
          exfalso. eapply Wf. reflexivity. }
        rewrite Ex in Hx'.
        eapply Sim_finish_cell with (a := a) (o := o); eauto; [apply (sy_env _ _ _ _ S')|].
        left. exists (OCell (Some v)), (OCell (Some x')). split; auto. split; [split; auto|]. exact Hv.
    - (* Ce3 *)
      intros ops s' E. unfold save_cell, seq in E.
      destruct (save_reduce proto sv false (g_ GCreateCell) [AV (VA ACellEmpty 0)] SNone (Some (KObj o)) s) as [[l1 s1]|] eqn:E1; [|discriminate].
      destruct (cell_new_ok _ _ _ _ _ _ I S HI Ho Hn _ _ E1) as (a & e1 & m1 & R1 & S1 & A & B & C & La & D).
      assert (Hh : nth_error (heap m1) a = Some (OCell None)).
      { destruct D as [(_ & w & Hw & Hc)|(_ & x' & Hx' & Hv)].
        - rewrite Hc in Hw; auto.
        - apply rel_atom in Hv. subst x'. exact Hx'. }
      assert (Si1 : Sim X0 I [] e (heap m) (post s) e1 (heap m1) (post s1)).
      { destruct D as [[Si _]|[Si _]]; auto. apply Sim_done with (a := a) (k := KObj o); auto.
        - apply (sy_env _ _ _ _ S1).
        - intros o' Eo. inversion Eo; subst o'. exists (OCell None), (OCell None). split; auto. split; [split; auto|]. exact Logic.I.
        - intros p o' Eo Ht K. inversion Eo; subst o'. destruct p; cbn in *; subst.
          + destruct K as (? & K). congruence.
          + destruct K as (? & ? & ? & ? & ? & ? & ? & ? & K & _). congruence.
          + destruct K as (? & ? & ? & ? & ? & K). congruence. }
      rewrite reduce_none_eq in E. unfold emit at 2 in E.
      assert (OC : ok X0 I (sv (g_ GDelattr) ;; save_tuple proto sv KAnon [AV (VR o); AV sCONTENTS]) s1 e1 m1 (P_call (g_ GDelattr) [AV (VR o); AV sCONTENTS] m1)).
      { apply save_call_ok; auto; [eapply Sim_inI; eauto|apply avs_new; avs|apply avs_once; avs]. }
      unfold seq at 1, emit in E.
      destruct ((sv (g_ GDelattr) ;; save_tuple proto sv KAnon [AV (VR o); AV sCONTENTS]) s1) as [[l2 s2]|] eqn:E2; [|discriminate].
      inversion E; subst ops s'. destruct (OC _ _ E2) as (e2 & m2 & R2 & S2 & Si2 & t & c' & vs' & A2 & B2 & C2 & D2 & F2).
      apply rel_atom in C2. subst c'. inversion F2 as [|? y1 ? ? G1 F2']; subst. inversion F2' as [|? y2 ? ? G2 F2'']; subst. inversion F2''; subst.
      unfold arg_rel in G1, G2. apply rel_atom in G2. subst y2.
      apply (rel_ref _ _ _ _ _ a _ (sy_env _ _ _ _ S2)) in G1; [|now apply (s_env Si2)]. subst y1.
      pose proof (Sim0_heap _ _ _ _ _ _ _ _ _ _ _ Si2 Hh) as Hh2.
      exists e2, (set_stk (stk m1) m2). split; [|split; [|split]].
      + rewrite (run_app _ _ _ _ R1). rewrite <- app_assoc. rewrite (run_app _ _ _ _ R2). cbn [app run step]. rewrite A2, D2. cbn [call].
        cbn [heap set_stk]. rewrite Hh2. cbn [String.eqb]. rewrite (upd_same _ _ _ Hh2). reflexivity.
      + eapply sync_stk; eauto.
      + cbn [heap set_stk]. eapply Sim_trans; eauto.
      + exists (VR a). cbn [stk meta set_stk]. split; auto. split; [congruence|]. cbn. now apply (s_env Si2).
  Qed.
End Proc.
