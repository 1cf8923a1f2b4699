(** The pickler's actions simulated by the unpickler: arguments, tuples, calls and states. *)
From Coq Require Import String List Bool Arith ZArith Lia.
From Verif Require Import PyDict CoreModel CoreSpec CoreSim CoreStep.
Import ListNotations.
Local Open Scope string_scope.
Local Open Scope list_scope.

Section Reduce.
  Variable proto : nat.
  Variable H : oid -> option obj.
  Notation Sim := (Sim H).
  Notation sync := (sync H).
  Notation env_ok := (env_ok H).
  Notation ok := (ok H).
  Variable sv : val -> act.
  Hypothesis SV : sv_ok H sv.

  (** ** arguments *)
  Definition arg_rel (e : env) (h : list obj) (n : nat) (x : arg) (v' : val) : Prop :=
    match x with
    | AV v => val_rel (Renv e) v v'
    | AD k kvs => exists a d', v' = VR a /\ n <= a /\ In (k, VR a) e /\ nth_error h a = Some (ODict d') /\
                               Forall2 (item_rel (Renv e)) kvs d'
    | AL vs => exists a d', v' = VR a /\ n <= a /\ nth_error h a = Some (OList d') /\ Forall2 (val_rel (Renv e)) vs d'
    end.
  Lemma arg_rel_mono I L e h P e' h' P' n n' x v : Sim X0 I L e h P e' h' P' -> n' <= n ->
    arg_rel e h n x v -> arg_rel e' h' n' x v.
  Proof.
    intros S Hn. destruct x; cbn.
    - eapply Sim_val; eauto.
    - intros (a & d' & A & B & C & D & E). exists a, d'. split; auto. split; [lia|]. split; [now apply (s_env S)|].
      split; [eapply Sim0_heap; eauto|]. eapply Sim_items; eauto.
    - intros (a & d' & A & B & D & E). exists a, d'. split; auto. split; [lia|].
      split; [eapply Sim0_heap; eauto|]. eapply Sim_vals; eauto.
  Qed.
  Lemma arg_rel_n e h n n' x v : n' <= n -> arg_rel e h n x v -> arg_rel e h n' x v.
  Proof. destruct x; cbn; auto; intros Hn (a & d' & A & B & C); exists a, d'; (split; [auto|split; [lia|auto]]). Qed.
  Lemma args_vals e h n vs : forall vs', Forall2 (arg_rel e h n) (map AV vs) vs' -> Forall2 (val_rel (Renv e)) vs vs'.
  Proof. induction vs as [|v vs IH]; intros vs' F; inversion F; subst; constructor; auto. Qed.
  Definition args_new (I : key -> Prop) (e : env) (P : list (oid * list pp)) (xs : list arg) : Prop :=
    forall k kvs, In (AD k kvs) xs -> keys_distinct kvs /\
      (k = KAnon \/ exists f, k = KGlob f /\ In f (map fst P) /\ ~ I (KGlob f) /\ forall v, ~ In (KGlob f, v) e).
  Fixpoint once (xs : list arg) : Prop :=
    match xs with
    | [] => True
    | AV _ :: r | AL _ :: r => once r
    | AD k _ :: r => (k <> KAnon -> forall k' kvs, In (AD k' kvs) r -> k' = KAnon) /\ once r
    end.

  Lemma sv_ok2 v s e m (I : key -> Prop) : sync s e m -> (forall k, I k -> Ik (post s) k) ->
    ok X0 I (sv v) s e m (fun s' e' m' => P_val v m s' e' m' /\
                                          Sim X0 (Ik (post s)) [] e (heap m) (post s) e' (heap m') (post s')).
  Proof.
    intros S HI. eapply ok_I; [exact HI|]. eapply ok_conseq; [apply SV; auto|]. auto.
  Qed.

  Lemma args_new_step I e P e' P' xs h h' : args_new I e P xs -> (forall k, I k -> Ik P k) -> env_ok e' h' P' ->
    Sim X0 (Ik P) [] e h P e' h' P' -> args_new I e' P' xs.
  Proof.
    intros A HI E S k kvs Hi. destruct (A k kvs Hi) as (Kd & [Ka|(f & -> & B & C & D)]); split; auto.
    right. exists f. split; auto. split; [rewrite (Sim_ids _ _ _ _ _ _ _ _ _ _ S); auto|]. split; auto.
    intros v Hv. destruct (ek_glb _ _ _ _ E _ _ Hv) as (g & ->).
    destruct (s_gkind S f g Hv) as [F|F]; [eapply D; eauto|]. apply F. exact B.
  Qed.

  Lemma save_args_ok xs : forall s e m (I : key -> Prop), sync s e m -> (forall k, I k -> Ik (post s) k) ->
    args_new I e (post s) xs -> once xs ->
    ok X0 I (seqs (save_arg proto sv) xs) s e m
       (fun s' e' m' => exists vs', stk m' = rev vs' ++ stk m /\ meta m' = meta m /\
                                    Forall2 (arg_rel e' (heap m') (length (heap m))) xs vs').
  Proof.
    induction xs as [|x xs IH]; intros s e m I S HI AN ON; cbn [seqs].
    - apply ok_nil; auto. exists []. repeat split; auto.
    - assert (AN' : args_new I e (post s) xs) by (intros k kvs Hi; apply AN; right; auto).
      assert (Step : ok X0 I (save_arg proto sv x) s e m (fun s' e' m' =>
                       args_new I e' (post s') xs /\
                       exists v', stk m' = v' :: stk m /\ meta m' = meta m /\ arg_rel e' (heap m') (length (heap m)) x v')).
      { destruct x as [v|k kvs|ls]; cbn [save_arg].
        - eapply ok_conseq; [apply sv_ok2; eauto|]. intros s' e' m' S' _ [(v' & A & B & C) Si]. split.
          + eapply args_new_step; eauto. apply (sy_env _ _ _ _ S').
          + exists v'. auto.
        - destruct (AN k kvs (or_introl eq_refl)) as (Kd & [->|(f & -> & B & C & D)]).
          + eapply ok_I; [exact HI|]. eapply ok_conseq.
            * apply save_dict_ok; eauto; try (intros; discriminate). split; [congruence|]. split; intros; discriminate.
            * intros s' e' m' S' Si (A1 & A2 & A3 & d' & A4 & A5). split.
              -- eapply args_new_step; eauto. apply (sy_env _ _ _ _ S').
              -- exists (VR (length (heap m))). split; auto. split; auto. exists (length (heap m)), d'. repeat split; auto.
          + eapply ok_conseq.
            * apply save_dict_ok; eauto; try (intros; discriminate). split; [auto|]. split; [intros; discriminate|].
              intros f0 E. inversion E; subst. auto.
            * intros s' e' m' S' Si (A1 & A2 & A3 & d' & A4 & A5). split.
              -- intros k' kvs' Hi. destruct (AN' _ _ Hi). split; auto. left. destruct ON as [ON _]. eapply ON; eauto. discriminate.
              -- exists (VR (length (heap m))). split; auto. split; auto. exists (length (heap m)), d'. repeat split; auto.
        - eapply ok_I; [exact HI|]. eapply ok_conseq.
          + apply save_listk_ok; eauto; try (intros; discriminate). split; [congruence|]. split; intros; discriminate.
          + intros s' e' m' S' Si (A1 & A2 & A3 & d' & A4 & A5). split.
            * eapply args_new_step; eauto. apply (sy_env _ _ _ _ S').
            * exists (VR (length (heap m))). split; auto. split; auto. exists (length (heap m)), d'. repeat split; auto. }
      eapply ok_seq; [exact Step|]. intros s1 e1 m1 S1 Si1 (AN1 & v' & A & B & C).
      eapply ok_conseq; [apply IH; auto|].
      + eapply Sim_inI; eauto.
      + destruct x; [exact ON|apply ON|exact ON].
      + intros s2 e2 m2 S2 Si2 (vs' & A2 & B2 & C2). exists (v' :: vs'). rewrite A2, A, B2, B. cbn [rev]. rewrite <- app_assoc.
        repeat split; auto. pose proof (s_len Si1). constructor.
        * eapply arg_rel_mono; [exact Si2|apply le_n|exact C].
        * eapply Forall2_mono; [|exact C2]. intros x0 y. now apply arg_rel_n.
  Qed.

  (** ** tuples *)
  Lemma run_pops n : forall l st m, length l = n -> stk m = l ++ st -> run (repeat POP n) m = Some (set_stk st m).
  Proof.
    induction n as [|n IH]; intros l st m El Es; cbn [repeat run].
    - destruct l; [|discriminate]. cbn in Es. destruct m; cbn in *. subst. reflexivity.
    - destruct l as [|x l]; [discriminate|]. cbn [step]. rewrite Es. cbn [app].
      rewrite (IH l st); [reflexivity|cbn in El; lia|reflexivity].
  Qed.

  Definition tup_key (k : key) (xs : list arg) (e : env) : Prop :=
    k = KAnon \/ exists o vs, k = KObj o /\ xs = map AV vs /\ H o = Some (OTup vs) /\ forall v, ~ In (k, v) e.
  Definition P_tup (k : key) (xs : list arg) (m0 : vm) (n : nat) (s' : pst) (e' : env) (m' : vm) : Prop :=
    exists t, stk m' = VR t :: stk m0 /\ meta m' = meta m0 /\
      (forall o, k = KObj o -> Renv e' o t) /\
      (k = KAnon -> exists vs', nth_error (heap m') t = Some (OTup vs') /\ Forall2 (arg_rel e' (heap m') n) xs vs').

  Lemma tuple_close k xs vs' n s e m m0 mb mk dp I :
    sync s e m -> xs <> [] ->
    (k = KAnon \/ exists o vs, k = KObj o /\ xs = map AV vs /\ H o = Some (OTup vs)) ->
    Forall2 (arg_rel e (heap m) n) xs vs' ->
    run dp m = Some mb -> run mk m = Some (alloc (OTup vs') mb) ->
    stk mb = stk m0 -> meta mb = meta m0 -> mem mb = mem m -> heap mb = heap m ->
    ok X0 I (fun s => match memo_get k s with
                      | Some i => Ok (dp ++ [GET i], s)
                      | None => (emit mk ;; memoize proto k) s
                      end) s e m (P_tup k xs m0 n).
  Proof.
    intros S Hne Hk F Rd Rm B1 B2 B3 B4. destruct (memo_get k s) as [i|] eqn:E.
    - eapply ok_ext with (B := emit (dp ++ [GET i])); [rewrite E; reflexivity|].
      destruct (memo_get_some _ _ _ _ _ _ S E) as (v & Hi & Hg & Hn).
      destruct Hk as [->|(o & vs & -> & -> & Ho)]; [congruence|].
      destruct (ek_obj _ _ _ _ (sy_env _ _ _ _ S) _ _ Hi) as (a & ->).
      eapply ok_emit with (m' := push (VR a) mb).
      + rewrite (run_app _ _ _ _ Rd). cbn [run step]. rewrite B3, Hg. reflexivity.
      + eapply sync_stk; eauto.
      + cbn. rewrite B4. apply Sim_refl.
      + exists a. cbn. repeat split; auto; try congruence. intros o' Eo. inversion Eo; subst. auto.
    - eapply ok_ext with (B := emit mk ;; memoize proto k); [rewrite E; reflexivity|].
      assert (Hnew : k <> KAnon -> forall v, ~ In (k, v) e) by (intros; eapply memo_get_none; eauto).
      set (a := length (heap m)).
      assert (Hh : heap (alloc (OTup vs') mb) = heap m ++ [OTup vs']) by (cbn; rewrite B4; auto).
      eapply ok_new with (m1 := alloc (OTup vs') mb) (v := VR a) (r := stk m0); auto.
      + cbn. unfold a. congruence.
      + rewrite Hh. apply env_ok_alloc with (I := fun _ => False).
        * apply (sy_env _ _ _ _ S).
        * split; auto. destruct Hk as [->|(o & vs & -> & _)]; split; intros; discriminate.
        * intros o Ek. destruct Hk as [->|(o' & vs & -> & -> & Ho)]; [discriminate|]. inversion Ek; subst. eauto.
      + rewrite Hh. apply Sim_new.
        * rewrite app_length; lia.
        * intros a' b E' _. rewrite nth_app_l; auto. eapply nth_lt; eauto.
        * intros o a' Ek Ev. inversion Ev; subst a'.
          destruct Hk as [->|(o' & vs & -> & -> & Ho)]; [discriminate|]. inversion Ek; subst o'. right; left.
          exists (OTup vs), (OTup vs'). split; auto. split; [split; [apply nth_snoc|split; auto]|].
          cbn. apply args_vals in F. eapply vals_mono; [|exact F]. intros o' a'. unfold Renv. rewrite in_app_iff. auto.
        * intros o Ek. destruct Hk as [->|(o' & vs & -> & -> & Ho)]; [discriminate|]. inversion Ek; subst. left.
          eapply no_proc; eauto; discriminate.
        * intros f Ek. destruct Hk as [->|(o' & vs & -> & -> & Ho)]; discriminate.
        * intros a' Ev. inversion Ev; subst. auto.
      + intros s' m' Ep S' St Me He. exists a. split; auto. split; [rewrite Me; auto|]. split.
        * intros o ->. apply in_app_iff; right; left; auto.
        * intros ->. exists vs'. rewrite He, Hh. split; [apply nth_snoc|].
          eapply Forall2_mono; [|exact F]. intros x y. destruct x; cbn.
          -- apply val_rel_mono. intros o a'. unfold Renv. rewrite in_app_iff. auto.
          -- intros (a0 & d' & A & B & C & D & G). exists a0, d'. split; auto. split; auto. split; [apply in_app_iff; auto|].
             split; [rewrite nth_app_l; auto; eapply nth_lt; eauto|].
             eapply items_mono; [|exact G]. intros o a'. unfold Renv. rewrite in_app_iff. auto.
          -- intros (a0 & d' & A & B & D & G). exists a0, d'. split; auto. split; auto.
             split; [rewrite nth_app_l; auto; eapply nth_lt; eauto|].
             eapply vals_mono; [|exact G]. intros o a'. unfold Renv. rewrite in_app_iff. auto.
  Qed.

  Lemma Forall2_len {A B} (R : A -> B -> Prop) l l' : Forall2 R l l' -> length l = length l'.
  Proof. induction 1; simpl; auto. Qed.
  Lemma make_tuple_ne vs m : vs <> [] -> make_tuple vs m = alloc (OTup vs) m.
  Proof. destruct vs; [congruence|auto]. Qed.

  Lemma save_tuple_ok k xs s e m (I : key -> Prop) : sync s e m -> (forall k, I k -> Ik (post s) k) ->
    args_new I e (post s) xs -> once xs -> xs <> [] ->
    (k = KAnon \/ exists o vs, k = KObj o /\ xs = map AV vs /\ H o = Some (OTup vs)) ->
    ok X0 I (save_tuple proto sv k xs) s e m (P_tup k xs m (length (heap m))).
  Proof.
    intros S HI AN ON Hne Hk. unfold save_tuple. destruct xs as [|x0 xs0] eqn:Ex; [congruence|]. rewrite <- Ex in *. clear Ex x0 xs0.
    destruct (Nat.leb (length xs) 3 && Nat.leb 2 proto).
    - eapply ok_seq; [apply save_args_ok; eauto|].
      intros s1 e1 m1 S1 Si1 (vs' & A & B & C). pose proof (Forall2_len _ _ _ C) as El.
      assert (Hv : vs' <> []) by (intros ->; destruct xs; [congruence|discriminate]).
      eapply tuple_close with (mb := set_stk (stk m) m1) (vs' := vs'); eauto.
      + eapply run_pops; [|exact A]. rewrite rev_length. auto.
      + cbn [run step]. rewrite A. rewrite app_length, rev_length.
        rewrite (proj2 (Nat.leb_le _ _)) by lia.
        rewrite firstn_app, skipn_app, rev_length, El, Nat.sub_diag.
        rewrite firstn_all2, skipn_all2 by (rewrite rev_length; lia). cbn [firstn skipn app].
        rewrite app_nil_r, rev_involutive, make_tuple_ne by auto. reflexivity.
    - eapply ok_seq.
      { eapply ok_emit with (Q := fun s' e' m' => s' = s /\ e' = e /\ stk m' = [] /\ meta m' = stk m :: meta m /\ heap m' = heap m).
        - reflexivity.
        - eapply sync_stk; eauto.
        - apply Sim_refl.
        - cbn. auto. }
      intros s1 e1 m0 S1 _ (-> & -> & A0 & B0 & C0).
      eapply ok_seq; [apply save_args_ok; eauto|].
      intros s1 e1 m1 S2 Si1 (vs' & A & B & C). pose proof (Forall2_len _ _ _ C) as El.
      rewrite A0, app_nil_r in A. rewrite B0 in B.
      assert (Hv : vs' <> []) by (intros ->; destruct xs; [congruence|discriminate]).
      set (mb := {| stk := stk m; meta := meta m; mem := mem m1; heap := heap m1 |}).
      rewrite <- C0. eapply tuple_close with (mb := mb) (vs' := vs'); eauto.
      + destruct (bin proto).
        * cbn [run step]. unfold pop_mark. rewrite B. reflexivity.
        * replace (Datatypes.S (length xs)) with (length xs + 1) by lia. rewrite repeat_app.
          erewrite run_app; [|eapply run_pops with (l := rev vs') (st := []); [rewrite rev_length; auto|rewrite app_nil_r; auto]].
          cbn [repeat run step]. cbn [stk set_stk]. unfold pop_mark. cbn [meta set_stk]. rewrite B. reflexivity.
      + cbn [run step]. unfold pop_mark. rewrite B. rewrite A, rev_involutive, make_tuple_ne by auto. reflexivity.
  Qed.

  Lemma save_tuple_obj_ok o vs s e m (I : key -> Prop) : sync s e m -> (forall k, I k -> Ik (post s) k) ->
    H o = Some (OTup vs) -> vs <> [] ->
    ok X0 I (save_tuple proto sv (KObj o) (map AV vs)) s e m (P_val (VR o) m).
  Proof.
    intros S HI Ho Hne. eapply ok_conseq; [apply save_tuple_ok; eauto|].
    - intros k kvs Hi. apply in_map_iff in Hi as (? & ? & _). discriminate.
    - clear. induction vs; cbn; auto.
    - destruct vs; [congruence|discriminate].
    - right. exists o, vs. auto.
    - intros s' e' m' S' _ (t & A & B & C & _). exists (VR t). repeat split; auto. cbn. auto.
  Qed.

  (** a temporary tuple, perhaps empty *)
  Lemma save_targs_ok xs s e m (I : key -> Prop) : sync s e m -> (forall k, I k -> Ik (post s) k) ->
    args_new I e (post s) xs -> once xs ->
    ok X0 I (save_tuple proto sv KAnon xs) s e m
      (fun s' e' m' => exists t vs', stk m' = t :: stk m /\ meta m' = meta m /\ tuple_items (heap m') t = Some vs' /\
                                     Forall2 (arg_rel e' (heap m') (length (heap m))) xs vs').
  Proof.
    intros S HI AN ON. destruct xs as [|x xs].
    - cbn [save_tuple]. eapply ok_emit with (m' := push (VA AEmptyTuple 0) m).
      + destruct (bin proto); [reflexivity|]. cbn. destruct m; reflexivity.
      + eapply sync_stk; eauto.
      + apply Sim_refl.
      + exists (VA AEmptyTuple 0), []. cbn. auto.
    - eapply ok_conseq; [apply save_tuple_ok; eauto; discriminate|].
      intros s' e' m' S' _ (t & A & B & _ & C). destruct (C eq_refl) as (vs' & D & F). exists (VR t), vs'.
      split; auto. split; auto. split; auto. cbn. rewrite D. auto.
  Qed.

  (** the callable and its arguments *)
  Definition P_call (c : val) (xs : list arg) (m : vm) (s' : pst) (e' : env) (m' : vm) : Prop :=
    exists t c' vs', stk m' = t :: c' :: stk m /\ meta m' = meta m /\ val_rel (Renv e') c c' /\
      tuple_items (heap m') t = Some vs' /\ Forall2 (arg_rel e' (heap m') (length (heap m))) xs vs'.
  Lemma save_call_ok c xs s e m (I : key -> Prop) : sync s e m -> (forall k, I k -> Ik (post s) k) ->
    args_new I e (post s) xs -> once xs ->
    ok X0 I (sv c ;; save_tuple proto sv KAnon xs) s e m (P_call c xs m).
  Proof.
    intros S HI AN ON. eapply ok_seq; [apply sv_ok2; eauto|].
    intros s1 e1 m1 S1 Si1 [(c' & A & B & C) Sx].
    eapply ok_conseq; [apply save_targs_ok; auto|].
    - eapply Sim_inI; eauto.
    - eapply args_new_step; eauto. apply (sy_env _ _ _ _ S1).
    - intros s2 e2 m2 S2 Si2 (t & vs' & A2 & B2 & C2 & D2). exists t, c', vs'. rewrite A2, A, B2, B.
      split; auto. split; auto. split; [eapply Sim_val; eauto|]. split; auto.
      pose proof (s_len Si1). eapply Forall2_mono; [|exact D2]. intros x0 y. now apply arg_rel_n.
  Qed.
End Reduce.
