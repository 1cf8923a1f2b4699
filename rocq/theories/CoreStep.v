(** The pickler's actions simulated by the unpickler: combinators, and lists, dictionaries and tuples. *)
From Coq Require Import String List Bool Arith ZArith Lia.
From Verif Require Import PyDict CoreModel CoreSpec CoreSim.
Import ListNotations.
Local Open Scope string_scope.
Local Open Scope list_scope.

Lemma upd_same {A} (l : list A) n x : nth_error l n = Some x -> upd l n x = l.
Proof. revert n. induction l; destruct n; simpl; intros E; try congruence. f_equal. auto. Qed.

Lemma seq_assoc a b c s : ((a ;; b) ;; c) s = (a ;; (b ;; c)) s.
Proof.
  unfold seq. destruct (a s) as [[l s1]|]; auto. destruct (b s1) as [[l' s2]|]; auto.
  destruct (c s2) as [[l'' s3]|]; auto. now rewrite app_assoc.
Qed.
Lemma seq_nil a s : (emit [] ;; a) s = a s.
Proof. unfold seq, emit. destruct (a s) as [[l s']|]; auto. Qed.

Section Proofs.
  Variable proto : nat.
  Variable H : oid -> option obj.

  Notation Sim := (Sim H).
  Notation sync := (sync H).
  Notation env_ok := (env_ok H).

  Definition ok (X : nat -> Prop) (I : key -> Prop) (A : act) (s : pst) (e : env) (m : vm)
                (Q : pst -> env -> vm -> Prop) : Prop :=
    forall ops s', A s = Ok (ops, s') ->
      exists e' m', run ops m = Some m' /\ sync s' e' m' /\
                    Sim X I [] e (heap m) (post s) e' (heap m') (post s') /\ Q s' e' m'.

  Lemma ok_ext X I (A B : act) s e m Q : A s = B s -> ok X I B s e m Q -> ok X I A s e m Q.
  Proof. unfold ok. intros E O ops s' EA. apply O. congruence. Qed.
  Lemma ok_conseq X I A s e m (Q Q' : pst -> env -> vm -> Prop) :
    ok X I A s e m Q -> (forall s' e' m', sync s' e' m' -> Sim X I [] e (heap m) (post s) e' (heap m') (post s') -> Q s' e' m' -> Q' s' e' m') -> ok X I A s e m Q'.
  Proof.
    intros O HQ ops s' E. destruct (O _ _ E) as (e' & m' & R & S & Si & q).
    exists e', m'. auto.
  Qed.
  Lemma ok_seq X I A B s e m (Q Q' : pst -> env -> vm -> Prop) : ok X I A s e m Q ->
    (forall s1 e1 m1, sync s1 e1 m1 -> Sim X I [] e (heap m) (post s) e1 (heap m1) (post s1) -> Q s1 e1 m1 ->
       ok X I B s1 e1 m1 Q') ->
    ok X I (A ;; B) s e m Q'.
  Proof.
    intros OA OB ops s' E. unfold seq in E.
    destruct (A s) as [[l s1]|] eqn:EA; [|discriminate].
    destruct (B s1) as [[l' s2]|] eqn:EB; [|discriminate]. inversion E; subst.
    destruct (OA _ _ EA) as (e1 & m1 & R1 & S1 & Si1 & q1).
    destruct (OB _ _ _ S1 Si1 q1 _ _ EB) as (e2 & m2 & R2 & S2 & Si2 & q2).
    exists e2, m2. split; [rewrite (run_app _ _ _ _ R1); auto|]. split; auto. split; auto.
    eapply Sim_trans; eauto.
  Qed.
  Lemma ok_emit X I ops s e m m' (Q : pst -> env -> vm -> Prop) : run ops m = Some m' -> sync s e m' ->
    Sim X I [] e (heap m) (post s) e (heap m') (post s) -> Q s e m' -> ok X I (emit ops) s e m Q.
  Proof. intros R S Si q ops' s' E. inversion E; subst. exists e, m'. auto. Qed.
  Lemma ok_nil X I s e m (Q : pst -> env -> vm -> Prop) : sync s e m -> Q s e m -> ok X I (emit []) s e m Q.
  Proof. intros. eapply ok_emit; eauto. reflexivity. apply Sim_refl. Qed.
  Lemma ok_weaken (Y X : nat -> Prop) I A s e m Q : (forall a, X a -> a < length (heap m)) -> (forall a, Y a -> X a) ->
    ok Y I A s e m Q -> ok X I A s e m Q.
  Proof.
    intros HX HY O ops s' E. destruct (O _ _ E) as (e' & m' & R & S & Si & q).
    exists e', m'. split; auto. split; auto. split; auto. eapply Sim_weaken; eauto.
  Qed.
  (** a step with nothing under construction, then one with X under construction *)
  Lemma ok_seq0 (X : nat -> Prop) I A B s e m (Q Q' : pst -> env -> vm -> Prop) : (forall a, X a -> a < length (heap m)) ->
    ok X0 I A s e m Q ->
    (forall s1 e1 m1, sync s1 e1 m1 -> Sim X0 I [] e (heap m) (post s) e1 (heap m1) (post s1) -> Q s1 e1 m1 ->
       ok X I B s1 e1 m1 Q') ->
    ok X I (A ;; B) s e m Q'.
  Proof.
    intros HX OA OB ops s' E. unfold seq in E.
    destruct (A s) as [[l s1]|] eqn:EA; [|discriminate].
    destruct (B s1) as [[l' s2]|] eqn:EB; [|discriminate]. inversion E; subst.
    destruct (OA _ _ EA) as (e1 & m1 & R1 & S1 & Si1 & q1).
    destruct (OB _ _ _ S1 Si1 q1 _ _ EB) as (e2 & m2 & R2 & S2 & Si2 & q2).
    exists e2, m2. split; [rewrite (run_app _ _ _ _ R1); auto|]. split; auto. split; auto.
    eapply Sim_trans; [|exact Si2]. eapply (Sim_weaken H X0); [exact HX| |exact Si1]. intros a [].
  Qed.
  Lemma ok_I X (I I' : key -> Prop) A s e m Q : (forall k, I' k -> I k) -> ok X I A s e m Q -> ok X I' A s e m Q.
  Proof.
    intros HI O ops s' E. destruct (O _ _ E) as (e' & m' & R & S & Si & q).
    exists e', m'. split; auto. split; auto. split; auto. eapply Sim_I; eauto.
  Qed.
  (** an action that does not write or change anything but the list of deferred updates is treated apart *)

  (** ** the state of the two machines *)
  Lemma env_ok_heap e h h' P : env_ok e h P -> length h <= length h' ->
    (forall a b, nth_error h a = Some b -> exists b', nth_error h' a = Some b' /\ kind b' = kind b) -> env_ok e h' P.
  Proof.
    intros E L K. constructor; [apply (ek_fun _ _ _ _ E)|apply (ek_inj _ _ _ _ E)| |apply (ek_obj _ _ _ _ E)|apply (ek_glb _ _ _ _ E)
      |apply (ek_atm _ _ _ _ E)|apply (ek_gk _ _ _ _ E)|].
    - intros k a Hk. pose proof (ek_dom _ _ _ _ E k a Hk). lia.
    - intros o a Ho. destruct (ek_kind _ _ _ _ E o a Ho) as (b & b' & A & B & C).
      destruct (K _ _ B) as (b2 & D & F). exists b, b2. repeat split; auto. congruence.
  Qed.
  Lemma sync_vm s e m m' : sync s e m -> mem m' = mem m -> length (heap m) <= length (heap m') ->
    (forall a b, nth_error (heap m) a = Some b -> exists b', nth_error (heap m') a = Some b' /\ kind b' = kind b) ->
    sync s e m'.
  Proof.
    intros [A B C] E L K. constructor; auto. congruence. eapply env_ok_heap; eauto.
  Qed.
  Lemma sync_stk s e m m' : sync s e m -> mem m' = mem m -> heap m' = heap m -> sync s e m'.
  Proof. intros S A B. eapply sync_vm; eauto; rewrite B; eauto. Qed.

  Lemma kind_upd (h : list obj) a0 b0 b1 : nth_error h a0 = Some b0 -> kind b1 = kind b0 ->
    forall a b, nth_error h a = Some b -> exists b', nth_error (upd h a0 b1) a = Some b' /\ kind b' = kind b.
  Proof.
    intros E K a b Ha. destruct (Nat.eq_dec a a0) as [->|Hn].
    - rewrite nth_upd_same by (eapply nth_lt; eauto). exists b1. split; auto. congruence.
    - rewrite nth_upd_other by auto. eauto.
  Qed.
  Lemma kind_app (h l : list obj) : forall a b, nth_error h a = Some b -> exists b', nth_error (h ++ l) a = Some b' /\ kind b' = kind b.
  Proof. intros a b Ha. exists b. split; auto. rewrite nth_app_l; auto. eapply nth_lt; eauto. Qed.

  (** adding an entry to both memos *)
  Lemma env_ok_add e h P k a b' : env_ok e h P -> (forall k' a', In (k', VR a') e -> a' <> a) ->
    nth_error h a = Some b' ->
    (k <> KAnon -> forall v, ~ In (k, v) e) ->
    (forall x i, k <> KAtom x i) ->
    (forall o, k = KObj o -> exists b, H o = Some b /\ kind b' = kind b) ->
    (forall f, k = KGlob f -> In f (map fst P)) ->
    env_ok (e ++ [(k, VR a)]) h P.
  Proof.
    intros E Hf Hb Hk Ka Ko Kg. constructor.
    - intros k0 v v' Hn A B. apply in_app_iff in A as [A|[A|[]]]; apply in_app_iff in B as [B|[B|[]]].
      + eapply (ek_fun _ _ _ _ E); eauto.
      + inversion B; subst. exfalso. eapply Hk; eauto.
      + inversion A; subst. exfalso. eapply Hk; eauto.
      + congruence.
    - intros k0 k1 a0 A B. apply in_app_iff in A as [A|[A|[]]]; apply in_app_iff in B as [B|[B|[]]].
      + eapply (ek_inj _ _ _ _ E); eauto.
      + inversion B; subst. exfalso. eapply Hf; eauto.
      + inversion A; subst. exfalso. eapply Hf; eauto.
      + congruence.
    - intros k0 a0 A. apply in_app_iff in A as [A|[A|[]]].
      + eapply (ek_dom _ _ _ _ E); eauto.
      + inversion A; subst. eapply nth_lt; eauto.
    - intros o v A. apply in_app_iff in A as [A|[A|[]]]; [eapply (ek_obj _ _ _ _ E); eauto|]. inversion A; eauto.
    - intros o v A. apply in_app_iff in A as [A|[A|[]]]; [eapply (ek_glb _ _ _ _ E); eauto|]. inversion A; eauto.
    - intros x i v A. apply in_app_iff in A as [A|[A|[]]]; [eapply (ek_atm _ _ _ _ E); eauto|].
      inversion A; subst. exfalso. eapply Ka; eauto.
    - intros f v A. apply in_app_iff in A as [A|[A|[]]].
      + destruct (ek_gk _ _ _ _ E f v A) as [(x & B)|B]; auto. left. exists x. apply in_app_iff. auto.
      + inversion A; subst. right. auto.
    - intros o a0 A. apply in_app_iff in A as [A|[A|[]]].
      + eapply (ek_kind _ _ _ _ E); eauto.
      + inversion A; subst. destruct (Ko o eq_refl) as (b & B & C). exists b, b'. auto.
  Qed.
  Lemma env_ok_atom e h P a i : env_ok e h P -> (forall v, ~ In (KAtom a i, v) e) -> env_ok (e ++ [(KAtom a i, VA a 0)]) h P.
  Proof.
    intros E Hk. constructor.
    - intros k0 v v' Hn A B. apply in_app_iff in A as [A|[A|[]]]; apply in_app_iff in B as [B|[B|[]]].
      + eapply (ek_fun _ _ _ _ E); eauto.
      + inversion B; subst. exfalso. eapply Hk; eauto.
      + inversion A; subst. exfalso. eapply Hk; eauto.
      + congruence.
    - intros k0 k1 a0 A B. apply in_app_iff in A as [A|[A|[]]]; apply in_app_iff in B as [B|[B|[]]]; try discriminate.
      eapply (ek_inj _ _ _ _ E); eauto.
    - intros k0 a0 A. apply in_app_iff in A as [A|[A|[]]]; [eapply (ek_dom _ _ _ _ E); eauto|discriminate].
    - intros o v A. apply in_app_iff in A as [A|[A|[]]]; [eapply (ek_obj _ _ _ _ E); eauto|discriminate].
    - intros o v A. apply in_app_iff in A as [A|[A|[]]]; [eapply (ek_glb _ _ _ _ E); eauto|discriminate].
    - intros x j v A. apply in_app_iff in A as [A|[A|[]]]; [eapply (ek_atm _ _ _ _ E); eauto|].
      inversion A; subst. auto.
    - intros f v A. apply in_app_iff in A as [A|[A|[]]]; [|discriminate].
      destruct (ek_gk _ _ _ _ E f v A) as [(x & B)|B]; auto. left. exists x. apply in_app_iff. auto.
    - intros o a0 A. apply in_app_iff in A as [A|[A|[]]]; [|discriminate]. eapply (ek_kind _ _ _ _ E); eauto.
  Qed.

  Lemma memoize_run k s e m v r : memo s = map fst e -> mem m = index 0 (map snd e) -> stk m = v :: r ->
    exists ops m', memoize proto k s = Ok (ops, {| memo := memo s ++ [k]; post := post s |}) /\
      run ops m = Some m' /\ stk m' = stk m /\ meta m' = meta m /\ heap m' = heap m /\
      mem m' = index 0 (map snd (e ++ [(k, v)])).
  Proof.
    intros A B C. unfold memoize.
    assert (Hm : index 0 (map snd (e ++ [(k, v)])) = set (length (memo s)) v (mem m)).
    { rewrite map_app. simpl. rewrite B, <- index_set. simpl. rewrite A, !map_length. auto. }
    assert (Hl : length (mem m) = length (memo s)) by (rewrite A, B, index_length, !map_length; auto).
    destruct (Nat.leb 4 proto).
    - eexists; eexists. split; [reflexivity|]. cbn [run step]. rewrite C. split; [reflexivity|]. cbn. rewrite Hl, Hm. auto.
    - eexists; eexists. split; [reflexivity|]. cbn [run step]. rewrite C. split; [reflexivity|]. cbn. rewrite Hm. auto.
  Qed.

  (** opcodes making a value, and memoizing it *)
  Lemma ok_new X I ops k v r s e m m1 (Q : pst -> env -> vm -> Prop) :
    sync s e m -> run ops m = Some m1 -> mem m1 = mem m -> stk m1 = v :: r ->
    env_ok (e ++ [(k, v)]) (heap m1) (post s) ->
    Sim X I [] e (heap m) (post s) (e ++ [(k, v)]) (heap m1) (post s) ->
    (forall s' m', post s' = post s -> sync s' (e ++ [(k, v)]) m' -> stk m' = v :: r -> meta m' = meta m1 -> heap m' = heap m1 ->
                   Q s' (e ++ [(k, v)]) m') ->
    ok X I (emit ops ;; memoize proto k) s e m Q.
  Proof.
    intros S R M St E Si HQ ops' s' EE.
    destruct (memoize_run k s e m1 v r) as (o2 & m2 & A & B & C & D & F & G); auto.
    - apply (sy_memo _ _ _ _ S).
    - rewrite M. apply (sy_mem _ _ _ _ S).
    - unfold seq, emit in EE. rewrite A in EE. inversion EE; subst.
      assert (S' : sync {| memo := memo s ++ [k]; post := post s |} (e ++ [(k, v)]) m2).
      { constructor; cbn.
        - rewrite map_app, (sy_memo _ _ _ _ S). auto.
        - auto.
        - rewrite F. auto. }
      exists (e ++ [(k, v)]), m2. split; [rewrite (run_app _ _ _ _ R); auto|]. split; auto. cbn [post].
      split; [rewrite F; auto|]. apply HQ; auto; congruence.
  Qed.

  (** ** saving values *)
  (** memo entries that saving an object must not make: those of the objects being saved *)
  Definition Ik (P : list (oid * list pp)) (k : key) : Prop :=
    match k with KObj o | KGlob o => In o (map fst P) | _ => False end.
  Definition P_val (v : val) (m : vm) (s' : pst) (e' : env) (m' : vm) : Prop :=
    exists v', stk m' = v' :: stk m /\ meta m' = meta m /\ val_rel (Renv e') v v'.
  Definition sv_ok (sv : val -> act) : Prop :=
    forall v s e m, sync s e m -> ok X0 (Ik (post s)) (sv v) s e m (P_val v m).

  Variable sv : val -> act.
  Hypothesis SV : sv_ok sv.

  Lemma sv_okI v s e m (I : key -> Prop) : sync s e m -> (forall k, I k -> Ik (post s) k) ->
    ok X0 I (sv v) s e m (P_val v m).
  Proof. intros S HI. eapply ok_I; [exact HI|]. now apply SV. Qed.

  Lemma Sim_inI X I L e h P e' h' P' (I' : key -> Prop) : Sim X I L e h P e' h' P' ->
    (forall k, I' k -> Ik P k) -> (forall k, I' k -> Ik P' k).
  Proof. intros S. unfold Ik. rewrite (Sim_ids _ _ _ _ _ _ _ _ _ _ S). auto. Qed.
  Lemma Sim_Renv X I L e h P e' h' P' o a : Sim X I L e h P e' h' P' -> Renv e o a -> Renv e' o a.
  Proof. intros S. apply (s_env S). Qed.
  Lemma Sim_val X I L e h P e' h' P' v v' : Sim X I L e h P e' h' P' -> val_rel (Renv e) v v' -> val_rel (Renv e') v v'.
  Proof. intros S. apply val_rel_mono. intros o a. apply (s_env S). Qed.
  Lemma Sim_vals X I L e h P e' h' P' v v' : Sim X I L e h P e' h' P' ->
    Forall2 (val_rel (Renv e)) v v' -> Forall2 (val_rel (Renv e')) v v'.
  Proof. intros S. apply vals_mono. intros o a. apply (s_env S). Qed.
  Lemma Sim_items X I L e h P e' h' P' v v' : Sim X I L e h P e' h' P' ->
    Forall2 (item_rel (Renv e)) v v' -> Forall2 (item_rel (Renv e')) v v'.
  Proof. intros S. apply items_mono. intros o a. apply (s_env S). Qed.
  Lemma Sim_state X I L e h P e' h' P' v v' : Sim X I L e h P e' h' P' ->
    state_rel (Renv e) v v' -> state_rel (Renv e') v v'.
  Proof. intros S. apply state_rel_mono. intros o a. apply (s_env S). Qed.

  Lemma seqs_sv_ok vs : forall s e m (I : key -> Prop), sync s e m -> (forall k, I k -> Ik (post s) k) ->
    ok X0 I (seqs sv vs) s e m
       (fun s' e' m' => exists vs', stk m' = rev vs' ++ stk m /\ meta m' = meta m /\ Forall2 (val_rel (Renv e')) vs vs').
  Proof.
    induction vs as [|v vs IH]; intros s e m I S HI; cbn [seqs].
    - apply ok_nil; auto. exists []. repeat split; auto.
    - eapply ok_seq; [apply sv_okI; auto|]. intros s1 e1 m1 S1 Si1 (v' & A & B & C).
      eapply ok_conseq; [apply IH; auto; eapply Sim_inI; eauto|].
      intros s2 e2 m2 S2 Si2 (vs' & A2 & B2 & C2). exists (v' :: vs').
      rewrite A2, A, B2, B. cbn [rev]. rewrite <- app_assoc. repeat split; auto.
      constructor; auto. eapply Sim_val; eauto.
  Qed.

  Lemma save_kv_ok p s e m (I : key -> Prop) : sync s e m -> (forall k, I k -> Ik (post s) k) ->
    ok X0 I (save_kv sv p) s e m
       (fun s' e' m' => exists p', stk m' = snd p' :: fst p' :: stk m /\ meta m' = meta m /\ item_rel (Renv e') p p').
  Proof.
    intros S HI. eapply ok_seq; [apply sv_okI; auto|]. intros s1 e1 m1 S1 Si1 (v' & A & B & C).
    eapply ok_conseq; [apply sv_okI; auto; eapply Sim_inI; eauto|].
    intros s2 e2 m2 S2 Si2 (w & A2 & B2 & C2). exists (v', w). cbn. rewrite A2, A, B2, B. repeat split; auto.
    eapply Sim_val; eauto.
  Qed.
  Fixpoint flat (l : list (val * val)) : list val := match l with [] => [] | (k, v) :: l => k :: v :: flat l end.
  Lemma pairs_flat l : pairs (flat l) = Some l.
  Proof. induction l as [|[k v] l IH]; simpl; auto. now rewrite IH. Qed.
  Lemma seqs_kv_ok kvs : forall s e m (I : key -> Prop), sync s e m -> (forall k, I k -> Ik (post s) k) ->
    ok X0 I (seqs (save_kv sv) kvs) s e m
       (fun s' e' m' => exists kvs', stk m' = rev (flat kvs') ++ stk m /\ meta m' = meta m /\ Forall2 (item_rel (Renv e')) kvs kvs').
  Proof.
    induction kvs as [|v vs IH]; intros s e m I S HI; cbn [seqs].
    - apply ok_nil; auto. exists []. repeat split; auto.
    - eapply ok_seq; [apply save_kv_ok; auto|]. intros s1 e1 m1 S1 Si1 ([k' v'] & A & B & C).
      eapply ok_conseq; [apply IH; auto; eapply Sim_inI; eauto|].
      intros s2 e2 m2 S2 Si2 (vs' & A2 & B2 & C2). exists ((k', v') :: vs').
      rewrite A2, A, B2, B. cbn [flat rev]. rewrite <- !app_assoc. repeat split; auto.
      constructor; auto. eapply item_rel_mono; [|exact C]. intros o a. apply (s_env Si2).
  Qed.

  (** ** batches *)
  (** [T n s e m]: the target is on top of the stack and holds [l] *)
  Section Batches.
    Variable A : Type.
    Variables (one : A -> act) (many : list A -> act).
    Variables (X : nat -> Prop) (I : key -> Prop).
    Variable T : list A -> pst -> env -> vm -> Prop.
    Variable M : A -> Prop.
    Hypothesis T_one : forall l x s e m, M x -> sync s e m -> T l s e m -> ok X I (one x) s e m (T (l ++ [x])).
    Hypothesis T_many : forall l l' s e m, Forall M l' -> sync s e m -> T l s e m -> ok X I (many l') s e m (T (l ++ l')).
    Lemma Forall_cut n (l : list A) : Forall M l -> Forall M (firstn n l) /\ Forall M (skipn n l).
    Proof. intros F. rewrite <- (firstn_skipn n l) in F. now apply Forall_app. Qed.
    Lemma batches_okM fuel : forall l l0 s e m, Forall M l -> length l < fuel -> sync s e m -> T l0 s e m ->
      ok X I (batches one many fuel l) s e m (T (l0 ++ l)).
    Proof.
      induction fuel as [|fuel IH]; intros l l0 s e m HM Hl S HT; [lia|]. cbn [batches].
      destruct (Forall_cut BATCHSIZE l HM) as (HM1 & HM2).
      set (tmp := firstn BATCHSIZE l) in *.
      eapply ok_seq with (Q := T (l0 ++ tmp)).
      - destruct tmp as [|x [|y tmp']] eqn:E.
        + rewrite app_nil_r. apply ok_nil; auto.
        + apply T_one; auto. now inversion HM1.
        + apply T_many; auto.
      - intros s1 e1 m1 S1 Si1 HT1. destruct (Nat.ltb_spec (length tmp) BATCHSIZE) as [Hb|Hb].
        + assert (El : l = tmp).
          { subst tmp. symmetry. rewrite firstn_length in Hb.
            apply firstn_all2. lia. }
          rewrite El. apply ok_nil; auto.
        + rewrite <- (firstn_skipn BATCHSIZE l) at 2. fold tmp. rewrite app_assoc. apply IH; auto.
          subst tmp. rewrite firstn_length in Hb. rewrite skipn_length. unfold BATCHSIZE in *. lia.
    Qed.
    Lemma seqs_one_okM l : forall l0 s e m, Forall M l -> sync s e m -> T l0 s e m -> ok X I (seqs one l) s e m (T (l0 ++ l)).
    Proof.
      induction l as [|x l IH]; intros l0 s e m HM S HT; cbn [seqs].
      - rewrite app_nil_r. apply ok_nil; auto.
      - inversion HM; subst. eapply ok_seq; [apply T_one; eauto|]. intros s1 e1 m1 S1 _ HT1.
        change (x :: l) with ([x] ++ l). rewrite app_assoc. apply IH; auto.
    Qed.
  End Batches.
  Lemma Forall_True {A} (l : list A) : Forall (fun _ => True) l.
  Proof. induction l; auto. Qed.
  Lemma batches_ok A (one : A -> act) (many : list A -> act) X I (T : list A -> pst -> env -> vm -> Prop) :
    (forall l x s e m, sync s e m -> T l s e m -> ok X I (one x) s e m (T (l ++ [x]))) ->
    (forall l l' s e m, sync s e m -> T l s e m -> ok X I (many l') s e m (T (l ++ l'))) ->
    forall fuel l l0 s e m, length l < fuel -> sync s e m -> T l0 s e m -> ok X I (batches one many fuel l) s e m (T (l0 ++ l)).
  Proof. intros T1 T2 fuel l l0 s e m Hl S HT. apply batches_okM with (M := fun _ => True); auto using Forall_True. Qed.
  Lemma seqs_one_ok A (one : A -> act) X I (T : list A -> pst -> env -> vm -> Prop) :
    (forall l x s e m, sync s e m -> T l s e m -> ok X I (one x) s e m (T (l ++ [x]))) ->
    forall l l0 s e m, sync s e m -> T l0 s e m -> ok X I (seqs one l) s e m (T (l0 ++ l)).
  Proof. intros T1 l l0 s e m S HT. apply seqs_one_okM with (M := fun _ => True); auto using Forall_True. Qed.

  Lemma setitems_app d a b : setitems d (a ++ b) = setitems (setitems d a) b.
  Proof. unfold setitems. apply fold_left_app. Qed.

  Lemma env_Rfun e h P : env_ok e h P -> forall o a a', Renv e o a -> Renv e o a' -> a = a'.
  Proof. intros E o a a' A B. assert (F : VR a = VR a') by (eapply (ek_fun _ _ _ _ E); eauto; discriminate). congruence. Qed.
  Lemma env_Rinj e h P : env_ok e h P -> forall o o' a, Renv e o a -> Renv e o' a -> o = o'.
  Proof. intros E o o' a A B. assert (F : KObj o = KObj o') by (eapply (ek_inj _ _ _ _ E); eauto). congruence. Qed.

  (** objects with items: [W d] is the object with items [d] *)
  Definition dict_like (W : list (val * val) -> obj) : Prop :=
    (forall d kvs, set_all (Some (W d)) kvs = Some (W (setitems d kvs))) /\ forall d d', kind (W d) = kind (W d').
  Definition list_like (W : list val -> obj) : Prop :=
    (forall l vs, extend (Some (W l)) vs = Some (W (l ++ vs))) /\ forall d d', kind (W d) = kind (W d').
  Lemma dict_like_dict : dict_like ODict.
  Proof. split; reflexivity. Qed.
  Lemma dict_like_red nb c args li st : dict_like (fun di => ORed nb c args li di st).
  Proof. split; reflexivity. Qed.
  Lemma list_like_list : list_like OList.
  Proof. split; reflexivity. Qed.
  Lemma list_like_red nb c args di st : list_like (fun li => ORed nb c args li di st).
  Proof. split; reflexivity. Qed.

  (** the dictionary at [a] is on top of the stack and corresponds to [d] updated with [l] *)
  Definition T_dict (W : list (val * val) -> obj) (a : nat) (st : list val) (me : list (list val)) (I : key -> Prop) (d l : list (val * val)) (s : pst) (e : env) (m : vm) : Prop :=
    stk m = VR a :: st /\ meta m = me /\ (forall k, I k -> Ik (post s) k) /\
    exists d', nth_error (heap m) a = Some (W d') /\ Forall2 (item_rel (Renv e)) (setitems d l) d'.

  Lemma Sim_eq_mut a I e h P b : a < length h -> Sim (eq a) I [] e h P e (upd h a b) P.
  Proof.
    intros Ha. apply Sim_mut; [rewrite upd_length; auto|]. intros a' b' E N. rewrite nth_upd_other; auto.
  Qed.
  Lemma heap_eq a I L e h P e' h' P' : Sim (eq a) I L e h P e' h' P' -> forall x b, x <> a -> nth_error h x = Some b -> nth_error h' x = Some b.
  Proof. intros S x b Hx E. eapply s_heap; eauto. Qed.

  Lemma Sim0_heap I L e h P e' h' P' a b : Sim X0 I L e h P e' h' P' -> nth_error h a = Some b -> nth_error h' a = Some b.
  Proof. intros S E. eapply s_heap; eauto. Qed.

  Lemma T_dict_one W a st me I d l x s e m : dict_like W -> sync s e m -> T_dict W a st me I d l s e m ->
    ok (eq a) I (save_kv sv x ;; emit [SETITEM]) s e m (T_dict W a st me I d (l ++ [x])).
  Proof.
    intros (LW & KW) S (A & B & HI & d' & C & D). pose proof (nth_lt _ _ _ C) as La.
    eapply ok_seq0; [intros ? <-; auto|apply save_kv_ok; eauto|].
    intros s1 e1 m1 S1 Si1 ([k' v'] & A1 & B1 & C1).
    pose proof (Sim0_heap _ _ _ _ _ _ _ _ _ _ Si1 C) as C'. cbn [fst snd] in A1.
    eapply ok_emit.
    - cbn [run step]. rewrite A1, A. rewrite C', LW. reflexivity.
    - eapply sync_vm; [exact S1|reflexivity|cbn; rewrite upd_length; auto|cbn]. eapply kind_upd; eauto.
    - cbn. apply Sim_eq_mut. eapply nth_lt; eauto.
    - unfold T_dict. cbn [stk meta heap set_heap set_stk]. split; auto. split; [congruence|]. split; [eapply Sim_inI; eauto|].
      exists (setitem d' k' v'). split; [apply nth_upd_same; eapply nth_lt; eauto|].
      rewrite setitems_app. cbn. destruct C1. apply setitem_rel; auto.
      + eapply env_Rfun; apply (sy_env _ _ _ _ S1).
      + eapply env_Rinj; apply (sy_env _ _ _ _ S1).
      + eapply Sim_items; eauto.
  Qed.
  Lemma T_dict_many W a st me I d l l' s e m : dict_like W -> sync s e m -> T_dict W a st me I d l s e m ->
    ok (eq a) I (emit [MARK] ;; seqs (save_kv sv) l' ;; emit [SETITEMS]) s e m (T_dict W a st me I d (l ++ l')).
  Proof.
    intros (LW & KW) S (A & B & HI & d' & C & D). pose proof (nth_lt _ _ _ C) as La.
    eapply ok_seq.
    { eapply ok_emit with (Q := fun s' e' m' => s' = s /\ e' = e /\ stk m' = [] /\ meta m' = stk m :: meta m /\ heap m' = heap m).
      - reflexivity.
      - eapply sync_stk; eauto.
      - apply Sim_refl.
      - cbn. auto. }
    intros s1 e1 m0 S1 _ (-> & -> & A0 & B0 & C0).
    eapply ok_seq0; [intros ? <-; rewrite C0; auto|apply seqs_kv_ok; eauto|].
    intros s1 e1 m1 S2 Si1 (kvs' & A1 & B1 & C1). rewrite C0 in Si1.
    pose proof (Sim0_heap _ _ _ _ _ _ _ _ _ _ Si1 C) as C'.
    rewrite A0, app_nil_r in A1. rewrite B0 in B1.
    eapply ok_emit.
    - cbn [run step]. unfold pop_mark. rewrite B1. cbn [stk heap]. rewrite A, C', A1, rev_involutive, pairs_flat, LW. reflexivity.
    - eapply sync_vm; [exact S2|reflexivity|cbn; rewrite upd_length; auto|cbn]. eapply kind_upd; eauto.
    - cbn. apply Sim_eq_mut. eapply nth_lt; eauto.
    - unfold T_dict. cbn [stk meta heap set_heap]. split; auto. split; auto. split; [eapply Sim_inI; eauto|].
      exists (setitems d' kvs'). split; [apply nth_upd_same; eapply nth_lt; eauto|].
      rewrite setitems_app. apply setitems_rel; auto.
      + eapply env_Rfun; apply (sy_env _ _ _ _ S2).
      + eapply env_Rinj; apply (sy_env _ _ _ _ S2).
      + eapply Sim_items; eauto.
  Qed.
  Lemma batch_setitems_ok W a st me I d kvs s e m : dict_like W -> sync s e m -> T_dict W a st me I d [] s e m ->
    ok (eq a) I (batch_setitems proto sv kvs) s e m (T_dict W a st me I d kvs).
  Proof.
    intros LW S HT. unfold batch_setitems. change kvs with ([] ++ kvs) at 4. destruct (bin proto).
    - apply batches_ok; auto.
      + intros. apply T_dict_one; auto.
      + intros. apply T_dict_many; auto.
    - change kvs with ([] ++ kvs) at 2. apply seqs_one_ok with (T := T_dict W a st me I d); auto.
      intros. apply T_dict_one; auto.
  Qed.

  (** setting items a dictionary already has *)
  Lemma setitem_in d k v : keys_distinct d -> In (k, v) d -> setitem d k v = d.
  Proof.
    induction d as [|[k1 v1] d IH]; cbn; [tauto|]. intros (Kd & K) [E|Hi].
    - injection E as -> ->. rewrite keyeq_refl. reflexivity.
    - rewrite keyeq_sym, (Kd _ _ Hi). now rewrite IH.
  Qed.
  Lemma setitems_in kvs : forall d, keys_distinct d -> (forall p, In p kvs -> In p d) -> setitems d kvs = d.
  Proof.
    induction kvs as [|[k v] kvs IH]; intros d Kd Hi; [reflexivity|].
    change (setitems d ((k, v) :: kvs)) with (setitems (setitem d k v) kvs).
    rewrite (setitem_in d k v Kd) by (apply Hi; left; auto). apply IH; auto. intros; apply Hi; right; auto.
  Qed.
  Lemma item_in (R : oid -> nat -> Prop) d d' p p' : (forall o a a', R o a -> R o a' -> a = a') ->
    Forall2 (item_rel R) d d' -> In p d -> item_rel R p p' -> In p' d'.
  Proof.
    intros Rf F. induction F as [|q q' d d' Q F IH]; [intros []|]. intros [->|Hi] Hp; [left|right; auto].
    destruct p as [k v], p' as [k' v'], q' as [k2 v2], Q as (A & B), Hp as (C & D). cbn in *.
    assert (VF : forall v x y, val_rel R v x -> val_rel R v y -> x = y).
    { intros w x y. destruct w, x, y; cbn; try tauto; [intros (-> & ->) (-> & ->); auto|intros; f_equal; eauto]. }
    rewrite (VF _ _ _ A C), (VF _ _ _ B D). reflexivity.
  Qed.
  Definition T_again (W : list (val * val) -> obj) (a : nat) (st : list val) (me : list (list val)) (I : key -> Prop) (d : list (val * val)) (s : pst) (e : env) (m : vm) : Prop :=
    stk m = VR a :: st /\ meta m = me /\ (forall k, I k -> Ik (post s) k) /\
    exists d', nth_error (heap m) a = Some (W d') /\ keys_distinct d' /\ Forall2 (item_rel (Renv e)) d d'.
  Lemma T_again_one W a st me I d x s e m : dict_like W -> In x d -> sync s e m -> T_again W a st me I d s e m ->
    ok X0 I (save_kv sv x ;; emit [SETITEM]) s e m (T_again W a st me I d).
  Proof.
    intros (LW & KW) Hx S (A & B & HI & d' & C & Kd & D). pose proof (nth_lt _ _ _ C) as La.
    eapply ok_seq; [apply save_kv_ok; eauto|].
    intros s1 e1 m1 S1 Si1 ([k' v'] & A1 & B1 & C1).
    pose proof (Sim0_heap _ _ _ _ _ _ _ _ _ _ Si1 C) as C'. cbn [fst snd] in A1.
    assert (D' : Forall2 (item_rel (Renv e1)) d d') by (eapply Sim_items; eauto).
    assert (Hi : setitems d' [(k', v')] = d').
    { apply setitems_in; auto. intros p [<-|[]]. eapply item_in; [eapply env_Rfun; apply (sy_env _ _ _ _ S1)|exact D'|exact Hx|exact C1]. }
    eapply ok_emit.
    - cbn [run step]. rewrite A1, A. rewrite C', LW, Hi, (upd_same _ _ _ C'). reflexivity.
    - eapply sync_stk; eauto.
    - apply Sim_refl.
    - unfold T_again. cbn [stk meta heap set_heap set_stk]. split; auto. split; [congruence|]. split; [eapply Sim_inI; eauto|]. exists d'. auto.
  Qed.
  Lemma T_again_many W a st me I d l' s e m : dict_like W -> (forall x, In x l' -> In x d) -> sync s e m -> T_again W a st me I d s e m ->
    ok X0 I (emit [MARK] ;; seqs (save_kv sv) l' ;; emit [SETITEMS]) s e m (T_again W a st me I d).
  Proof.
    intros (LW & KW) Hx S (A & B & HI & d' & C & Kd & D). pose proof (nth_lt _ _ _ C) as La.
    eapply ok_seq.
    { eapply ok_emit with (Q := fun s' e' m' => s' = s /\ e' = e /\ stk m' = [] /\ meta m' = stk m :: meta m /\ heap m' = heap m).
      - reflexivity.
      - eapply sync_stk; eauto.
      - apply Sim_refl.
      - cbn. auto. }
    intros s1 e1 m0 S1 _ (-> & -> & A0 & B0 & C0).
    eapply ok_seq; [apply seqs_kv_ok; eauto|].
    intros s1 e1 m1 S2 Si1 (kvs' & A1 & B1 & C1). rewrite C0 in Si1.
    pose proof (Sim0_heap _ _ _ _ _ _ _ _ _ _ Si1 C) as C'.
    rewrite A0, app_nil_r in A1. rewrite B0 in B1.
    assert (D' : Forall2 (item_rel (Renv e1)) d d') by (eapply Sim_items; eauto).
    assert (Rf : forall o a a', Renv e1 o a -> Renv e1 o a' -> a = a') by (eapply env_Rfun; apply (sy_env _ _ _ _ S2)).
    assert (Hi : setitems d' kvs' = d').
    { apply setitems_in; auto. clear - C1 D' Hx Rf. induction C1 as [|p p' l l' Q F IH]; [intros ? []|]. intros q [<-|Hq].
      - eapply item_in; [exact Rf|exact D'|apply Hx; left; auto|exact Q].
      - apply IH; auto. intros; apply Hx; right; auto. }
    eapply ok_emit.
    - cbn [run step]. unfold pop_mark. rewrite B1. cbn [stk heap]. rewrite A, C', A1, rev_involutive, pairs_flat, LW, Hi, (upd_same _ _ _ C'). reflexivity.
    - eapply sync_stk; eauto.
    - apply Sim_refl.
    - unfold T_again. cbn [stk meta heap set_heap]. split; auto. split; auto. split; [eapply Sim_inI; eauto|]. exists d'. auto.
  Qed.
  Lemma batch_setitems_again_ok W a st me I kvs s e m : dict_like W -> sync s e m -> T_again W a st me I kvs s e m ->
    ok X0 I (batch_setitems proto sv kvs) s e m (T_again W a st me I kvs).
  Proof.
    intros LW S HT. unfold batch_setitems. assert (F : Forall (fun x => In x kvs) kvs) by (apply Forall_forall; auto). destruct (bin proto).
    - refine (batches_okM _ _ _ X0 I (fun _ => T_again W a st me I kvs) (fun x => In x kvs) _ _ _ kvs [] s e m F _ S HT); auto.
      + intros. apply T_again_one; auto.
      + intros. apply T_again_many; auto. now apply Forall_forall.
    - refine (seqs_one_okM _ _ X0 I (fun _ => T_again W a st me I kvs) (fun x => In x kvs) _ kvs [] s e m F S HT); auto.
      intros. apply T_again_one; auto.
  Qed.

  Definition T_list (W : list val -> obj) (a : nat) (st : list val) (me : list (list val)) (I : key -> Prop) (l : list val) (s : pst) (e : env) (m : vm) : Prop :=
    stk m = VR a :: st /\ meta m = me /\ (forall k, I k -> Ik (post s) k) /\
    exists d', nth_error (heap m) a = Some (W d') /\ Forall2 (val_rel (Renv e)) l d'.
  Lemma T_list_one W a st me I l x s e m : list_like W -> sync s e m -> T_list W a st me I l s e m ->
    ok (eq a) I (sv x ;; emit [APPEND]) s e m (T_list W a st me I (l ++ [x])).
  Proof.
    intros (LW & KW) S (A & B & HI & d' & C & D). pose proof (nth_lt _ _ _ C) as La.
    eapply ok_seq0; [intros ? <-; auto|apply sv_okI; eauto|].
    intros s1 e1 m1 S1 Si1 (v' & A1 & B1 & C1).
    pose proof (Sim0_heap _ _ _ _ _ _ _ _ _ _ Si1 C) as C'.
    eapply ok_emit.
    - cbn [run step]. rewrite A1, A. rewrite C', LW. reflexivity.
    - eapply sync_vm; [exact S1|reflexivity|cbn; rewrite upd_length; auto|cbn]. eapply kind_upd; eauto.
    - cbn. apply Sim_eq_mut. eapply nth_lt; eauto.
    - unfold T_list. cbn [stk meta heap set_heap set_stk]. split; auto. split; [congruence|]. split; [eapply Sim_inI; eauto|].
      exists (d' ++ [v']). split; [apply nth_upd_same; eapply nth_lt; eauto|].
      apply Forall2_app; auto. eapply Sim_vals; eauto.
  Qed.
  Lemma T_list_many W a st me I l l' s e m : list_like W -> sync s e m -> T_list W a st me I l s e m ->
    ok (eq a) I (emit [MARK] ;; seqs sv l' ;; emit [APPENDS]) s e m (T_list W a st me I (l ++ l')).
  Proof.
    intros (LW & KW) S (A & B & HI & d' & C & D). pose proof (nth_lt _ _ _ C) as La.
    eapply ok_seq.
    { eapply ok_emit with (Q := fun s' e' m' => s' = s /\ e' = e /\ stk m' = [] /\ meta m' = stk m :: meta m /\ heap m' = heap m).
      - reflexivity.
      - eapply sync_stk; eauto.
      - apply Sim_refl.
      - cbn. auto. }
    intros s1 e1 m0 S1 _ (-> & -> & A0 & B0 & C0).
    eapply ok_seq0; [intros ? <-; rewrite C0; auto|apply seqs_sv_ok; eauto|].
    intros s1 e1 m1 S2 Si1 (kvs' & A1 & B1 & C1). rewrite C0 in Si1.
    pose proof (Sim0_heap _ _ _ _ _ _ _ _ _ _ Si1 C) as C'.
    rewrite A0, app_nil_r in A1. rewrite B0 in B1.
    eapply ok_emit.
    - cbn [run step]. unfold pop_mark. rewrite B1. cbn [stk heap]. rewrite A, C', A1, rev_involutive, LW. reflexivity.
    - eapply sync_vm; [exact S2|reflexivity|cbn; rewrite upd_length; auto|cbn]. eapply kind_upd; eauto.
    - cbn. apply Sim_eq_mut. eapply nth_lt; eauto.
    - unfold T_list. cbn [stk meta heap set_heap]. split; auto. split; auto. split; [eapply Sim_inI; eauto|].
      exists (d' ++ kvs'). split; [apply nth_upd_same; eapply nth_lt; eauto|].
      apply Forall2_app; auto. eapply Sim_vals; eauto.
  Qed.
  Lemma batch_appends_ok W a st me I vs s e m : list_like W -> sync s e m -> T_list W a st me I [] s e m ->
    ok (eq a) I (batch_appends proto sv vs) s e m (T_list W a st me I vs).
  Proof.
    intros LW S HT. unfold batch_appends. change vs with ([] ++ vs) at 4. destruct (bin proto).
    - apply batches_ok; auto.
      + intros. apply T_list_one; auto.
      + intros. apply T_list_many; auto.
    - change vs with ([] ++ vs) at 2. apply seqs_one_ok with (T := T_list W a st me I); auto.
      intros. apply T_list_one; auto.
  Qed.

  (** ** dictionaries and lists *)

  (** a memo key for an object that is new at [e] *)
  Definition key_new (k : key) (I : key -> Prop) (e : env) (P : list (oid * list pp)) : Prop :=
    (k <> KAnon -> forall v, ~ In (k, v) e) /\
    (forall x i, k <> KAtom x i) /\
    (forall f, k = KGlob f -> In f (map fst P) /\ ~ I (KGlob f)).

  (** what is under construction is the object of [k] only *)
  Lemma Sim_done I e0 h0 P0 e h P a k : length h0 <= a -> env_ok e h P -> In (k, VR a) e ->
    (forall o, k = KObj o -> complete H e (hidn X0 (length h0) h) o a) ->
    (forall p o, k = KObj o -> tgt p = o -> ~ kind_ok H p) ->
    Sim (eq a) I [] e0 h0 P0 e h P -> Sim X0 I [] e0 h0 P0 e h P.
  Proof.
    intros La E Hk HC HN S. apply (Sim_finish H (eq a) I [] []); [| | | | |exact S].
    - intros ? <-. auto.
    - auto.
    - intros o a' <- Ho. right; left. apply HC. eapply (ek_inj _ _ _ _ E); eauto.
    - intros o a' p <- Ho Ht K. exfalso. eapply HN; eauto. eapply (ek_inj _ _ _ _ E); eauto.
    - intros p o a' [].
  Qed.

  Definition P_dict (a : nat) (k : key) (kvs : list (val * val)) (m : vm) (s' : pst) (e' : env) (m' : vm) : Prop :=
    stk m' = VR a :: stk m /\ meta m' = meta m /\ In (k, VR a) e' /\
    exists d', nth_error (heap m') a = Some (ODict d') /\ Forall2 (item_rel (Renv e')) kvs d'.

  Lemma Sim_alloc (X : nat -> Prop) (I : key -> Prop) e h P k b : (forall a, X a <-> a = length h) ->
    (forall o, k = KObj o -> ~ is_proc H o \/ ~ I (KObj o)) -> (forall f, k = KGlob f -> ~ I (KGlob f)) ->
    Sim X I [] e h P (e ++ [(k, VR (length h))]) (h ++ [b]) P.
  Proof.
    intros HX Ho Hg. apply Sim_new; auto.
    - rewrite app_length. lia.
    - intros a b' E _. rewrite nth_app_l; auto. eapply nth_lt; eauto.
    - intros o a _ Ev. inversion Ev; subst. left. now apply HX.
    - intros a Ev. inversion Ev; subst. auto.
  Qed.
  Lemma env_ok_alloc e h P k b I : env_ok e h P -> key_new k I e P ->
    (forall o, k = KObj o -> exists b0, H o = Some b0 /\ kind b = kind b0) ->
    env_ok (e ++ [(k, VR (length h))]) (h ++ [b]) P.
  Proof.
    intros E (K1 & K2 & K3) Ko. eapply env_ok_add; eauto.
    - eapply env_ok_heap; [exact E| |].
      + rewrite app_length; lia.
      + apply kind_app.
    - intros k' a' Hi. pose proof (ek_dom _ _ _ _ E k' a' Hi). lia.
    - apply nth_snoc.
    - intros f Hf. now apply K3.
  Qed.

  Lemma save_dict_ok k kvs s e m (I : key -> Prop) : sync s e m -> (forall k, I k -> Ik (post s) k) ->
    key_new k I e (post s) -> (forall o, k = KObj o -> H o = Some (ODict kvs)) -> keys_distinct kvs ->
    ok X0 I (save_dict proto sv k kvs) s e m (P_dict (length (heap m)) k kvs m).
  Proof.
    intros S HI K Ko Kd. set (a := length (heap m)).
    assert (O : ok (eq a) I (save_dict proto sv k kvs) s e m
                  (fun s' e' m' => In (k, VR a) e' /\ T_dict ODict a (stk m) (meta m) I [] kvs s' e' m')).
    { unfold save_dict. eapply ok_ext; [symmetry; apply seq_assoc|].
      set (m1 := alloc (ODict []) m).
      eapply ok_seq.
      - eapply ok_new with (m1 := m1) (v := VR a) (r := stk m)
          (Q := fun s' e' m' => In (k, VR a) e' /\ T_dict ODict a (stk m) (meta m) I [] [] s' e' m'); auto.
        + destruct (bin proto); [reflexivity|]. cbn. unfold m1, alloc. destruct m; reflexivity.
        + apply env_ok_alloc with (I := I); auto; [apply (sy_env _ _ _ _ S)|].
          intros o Hk. exists (ODict kvs). split; auto.
        + apply Sim_alloc.
          * intros x; split; auto.
          * intros o Hk. left. unfold is_proc. rewrite (Ko o Hk). auto.
          * apply K.
        + intros s' m' Ep S' St Me He. split; [apply in_app_iff; right; left; auto|]. split; auto.
          split; [rewrite Me; auto|]. split; [rewrite Ep; auto|]. exists []. rewrite He. split; [apply nth_snoc|constructor].
      - intros s1 e1 m2 S2 Si2 [Hin HT]. eapply ok_conseq; [apply batch_setitems_ok; eauto using dict_like_dict|].
        intros s' e' m' S' Si' HT'. split; auto. now apply (s_env Si'). }
    intros ops s' E. destruct (O _ _ E) as (e' & m' & R & S' & Si & Hin & A & B & _ & d' & C & D).
    exists e', m'. split; auto. split; auto. rewrite setitems_nil in D by auto. split.
    - eapply Sim_done with (a := a) (k := k); eauto.
      + apply (sy_env _ _ _ _ S').
      + intros o Hk. exists (ODict kvs), (ODict d'). split; [auto|]. split.
        * repeat split; auto.
        * exact D.
      + intros p o Hk Ht Kp. specialize (Ko o Hk). destruct p; cbn in *; subst.
        * destruct Kp as (v & Kp). congruence.
        * destruct Kp as (? & ? & ? & ? & ? & ? & ? & ? & Kp & _). congruence.
        * destruct Kp as (? & ? & ? & ? & ? & Kp). congruence.
    - split; [exact A|]. split; [exact B|]. split; auto. exists d'. auto.
  Qed.

  Lemma no_kind o b : H o = Some b -> kind b < 5 -> forall p, tgt p = o -> ~ kind_ok H p.
  Proof.
    intros Ho Hb p Ht Kp. destruct p; cbn in *; subst.
    - destruct Kp as (v & Kp). rewrite Kp in Ho. inversion Ho; subst. cbn in Hb. lia.
    - destruct Kp as (? & ? & ? & ? & ? & ? & ? & ? & Kp & _). rewrite Kp in Ho. inversion Ho; subst. cbn in Hb. lia.
    - destruct Kp as (? & ? & ? & ? & ? & Kp). rewrite Kp in Ho. inversion Ho; subst. cbn in Hb. lia.
  Qed.
  Lemma no_proc o b : H o = Some b -> kind b <> 5 -> kind b <> 6 -> ~ is_proc H o.
  Proof. unfold is_proc. intros -> A B. destruct b; cbn in *; auto; congruence. Qed.

  Definition P_list (a : nat) (k : key) (vs : list val) (m : vm) (s' : pst) (e' : env) (m' : vm) : Prop :=
    stk m' = VR a :: stk m /\ meta m' = meta m /\ In (k, VR a) e' /\
    exists d', nth_error (heap m') a = Some (OList d') /\ Forall2 (val_rel (Renv e')) vs d'.
  Lemma save_listk_ok k vs s e m (I : key -> Prop) : sync s e m -> (forall k, I k -> Ik (post s) k) ->
    key_new k I e (post s) -> (forall o, k = KObj o -> H o = Some (OList vs)) ->
    ok X0 I (save_list proto sv k vs) s e m (P_list (length (heap m)) k vs m).
  Proof.
    intros S HI K Ko. set (a := length (heap m)).
    assert (O : ok (eq a) I (save_list proto sv k vs) s e m
                  (fun s' e' m' => In (k, VR a) e' /\ T_list OList a (stk m) (meta m) I vs s' e' m')).
    { unfold save_list. eapply ok_ext; [symmetry; apply seq_assoc|].
      set (m1 := alloc (OList []) m).
      eapply ok_seq.
      - eapply ok_new with (m1 := m1) (v := VR a) (r := stk m)
          (Q := fun s' e' m' => In (k, VR a) e' /\ T_list OList a (stk m) (meta m) I [] s' e' m'); auto.
        + destruct (bin proto); [reflexivity|]. cbn. unfold m1, alloc. destruct m; reflexivity.
        + apply env_ok_alloc with (I := I); auto; [apply (sy_env _ _ _ _ S)|].
          intros o' Hk. exists (OList vs). split; auto.
        + apply Sim_alloc.
          * intros x; split; auto.
          * intros o' Hk. left. eapply no_proc; [apply Ko; exact Hk|discriminate|discriminate].
          * apply K.
        + intros s' m' Ep S' St Me He. split; [apply in_app_iff; right; left; auto|]. split; auto.
          split; [rewrite Me; auto|]. split; [rewrite Ep; auto|]. exists []. rewrite He. split; [apply nth_snoc|constructor].
      - intros s1 e1 m2 S2 Si2 [Hin HT]. eapply ok_conseq; [apply batch_appends_ok; eauto using list_like_list|].
        intros s' e' m' S' Si' HT'. split; auto. now apply (s_env Si'). }
    intros ops s' E. destruct (O _ _ E) as (e' & m' & R & S' & Si & Hin & A & B & _ & d' & C & D).
    exists e', m'. split; auto. split; auto. split.
    - eapply Sim_done with (a := a) (k := k); eauto.
      + apply (sy_env _ _ _ _ S').
      + intros o' Hk. exists (OList vs), (OList d'). split; [auto|]. split.
        * repeat split; auto.
        * exact D.
      + intros p o' Hk Ht. eapply no_kind; [apply Ko; exact Hk| |exact Ht]. cbn; lia.
    - split; [exact A|]. split; [exact B|]. split; auto. exists d'. auto.
  Qed.
  Lemma save_list_ok o vs s e m (I : key -> Prop) : sync s e m -> (forall k, I k -> Ik (post s) k) ->
    (forall v, ~ In (KObj o, v) e) -> H o = Some (OList vs) ->
    ok X0 I (save_list proto sv (KObj o) vs) s e m (P_val (VR o) m).
  Proof.
    intros S HI K Ho. eapply ok_conseq; [apply save_listk_ok; auto|].
    - split; auto. split; [intros; discriminate|]. intros; discriminate.
    - intros o' Hk. inversion Hk; subst. auto.
    - intros s' e' m' S' _ (A & B & C & _). exists (VR (length (heap m))). auto.
  Qed.

  (** ** sets *)
  Lemma set_adds_app d a b : set_adds d (a ++ b) = set_adds (set_adds d a) b.
  Proof. unfold set_adds. apply fold_left_app. Qed.
  Lemma set_adds_rel (R : oid -> nat -> Prop) (Rfun : forall o a a', R o a -> R o a' -> a = a') (Rinj : forall o o' a, R o a -> R o' a -> o = o') vs vs' :
    Forall2 (val_rel R) vs vs' -> forall d d', Forall2 (val_rel R) d d' -> Forall2 (val_rel R) (set_adds d vs) (set_adds d' vs').
  Proof.
    induction 1 as [|v v' vs vs' A F IH]; intros d d' D; cbn; auto. apply IH. unfold set_add.
    assert (E : existsb (keyeq v) d = existsb (keyeq v') d').
    { clear - D A Rfun Rinj. induction D as [|x x' d d' B D IH]; cbn; auto. rewrite (keyeq_rel R Rfun Rinj v v' x x' A B). now rewrite IH. }
    rewrite E. destruct (existsb (keyeq v') d'); auto. apply Forall2_app; auto.
  Qed.
  Lemma set_adds_new vs : forall d, elems_distinct vs -> (forall v v', In v vs -> In v' d -> keyeq v v' = false) -> set_adds d vs = d ++ vs.
  Proof.
    induction vs as [|v vs IH]; intros d; cbn; [now rewrite app_nil_r|]. intros [A B] F.
    assert (N : existsb (keyeq v) d = false).
    { destruct (existsb (keyeq v) d) eqn:E; [|reflexivity]. apply existsb_exists in E as (x & Hx & E). rewrite F in E; [discriminate|now left|exact Hx]. }
    unfold set_adds in *. cbn [fold_left]. unfold set_add at 2. rewrite N. rewrite IH; auto.
    - now rewrite <- app_assoc.
    - intros w w' Hw Hw'. apply in_app_iff in Hw' as [Hw'|[<-|[]]]; [apply F; auto; now right|]. rewrite keyeq_sym. now apply A.
  Qed.
  Lemma set_adds_nil vs : elems_distinct vs -> set_adds [] vs = vs.
  Proof. intros D. rewrite set_adds_new; auto. intros ? ? _ []. Qed.

  Definition T_set (a : nat) (st : list val) (me : list (list val)) (I : key -> Prop) (l : list val) (s : pst) (e : env) (m : vm) : Prop :=
    stk m = VR a :: st /\ meta m = me /\ (forall k, I k -> Ik (post s) k) /\
    exists d', nth_error (heap m) a = Some (OSet false d') /\ Forall2 (val_rel (Renv e)) (set_adds [] l) d'.
  Lemma T_set_many a st me I l l' s e m : sync s e m -> T_set a st me I l s e m ->
    ok (eq a) I (add_batch sv l') s e m (T_set a st me I (l ++ l')).
  Proof.
    intros S (A & B & HI & d' & C & D). pose proof (nth_lt _ _ _ C) as La.
    eapply ok_seq.
    { eapply ok_emit with (Q := fun s' e' m' => s' = s /\ e' = e /\ stk m' = [] /\ meta m' = stk m :: meta m /\ heap m' = heap m).
      - reflexivity.
      - eapply sync_stk; eauto.
      - apply Sim_refl.
      - cbn. auto. }
    intros s1 e1 m0 S1 _ (-> & -> & A0 & B0 & C0).
    eapply ok_seq0; [intros ? <-; rewrite C0; auto|apply seqs_sv_ok; eauto|].
    intros s1 e1 m1 S2 Si1 (vs' & A1 & B1 & C1). rewrite C0 in Si1.
    pose proof (Sim0_heap _ _ _ _ _ _ _ _ _ _ Si1 C) as C'.
    rewrite A0, app_nil_r in A1. rewrite B0 in B1.
    eapply ok_emit.
    - cbn [run step]. unfold pop_mark. rewrite B1. cbn [stk heap]. rewrite A, C', A1, rev_involutive. reflexivity.
    - eapply sync_vm; [exact S2|reflexivity|cbn; rewrite upd_length; auto|cbn]. eapply kind_upd; eauto.
    - cbn. apply Sim_eq_mut. eapply nth_lt; eauto.
    - unfold T_set. cbn [stk meta heap set_heap]. split; auto. split; auto. split; [eapply Sim_inI; eauto|].
      exists (set_adds d' vs'). split; [apply nth_upd_same; eapply nth_lt; eauto|].
      rewrite set_adds_app. apply set_adds_rel; auto.
      + eapply env_Rfun; apply (sy_env _ _ _ _ S2).
      + eapply env_Rinj; apply (sy_env _ _ _ _ S2).
      + eapply Sim_vals; eauto.
  Qed.
  (** a set under protocols from 4 on *)
  Lemma save_newset_ok o vs s e m (I : key -> Prop) : sync s e m -> (forall k, I k -> Ik (post s) k) ->
    (forall v, ~ In (KObj o, v) e) -> H o = Some (OSet false vs) -> elems_distinct vs ->
    ok X0 I (emit [EMPTY_SET] ;; memoize proto (KObj o) ;; batches (fun v => add_batch sv [v]) (add_batch sv) (Datatypes.S (length vs)) vs) s e m (P_val (VR o) m).
  Proof.
    intros S HI Kn Ho Ed. set (a := length (heap m)).
    assert (K : key_new (KObj o) I e (post s)).
    { split; auto. split; [intros; discriminate|]. intros; discriminate. }
    assert (O : ok (eq a) I (emit [EMPTY_SET] ;; memoize proto (KObj o) ;; batches (fun v => add_batch sv [v]) (add_batch sv) (Datatypes.S (length vs)) vs) s e m
                  (fun s' e' m' => In (KObj o, VR a) e' /\ T_set a (stk m) (meta m) I vs s' e' m')).
    { eapply ok_ext; [symmetry; apply seq_assoc|].
      set (m1 := alloc (OSet false []) m).
      eapply ok_seq.
      - eapply ok_new with (m1 := m1) (v := VR a) (r := stk m)
          (Q := fun s' e' m' => In (KObj o, VR a) e' /\ T_set a (stk m) (meta m) I [] s' e' m'); auto.
        + apply env_ok_alloc with (I := I); auto; [apply (sy_env _ _ _ _ S)|].
          intros o' Hk. inversion Hk; subst. exists (OSet false vs). split; auto.
        + apply Sim_alloc.
          * intros x; split; auto.
          * intros o' Hk. inversion Hk; subst. left. eapply no_proc; [exact Ho|discriminate|discriminate].
          * apply K.
        + intros s' m' Ep S' St Me He. split; [apply in_app_iff; right; left; auto|]. split; auto.
          split; [rewrite Me; auto|]. split; [rewrite Ep; auto|]. exists []. rewrite He. split; [apply nth_snoc|constructor].
      - intros s1 e1 m2 S2 Si2 [Hin HT]. eapply ok_conseq with (Q := T_set a (stk m) (meta m) I vs).
        + change vs with ([] ++ vs) at 3. apply batches_ok; auto; intros; apply T_set_many; auto.
        + intros s' e' m' S' Si' HT'. split; auto. now apply (s_env Si'). }
    intros ops s' E. destruct (O _ _ E) as (e' & m' & R & S' & Si & Hin & A & B & _ & d' & C & D).
    rewrite set_adds_nil in D by exact Ed.
    exists e', m'. split; auto. split; auto. split.
    - eapply Sim_done with (a := a) (k := KObj o); eauto.
      + apply (sy_env _ _ _ _ S').
      + intros o' Hk. inversion Hk; subst. exists (OSet false vs), (OSet false d'). split; [auto|]. split.
        * repeat split; auto.
        * split; [reflexivity|exact D].
      + intros p o' Hk Ht. inversion Hk; subst. eapply no_kind; [exact Ho| |reflexivity]. cbn; lia.
    - exists (VR a). auto.
  Qed.
  Lemma save_dict_obj_ok o kvs s e m (I : key -> Prop) : sync s e m -> (forall k, I k -> Ik (post s) k) ->
    (forall v, ~ In (KObj o, v) e) -> H o = Some (ODict kvs) -> keys_distinct kvs ->
    ok X0 I (save_dict proto sv (KObj o) kvs) s e m (P_val (VR o) m).
  Proof.
    intros S HI K Ho Kd. eapply ok_conseq; [apply save_dict_ok; auto|].
    - split; auto. split; [intros; discriminate|]. intros; discriminate.
    - intros o' Hk. inversion Hk; subst. auto.
    - intros s' e' m' S' _ (A & B & C & _). exists (VR (length (heap m))). auto.
  Qed.

  (** ** constants *)
  Lemma save_atom_ok a i s e m (I : key -> Prop) : sync s e m -> ok X0 I (save_atom proto a i) s e m (P_val (VA a i) m).
  Proof.
    intros S. unfold save_atom. 
    assert (Hempty : ok X0 I (empty_tuple proto) s e m (P_val (VA AEmptyTuple i) m)).
    { eapply ok_emit with (m' := push (VA AEmptyTuple 0) m).
      - destruct (bin proto); [reflexivity|]. cbn. destruct m; reflexivity.
      - eapply sync_stk; eauto.
      - apply Sim_refl.
      - exists (VA AEmptyTuple 0). cbn. auto. }
    assert (Hconst : ok X0 I (emit [CONST a]) s e m (P_val (VA a i) m)).
    { eapply ok_emit with (m' := push (VA a 0) m).
      - reflexivity.
      - eapply sync_stk; eauto.
      - apply Sim_refl.
      - exists (VA a 0). cbn. auto. }
    assert (Hmemo : ok X0 I (fun s => match memo_get (KAtom a i) s with
                                      | Some n => Ok ([GET n], s)
                                      | None => (emit [CONST a] ;; memoize proto (KAtom a i)) s end) s e m (P_val (VA a i) m)).
    { destruct (memo_get (KAtom a i) s) as [n|] eqn:E.
      - eapply ok_ext with (B := emit [GET n]); [rewrite E; reflexivity|].
        destruct (memo_get_some _ _ _ _ _ _ S E) as (v & A & B & _).
        rewrite (ek_atm _ _ _ _ (sy_env _ _ _ _ S) _ _ _ A) in *.
        eapply ok_emit with (m' := push (VA a 0) m).
        + cbn. rewrite B. reflexivity.
        + eapply sync_stk; eauto.
        + apply Sim_refl.
        + exists (VA a 0). cbn. auto.
      - eapply ok_ext with (B := emit [CONST a] ;; memoize proto (KAtom a i)); [rewrite E; reflexivity|].
        assert (Hn : forall v, ~ In (KAtom a i, v) e) by (eapply memo_get_none; eauto; discriminate).
        eapply ok_new with (m1 := push (VA a 0) m) (v := VA a 0) (r := stk m); auto.
        + apply env_ok_atom; auto. apply (sy_env _ _ _ _ S).
        + apply Sim_new; auto; intros; discriminate.
        + intros s' m' Ep S' St Me He. exists (VA a 0). cbn. auto. }
    destruct a; try (exact Hempty); try (exact Hconst); exact Hmemo.
  Qed.
End Proofs.
