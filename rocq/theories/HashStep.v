(** For C81: what is hashed while items, arguments, tuples and states are loaded. *)
From Coq Require Import String List Bool Arith ZArith Lia.
From Verif Require Import PyDict CoreModel CoreSpec CoreSim CoreStep CoreReduce CoreObj CoreProc CoreMain CoreReach CoreInd CoreProps HashModel HashSpec HashBase.
Import ListNotations.
Local Open Scope string_scope.
Local Open Scope list_scope.

Section HashStep.
  Variable proto : nat.
  Variable H : oid -> option obj.
  Notation Sim := (Sim H).
  Notation sync := (sync H).
  Notation env_ok := (env_ok H).
  Notation ok := (ok H).
  Notation J := (J H).
  Notation PI := (PI H).
  Notation pi := (pi H).
  Notation EV := (EV H).
  Notation good := (good H).
  Notation cellH := (cellH H).

  (** ** the invariant after an action *)
  Lemma Jw x y s e m : J x s e m -> reach H (VR x) y -> J y s e m.
  Proof.
    intros (A & B & C) R. split; [|split; auto].
    - intros o a Ho. destruct (A o a Ho) as [X|[X|X]]; auto. right; right. eapply reach_trans; eauto.
    - intros z Hz. eapply reach_trans; eauto.
  Qed.
  Lemma J_heap x s e m m' : J x s e m -> heap m' = heap m -> J x s e m'.
  Proof. intros HJ E. unfold HashBase.J in *. rewrite E. exact HJ. Qed.
  Definition Xok (x : oid) (X : nat -> Prop) (e : env) : Prop :=
    (forall o a, Renv e o a -> X a -> reach H (VR o) x) /\ (forall f g, Genv e f g -> X g -> reach H (VR f) x).
  Lemma Xok0 x e : Xok x X0 e.
  Proof. split; intros ? ? ? []. Qed.
  Lemma obj_rel_hp (R : oid -> nat -> Prop) (G : nat -> Prop) (hp hp' : nat -> obj -> Prop) b b' : (forall g, G g -> forall b, hp g b -> hp' g b) ->
    obj_rel R H G hp b b' -> obj_rel R H G hp' b b'.
  Proof. intros Hh. apply obj_rel_mono; auto. Qed.
  Lemma J_sim x (X : nat -> Prop) I L s e m s' e' m' : J x s e m -> (forall a, X a \/ ~ X a) ->
    Sim X I L e (heap m) (post s) e' (heap m') (post s') -> Xok x X e' -> PI (post s') ->
    (forall p, In p L -> (exists c, p = PSetCell c) \/ reach H (VR (pp_tgt p)) x) -> sync s e m -> J x s' e' m'.
  Proof.
    intros (A & B & C) Dec Si (X1 & X2) P' HL Sy. pose proof (Sim_ids _ _ _ _ _ _ _ _ _ _ Si) as Ids. split; [|split; auto].
    - intros o a Ho. destruct (s_cov Si o a Ho) as [Ho'|[Hx|[Hc|(p & Hp & Ht & Hr)]]].
      + destruct (A o a Ho') as [(b & b' & Hb & Hh & Hr)|[Y|Y]]; auto.
        destruct (Dec a) as [Da|Da]; [right; right; eapply X1; eauto|].
        assert (G : (exists g, Genv e o g /\ X g) \/ (forall g, Genv e o g -> ~ X g)).
        { destruct (in_dec key_eq_dec (KGlob o) (map fst e)) as [Hi|Hi].
          - apply in_map_iff in Hi as ([k v] & Ek & Hi). cbn in Ek. subst k.
            destruct v as [|g].
            + destruct (ek_glb _ _ _ _ (sy_env _ _ _ _ Sy) _ _ Hi). discriminate.
            + destruct (Dec g) as [Dg|Dg]; [left; exists g; auto|]. right. intros g' Hg'. assert (E : VR g' = VR g) by (eapply (ek_fun _ _ _ _ (sy_env _ _ _ _ Sy)); [|exact Hg'|exact Hi]; discriminate). injection E as ->. auto.
          - right. intros g Hg. exfalso. apply Hi. apply in_map_iff. exists (KGlob o, VR g). auto. }
        destruct G as [(g & Hg & Xg)|G]; [right; right; eapply X2; [apply (s_env Si); exact Hg|exact Xg]|].
        left. exists b, b'. split; auto. split; [apply (s_heap Si); auto|].
        eapply obj_rel_mono; [| | |exact Hr].
        * intros o' a'. apply (s_env Si).
        * intros g. apply (s_env Si).
        * intros g b0 Hg Hgb. apply (s_heap Si); auto.
      + right; right. eapply X1; eauto.
      + left. eapply complete_mono; [| |exact Hc]; auto. intros a0 b0 (E & _). exact E.
      + subst o. assert (K : (exists c, p = PSetCell c) -> cellH (tgt p)).
        { intros (c & ->). cbn. destruct Hr as [((v & Hv) & _)|(a0 & v & w & _ & Hv & _)]; eexists; eauto. }
        assert (T : tgt p = pp_tgt p) by (destruct p; reflexivity).
        destruct Hp as [Hp|((y & l) & Hy & Hp)].
        * destruct (HL _ Hp) as [Y|Y]; [auto|]. rewrite T. auto.
        * cbn in Hp. destruct (P' y l p Hy Hp) as [Y|Y]; [auto|]. right; right. rewrite T. eapply reach_trans; [exact Y|]. apply B. rewrite <- Ids.
          apply in_map_iff. exists (y, l). auto.
    - intros y Hy. apply B. now rewrite <- Ids.
  Qed.

  (** what [x] leads to *)
  Definition sub (x : oid) (v : val) : Prop := forall y, v = VR y -> reach H (VR x) y.
  Lemma sub_in x b v : H x = Some b -> In v (refs b) -> sub x v.
  Proof. intros Hb Hi y ->. eapply r_step; eauto. constructor. Qed.
  Lemma sub_w x y v : reach H (VR x) y -> sub y v -> sub x v.
  Proof. intros R S z E. eapply reach_trans; eauto. Qed.
  Lemma sub_a x a i : sub x (VA a i).
  Proof. intros y E. discriminate. Qed.

  Lemma EV_seqX x X I A B s e m Q : sync s e m -> ok X I A s e m Q -> pi A -> J x s e m -> (forall a, X a \/ ~ X a) ->
    (forall s1 e1 m1, sync s1 e1 m1 -> Sim X I [] e (heap m) (post s) e1 (heap m1) (post s1) -> Q s1 e1 m1 -> Xok x X e1) ->
    EV A s e m ->
    (forall s1 e1 m1, sync s1 e1 m1 -> Sim X I [] e (heap m) (post s) e1 (heap m1) (post s1) -> J x s1 e1 m1 -> Q s1 e1 m1 -> EV B s1 e1 m1) ->
    EV (A ;; B) s e m.
  Proof.
    intros S O P HJ Dec HX VA_ VB. apply EV_bind; auto. intros ops1 s1 EA. destruct (O _ _ EA) as (e1 & m1 & R1 & S1 & Si & q).
    exists e1, m1. split; auto. split; auto. apply VB; auto. eapply J_sim; eauto.
    - eapply P; eauto. apply HJ.
    - intros p [].
  Qed.
  Lemma X0_dec a : X0 a \/ ~ X0 a.
  Proof. right. intros []. Qed.
  Lemma eq_dec_X (a0 a : nat) : a0 = a \/ ~ a0 = a.
  Proof. destruct (Nat.eq_dec a0 a); auto. Qed.
  Lemma EV_seq0 x I A B s e m Q : sync s e m -> ok X0 I A s e m Q -> pi A -> J x s e m -> EV A s e m ->
    (forall s1 e1 m1, sync s1 e1 m1 -> Sim X0 I [] e (heap m) (post s) e1 (heap m1) (post s1) -> J x s1 e1 m1 -> Q s1 e1 m1 -> EV B s1 e1 m1) ->
    EV (A ;; B) s e m.
  Proof. intros. eapply EV_seqX; eauto using X0_dec. intros. apply Xok0. Qed.
  (** the object being filled: [x] itself, a temporary dictionary or list, or the globals of a function that leads to [x] *)
  Definition own (k0 : key) (x : oid) : Prop := k0 = KObj x \/ k0 = KAnon \/ exists f, k0 = KGlob f /\ reach H (VR f) x.
  Lemma own_Xok k0 x a s e m : own k0 x -> sync s e m -> In (k0, VR a) e -> Xok x (eq a) e.
  Proof.
    intros O S Hi. pose proof (ek_inj _ _ _ _ (sy_env _ _ _ _ S)) as Inj. split.
    - intros o a' Ho <-. pose proof (Inj _ _ _ Hi Ho). subst k0. destruct O as [E|[E|(f & E & _)]]; try discriminate. assert (o = x) by congruence. subst. constructor.
    - intros f a' Ho <-. pose proof (Inj _ _ _ Hi Ho). subst k0. destruct O as [E|[E|(f' & E & R)]]; try discriminate. injection E as ->. exact R.
  Qed.
  Lemma EV_seqA k0 x a I A B s e m Q : sync s e m -> ok (eq a) I A s e m Q -> pi A -> J x s e m -> own k0 x ->
    (forall s1 e1 m1, sync s1 e1 m1 -> Sim (eq a) I [] e (heap m) (post s) e1 (heap m1) (post s1) -> Q s1 e1 m1 -> In (k0, VR a) e1) ->
    EV A s e m ->
    (forall s1 e1 m1, sync s1 e1 m1 -> Sim (eq a) I [] e (heap m) (post s) e1 (heap m1) (post s1) -> J x s1 e1 m1 -> In (k0, VR a) e1 -> Q s1 e1 m1 -> EV B s1 e1 m1) ->
    EV (A ;; B) s e m.
  Proof. intros. eapply EV_seqX; eauto using eq_dec_X. intros. eapply own_Xok; eauto. Qed.
  Lemma EV_mark x B s e m : sync s e m -> J x s e m -> (forall m0, sync s e m0 -> J x s e m0 -> stk m0 = [] -> meta m0 = stk m :: meta m -> heap m0 = heap m -> EV B s e m0) ->
    EV (emit [MARK] ;; B) s e m.
  Proof.
    intros S HJ HB. set (m0 := {| stk := []; meta := stk m :: meta m; mem := mem m; heap := heap m |}).
    assert (S0 : sync s e m0) by (eapply sync_stk; eauto).
    apply EV_bind; [|now apply EV_emit]. intros ops1 s1 E. injection E as <- <-. exists e, m0. split; auto.
  Qed.

  Definition Fl (k : key) : Prop := False.
  Lemma Fl_in P k : Fl k -> Ik P k.
  Proof. intros []. Qed.

  (** ** items *)
  Section Batches.
    Variables (A : Type) (one : A -> act) (many : list A -> act) (X : nat -> Prop) (M : A -> Prop).
    Variable T : list A -> pst -> env -> vm -> Prop.
    Variables (x : oid) (k0 : key) (a : nat).
    Hypothesis Dec : forall a, X a \/ ~ X a.
    Hypothesis HX : forall s e m, sync s e m -> In (k0, VR a) e -> Xok x X e.
    Hypothesis One : forall l y s e m, M y -> sync s e m -> T l s e m -> ok X Fl (one y) s e m (T (l ++ [y])).
    Hypothesis Many : forall l l' s e m, Forall M l' -> sync s e m -> T l s e m -> ok X Fl (many l') s e m (T (l ++ l')).
    Hypothesis VOne : forall l y s e m, M y -> sync s e m -> T l s e m -> J x s e m -> In (k0, VR a) e -> EV (one y) s e m.
    Hypothesis VMany : forall l l' s e m, Forall M l' -> sync s e m -> T l s e m -> J x s e m -> In (k0, VR a) e -> EV (many l') s e m.
    Hypothesis POne : forall y, pi (one y).
    Hypothesis PMany : forall y, pi (many y).
    Lemma EV_batches fuel : forall l l0 s e m, Forall M l -> sync s e m -> T l0 s e m -> J x s e m -> In (k0, VR a) e -> EV (batches one many fuel l) s e m.
    Proof.
      induction fuel as [|fuel IH]; intros l l0 s e m HM S HT HJ Hi; [now apply EV_nil|]. cbn [batches].
      destruct (Forall_cut _ M BATCHSIZE l HM) as (HM1 & HM2). set (tmp := firstn BATCHSIZE l) in *.
      eapply EV_seqX with (X := X) (Q := T (l0 ++ tmp)) (I := Fl); eauto.
      - destruct tmp as [|y [|z tmp']].
        + rewrite app_nil_r. apply ok_nil; auto.
        + apply One; auto. now inversion HM1.
        + apply Many; auto.
      - destruct tmp as [|y [|z tmp']]; auto. apply pi_emit.
      - intros s1 e1 m1 S1 Si1 _. eapply HX; eauto. apply (s_env Si1); auto.
      - destruct tmp as [|y [|z tmp']]; [now apply EV_nil|eapply VOne; eauto; now inversion HM1|eapply VMany; eauto].
      - intros s1 e1 m1 S1 Si1 HJ1 HT1. destruct (Nat.ltb _ _); [now apply EV_nil|]. eapply IH; eauto. apply (s_env Si1); auto.
    Qed.
    Lemma EV_seqs l : forall l0 s e m, Forall M l -> sync s e m -> T l0 s e m -> J x s e m -> In (k0, VR a) e -> EV (seqs one l) s e m.
    Proof.
      induction l as [|y l IH]; intros l0 s e m HM S HT HJ Hi; [now apply EV_nil|]. cbn [seqs]. inversion HM; subst.
      eapply EV_seqX with (X := X) (Q := T (l0 ++ [y])) (I := Fl); eauto.
      - intros s1 e1 m1 S1 Si1 _. eapply HX; eauto. apply (s_env Si1); auto.
      - intros s1 e1 m1 S1 Si1 HJ1 HT1. eapply IH; eauto. apply (s_env Si1); auto.
    Qed.
  End Batches.

  Section Sv.
    Variable sv : val -> act.
    Hypothesis SV : sv_ok H sv.
    Hypothesis PS : forall v, pi (sv v).
    Hypothesis SE : forall v s e m, sync s e m -> (forall y, v = VR y -> J y s e m) -> EV (sv v) s e m.

    Lemma EV_sv x v s e m : sync s e m -> J x s e m -> sub x v -> EV (sv v) s e m.
    Proof. intros S HJ Hs. apply SE; auto. intros y ->. eapply Jw; eauto. Qed.
    Lemma EV_svs x l : forall s e m, sync s e m -> J x s e m -> Forall (sub x) l -> EV (seqs sv l) s e m.
    Proof.
      induction l as [|v l IH]; intros s e m S HJ F; [now apply EV_nil|]. inversion F; subst. cbn [seqs].
      eapply EV_seq0 with (I := Fl) (x := x); [exact S|apply (sv_okI _ _ SV); auto using Fl_in|apply PS|exact HJ|eapply EV_sv; eauto|]. intros. apply IH; auto.
    Qed.
    Lemma pi_kv p : pi (save_kv sv p).
    Proof. apply pi_seq; apply PS. Qed.
    Definition subp (x : oid) (p : val * val) : Prop := sub x (fst p) /\ sub x (snd p).
    Lemma EV_kv x p s e m : sync s e m -> J x s e m -> subp x p -> EV (save_kv sv p) s e m.
    Proof.
      intros S HJ [F1 F2]. eapply EV_seq0 with (I := Fl) (x := x); [exact S|apply (sv_okI _ _ SV); auto using Fl_in|apply PS|exact HJ|eapply EV_sv; eauto|]. intros. eapply EV_sv; eauto.
    Qed.
    Lemma EV_kvs x l : forall s e m, sync s e m -> J x s e m -> Forall (subp x) l -> EV (seqs (save_kv sv) l) s e m.
    Proof.
      induction l as [|v l IH]; intros s e m S HJ F; [now apply EV_nil|]. inversion F; subst. cbn [seqs].
      eapply EV_seq0 with (I := Fl) (x := x); [exact S|apply (save_kv_ok _ _ SV); auto using Fl_in|apply pi_kv|exact HJ|eapply EV_kv; eauto|]. intros. apply IH; auto.
    Qed.

    (** the key belongs to the object being filled *)
    Definition keyin (k0 : key) (x : oid) (k : val) : Prop := k0 = KObj x -> exists b, H x = Some b /\ In k (keys_of b).
    Lemma good_own k0 x a s e m k k' c : sync s e m -> own k0 x -> In (k0, VR a) e -> J x s e m -> keyin k0 x k -> val_rel (Renv e) k k' -> Renv e c a ->
      good e m k' c.
    Proof.
      intros S O Hi HJ Hk Hv Hc. pose proof (ek_inj _ _ _ _ (sy_env _ _ _ _ S) _ _ _ Hi Hc). subst k0.
      destruct O as [E|[E|(f & E & _)]]; try discriminate. injection E as ->. destruct (Hk eq_refl) as (b & Hb & Hkb).
      exists s, e, k, b. auto.
    Qed.
    Definition MK (k0 : key) (x : oid) (p : val * val) : Prop := subp x p /\ keyin k0 x (fst p).
    Lemma EV_setitem k0 x a st p s e m : sync s e m -> own k0 x -> In (k0, VR a) e -> J x s e m -> stk m = VR a :: st -> MK k0 x p ->
      EV (save_kv sv p ;; emit [SETITEM]) s e m.
    Proof.
      intros S O Hi HJ St (Hs & Hk). eapply EV_seq0 with (I := Fl) (x := x); [exact S|apply (save_kv_ok _ _ SV); auto using Fl_in|apply pi_kv|exact HJ|eapply EV_kv; eauto|].
      intros s1 e1 m1 S1 Si1 HJ1 (p' & A & B & C). apply EV_one; auto. intros m' k a' c E S' Hh Hc. cbn in Hh. rewrite A, St in Hh.
      destruct Hh as [Hh|[]]. injection Hh as <- <-. eapply good_own; eauto; [apply (s_env Si1); auto|apply C].
    Qed.
    Lemma EV_setitems k0 x a st l s e m : sync s e m -> own k0 x -> In (k0, VR a) e -> J x s e m -> stk m = VR a :: st -> Forall (MK k0 x) l ->
      EV (emit [MARK] ;; seqs (save_kv sv) l ;; emit [SETITEMS]) s e m.
    Proof.
      intros S O Hi HJ St F. apply EV_mark with (x := x); auto. intros m0 S0 HJ0 A0 B0 C0.
      eapply EV_seq0 with (I := Fl) (x := x); [exact S0|apply (seqs_kv_ok _ _ SV); auto using Fl_in|apply pi_seqs; intros; apply pi_kv|exact HJ0| |].
      - apply EV_kvs with (x := x); auto. eapply Forall_impl; [|exact F]. intros p [Hp _]. exact Hp.
      - intros s1 e1 m1 S1 Si1 HJ1 (kvs' & A & B & C). rewrite A0, app_nil_r in A. rewrite B0, St in B.
        apply EV_one; auto. intros m' k a' c E S' Hh Hc. cbn in Hh. rewrite A, B, rev_involutive, pairs_flat in Hh.
        apply in_map_iff in Hh as (p' & Ep & Hp'). injection Ep as <- <-.
        assert (X : exists p, In p l /\ item_rel (Renv e1) p p').
        { clear - C Hp'. induction C as [|p q l l' R C IH]; [destruct Hp'|]. destruct Hp' as [->|Hp']; [exists p; split; [left|]; auto|].
          destruct (IH Hp') as (p0 & A & B). exists p0. split; [right|]; auto. }
        destruct X as (p & Hp & Hr). rewrite Forall_forall in F. destruct (F _ Hp) as (_ & Hk).
        eapply good_own; eauto; [apply (s_env Si1); auto|apply Hr].
    Qed.

    Lemma EV_batch_setitems k0 x W a st me d kvs s e m : sync s e m -> dict_like W -> CoreStep.T_dict W a st me Fl d [] s e m -> own k0 x -> In (k0, VR a) e -> J x s e m ->
      Forall (MK k0 x) kvs -> EV (batch_setitems proto sv kvs) s e m.
    Proof.
      intros S LW HT O Hi HJ F. unfold batch_setitems.
      assert (V1 : forall l y s e m, MK k0 x y -> sync s e m -> CoreStep.T_dict W a st me Fl d l s e m -> J x s e m -> In (k0, VR a) e -> EV (save_kv sv y ;; emit [SETITEM]) s e m).
      { intros l y s1 e1 m1 HM S1 (A & _) HJ1 Hi1. eapply EV_setitem; eauto. }
      assert (P1 : forall y, pi (save_kv sv y ;; emit [SETITEM])) by (intros; apply pi_seq; [apply pi_kv|apply pi_emit]).
      assert (HX : forall s e m, sync s e m -> In (k0, VR a) e -> Xok x (eq a) e) by (intros; eapply own_Xok; eauto).
      destruct (bin proto).
      - eapply EV_batches with (X := eq a) (T := CoreStep.T_dict W a st me Fl d) (x := x) (k0 := k0) (a := a) (M := MK k0 x); eauto using eq_dec_X.
        + intros. apply T_dict_one; auto.
        + intros. apply T_dict_many; auto.
        + intros l l' s1 e1 m1 HM S1 (A & _) HJ1 Hi1. eapply EV_setitems; eauto.
        + intros. apply pi_seq; [apply pi_emit|]. apply pi_seq; [apply pi_seqs; intros; apply pi_kv|apply pi_emit].
      - eapply EV_seqs with (X := eq a) (T := CoreStep.T_dict W a st me Fl d) (x := x) (k0 := k0) (a := a) (M := MK k0 x); eauto using eq_dec_X.
        intros. apply T_dict_one; auto.
    Qed.
    Lemma EV_batch_setitems_again k0 x W a st me kvs s e m : sync s e m -> dict_like W -> T_again W a st me Fl kvs s e m -> own k0 x -> In (k0, VR a) e -> J x s e m ->
      Forall (MK k0 x) kvs -> EV (batch_setitems proto sv kvs) s e m.
    Proof.
      intros S LW HT O Hi HJ F. unfold batch_setitems. set (M := fun p => In p kvs /\ MK k0 x p).
      assert (FM : Forall M kvs) by (apply Forall_forall; intros p Hp; split; auto; rewrite Forall_forall in F; auto).
      assert (V1 : forall (l : list (val * val)) y s e m, M y -> sync s e m -> T_again W a st me Fl kvs s e m -> J x s e m -> In (k0, VR a) e -> EV (save_kv sv y ;; emit [SETITEM]) s e m).
      { intros l y s1 e1 m1 [_ HM] S1 (A & _) HJ1 Hi1. eapply EV_setitem; eauto. }
      assert (P1 : forall y, pi (save_kv sv y ;; emit [SETITEM])) by (intros; apply pi_seq; [apply pi_kv|apply pi_emit]).
      assert (HX : forall s e m, sync s e m -> In (k0, VR a) e -> Xok x X0 e) by (intros; apply Xok0).
      destruct (bin proto).
      - eapply EV_batches with (X := X0) (T := fun _ => T_again W a st me Fl kvs) (x := x) (k0 := k0) (a := a) (M := M) (l0 := []); eauto using X0_dec.
        + intros l y s1 e1 m1 [HM _] S1 HT1. apply T_again_one; auto.
        + intros l l' s1 e1 m1 HM S1 HT1. apply T_again_many; auto. intros y Hy. rewrite Forall_forall in HM. apply (HM y Hy).
        + intros l l' s1 e1 m1 HM S1 (A & _) HJ1 Hi1. eapply EV_setitems; eauto. eapply Forall_impl; [|exact HM]. intros y [_ Hy]. exact Hy.
        + intros. apply pi_seq; [apply pi_emit|]. apply pi_seq; [apply pi_seqs; intros; apply pi_kv|apply pi_emit].
      - eapply EV_seqs with (X := X0) (T := fun _ => T_again W a st me Fl kvs) (x := x) (k0 := k0) (a := a) (M := M) (l0 := []); eauto using X0_dec.
        intros l y s1 e1 m1 [HM _] S1 HT1. apply T_again_one; auto.
    Qed.
    Lemma EV_append x y o s e m : quiet o = true -> sync s e m -> J x s e m -> sub x y -> EV (sv y ;; emit [o]) s e m.
    Proof.
      intros Q S HJ Hs. eapply EV_seq0 with (I := Fl) (x := x); [exact S|apply (sv_okI _ _ SV); auto using Fl_in|apply PS|exact HJ|eapply EV_sv; eauto|].
      intros. apply EV_emit; auto. cbn. now rewrite Q.
    Qed.
    Lemma EV_batch_appends k0 x W a st me vs s e m : sync s e m -> list_like W -> CoreStep.T_list W a st me Fl [] s e m -> own k0 x -> In (k0, VR a) e -> J x s e m ->
      Forall (sub x) vs -> EV (batch_appends proto sv vs) s e m.
    Proof.
      intros S LW HT O Hi HJ F. unfold batch_appends.
      assert (P1 : forall y, pi (sv y ;; emit [APPEND])) by (intros; apply pi_seq; [apply PS|apply pi_emit]).
      assert (HX : forall s e m, sync s e m -> In (k0, VR a) e -> Xok x (eq a) e) by (intros; eapply own_Xok; eauto).
      destruct (bin proto).
      - eapply EV_batches with (X := eq a) (T := CoreStep.T_list W a st me Fl) (x := x) (k0 := k0) (a := a) (M := sub x); eauto using eq_dec_X.
        + intros. apply T_list_one; auto.
        + intros. apply T_list_many; auto.
        + intros. eapply EV_append; eauto.
        + intros l l' s1 e1 m1 HM S1 _ HJ1 Hi1. apply EV_mark with (x := x); auto. intros m0 S0 HJ0 _ _ _.
          eapply EV_seq0 with (I := Fl) (x := x); [exact S0|apply (seqs_sv_ok _ _ SV); auto using Fl_in|apply pi_seqs; intros; apply PS|exact HJ0|eapply EV_svs; eauto|].
          intros. apply EV_emit; auto.
        + intros. apply pi_seq; [apply pi_emit|]. apply pi_seq; [apply pi_seqs; intros; apply PS|apply pi_emit].
      - eapply EV_seqs with (X := eq a) (T := CoreStep.T_list W a st me Fl) (x := x) (k0 := k0) (a := a) (M := sub x); eauto using eq_dec_X.
        + intros. apply T_list_one; auto.
        + intros. eapply EV_append; eauto.
    Qed.

    (** a new dictionary or list *)
    Lemma dict_start k kvs s e m : sync s e m -> key_new k Fl e (post s) -> (forall o, k = KObj o -> H o = Some (ODict kvs)) ->
      ok (eq (length (heap m))) Fl (emit (if bin proto then [EMPTY_DICT] else [MARK; DICT]) ;; memoize proto k) s e m
        (fun s' e' m' => In (k, VR (length (heap m))) e' /\ CoreStep.T_dict ODict (length (heap m)) (stk m) (meta m) Fl [] [] s' e' m') /\
      EV (emit (if bin proto then [EMPTY_DICT] else [MARK; DICT]) ;; memoize proto k) s e m.
    Proof.
      intros S K Ko. set (a := length (heap m)). set (m1 := alloc (ODict []) m).
      assert (R : run (if bin proto then [EMPTY_DICT] else [MARK; DICT]) m = Some m1) by (destruct (bin proto); [reflexivity|]; cbn; unfold m1, alloc; destruct m; reflexivity).
      split.
      - eapply ok_new with (m1 := m1) (v := VR a) (r := stk m)
          (Q := fun s' e' m' => In (k, VR a) e' /\ CoreStep.T_dict ODict a (stk m) (meta m) Fl [] [] s' e' m'); auto.
        + apply env_ok_alloc with (I := Fl); auto; [apply (sy_env _ _ _ _ S)|].
          intros o Hk. exists (ODict kvs). split; auto.
        + apply Sim_alloc.
          * intros x; split; auto.
          * intros o Hk. left. unfold is_proc. rewrite (Ko o Hk). auto.
          * apply K.
        + intros s' m' Ep S' St Me He. split; [apply in_app_iff; right; left; auto|]. split; auto.
          split; [rewrite Me; auto|]. split; [apply Fl_in|]. exists []. rewrite He. split; [apply nth_snoc|constructor].
      - eapply EV_new with (v := VR a); [exact S|exact R|reflexivity|reflexivity|intros a' E; injection E as <-; unfold a; auto|].
        destruct (bin proto); [now apply evs_quiet|]. intros pre o rest mt k' a' c E Rp Hi _. exfalso.
        destruct pre as [|? [|? [|? ?]]]; try discriminate; injection E as <- <-; [destruct Hi|]. subst. cbn in Rp. injection Rp as <-. destruct Hi.
    Qed.
    Lemma list_start k vs s e m : sync s e m -> key_new k Fl e (post s) -> (forall o, k = KObj o -> H o = Some (OList vs)) ->
      ok (eq (length (heap m))) Fl (emit (if bin proto then [EMPTY_LIST] else [MARK; LIST]) ;; memoize proto k) s e m
        (fun s' e' m' => In (k, VR (length (heap m))) e' /\ CoreStep.T_list OList (length (heap m)) (stk m) (meta m) Fl [] s' e' m') /\
      EV (emit (if bin proto then [EMPTY_LIST] else [MARK; LIST]) ;; memoize proto k) s e m.
    Proof.
      intros S K Ko. set (a := length (heap m)). set (m1 := alloc (OList []) m).
      assert (R : run (if bin proto then [EMPTY_LIST] else [MARK; LIST]) m = Some m1) by (destruct (bin proto); [reflexivity|]; cbn; unfold m1, alloc; destruct m; reflexivity).
      split.
      - eapply ok_new with (m1 := m1) (v := VR a) (r := stk m)
          (Q := fun s' e' m' => In (k, VR a) e' /\ CoreStep.T_list OList a (stk m) (meta m) Fl [] s' e' m'); auto.
        + apply env_ok_alloc with (I := Fl); auto; [apply (sy_env _ _ _ _ S)|].
          intros o Hk. exists (OList vs). split; auto.
        + apply Sim_alloc.
          * intros x; split; auto.
          * intros o Hk. left. unfold is_proc. rewrite (Ko o Hk). auto.
          * apply K.
        + intros s' m' Ep S' St Me He. split; [apply in_app_iff; right; left; auto|]. split; auto.
          split; [rewrite Me; auto|]. split; [apply Fl_in|]. exists []. rewrite He. split; [apply nth_snoc|constructor].
      - eapply EV_new with (v := VR a); [exact S|exact R|reflexivity|reflexivity|intros a' E; injection E as <-; unfold a; auto|].
        destruct (bin proto); now apply evs_quiet.
    Qed.
    Lemma EV_dict k x kvs s e m : sync s e m -> key_new k Fl e (post s) -> (forall o, k = KObj o -> H o = Some (ODict kvs)) -> own k x -> J x s e m ->
      Forall (MK k x) kvs -> EV (save_dict proto sv k kvs) s e m.
    Proof.
      intros S K Ko O HJ F. destruct (dict_start k kvs s e m S K Ko) as (O1 & V1). unfold save_dict. apply EV_assoc.
      eapply EV_seqA with (k0 := k) (x := x); [exact S|exact O1|apply pi_seq; [apply pi_emit|apply pi_memoize]|exact HJ|exact O| |exact V1|].
      - intros s1 e1 m1 _ _ [Hi _]. exact Hi.
      - intros s1 e1 m1 S1 Si1 HJ1 Hi1 (_ & HT). eapply EV_batch_setitems; eauto using dict_like_dict.
    Qed.
    Lemma EV_list k x vs s e m : sync s e m -> key_new k Fl e (post s) -> (forall o, k = KObj o -> H o = Some (OList vs)) -> own k x -> J x s e m ->
      Forall (sub x) vs -> EV (save_list proto sv k vs) s e m.
    Proof.
      intros S K Ko O HJ F. destruct (list_start k vs s e m S K Ko) as (O1 & V1). unfold save_list. apply EV_assoc.
      eapply EV_seqA with (k0 := k) (x := x); [exact S|exact O1|apply pi_seq; [apply pi_emit|apply pi_memoize]|exact HJ|exact O| |exact V1|].
      - intros s1 e1 m1 _ _ [Hi _]. exact Hi.
      - intros s1 e1 m1 S1 Si1 HJ1 Hi1 (_ & HT). eapply EV_batch_appends; eauto using list_like_list.
    Qed.

    (** ** arguments, tuples, calls, states *)
    Definition argsub (x : oid) (y : arg) : Prop :=
      match y with
      | AV v => sub x v
      | AD k kvs => Forall (subp x) kvs /\ (k = KAnon \/ exists f, k = KGlob f /\ reach H (VR f) x)
      | AL vs => Forall (sub x) vs
      end.
    Lemma MK_anon k x kvs : (k = KAnon \/ exists f, k = KGlob f /\ reach H (VR f) x) -> Forall (subp x) kvs -> Forall (MK k x) kvs.
    Proof. intros Hk F. eapply Forall_impl; [|exact F]. intros p Hp. split; auto. intros ->. destruct Hk as [E|(f & E & _)]; discriminate. Qed.
    Lemma EV_arg x y r s e m : sync s e m -> args_new Fl e (post s) (y :: r) -> J x s e m -> argsub x y -> EV (save_arg proto sv y) s e m.
    Proof.
      intros S AN HJ Hs. destruct y as [v|k kvs|vs]; cbn [save_arg].
      - eapply EV_sv; eauto.
      - destruct Hs as (F & Hk). destruct (AN k kvs (or_introl eq_refl)) as (Kd & Kn). eapply EV_dict with (x := x); eauto.
        + split; [|split].
          * intros Hn v Hv. destruct Kn as [->|(f & -> & _ & _ & D)]; [congruence|]. eapply D; eauto.
          * intros z i ->. destruct Hk as [E|(f & E & _)]; discriminate.
          * intros f ->. destruct Kn as [E|(f' & E & D & D' & _)]; [discriminate|]. injection E as ->. auto.
        + intros o ->. destruct Hk as [E|(f & E & _)]; discriminate.
        + destruct Hk as [E|(f & E & D)]; [right; left; auto|right; right; eauto].
        + now apply MK_anon.
      - eapply EV_list with (x := x); eauto; [apply key_new_anon|discriminate|right; left; auto].
    Qed.
    Lemma save_arg_ok y r s e m : sync s e m -> args_new Fl e (post s) (y :: r) -> once (y :: r) ->
      ok X0 Fl (save_arg proto sv y) s e m (fun s' e' m' => args_new Fl e' (post s') r /\ once r).
    Proof.
      intros S AN ON. assert (AN' : args_new Fl e (post s) r) by (intros k kvs Hi; apply AN; right; auto).
      destruct y as [v|k kvs|ls]; cbn [save_arg].
      - eapply ok_conseq; [apply sv_ok2; eauto using Fl_in|]. intros s' e' m' S' _ [_ Si]. split; [|exact ON].
        eapply args_new_step; eauto using Fl_in. apply (sy_env _ _ _ _ S').
      - destruct (AN k kvs (or_introl eq_refl)) as (Kd & [->|(f & -> & B & C & D)]).
        + eapply ok_I with (I := Ik (post s)); [apply Fl_in|]. eapply ok_conseq.
          * apply save_dict_ok; eauto; try (intros; discriminate). split; [congruence|]. split; intros; discriminate.
          * intros s' e' m' S' Si _. split; [|apply ON]. eapply args_new_step; eauto using Fl_in. apply (sy_env _ _ _ _ S').
        + eapply ok_conseq.
          * apply save_dict_ok with (I := Fl); eauto using Fl_in; try (intros; discriminate). split; [auto|]. split; [intros; discriminate|].
            intros f0 E. inversion E; subst. auto.
          * intros s' e' m' S' Si _. split; [|apply ON]. intros k' kvs' Hi. destruct (AN' _ _ Hi). split; auto. left. destruct ON as [ON _]. eapply ON; eauto. discriminate.
      - eapply ok_I with (I := Ik (post s)); [apply Fl_in|]. eapply ok_conseq.
        + apply save_listk_ok; eauto; try (intros; discriminate). split; [congruence|]. split; intros; discriminate.
        + intros s' e' m' S' Si _. split; [|exact ON]. eapply args_new_step; eauto using Fl_in. apply (sy_env _ _ _ _ S').
    Qed.
    Lemma EV_args x xs : forall s e m, sync s e m -> args_new Fl e (post s) xs -> once xs -> J x s e m -> Forall (argsub x) xs -> EV (seqs (save_arg proto sv) xs) s e m.
    Proof.
      induction xs as [|y xs IH]; intros s e m S AN ON HJ F; [now apply EV_nil|]. inversion F; subst. cbn [seqs].
      eapply EV_seq0 with (I := Fl) (x := x); [exact S|eapply save_arg_ok; eauto|apply pi_sarg; exact PS|exact HJ|eapply EV_arg; eauto|].
      intros s1 e1 m1 S1 Si1 HJ1 (AN1 & ON1). apply IH; auto.
    Qed.

    Lemma EV_close k b' dp mk mb s e m : sync s e m -> existsb puts dp = false -> (forall i, evs H (dp ++ [GET i]) m e) ->
      run mk m = Some (alloc b' mb) -> mem mb = mem m -> heap mb = heap m -> evs H mk m (e ++ [(k, VR (length (heap m)))]) ->
      EV (fun s => match memo_get k s with Some i => Ok (dp ++ [GET i], s) | None => (emit mk ;; memoize proto k) s end) s e m.
    Proof.
      intros S Qp Vd R Em Eh Vm. destruct (memo_get k s) as [i|] eqn:E.
      - eapply EV_ext with (B := emit (dp ++ [GET i])); [rewrite E; reflexivity|]. apply EV_emit_gen; auto. rewrite existsb_app, Qp. reflexivity.
      - eapply EV_ext with (B := emit mk ;; memoize proto k); [rewrite E; reflexivity|].
        eapply EV_new with (v := VR (length (heap m))); [exact S|exact R|exact Em|cbn; rewrite Eh; reflexivity|intros a Ea; injection Ea as <-; auto|exact Vm].
    Qed.
    Lemma quiet_pops n i : forallb quiet (repeat POP n ++ [GET i]) = true.
    Proof. induction n; cbn; auto. Qed.
    Lemma puts_pops n : existsb puts (repeat POP n) = false.
    Proof. induction n; cbn; auto. Qed.
    Lemma EV_tuple k x xs s e m : sync s e m -> args_new Fl e (post s) xs -> once xs -> J x s e m -> Forall (argsub x) xs -> EV (save_tuple proto sv k xs) s e m.
    Proof.
      intros S AN ON HJ F. unfold save_tuple. destruct xs as [|x0 xs0] eqn:Ex.
      { unfold empty_tuple. apply EV_emit; auto. destruct (bin proto); reflexivity. }
      rewrite <- Ex in *. assert (Hne : xs <> []) by (rewrite Ex; discriminate). clear Ex x0 xs0.
      destruct (Nat.leb (length xs) 3 && Nat.leb 2 proto).
      - eapply EV_seq0 with (I := Fl) (x := x); [exact S|apply save_args_ok; eauto using Fl_in|apply pi_seqs; intros; apply pi_sarg; exact PS|exact HJ|apply EV_args with (x := x); auto|].
        intros s1 e1 m1 S1 Si1 HJ1 (vs' & A & B & C). pose proof (Forall2_len _ _ _ C) as El.
        assert (Hv : vs' <> []) by (intros ->; destruct xs; [congruence|discriminate]).
        eapply EV_close with (mb := set_stk (stk m) m1) (b' := OTup vs'); auto using puts_pops; [intros; apply evs_quiet, quiet_pops| |now apply evs_quiet].
        cbn [run step]. rewrite A. rewrite app_length, rev_length.
        rewrite (proj2 (Nat.leb_le _ _)) by lia.
        rewrite firstn_app, skipn_app, rev_length, El, Nat.sub_diag.
        rewrite firstn_all2, skipn_all2 by (rewrite rev_length; lia). cbn [firstn skipn app].
        rewrite app_nil_r, rev_involutive, make_tuple_ne by auto. reflexivity.
      - apply EV_mark with (x := x); auto. intros m0 S0 HJ0 A0 B0 C0.
        eapply EV_seq0 with (I := Fl) (x := x); [exact S0|apply save_args_ok; eauto using Fl_in|apply pi_seqs; intros; apply pi_sarg; exact PS|exact HJ0|apply EV_args with (x := x); auto|].
        intros s1 e1 m1 S1 Si1 HJ1 (vs' & A & B & C). pose proof (Forall2_len _ _ _ C) as El.
        rewrite A0, app_nil_r in A. rewrite B0 in B.
        assert (Hv : vs' <> []) by (intros ->; destruct xs; [congruence|discriminate]).
        eapply EV_close with (mb := {| stk := stk m; meta := meta m; mem := mem m1; heap := heap m1 |}) (b' := OTup vs'); auto; [| | |now apply evs_quiet].
        + destruct (bin proto); [reflexivity|apply puts_pops].
        + intros i. apply evs_quiet. destruct (bin proto); [reflexivity|apply quiet_pops].
        + cbn [run step]. unfold pop_mark. rewrite B. rewrite A, rev_involutive, make_tuple_ne by auto. reflexivity.
    Qed.
    Lemma once_AV xs : (forall y, In y xs -> exists v, y = AV v) -> once xs.
    Proof. induction xs as [|y xs IH]; intros Hx; cbn; auto. destruct (Hx y (or_introl eq_refl)) as (v & ->). apply IH. intros; apply Hx; right; auto. Qed.
    Lemma new_AV I e P xs : (forall y, In y xs -> exists v, y = AV v) -> args_new I e P xs.
    Proof. intros Hx k kvs Hi. destruct (Hx _ Hi). discriminate. Qed.

    Lemma EV_state_val x st s e m : sync s e m -> state_wf H st -> J x s e m -> Forall (sub x) (state_vals st) -> EV (state_val proto sv st) s e m.
    Proof.
      intros S W HJ F. assert (SP : forall d, Forall (sub x) (CoreSpec.flat d) -> Forall (subp x) d).
      { intros d Fd. apply Forall_forall. intros [k v] Hi. apply in_flat in Hi as [A B]. rewrite Forall_forall in Fd. split; apply Fd; auto. }
      destruct st as [|v|d [sl|]]; cbn [state_val state_vals] in *.
      - now apply EV_nil.
      - inversion F; subst. eapply EV_sv; eauto.
      - apply Forall_app in F as [F1 F2]. apply EV_tuple with (x := x); auto.
        + intros k kvs [E|[E|[]]]; inversion E; subst; split; try tauto; apply W.
        + cbn. tauto.
        + constructor; [|constructor; [|constructor]]; cbn; auto.
      - apply EV_dict with (x := x); auto; [apply key_new_anon|discriminate|right; left; auto|].
        apply MK_anon; auto.
    Qed.
    Lemma EV_state x st s e m : sync s e m -> state_wf H st -> J x s e m -> Forall (sub x) (state_vals st) -> EV (save_state proto sv st) s e m.
    Proof.
      intros S W HJ F. destruct (match st with SNone => true | _ => false end) eqn:En.
      - destruct st; try discriminate. now apply EV_nil.
      - assert (Hn : st <> SNone) by (destruct st; congruence). eapply EV_ext; [apply save_state_eq; auto|].
        eapply EV_seq0 with (I := Fl) (x := x); [exact S|apply state_val_ok; eauto using Fl_in| |exact HJ|apply EV_state_val with (x := x); auto|].
        + destruct st as [|v|d [sl|]]; cbn [state_val]; [congruence|apply PS|apply pi_tuple; exact PS|apply pi_dict; exact PS].
        + intros. apply EV_emit; auto.
    Qed.
    Lemma EV_call x c xs s e m : sync s e m -> args_new Fl e (post s) xs -> once xs -> J x s e m -> sub x c -> Forall (argsub x) xs ->
      EV (sv c ;; save_tuple proto sv KAnon xs) s e m.
    Proof.
      intros S AN ON HJ Hc F. eapply EV_seq0 with (I := Fl) (x := x); [exact S|apply (sv_ok2 _ _ SV); auto using Fl_in|apply PS|exact HJ|eapply EV_sv; eauto|].
      intros s1 e1 m1 S1 Si1 HJ1 (_ & Sx). apply EV_tuple with (x := x); auto. eapply args_new_step; eauto using Fl_in. apply (sy_env _ _ _ _ S1).
    Qed.
    Lemma pi_call c xs : pi (sv c ;; save_tuple proto sv KAnon xs).
    Proof. apply pi_seq; [apply PS|apply pi_tuple; exact PS]. Qed.
  End Sv.
End HashStep.
