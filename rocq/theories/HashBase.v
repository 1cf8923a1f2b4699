(** For C81: running opcodes, what they hash, and the invariant. *)
From Coq Require Import String List Bool Arith ZArith Lia.
From Verif Require Import PyDict CoreModel CoreSpec CoreSim CoreStep CoreReduce CoreObj CoreProc CoreMain CoreReach CoreInd CoreProps HashModel HashSpec.
Import ListNotations.
Local Open Scope string_scope.
Local Open Scope list_scope.

(** ** running opcodes *)
Lemma call_len f args m m' : call f args m = Some m' -> length (heap m) <= length (heap m').
Proof.
  intros E. unfold call in E.
  repeat (match type of E with
          | context [match ?x with _ => _ end] => destruct x; try discriminate
          end);
  injection E as <-; cbn; rewrite ?app_length, ?upd_length; cbn; lia.
Qed.
Lemma call_mem f args m m' : call f args m = Some m' -> mem m' = mem m.
Proof.
  intros E. unfold call in E.
  repeat (match type of E with
          | context [match ?x with _ => _ end] => destruct x; try discriminate
          end);
  injection E as <-; reflexivity.
Qed.
Lemma make_tuple_len vs m : length (heap m) <= length (heap (make_tuple vs m)).
Proof. destruct vs; cbn; rewrite ?app_length; lia. Qed.
Lemma make_tuple_mem vs m : mem (make_tuple vs m) = mem m.
Proof. destruct vs; reflexivity. Qed.
Ltac step_cases E :=
  repeat (match type of E with
          | call _ _ _ = Some _ => fail 1
          | context [match ?x with _ => _ end] =>
              lazymatch x with
              | make_tuple _ _ => fail
              | _ => destruct x eqn:?; try discriminate
              end
          end).
Lemma pop_mark_same m vs m' : pop_mark m = Some (vs, m') -> heap m' = heap m /\ mem m' = mem m.
Proof. unfold pop_mark. destruct (meta m); [discriminate|]. intros E. injection E as _ <-. auto. Qed.
Lemma step_len o m m' : step o m = Some m' -> length (heap m) <= length (heap m').
Proof.
  intros E. destruct o; cbn [step] in E; step_cases E;
    repeat match goal with
    | HH : pop_mark _ = Some _ |- _ => apply pop_mark_same in HH as [? ?]
    end;
    try (injection E as <-); try (apply call_len in E; exact E);
    repeat match goal with HH : heap ?a = heap ?b |- _ => rewrite <- HH end;
    try apply make_tuple_len; cbn; rewrite ?app_length, ?upd_length; cbn; try lia.
  all: try (match goal with |- _ <= length (heap (make_tuple ?v ?x)) => apply (make_tuple_len v x) end).
  all: first [discriminate|apply call_len in E; exact E].
Qed.
Definition puts (o : op) : bool := match o with PUT _ | MEMOIZE => true | _ => false end.
Lemma step_mem o m m' : puts o = false -> step o m = Some m' -> mem m' = mem m.
Proof.
  intros Hp E. destruct o; try discriminate Hp; clear Hp; cbn [step] in E; step_cases E;
    repeat match goal with
    | HH : pop_mark _ = Some _ |- _ => apply pop_mark_same in HH as [? ?]
    end;
    try (injection E as <-); rewrite ?make_tuple_mem; cbn; auto.
  all: first [discriminate|apply call_mem in E; exact E|congruence].
Qed.
Lemma run_len ops : forall m m', run ops m = Some m' -> length (heap m) <= length (heap m').
Proof.
  induction ops as [|o ops IH]; cbn; intros m m' E; [injection E as <-; auto|].
  destruct (step o m) as [m1|] eqn:E1; [|discriminate]. apply step_len in E1. apply IH in E. lia.
Qed.
Lemma run_mem ops : forall m m', existsb puts ops = false -> run ops m = Some m' -> mem m' = mem m.
Proof.
  induction ops as [|o ops IH]; cbn; intros m m' Hp E; [injection E as <-; auto|]. apply orb_false_iff in Hp as [Hp Hps].
  destruct (step o m) as [m1|] eqn:E1; [|discriminate]. apply step_mem in E1; auto. rewrite (IH _ _ Hps E). auto.
Qed.
Lemma run_cut a : forall b m m', run (a ++ b) m = Some m' -> exists m1, run a m = Some m1 /\ run b m1 = Some m'.
Proof.
  induction a as [|o a IH]; cbn; intros b m m' E; [eauto|]. destruct (step o m) as [m1|] eqn:E1; [|discriminate]. apply IH; auto.
Qed.
(** a container a value is inserted into exists after the insertion *)
Lemma hashed_lt o m m' k a : In (k, a) (hashed o m) -> step o m = Some m' -> a < length (heap m').
Proof.
  intros Hi E. destruct o; cbn [hashed] in Hi; try destruct Hi; cbn [step] in E.
  - (* DICT *)
    unfold pop_mark in E. destruct (meta m); [discriminate|]. destruct (pairs (rev (stk m))) as [kvs|]; [|discriminate].
    injection E as <-. apply in_map_iff in Hi as (p & Ep & _). injection Ep as _ <-. cbn. rewrite app_length. cbn. lia.
  - (* SETITEM *)
    destruct (stk m) as [|x [|k' [|[? ?|a'] r]]]; try destruct Hi; [|contradiction]. injection H as <- <-.
    destruct (nth_error (heap m) a') eqn:En; [|discriminate]. destruct (set_all _ _); [|discriminate]. injection E as <-. cbn. rewrite upd_length. eapply nth_lt; eauto.
  - (* SETITEMS *)
    unfold pop_mark in E. destruct (meta m) as [|[|[? ?|a'] r] ms]; try destruct Hi. destruct (pairs (rev (stk m))) as [kvs|]; [|destruct Hi].
    apply in_map_iff in Hi as (p & Ep & _). injection Ep as _ <-. cbn in E.
    destruct (nth_error (heap m) a') eqn:En; [|discriminate]. destruct (set_all _ _); [|discriminate]. injection E as <-. cbn. rewrite upd_length. eapply nth_lt; eauto.
  - (* REDUCE *)
    destruct (stk m) as [|args [|f r]]; try destruct Hi.
    assert (G : forall b, match tuple_items (heap m) args with Some [VR l] => match nth_error (heap m) l with Some (OList vs) => map (fun v => (v, length (heap m))) vs | _ => [] end | _ => [] end = b ->
      In (k, a) b -> a = length (heap m)).
    { intros b <- Hb. destruct (tuple_items (heap m) args) as [[|[? ?|l] [|? ?]]|]; try destruct Hb. destruct (nth_error (heap m) l) as [[| | | | | | |]|]; try destruct Hb.
      apply in_map_iff in Hb as (p & Ep & _). injection Ep as _ <-. auto. }
    assert (Ea : a = length (heap m)).
    { destruct f as [[| | | | |[]| | | |] ?|]; try destruct Hi; eapply G; eauto. }
    subst a. clear G.
    destruct f as [[| | | | |[]| | | |] ?|]; try destruct Hi;
      (destruct (tuple_items (heap m) args) as [[|[? ?|l] [|? ?]]|]; try destruct Hi; cbn in E);
      destruct (nth_error (heap m) l) as [[| | | | | | |]|]; try destruct Hi; try discriminate; injection E as <-; cbn; rewrite app_length; cbn; lia.
  - (* ADDITEMS *)
    unfold pop_mark in E. destruct (meta m) as [|[|[? ?|a'] r] ms]; try destruct Hi. apply in_map_iff in Hi as (p & Ep & _). injection Ep as _ <-. cbn in E.
    destruct (nth_error (heap m) a') as [[| | | | | | |[|] ?]|] eqn:En; try discriminate. injection E as <-. cbn. rewrite upd_length. eapply nth_lt; eauto.
  - (* FROZENSET *)
    unfold pop_mark in E. destruct (meta m); [discriminate|]. injection E as <-. apply in_map_iff in Hi as (p & Ep & _). injection Ep as _ <-. cbn. rewrite app_length. cbn. lia.
Qed.

Definition at_ (h : list obj) (a : nat) (b : obj) : Prop := nth_error h a = Some b.

Section Hash.
  Variable proto : nat.
  Variable H : oid -> option obj.
  Hypothesis HW : heap_wf H.
  Notation Sim := (Sim H).
  Notation sync := (sync H).
  Notation env_ok := (env_ok H).
  Notation ok := (ok H).

  Definition cellH (o : oid) : Prop := exists c, H o = Some (OCell c).
  (** deferred updates of functions and classes are run while saving something that the function or class leads to *)
  Definition PI (P : list (oid * list pp)) : Prop :=
    forall y l p, In (y, l) P -> In p l -> (exists c, p = PSetCell c) \/ reach H (VR (pp_tgt p)) y.
  (** [x] is being saved: what is loaded is complete, a cell, or leads to [x] *)
  Definition J (x : oid) (s : pst) (e : env) (m : vm) : Prop :=
    (forall o a, Renv e o a -> complete H e (at_ (heap m)) o a \/ cellH o \/ reach H (VR o) x) /\
    (forall y, In y (map fst (post s)) -> reach H (VR y) x) /\ PI (post s).
  Definition good (e' : env) (mt : vm) (k : val) (c : oid) : Prop :=
    exists s et kx b, (forall z, In z et -> In z e') /\ val_rel (Renv et) kx k /\ H c = Some b /\ In kx (keys_of b) /\ J c s et mt.
  Definition evs (ops : list op) (m : vm) (e' : env) : Prop :=
    forall pre o rest mt k a c, ops = pre ++ o :: rest -> run pre m = Some mt -> In (k, a) (hashed o mt) -> Renv e' c a -> good e' mt k c.
  Definition mono (e e' : env) (n : nat) : Prop :=
    (forall z, In z e -> In z e') /\ (forall k a, In (k, VR a) e' -> In (k, VR a) e \/ n <= a).
  Definition EV (A : act) (s : pst) (e : env) (m : vm) : Prop :=
    forall ops s' e' m', A s = Ok (ops, s') -> run ops m = Some m' -> sync s' e' m' -> mono e e' (length (heap m)) /\ evs ops m e'.

  Lemma index_inj l : forall n l', index n l = index n l' -> l = l'.
  Proof.
    induction l as [|v l IH]; intros n [|v' l'] E; cbn in E; try discriminate; auto. injection E as -> E. f_equal. eapply IH; eauto.
  Qed.
  Lemma sync_fun s e e' m : sync s e m -> sync s e' m -> e' = e.
  Proof.
    intros [A B _] [A' B' _]. rewrite B in B'. apply index_inj in B'. rewrite A in A'. clear - A' B'. revert e A' B'.
    induction e' as [|[k v] e' IH]; intros [|[k2 v2] e] A' B'; cbn in *; try discriminate; auto. injection A' as -> A'. injection B' as -> B'. f_equal. auto.
  Qed.
  Lemma sync_fun2 s e e' m m' : sync s e m -> sync s e' m' -> mem m' = mem m -> e' = e.
  Proof.
    intros [A B _] [A' B' _] Em. rewrite Em, B in B'. apply index_inj in B'. rewrite A in A'. clear - A' B'. revert e A' B'.
    induction e' as [|[k v] e' IH]; intros [|[k2 v2] e] A' B'; cbn in *; try discriminate; auto. injection A' as -> A'. injection B' as -> B'. f_equal. auto.
  Qed.

  Lemma mono_refl e n : mono e e n.
  Proof. split; auto. Qed.
  Lemma mono_trans e e1 e2 n n1 : mono e e1 n -> mono e1 e2 n1 -> n <= n1 -> mono e e2 n.
  Proof.
    intros (A & B) (C & D) L. split; [auto|]. intros k a Hk. destruct (D k a Hk) as [X|X]; [apply B; auto|right; lia].
  Qed.
  Lemma Sim_mono X I L e h P e' h' P' : Sim X I L e h P e' h' P' -> mono e e' (length h).
  Proof. intros S. split; [apply (s_env S)|apply (s_fresh S)]. Qed.
  Lemma good_mono e1 e2 mt k c : (forall z, In z e1 -> In z e2) -> good e1 mt k c -> good e2 mt k c.
  Proof. intros Hz (s & et & kx & b & A & B). exists s, et, kx, b. split; auto. Qed.
  Lemma evs_nil m e : evs [] m e.
  Proof. intros pre o rest mt k a c E. destruct pre; discriminate. Qed.
  Lemma evs_app o1 o2 m m1 m2 e1 e2 : run o1 m = Some m1 -> run o2 m1 = Some m2 -> mono e1 e2 (length (heap m1)) ->
    evs o1 m e1 -> evs o2 m1 e2 -> evs (o1 ++ o2) m e2.
  Proof.
    intros R1 R2 M V1 V2 pre o rest mt k a c E Rp Hi Hc.
    apply app_eq_app in E as (l & [(-> & E)|(-> & E)]).
    - (* in o1 *)
      destruct l as [|o' l].
      + cbn in E. subst o2. rewrite app_nil_r in R1. rewrite Rp in R1. injection R1 as ->. apply (V2 [] o rest m1 k a c); auto.
      + cbn in E. injection E as <- ->. apply run_cut in R1 as (mt' & Rp' & R1). rewrite Rp in Rp'. injection Rp' as <-. cbn in R1.
        destruct (step o mt) as [mt2|] eqn:Es; [|discriminate]. pose proof (hashed_lt _ _ _ _ _ Hi Es). apply run_len in R1.
        destruct (proj2 M _ _ Hc) as [Hc1|Hc1]; [|lia]. eapply good_mono; [exact (proj1 M)|]. eapply (V1 pre o l); eauto.
    - (* in o2 *)
      subst. rewrite (run_app _ _ _ _ R1) in Rp. eapply (V2 l o rest); eauto.
  Qed.

  Lemma EV_bind A B s e m :
    (forall ops1 s1, A s = Ok (ops1, s1) -> exists e1 m1, run ops1 m = Some m1 /\ sync s1 e1 m1 /\ EV B s1 e1 m1) ->
    EV A s e m -> EV (A ;; B) s e m.
  Proof.
    intros HA VA_ ops s' e' m' E R S'. unfold seq in E. destruct (A s) as [[l1 s1]|] eqn:EA; [|discriminate].
    destruct (B s1) as [[l2 s2]|] eqn:EB; [|discriminate]. injection E as <- <-.
    destruct (HA _ _ eq_refl) as (e1 & m1 & R1 & S1 & VB). rewrite (run_app _ _ _ _ R1) in R.
    destruct (VA_ _ _ _ _ EA R1 S1) as (M1 & V1). destruct (VB _ _ _ _ EB R S') as (M2 & V2).
    pose proof (run_len _ _ _ R1). split; [eapply mono_trans; eauto|]. eapply evs_app; eauto.
  Qed.
  Lemma EV_ext A B s e m : A s = B s -> EV B s e m -> EV A s e m.
  Proof. intros E V ops s' e' m' EA. apply V. congruence. Qed.
  Lemma EV_assoc A B C s e m : EV ((A ;; B) ;; C) s e m -> EV (A ;; B ;; C) s e m.
  Proof. apply EV_ext. symmetry. apply seq_assoc. Qed.
  Lemma EV_assoc' A B C s e m : EV (A ;; B ;; C) s e m -> EV ((A ;; B) ;; C) s e m.
  Proof. apply EV_ext. apply seq_assoc. Qed.

  (** opcodes that hash nothing *)
  Definition quiet (o : op) : bool := match o with SETITEM | SETITEMS | DICT | ADDITEMS | FROZENSET | REDUCE | PUT _ | MEMOIZE => false | _ => true end.
  Lemma evs_quiet ops m e : forallb quiet ops = true -> evs ops m e.
  Proof.
    intros Q pre o rest mt k a c -> _ Hi _. rewrite forallb_app in Q. apply andb_true_iff in Q as [_ Q]. cbn in Q. apply andb_true_iff in Q as [Q _].
    destruct o; cbn in Q; try discriminate; destruct Hi.
  Qed.
  Lemma quiet_puts ops : forallb quiet ops = true -> existsb puts ops = false.
  Proof. induction ops as [|o ops IH]; cbn; auto. intros E. apply andb_true_iff in E as [A B]. rewrite IH by auto. destruct o; auto; discriminate. Qed.
  Lemma EV_emit_gen ops s e m : sync s e m -> existsb puts ops = false -> (forall m', run ops m = Some m' -> sync s e m' -> evs ops m e) -> EV (emit ops) s e m.
  Proof.
    intros S Q V ops' s' e' m' E R S'. injection E as <- <-. pose proof (run_mem _ _ _ Q R) as Em.
    pose proof (sync_fun2 _ _ _ _ _ S S' Em). subst e'. split; [apply mono_refl|eauto].
  Qed.
  Lemma EV_emit ops s e m : sync s e m -> forallb quiet ops = true -> EV (emit ops) s e m.
  Proof. intros S Q. apply EV_emit_gen; auto using quiet_puts. intros. now apply evs_quiet. Qed.
  Lemma EV_nil s e m : sync s e m -> EV (emit []) s e m.
  Proof. intros. now apply EV_emit. Qed.
  Lemma EV_fail x s e m : EV (fail x) s e m.
  Proof. intros ops s' e' m' E. discriminate. Qed.
  (** one opcode that may hash *)
  Lemma EV_one o s e m : sync s e m -> puts o = false ->
    (forall m' k a c, step o m = Some m' -> sync s e m' -> In (k, a) (hashed o m) -> Renv e c a -> good e m k c) -> EV (emit [o]) s e m.
  Proof.
    intros S Hp V. apply EV_emit_gen; auto; [cbn; now rewrite Hp|]. intros m' R S' pre o' rest mt k a c E Rp Hi Hc.
    destruct pre as [|? [|? ?]]; try discriminate. injection E as <- <-. injection Rp as <-. cbn in R. destruct (step o m) as [m1|] eqn:E1; [|discriminate]. injection R as <-. eapply V; eauto.
  Qed.

  (** making an object and memoizing it *)
  Lemma EV_new ops k v r s e m m1 : sync s e m -> run ops m = Some m1 -> mem m1 = mem m -> stk m1 = v :: r ->
    (forall a, v = VR a -> length (heap m) <= a) -> evs ops m (e ++ [(k, v)]) -> EV (emit ops ;; memoize proto k) s e m.
  Proof.
    intros S R M St Hv V ops' s' e' m' E R' S'.
    destruct (memoize_run proto k s e m1 v r) as (o2 & m2 & A & B & C & D & F & G); auto.
    { apply (sy_memo _ _ _ _ S). }
    { rewrite M. apply (sy_mem _ _ _ _ S). }
    unfold seq, emit in E. rewrite A in E. injection E as <- <-. rewrite (run_app _ _ _ _ R), B in R'. injection R' as <-.
    assert (e' = e ++ [(k, v)]).
    { destruct S' as [S1 S2 _]. cbn in S1. rewrite G in S2. apply index_inj in S2. rewrite (sy_memo _ _ _ _ S) in S1.
      clear - S1 S2. replace (map fst e ++ [k]) with (map fst (e ++ [(k, v)])) in S1 by (now rewrite map_app).
      revert S1 S2. generalize (e ++ [(k, v)]). intros l. revert e'. induction l as [|[k1 v1] l IH]; intros [|[k2 v2] e'] S1 S2; cbn in *; try discriminate; auto.
      injection S1 as -> S1. injection S2 as -> S2. f_equal. auto. }
    subst e'. split.
    - split; [intros; apply in_app_iff; auto|]. intros k' a Hi. apply in_app_iff in Hi as [Hi|[Hi|[]]]; auto. injection Hi as <- ->. right. auto.
    - eapply evs_app; [exact R|exact B|apply mono_refl|exact V|].
      assert (Eo : o2 = [if Nat.leb 4 proto then MEMOIZE else PUT (length (memo s))]) by (unfold memoize in A; congruence). subst o2. clear.
      intros pre o rest mt k' a c E _ Hi. destruct pre as [|? [|? ?]]; cbn [app] in E; [|discriminate|discriminate].
      assert (o = if Nat.leb 4 proto then MEMOIZE else PUT (length (memo s))) by congruence. subst o.
      destruct (Nat.leb 4 proto); destruct Hi.
  Qed.
  Lemma EV_memoize_atom k a s e m r : sync s e m -> stk m = VA a 0 :: r -> EV (memoize proto k) s e m.
  Proof.
    intros S St. eapply EV_ext with (B := emit [] ;; memoize proto k); [symmetry; apply seq_nil|].
    eapply EV_new; [exact S|reflexivity|reflexivity|exact St|discriminate|apply evs_nil].
  Qed.

  (** ** actions keep PI *)
  Definition pi (A : act) : Prop := forall s ops s', A s = Ok (ops, s') -> PI (post s) -> PI (post s').
  Lemma pi_emit l : pi (emit l).
  Proof. intros s ops s' E. injection E as _ <-. auto. Qed.
  Lemma pi_seq A B : pi A -> pi B -> pi (A ;; B).
  Proof.
    intros HA HB s ops s' E P. unfold seq in E. destruct (A s) as [[l s1]|] eqn:EA; [|discriminate]. destruct (B s1) as [[l' s2]|] eqn:EB; [|discriminate].
    injection E as _ <-. eapply HB; eauto.
  Qed.
  Lemma pi_memoize k : pi (memoize proto k).
  Proof. intros s ops s' E. injection E as _ <-. auto. Qed.
  Lemma pi_get k (f : option nat -> act) : (forall i, pi (f i)) -> pi (fun s => f (memo_get k s) s).
  Proof. intros Hf s ops s' E. eapply Hf; eauto. Qed.
  Lemma pi_fail x : pi (fail x).
  Proof. intros s ops s' E. discriminate. Qed.
  Lemma pi_ext (A B : act) : (forall s, A s = B s) -> pi B -> pi A.
  Proof. intros E P s ops s' EA. apply (P s ops s'). congruence. Qed.

  Section Pi.
    Variable sv : val -> act.
    Hypothesis PS : forall v, pi (sv v).
    Notation Tt := (fun _ : val => True).
    Lemma pi_sv v : True -> pi (sv v).
    Proof. intros _. apply PS. Qed.
    Lemma pi_arg x : Va Tt x.
    Proof. destruct x; cbn; auto. Qed.
    Lemma pi_tuple k xs : pi (save_tuple proto sv k xs).
    Proof. eapply (T_tuple proto pi pi_emit pi_seq pi_memoize pi_get Tt sv pi_sv). intros; apply pi_arg. Qed.
    Lemma pi_reduce nb c xs st k : pi (save_reduce proto sv nb c xs st k).
    Proof. eapply (T_reduce proto pi pi_emit pi_seq pi_memoize pi_get Tt sv pi_sv); auto. intros; apply pi_arg. Qed.
    Lemma pi_setitems kvs : pi (batch_setitems proto sv kvs).
    Proof. eapply (T_setitems proto pi pi_emit pi_seq Tt sv pi_sv); auto. Qed.
    Lemma pi_appends vs : pi (batch_appends proto sv vs).
    Proof. eapply (T_appends proto pi pi_emit pi_seq Tt sv pi_sv); auto. Qed.
    Lemma pi_dict k kvs : pi (save_dict proto sv k kvs).
    Proof. eapply (T_dict proto pi pi_emit pi_seq pi_memoize Tt sv pi_sv); auto. Qed.
    Lemma pi_list k vs : pi (save_list proto sv k vs).
    Proof. eapply (T_list proto pi pi_emit pi_seq pi_memoize Tt sv pi_sv); auto. Qed.
    Lemma pi_sarg x : pi (save_arg proto sv x).
    Proof. eapply (T_arg proto pi pi_emit pi_seq pi_memoize Tt sv pi_sv). apply pi_arg. Qed.
    Lemma pi_seqs {T} (f : T -> act) l : (forall x, In x l -> pi (f x)) -> pi (seqs f l).
    Proof. apply (T_seqs pi pi_emit pi_seq). Qed.
    Lemma pi_batches {T} (one : T -> act) many fuel l : (forall x, pi (one x)) -> (forall l', pi (many l')) -> pi (batches one many fuel l).
    Proof. intros A B. apply (T_batches pi pi_emit pi_seq); auto. Qed.
    Lemma pi_exec p : pi (exec_pp proto H sv p).
    Proof.
      destruct p as [c|f|t]; cbn [exec_pp].
      - destruct (H c) as [[| | | | | |[v|]|]|]; try apply pi_fail. apply pi_seq; [apply pi_reduce|apply pi_emit].
      - destruct (glob_items H f) as [[|kv kvs]|]; [apply pi_emit| |apply pi_fail].
        apply (pi_get (KGlob f) (fun i s => match i with None => Fail KeyErr s | Some i => (emit [GET i] ;; batch_setitems proto sv (kv :: kvs) ;; emit [POP]) s end)).
        intros [i|]; [|intros s ops s' E; discriminate]. apply pi_seq; [apply pi_emit|]. apply pi_seq; [apply pi_setitems|apply pi_emit].
      - destruct (H t) as [[| | | | |mt n bs d q| |]|]; try apply pi_fail. apply pi_seq; [apply pi_reduce|apply pi_emit].
    Qed.
    Lemma PI_del o P : PI P -> PI (del o P).
    Proof. intros HP y l p Hi. unfold del in Hi. apply filter_In in Hi as [Hi _]. eapply HP; eauto. Qed.
    Lemma PI_push o own P : PI P -> (forall p, In p own -> pp_tgt p = o) -> PI (P ++ [(o, own)]).
    Proof.
      intros HP Ho y l p Hi Hp. apply in_app_iff in Hi as [Hi|[Hi|[]]]; [eapply HP; eauto|]. injection Hi as <- <-. right. rewrite (Ho _ Hp). constructor.
    Qed.
    Lemma PI_append x p P : PI P -> (exists c, p = PSetCell c) \/ reach H (VR (pp_tgt p)) x -> PI (append_pp x p P).
    Proof.
      intros HP Hp y l q Hi Hq. induction P as [|[z k] P IH]; cbn in Hi; [destruct Hi|].
      assert (HP' : PI P) by (intros y' l' p' Hy; apply HP; right; auto).
      destruct (Nat.eqb_spec x z) as [->|Hn].
      - destruct Hi as [Hi|Hi]; [|eapply HP'; eauto]. injection Hi as <- <-. apply in_app_iff in Hq as [Hq|[<-|[]]]; auto. eapply HP; [left; reflexivity|exact Hq].
      - destruct Hi as [Hi|Hi]; [|apply IH; auto]. injection Hi as <- <-. eapply HP; [left; reflexivity|exact Hq].
    Qed.
    Lemma pi_postproc o own red : (forall p, In p own -> pp_tgt p = o) -> pi red -> pi (save_with_postproc proto H sv o own red).
    Proof.
      intros Ho Hr s ops s' E P. unfold save_with_postproc in E. destruct (memb _ _); [discriminate|].
      revert P. revert E. apply (pi_seq (push_post o own) (red ;; pop_run proto H sv o)).
      - intros s0 ops0 s1 E P. injection E as _ <-. cbn. now apply PI_push.
      - apply pi_seq; [exact Hr|]. intros s0 ops0 s1 E P. unfold pop_run in E. destruct (get o (post s0)) as [l|]; [|discriminate].
        eapply (pi_seqs (exec_pp proto H sv)); [|exact E|cbn; now apply PI_del]. intros; apply pi_exec.
    Qed.
    Lemma first_in_reach o co g m nm de cl st kvs P x : H o = Some (OFun co (GCopy g m) nm de cl st) -> H g = Some (ODict kvs) ->
      first_in (map snd kvs) P = Some x -> reach H (VR o) x.
    Proof.
      intros Ho Hg E. unfold first_in in E. destruct (find _ P) as [[y l]|] eqn:Ef; [|discriminate]. injection E as <-.
      apply find_some in Ef as (_ & Ef). apply existsb_exists in Ef as (w & Hw & Ew). destruct w as [|y']; [discriminate|]. cbn in Ew. apply Nat.eqb_eq in Ew. subst y'.
      apply in_map_iff in Hw as ([k v] & Ev & Hi). cbn in Ev. subst v.
      eapply r_step; [exact Ho|cbn; right; right; right; right; left; reflexivity|]. eapply r_step; [exact Hg| |apply r_here].
      apply (in_flat _ _ _ Hi).
    Qed.
    Lemma pi_obj o b : H o = Some b -> pi (save_obj proto H sv o b).
    Proof.
      intros Hb. destruct b as [vs|vs|kvs|nb c args li di st|co gl nm de cl st|mt nm bs d q|c|fz vs]; cbn [save_obj].
      - apply pi_tuple.
      - apply pi_list.
      - apply pi_dict.
      - eapply (T_instance proto pi pi_emit pi_seq pi_memoize pi_get Tt sv pi_sv); auto. intros; apply pi_arg.
      - destruct gl as [a|g m]; cbn [save_function].
        + apply pi_postproc; [intros p []|apply pi_reduce].
        + destruct (H g) as [[| |kvs| | | | |]|] eqn:Eg; try apply pi_fail. cbv zeta. intros s ops s' E P.
          destruct (first_in (map snd kvs) (post s)) as [x|] eqn:Ef.
          * unfold seq, add_pp in E.
            set (s1 := {| memo := memo s; post := append_pp x (PSetItems o) (post s) |}) in *.
            assert (P1 : PI (post s1)) by (cbn; apply PI_append; auto; right; eapply first_in_reach; eauto).
            match type of E with match ?y with _ => _ end = _ => destruct y as [[l2 s2]|] eqn:E2; [|discriminate] end. injection E as _ <-.
            eapply pi_postproc; [| |exact E2|exact P1]; [intros p []|apply pi_reduce].
          * rewrite seq_nil in E. eapply pi_postproc; [| |exact E|exact P]; [intros p [<-|[]]; reflexivity|apply pi_reduce].
      - apply pi_postproc; [intros p [<-|[]]; reflexivity|apply pi_reduce].
      - unfold save_cell. intros s ops s' E P. destruct c as [v|].
        + cbv zeta in E. match type of E with context [match ?d with Some _ => _ | None => _ end] => destruct d as [x|] end.
          * revert P. revert E. apply (pi_seq (save_reduce proto sv false (g_ GCreateCell) [AV vNone] SNone (Some (KObj o)))); [apply pi_reduce|].
            intros s0 ops0 s1 E P. injection E as _ <-. cbn. apply PI_append; eauto.
          * eapply pi_reduce; eauto.
        + revert P. revert E. apply (pi_seq (save_reduce proto sv false (g_ GCreateCell) [AV (VA ACellEmpty 0)] SNone (Some (KObj o)))); [apply pi_reduce|].
          apply pi_seq; [apply pi_reduce|apply pi_emit].
      - eapply (T_set proto pi pi_emit pi_seq pi_memoize pi_get Tt sv pi_sv); auto.
    Qed.
    Lemma pi_val v : pi (save_val proto H sv v).
    Proof.
      intros s ops s' E P. unfold save_val in E. destruct v as [a i|o].
      - eapply (T_atom proto pi pi_emit pi_seq pi_memoize pi_get); eauto.
      - destruct (memo_get (KObj o) s); [injection E as _ <-; auto|]. destruct (H o) as [b|] eqn:Ho; [|discriminate]. eapply pi_obj; eauto.
    Qed.
  End Pi.
  Lemma pi_save fuel : forall v, pi (save proto H fuel v).
  Proof. induction fuel as [|n IH]; intros v; [apply pi_fail|]. cbn [save]. apply pi_val. exact IH. Qed.
End Hash.
