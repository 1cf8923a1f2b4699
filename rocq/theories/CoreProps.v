(** C01-C06: what a user gets back from loads(dumps(x)). *)
From Coq Require Import String List Bool Arith ZArith Lia.
From Verif Require Import PyDict CoreModel CoreSpec CoreSim CoreStep CoreReduce CoreObj CoreProc CoreMain.
Import ListNotations.
Local Open Scope string_scope.
Local Open Scope list_scope.

Definition vm0 : vm := {| stk := []; meta := []; mem := []; heap := [] |}.
Definition pst0 : pst := {| memo := []; post := [] |}.

Lemma sync0 H : sync H pst0 [] vm0.
Proof. constructor; auto. constructor; intros; contradiction. Qed.

(** no STOP inside a pickle *)
Definition nostop (A : act) : Prop := forall s ops s', A s = Ok (ops, s') -> ~ In STOP ops.
Lemma ns_seq A B : nostop A -> nostop B -> nostop (A ;; B).
Proof.
  intros HA HB s ops s' E. unfold seq in E. destruct (A s) as [[l s1]|] eqn:EA; [|discriminate].
  destruct (B s1) as [[l' s2]|] eqn:EB; [|discriminate]. inversion E; subst.
  intros Hi. apply in_app_iff in Hi as [Hi|Hi]; [eapply HA|eapply HB]; eauto.
Qed.
Lemma ns_emit l : ~ In STOP l -> nostop (emit l).
Proof. intros Hl s ops s' E. inversion E; subst. auto. Qed.
Lemma ns_memoize p k : nostop (memoize p k).
Proof. unfold memoize. intros s ops s' E. destruct (Nat.leb 4 p); inversion E; subst; intros [Hi|[]]; discriminate. Qed.
Lemma ns_seqs {A} (f : A -> act) l : (forall x, nostop (f x)) -> nostop (seqs f l).
Proof. intros Hf. induction l; cbn [seqs]; [apply ns_emit; intros []|apply ns_seq; auto]. Qed.
Lemma ns_fail e : nostop (fail e).
Proof. intros s ops s' E. discriminate. Qed.
Ltac nst := cbn; intuition discriminate.

Section NoStop.
  Variable proto : nat.
  Variable H : oid -> option obj.
  Section Sv.
  Variable sv : val -> act.
  Hypothesis SV : forall v, nostop (sv v).
  Lemma ns_batches {A} (one : A -> act) many : (forall x, nostop (one x)) -> (forall l, nostop (many l)) ->
    forall n l, nostop (batches one many n l).
  Proof.
    intros H1 H2. induction n; intros l; cbn [batches]; [apply ns_emit; nst|]. apply ns_seq.
    - destruct (firstn BATCHSIZE l) as [|x [|y r]]; auto. apply ns_emit; nst.
    - destruct (Nat.ltb _ _); [apply ns_emit; nst|auto].
  Qed.
  Lemma ns_kv p : nostop (save_kv sv p).
  Proof. apply ns_seq; auto. Qed.
  Lemma ns_setitems kvs : nostop (batch_setitems proto sv kvs).
  Proof.
    unfold batch_setitems. destruct (bin proto).
    - apply ns_batches; intros.
      + apply ns_seq; [apply ns_kv|apply ns_emit; nst].
      + apply ns_seq; [apply ns_emit; nst|]. apply ns_seq; [apply ns_seqs, ns_kv|apply ns_emit; nst].
    - apply ns_seqs. intros. apply ns_seq; [apply ns_kv|apply ns_emit; nst].
  Qed.
  Lemma ns_dict k kvs : nostop (save_dict proto sv k kvs).
  Proof. repeat apply ns_seq; [apply ns_emit; destruct (bin proto); nst|apply ns_memoize|apply ns_setitems]. Qed.
  Lemma ns_appends vs : nostop (batch_appends proto sv vs).
  Proof.
    unfold batch_appends. destruct (bin proto).
    - apply ns_batches; intros; repeat apply ns_seq; auto; try (apply ns_emit; nst). apply ns_seqs; auto.
    - apply ns_seqs. intros; apply ns_seq; auto; apply ns_emit; nst.
  Qed.
  Lemma ns_list k vs : nostop (save_list proto sv k vs).
  Proof. repeat apply ns_seq; [apply ns_emit; destruct (bin proto); nst|apply ns_memoize|apply ns_appends]. Qed.
  Lemma ns_arg x : nostop (save_arg proto sv x).
  Proof. destruct x; cbn; [apply SV|apply ns_dict|apply ns_list]. Qed.
  Lemma ns_repeat n i : ~ In STOP (repeat POP n ++ [GET i]).
  Proof. intros Hi. apply in_app_iff in Hi as [Hi|[Hi|[]]]; [apply repeat_spec in Hi|]; discriminate. Qed.
  Lemma ns_tuple k xs : nostop (save_tuple proto sv k xs).
  Proof.
    unfold save_tuple. destruct xs as [|x xs]; [apply ns_emit; destruct (bin proto); nst|].
    destruct (_ && _).
    - apply ns_seq; [apply ns_seqs, ns_arg|]. intros s ops s' E. destruct (memo_get k s).
      + inversion E; subst. apply (ns_repeat (Datatypes.S (length xs))).
      + revert E. apply ns_seq; [apply ns_emit; nst|apply ns_memoize].
    - apply ns_seq; [apply ns_emit; nst|]. apply ns_seq; [apply ns_seqs, ns_arg|]. intros s ops s' E. destruct (memo_get k s).
      + destruct (bin proto); inversion E; subst; [nst|apply (ns_repeat (Datatypes.S (length (x :: xs))))].
      + revert E. apply ns_seq; [apply ns_emit; nst|apply ns_memoize].
  Qed.
  Lemma ns_state st : nostop (save_state proto sv st).
  Proof. destruct st as [|v|d [sl|]]; cbn [save_state]; [apply ns_emit; nst| | |]; (apply ns_seq; [|apply ns_emit; nst]); [apply SV|apply ns_tuple|apply ns_dict]. Qed.
  Lemma ns_call nb c args : nostop (red_call proto sv nb c args).
  Proof. unfold red_call. destruct nb; [destruct (Nat.leb 2 proto)|]; (apply ns_seq; [apply SV|]; apply ns_seq; [apply ns_tuple|apply ns_emit; nst]). Qed.
  Lemma ns_memo k : nostop (red_memo proto k).
  Proof.
    unfold red_memo. destruct k; [|apply ns_emit; nst]. intros s ops s' E. destruct (memo_get k s).
    - inversion E; subst. nst.
    - eapply ns_memoize; eauto.
  Qed.
  Lemma ns_reduce nb c args st k : nostop (save_reduce proto sv nb c args st k).
  Proof. unfold save_reduce. apply ns_seq; [apply ns_call|apply ns_seq; [apply ns_memo|apply ns_state]]. Qed.
  Lemma ns_set k fz vs : nostop (save_set proto sv k fz vs).
  Proof.
    assert (AB : forall l, nostop (add_batch sv l)) by (intros l; repeat apply ns_seq; try (apply ns_emit; nst); apply ns_seqs; auto).
    unfold save_set. destruct (Nat.leb 4 proto); [destruct fz|apply ns_reduce].
    - apply ns_seq; [apply ns_emit; nst|]. apply ns_seq; [apply ns_seqs; auto|]. intros s ops s' E. destruct (memo_get k s).
      + inversion E; subst. nst.
      + revert E. apply ns_seq; [apply ns_emit; nst|apply ns_memoize].
    - apply ns_seq; [apply ns_emit; nst|]. apply ns_seq; [apply ns_memoize|]. apply ns_batches; auto.
  Qed.
  Lemma ns_instance nb c args li di st k : nostop (save_instance proto sv nb c args li di st k).
  Proof. unfold save_instance. repeat apply ns_seq; [apply ns_call|apply ns_memo|apply ns_appends|apply ns_setitems|apply ns_state]. Qed.
  Lemma ns_pp p : nostop (exec_pp proto H sv p).
  Proof.
    destruct p; cbn [exec_pp].
    - destruct (H c) as [[| | | | | |[|]|]|]; try apply ns_fail. apply ns_seq; [apply ns_reduce|apply ns_emit; nst].
    - destruct (glob_items H f) as [[|kv kvs]|]; [apply ns_emit; nst| |apply ns_fail].
      intros s ops s' E. destruct (memo_get (KGlob f) s); [|discriminate]. revert E.
      apply ns_seq; [apply ns_emit; nst|]. apply ns_seq; [apply ns_setitems|apply ns_emit; nst].
    - destruct (H t) as [[]|]; try apply ns_fail. apply ns_seq; [apply ns_reduce|apply ns_emit; nst].
  Qed.
  Lemma ns_postproc o own red : nostop red -> nostop (save_with_postproc proto H sv o own red).
  Proof.
    intros HR s ops s' E. unfold save_with_postproc in E. destruct (memb _ _); [discriminate|]. revert E.
    apply ns_seq; [intros ? ? ? E; inversion E; nst|]. apply ns_seq; auto.
    intros s1 ops1 s1' E. unfold pop_run in E. destruct (get o (post s1)); [|discriminate]. revert E. apply ns_seqs. apply ns_pp.
  Qed.
  Lemma ns_addpp x p : nostop (add_pp x p).
  Proof. intros s ops s' E. inversion E; subst. nst. Qed.
  Lemma ns_val v : nostop (save_val proto H sv v).
  Proof.
    intros s ops s' E. unfold save_val in E. destruct v as [a i|o].
    - unfold save_atom in E. assert (En : nostop (empty_tuple proto)) by (apply ns_emit; destruct (bin proto); nst).
      assert (G : forall a', (if memoized a' then match memo_get (KAtom a' i) s with
                 | Some n => Ok ([GET n], s) | None => (emit [CONST a'] ;; memoize proto (KAtom a' i)) s end else Ok ([CONST a'], s)) = Ok (ops, s') -> ~ In STOP ops).
      { intros a' E'. destruct (memoized a'); [destruct (memo_get (KAtom a' i) s)|]; [inversion E'; nst| |inversion E'; nst].
        revert E'. apply ns_seq; [apply ns_emit; nst|apply ns_memoize]. }
      destruct a; try (match type of E with (if memoized ?a then _ else _) = _ => exact (G a E) end). exact (En _ _ _ E).
    - destruct (memo_get (KObj o) s); [inversion E; nst|]. destruct (H o) as [b|]; [|discriminate]. revert E.
      destruct b; cbn [save_obj].
      + apply ns_tuple.
      + apply ns_list.
      + apply ns_dict.
      + apply ns_instance.
      + unfold save_function. destruct gl; [apply ns_postproc, ns_reduce|]. destruct (H g) as [[]|]; try apply ns_fail.
        cbv zeta. destruct (first_in _ _); (apply ns_seq; [|apply ns_postproc, ns_reduce]); [apply ns_addpp|apply ns_emit; nst].
      + apply ns_postproc, ns_reduce.
      + unfold save_cell. destruct contents as [v|].
        * cbv zeta. match goal with |- context [match ?d with Some _ => _ | None => _ end] => destruct d end; [apply ns_seq; [apply ns_reduce|apply ns_addpp]|apply ns_reduce].
        * apply ns_seq; [apply ns_reduce|]. apply ns_seq; [apply ns_reduce|apply ns_emit; nst].
      + apply ns_set.
  Qed.
  End Sv.
  Lemma ns_save fuel v : nostop (save proto H fuel v).
  Proof. revert v. induction fuel as [|n IH]; intros v; [apply ns_fail|]. apply ns_val; auto. Qed.
End NoStop.

(** running opcodes that contain no STOP, then loading the rest *)
Lemma load_run ops rest : forall m m', ~ In STOP ops -> run ops m = Some m' -> load (ops ++ rest) m = load rest m'.
Proof.
  induction ops as [|o ops IH]; cbn [run app]; intros m m' Hn R; [congruence|].
  destruct (step o m) as [m1|] eqn:E; [|discriminate].
  assert (Hs : o <> STOP) by (intros ->; apply Hn; left; auto).
  transitivity (load (ops ++ rest) m1).
  - cbn [load]. destruct o; try congruence; rewrite E; reflexivity.
  - apply IH; auto. intros Hi. apply Hn. right; auto.
Qed.
Lemma load_nostop ops : forall m, ~ In STOP ops -> load ops m = None.
Proof.
  induction ops as [|o ops IH]; intros m Hn; [reflexivity|].
  assert (Hs : o <> STOP) by (intros ->; apply Hn; left; auto).
  assert (Hr : forall m, load ops m = None) by (intros; apply IH; intros Hi; apply Hn; right; auto).
  cbn [load]. destruct o; try congruence; destruct (step _ _); auto.
Qed.

(** the shape of a pickle *)
Lemma dumps_shape proto H fuel v ops : dumps proto H fuel v = Ok ops ->
  exists l s', ops = (if Nat.leb 2 proto then [PROTO proto] else []) ++ l ++ [STOP] /\
               save proto H fuel v pst0 = Ok (l, s') /\ ~ In STOP ((if Nat.leb 2 proto then [PROTO proto] else []) ++ l).
Proof.
  unfold dumps, dump. fold pst0. destruct (save proto H fuel v pst0) as [[l s']|] eqn:E; [|discriminate]. intros E'. inversion E'; subst.
  exists l, s'. split; auto. split; auto. intros Hi. apply in_app_iff in Hi as [Hi|Hi].
  - destruct (Nat.leb 2 proto); [destruct Hi as [Hi|[]]; discriminate|contradiction].
  - eapply ns_save; eauto.
Qed.

Lemma iso_of_sim H l s' e' m' v v' : Sim H X0 (Ik []) [] [] (heap vm0) [] e' (heap m') (post s') -> sync H s' e' m' ->
  l = heap m' -> val_rel (Renv e') v v' -> iso H v l v'.
Proof.
  intros Si S -> Hv. pose proof (sy_env _ _ _ _ S) as E.
  assert (EP : post s' = []) by (pose proof (s_post Si) as F; inversion F; auto).
  exists (Renv e'), (Genv e'). split; auto. split; [intros; eapply env_Rfun; eauto|]. split; [intros; eapply env_Rinj; eauto|].
  split; [|split; [|split]].
  - intros f g g' A B. assert (X : VR g = VR g') by (eapply (ek_fun _ _ _ _ E); [|exact A|exact B]; discriminate). congruence.
  - intros f f' g A B. pose proof (ek_inj _ _ _ _ E _ _ _ A B). congruence.
  - intros f g o A B. pose proof (ek_inj _ _ _ _ E _ _ _ A B). discriminate.
  - intros o a Ho. destruct (s_cov Si o a Ho) as [[]|[[]|[C|(p & [[]|(x & Hx & _)] & _)]]]; [|rewrite EP in Hx; destruct Hx].
    destruct C as (b & b' & A & (B & _) & D). exists b, b'. split; auto. split; auto.
    eapply obj_rel_mono; [| | |exact D]; auto. intros x y _ [Hx _]. exact Hx.
Qed.

(** C01, C05: loading a pickle, whatever follows it in the stream, gives an isomorphic graph and leaves
    exactly what follows *)
Theorem C01_roundtrip_stream : forall proto H fuel v ops rest,
  heap_wf H -> proto <= 5 -> dumps proto H fuel v = Ok ops ->
  exists v' m, loads (ops ++ rest) = Some (v', m, rest) /\ iso H v (heap m) v'.
Proof.
  intros proto H fuel v ops rest HW Hp E. destruct (dumps_shape _ _ _ _ _ E) as (l & s' & -> & Es & Hn).
  destruct (save_ok proto H HW fuel v pst0 [] vm0 (sync0 H) _ _ Es) as (e' & m' & R & S & Si & v' & A & B & C).
  exists v', m'. split.
  - unfold loads. fold vm0. rewrite app_assoc, <- app_assoc. erewrite load_run; [|exact Hn|].
    + cbn [app load]. rewrite A. reflexivity.
    + destruct (Nat.leb 2 proto); cbn [app]; auto. cbn [run step]. rewrite (proj2 (Nat.leb_le _ _) Hp). exact R.
  - eapply iso_of_sim; eauto.
Qed.

Theorem C01_roundtrip : forall proto H fuel v ops,
  heap_wf H -> proto <= 5 -> dumps proto H fuel v = Ok ops ->
  exists v' m, loads ops = Some (v', m, []) /\ iso H v (heap m) v'.
Proof.
  intros proto H fuel v ops HW Hp E. destruct (C01_roundtrip_stream proto H fuel v ops [] HW Hp E) as (v' & m & A & B).
  rewrite app_nil_r in A. eauto.
Qed.

(** ** what isomorphism gives: the same paths lead to the same places *)
Lemma getitem_rel (R : oid -> nat -> Prop) d d' k : (forall o a a', R o a -> R o a' -> a = a') -> (forall o o' a, R o a -> R o' a -> o = o') ->
  Forall2 (item_rel R) d d' -> forall a, k = VA a 0 ->
  match getitem d k, getitem d' k with Some w, Some w' => val_rel R w w' | None, None => True | _, _ => False end.
Proof.
  intros RF RI F a ->. induction F as [|[k1 v1] [k2 v2] d d' [A B] F IH]; [exact I|]. cbn [getitem fst snd] in *.
  replace (keyeq (VA a 0) k2) with (keyeq (VA a 0) k1); [|apply (keyeq_rel R RF RI); [split; auto|exact A]].
  destruct (keyeq (VA a 0) k1); auto.
Qed.
Lemma getitem_setitem_other d k k' v : keyeq k k' = false -> getitem (setitem d k' v) k = getitem d k.
Proof.
  intros N. induction d as [|[k1 v1] d IH]; cbn [setitem getitem]; [now rewrite N|].
  destruct (keyeq k' k1) eqn:E1; cbn [getitem].
  - destruct (keyeq k k1) eqn:E2; auto. exfalso. rewrite keyeq_sym in E1. pose proof (keyeq_trans k1 k' k E1) as T.
    rewrite keyeq_sym in N. rewrite N in T. rewrite keyeq_sym, E2 in T. discriminate.
  - destruct (keyeq k k1); auto.
Qed.
Lemma getitem_in d k : forall v, getitem d k = Some v -> exists k', In (k', v) d /\ keyeq k k' = true.
Proof.
  induction d as [|[k1 v1] d IH]; cbn [getitem]; intros v E; [discriminate|]. destruct (keyeq k k1) eqn:E1.
  - inversion E; subst. exists k1. split; [left|]; auto.
  - destruct (IH _ E) as (k' & A & B). exists k'. split; [right|]; auto.
Qed.
Lemma getitem_setitems kvs : forall d k v, keys_distinct kvs -> getitem kvs k = Some v -> getitem (setitems d kvs) k = Some v.
Proof.
  assert (G : forall kvs d k, (forall k' v', In (k', v') kvs -> keyeq k k' = false) -> getitem (setitems d kvs) k = getitem d k).
  { clear kvs. induction kvs as [|[k1 v1] kvs IH]; intros d k Hn; [reflexivity|].
    change (setitems d ((k1, v1) :: kvs)) with (setitems (setitem d k1 v1) kvs). rewrite IH.
    - apply getitem_setitem_other. apply (Hn k1 v1). left; auto.
    - intros; eapply Hn; right; eauto. }
  induction kvs as [|[k1 v1] kvs IH]; intros d k v Hd E; [discriminate|]. destruct Hd as [A B].
  change (setitems d ((k1, v1) :: kvs)) with (setitems (setitem d k1 v1) kvs). cbn [getitem] in E.
  destruct (keyeq k k1) eqn:E1; [|auto]. inversion E; subst. rewrite G.
  - clear - E1. induction d as [|[k2 v2] d IH]; cbn [setitem getitem]; [now rewrite E1|].
    destruct (keyeq k1 k2) eqn:E2; cbn [getitem].
    + replace (keyeq k k2) with (keyeq k1 k2); [now rewrite E2|]. apply (keyeq_trans k k1 k2 E1).
    + replace (keyeq k k2) with (keyeq k1 k2); [now rewrite E2|]. apply (keyeq_trans k k1 k2 E1).
  - intros k' v' Hi. rewrite <- (A k' v' Hi). symmetry. apply (keyeq_trans k k1 k' E1).
Qed.
Lemma nth_rel {A B} (P : A -> B -> Prop) l l' n x : Forall2 P l l' -> nth_error l n = Some x -> exists y, nth_error l' n = Some y /\ P x y.
Proof. intros F. revert n. induction F; intros [|n] E; cbn in *; try discriminate; eauto. inversion E; subst. eauto. Qed.

Lemma comp_rel (R : oid -> nat -> Prop) H G h b b' s w : heap_wf H ->
  (forall o a a', R o a -> R o a' -> a = a') -> (forall o o' a, R o a -> R o' a -> o = o') ->
  obj_rel R H G (fun a b => nth_error h a = Some b) b b' -> comp H b s = Some w ->
  exists w', comp (nth_error h) b' s = Some w' /\ val_rel R w w'.
Proof.
  intros HW RF RI O C.
  assert (OM1 : forall d d' n w0, Forall2 (item_rel R) d d' -> opt_map fst (nth_error d n) = Some w0 ->
                exists w', opt_map fst (nth_error d' n) = Some w' /\ val_rel R w0 w').
  { intros d d' n w0 F E. destruct (nth_error d n) as [p|] eqn:En; [|discriminate]. cbn in E. inversion E; subst.
    destruct (nth_rel _ _ _ _ _ F En) as (p' & -> & A & _). cbn. eauto. }
  assert (OM2 : forall d d' n w0, Forall2 (item_rel R) d d' -> opt_map snd (nth_error d n) = Some w0 ->
                exists w', opt_map snd (nth_error d' n) = Some w' /\ val_rel R w0 w').
  { intros d d' n w0 F E. destruct (nth_error d n) as [p|] eqn:En; [|discriminate]. cbn in E. inversion E; subst.
    destruct (nth_rel _ _ _ _ _ F En) as (p' & -> & _ & A). cbn. eauto. }
  destruct b as [vs|vs|kvs|nb c args li di st|co gl n de cl st|mt n bs d q|c|fz vs]; destruct b' as [vs'|vs'|kvs'|nb' c' args' li' di' st'|co' gl' n' de' cl' st'|mt' n' bs' d' q'|c'|fz' vs'];
    try (exfalso; exact O); try (destruct c; exfalso; exact O).
  - destruct s; try discriminate. eapply nth_rel; eauto.
  - destruct s; try discriminate. eapply nth_rel; eauto.
  - destruct s; try discriminate; [eapply OM1|eapply OM2]; eauto.
  - destruct O as (_ & A & B & B1 & B2 & D).
    destruct st as [|v|d [sl|]], st' as [|v'|d' [sl'|]]; try (exfalso; exact D); try (destruct D as [D D']);
      destruct s; try discriminate; cbn [comp] in *;
      first [inversion C; subst; eauto; fail | eapply nth_rel; eauto; fail | eapply OM1; eauto; fail | eapply OM2; eauto; fail].
  - destruct O as (A & A2 & A3 & A4 & A5 & D).
    assert (GG : forall k, s = SGlobal k -> exists w', comp (nth_error h) (OFun co' gl' n' de' cl' st') s = Some w' /\ val_rel R w w').
    { intros k ->. destruct gl as [|g m]; [destruct st as [|?|? [|]]; discriminate|]. destruct gl' as [|g' m']; [exfalso; exact A2|].
      destruct A2 as (_ & _ & kvs & d & K1 & K2 & K3). assert (C' : getitem kvs (VA k 0) = Some w) by (cbn [comp] in C; rewrite K1 in C; destruct st as [|?|? [|]]; exact C). clear C. rename C' into C.
      assert (Cd : comp (nth_error h) (OFun co' (GCopy g' m') n' de' cl' st') (SGlobal k) = getitem d (VA k 0)) by (cbn [comp]; rewrite K2; destruct st' as [|?|? [|]]; reflexivity). rewrite Cd.
      pose proof (getitem_setitems kvs [(VA (AStr "__name__") 0, m); (VA (AStr "__builtins__") 0, VA (AModDict "builtins") 0)] _ _ (proj1 (HW _ _ K1)) C) as C2.
      pose proof (getitem_rel R _ _ (VA k 0) RF RI K3 k eq_refl) as Gr. unfold globals_copy in Gr. rewrite C2 in Gr.
      destruct (getitem d (VA k 0)); [eauto|tauto]. }
    destruct st as [|v|d [sl|]], st' as [|v'|d' [sl'|]]; try (exfalso; exact D); try (destruct D as [D D']);
      destruct gl, gl'; try (exfalso; exact A2);
      destruct s; try discriminate; try (eapply GG; reflexivity); cbn [comp] in *;
      first [inversion C; subst; eauto; fail | eapply nth_rel; eauto; fail | eapply OM1; eauto; fail | eapply OM2; eauto; fail].
  - destruct O as (A & A2 & A3 & D & A4). destruct s; try discriminate; cbn [comp] in *; try (inversion C; subst; eauto; fail);
      try (eapply OM1; eauto; fail); try (eapply OM2; eauto; fail).
  - destruct s; try discriminate. cbn [comp] in *. subst c. destruct c'; cbn in O; [eauto|tauto].
  - destruct O as [_ O]. destruct s; try discriminate. eapply nth_rel; eauto.
Qed.

Lemma follow_rel (R : oid -> nat -> Prop) (G : oid -> nat -> Prop) H h : heap_wf H ->
  (forall o a a', R o a -> R o a' -> a = a') -> (forall o o' a, R o a -> R o' a -> o = o') ->
  (forall o a, R o a -> exists b b', H o = Some b /\ nth_error h a = Some b' /\
                                     obj_rel R H (G o) (fun a b => nth_error h a = Some b) b b') ->
  forall p v v' w, val_rel R v v' -> follow H v p = Some w -> exists w', follow (nth_error h) v' p = Some w' /\ val_rel R w w'.
Proof.
  intros HW RF RI RO. induction p as [|s p IH]; intros v v' w Hv F.
  - cbn in *. inversion F; subst. eauto.
  - destruct v as [|o]; [discriminate|]. destruct v' as [|a]; [exfalso; exact Hv|]. cbn [follow] in *.
    destruct (RO o a Hv) as (b & b' & Hb & Hb' & O). rewrite Hb in F. rewrite Hb'.
    destruct (comp H b s) as [x|] eqn:C; [|discriminate].
    destruct (comp_rel R H (G o) h b b' s x HW RF RI O C) as (x' & -> & Hx). eauto.
Qed.

(** C02 (and what C01 means to a user): every path of references in the original leads, in the copy, to
    the copy of its target; two paths meet in the copy exactly if they meet in the original *)
Theorem C02_paths : forall H v h v', heap_wf H -> iso H v h v' ->
  forall p w, follow H v p = Some w ->
  exists w', follow (nth_error h) v' p = Some w' /\
    (forall a i, w = VA a i -> w' = VA a 0) /\
    (forall q x, follow H v q = Some x -> exists x', follow (nth_error h) v' q = Some x' /\
       forall o o', w = VR o -> x = VR o' -> exists b b', w' = VR b /\ x' = VR b' /\ (b = b' <-> o = o')).
Proof.
  intros H v h v' HW (R & G & Hv & RF & RI & _ & _ & _ & RO) p w F.
  destruct (follow_rel R G H h HW RF RI RO p v v' w Hv F) as (w' & F' & Hw).
  exists w'. split; auto. split.
  - intros a i ->. eapply rel_atom; eauto.
  - intros q x Fq. destruct (follow_rel R G H h HW RF RI RO q v v' x Hv Fq) as (x' & Fq' & Hx). exists x'. split; auto.
    intros o o' -> ->. destruct w' as [|b]; [exfalso; exact Hw|]. destruct x' as [|b']; [exfalso; exact Hx|].
    exists b, b'. split; auto. split; auto. cbn in Hw, Hx. split; intros ->; [eapply RI|eapply RF]; eauto.
Qed.

(** C02: the cells of a function's closure *)
Theorem C02_closure_cells : forall proto H fuel f ops co gl n de t st cells i c contents,
  heap_wf H -> proto <= 5 -> dumps proto H fuel (VR f) = Ok ops ->
  H f = Some (OFun co gl n de (VR t) st) -> H t = Some (OTup cells) -> nth_error cells i = Some (VR c) ->
  H c = Some (OCell contents) ->
  exists a m co' gl' n' de' t' st' cells' c' contents',
    loads ops = Some (VR a, m, []) /\ iso H (VR f) (heap m) (VR a) /\
    nth_error (heap m) a = Some (OFun co' gl' n' de' (VR t') st') /\
    nth_error (heap m) t' = Some (OTup cells') /\ nth_error cells' i = Some (VR c') /\
    nth_error (heap m) c' = Some (OCell contents') /\
    (contents = None <-> contents' = None) /\
    (contents = Some (VR f) <-> contents' = Some (VR a)) /\
    (forall k j, contents = Some (VA k j) -> contents' = Some (VA k 0)).
Proof.
  intros proto H fuel f ops co gl n de t st cells i c contents HW Hp E Hf Ht Hc Hcc.
  destruct (C01_roundtrip _ _ _ _ _ HW Hp E) as (v' & m & L & I0). pose proof I0 as (R & G & Hv & RF & RI & _ & _ & _ & RO).
  destruct v' as [|a]; [exfalso; exact Hv|]. cbn in Hv.
  destruct (RO _ _ Hv) as (b & b' & Hb & Hb' & O). rewrite Hf in Hb. inversion Hb; subst b.
  destruct b' as [| | | |co' gl' n' de' cl' st'| | |]; try (exfalso; exact O). destruct O as (_ & _ & _ & _ & O & _).
  destruct cl' as [|t']; [exfalso; exact O|]. cbn in O.
  destruct (RO _ _ O) as (b & b' & Hb2 & Hb2' & O2). rewrite Ht in Hb2. inversion Hb2; subst b.
  destruct b' as [cells'| | | | | | |]; try (exfalso; exact O2).
  destruct (nth_rel _ _ _ _ _ O2 Hc) as (x & Hx & O3). destruct x as [|c']; [exfalso; exact O3|]. cbn in O3.
  destruct (RO _ _ O3) as (b & b' & Hb4 & Hb4' & O4). rewrite Hcc in Hb4. inversion Hb4; subst b.
  destruct b' as [| | | | | |contents'|]; try (destruct contents; exfalso; exact O4).
  exists a, m, co', gl', n', de', t', st', cells', c', contents'.
  split; auto. split; auto. split; auto. split; auto. split; auto. split; auto.
  destruct contents as [v|], contents' as [v'|]; try (exfalso; exact O4); cbn in O4.
  - split; [split; discriminate|]. split.
    + split; intros X; inversion X; subst.
      * destruct v' as [|x]; [exfalso; exact O4|]. cbn in O4. f_equal. f_equal. eapply RF; eauto.
      * destruct v as [|x]; [exfalso; exact O4|]. cbn in O4. f_equal. f_equal. eapply RI; eauto.
    + intros k j X. inversion X; subst. f_equal. eapply rel_atom; eauto.
  - split; [tauto|]. split; [split; discriminate|]. intros; discriminate.
Qed.

(** ** C03: two protocols give the same graph *)
Section Compose.
  Variables R1 R2 R : nat -> nat -> Prop.
  Hypothesis HR : forall o a b, R1 o a -> R2 o b -> R a b.
  Lemma comp_val v v1 v2 : val_rel R1 v v1 -> val_rel R2 v v2 -> val_rel R v1 v2.
  Proof. destruct v, v1, v2; cbn; try tauto; [intros [-> ->] [-> ->]; auto|eauto]. Qed.
  Lemma comp_vals l l1 : Forall2 (val_rel R1) l l1 -> forall l2, Forall2 (val_rel R2) l l2 -> Forall2 (val_rel R) l1 l2.
  Proof. induction 1; intros l2 F; inversion F; subst; constructor; auto. eapply comp_val; eauto. Qed.
  Lemma comp_items l l1 : Forall2 (item_rel R1) l l1 -> forall l2, Forall2 (item_rel R2) l l2 -> Forall2 (item_rel R) l1 l2.
  Proof. induction 1 as [|? ? ? ? [A B]]; intros l2 F; inversion F as [|? ? ? ? [C D]]; subst; constructor; auto. split; eapply comp_val; eauto. Qed.
  Lemma comp_state st s1 s2 : state_rel R1 st s1 -> state_rel R2 st s2 -> state_rel R s1 s2.
  Proof.
    destruct st as [|v|d [sl|]], s1 as [|v1|d1 [sl1|]], s2 as [|v2|d2 [sl2|]]; cbn; try tauto.
    - apply comp_val.
    - intros [A B] [C D]. split; eapply comp_items; eauto.
    - intros A B. eapply comp_items; eauto.
  Qed.
End Compose.

Theorem C03_iso_compose : forall H v h1 v1 h2 v2, iso H v h1 v1 -> iso H v h2 v2 -> same_graph h1 v1 h2 v2.
Proof.
  intros H v h1 v1 h2 v2 (R1 & G1 & V1 & RF1 & RI1 & GF1 & GI1 & GR1 & RO1) (R2 & G2 & V2 & RF2 & RI2 & GF2 & GI2 & GR2 & RO2).
  set (GG := fun f g1 g2 => exists a1 a2 co1 m1 n1 de1 cl1 st1 co2 m2 n2 de2 cl2 st2, R1 f a1 /\ R2 f a2 /\
       nth_error h1 a1 = Some (OFun co1 (GCopy g1 m1) n1 de1 cl1 st1) /\ nth_error h2 a2 = Some (OFun co2 (GCopy g2 m2) n2 de2 cl2 st2)).
  assert (GS : forall f g1 g2, GG f g1 g2 -> G1 f g1 /\ G2 f g2 /\
            exists m kvs d1 d2, nth_error h1 g1 = Some (ODict d1) /\ nth_error h2 g2 = Some (ODict d2) /\
              Forall2 (item_rel R1) (globals_copy m kvs) d1 /\ Forall2 (item_rel R2) (globals_copy m kvs) d2).
  { intros f g1 g2 (a1 & a2 & co1 & m1 & n1 & de1 & cl1 & st1 & co2 & m2 & n2 & de2 & cl2 & st2 & A1 & A2 & B1 & B2).
    destruct (RO1 _ _ A1) as (b & b1 & Hb & Hb1 & O1). destruct (RO2 _ _ A2) as (b' & b2 & Hb' & Hb2 & O2).
    rewrite B1 in Hb1. inversion Hb1; subst b1. rewrite B2 in Hb2. inversion Hb2; subst b2. rewrite Hb in Hb'. inversion Hb'; subst b'.
    destruct b as [| | | |co gl n de cl st| |[|]|]; try (exfalso; exact O1). destruct O1 as (_ & O1 & _), O2 as (_ & O2 & _).
    destruct gl as [|g m]; [exfalso; exact O1|]. destruct O1 as (_ & X1 & kvs & d1 & K1 & K1' & K1''), O2 as (_ & X2 & kvs' & d2 & K2 & K2' & K2'').
    rewrite K1 in K2. inversion K2; subst kvs'. split; auto. split; auto. exists m, kvs, d1, d2. auto. }
  set (R := fun a b => (exists o, R1 o a /\ R2 o b) \/ (exists f, GG f a b)).
  assert (HR : forall o a b, R1 o a -> R2 o b -> R a b) by (intros; left; eauto).
  exists R. split; [eapply comp_val; eauto|]. split; [|split].
  - intros a b b' [(o & A & B)|(f & A)] [(o' & A' & B')|(f' & A')].
    + assert (o = o') by eauto. subst. eauto.
    + exfalso. apply GS in A' as (A' & _). eapply GR1; eauto.
    + exfalso. apply GS in A as (A & _). eapply GR1; eauto.
    + apply GS in A as (A & B & _), A' as (A' & B' & _). assert (f = f') by eauto. subst. eauto.
  - intros a a' b [(o & A & B)|(f & A)] [(o' & A' & B')|(f' & A')].
    + assert (o = o') by eauto. subst. eauto.
    + exfalso. apply GS in A' as (_ & A' & _). eapply GR2; eauto.
    + exfalso. apply GS in A as (_ & A & _). eapply GR2; eauto.
    + apply GS in A as (A & B & _), A' as (A' & B' & _). assert (f = f') by eauto. subst. eauto.
  - intros a b [(o & A & B)|(f & A)].
    + destruct (RO1 _ _ A) as (x & x1 & Hx & Hx1 & O1). destruct (RO2 _ _ B) as (x' & x2 & Hx' & Hx2 & O2).
      rewrite Hx in Hx'. inversion Hx'; subst x'. exists x1, x2. split; auto. split; auto.
      destruct x as [vs|vs|kvs|nb c args li di st|co gl n de cl st|mt n bs d q|c|fz vs];
      destruct x1 as [vs1|vs1|kvs1|nb1 c1 args1 li1 di1 st1|co1 gl1 n1 de1 cl1 st1|mt1 n1 bs1 d1 q1|c1|fz1 vs1];
        try (destruct c); try (exfalso; exact O1);
      destruct x2 as [vs2|vs2|kvs2|nb2 c2 args2 li2 di2 st2|co2 gl2 n2 de2 cl2 st2|mt2 n2 bs2 d2 q2|c2|fz2 vs2];
        try (exfalso; exact O2).
      * eapply comp_vals; eauto.
      * eapply comp_vals; eauto.
      * eapply comp_items; eauto.
      * destruct O1 as (-> & B1 & C1 & U1 & W1 & D1), O2 as (-> & B2 & C2 & U2 & W2 & D2). split; auto. split; [eapply comp_val; eauto|].
        split; [eapply comp_vals; eauto|]. split; [eapply comp_vals; eauto|]. split; [eapply comp_items; eauto|eapply comp_state; eauto].
      * destruct O1 as (-> & B1 & C1 & U1 & W1 & D1), O2 as (-> & B2 & C2 & U2 & W2 & D2). split; auto. split; [eapply comp_val; eauto|].
        split; [eapply comp_vals; eauto|]. split; [eapply comp_vals; eauto|]. split; [eapply comp_items; eauto|eapply comp_state; eauto].
      * destruct O1 as (B1 & C1 & D1 & E1 & F1 & J1), O2 as (B2 & C2 & D2 & E2 & F2 & J2).
        split; [eapply comp_val; eauto|]. split.
        -- destruct gl as [|g m], gl1 as [|g1 m1]; try (exfalso; exact C1); destruct gl2 as [|g2 m2]; try (exfalso; exact C2).
           ++ cbn in *. congruence.
           ++ split; [right; exists o; do 14 eexists; eauto|]. destruct C1 as (C1 & _), C2 as (C2 & _). eapply comp_val; eauto.
        -- split; [eapply comp_val; eauto|]. split; [eapply comp_val; eauto|]. split; [eapply comp_val; eauto|eapply comp_state; eauto].
      * destruct O1 as (B1 & C1 & D1 & E1 & F1), O2 as (B2 & C2 & D2 & E2 & F2).
        split; [eapply comp_val; eauto|]. split; [eapply comp_val; eauto|]. split; [eapply comp_val; eauto|].
        split; [eapply comp_items; eauto|eapply comp_val; eauto].
      * destruct c1, c2; try (exfalso; exact O1); try (exfalso; exact O2). eapply comp_val; eauto.
      * destruct c1, c2; try (exfalso; exact O1); try (exfalso; exact O2). exact I.
      * destruct O1 as [-> O1], O2 as [-> O2]. split; auto. eapply comp_vals; eauto.
    + destruct (GS _ _ _ A) as (_ & _ & m & kvs & d1 & d2 & K1 & K2 & F1 & F2). exists (ODict d1), (ODict d2).
      split; auto. split; auto. eapply comp_items; eauto.
Qed.

Theorem C03_protocol_independent : forall p q H v fuel fuel' ops ops',
  heap_wf H -> p <= 5 -> q <= 5 -> dumps p H fuel v = Ok ops -> dumps q H fuel' v = Ok ops' ->
  exists v1 m1 v2 m2, loads ops = Some (v1, m1, []) /\ loads ops' = Some (v2, m2, []) /\
                      same_graph (heap m1) v1 (heap m2) v2.
Proof.
  intros p q H v f f' ops ops' HW Hp Hq E E'.
  destruct (C01_roundtrip _ _ _ _ _ HW Hp E) as (v1 & m1 & L1 & I1). destruct (C01_roundtrip _ _ _ _ _ HW Hq E') as (v2 & m2 & L2 & I2).
  exists v1, m1, v2, m2. split; auto. split; auto. eapply C03_iso_compose; eauto.
Qed.

(** ** C04: truncated pickles *)
Theorem C04_prefix_never_loads : forall proto H fuel v ops p q,
  dumps proto H fuel v = Ok ops -> ops = p ++ q -> q <> [] -> loads p = None.
Proof.
  intros proto H fuel v ops p q E Ep Hq. destruct (dumps_shape _ _ _ _ _ E) as (l & s' & Eo & _ & Hn).
  apply load_nostop. intros Hi. apply Hn. clear E. rewrite Eo in Ep. rewrite app_assoc in Ep.
  assert (exists q', q = q' ++ [STOP] /\ (if Nat.leb 2 proto then [PROTO proto] else []) ++ l = p ++ q') as (q' & _ & ->).
  { destruct (exists_last Hq) as (q' & x & Eq). rewrite Eq in Ep. rewrite app_assoc in Ep. apply app_inj_tail in Ep as [A B].
    exists q'. split; congruence. }
  apply in_app_iff. auto.
Qed.

(** ** C05: several pickles in one stream *)
(** dump each object in turn, each with its own heap, protocol and recursion limit *)
Inductive dumped : list (nat * (oid -> option obj) * val) -> list op -> Prop :=
  | dumped_nil : dumped [] []
  | dumped_cons proto H v fuel ops xs l : heap_wf H -> proto <= 5 -> dumps proto H fuel v = Ok ops -> dumped xs l ->
      dumped ((proto, H, v) :: xs) (ops ++ l).
(** load n times *)
Fixpoint load_n (n : nat) (stream : list op) : option (list (val * vm) * list op) :=
  match n with
  | 0 => Some ([], stream)
  | Datatypes.S n => match loads stream with
                     | Some (v, m, rest) => match load_n n rest with Some (r, rest') => Some ((v, m) :: r, rest') | None => None end
                     | None => None end
  end.
Theorem C05_sequence : forall xs stream rest, dumped xs stream ->
  exists rs, load_n (length xs) (stream ++ rest) = Some (rs, rest) /\
    Forall2 (fun x r => match x with (_, H, v) => iso H v (heap (snd r)) (fst r) end) xs rs.
Proof.
  intros xs stream rest D. induction D as [|proto H v fuel ops xs l HW Hp E D (rs & IH & F)].
  - exists []. split; auto.
  - destruct (C01_roundtrip_stream proto H fuel v ops (l ++ rest) HW Hp E) as (v' & m & L & I0).
    exists ((v', m) :: rs). split; [|constructor; auto]. cbn [length load_n]. rewrite <- app_assoc, L, IH. reflexivity.
Qed.
(** a load takes exactly its own pickle *)
Theorem C05_load_leaves_rest : forall proto H fuel v ops rest,
  heap_wf H -> proto <= 5 -> dumps proto H fuel v = Ok ops ->
  exists v' m, loads (ops ++ rest) = Some (v', m, rest) /\ iso H v (heap m) v'.
Proof. exact C01_roundtrip_stream. Qed.

(** ** C06: shared globals *)
(** functions whose globals are a module's dictionary (stored by reference) still share it *)
Theorem C06_module_globals_partial : forall H v h v' p q f1 f2 a co1 n1 de1 cl1 st1 co2 n2 de2 cl2 st2,
  heap_wf H -> iso H v h v' ->
  follow H v p = Some (VR f1) -> follow H v q = Some (VR f2) ->
  H f1 = Some (OFun co1 (GRef a) n1 de1 cl1 st1) -> H f2 = Some (OFun co2 (GRef a) n2 de2 cl2 st2) ->
  exists x y cx nx dx lx sx cy ny dy ly sy,
    follow (nth_error h) v' p = Some (VR x) /\ follow (nth_error h) v' q = Some (VR y) /\
    nth_error h x = Some (OFun cx (GRef a) nx dx lx sx) /\ nth_error h y = Some (OFun cy (GRef a) ny dy ly sy).
Proof.
  intros H v h v' p q f1 f2 a co1 n1 de1 cl1 st1 co2 n2 de2 cl2 st2 HW (R & G & Hv & RF & RI & _ & _ & _ & RO) Fp Fq H1 H2.
  destruct (follow_rel R G H h HW RF RI RO p v v' _ Hv Fp) as ([|x] & Fx & Rx); [exfalso; exact Rx|].
  destruct (follow_rel R G H h HW RF RI RO q v v' _ Hv Fq) as ([|y] & Fy & Ry); [exfalso; exact Ry|]. cbn in Rx, Ry.
  destruct (RO _ _ Rx) as (b & b' & Hb & Hb' & O). rewrite H1 in Hb. inversion Hb; subst b.
  destruct (RO _ _ Ry) as (c & c' & Hc & Hc' & O'). rewrite H2 in Hc. inversion Hc; subst c.
  destruct b' as [| | | |cx gx nx dx lx sx| | |]; try (exfalso; exact O). destruct c' as [| | | |cy gy ny dy ly sy| | |]; try (exfalso; exact O').
  destruct O as (_ & O & _), O' as (_ & O' & _). destruct gx; [|exfalso; exact O]. destruct gy; [|exfalso; exact O']. cbn in O, O'. subst.
  exists x, y. do 10 eexists. eauto.
Qed.
(** two different functions with any other globals dictionary never share it afterwards *)
Theorem C06_copied_globals_refuted : forall H v h v' p q f1 f2 g m1 m2 co1 n1 de1 cl1 st1 co2 n2 de2 cl2 st2,
  heap_wf H -> iso H v h v' ->
  follow H v p = Some (VR f1) -> follow H v q = Some (VR f2) -> f1 <> f2 ->
  H f1 = Some (OFun co1 (GCopy g m1) n1 de1 cl1 st1) -> H f2 = Some (OFun co2 (GCopy g m2) n2 de2 cl2 st2) ->
  exists x y gx gy mx my cx nx dx lx sx cy ny dy ly sy,
    follow (nth_error h) v' p = Some (VR x) /\ follow (nth_error h) v' q = Some (VR y) /\
    nth_error h x = Some (OFun cx (GCopy gx mx) nx dx lx sx) /\ nth_error h y = Some (OFun cy (GCopy gy my) ny dy ly sy) /\
    gx <> gy.
Proof.
  intros H v h v' p q f1 f2 g m1 m2 co1 n1 de1 cl1 st1 co2 n2 de2 cl2 st2 HW (R & G & Hv & RF & RI & GF & GI & _ & RO) Fp Fq Hne H1 H2.
  destruct (follow_rel R G H h HW RF RI RO p v v' _ Hv Fp) as ([|x] & Fx & Rx); [exfalso; exact Rx|].
  destruct (follow_rel R G H h HW RF RI RO q v v' _ Hv Fq) as ([|y] & Fy & Ry); [exfalso; exact Ry|]. cbn in Rx, Ry.
  destruct (RO _ _ Rx) as (b & b' & Hb & Hb' & O). rewrite H1 in Hb. inversion Hb; subst b.
  destruct (RO _ _ Ry) as (c & c' & Hc & Hc' & O'). rewrite H2 in Hc. inversion Hc; subst c.
  destruct b' as [| | | |cx gx nx dx lx sx| | |]; try (exfalso; exact O). destruct c' as [| | | |cy gy ny dy ly sy| | |]; try (exfalso; exact O').
  destruct O as (_ & O & _), O' as (_ & O' & _). destruct gx as [|gx mx]; [exfalso; exact O|]. destruct gy as [|gy my]; [exfalso; exact O'|].
  destruct O as (_ & O & _), O' as (_ & O' & _).
  exists x, y, gx, gy, mx, my. do 10 eexists. split; eauto. split; eauto. split; eauto. split; eauto.
  intros ->. apply Hne. eapply GI; eauto.
Qed.
