(** C39-C41: pickles and baditems. *)
From Coq Require Import List Bool Arith Lia.
From Verif Require Import PyDict PicklesModel.
Import ListNotations.

(** ** Specification *)
(** the copy is judged equal to the original by == : the truth value of pik == obj (of its array, if it is sparse) *)
Definition equal_by_eq (w : world) : Prop :=
  exists q, eq w = Ret q /\ (if has_toarray q then toarray_all q else truth q) = Ret true.
(** neither object has a usable all() *)
Definition no_all (w : world) : Prop := exists e, cmp_all w = Raise e /\ (is_attribute e || is_type_error e) = true.
(** the type of the copy is the type of the original, by identity or by repr *)
Definition same_kind (w : world) : Prop := same_type w = Ret true \/ same_repr w = Ret true.
(** the exceptions that mean "does not pickle" *)
Definition pickling_related (e : exc) : Prop :=
  is_type_error e = true \/ is_assertion e = true \/ is_notimplemented e = true \/ is_pickling e = true \/ is_unpickling e = true.

(** C39: True only if the copy was made and equals the original, or exact is false and the types match; objects
    that have an all() are compared by it *)
Theorem C39_true : forall w exact safe f f', pickles w exact safe f = (Ret true, f') ->
  copying w = Ret tt /\ (cmp_all w = Ret true \/ no_all w /\ equal_by_eq w \/ exact = false /\ same_kind w).
Proof.
  intros w exact safe f f' E. unfold pickles, body in E. destruct (copying w) as [[]|e] eqn:Ec.
  2:{ destruct (trapped safe e); discriminate. }
  split; auto.
  assert (HL : forall r, r = last_resort w exact -> r = Ret true -> exact = false /\ same_kind w).
  { intros r -> Hr. unfold last_resort in Hr. destruct exact; [discriminate|]. split; auto. unfold same_kind.
    destruct (same_type w) as [[|]|]; try discriminate; auto. }
  destruct (cmp_all w) as [[|]|e] eqn:Ea.
  - auto.
  - right. right. destruct (last_resort w exact) as [b|e] eqn:El; [|destruct (trapped safe e); discriminate].
    injection E as -> _. eapply HL; eauto.
  - destruct (is_attribute e || is_type_error e) eqn:Ee; [|destruct (trapped safe e); discriminate].
    destruct (eq w) as [q|e'] eqn:Eq; [|destruct (trapped safe e'); discriminate].
    destruct (judge w exact q) as [b|e'] eqn:Ej; [|destruct (trapped safe e'); discriminate]. injection E as -> _.
    unfold judge in Ej. destruct (if has_toarray q then toarray_all q else truth q) as [[|]|] eqn:Et; try discriminate.
    + right. left. split; [exists e; auto|exists q; auto].
    + right. right. eapply HL; eauto.
Qed.
(** in particular exact=True means equality for objects without an all() *)
Theorem C39_exact_partial : forall w safe f f', pickles w true safe f = (Ret true, f') -> (forall b, cmp_all w <> Ret b) ->
  copying w = Ret tt /\ equal_by_eq w.
Proof.
  intros w safe f f' E Hn. apply C39_true in E as [E1 [E2|[[_ E2]|[E2 _]]]]; [exfalso; eapply Hn; eauto|auto|discriminate].
Qed.
(** REFUTED for objects with an all(): only the two values of all() are compared, the contents may differ *)
Theorem C39_all_refuted : forall w safe f, copying w = Ret tt -> cmp_all w = Ret true -> ~ equal_by_eq w ->
  pickles w true safe f = (Ret true, f).
Proof. intros w safe f Hc Ha _. unfold pickles, body. rewrite Hc, Ha. reflexivity. Qed.

(** copies that are equal are accepted *)
Theorem C39_accepts : forall w exact safe f, copying w = Ret tt -> no_all w -> equal_by_eq w -> fst (pickles w exact safe f) = Ret true.
Proof.
  intros w exact safe f Hc [e [Ha He]] [q [Hq Ht]]. unfold pickles, body. rewrite Hc, Ha, He, Hq. unfold judge. rewrite Ht. reflexivity.
Qed.
(** and when nothing raises, the answer is exactly: equal, or exact is false and the types match *)
Theorem C39_answer : forall w exact safe f q b1 b2 b3, copying w = Ret tt -> no_all w -> eq w = Ret q ->
  (if has_toarray q then toarray_all q else truth q) = Ret b1 -> same_type w = Ret b2 -> same_repr w = Ret b3 ->
  fst (pickles w exact safe f) = Ret (b1 || (negb exact && (b2 || b3))).
Proof.
  intros w exact safe f q b1 b2 b3 Hc [e [Ha He]] Hq H1 H2 H3.
  unfold pickles, body. rewrite Hc, Ha, He, Hq. unfold judge. rewrite H1.
  destruct b1; [reflexivity|]. unfold last_resort. destruct exact; [reflexivity|]. rewrite H2. destruct b2; [reflexivity|]. rewrite H3. reflexivity.
Qed.
(** likewise with a usable all(), compared instead of the objects *)
Theorem C39_answer_all : forall w exact safe f b1 b2 b3, copying w = Ret tt -> cmp_all w = Ret b1 -> same_type w = Ret b2 -> same_repr w = Ret b3 ->
  fst (pickles w exact safe f) = Ret (b1 || (negb exact && (b2 || b3))).
Proof.
  intros w exact safe f b1 b2 b3 Hc Ha H2 H3. unfold pickles, body. rewrite Hc, Ha.
  destruct b1; [reflexivity|]. unfold last_resort. destruct exact; [reflexivity|]. rewrite H2. destruct b2; [reflexivity|]. rewrite H3. reflexivity.
Qed.

(** an exception raised in copying: False if it is one of those trapped, else it escapes *)
Theorem C39_copy_fails : forall w exact safe f e, copying w = Raise e ->
  (safe = true /\ is_exception e = true \/ safe = false /\ pickling_related e -> pickles w exact safe f = (Ret false, f)) /\
  (safe = true /\ is_exception e = false \/ safe = false /\ ~ pickling_related e -> pickles w exact safe f = (Raise e, f)).
Proof.
  intros w exact safe f e Hc.
  assert (Ht : trapped safe e = true <-> safe = true /\ is_exception e = true \/ safe = false /\ pickling_related e).
  { unfold trapped, pickling_related. destruct safe; [intuition discriminate|]. rewrite !orb_true_iff. intuition discriminate. }
  unfold pickles, body. rewrite Hc. split; intros H.
  - apply Ht in H. rewrite H. reflexivity.
  - destruct (trapped safe e); [|reflexivity]. exfalso. destruct (proj1 Ht eq_refl) as [[? ?]|[? ?]]; destruct H as [[? ?]|[? ?]]; congruence || tauto.
Qed.
(** whatever raises, only exceptions that are not trapped escape *)
Theorem C39_escapes : forall w exact safe f e f', pickles w exact safe f = (Raise e, f') ->
  safe = true /\ is_exception e = false \/ safe = false /\ ~ pickling_related e.
Proof.
  intros w exact safe f e f' E. unfold pickles in E. destruct (body w exact f) as [[b|e0] f0]; [discriminate|].
  destruct (trapped safe e0) eqn:Et; [discriminate|]. injection E as <- _. unfold trapped in Et. unfold pickling_related.
  destruct safe; [auto|right]. split; auto. rewrite !orb_false_iff in Et. intuition congruence.
Qed.

(** C40.  The exact effect on the filters when the comparison itself does not touch them *)
Lemma remove1_length x : forall l, In x l -> length (remove1 x l) < length l.
Proof.
  induction l as [|y l IH]; intros Hi; [destruct Hi|]. cbn [remove1 length]. destruct (Nat.eqb_spec x y) as [|Hne]; [lia|].
  destruct Hi as [->|Hi]; [congruence|]. cbn [length]. specialize (IH Hi). lia.
Qed.
Lemma remove1_absent x : forall l, ~ In x l -> remove1 x l = l.
Proof.
  induction l as [|y l IH]; intros Hi; [reflexivity|]. cbn [remove1]. destruct (Nat.eqb_spec x y) as [->|Hne]; [simpl in Hi; tauto|].
  rewrite IH; auto. simpl in Hi. tauto.
Qed.
Theorem C40_filters_iff : forall w exact safe f r f', (forall l, eq_filters w l = l) -> pickles w exact safe f = (r, f') ->
  (f' = f <-> ~ (copying w = Ret tt /\ no_all w) \/ (exists q, eq w = Ret q) /\ ~ In ignore_all f \/ (exists e, eq w = Raise e) /\ hd_error f = Some ignore_all).
Proof.
  intros w exact safe f r f' Hid E.
  assert (E' : f' = snd (body w exact f)).
  { unfold pickles in E. destruct (body w exact f) as [[b|e] f0]; [|destruct (trapped safe e)]; injection E as _ <-; reflexivity. }
  subst f'. clear E. unfold body, no_all. destruct (copying w) as [[]|e] eqn:Ec.
  2:{ cbn [snd]. split; auto. intros _. left. intros [? _]. discriminate. }
  destruct (cmp_all w) as [b|e] eqn:Ea.
  { replace (snd _) with f by (destruct b; reflexivity). split; auto. intros _. left. intros [_ [e [? _]]]. discriminate. }
  destruct (is_attribute e || is_type_error e) eqn:Ee.
  2:{ cbn [snd]. split; auto. intros _. left. intros [_ [e' [He Ht]]]. injection He as <-. congruence. }
  rewrite Hid. unfold filterwarnings_ignore. destruct (eq w) as [q|e'] eqn:Eq; cbn [snd del_first].
  - split.
    + intros Hf. right. left. split; [eauto|]. intros Hi. apply remove1_length in Hi. rewrite Hf in Hi. lia.
    + intros [Hn|[[_ Hn]|[[e0 He0] _]]]; [exfalso; apply Hn; eauto| |discriminate]. apply remove1_absent; auto.
  - split.
    + intros Hf. right. right. split; [eauto|]. rewrite <- Hf. reflexivity.
    + intros [Hn|[[[q Hq] _]|[_ Hh]]]; [exfalso; apply Hn; eauto|discriminate|].
      destruct f as [|x f]; [discriminate|]. cbn [hd_error] in Hh. injection Hh as ->. cbn [remove1]. rewrite Nat.eqb_refl. reflexivity.
Qed.
Theorem C40_unchanged_partial : forall w exact safe f r f', (forall l, eq_filters w l = l) -> pickles w exact safe f = (r, f') ->
  ~ In ignore_all f -> (forall e, eq w <> Raise e) -> f' = f.
Proof.
  intros w exact safe f r f' Hid E Hn He. apply (C40_filters_iff _ _ _ _ _ _ Hid E).
  destruct (eq w) as [q|e] eqn:Eq; [|exfalso; eapply He; eauto]. right. left. eauto.
Qed.
(** REFUTED: a user's own "ignore" filter is lost, and one is left behind when == raises *)
Definition plain (eq : res cmp) : world :=
  World (Ret tt) (Raise (Exc true false false false false false true)) eq (fun l => l) (Ret true) (Ret true).
Theorem C40_user_filter_lost_refuted : pickles (plain (Ret (Cmp false (Ret true) (Ret true)))) true false [7; ignore_all; 5] = (Ret true, [7; 5]).
Proof. reflexivity. Qed.
Theorem C40_filter_left_refuted : let value_error := Exc true false false false false false false in
  pickles (plain (Raise value_error)) true true [7; 5] = (Ret false, [ignore_all; 7; 5]) /\
  pickles (plain (Raise value_error)) true false [7; 5] = (Raise value_error, [ignore_all; 7; 5]).
Proof. split; reflexivity. Qed.
Example ex_C40 : pickles (plain (Ret (Cmp false (Ret true) (Ret true)))) true false [7; 5] = (Ret true, [7; 5]).
Proof. reflexivity. Qed.
Example ex_C39 : pickles (plain (Ret (Cmp false (Ret true) (Ret false)))) true false [7] = (Ret false, [7]) /\
  pickles (plain (Ret (Cmp false (Ret true) (Ret false)))) false false [7] = (Ret true, [7]) /\
  no_all (plain (Ret (Cmp false (Ret true) (Ret false)))).
Proof. split; [reflexivity|]. split; [reflexivity|]. eexists. split; reflexivity. Qed.

(** C41.  Only items that fail ... *)
Definition fails (pk : nat -> res bool) (i : nat) : Prop := pk i = Ret false.
Lemma collect_in pk eqv : forall l acc r, collect pk eqv l acc = Ret r ->
  (exists t, r = acc ++ t) /\ forall j, In j r -> j <> none -> In j acc \/ In j l /\ fails pk j.
Proof.
  induction l as [|i l IH]; intros acc r E; cbn [collect] in E.
  - injection E as <-. split; [exists []; rewrite app_nil_r; auto|auto].
  - destruct (existsb (fun x => eqv x i) acc).
    + destruct (IH _ _ E) as [H1 H2]. split; auto. intros j Hj Hn. destruct (H2 j Hj Hn) as [|[? ?]]; simpl; auto.
    + unfold badobjects in E. destruct (pk i) as [b|e] eqn:Ep; [|discriminate].
      assert (E' : collect pk eqv l (acc ++ [if b then none else i]) = Ret r) by (destruct b; exact E). clear E.
      destruct (IH _ _ E') as [[t ->] H2]. split; [eexists; rewrite <- app_assoc; reflexivity|].
      intros j Hj Hn. destruct (H2 j Hj Hn) as [Ha|[? ?]]; [|simpl; auto].
      apply in_app_iff in Ha as [Ha|[<-|[]]]; auto. destruct b; [congruence|]. right. simpl. auto.
Qed.
Theorem C41_only_failing : forall pk eqv obj items r, baditems pk eqv obj items = Ret r ->
  forall j, In j r -> fails pk j /\ match items with Some l => In j l | None => j = obj end.
Proof.
  intros pk eqv obj items r E j Hj. unfold baditems in E. destruct items as [l|].
  - destruct (collect pk eqv l []) as [a|] eqn:Ec; [|discriminate]. injection E as <-.
    apply filter_In in Hj as [Hj Hn]. apply negb_true_iff, Nat.eqb_neq in Hn.
    destruct (proj2 (collect_in _ _ _ _ _ Ec) j Hj Hn) as [[]|[? ?]]; auto.
  - unfold badobjects in E. destruct (pk obj) as [b|] eqn:Ep; [|discriminate].
    destruct b; injection E as <-; cbn in Hj; [destruct Hj|]. destruct (Nat.eqb obj none); cbn in Hj; [destruct Hj|].
    destruct Hj as [<-|[]]. auto.
Qed.
(** ... and every failing item has an equal item in the result, if it does not compare equal to None (and None
    itself pickles) *)
Theorem C41_all_failing_partial : forall pk eqv obj l r, baditems pk eqv obj (Some l) = Ret r ->
  (forall x, eqv x x = true) ->
  forall i, In i l -> fails pk i -> i <> none -> eqv none i = false -> exists j, In j r /\ eqv j i = true.
Proof.
  intros pk eqv obj l r E Hrefl i Hi Hf Hn Hne. unfold baditems in E. destruct (collect pk eqv l []) as [a|] eqn:Ec; [|discriminate].
  injection E as <-. cut (exists j, In j a /\ eqv j i = true).
  { intros [j [Hj He]]. exists j. split; auto. apply filter_In. split; auto. apply negb_true_iff, Nat.eqb_neq. intros ->. congruence. }
  revert a Ec. generalize (@nil nat) as acc. induction l as [|k l IH]; intros acc a Ec; [destruct Hi|]. cbn [collect] in Ec.
  destruct (existsb (fun x => eqv x k) acc) eqn:Ex.
  - destruct Hi as [->|Hi]; [|eapply IH; eauto]. apply existsb_exists in Ex as [j [Hj He]].
    destruct (collect_in _ _ _ _ _ Ec) as [[t ->] _]. exists j. split; auto. apply in_app_iff. auto.
  - unfold badobjects in Ec. destruct (pk k) as [b|] eqn:Ep; [|discriminate].
    destruct Hi as [->|Hi].
    + unfold fails in Hf. rewrite Hf in Ep. injection Ep as <-. destruct (collect_in _ _ _ _ _ Ec) as [[t ->] _].
      exists i. split; auto. rewrite !in_app_iff. simpl; auto.
    + destruct b; eapply IH; eauto.
Qed.
(** each reported once: no item in the result compares equal to an earlier one; and in the order in which they came *)
Inductive subsequence : list nat -> list nat -> Prop :=
| sub_nil : forall l, subsequence [] l
| sub_take : forall x r l, subsequence r l -> subsequence (x :: r) (x :: l)
| sub_skip : forall x r l, subsequence r l -> subsequence r (x :: l).
Lemma fop_snoc (P : nat -> nat -> Prop) l z : ForallOrdPairs P l -> (forall x, In x l -> P x z) -> ForallOrdPairs P (l ++ [z]).
Proof.
  induction 1 as [|a l Ha Hl IH]; intros Hz; cbn [app]; [repeat constructor|]. constructor; [|apply IH; intros x Hx; apply Hz; simpl; auto].
  apply Forall_app. split; [exact Ha|]. constructor; [apply Hz; simpl; auto|constructor].
Qed.
Theorem C41_once : forall pk eqv obj l r, baditems pk eqv obj (Some l) = Ret r -> ForallOrdPairs (fun x y => eqv x y = false) r /\ subsequence r l.
Proof.
  intros pk eqv obj l r E. unfold baditems in E. destruct (collect pk eqv l []) as [a|] eqn:Ec; [|discriminate]. injection E as <-.
  cut (ForallOrdPairs (fun x y => eqv x y = false) (not_none a) /\ exists t, not_none a = not_none [] ++ t /\ subsequence t l).
  { intros [H1 (t & T & H2)]. split; [exact H1|]. rewrite T. exact H2. }
  assert (H0 : ForallOrdPairs (fun x y => eqv x y = false) (not_none [])) by constructor. revert a Ec H0. generalize (@nil nat) as acc. induction l as [|i l IH]; intros acc a Ec H0; cbn [collect] in Ec.
  - injection Ec as <-. split; [exact H0|]. exists []. rewrite app_nil_r. split; [reflexivity|constructor].
  - destruct (existsb (fun x => eqv x i) acc) eqn:Ex.
    + destruct (IH _ _ Ec H0) as [H1 (t & T1 & T2)]. split; [exact H1|]. exists t. split; [exact T1|constructor; exact T2].
    + assert (Hx : forall x, In x acc -> eqv x i = false).
      { intros x Hx. apply not_true_iff_false. intros H. apply not_true_iff_false in Ex. apply Ex, existsb_exists. eauto. }
      unfold badobjects in Ec. destruct (pk i) as [b|]; [|discriminate].
      assert (Ec' : collect pk eqv l (acc ++ [if b then none else i]) = Ret a) by (destruct b; exact Ec). clear Ec.
      assert (Nn : not_none (acc ++ [if b then none else i]) = not_none acc ++ (if b then [] else if Nat.eqb i none then [] else [i])).
      { unfold not_none. rewrite filter_app. f_equal. cbn [filter]. destruct b; [rewrite Nat.eqb_refl; reflexivity|]. destruct (Nat.eqb i none); reflexivity. }
      assert (H0' : ForallOrdPairs (fun x y => eqv x y = false) (not_none (acc ++ [if b then none else i]))).
      { rewrite Nn. destruct b; [rewrite app_nil_r; exact H0|]. destruct (Nat.eqb i none); [rewrite app_nil_r; exact H0|]. apply fop_snoc; [exact H0|]. intros x Ix. apply Hx. apply filter_In in Ix. apply Ix. }
      destruct (IH _ _ Ec' H0') as [H1 (t & T1 & T2)]. split; [exact H1|]. rewrite Nn in T1. rewrite <- app_assoc in T1. eexists. split; [exact T1|].
      destruct b; [constructor; exact T2|]. destruct (Nat.eqb i none); constructor; exact T2.
Qed.
(** a single object that is not iterable *)
Theorem C41_single : forall pk eqv obj, obj <> none -> fails pk obj -> baditems pk eqv obj None = Ret [obj].
Proof. intros pk eqv obj Hn Hf. unfold baditems, badobjects. rewrite Hf. cbn. apply Nat.eqb_neq in Hn. rewrite Hn. reflexivity. Qed.
(** REFUTED for items that compare equal to None (a mock object, an array-like): a good item 1 comes first, leaving a
    None in the list, and the bad item 2 is skipped *)
Theorem C41_equal_to_none_refuted :
  let pk := fun i => Ret (Nat.eqb i 1) in let eqv := fun x i => Nat.eqb x i || (Nat.eqb x none && Nat.eqb i 2) in
  baditems pk eqv 9 (Some [1; 2]) = Ret [] /\ fails pk 2.
Proof. split; reflexivity. Qed.
Example ex_C41 : let pk := fun i => Ret (Nat.even i) in baditems pk Nat.eqb 9 (Some [1; 2; 3; 4; 3; 5]) = Ret [1; 3; 5].
Proof. reflexivity. Qed.

Print Assumptions C39_true.
Print Assumptions C39_escapes.
Print Assumptions C40_filters_iff.
Print Assumptions C41_only_failing.
Print Assumptions C41_all_failing_partial.
