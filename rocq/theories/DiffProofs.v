(** Proofs about DiffModel. *)
From Coq Require Import String List Bool Arith Lia.
From Verif Require Import PyDict DiffModel.
Import ListNotations.

(** ** Specification *)
(** the two states of an object differ: an attribute was added, removed or rebound, or the items are others *)
Inductive differs (n0 n1 : node) : Prop :=
| differs_attr d0 d1 k : attrs n0 = Some d0 -> attrs n1 = Some d1 -> get k d0 <> get k d1 -> differs n0 n1
| differs_list l0 l1 : seq n0 = Some (SList l0) -> seq n1 = Some (SList l1) -> l0 <> l1 -> differs n0 n1
| differs_map d0 d1 k : seq n0 = Some (SMap d0) -> seq n1 = Some (SMap d1) -> get k d0 <> get k d1 -> differs n0 n1.
(** an object keeps having or not having a __dict__ and items *)
Definition same_shape (n0 n1 : node) : Prop :=
  (attrs n0 = None <-> attrs n1 = None) /\
  match seq n0, seq n1 with None, None => True | Some (SList _), Some (SList _) => True | Some (SMap _), Some (SMap _) => True | _, _ => False end.
Definition wf_node (n : node) : Prop := (forall d, attrs n = Some d -> wf d) /\ (forall d, seq n = Some (SMap d) -> wf d).
(** reachable through attributes and items, not through the objects in dont_memo *)
Inductive reach (H : nat -> node) (dont : nat -> bool) (x : nat) : nat -> Prop :=
| reach_refl : reach H dont x x
| reach_step y z : reach H dont x y -> dont y = false -> In z (children (H y)) -> reach H dont x z.

Lemma reach_trans H dont x y z : reach H dont x y -> reach H dont y z -> reach H dont x z.
Proof. intros H1 H2. induction H2; auto. eapply reach_step; eauto. Qed.

Lemma in_attr_children d c : In c (attr_children (Some d)) <-> exists k, In (k, c) d.
Proof. unfold attr_children. rewrite in_map_iff. split; [intros [[k v] [<- Hi]]; eauto|intros [k Hi]; exists (k, c); auto]. Qed.
Lemma in_map_children d c : In c (seq_children (Some (SMap d))) <-> exists k v, In (k, v) d /\ (c = k \/ c = v).
Proof.
  cbn [seq_children]. rewrite in_flat_map. split.
  - intros [[k v] [Hi Hc]]. exists k, v. cbn in Hc. split; auto. destruct Hc as [|[|[]]]; auto.
  - intros [k [v [Hi Hc]]]. exists (k, v). split; auto. cbn. destruct Hc; auto.
Qed.

(** ** the search *)
Section Search.
Context (H : nat -> node) (dont : nat -> bool) (m : dict nat node).
Hypothesis Hwf : forall x, wf_node (H x).
Hypothesis Hwm : forall x n, get x m = Some n -> wf_node n /\ same_shape n (H x).
Hypothesis Hclosed : forall x n c, get x m = Some n -> In c (children n) -> dont c = true \/ has c m = true.
Notation reach := (reach H dont).

Definition known (x : nat) : Prop := dont x = true \/ has x m = true.
Definition diffnode (y : nat) : Prop := dont y = false /\ exists n, get y m = Some n /\ differs n (H y).
Definition bad (x : nat) : Prop := exists y, reach x y /\ diffnode y.
Definition justified (seen : dict nat mark) : Prop := forall x k, get x seen = Some k -> truthy k = true -> bad x.
Definition clean (x : nat) (seen : dict nat mark) : Prop :=
  dont x = true \/ exists n, get x m = Some n /\ ~ differs n (H x) /\ forall c, In c (children (H x)) -> has c seen = true.
Definition mono (seen seen' : dict nat mark) : Prop := forall x, has x seen = true -> has x seen' = true.
Definition fresh_clean (seen seen' : dict nat mark) : Prop := forall x, has x seen' = true -> has x seen = true \/ clean x seen'.

Definition ch_ok (ch : nat -> dict nat mark -> option answer) : Prop := forall o seen b seen', ch o seen = Some (b, seen') -> known o -> justified seen ->
  mono seen seen' /\ has o seen' = true /\ justified seen' /\ (b = true -> bad o) /\ (b = false -> fresh_clean seen seen').

Lemma clean_mono x s s' : mono s s' -> clean x s -> clean x s'.
Proof. intros Hm [Hd|[n [H1 [H2 H3]]]]; [left; auto|right]. exists n. repeat split; auto. Qed.
Lemma mono_trans a b c : mono a b -> mono b c -> mono a c. Proof. intros H1 H2 x Hx. auto. Qed.
Lemma mono_refl a : mono a a. Proof. intros x Hx. auto. Qed.
Lemma fresh_clean_trans a b c : mono b c -> fresh_clean a b -> fresh_clean b c -> fresh_clean a c.
Proof. intros Hm H1 H2 x Hx. destruct (H2 x Hx) as [Hb|]; auto. destruct (H1 x Hb) as [|]; auto. right. eapply clean_mono; eauto. Qed.
Lemma fresh_clean_refl a : fresh_clean a a. Proof. intros x Hx. auto. Qed.

Lemma attr_loop_ok ch old : ch_ok ch -> forall l changed seen r seen', attr_loop ch old l changed seen = Some (r, seen') ->
  (forall k o, In (k, o) l -> get k old = Some o -> known o) -> justified seen ->
  mono seen seen' /\ justified seen' /\
  (r <> [] -> changed <> [] \/ exists k o, In (k, o) l /\ (get k old <> Some o \/ bad o)) /\
  (r = [] -> changed = [] /\ (forall k o, In (k, o) l -> get k old = Some o /\ has o seen' = true) /\ fresh_clean seen seen').
Proof.
  intros Hch. induction l as [|[key o] l IH]; intros changed seen r seen' E Hk Hj; cbn [attr_loop] in E.
  - injection E as <- <-. split; [apply mono_refl|]. split; [auto|]. split; [auto|]. intros ->. split; [auto|]. split; [intros k o []|apply fresh_clean_refl].
  - assert (Hk' : forall k o, In (k, o) l -> get k old = Some o -> known o) by (intros k o' Hi; apply Hk; simpl; auto).
    assert (Hbad : forall seen1, mono seen seen1 -> justified seen1 -> get key old <> Some o \/ bad o -> attr_loop ch old l (changed ++ [key]) seen1 = Some (r, seen') ->
       mono seen seen' /\ justified seen' /\ (r <> [] -> changed <> [] \/ exists k o0, In (k, o0) ((key, o) :: l) /\ (get k old <> Some o0 \/ bad o0)) /\
       (r = [] -> changed = [] /\ (forall k o0, In (k, o0) ((key, o) :: l) -> get k old = Some o0 /\ has o0 seen' = true) /\ fresh_clean seen seen')).
    { intros seen1 Hm1 Hj1 Hb E1. destruct (IH _ _ _ _ E1 Hk' Hj1) as [H1 [H2 [H3 H4]]].
      split; [eapply mono_trans; eauto|]. split; [auto|]. split.
      - intros _. right. exists key, o. simpl; auto.
      - intros Hr. destruct (H4 Hr) as [He _]. destruct changed; discriminate. }
    destruct (get key old) as [o'|] eqn:Eo; [|apply (Hbad seen (mono_refl _) Hj); [left; discriminate|auto]].
    destruct (Nat.eqb_spec o o') as [<-|Hne]; [|apply (Hbad seen (mono_refl _) Hj); [left; congruence|auto]].
    destruct (ch o seen) as [[b seen1]|] eqn:Ec; [|discriminate].
    destruct (Hch _ _ _ _ Ec (Hk key o (or_introl eq_refl) Eo) Hj) as [Hm1 [Ho1 [Hj1 [Hb1 Hc1]]]].
    destruct b; [apply (Hbad seen1 Hm1 Hj1); auto|].
    destruct (IH _ _ _ _ E Hk' Hj1) as [H1 [H2 [H3 H4]]].
    split; [eapply mono_trans; eauto|]. split; [auto|]. split.
    + intros Hr. destruct (H3 Hr) as [|[k [o0 [Hi Hx]]]]; [auto|right]. exists k, o0. simpl; auto.
    + intros Hr. destruct (H4 Hr) as [He [Ha Hf]]. split; [auto|]. split.
      * intros k o0 [Hi|Hi]; [injection Hi as <- <-; auto|auto].
      * eapply fresh_clean_trans; [exact H1|apply Hc1; auto|auto].
Qed.

Lemma list_loop_ok ch : ch_ok ch -> forall l seen b seen', list_loop ch l seen = Some (b, seen') ->
  (forall i, In (i, i) l -> known i) -> justified seen ->
  mono seen seen' /\ justified seen' /\ (b = true -> exists i j, In (i, j) l /\ (i <> j \/ bad i)) /\
  (b = false -> (forall i j, In (i, j) l -> i = j /\ has i seen' = true) /\ fresh_clean seen seen').
Proof.
  intros Hch. induction l as [|[i j] l IH]; intros seen b seen' E Hk Hj; cbn [list_loop] in E.
  - injection E as <- <-. split; [apply mono_refl|]. split; [auto|]. split; [discriminate|]. intros _. split; [intros i j []|apply fresh_clean_refl].
  - destruct (Nat.eqb_spec i j) as [<-|Hne].
    + destruct (ch i seen) as [[b1 seen1]|] eqn:Ec; [|discriminate].
      destruct (Hch _ _ _ _ Ec (Hk i (or_introl eq_refl)) Hj) as [Hm1 [Ho1 [Hj1 [Hb1 Hc1]]]].
      destruct b1.
      * injection E as <- <-. split; [auto|]. split; [auto|]. split; [|discriminate]. intros _. exists i, i. simpl; auto.
      * destruct (IH _ _ _ E) as [H1 [H2 [H3 H4]]]; [intros i' Hi; apply Hk; simpl; auto|auto|].
        split; [eapply mono_trans; eauto|]. split; [auto|]. split.
        -- intros Hb. destruct (H3 Hb) as [i' [j' [Hi Hx]]]. exists i', j'. simpl; auto.
        -- intros Hb. destruct (H4 Hb) as [Ha Hf]. split; [|eapply fresh_clean_trans; [exact H1|apply Hc1; auto|auto]].
           intros i' j' [Hi|Hi]; [injection Hi as <- <-; auto|auto].
    + injection E as <- <-. split; [apply mono_refl|]. split; [auto|]. split; [|discriminate]. intros _. exists i, j. simpl; auto.
Qed.

Lemma map_loop_ok ch old : ch_ok ch -> forall l seen b seen', map_loop ch old l seen = Some (b, seen') ->
  (forall k v, In (k, v) l -> get k old = Some v -> known k /\ known v) -> justified seen ->
  mono seen seen' /\ justified seen' /\ (b = true -> exists k v, In (k, v) l /\ (get k old <> Some v \/ bad k \/ bad v)) /\
  (b = false -> (forall k v, In (k, v) l -> get k old = Some v /\ has k seen' = true /\ has v seen' = true) /\ fresh_clean seen seen').
Proof.
  intros Hch. induction l as [|[k v] l IH]; intros seen b seen' E Hk Hj; cbn [map_loop] in E.
  - injection E as <- <-. split; [apply mono_refl|]. split; [auto|]. split; [discriminate|]. intros _. split; [intros i j []|apply fresh_clean_refl].
  - destruct (get k old) as [o'|] eqn:Eo.
    2:{ injection E as <- <-. split; [apply mono_refl|]. split; [auto|]. split; [|discriminate]. intros _. exists k, v. rewrite Eo. simpl. split; [auto|left; discriminate]. }
    destruct (Nat.eqb_spec v o') as [<-|Hne].
    2:{ injection E as <- <-. split; [apply mono_refl|]. split; [auto|]. split; [|discriminate]. intros _. exists k, v. rewrite Eo. simpl. split; [auto|left; congruence]. }
    destruct (Hk k v (or_introl eq_refl) Eo) as [Hkk Hkv].
    destruct (ch k seen) as [[b1 seen1]|] eqn:Ec; [|discriminate].
    destruct (Hch _ _ _ _ Ec Hkk Hj) as [Hm1 [Ho1 [Hj1 [Hb1 Hc1]]]].
    destruct b1.
    { injection E as <- <-. split; [auto|]. split; [auto|]. split; [|discriminate]. intros _. exists k, v. simpl; auto. }
    destruct (ch v seen1) as [[b2 seen2]|] eqn:Ec2; [|discriminate].
    destruct (Hch _ _ _ _ Ec2 Hkv Hj1) as [Hm2 [Ho2 [Hj2 [Hb2 Hc2]]]].
    destruct b2.
    { injection E as <- <-. split; [eapply mono_trans; eauto|]. split; [auto|]. split; [|discriminate]. intros _. exists k, v. simpl; auto 6. }
    destruct (IH _ _ _ E) as [H1 [H2 [H3 H4]]]; [intros k' v' Hi; apply Hk; simpl; auto|auto|].
    split; [eapply mono_trans; [|exact H1]; eapply mono_trans; eauto|]. split; [auto|]. split.
    + intros Hb. destruct (H3 Hb) as [i' [j' [Hi Hx]]]. exists i', j'. simpl; auto.
    + intros Hb. destruct (H4 Hb) as [Ha Hf]. split.
      * intros k' v' [Hi|Hi]; [injection Hi as <- <-; auto|auto].
      * eapply fresh_clean_trans; [exact H1| |auto]. eapply fresh_clean_trans; [exact Hm2| |]; auto.
Qed.

Lemma in_combine_self (l l0 : list nat) : length l = length l0 -> (forall i j, In (i, j) (combine l l0) -> i = j) -> l = l0.
Proof.
  revert l0. induction l as [|x l IH]; intros [|y l0] Hl Hc; try discriminate; auto. cbn [combine] in Hc. f_equal; [apply Hc; simpl; auto|].
  apply IH; [injection Hl; auto|]. intros i j Hi. apply Hc. simpl; auto.
Qed.
Lemma in_combine_ex (l l0 : list nat) : length l = length l0 -> forall c, In c l -> exists j, In (c, j) (combine l l0).
Proof.
  revert l0. induction l as [|x l IH]; intros [|y l0] Hl c Hc; try discriminate; [destruct Hc|]. cbn [combine]. destruct Hc as [->|Hc]; [exists y; simpl; auto|].
  destruct (IH l0 ltac:(injection Hl; auto) c Hc) as [j Hj]. exists j. simpl; auto.
Qed.
Lemma maps_equal (d0 d : dict nat nat) : wf d0 -> wf d -> length d = length d0 -> (forall k v, In (k, v) d -> get k d0 = Some v) -> forall k, get k d0 = get k d.
Proof.
  intros Hw0 Hw Hl Hd k. destruct (get k d) as [v|] eqn:E; [apply Hd, get_In; auto|].
  apply get_None_iff. intros Hk. apply get_None_iff in E. apply E.
  assert (Hinc : incl (keys d) (keys d0)).
  { intros x Hx. apply in_map_iff in Hx as [[k' v] [<- Hi]]. cbn. eapply get_Some_keys; eauto. }
  apply (@NoDup_length_incl nat (keys d) (keys d0) Hw); [unfold keys; rewrite !map_length; lia|exact Hinc|exact Hk].
Qed.

Lemma whats_changed_ok : forall fuel, ch_ok (whats_changed fuel H dont m).
Proof.
  induction fuel as [|fuel IH]; intros obj seen b seen' E Hk Hj; [discriminate|]. cbn [whats_changed] in E.
  destruct (get obj seen) as [k|] eqn:Eg.
  { injection E as <- <-. split; [apply mono_refl|]. split; [apply has_get; eauto|]. split; [auto|]. split; [intros Ht; eapply Hj; eauto|intros _; apply fresh_clean_refl]. }
  destruct (dont obj) eqn:Ed.
  { injection E as <- <-. split; [|split; [|split; [|split]]].
    - intros x Hx. apply has_keys. apply In_keys_set. right. apply has_keys; auto.
    - apply has_keys, In_keys_set; auto.
    - intros x k Hx Ht. rewrite get_set in Hx. destruct (eqb x obj); [injection Hx as <-; discriminate|eauto].
    - discriminate.
    - intros _ x Hx. apply has_keys, In_keys_set in Hx as [->|Hx]; [right; left; auto|left; apply has_keys; auto]. }
  destruct Hk as [Hk|Hk]; [congruence|]. apply has_get in Hk as [old Eo]. rewrite Eo in E.
  destruct (Hwm _ _ Eo) as [Hwold [Hsh1 Hsh2]]. destruct (Hwf obj) as [Hwa Hws].
  set (seen0 := set obj ([], false) seen) in *.
  assert (Hj0 : justified seen0).
  { intros x k Hx Ht. unfold seen0 in Hx. rewrite get_set in Hx. destruct (eqb x obj); [injection Hx as <-; discriminate|eauto]. }
  assert (Hm0 : mono seen seen0) by (intros x Hx; apply has_keys, In_keys_set; right; apply has_keys; auto).
  assert (Ho0 : has obj seen0 = true) by (apply has_keys, In_keys_set; auto).
  assert (Hreach : forall c, In c (children (H obj)) -> bad c -> bad obj).
  { intros c Hc [y [Hy Hd]]. exists y. split; auto. eapply reach_trans; [|exact Hy]. eapply reach_step; [apply reach_refl|auto|auto]. }
  destruct (attr_diff (whats_changed fuel H dont m) (attrs old) (attrs (H obj)) seen0) as [[changed seen1]|] eqn:Ea; [|discriminate].
  assert (HA : mono seen0 seen1 /\ justified seen1 /\ (changed <> [] -> bad obj) /\
     (changed = [] -> (forall d0 d1 k, attrs old = Some d0 -> attrs (H obj) = Some d1 -> get k d0 = get k d1) /\
                      (forall c, In c (attr_children (attrs (H obj))) -> has c seen1 = true) /\ fresh_clean seen0 seen1)).
  { unfold attr_diff in Ea. destruct (attrs (H obj)) as [d|] eqn:Ead.
    2:{ injection Ea as <- <-. split; [apply mono_refl|]. split; [auto|]. split; [congruence|]. intros _. split; [discriminate|]. split; [intros c []|apply fresh_clean_refl]. }
    destruct (attrs old) as [d0|] eqn:Eao; [|destruct Hsh1 as [Hs _]; specialize (Hs eq_refl); discriminate].
    destruct (attr_loop_ok _ _ IH _ _ _ _ _ Ea) as [H1 [H2 [H3 H4]]]; auto.
    { intros k o Hi Hgo. eapply Hclosed; [exact Eo|]. unfold children. apply in_app_iff. left. rewrite Eao. apply in_attr_children. exists k. apply get_In; auto. }
    split; [auto|]. split; [auto|]. split.
    - intros Hc. destruct (H3 Hc) as [Hf|[k [o [Hi [Hne|Hb]]]]].
      + destruct (filter _ _) as [|k ks] eqn:Ef; [congruence|]. assert (Hin : In k (filter (fun k => negb (has k d)) (keys d0))) by (rewrite Ef; simpl; auto).
        apply filter_In in Hin as [Hk0 Hk1]. exists obj. split; [apply reach_refl|]. split; auto. exists old. split; auto.
        eapply (differs_attr _ _ d0 d k); eauto. intros He. apply negb_true_iff in Hk1.
        destruct (get k d0) eqn:E0; [|apply get_None_iff in E0; tauto]. unfold has in Hk1. rewrite <- He in Hk1. discriminate.
      + exists obj. split; [apply reach_refl|]. split; auto. exists old. split; auto. eapply (differs_attr _ _ d0 d k); eauto.
        rewrite (In_get k o d); auto.
      + apply (Hreach o); auto. unfold children. apply in_app_iff. left. rewrite Ead. apply in_attr_children. eauto.
    - intros Hc. destruct (H4 Hc) as [Hf [Ha Hfc]]. split; [|split; [|auto]].
      + intros d0' d1' k E0 E1. injection E0 as <-. injection E1 as <-. destruct (get k d) as [o|] eqn:Egk; [apply Ha, get_In; auto|].
        destruct (get k d0) as [o|] eqn:Egk0; auto. exfalso.
        assert (Hin : In k (filter (fun k => negb (has k d)) (keys d0))).
        { apply filter_In. split; [eapply get_Some_keys; eauto|]. unfold has. rewrite Egk. reflexivity. }
        rewrite Hf in Hin. destruct Hin.
      + intros c Hcc. apply in_attr_children in Hcc as [k Hi]. apply (Ha k c Hi). }
  destruct HA as [Hm1 [Hj1 [Hbad1 Hok1]]].
  destruct (seq_diff (whats_changed fuel H dont m) (seq old) (seq (H obj)) seen1) as [[sd seen2]|] eqn:Es; [|discriminate].
  injection E as <- <-.
  assert (HS : mono seen1 seen2 /\ justified seen2 /\ (sd = true -> bad obj) /\
     (sd = false -> (~ exists l0 l1, seq old = Some (SList l0) /\ seq (H obj) = Some (SList l1) /\ l0 <> l1) /\
                    (forall d0 d1 k, seq old = Some (SMap d0) -> seq (H obj) = Some (SMap d1) -> get k d0 = get k d1) /\
                    (forall c, In c (seq_children (seq (H obj))) -> has c seen2 = true) /\ fresh_clean seen1 seen2)).
  { assert (Hself : differs old (H obj) -> bad obj) by (intros Hd; exists obj; split; [apply reach_refl|split; eauto]).
    assert (Hin : forall c, In c (seq_children (seq (H obj))) -> bad c -> bad obj) by (intros c Hc; apply Hreach; unfold children; apply in_app_iff; auto).
    assert (Hcl : forall c, In c (seq_children (seq old)) -> known c) by (intros c Hc; eapply Hclosed; [exact Eo|]; unfold children; apply in_app_iff; auto).
    unfold seq_diff in Es. destruct (seq (H obj)) as [[l|d]|] eqn:En; destruct (seq old) as [[l0|d0]|] eqn:E0; try (destruct Hsh2; fail); cbn [seq_children] in *.
    - destruct (Nat.eqb_spec (length l) (length l0)) as [Hl|Hl].
      + destruct (list_loop_ok _ IH _ _ _ _ Es) as [H1 [H2 [H3 H4]]]; auto.
        { intros i Hi. apply Hcl. eapply in_combine_r; eauto. }
        split; [auto|]. split; [auto|]. split.
        * intros Hb. destruct (H3 Hb) as [i [j [Hi [Hne|Hbi]]]].
          -- apply Hself. eapply differs_list; eauto. intros <-. apply Hne. clear - Hi. revert Hi. generalize l0. induction l1 as [|x l1 IH]; intros Hi; [destruct Hi|].
             cbn [combine] in Hi. destruct Hi as [Hi|Hi]; [injection Hi; congruence|auto].
          -- apply (Hin i); auto. eapply in_combine_l; eauto.
        * intros Hb. destruct (H4 Hb) as [Ha Hf]. split; [|split; [discriminate|split; [|auto]]].
          -- intros [l0' [l1' [F0 [F1 Hne]]]]. injection F0 as <-. injection F1 as <-. apply Hne. symmetry. apply in_combine_self; auto. intros i j Hi. apply (Ha i j Hi).
          -- intros c Hc. destruct (in_combine_ex l l0 Hl c Hc) as [j Hi]. apply (Ha c j Hi).
      + injection Es as <- <-. split; [apply mono_refl|]. split; [auto|]. split; [|discriminate]. intros _. apply Hself. eapply differs_list; eauto. intros <-. congruence.
    - destruct (Nat.eqb_spec (length d) (length d0)) as [Hl|Hl].
      + destruct (map_loop_ok _ _ IH _ _ _ _ Es) as [H1 [H2 [H3 H4]]]; auto.
        { intros k v Hi Hg. split; apply Hcl, in_map_children; exists k, v; (split; [apply get_In|]; auto). }
        split; [auto|]. split; [auto|]. split.
        * intros Hb. destruct (H3 Hb) as [k [v [Hi [Hne|[Hbk|Hbv]]]]].
          -- apply Hself. eapply (differs_map _ _ d0 d k); eauto. rewrite (In_get k v d); auto.
          -- apply (Hin k); auto. apply in_map_children. eauto.
          -- apply (Hin v); auto. apply in_map_children. eauto.
        * intros Hb. destruct (H4 Hb) as [Ha Hf]. split; [intros [l0' [l1' [F0 _]]]; discriminate|]. split; [|split; [|auto]].
          -- intros d0' d1' k F0 F1. injection F0 as <-. injection F1 as <-. apply maps_equal; auto; [apply Hwold; auto|]. intros k' v' Hi. apply (Ha k' v' Hi).
          -- intros c Hc. apply in_map_children in Hc as [k [v [Hi Hc]]]. destruct (Ha k v Hi) as [_ [A1 A2]]. destruct Hc as [->| ->]; auto.
      + injection Es as <- <-. split; [apply mono_refl|]. split; [auto|]. split; [|discriminate]. intros _. apply Hself.
        (* maps of different sizes differ at some key *)
        destruct (Nat.lt_ge_cases (length d) (length d0)) as [Hlt|Hge].
        * assert (Hx : exists k, In k (keys d0) /\ ~ In k (keys d)).
          { destruct (Exists_dec (fun k => ~ In k (keys d)) (keys d0)) as [Hx|Hx].
            { intros k. destruct (in_dec Nat.eq_dec k (keys d)); [right; tauto|left; auto]. }
            - apply Exists_exists in Hx. auto.
            - exfalso. assert (Hinc : incl (keys d0) (keys d)).
              { intros k Hk0. destruct (in_dec Nat.eq_dec k (keys d)); auto. exfalso. apply Hx. apply Exists_exists. eauto. }
              apply NoDup_incl_length in Hinc; [|apply (proj2 Hwold); auto]. unfold keys in Hinc. rewrite !map_length in Hinc. lia. }
          destruct Hx as [k [K1 K2]]. eapply (differs_map _ _ d0 d k); eauto. intros He. apply get_None_iff in K2. rewrite K2 in He. apply get_None_iff in He. auto.
        * assert (Hx : exists k, In k (keys d) /\ ~ In k (keys d0)).
          { destruct (Exists_dec (fun k => ~ In k (keys d0)) (keys d)) as [Hx|Hx].
            { intros k. destruct (in_dec Nat.eq_dec k (keys d0)); [right; tauto|left; auto]. }
            - apply Exists_exists in Hx. auto.
            - exfalso. assert (Hinc : incl (keys d) (keys d0)).
              { intros k Hk0. destruct (in_dec Nat.eq_dec k (keys d0)); auto. exfalso. apply Hx. apply Exists_exists. eauto. }
              apply NoDup_incl_length in Hinc; [|apply Hws; auto]. unfold keys in Hinc. rewrite !map_length in Hinc. lia. }
          destruct Hx as [k [K1 K2]]. eapply (differs_map _ _ d0 d k); eauto. intros He. apply get_None_iff in K2. rewrite K2 in He. symmetry in He. apply get_None_iff in He. auto.
    - injection Es as <- <-. split; [apply mono_refl|]. split; [auto|]. split; [discriminate|]. intros _.
      split; [intros [l0' [l1' [F0 _]]]; discriminate|]. split; [discriminate|]. split; [intros c []|apply fresh_clean_refl]. }
  destruct HS as [Hm2 [Hj2 [Hbad2 Hok2]]].
  assert (Hb : truthy (changed, sd) = true -> bad obj).
  { cbn [truthy]. destruct changed as [|k0 ks]; [auto|]. intros _. apply Hbad1. discriminate. }
  assert (Hm3 : mono seen2 (set obj (changed, sd) seen2)) by (intros x Hx; apply has_keys, In_keys_set; right; apply has_keys; auto).
  split; [eapply mono_trans; [|exact Hm3]; eapply mono_trans; [|exact Hm2]; eapply mono_trans; eauto|].
  split; [apply has_keys, In_keys_set; auto|]. split.
  { intros x k Hx Ht. rewrite get_set in Hx. destruct (eqb_spec x obj) as [->|Hne]; [injection Hx as <-; auto|eauto]. }
  split; [auto|]. intros Ht. destruct changed as [|k0 ks]; [|discriminate]. cbn [truthy] in Ht. subst sd.
  destruct (Hok1 eq_refl) as [A1 [A2 A3]]. destruct (Hok2 eq_refl) as [B1 [B2 [B3 B4]]].
  assert (Hclean : clean obj (set obj ([], false) seen2)).
  { right. exists old. split; auto. split.
    - intros [d0 d1 k F0 F1 Hne|l0 l1 F0 F1 Hne|d0 d1 k F0 F1 Hne]; [apply Hne; eapply A1; eauto|apply B1; eauto|apply Hne; eapply B2; eauto].
    - intros c Hc. apply Hm3. unfold children in Hc. apply in_app_iff in Hc as [Hc|Hc]; auto. }
  intros x Hx. apply has_keys, In_keys_set in Hx as [->|Hx]; [auto|]. apply has_keys in Hx.
  destruct (B4 x Hx) as [Hx1|Hx1]; [|right; eapply clean_mono; eauto].
  destruct (A3 x Hx1) as [Hx0|Hx0]; [|right; eapply clean_mono; [|exact Hx0]; eapply mono_trans; eauto].
  unfold seen0 in Hx0. apply has_keys, In_keys_set in Hx0 as [->|Hx0]; [auto|]. left. apply has_keys; auto.
Qed.

Theorem has_changed_ok fuel obj b : known obj -> has_changed fuel H dont m obj = Some b -> (b = true <-> bad obj).
Proof.
  intros Hk E. unfold has_changed in E. destruct (whats_changed fuel H dont m obj []) as [[b' seen]|] eqn:Ew; [|discriminate].
  cbn in E. injection E as ->.
  destruct (whats_changed_ok _ _ _ _ _ Ew Hk) as [_ [Ho [_ [Hb Hc]]]]; [intros x k Hx; discriminate|]. split; auto.
  intros [y [Hy Hd]]. destruct b; auto. exfalso. specialize (Hc eq_refl).
  assert (Hclean : forall x, has x seen = true -> clean x seen) by (intros x Hx; destruct (Hc x Hx) as [Hx'|]; [discriminate|auto]).
  assert (Hall : has y seen = true).
  { clear Hd. induction Hy as [|y z Hy IHy Hdy Hz]; auto. destruct (Hclean y IHy) as [Hx|[n [_ [_ Hx]]]]; [congruence|auto]. }
  destruct Hd as [Hd1 [n [Hn Hdf]]]. destruct (Hclean y Hall) as [Hx|[n' [Hn' [Hx _]]]]; [congruence|]. rewrite Hn in Hn'. injection Hn' as <-. auto.
Qed.
End Search.
