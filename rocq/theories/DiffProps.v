(** C47: has_changed, on the model of dill/__diff.py in DiffModel.
    Specification ([differs], [reach], [same_shape]) at the top of DiffProofs. *)
From Coq Require Import String List Bool Arith Lia.
From Verif Require Import PyDict DiffModel DiffProofs.
Import ListNotations.

(** ** memorise *)
(** every entry is the state of the object in H, and its children are there too *)
Definition snapshot (H : nat -> node) (dont : nat -> bool) (m : dict nat node) : Prop := forall x n, get x m = Some n ->
  n = H x /\ dont x = false /\ forall c, In c (children n) -> dont c = true \/ has c m = true.
Definition pending (H : nat -> node) (dont : nat -> bool) (m : dict nat node) (P : list nat) : Prop := forall x n, get x m = Some n ->
  n = H x /\ dont x = false /\ forall c, In c (children n) -> dont c = true \/ has c m = true \/ In c P.

Lemma memorise_pending H dont : forall fuel m obj m' P, memorise fuel H dont false m obj = Some m' -> pending H dont m (obj :: P) ->
  pending H dont m' P /\ (forall x, has x m = true -> has x m' = true) /\ (dont obj = true \/ has obj m' = true).
Proof.
  induction fuel as [|fuel IH]; intros m obj m' P E Hp; [discriminate|]. cbn [memorise negb] in E. rewrite andb_true_r in E.
  destruct (has obj m || dont obj) eqn:Eg.
  - injection E as <-. apply orb_true_iff in Eg. split; [|split; [auto|tauto]].
    intros x n Hx. destruct (Hp x n Hx) as [H1 [H2 H3]]. split; [auto|]. split; [auto|]. intros c Hc. destruct (H3 c Hc) as [?|[?|[<-|?]]]; auto. tauto.
  - apply orb_false_iff in Eg as [Eh Ed].
    assert (Hfold : forall l m m', fold_opt (memorise fuel H dont false) l m = Some m' -> pending H dont m (l ++ P) ->
       pending H dont m' P /\ (forall x, has x m = true -> has x m' = true)).
    { clear - IH. induction l as [|c l IHl]; intros m m' E Hp; cbn [fold_opt app] in *.
      - injection E as <-. auto.
      - destruct (memorise fuel H dont false m c) as [m1|] eqn:E1; [|discriminate].
        destruct (IH _ _ _ _ E1 Hp) as [H1 [H2 _]]. destruct (IHl _ _ E H1) as [H3 H4]. auto. }
    destruct (Hfold _ _ _ E) as [H1 H2].
    + intros x n Hx. rewrite get_set in Hx. destruct (eqb_spec x obj) as [->|Hne].
      * injection Hx as <-. split; [auto|]. split; [auto|]. intros c Hc. right; right. apply in_app_iff; auto.
      * destruct (Hp x n Hx) as [A1 [A2 A3]]. split; [auto|]. split; [auto|]. intros c Hc. destruct (A3 c Hc) as [?|[?|[<-|?]]]; auto.
        -- right; left. apply has_keys, In_keys_set. right. apply has_keys; auto.
        -- right; left. apply has_keys, In_keys_set. auto.
        -- right; right. apply in_app_iff; auto.
    + split; [auto|]. split; [|right; apply H2, has_keys, In_keys_set; auto].
      intros x Hx. apply H2, has_keys, In_keys_set. right. apply has_keys; auto.
Qed.

Lemma memorise_snapshot H dont fuel m obj m' : memorise fuel H dont false m obj = Some m' -> snapshot H dont m ->
  snapshot H dont m' /\ (dont obj = true \/ has obj m' = true) /\ (forall x, has x m = true -> has x m' = true).
Proof.
  intros E Hs. destruct (memorise_pending H dont fuel m obj m' [] E) as [H1 [H2 H3]].
  - intros x n Hx. destruct (Hs x n Hx) as [A1 [A2 A3]]. split; [auto|]. split; [auto|]. intros c Hc. destruct (A3 c Hc); auto.
  - split; [|auto]. intros x n Hx. destruct (H1 x n Hx) as [A1 [A2 A3]]. split; [auto|]. split; [auto|]. intros c Hc. destruct (A3 c Hc) as [?|[?|[]]]; auto.
Qed.
Lemma snapshot_nil H dont : snapshot H dont []. Proof. intros x n Hx. discriminate. Qed.

(** everything reachable from a memorised object is in the memo, or in dont_memo *)
Lemma snapshot_reach H dont m obj y : snapshot H dont m -> (dont obj = true \/ has obj m = true) -> reach H dont obj y -> dont y = true \/ has y m = true.
Proof.
  intros Hs Ho Hr. induction Hr as [|y z Hr IH Hd Hz]; auto. destruct IH as [IH|IH]; [congruence|]. apply has_get in IH as [n Hn].
  destruct (Hs y n Hn) as [-> [_ Hc]]. auto.
Qed.

(** ** deciding differs *)
Lemma get_all_dec {K} `{EqB K} (d0 d1 : dict K nat) : (forall k, get k d0 = get k d1) \/ (exists k, get k d0 <> get k d1).
Proof.
  destruct (Exists_dec (fun k => get k d0 <> get k d1) (keys d0 ++ keys d1)) as [Hx|Hx].
  { intros k. destruct (get k d0) as [a|], (get k d1) as [b|]; try (left; congruence); try (right; congruence).
    destruct (Nat.eq_dec a b); [right|left]; congruence. }
  - apply Exists_exists in Hx as [k [_ Hk]]. right; eauto.
  - left. intros k. destruct (get k d0) as [a|] eqn:E0, (get k d1) as [b|] eqn:E1; auto.
    + destruct (Nat.eq_dec a b) as [->|Hne]; auto. exfalso. apply Hx, Exists_exists. exists k. split; [apply in_app_iff; left; eapply get_Some_keys; eauto|congruence].
    + exfalso. apply Hx, Exists_exists. exists k. split; [apply in_app_iff; left; eapply get_Some_keys; eauto|congruence].
    + exfalso. apply Hx, Exists_exists. exists k. split; [apply in_app_iff; right; eapply get_Some_keys; eauto|congruence].
Qed.

Lemma differs_or_same n0 n1 : wf_node n0 -> wf_node n1 -> same_shape n0 n1 -> differs n0 n1 \/ forall c, In c (children n0) <-> In c (children n1).
Proof.
  intros [Wa0 Ws0] [Wa1 Ws1] [Ha Hs].
  assert (A : differs n0 n1 \/ forall c, In c (attr_children (attrs n0)) <-> In c (attr_children (attrs n1))).
  { destruct (attrs n0) as [d0|] eqn:E0; destruct (attrs n1) as [d1|] eqn:E1.
    - destruct (get_all_dec d0 d1) as [Hg|[k Hk]]; [right|left; eapply differs_attr; eauto].
      intros c. rewrite !in_attr_children. split; intros [k Hi]; exists k; apply get_In.
      + rewrite <- Hg. apply In_get; auto.
      + rewrite Hg. apply In_get; auto.
    - destruct Ha as [_ Ha]. discriminate (Ha eq_refl).
    - destruct Ha as [Ha _]. discriminate (Ha eq_refl).
    - right. tauto. }
  assert (B : differs n0 n1 \/ forall c, In c (seq_children (seq n0)) <-> In c (seq_children (seq n1))).
  { destruct (seq n0) as [[l0|d0]|] eqn:E0; destruct (seq n1) as [[l1|d1]|] eqn:E1; try tauto.
    - destruct (list_eq_dec Nat.eq_dec l0 l1) as [<-|Hne]; [right; tauto|left; eapply differs_list; eauto].
    - destruct (get_all_dec d0 d1) as [Hg|[k Hk]]; [right|left; eapply differs_map; eauto].
      intros c. rewrite !in_map_children. split; intros [k [v [Hi Hc]]]; exists k, v; (split; [apply get_In|auto]).
      + rewrite <- Hg. apply In_get; auto.
      + rewrite Hg. apply In_get; auto. }
  destruct A as [A|A]; auto. destruct B as [B|B]; auto. right. intros c. unfold children. rewrite !in_app_iff, A, B. tauto.
Qed.

(** a path in one heap is a path in the other until the first object that differs *)
Lemma reach_first_diff H0 H1 dont obj (Hw0 : forall x, wf_node (H0 x)) (Hw1 : forall x, wf_node (H1 x)) :
  (forall x, same_shape (H0 x) (H1 x)) -> forall y, reach H0 dont obj y -> reach H1 dont obj y \/ exists z, reach H0 dont obj z /\ reach H1 dont obj z /\ dont z = false /\ differs (H0 z) (H1 z).
Proof.
  intros Hsh y Hr. induction Hr as [|y z Hr IH Hd Hz]; [left; apply reach_refl|]. destruct IH as [IH|IH]; auto.
  destruct (differs_or_same _ _ (Hw0 y) (Hw1 y) (Hsh y)) as [Hdf|Hc]; [right; eauto|left]. eapply reach_step; eauto. apply Hc; auto.
Qed.
Lemma reach_first_diff' H0 H1 dont obj (Hw0 : forall x, wf_node (H0 x)) (Hw1 : forall x, wf_node (H1 x)) :
  (forall x, same_shape (H0 x) (H1 x)) -> forall y, reach H1 dont obj y -> reach H0 dont obj y \/ exists z, reach H0 dont obj z /\ reach H1 dont obj z /\ dont z = false /\ differs (H0 z) (H1 z).
Proof.
  intros Hsh y Hr. induction Hr as [|y z Hr IH Hd Hz]; [left; apply reach_refl|]. destruct IH as [IH|IH]; auto.
  destruct (differs_or_same _ _ (Hw0 y) (Hw1 y) (Hsh y)) as [Hdf|Hc]; [right; eauto|left]. eapply reach_step; eauto. apply Hc; auto.
Qed.

(** C47.  If everything in the memo was recorded in the present state H0 (for instance, the memo was empty) and memorise(obj)
    is called, then whatever happens to the heap afterwards (H1), has_changed(obj) is true exactly if some object that
    was reachable from obj has had an attribute added, removed or rebound, or has other items.  Cycles allowed. *)
Theorem C47_exact_partial H0 H1 dont m0 m obj fm fc b :
  (forall x, wf_node (H0 x)) -> (forall x, wf_node (H1 x)) -> (forall x, same_shape (H0 x) (H1 x)) ->
  snapshot H0 dont m0 -> memorise fm H0 dont false m0 obj = Some m ->
  has_changed fc H1 dont m obj = Some b ->
  (b = true <-> exists y, reach H0 dont obj y /\ dont y = false /\ differs (H0 y) (H1 y)).
Proof.
  intros W0 W1 Hsh Hs0 Em Eb. destruct (memorise_snapshot _ _ _ _ _ _ Em Hs0) as [Hs [Ho _]].
  assert (Hw : forall x n, get x m = Some n -> wf_node n /\ same_shape n (H1 x)) by (intros x n Hx; destruct (Hs x n Hx) as [-> _]; auto).
  rewrite (has_changed_ok H1 dont m W1 Hw (fun x n c Hx => proj2 (proj2 (Hs x n Hx)) c) fc obj b Ho Eb). unfold bad, diffnode.
  split.
  - intros [y [Hy [Hd [n [Hn Hdf]]]]]. destruct (Hs y n Hn) as [-> _].
    destruct (reach_first_diff' H0 H1 dont obj W0 W1 Hsh y Hy) as [Hy0|[z [Z1 [Z2 Z3]]]]; eauto.
  - intros [y [Hy [Hd Hdf]]].
    destruct (reach_first_diff H0 H1 dont obj W0 W1 Hsh y Hy) as [Hy1|[z [Z1 [Z2 [Z3 Z4]]]]].
    + exists y. split; auto. split; auto. destruct (snapshot_reach _ _ _ _ _ Hs Ho Hy) as [Hx|Hx]; [congruence|]. apply has_get in Hx as [n Hn].
      exists n. split; auto. destruct (Hs y n Hn) as [-> _]. auto.
    + exists z. split; auto. split; auto. destruct (snapshot_reach _ _ _ _ _ Hs Ho Z1) as [Hx|Hx]; [congruence|]. apply has_get in Hx as [n Hn].
      exists n. split; auto. destruct (Hs z n Hn) as [-> _]. auto.
Qed.

(** in particular: nothing happened, nothing reported *)
Theorem C47_unchanged H dont m0 m obj fm fc b : (forall x, wf_node (H x)) -> snapshot H dont m0 -> memorise fm H dont false m0 obj = Some m ->
  has_changed fc H dont m obj = Some b -> b = false.
Proof.
  intros W Hs Em Eb. assert (Hsh : forall n, same_shape n n) by (intros n; split; [tauto|destruct (seq n) as [[]|]; auto]).
  destruct (C47_exact_partial H H dont m0 m obj fm fc b W W (fun x => Hsh (H x)) Hs Em Eb) as [Hb _]. destruct b; auto.
  destruct (Hb eq_refl) as [y [_ [_ [d0 d1 k E0 E1 Hne|l0 l1 E0 E1 Hne|d0 d1 k E0 E1 Hne]]]]; congruence.
Qed.

(** memorise never replaces the record of another object, and with force=True the object's own record is the present one *)
Lemma memorise_keeps H dont : forall fuel m obj m' x n, memorise fuel H dont false m obj = Some m' -> get x m = Some n -> get x m' = Some n.
Proof.
  induction fuel as [|fuel IH]; intros m obj m' x n E Hx; [discriminate|]. cbn [memorise negb] in E. rewrite andb_true_r in E.
  destruct (has obj m || dont obj) eqn:Eo; [injection E as <-; auto|].
  assert (Hx' : get x (set obj (H obj) m) = Some n).
  { rewrite get_set_other; auto. intros ->. apply orb_false_iff in Eo as [Eo _]. apply get_Some_keys in Hx. apply has_keys in Hx. congruence. }
  revert E Hx'. generalize (set obj (H obj) m). generalize (children (H obj)). induction l as [|c l IHl]; intros d E Hd; cbn [fold_opt] in E.
  - injection E as <-; auto.
  - destruct (memorise fuel H dont false d c) as [d1|] eqn:E1; [|discriminate]. eauto.
Qed.
Theorem C47_force_rerecords H dont fuel m obj m' : memorise fuel H dont true m obj = Some m' -> dont obj = false ->
  get obj m' = Some (H obj) /\ (forall x n, x <> obj -> get x m = Some n -> get x m' = Some n).
Proof.
  intros E Hd. destruct fuel as [|fuel]; [discriminate|]. cbn [memorise negb] in E. rewrite andb_false_r, Hd in E. cbn [orb] in E.
  assert (K : forall l d d' x n, fold_opt (memorise fuel H dont false) l d = Some d' -> get x d = Some n -> get x d' = Some n).
  { induction l as [|c l IHl]; intros d d' x n Ef Hx; cbn [fold_opt] in Ef; [injection Ef as <-; auto|].
    destruct (memorise fuel H dont false d c) as [d1|] eqn:E1; [|discriminate]. eapply IHl; eauto. eapply memorise_keeps; eauto. }
  split; [eapply K; eauto; apply get_set_same|]. intros x n Hne Hx. eapply K; eauto. rewrite get_set_other; auto.
Qed.
(** without force, what was recorded before stays recorded *)
Theorem C47_unforced_keeps H dont fuel m obj m' x n : memorise fuel H dont false m obj = Some m' -> get x m = Some n -> get x m' = Some n.
Proof. apply memorise_keeps. Qed.
(** whatever memo (stale entries included, as after several memorise calls or force=True), has_changed compares with what was recorded *)
Theorem C47_recorded H dont m obj fuel b :
  (forall x, wf_node (H x)) -> (forall x n, get x m = Some n -> wf_node n /\ same_shape n (H x)) ->
  (forall x n c, get x m = Some n -> In c (children n) -> dont c = true \/ has c m = true) ->
  dont obj = true \/ has obj m = true -> has_changed fuel H dont m obj = Some b ->
  (b = true <-> exists y n, reach H dont obj y /\ dont y = false /\ get y m = Some n /\ differs n (H y)).
Proof.
  intros W Hm Hc Ho Eb. rewrite (has_changed_ok H dont m W Hm Hc fuel obj b Ho Eb). unfold bad, diffnode. split.
  - intros [y [Hy [Hd [n [Hn Hdf]]]]]. exists y, n. auto.
  - intros [y [n [Hy [Hd [Hn Hdf]]]]]. exists y. split; auto. split; auto. eauto.
Qed.

(** ** Both calls return *)
Definition unseen {V} (L : list nat) (s : dict nat V) : nat := length (filter (fun x => negb (has x s)) L).
Lemma unseen_mono {V} L (s s' : dict nat V) : (forall x, has x s = true -> has x s' = true) -> unseen L s' <= unseen L s.
Proof.
  intros Hm. unfold unseen. induction L as [|x L IH]; cbn [filter]; auto.
  destruct (has x s) eqn:E; [rewrite (Hm x E); cbn [negb]; auto|]. destruct (has x s'); cbn [negb length]; lia.
Qed.
Lemma has_set_other {V} (x y : nat) (v : V) s : has x s = true -> has x (set y v s) = true.
Proof. intros Hx. apply has_keys, In_keys_set. right. apply has_keys; auto. Qed.
Lemma unseen_set {V} L (s : dict nat V) x v : In x L -> has x s = false -> unseen L (set x v s) < unseen L s.
Proof.
  intros Hi Hx. induction L as [|y L IH]; [destruct Hi|].
  assert (Hrest : unseen L (set x v s) <= unseen L s) by (apply unseen_mono; intros z; apply has_set_other).
  unfold unseen in *. cbn [filter]. destruct Hi as [->|Hi].
  - rewrite Hx. assert (E : has x (set x v s) = true) by (apply has_keys, In_keys_set; auto). rewrite E. cbn [negb length]. lia.
  - specialize (IH Hi). destruct (has y s) eqn:E; [rewrite (has_set_other _ x v _ E); cbn [negb]; auto|].
    destruct (has y (set x v s)); cbn [negb length]; lia.
Qed.

Definition ch_total (L : list nat) (k : nat) (ch : nat -> dict nat mark -> option answer) : Prop := forall o seen, unseen L seen < k ->
  exists b seen', ch o seen = Some (b, seen') /\ mono seen seen'.
Lemma attr_loop_total L k ch old : ch_total L k ch -> forall l changed seen, unseen L seen < k -> exists r seen', attr_loop ch old l changed seen = Some (r, seen') /\ mono seen seen'.
Proof.
  intros Hch. induction l as [|[key o] l IH]; intros changed seen Hk; cbn [attr_loop]; [do 2 eexists; split; [reflexivity|apply mono_refl]|].
  destruct (get key old) as [o'|]; [|apply IH; auto]. destruct (Nat.eqb o o'); [|apply IH; auto].
  destruct (Hch o seen Hk) as [b [s1 [-> Hm]]]. destruct (IH (if b then changed ++ [key] else changed) s1) as [r [s2 [E Hm2]]].
  { eapply Nat.le_lt_trans; [apply unseen_mono; exact Hm|auto]. }
  rewrite E. do 2 eexists; split; [reflexivity|]. eapply mono_trans; eauto.
Qed.
Lemma list_loop_total L k ch : ch_total L k ch -> forall l seen, unseen L seen < k -> exists r seen', list_loop ch l seen = Some (r, seen') /\ mono seen seen'.
Proof.
  intros Hch. induction l as [|[i j] l IH]; intros seen Hk; cbn [list_loop]; [do 2 eexists; split; [reflexivity|apply mono_refl]|].
  destruct (Nat.eqb i j); [|do 2 eexists; split; [reflexivity|apply mono_refl]].
  destruct (Hch i seen Hk) as [b [s1 [-> Hm]]]. destruct b; [do 2 eexists; split; [reflexivity|auto]|].
  destruct (IH s1) as [r [s2 [E Hm2]]]. { eapply Nat.le_lt_trans; [apply unseen_mono; exact Hm|auto]. }
  rewrite E. do 2 eexists; split; [reflexivity|]. eapply mono_trans; eauto.
Qed.
Lemma map_loop_total L k ch old : ch_total L k ch -> forall l seen, unseen L seen < k -> exists r seen', map_loop ch old l seen = Some (r, seen') /\ mono seen seen'.
Proof.
  intros Hch. induction l as [|[key o] l IH]; intros seen Hk; cbn [map_loop]; [do 2 eexists; split; [reflexivity|apply mono_refl]|].
  destruct (get key old) as [o'|]; [|do 2 eexists; split; [reflexivity|apply mono_refl]]. destruct (Nat.eqb o o'); [|do 2 eexists; split; [reflexivity|apply mono_refl]].
  destruct (Hch key seen Hk) as [b [s1 [-> Hm]]]. destruct b; [do 2 eexists; split; [reflexivity|auto]|].
  assert (Hk1 : unseen L s1 < k) by (eapply Nat.le_lt_trans; [apply unseen_mono; exact Hm|auto]).
  destruct (Hch o s1 Hk1) as [b [s2 [-> Hm2]]]. destruct b; [do 2 eexists; split; [reflexivity|eapply mono_trans; eauto]|].
  destruct (IH s2) as [r [s3 [E Hm3]]]. { eapply Nat.le_lt_trans; [apply unseen_mono; exact Hm2|auto]. }
  rewrite E. do 2 eexists; split; [reflexivity|]. eapply mono_trans; [exact Hm|]. eapply mono_trans; eauto.
Qed.

Lemma whats_changed_total H dont m : forall fuel, ch_total (keys m) fuel (whats_changed fuel H dont m).
Proof.
  induction fuel as [|fuel IH]; intros obj seen Hk; [lia|]. cbn [whats_changed].
  destruct (get obj seen) as [mk|] eqn:Eg; [do 2 eexists; split; [reflexivity|apply mono_refl]|].
  destruct (dont obj); [do 2 eexists; split; [reflexivity|intros x; apply has_set_other]|].
  destruct (get obj m) as [old|] eqn:Em; [|do 2 eexists; split; [reflexivity|apply mono_refl]].
  assert (Hk0 : unseen (keys m) (set obj (([], false) : mark) seen) < fuel).
  { assert (Hlt : unseen (keys m) (set obj (([], false) : mark) seen) < unseen (keys m) seen).
    { apply unseen_set; [eapply get_Some_keys; eauto|]. unfold has. rewrite Eg. auto. } lia. }
  assert (HA : forall s, unseen (keys m) s < fuel -> exists r s', attr_diff (whats_changed fuel H dont m) (attrs old) (attrs (H obj)) s = Some (r, s') /\ mono s s').
  { intros s Hs. unfold attr_diff. destruct (attrs (H obj)), (attrs old); try (do 2 eexists; split; [reflexivity|apply mono_refl]). eapply attr_loop_total; eauto. }
  assert (HS : forall s, unseen (keys m) s < fuel -> exists r s', seq_diff (whats_changed fuel H dont m) (seq old) (seq (H obj)) s = Some (r, s') /\ mono s s').
  { intros s Hs. unfold seq_diff. destruct (seq (H obj)) as [[l|d]|], (seq old) as [[l0|d0]|]; try (do 2 eexists; split; [reflexivity|apply mono_refl]).
    - destruct (Nat.eqb (length l) (length l0)); [eapply list_loop_total; eauto|do 2 eexists; split; [reflexivity|apply mono_refl]].
    - destruct (Nat.eqb (length d) (length d0)); [eapply map_loop_total; eauto|do 2 eexists; split; [reflexivity|apply mono_refl]]. }
  destruct (HA _ Hk0) as [changed [s1 [EA Hm1]]]. unfold mark in *. rewrite EA.
  destruct (HS s1) as [sd [s2 [-> Hm2]]]. { eapply Nat.le_lt_trans; [apply unseen_mono; exact Hm1|auto]. }
  do 2 eexists; split; [reflexivity|]. intros x Hx. apply has_set_other. apply Hm2, Hm1, has_set_other, Hx.
Qed.

Lemma filter_len {A} (f : A -> bool) l : length (filter f l) <= length l.
Proof. induction l; cbn [filter length]; auto. destruct (f a); cbn [length]; lia. Qed.

(** C47: has_changed always returns; the recursion is no deeper than the memo is large, whatever the heap has become *)
Theorem C47_has_changed_total H dont m obj : exists b, has_changed (Datatypes.S (length m)) H dont m obj = Some b.
Proof.
  destruct (whats_changed_total H dont m (Datatypes.S (length m)) obj []) as [b [s [E _]]].
  - unfold unseen. apply Nat.lt_succ_r. rewrite filter_len. unfold keys. rewrite map_length. auto.
  - unfold has_changed. rewrite E. exists b. reflexivity.
Qed.


Lemma memorise_total H dont L : (forall x c, In x L -> dont x = false -> In c (children (H x)) -> In c L) ->
  forall fuel obj m, In obj L -> unseen L m < fuel -> exists m', memorise fuel H dont false m obj = Some m' /\ (forall x, has x m = true -> has x m' = true).
Proof.
  intros Hcl. induction fuel as [|fuel IH]; intros obj m Ho Hk; [lia|]. cbn [memorise negb]. rewrite andb_true_r.
  destruct (has obj m || dont obj) eqn:Eg; [eauto|]. apply orb_false_iff in Eg as [Eh Ed].
  assert (Hlt : unseen L (set obj (H obj) m) < unseen L m) by (apply unseen_set; auto).
  assert (Hf : forall l s, (forall c, In c l -> In c L) -> unseen L s < fuel -> exists m', fold_opt (memorise fuel H dont false) l s = Some m' /\ forall x, has x s = true -> has x m' = true).
  { induction l as [|c l IHl]; intros s Hl Hs; cbn [fold_opt]; [eauto|]. destruct (IH c s) as [s1 [-> Hm]]; [apply Hl; simpl; auto|auto|].
    destruct (IHl s1) as [s2 [E Hm2]]; [intros; apply Hl; simpl; auto|eapply Nat.le_lt_trans; [apply unseen_mono; exact Hm|auto]|]. eauto. }
  destruct (Hf (children (H obj)) (set obj (H obj) m)) as [m' [E Hm]]; [intros c Hc; eapply Hcl; eauto|lia|].
  exists m'. split; auto. intros x Hx. apply Hm, has_set_other, Hx.
Qed.
(** C47: memorise returns on every finite graph, cyclic or not *)
Theorem C47_memorise_total H dont L obj m : In obj L -> (forall x c, In x L -> dont x = false -> In c (children (H x)) -> In c L) ->
  exists m', memorise (Datatypes.S (length L)) H dont false m obj = Some m'.
Proof.
  intros Ho Hc. destruct (memorise_total H dont L Hc (Datatypes.S (length L)) obj m Ho) as [m' [E _]]; [|eauto].
  unfold unseen. apply Nat.lt_succ_r, filter_len.
Qed.

(** ** Instances *)
(** 1 <-> 2, a cycle through a list and an attribute *)
Definition cyc (h : nat) (extra : list nat) (x : nat) : node :=
  match x with
  | 1 => Node (Some [("next"%string, 2)]) None 0
  | 2 => Node None (Some (SList (1 :: extra))) 0
  | 3 => Node None None h
  | _ => Node None None 0
  end.
Lemma cyc_wf h e x : wf_node (cyc h e x).
Proof.
  destruct x as [|[|[|[|]]]]; split; cbn; try discriminate; intros d E; injection E as <-. unfold wf. cbn. repeat constructor. intros [].
Qed.
Lemma cyc_shape h h' e e' x : same_shape (cyc h e x) (cyc h' e' x).
Proof. destruct x as [|[|[|[|]]]]; split; cbn; auto; try tauto; try (split; discriminate). Qed.
Example C47_case : exists m, memorise 9 (cyc 0 [3]) (fun x => Nat.eqb x 7) false [] 1 = Some m /\
  has_changed 9 (cyc 0 [3]) (fun x => Nat.eqb x 7) m 1 = Some false /\ has_changed 9 (cyc 0 [3; 5]) (fun x => Nat.eqb x 7) m 1 = Some true /\
  snapshot (cyc 0 [3]) (fun x => Nat.eqb x 7) [].
Proof. eexists. split; [vm_compute; reflexivity|]. split; [vm_compute; reflexivity|]. split; [vm_compute; reflexivity|apply snapshot_nil]. Qed.

(** C47 as stated is false: a change that is neither in __dict__ nor in the items (a slot, a closure cell, an array's
    buffer) is not seen *)
Theorem C47_hidden_refuted : exists m, memorise 9 (cyc 0 [3]) (fun _ => false) false [] 1 = Some m /\
  cyc 0 [3] 3 <> cyc 1 [3] 3 /\ reach (cyc 0 [3]) (fun _ => false) 1 3 /\ has_changed 9 (cyc 1 [3]) (fun _ => false) m 1 = Some false.
Proof.
  eexists. split; [vm_compute; reflexivity|]. split; [discriminate|]. split; [|vm_compute; reflexivity].
  assert (H2 : reach (cyc 0 [3]) (fun _ => false) 1 2) by (eapply reach_step; [apply reach_refl|reflexivity|]; vm_compute; auto).
  eapply reach_step; [exact H2|reflexivity|]. vm_compute; auto.
Qed.
(** C47 as stated is false: if a child was memorised earlier and changed since, memorise(obj) leaves the old record, and
    has_changed(obj) is true although nothing changed after memorise(obj) *)
Definition holder (e : list nat) (x : nat) : node := if Nat.eqb x 5 then Node (Some [("child"%string, 2)]) None 0 else cyc 0 e x.
Theorem C47_stale_refuted : exists m0 m, memorise 9 (holder []) (fun _ => false) false [] 2 = Some m0 /\
  memorise 9 (holder [3]) (fun _ => false) false m0 5 = Some m /\ has_changed 9 (holder [3]) (fun _ => false) m 5 = Some true.
Proof. do 2 eexists. split; [vm_compute; reflexivity|]. split; vm_compute; reflexivity. Qed.
