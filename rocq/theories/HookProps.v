(** C96, C97: the import hook of dill.diff. *)
From Coq Require Import String List Bool Arith Lia.
From Verif Require Import PyDict DiffModel DiffProofs DiffProps HookModel.
Import ListNotations.

(** ** Records are only made of what can be reached *)
Lemma memorise_reach H dn : forall fuel m obj m' x, memorise fuel H dn false m obj = Some m' -> has x m' = true -> has x m = true \/ reach H dn obj x.
Proof.
  induction fuel as [|fuel IH]; intros m obj m' x E Hx; [discriminate|]. cbn [memorise negb] in E. rewrite andb_true_r in E.
  destruct (has obj m || dn obj) eqn:Eg; [injection E as <-; auto|]. apply orb_false_iff in Eg as [Eh Ed].
  assert (Hfold : forall l m m', fold_opt (memorise fuel H dn false) l m = Some m' -> has x m' = true -> has x m = true \/ exists c, In c l /\ reach H dn c x).
  { clear - IH. induction l as [|c l IHl]; intros m m' E Hx; cbn [fold_opt] in E; [injection E as <-; auto|].
    destruct (memorise fuel H dn false m c) as [m1|] eqn:E1; [|discriminate]. destruct (IHl _ _ E Hx) as [H1|[d [Hd Hr]]].
    - destruct (IH _ _ _ _ E1 H1) as [H2|H2]; auto. right. exists c. split; [left|]; auto.
    - right. exists d. split; [right|]; auto. }
  destruct (Hfold _ _ _ E Hx) as [H1|[c [Hc Hr]]].
  - apply has_keys, In_keys_set in H1 as [->|H1]; [right; apply reach_refl|left; apply has_keys; auto].
  - right. clear - Hc Hr Ed. induction Hr as [|y z Hr IHr Hd Hz].
    + eapply reach_step; [apply reach_refl|auto|auto].
    + eapply reach_step; eauto.
Qed.

(** ** A program whose imports are in order: [own] says which module makes an object, [rank] that imports do not go round in
    circles; a module imports modules outside its own packages only by undotted names *)
Definition in_order (W : world) (own : nat -> option string) (rank : string -> nat) (n : string) (i : stmt) : Prop :=
  match i with
  | New _ o => own o = Some n \/ own o = None
  | Put o _ _ => own o = Some n
  | Import m _ | From m _ _ | Try m => rank m < rank n /\ forall p, In p (packages W m) -> p = n \/ In p (packages W n)
  | Raise => True
  end.
Definition orderly (W : world) (own : nat -> option string) (rank : string -> nat) : Prop :=
  (forall n b, body W n = Some b -> own (mid W n) = Some n /\ Forall (in_order W own rank n) b) /\
  (forall l k, In k (order W l) <-> In k l).

(** the state between two statements; [T]: the modules still being imported.  What is recorded is current, and no recorded
    object belongs to a module still being imported, or not imported at all *)
Record settled (W : world) (own : nat -> option string) (T : list string) (s : state) : Prop := {
  st_none : forall x c, own x = None -> In c (children (heap s x)) -> own c = None;
  st_some : forall x k c, own x = Some k -> In c (children (heap s x)) ->
    own c = None \/ own c = Some k \/ exists k', own c = Some k' /\ has k' (mods s) = true /\ ~ In k' T;
  st_memo : forall x k, has x (memo s) = true -> own x = Some k -> has k (mods s) = true /\ ~ In k T;
  st_snap : snapshot (heap s) (dont W) (memo s);
  st_mods : forall k o, get k (mods s) = Some o -> own o = None \/ own o = Some k;
  st_open : forall k, In k T -> get k (mods s) = Some (mid W k) /\ own (mid W k) = Some k;
  st_wf : forall x, wf_node (heap s x)
}.

Section Order.
Variables (W : world) (own : nat -> option string) (rank : string -> nat).
Hypothesis HO : orderly W own rank.
Notation settled := (settled W own).

Lemma settled_weaken k T s : settled (k :: T) s -> settled T s.
Proof.
  intros [A B C D E F G]. split; auto.
  - intros x k0 c Hx Hc. destruct (B x k0 c Hx Hc) as [H|[H|[k' [H1 [H2 H3]]]]]; auto. right; right. exists k'. repeat split; auto. intros Hi. apply H3. right; auto.
  - intros x k0 Hx Hk. destruct (C x k0 Hx Hk) as [H1 H2]. split; auto. intros Hi. apply H2. right; auto.
  - intros k0 Hi. apply F. right; auto.
Qed.

Lemma children_set_attr h o k v x c : In c (children (set_attr h o k v x)) -> In c (children (h x)) \/ (x = o /\ c = v).
Proof.
  unfold set_attr. destruct (Nat.eqb_spec x o) as [->|]; auto. unfold children. cbn [attrs seq]. rewrite !in_app_iff. intros [H|H]; auto.
  cbn [attr_children] in H. apply in_map_iff in H as [[k0 v0] [<- H]]. apply In_set in H as [H|[-> ->]]; auto.
  destruct (attrs (h o)) as [d|] eqn:E; [|destruct H]. left; left. cbn [attr_children]. apply in_map_iff. exists (k0, v0). auto.
Qed.
Lemma wf_set_attr h o k v : (forall x, wf_node (h x)) -> forall x, wf_node (set_attr h o k v x).
Proof.
  intros Hw x. unfold set_attr. destruct (Nat.eqb_spec x o) as [->|]; auto. destruct (Hw o) as [Ha Hs]. split; cbn [attrs seq]; auto.
  intros d0 Hd. injection Hd as <-. apply wf_set. destruct (attrs (h o)) as [d|]; auto. apply wf_nil.
Qed.
Lemma set_attr_other h o k v x : x <> o -> set_attr h o k v x = h x.
Proof. intros H. unfold set_attr. destruct (Nat.eqb_spec x o); congruence. Qed.

(** a write to an object of a module being imported *)
Lemma settled_write n T s o k v : In n T -> own o = Some n -> settled T s ->
  (own v = None \/ own v = Some n \/ exists k', own v = Some k' /\ has k' (mods s) = true /\ ~ In k' T) ->
  settled T (with_heap s (set_attr (heap s) o k v)).
Proof.
  intros Hn Ho [A B C D E F G] Hv. split; cbn [heap mods memo with_heap]; auto.
  - intros x c Hx Hc. apply children_set_attr in Hc as [Hc|[-> ->]]; eauto. congruence.
  - intros x k0 c Hx Hc. apply children_set_attr in Hc as [Hc|[-> ->]]; eauto. rewrite Ho in Hx. injection Hx as <-. auto.
  - assert (Hm : forall x, has x (memo s) = true -> x <> o).
    { intros x Hx ->. destruct (C o n Hx Ho). auto. }
    intros x nd Hx. assert (Hx' : has x (memo s) = true) by (apply has_get; eauto). destruct (D x nd Hx) as [D1 D2].
    rewrite set_attr_other by auto. auto.
  - apply wf_set_attr; auto.
Qed.

(** the new modules of a stretch of execution, other than [but], are memorised *)
Definition extends (but : string -> Prop) (s s' : state) : Prop :=
  (forall k o, get k (mods s) = Some o -> get k (mods s') = Some o) /\
  (forall x, has x (memo s) = true -> has x (memo s') = true) /\
  (forall k o, get k (mods s') = Some o -> has k (mods s) = true \/ but k \/ dont W o = true \/ has o (memo s') = true).
Lemma extends_refl but s : extends but s s.
Proof. split; [auto|]. split; [auto|]. intros k o Hk. left. apply has_get. eauto. Qed.
Lemma extends_trans but s1 s2 s3 : extends but s1 s2 -> extends but s2 s3 -> extends but s1 s3.
Proof.
  intros [A1 [B1 C1]] [A2 [B2 C2]]. split; [auto|]. split; [auto|]. intros k o Hk. destruct (C2 k o Hk) as [H|H]; auto.
  apply has_get in H as [o' H]. pose proof (A2 _ _ H) as H'. assert (o' = o) by congruence. subst o'. destruct (C1 k o H) as [?|[?|[?|?]]]; auto.
Qed.
Lemma extends_heap but s h : extends but s (with_heap s h).
Proof. split; [auto|]. split; [auto|]. intros k o Hk. left. apply has_get. eauto. Qed.
Lemma extends_weaken (but but' : string -> Prop) s s' : (forall k, but k -> but' k) -> extends but s s' -> extends but' s s'.
Proof. intros H [A [B C]]. split; [auto|]. split; [auto|]. intros k o Hk. destruct (C k o Hk) as [?|[?|?]]; auto. Qed.
Definition nobody (k : string) : Prop := False.

Definition ex_ok (ex : string -> list stmt -> state -> option (state * bool)) : Prop := forall n b T s s' r,
  body W n = Some b -> settled (n :: T) s -> (forall p, In p (packages W n) -> In p T) -> (forall t, In t T -> rank n < rank t) ->
  ex n b s = Some (s', r) -> settled (n :: T) s' /\ extends nobody s s'.

Lemma settled_create n b T s : body W n = Some b -> has n (mods s) = false -> settled T s -> settled (n :: T) (create W n s).
Proof.
  intros Hb Hn [A B C D E F G]. destruct HO as [HB _]. destruct (HB n b Hb) as [Hown _].
  assert (Hmono : forall k, has k (mods s) = true -> has k (set n (mid W n) (mods s)) = true) by (intros k Hk; apply has_keys, In_keys_set; right; apply has_keys; auto).
  assert (Hne : forall k, has k (mods s) = true -> n <> k) by (intros k Hk ->; congruence).
  split; cbn [heap mods memo create].
  - intros x c Hx Hc. destruct (Nat.eqb_spec x (mid W n)) as [->|]; [destruct Hc|eauto].
  - intros x k c Hx Hc. destruct (Nat.eqb_spec x (mid W n)) as [->|]; [destruct Hc|]. destruct (B x k c Hx Hc) as [H|[H|[k' [H1 [H2 H3]]]]]; auto.
    right; right. exists k'. split; [auto|]. split; [auto|]. intros [He|Hi]; [exact (Hne _ H2 He)|auto].
  - intros x k Hx Hk. destruct (C x k Hx Hk) as [H1 H2]. split; [auto|]. intros [He|Hi]; [exact (Hne _ H1 He)|auto].
  - intros x nd Hx. destruct (D x nd Hx) as [D1 D2]. destruct (Nat.eqb_spec x (mid W n)) as [->|]; auto.
    assert (Hx' : has (mid W n) (memo s) = true) by (apply has_get; eauto). destruct (C _ _ Hx' Hown). congruence.
  - intros k o Hk. rewrite get_set in Hk. destruct (eqb_spec k n) as [->|Hkn]; [injection Hk as <-; auto|eauto].
  - intros k [He|Hi].
    + subst k. rewrite get_set_same. auto.
    + destruct (F k Hi) as [F1 F2]. split; [|auto]. rewrite get_set_other; auto. intros He. apply (Hne k); [apply has_get; eauto|auto].
  - intros x. destruct (Nat.eqb_spec x (mid W n)); auto. split; cbn [attrs seq]; intros d Hd; [injection Hd as <-; apply wf_nil|discriminate].
Qed.
Lemma settled_fail n T s : settled (n :: T) s -> (forall t, In t T -> n <> t) -> settled T (State (heap s) (del n (mods s)) (memo s)).
Proof.
  intros [A B C D E F G] Hn. split; cbn [heap mods memo]; auto.
  - intros x k c Hx Hc. destruct (B x k c Hx Hc) as [H|[H|[k' [H1 [H2 H3]]]]]; auto. right; right. exists k'. split; [auto|].
    split; [|intros Hi; apply H3; right; auto]. apply has_keys, In_keys_del. split; [|apply has_keys; auto]. intros ->. apply H3. left; auto.
  - intros x k Hx Hk. destruct (C x k Hx Hk) as [H1 H2]. split; [|intros Hi; apply H2; right; auto].
    apply has_keys, In_keys_del. split; [|apply has_keys; auto]. intros ->. apply H2. left; auto.
  - intros k o Hk. rewrite get_del in Hk. destruct (eqb k n); [discriminate|eauto].
  - intros k Hi. destruct (F k (or_intror Hi)) as [F1 F2]. split; [|auto]. rewrite get_del_other; auto. intros He. exact (Hn k Hi (eq_sym He)).
Qed.

Lemma load_ok ex n T s s' r : ex_ok ex -> settled T s -> (forall p, In p (packages W n) -> In p T) -> (forall t, In t T -> rank n < rank t) ->
  load W ex n s = Some (s', r) ->
  (r = true -> (has n (mods s) = true /\ s' = s) \/ (has n (mods s) = false /\ settled (n :: T) s')) /\ settled T s' /\ extends (fun k => r = true /\ k = n) s s' /\ (r = true -> has n (mods s') = true).
Proof.
  intros Hex Hs Hp Hr E. unfold load in E. destruct (has n (mods s)) eqn:En.
  { injection E as <- <-. split; [auto|]. split; [auto|]. split; [apply extends_refl|auto]. }
  destruct (body W n) as [b|] eqn:Eb; [|injection E as <- <-; split; [discriminate|]; split; [auto|]; split; [apply extends_refl|discriminate]].
  destruct (ex n b (create W n s)) as [[s1 r1]|] eqn:Ex; [|discriminate].
  destruct (Hex n b T _ _ _ Eb (settled_create n b T s Eb En Hs) Hp Hr Ex) as [H1 [X1 [X2 X3]]].
  assert (Hnk : forall k o, get k (mods s) = Some o -> k <> n) by (intros k o Hk ->; apply Bool.not_true_iff_false in En; apply En, has_get; eauto).
  cbn [create mods memo] in X1, X2, X3.
  destruct r1; injection E as <- <-.
  - split; [auto|]. split; [eapply settled_weaken; eauto|]. split.
    + split; [intros k o Hk; apply X1; rewrite get_set_other; eauto|]. split; [exact X2|]. intros k o Hk. destruct (X3 k o Hk) as [H|[[]|H]]; auto.
      apply has_keys, In_keys_set in H as [H|H]; auto. left. apply has_keys; auto.
    + intros _. apply has_get. exists (mid W n). apply X1, get_set_same.
  - split; [discriminate|]. split.
    + apply settled_fail; auto. intros t Ht <-. specialize (Hr _ Ht). lia.
    + split; [|discriminate]. split; cbn [mods memo].
      * intros k o Hk. rewrite get_del_other by eauto. apply X1. rewrite get_set_other; eauto.
      * split; [exact X2|]. intros k o Hk. rewrite get_del in Hk. destruct (eqb_spec k n) as [|Hkn]; [discriminate|].
        destruct (X3 k o Hk) as [H|[[]|H]]; auto. apply has_keys, In_keys_set in H as [H|H]; [congruence|]. left. apply has_keys; auto.
Qed.

Lemma memorise_all_ok T : forall names s s', settled T s -> (forall k, In k names -> ~ In k T) -> memorise_all W names s = Some s' ->
  settled T s' /\ heap s' = heap s /\ mods s' = mods s /\ (forall x, has x (memo s) = true -> has x (memo s') = true) /\
  (forall k o, In k names -> get k (mods s) = Some o -> dont W o = true \/ has o (memo s') = true).
Proof.
  induction names as [|k names IH]; intros s s' Hs Hk E; cbn [memorise_all] in E.
  { injection E as <-. split; [auto|]. split; [auto|]. split; [auto|]. split; [auto|]. intros k0 o []. }
  destruct (get k (mods s)) as [o|] eqn:Eo; [|discriminate].
  destruct (memorise (deep W) (heap s) (dont W) false (memo s) o) as [m|] eqn:Em; [|discriminate].
  assert (H1 : settled T (State (heap s) (mods s) m)).
  { destruct Hs as [A B C D E1 F G]. split; cbn [heap mods memo]; auto.
    - intros x k0 Hx Hk0. destruct (memorise_reach _ _ _ _ _ _ _ Em Hx) as [H|H]; eauto.
      assert (Hgood : forall y, reach (heap s) (dont W) o y -> own y = None \/ exists k', own y = Some k' /\ has k' (mods s) = true /\ ~ In k' T).
      { intros y Hy. induction Hy as [|y z Hy IHy Hd Hz].
        - destruct (E1 k o Eo) as [H'|H']; auto. right. exists k. split; [auto|]. split; [apply has_get; eauto|]. apply Hk. left; auto.
        - destruct IHy as [H'|[k' [H1 [H2 H3]]]]; [left; eauto|]. destruct (B y k' z H1 Hz) as [?|[?|?]]; auto. right. eauto. }
      destruct (Hgood x H) as [H'|[k' [H' H'']]]; [congruence|]. rewrite H' in Hk0. injection Hk0 as <-. auto.
    - destruct (memorise_snapshot _ _ _ _ _ _ Em D) as [H _]. auto. }
  destruct (memorise_snapshot _ _ _ _ _ _ Em (st_snap _ _ _ _ Hs)) as [_ [M1 M2]].
  destruct (IH _ _ H1 (fun k0 Hk0 => Hk k0 (or_intror Hk0)) E) as [R1 [R2 [R3 [R4 R5]]]]. cbn [heap mods memo] in *.
  split; [auto|]. split; [auto|]. split; [auto|]. split; [auto|]. intros k0 o0 [He|Hi] Ho; [|eauto]. subst k0.
  rewrite Eo in Ho. injection Ho as <-. destruct M1; auto.
Qed.

(** packages that are being imported are found in sys.modules *)
Lemma load_path_loaded ex n : forall pre parent s, (forall p, In p pre -> has p (mods s) = true) ->
  exists parent', (match pre with [] => parent' = parent | _ => exists p, parent' = Some p /\ In p pre end) /\
  load_path W ex parent (pre ++ [n]) s = load_path W ex parent' [n] s.
Proof.
  induction pre as [|p pre IH]; intros parent s Hp; [exists parent; auto|]. cbn [app]. change (load_path W ex parent (p :: pre ++ [n]) s) with
    (match load W ex p s with None => None | Some (s', false) => Some (s', false)
       | Some (s', true) => load_path W ex (Some p) (pre ++ [n]) (bind_in W parent (negb (has p (mods s))) p s') end).
  assert (El : load W ex p s = Some (s, true)) by (unfold load; rewrite (Hp p (or_introl eq_refl)); auto).
  rewrite El, (Hp p (or_introl eq_refl)). cbn [negb].
  assert (Eb : bind_in W parent false p s = s) by (destruct parent; auto). rewrite Eb.
  destruct (IH (Some p) s (fun q Hq => Hp q (or_intror Hq))) as [par [Hpar E]]. exists par. split; [|auto].
  destruct pre as [|q pre]; [exists p; split; [auto|left; auto]|]. destruct Hpar as [r [Hr Hi]]. exists r. split; [auto|right; auto].
Qed.

Lemma bind_in_ok par T n s1 : settled T s1 -> (match par with None => True | Some p => In p T end) -> ~ In n T -> settled T (bind_in W par true n s1).
Proof.
  intros Hs Hp Hn. unfold bind_in. destruct par as [p|]; auto. destruct (get p (mods s1)) as [po|] eqn:Ep; auto. destruct (get n (mods s1)) as [no|] eqn:Eno; auto.
  destruct (st_open _ _ _ _ Hs p Hp) as [O1 O2]. assert (po = mid W p) by congruence. subst po. eapply settled_write; eauto.
  destruct (st_mods _ _ _ _ Hs n no Eno) as [H|H]; auto. right; right. exists n. split; [auto|]. split; [apply has_get; eauto|auto].
Qed.
Lemma bind_in_mods par f n s1 : mods (bind_in W par f n s1) = mods s1 /\ memo (bind_in W par f n s1) = memo s1.
Proof. unfold bind_in. destruct par, f; auto. destruct (get s (mods s1)), (get n (mods s1)); auto. Qed.

(** one call of the hook while the modules [T] are being imported *)
Lemma imp_ok ex n T s s' r : ex_ok ex -> settled T s -> (forall p, In p (packages W n) -> In p T) -> (forall t, In t T -> rank n < rank t) ->
  imp W ex n s = Some (s', r) -> settled T s' /\ extends nobody s s' /\ (r = true -> has n (mods s') = true).
Proof.
  intros Hex Hs Hp Hr E. unfold imp in E.
  destruct (load_path_loaded ex n (packages W n) None s) as [par [Hpar Epath]].
  { intros p Hi. apply has_get. exists (mid W p). apply (st_open _ _ _ _ Hs), Hp; auto. }
  rewrite Epath in E. cbn [load_path] in E. destruct (load W ex n s) as [[s1 r1]|] eqn:El; [|discriminate].
  destruct (load_ok ex n T s s1 r1 Hex Hs Hp Hr El) as [L0 [L1 [[L2 [L3 L4]] L5]]].
  assert (HnT : ~ In n T) by (intros Hi; specialize (Hr _ Hi); lia).
  destruct r1.
  - set (s2 := bind_in W par (negb (has n (mods s))) n s1) in *.
    assert (Hs2 : settled T s2).
    { unfold s2. destruct (has n (mods s)); cbn [negb]; [destruct par; auto|]. apply bind_in_ok; auto. destruct (packages W n) as [|q l]; [subst par; auto|].
      destruct Hpar as [p [-> Hi]]. auto. }
    assert (Em2 : mods s2 = mods s1 /\ memo s2 = memo s1) by apply bind_in_mods. destruct Em2 as [Em2 Eo2].
    destruct (memorise_all W (order W (filter (fun k => negb (memb k (keys (mods s)))) (keys (mods s2)))) s2) as [s3|] eqn:Ea; [|discriminate].
    injection E as <- <-. assert (Hnew : forall k, In k (order W (filter (fun k => negb (memb k (keys (mods s)))) (keys (mods s2)))) -> ~ In k T).
    { intros k Hk Hi. apply (proj2 HO), filter_In in Hk as [_ Hk]. apply negb_true_iff, memb_nIn in Hk. apply Hk.
      destruct (st_open _ _ _ _ Hs k Hi) as [O1 _]. eapply get_Some_keys; eauto. }
    destruct (memorise_all_ok T _ _ _ Hs2 Hnew Ea) as [R1 [R2 [R3 [R4 R5]]]].
    split; [auto|]. rewrite R3, Em2. split; [|intros _; auto]. rewrite Em2, Eo2 in *. split; [rewrite R3; auto|]. split; [auto|]. intros k o Hk. rewrite R3 in Hk.
    destruct (has k (mods s)) eqn:Ek; auto. right; right. apply (R5 k o); auto. apply (proj2 HO), filter_In. split.
    + eapply get_Some_keys; eauto.
    + apply negb_true_iff, memb_nIn. intros Hi. apply has_keys in Hi. congruence.
  - injection E as <- <-. split; [auto|]. split; [|discriminate]. split; [auto|]. split; [auto|]. intros k o Hk. destruct (L4 k o Hk) as [?|[[? _]|?]]; auto. discriminate.
Qed.

Lemma block_ok ex : ex_ok ex -> forall b n T s s' r, Forall (in_order W own rank n) b -> own (mid W n) = Some n -> settled (n :: T) s ->
  (forall p, In p (packages W n) -> In p T) -> (forall t, In t T -> rank n < rank t) ->
  block W ex n b s = Some (s', r) -> settled (n :: T) s' /\ extends nobody s s'.
Proof.
  intros Hex. induction b as [|i b IH]; intros n T s s' r Hb Hown Hs Hp Hr E; [injection E as <- <-; split; [auto|apply extends_refl]|].
  inversion Hb as [|i' b' Hi Hb' Heq]; subst i' b'. cbn [block] in E.
  assert (Hget : forall s0 o a v, settled (n :: T) s0 -> get_attr (heap s0) o a = Some v -> In v (children (heap s0 o))).
  { intros s0 o a v _ Hg. unfold get_attr in Hg. destruct (attrs (heap s0 o)) as [d|] eqn:Ed; [|discriminate]. unfold children. rewrite Ed. apply in_app_iff. left.
    cbn [attr_children]. apply in_map_iff. exists (a, v). split; [auto|]. apply get_In; auto. }
  assert (Himp : forall m s1 r1, rank m < rank n -> (forall p, In p (packages W m) -> p = n \/ In p (packages W n)) -> imp W ex m s = Some (s1, r1) ->
                 settled (n :: T) s1 /\ extends nobody s s1 /\ (r1 = true -> has m (mods s1) = true) /\ ~ In m (n :: T)).
  { intros m s1 r1 Hm Hpk Ei. assert (Hrm : forall t, In t (n :: T) -> rank m < rank t) by (intros t [<-|Ht]; [auto|specialize (Hr t Ht); lia]).
    destruct (imp_ok ex m (n :: T) s s1 r1 Hex Hs) with (3 := Ei) as [I1 [I2 I3]]; auto.
    { intros p Hi'. destruct (Hpk p Hi') as [->|H]; [left|right]; auto. }
    split; [auto|]. split; [auto|]. split; [auto|]. intros Hi'. specialize (Hrm m Hi'). lia. }
  destruct i as [k o|o a k|m k|m a k|m|]; cbn [in_order] in Hi.
  - edestruct (IH n T) as [R1 R2]; [exact Hb'|exact Hown| |exact Hp|exact Hr|exact E| ].
    + eapply settled_write; [left; reflexivity|auto|auto|]. tauto.
    + split; [auto|]. eapply extends_trans; [apply extends_heap|exact R2].
  - destruct (get_attr (heap s) (mid W n) k) as [v|] eqn:Ev; [|injection E as <- <-; split; [auto|apply extends_refl]].
    edestruct (IH n T) as [R1 R2]; [exact Hb'|exact Hown| |exact Hp|exact Hr|exact E| ].
    + eapply settled_write; [left; reflexivity|auto|auto|]. apply (st_some _ _ _ _ Hs (mid W n) n v Hown). eapply Hget; eauto.
    + split; [auto|]. eapply extends_trans; [apply extends_heap|exact R2].
  - destruct Hi as [Hi1 Hi2]. destruct (imp W ex m s) as [[s1 r1]|] eqn:Ei; [|discriminate]. destruct (Himp m s1 r1 Hi1 Hi2 Ei) as [I1 [I2 [I3 I4]]].
    destruct r1; [|injection E as <- <-; auto]. destruct (get m (mods s1)) as [o|] eqn:Eo; [|injection E as <- <-; auto].
    edestruct (IH n T) as [R1 R2]; [exact Hb'|exact Hown| |exact Hp|exact Hr|exact E| ].
    + eapply settled_write; [left; reflexivity|auto|auto|]. destruct (st_mods _ _ _ _ I1 m o Eo) as [H|H]; auto. right; right. exists m. split; [auto|split; auto].
    + split; [auto|]. eapply extends_trans; [exact I2|]. eapply extends_trans; [apply extends_heap|exact R2].
  - destruct Hi as [Hi1 Hi2]. destruct (imp W ex m s) as [[s1 r1]|] eqn:Ei; [|discriminate]. destruct (Himp m s1 r1 Hi1 Hi2 Ei) as [I1 [I2 [I3 I4]]].
    destruct r1; [|injection E as <- <-; auto]. destruct (get m (mods s1)) as [o|] eqn:Eo; [|injection E as <- <-; auto].
    destruct (get_attr (heap s1) o a) as [v|] eqn:Ev; [|injection E as <- <-; auto].
    edestruct (IH n T) as [R1 R2]; [exact Hb'|exact Hown| |exact Hp|exact Hr|exact E| ].
    + eapply settled_write; [left; reflexivity|auto|auto|]. pose proof (Hget s1 o a v I1 Ev) as Hc. destruct (st_mods _ _ _ _ I1 m o Eo) as [H|H].
      * left. eapply (st_none _ _ _ _ I1); eauto.
      * destruct (st_some _ _ _ _ I1 o m v H Hc) as [?|[?|?]]; auto. right; right. exists m. split; [auto|split; auto].
    + split; [auto|]. eapply extends_trans; [exact I2|]. eapply extends_trans; [apply extends_heap|exact R2].
  - destruct Hi as [Hi1 Hi2]. destruct (imp W ex m s) as [[s1 r1]|] eqn:Ei; [|discriminate]. destruct (Himp m s1 r1 Hi1 Hi2 Ei) as [I1 [I2 _]].
    destruct (IH n T s1 s' r Hb' Hown I1 Hp Hr E) as [R1 R2]. split; [auto|]. eapply extends_trans; eauto.
  - injection E as <- <-. split; [auto|apply extends_refl].
Qed.
Lemma exec_ok fuel : ex_ok (exec fuel W).
Proof.
  induction fuel as [|fuel IH]; intros n b T s s' r Hb Hs Hp Hr E; [discriminate|]. cbn [exec] in E.
  destruct (proj1 HO n b Hb) as [Hown Hall]. eapply block_ok; eauto.
Qed.
End Order.

(** ** C96 *)
(** every module an import brought in is recorded, whatever the program does *)
Theorem C96_covered fuel W n s s' : (forall l k, In k (order W l) <-> In k l) -> user_import fuel W n s = Some (s', true) ->
  forall k o, get k (mods s') = Some o -> has k (mods s) = false -> dont W o = true \/ has o (memo s') = true.
Proof.
  intros HP E. unfold user_import, imp in E. destruct (load_path W (exec fuel W) None (packages W n ++ [n]) s) as [[s1 [|]]|]; try discriminate.
  destruct (memorise_all W _ s1) as [s2|] eqn:Ea; [|discriminate]. injection E as <-.
  assert (K : forall names s s', memorise_all W names s = Some s' -> mods s' = mods s /\ (forall x, has x (memo s) = true -> has x (memo s') = true) /\
              forall k o, In k names -> get k (mods s) = Some o -> dont W o = true \/ has o (memo s') = true).
  { clear. induction names as [|k names IH]; intros s s' E; cbn [memorise_all] in E; [injection E as <-; split; [auto|split; [auto|intros k o []]]|].
    destruct (get k (mods s)) as [o|] eqn:Eo; [|discriminate]. destruct (memorise (deep W) (heap s) (dont W) false (memo s) o) as [m|] eqn:Em; [|discriminate].
    destruct (IH _ _ E) as [I1 [I2 I3]]. cbn [mods memo] in *. split; [auto|].
    assert (M : (forall x, has x (memo s) = true -> has x m = true) /\ (dont W o = true \/ has o m = true)).
    { split.
      - intros x Hx. apply has_get in Hx as [nd Hx]. apply has_get. exists nd. eapply memorise_keeps; eauto.
      - destruct (deep W) as [|d]; [discriminate|]. cbn [memorise negb] in Em. rewrite andb_true_r in Em. destruct (has o (memo s) || dont W o) eqn:Eg.
        + injection Em as <-. apply orb_true_iff in Eg. tauto.
        + right. apply has_get. exists (heap s o). assert (G : get o (set o (heap s o) (memo s)) = Some (heap s o)) by apply get_set_same. revert Em G.
          generalize (set o (heap s o) (memo s)). generalize (children (heap s o)). induction l as [|c l IHl]; intros d0 Ed Hd; cbn [fold_opt] in Ed; [injection Ed as <-; auto|].
          destruct (memorise d (heap s) (dont W) false d0 c) as [d1|] eqn:E1; [|discriminate]. apply (IHl d1); auto. eapply memorise_keeps; eauto. }
    destruct M as [M1 M2]. split; [auto|]. intros k0 o0 [He|Hi] Ho; [|eauto]. subst k0. rewrite Eo in Ho. injection Ho as <-. destruct M2; auto. }
  destruct (K _ _ _ Ea) as [K1 [K2 K3]]. intros k o Hk Hn. rewrite K1 in Hk. apply (K3 k o); auto. apply HP, filter_In. split; [eapply get_Some_keys; eauto|].
  apply negb_true_iff, memb_nIn. intros Hi. apply has_keys in Hi. congruence.
Qed.

(** the module is top-level, or directly in a package that is not imported yet *)
Definition plain (W : world) (rank : string -> nat) (s : state) (n : string) : Prop :=
  packages W n = [] \/ exists p, packages W n = [p] /\ packages W p = [] /\ has p (mods s) = false /\ rank n < rank p.

Lemma user_import_settled fuel W own rank n s s' r : orderly W own rank -> settled W own [] s -> plain W rank s n ->
  user_import fuel W n s = Some (s', r) -> settled W own [] s'.
Proof.
  intros HO Hs [Hp|[p [Hp [Hpp [Hf Hr]]]]] E.
  - destruct (imp_ok W own rank HO _ n [] s s' r (exec_ok W own rank HO fuel) Hs) as [H _]; auto; [rewrite Hp; intros p []|intros t []].
  - unfold user_import, imp in E. rewrite Hp in E. cbn [app] in E.
    change (load_path W (exec fuel W) None [p; n] s) with
      (match load W (exec fuel W) p s with None => None | Some (s1, false) => Some (s1, false)
       | Some (s1, true) => load_path W (exec fuel W) (Some p) [n] (bind_in W None (negb (has p (mods s))) p s1) end) in E.
    destruct (load W (exec fuel W) p s) as [[s1 r1]|] eqn:E1; [|discriminate].
    destruct (load_ok W own rank HO _ p [] s s1 r1 (exec_ok W own rank HO fuel) Hs) with (3 := E1) as [L0 [L1 _]]; [rewrite Hpp; intros q []|intros t []|].
    destruct r1; [|injection E as <- <-; auto]. destruct (L0 eq_refl) as [[Hc _]|[_ L2]]; [congruence|]. change (bind_in W None (negb (has p (mods s))) p s1) with s1 in E. cbn [load_path] in E.
    destruct (load W (exec fuel W) n s1) as [[s2 r2]|] eqn:E2; [|discriminate].
    assert (HpT : forall q, In q (packages W n) -> In q [p]) by (rewrite Hp; auto).
    assert (HrT : forall t, In t [p] -> rank n < rank t) by (intros t [<-|[]]; auto).
    destruct (load_ok W own rank HO _ n [p] s1 s2 r2 (exec_ok W own rank HO fuel) L2 HpT HrT E2) as [M0 [M1 _]].
    destruct r2; [|injection E as <- <-; eapply settled_weaken; eauto].
    set (s3 := bind_in W (Some p) (negb (has n (mods s1))) n s2) in *.
    assert (Hs3 : settled W own [p] s3).
    { unfold s3. destruct (has n (mods s1)); cbn [negb]; [auto|]. apply bind_in_ok; auto; [left; auto|]. intros [He|[]]. subst. lia. }
    destruct (memorise_all W _ s3) as [s4|] eqn:Ea; [|discriminate]. injection E as <- <-. apply settled_weaken in Hs3.
    destruct (memorise_all_ok W own [] _ _ _ Hs3 (fun _ _ H => H) Ea) as [R _]; auto.
Qed.

(** C96.  In a program whose imports do not go round in circles, if the records were current before the import, they are
    current after it -- also if the import raised -- and has_changed(x) of any recorded object x, in particular of any
    module the import brought in ([C96_covered]), is true from then on exactly if something reachable from it has been
    changed after the import. *)
Theorem C96_partial fuel W own rank n s s' r : orderly W own rank -> settled W own [] s -> plain W rank s n ->
  user_import fuel W n s = Some (s', r) ->
  forall o, has o (memo s') = true ->
  forall H1 fc b, (forall x, wf_node (H1 x)) -> (forall x, same_shape (heap s' x) (H1 x)) -> has_changed fc H1 (dont W) (memo s') o = Some b ->
  (b = true <-> exists y, reach (heap s') (dont W) o y /\ dont W y = false /\ differs (heap s' y) (H1 y)).
Proof.
  intros HO Hs Hp E o Ho H1 fc b Hw Hsh Hb. pose proof (user_import_settled _ _ _ _ _ _ _ _ HO Hs Hp E) as [A B C D F G K].
  assert (Em : memorise 1 (heap s') (dont W) false (memo s') o = Some (memo s')) by (cbn [memorise]; rewrite Ho; auto).
  exact (C47_exact_partial (heap s') H1 (dont W) (memo s') (memo s') o 1 fc b K Hw Hsh D Em Hb).
Qed.
(** ... and the next import can be handled likewise *)
Theorem C96_next fuel W own rank n s s' r : orderly W own rank -> settled W own [] s -> plain W rank s n ->
  user_import fuel W n s = Some (s', r) -> settled W own [] s'.
Proof. apply user_import_settled. Qed.

(** an undotted import that raises: the modules it leaves behind in sys.modules are recorded all the same *)
Theorem C96_raised_partial fuel W own rank n s s' r : orderly W own rank -> settled W own [] s -> packages W n = [] ->
  user_import fuel W n s = Some (s', r) -> forall k o, get k (mods s') = Some o -> has k (mods s) = false -> dont W o = true \/ has o (memo s') = true.
Proof.
  intros HO Hs Hp E k o Hk Hn. destruct (imp_ok W own rank HO _ n [] s s' r (exec_ok W own rank HO fuel) Hs) with (3 := E) as [_ [[_ [_ X]] _]]; [rewrite Hp; intros p []|intros t []|].
  destruct (X k o Hk) as [H|[[]|H]]; [congruence|auto].
Qed.

(** ** A program: a package "pkg" with a submodule, "lib" that fails, "low" *)
Local Open Scope string_scope.
Definition demo_body (n : string) : option (list stmt) :=
  if String.eqb n "pkg" then Some [New "table" 11; Import "pkg.sub" "sub"; Put 11 "first" "sub"; Try "lib"; New "done" 5]
  else if String.eqb n "pkg.sub" then Some [From "low" "thing" "t"; New "obj" 21; Put 21 "x" "t"]
  else if String.eqb n "lib" then Some [Import "low2" "l"; Raise]
  else if String.eqb n "low" then Some [New "thing" 31]
  else if String.eqb n "low2" then Some []
  else None.
Definition demo_mid (n : string) : nat :=
  if String.eqb n "pkg" then 10 else if String.eqb n "pkg.sub" then 20 else if String.eqb n "low" then 30 else if String.eqb n "low2" then 40 else if String.eqb n "lib" then 50 else 60.
Definition demo_own (x : nat) : option string :=
  if memb x [10; 11] then Some "pkg" else if memb x [20; 21] then Some "pkg.sub" else if memb x [30; 31] then Some "low" else if memb x [40] then Some "low2"
  else if memb x [50] then Some "lib" else None.
Definition demo_rank (n : string) : nat :=
  if String.eqb n "pkg" then 3 else if String.eqb n "pkg.sub" then 2 else if String.eqb n "lib" then 2 else 1.
Definition demo (bd : string -> option (list stmt)) : world :=
  World bd demo_mid (fun n => if String.eqb n "pkg.sub" then ["pkg"] else []) (fun n => if String.eqb n "pkg.sub" then "sub" else n) (@rev string) (fun x => Nat.eqb x 7) 50.
Definition blank (x : nat) : node := Node (Some []) None 0.
Definition at_start : state := State blank [("sys", 1)] [].

Lemma demo_settled bd : settled (demo bd) demo_own [] at_start.
Proof.
  split; cbn [heap mods memo at_start blank].
  - intros x c _ [].
  - intros x k c _ [].
  - intros x k Hx. discriminate.
  - apply snapshot_nil.
  - intros k o Hk. left. cbn [get] in Hk. destruct (eqb k "sys"); [|discriminate]. injection Hk as <-. reflexivity.
  - intros k [].
  - intros x. split; cbn [attrs seq blank]; intros d Hd; [injection Hd as <-; apply wf_nil|discriminate].
Qed.
Example C96_case_hyps : orderly (demo demo_body) demo_own demo_rank /\ settled (demo demo_body) demo_own [] at_start /\
  plain (demo demo_body) demo_rank at_start "pkg" /\ plain (demo demo_body) demo_rank at_start "pkg.sub".
Proof.
  split; [|split; [apply demo_settled|split; [left; reflexivity|right; exists "pkg"; repeat split; vm_compute; auto]]]. split.
  - intros n b Hb. cbn [body demo] in Hb. unfold demo_body in Hb.
    destruct (String.eqb_spec n "pkg") as [->|_]; [injection Hb as <-; split; [reflexivity|]|
    destruct (String.eqb_spec n "pkg.sub") as [->|_]; [injection Hb as <-; split; [reflexivity|]|
    destruct (String.eqb_spec n "lib") as [->|_]; [injection Hb as <-; split; [reflexivity|]|
    destruct (String.eqb_spec n "low") as [->|_]; [injection Hb as <-; split; [reflexivity|]|
    destruct (String.eqb_spec n "low2") as [->|_]; [injection Hb as <-; split; [reflexivity|]|discriminate]]]]].
    all: repeat (apply Forall_cons || apply Forall_nil); vm_compute; auto; split; auto; try tauto. intros p [<-|[]]. auto.
  - intros l k. cbn [order demo]. symmetry. apply in_rev.
Qed.
(** "pkg" and its submodule are complete in the records, "lib" is gone and "low2", which it imported, is recorded too *)
Example C96_case : exists s', user_import 9 (demo demo_body) "pkg" at_start = Some (s', true) /\
  keys (mods s') = ["sys"; "pkg"; "pkg.sub"; "low"; "low2"] /\ option_map attrs (get 10 (memo s')) = Some (Some [("table", 11); ("sub", 20); ("done", 5)]) /\
  has 40 (memo s') = true /\ has_changed 9 (heap s') (fun x => Nat.eqb x 7) (memo s') 10 = Some false /\
  has_changed 9 (set_attr (heap s') 31 "x" 5) (fun x => Nat.eqb x 7) (memo s') 10 = Some true.
Proof.
  destruct (user_import 9 (demo demo_body) "pkg" at_start) as [[s' r]|] eqn:E; [|vm_compute in E; discriminate].
  vm_compute in E. injection E as <- <-. eexists. split; [reflexivity|]. vm_compute. auto.
Qed.

(** ** C96 as stated is false *)
(** modules that import each other: "pkg" is recorded half-way, when "pkg.sub" is, and is "changed" as soon as it is imported *)
Definition ring_body (n : string) : option (list stmt) :=
  if String.eqb n "pkg" then Some [New "table" 11; Import "pkg.sub" "sub"; New "done" 5]
  else if String.eqb n "pkg.sub" then Some [Import "pkg" "up"] else None.
Theorem C96_circular_refuted : exists s', user_import 9 (demo ring_body) "pkg" at_start = Some (s', true) /\
  get 10 (memo s') <> Some (heap s' 10) /\ has_changed 9 (heap s') (fun x => Nat.eqb x 7) (memo s') 10 = Some true.
Proof.
  destruct (user_import 9 (demo ring_body) "pkg" at_start) as [[s' r]|] eqn:E; [|vm_compute in E; discriminate].
  vm_compute in E. injection E as <- <-. eexists. split; [reflexivity|]. vm_compute. split; [discriminate|auto].
Qed.
(** import pkg.sub, where pkg.sub raises: pkg stays in sys.modules, is not recorded, and no later import records it *)
Definition broken_body (n : string) : option (list stmt) :=
  if String.eqb n "pkg" then Some [New "table" 11] else if String.eqb n "pkg.sub" then Some [Raise] else None.
Theorem C96_raised_refuted : exists s' s2, user_import 9 (demo broken_body) "pkg.sub" at_start = Some (s', false) /\
  user_import 9 (demo broken_body) "pkg" s' = Some (s2, true) /\ get "pkg" (mods s2) = Some 10 /\ has 10 (memo s2) = false /\
  has_changed 9 (heap s2) (fun x => Nat.eqb x 7) (memo s2) 10 = Some true.
Proof.
  destruct (user_import 9 (demo broken_body) "pkg.sub" at_start) as [[s' r]|] eqn:E; [|vm_compute in E; discriminate].
  destruct (user_import 9 (demo broken_body) "pkg" s') as [[s2 r2]|] eqn:E2; [|vm_compute in E; injection E as <- <-; vm_compute in E2; discriminate].
  vm_compute in E. injection E as <- <-. vm_compute in E2. injection E2 as <- <-. eexists. eexists. split; [reflexivity|]. split; [reflexivity|]. vm_compute. auto.
Qed.
(** importing a submodule of a package that is recorded already changes the package *)
Definition late_body (n : string) : option (list stmt) :=
  if String.eqb n "pkg" then Some [New "table" 11] else if String.eqb n "pkg.sub" then Some [] else None.
Theorem C96_submodule_refuted : exists s1 s2, user_import 9 (demo late_body) "pkg" at_start = Some (s1, true) /\
  has_changed 9 (heap s1) (fun x => Nat.eqb x 7) (memo s1) 10 = Some false /\
  user_import 9 (demo late_body) "pkg.sub" s1 = Some (s2, true) /\ has_changed 9 (heap s2) (fun x => Nat.eqb x 7) (memo s2) 10 = Some true.
Proof.
  destruct (user_import 9 (demo late_body) "pkg" at_start) as [[s1 r]|] eqn:E; [|vm_compute in E; discriminate].
  destruct (user_import 9 (demo late_body) "pkg.sub" s1) as [[s2 r2]|] eqn:E2; [|vm_compute in E; injection E as <- <-; vm_compute in E2; discriminate].
  vm_compute in E. injection E as <- <-. vm_compute in E2. injection E2 as <- <-. eexists. eexists. split; [reflexivity|]. split; [vm_compute; reflexivity|]. split; [reflexivity|]. vm_compute. auto.
Qed.

(** ** C97: importing dill.diff, release_gone *)
(** release_gone never drops an object the program still holds *)
Theorem C97_keeps_held elsewhere m x n : get x m = Some n -> get x (release_gone (cpython_src elsewhere) m) = Some n.
Proof.
  intros H. unfold release_gone. assert (E : filter (fun p : nat * node => negb (Nat.ltb (cpython_src elsewhere (fst p)) 4)) m = m); [|congruence].
  clear H. induction m as [|p m IH]; cbn [filter]; auto. assert (Nat.ltb (cpython_src elsewhere (fst p)) 4 = false) by (apply Nat.ltb_ge; unfold cpython_src; lia).
  rewrite H. cbn [negb]. congruence.
Qed.
(** C97 as stated is false: it drops none of those the program has let go of either -- and on an interpreter without
    reference counts it drops everything *)
Theorem C97_gone_refuted elsewhere m x : elsewhere x = 0 -> has x m = true -> has x (release_gone (cpython_src elsewhere) m) = true.
Proof. intros _ H. apply has_get in H as [n H]. apply has_get. exists n. apply C97_keeps_held; auto. Qed.
Theorem C97_pypy_refuted m : release_gone pypy_src m = [].
Proof. unfold release_gone. induction m as [|p m IH]; cbn [filter]; auto. Qed.

(** after import dill.diff the module-level records are current and complete: has_changed(module) is true exactly if something
    reachable from it has been changed since *)
Theorem C97_startup_partial W elsewhere bn s bn' s' : (forall x, wf_node (heap s x)) -> wf (mods s) -> snapshot (heap s) (dont W) (memo s) ->
  startup W (cpython_src elsewhere) bn s = Some (bn', s') ->
  get "_" bn' = None /\ (forall k, k <> "_" -> get k bn' = get k bn) /\ heap s' = heap s /\ mods s' = mods s /\
  forall k o, get k (mods s) = Some o -> dont W o = false -> has o (memo s') = true /\
  forall H1 fc b, (forall x, wf_node (H1 x)) -> (forall x, same_shape (heap s x) (H1 x)) -> has_changed fc H1 (dont W) (memo s') o = Some b ->
  (b = true <-> exists y, reach (heap s) (dont W) o y /\ dont W y = false /\ differs (heap s y) (H1 y)).
Proof.
  intros Hw Hm Hsn E. unfold startup in E. destruct (memorise_all W (keys (mods s)) s) as [s1|] eqn:Ea; [|discriminate]. injection E as <- <-.
  split; [apply get_del_same|]. split; [intros k Hk; apply get_del_other; auto|]. cbn [heap mods memo].
  assert (K : forall names s s', memorise_all W names s = Some s' -> snapshot (heap s) (dont W) (memo s) -> heap s' = heap s /\ mods s' = mods s /\
              snapshot (heap s) (dont W) (memo s') /\ (forall x, has x (memo s) = true -> has x (memo s') = true) /\
              forall k o, In k names -> get k (mods s) = Some o -> dont W o = true \/ has o (memo s') = true).
  { clear. induction names as [|k names IH]; intros s s' E Hs; cbn [memorise_all] in E.
    { injection E as <-. split; [auto|]. split; [auto|]. split; [auto|]. split; [auto|]. intros k o []. }
    destruct (get k (mods s)) as [o|] eqn:Eo; [|discriminate]. destruct (memorise (deep W) (heap s) (dont W) false (memo s) o) as [m|] eqn:Em; [|discriminate].
    destruct (memorise_snapshot _ _ _ _ _ _ Em Hs) as [M1 [M2 M3]]. destruct (IH _ _ E M1) as [I1 [I2 [I3 [I4 I5]]]]. cbn [heap mods memo] in *.
    split; [auto|]. split; [auto|]. split; [auto|]. split; [auto|]. intros k0 o0 [He|Hi] Ho; [|eauto]. subst k0. rewrite Eo in Ho. injection Ho as <-. destruct M2; auto. }
  destruct (K _ _ _ Ea Hsn) as [K1 [K2 [K3 [K4 K5]]]]. split; [auto|]. split; [auto|]. intros k o Hk Hd.
  assert (Er : release_gone (cpython_src elsewhere) (memo s1) = memo s1).
  { unfold release_gone. clear. induction (memo s1) as [|p m IH]; cbn [filter]; auto. assert (H : Nat.ltb (cpython_src elsewhere (fst p)) 4 = false) by (apply Nat.ltb_ge; unfold cpython_src; lia).
    rewrite H. cbn [negb]. congruence. }
  rewrite Er. assert (Ho : has o (memo s1) = true) by (destruct (K5 k o (get_Some_keys _ _ _ Hk) Hk); [congruence|auto]). split; [auto|].
  intros H1 fc b Hw1 Hsh Hb.
  assert (Em : memorise 1 (heap s) (dont W) false (memo s1) o = Some (memo s1)) by (cbn [memorise]; rewrite Ho; auto).
  exact (C47_exact_partial (heap s) H1 (dont W) (memo s1) (memo s1) o 1 fc b Hw Hw1 Hsh K3 Em Hb).
Qed.
(** importing dill.diff takes builtins._ away from the program, gettext's too *)
Theorem C97_underscore_refuted : exists s', startup (demo late_body) (cpython_src (fun _ => 0)) [("_", 99); ("len", 98)] at_start = Some ([("len", 98)], s').
Proof. eexists. vm_compute. reflexivity. Qed.
Example C97_case : exists s', startup (demo late_body) (cpython_src (fun _ => 0)) [("_", 99)] at_start = Some ([], s') /\ has 1 (memo s') = true /\ snapshot (heap at_start) (dont (demo late_body)) (memo at_start).
Proof. eexists. split; [vm_compute; reflexivity|]. split; [vm_compute; reflexivity|apply snapshot_nil]. Qed.
