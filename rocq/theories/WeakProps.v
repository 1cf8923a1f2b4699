(** C53 on WeakModel, from the round-trip theorem of the core. *)
From Coq Require Import String List Bool Arith ZArith Lia.
From Verif Require Import PyDict CoreModel CoreSpec CoreSim CoreProps WeakModel.
Import ListNotations.
Local Open Scope string_scope.
Local Open Scope list_scope.

Lemma F2_length {A B} (P : A -> B -> Prop) l l' : Forall2 P l l' -> length l = length l'.
Proof. induction 1; cbn; auto. Qed.

Section Strong.
Context (R G : nat -> nat -> Prop) (H : nat -> option obj) (h : list obj).
Hypothesis HW : heap_wf H.
Hypothesis RO : forall o a, R o a -> exists b b', H o = Some b /\ nth_error h a = Some b' /\ obj_rel R H (G o) (fun a b => nth_error h a = Some b) b b'.

(** two lists of values refer to corresponding objects *)
Definition refs_rel (l l' : list val) : Prop :=
  (forall o, In (VR o) l -> exists a, R o a /\ In (VR a) l') /\ (forall a, In (VR a) l' -> exists o, R o a /\ In (VR o) l).
Lemma refs_nil : refs_rel [] []. Proof. split; intros ? []. Qed.
Lemma refs_app l1 l1' l2 l2' : refs_rel l1 l1' -> refs_rel l2 l2' -> refs_rel (l1 ++ l2) (l1' ++ l2').
Proof.
  intros [A B] [C D]. split; intros x Hx; apply in_app_iff in Hx as [Hx|Hx].
  - destruct (A x Hx) as [a [? ?]]. exists a. rewrite in_app_iff. auto.
  - destruct (C x Hx) as [a [? ?]]. exists a. rewrite in_app_iff. auto.
  - destruct (B x Hx) as [a [? ?]]. exists a. rewrite in_app_iff. auto.
  - destruct (D x Hx) as [a [? ?]]. exists a. rewrite in_app_iff. auto.
Qed.
Lemma refs_val v v' : val_rel R v v' -> refs_rel [v] [v'].
Proof.
  destruct v as [x1 i|o], v' as [x2 j|a]; cbn; try tauto; intros Hv; split; intros x [Hx|[]]; try discriminate; injection Hx as <-; eexists; (split; [exact Hv|left; auto]).
Qed.
Lemma refs_cons v v' l l' : val_rel R v v' -> refs_rel l l' -> refs_rel (v :: l) (v' :: l').
Proof. intros A B. apply (refs_app [v] [v'] l l'); auto. apply refs_val; auto. Qed.
Lemma refs_vals l l' : Forall2 (val_rel R) l l' -> refs_rel l l'.
Proof. induction 1; [apply refs_nil|apply refs_cons; auto]. Qed.
Lemma refs_flat d d' : Forall2 (item_rel R) d d' -> refs_rel (flat d) (flat d').
Proof. induction 1 as [|[k v] [k' v'] d d' [A B] F IH]; [apply refs_nil|]. cbn [flat flat_map fst snd app]. apply refs_cons; auto. apply refs_cons; auto. Qed.
Lemma refs_state st st' : state_rel R st st' -> refs_rel (state_refs st) (state_refs st').
Proof.
  destruct st as [|v|d [s|]], st' as [|v'|d' [s'|]]; cbn; try tauto.
  - intros _. apply refs_nil.
  - apply refs_val.
  - intros [A B]. apply refs_app; apply refs_flat; auto.
  - apply refs_flat.
Qed.

(** the references in a copied globals dictionary are those of the original, and __module__ *)
Lemma flat_in d x : In x (flat d) <-> exists k v, In (k, v) d /\ (x = k \/ x = v).
Proof.
  unfold flat. rewrite in_flat_map. split.
  - intros [[k v] [Hi Hc]]. exists k, v. cbn in Hc. split; auto. destruct Hc as [|[|[]]]; auto.
  - intros [k [v [Hi Hc]]]. exists (k, v). split; auto. cbn. destruct Hc; auto.
Qed.
Lemma setitem_refs d k v o : In (VR o) (flat (setitem d k v)) -> In (VR o) (flat d) \/ VR o = k \/ VR o = v.
Proof.
  induction d as [|[k1 v1] d IH]; cbn [setitem].
  - cbn. intuition.
  - destruct (keyeq k k1); cbn [flat flat_map fst snd app In]; [|intros [?|[?|?]]; auto; destruct IH as [|[|]]; auto].
    intros [?|[?|?]]; auto.
Qed.
Lemma setitem_key d k v o : VR o = k -> In (VR o) (flat (setitem d k v)).
Proof.
  intros <-. induction d as [|[k1 v1] d IH]; cbn [setitem]; [cbn; auto|]. destruct (keyeq (VR o) k1) eqn:E; cbn [flat flat_map fst snd app In]; [|auto].
  destruct k1 as [|o1]; [discriminate|]. cbn in E. apply Nat.eqb_eq in E. subst; auto.
Qed.
Lemma setitem_val d k v : In v (flat (setitem d k v)).
Proof. induction d as [|[k1 v1] d IH]; cbn [setitem]; [cbn; auto|]. destruct (keyeq k k1); cbn [flat flat_map fst snd app In]; auto. Qed.
Lemma setitem_keeps_key d k v k1 v1 o : In (k1, v1) d -> VR o = k1 -> In (VR o) (flat (setitem d k v)).
Proof.
  intros Hi <-. induction d as [|[k2 v2] d IH]; [destruct Hi|]. cbn [setitem]. destruct Hi as [Hi|Hi].
  - injection Hi as -> ->. destruct (keyeq k (VR o)); cbn; auto.
  - destruct (keyeq k k2); cbn [flat flat_map fst snd app In]; [right; right; apply flat_in; exists (VR o), v1; auto|auto].
Qed.
Lemma setitem_keeps_val d k v k1 v1 : In (k1, v1) d -> keyeq k k1 = false -> In (k1, v1) (setitem d k v).
Proof.
  induction d as [|[k2 v2] d IH]; intros Hi Hk; [destruct Hi|]. cbn [setitem]. destruct Hi as [Hi|Hi].
  - injection Hi as -> ->. rewrite Hk. left; auto.
  - destruct (keyeq k k2); [right; auto|right; auto].
Qed.
Lemma setitem_has_key d k v : exists k1, In (k1, v) (setitem d k v) /\ keyeq k k1 = true.
Proof.
  induction d as [|[k2 v2] d IH]; cbn [setitem].
  - exists k. split; [left; auto|]. destruct k; cbn; [destruct (atom_eq_dec a a); congruence|apply Nat.eqb_refl].
  - destruct (keyeq k k2) eqn:E; [exists k2; split; [left|]; auto|]. destruct IH as [k1 [A B]]. exists k1. split; [right|]; auto.
Qed.
Lemma setitems_refs kvs : forall d o, In (VR o) (flat (setitems d kvs)) -> In (VR o) (flat d) \/ In (VR o) (flat kvs).
Proof.
  induction kvs as [|[k v] kvs IH]; intros d o Hi; [auto|]. change (setitems d ((k, v) :: kvs)) with (setitems (setitem d k v) kvs) in Hi.
  cbn [flat flat_map fst snd app In]. fold (flat kvs).
  destruct (IH _ _ Hi) as [Hx|Hx]; [|auto]. destruct (setitem_refs _ _ _ _ Hx) as [|[|]]; auto.
Qed.
Lemma setitems_keeps_pair kvs : forall d k v, In (k, v) d -> (forall k' v', In (k', v') kvs -> keyeq k' k = false) -> In (k, v) (setitems d kvs).
Proof.
  induction kvs as [|[k1 v1] kvs IH]; intros d k v Hi Hk; [auto|]. change (setitems d ((k1, v1) :: kvs)) with (setitems (setitem d k1 v1) kvs).
  apply IH; [apply setitem_keeps_val; auto; apply (Hk k1 v1); left; auto|intros k' v' Hk'; eapply Hk; right; eauto].
Qed.
Lemma setitems_keeps_key kvs : forall d o, (exists v, In (VR o, v) d) -> exists v, In (VR o, v) (setitems d kvs).
Proof.
  induction kvs as [|[k1 v1] kvs IH]; intros d o [v Hi]; [eauto|]. change (setitems d ((k1, v1) :: kvs)) with (setitems (setitem d k1 v1) kvs).
  apply IH. destruct (keyeq k1 (VR o)) eqn:E; [|exists v; apply setitem_keeps_val; auto].
  clear IH. induction d as [|[k2 v2] d IH]; [destruct Hi|]. cbn [setitem]. destruct Hi as [Hi|Hi].
  - injection Hi as -> ->. rewrite E. exists v1. left; auto.
  - destruct (keyeq k1 k2); [exists v; right; auto|]. destruct (IH Hi) as [w Hw]. exists w. right; auto.
Qed.
Lemma setitems_all kvs : forall d o, keys_distinct kvs -> In (VR o) (flat kvs) -> In (VR o) (flat (setitems d kvs)).
Proof.
  induction kvs as [|[k v] kvs IH]; intros d o Hd Hi; [destruct Hi|]. change (setitems d ((k, v) :: kvs)) with (setitems (setitem d k v) kvs).
  destruct Hd as [Hk Hd]. cbn [flat flat_map fst snd app In] in Hi. fold (flat kvs) in Hi. destruct Hi as [Hi|[Hi|Hi]]; auto.
  - assert (Hx : exists w, In (VR o, w) (setitem d k v)).
    { subst k. clear. induction d as [|[k2 v2] d IH]; cbn [setitem]; [exists v; left; auto|]. destruct (keyeq (VR o) k2) eqn:E.
      - destruct k2 as [|o2]; [discriminate|]. cbn in E. apply Nat.eqb_eq in E. subst. exists v. left; auto.
      - destruct IH as [w Hw]. exists w. right; auto. }
    destruct (setitems_keeps_key kvs _ _ Hx) as [w Hw]. apply flat_in. eauto.
  - subst v. destruct (setitem_has_key d k (VR o)) as [k1 [A B]]. apply flat_in. exists k1, (VR o). split; auto.
    apply setitems_keeps_pair; auto. intros k' v' Hk'. specialize (Hk k' v' Hk'). rewrite <- Hk. rewrite (keyeq_sym k' k1).
    apply (keyeq_trans k k1 k' B).
Qed.

Lemma weak_rel nb c args li di st nb' c' args' li' di' st' : val_rel R c c' -> weak (ORed nb c args li di st) = weak (ORed nb' c' args' li' di' st').
Proof. destruct c as [a i|o], c' as [a' i'|o']; cbn; try tauto. intros [-> _]. reflexivity. Qed.

Lemma strong_rel o b b' : obj_rel R H (G o) (fun a b => nth_error h a = Some b) b b' -> refs_rel (strong H b) (strong (nth_error h) b').
Proof.
  destruct b as [vs|vs|kvs|nb c args li di st|co gl n de cl st|mt n bs d q|c|fz vs]; destruct b' as [vs'|vs'|kvs'|nb' c' args' li' di' st'|co' gl' n' de' cl' st'|mt' n' bs' d' q'|c'|fz' vs'];
    try (intros O; exfalso; exact O); try (intros O; destruct c; exfalso; exact O).
  - apply refs_vals.
  - apply refs_vals.
  - apply refs_flat.
  - intros (-> & A & B & L1 & L2 & C). cbn [strong]. rewrite (weak_rel nb' c args li di st nb' c' args' li' di' st' A).
    assert (X : refs_rel (li ++ flat di ++ state_refs st) (li' ++ flat di' ++ state_refs st')) by (apply refs_app; [apply refs_vals; auto|apply refs_app; [apply refs_flat; auto|apply refs_state; auto]]).
    destruct (weak (ORed nb' c' args' li' di' st')); [exact X|]. apply refs_cons; auto. apply refs_app; [apply refs_vals; auto|exact X].
  - intros (A & B & C & D & E & F). cbn [strong]. apply refs_app; [repeat (apply refs_cons; auto); apply refs_nil|]. apply refs_app; [apply refs_state; auto|].
    destruct gl as [a|g m], gl' as [a'|g' m']; try (exfalso; exact B); [apply refs_nil|].
    destruct B as (B1 & _ & kvs & d & K1 & K2 & K3). rewrite K1, K2.
    assert (Kd : keys_distinct kvs) by (apply (proj1 (HW _ _ K1))). destruct (refs_flat _ _ K3) as [X Y]. split.
    + intros o' [Hx|Hx].
      * subst m. destruct m' as [|a]; [exfalso; exact B1|]. exists a. split; [exact B1|left; auto].
      * destruct (X o' (setitems_all kvs _ o' Kd Hx)) as [a [Ra Ia]]. exists a. split; [auto|right; auto].
    + intros a [Hx|Hx].
      * subst m'. destruct m as [|o']; [exfalso; exact B1|]. exists o'. split; [exact B1|left; auto].
      * destruct (Y a Hx) as [o' [Ra Ia]]. exists o'. split; auto. apply setitems_refs in Ia as [Ia|Ia]; [|right; auto].
        cbn in Ia. destruct Ia as [Ia|[Ia|[Ia|[Ia|[]]]]]; try discriminate. subst m. left; auto.
  - intros (A & B & C & D & E). cbn [strong]. apply refs_app; [repeat (apply refs_cons; auto); apply refs_nil|apply refs_flat; auto].
  - destruct c as [v|], c' as [v'|]; cbn; try tauto; [apply refs_val|intros _; apply refs_nil].
  - intros [_ O]. cbn [strong]. apply refs_vals; exact O.
Qed.

Hypothesis RF : forall o a a', R o a -> R o a' -> a = a'.
Hypothesis RI : forall o o' a, R o a -> R o' a -> o = o'.
Lemma strong_reach_fwd v v' o : val_rel R v v' -> strong_reach H v o -> exists a, R o a /\ strong_reach (nth_error h) v' a.
Proof.
  intros Hv Hr. induction Hr as [o ->|o b o' Hr IH Hb Hi].
  - destruct v' as [|a]; [exfalso; exact Hv|]. exists a. split; [exact Hv|]. apply sr_root; auto.
  - destruct IH as [a [Ra Ha]]. destruct (RO o a Ra) as (b0 & b' & B1 & B2 & O). rewrite Hb in B1. injection B1 as <-.
    destruct (strong_rel o b b' O) as [X _]. destruct (X o' Hi) as [a' [Ra' Ia']]. exists a'. split; auto. eapply sr_step; eauto.
Qed.
Lemma strong_reach_back v v' a : val_rel R v v' -> strong_reach (nth_error h) v' a -> exists o, R o a /\ strong_reach H v o.
Proof.
  intros Hv Hr. induction Hr as [a ->|a b' a' Hr IH Hb Hi].
  - destruct v as [|o]; [exfalso; exact Hv|]. exists o. split; [exact Hv|]. apply sr_root; auto.
  - destruct IH as [o [Ra Ho]]. destruct (RO o a Ra) as (b & b0 & B1 & B2 & O). rewrite Hb in B2. injection B2 as <-.
    destruct (strong_rel o b b' O) as [_ Y]. destruct (Y a' Hi) as [o' [Ra' Ia']]. exists o'. split; auto. eapply sr_step; eauto.
Qed.
Lemma strong_reach_iff v v' o a : val_rel R v v' -> R o a -> (strong_reach H v o <-> strong_reach (nth_error h) v' a).
Proof.
  intros Hv Ra. split.
  - intros Hr. destruct (strong_reach_fwd _ _ _ Hv Hr) as [a' [Ra' Ha']]. rewrite (RF _ _ _ Ra Ra'). auto.
  - intros Hr. destruct (strong_reach_back _ _ _ Hv Hr) as [o' [Ro' Ho']]. rewrite (RI _ _ _ Ra Ro'). auto.
Qed.
End Strong.

(** a weak reference with target [t], in a heap of which only [root] is kept, is dead: its target is None, or an object that
    nothing reaches by strong references *)
Definition dead (hp : nat -> option obj) (root t : val) : Prop := t = VA ANone 0 \/ exists o, t = VR o /\ ~ strong_reach hp root o.

(** C53, weak references.  Wherever in the pickled graph a weak reference is, its copy is a weak reference; it is dead exactly if
    the original was dead (saved with None) or nothing else in the pickled graph refers strongly to its target *)
Theorem C53_weakref proto H fuel v ops p w t i : heap_wf H -> proto <= 5 -> dumps proto H fuel v = Ok ops ->
  follow H v p = Some (VR w) -> H w = Some (weakref_obj t) -> (forall a j, t = VA a j -> j = i) ->
  exists v' m w' b' t', loads ops = Some (v', m, []) /\ follow (nth_error (heap m)) v' p = Some (VR w') /\
    nth_error (heap m) w' = Some b' /\ made_by b' = MRef t' /\
    (dead (nth_error (heap m)) v' t' <-> t = VA ANone i \/ exists o, t = VR o /\ ~ strong_reach H v o) /\
    (forall o q, t = VR o -> follow H v q = Some (VR o) -> follow (nth_error (heap m)) v' q = Some t').
Proof.
  intros HW Hp E F Hw Hi. destruct (C01_roundtrip _ _ _ _ _ HW Hp E) as (v' & m & L & I0). pose proof I0 as (R & G & Hv & RF & RI & _ & _ & _ & RO).
  destruct (follow_rel R G H (heap m) HW RF RI RO p v v' _ Hv F) as (w0 & F' & Hw0). destruct w0 as [|w']; [exfalso; exact Hw0|]. cbn in Hw0.
  destruct (RO _ _ Hw0) as (b & b' & B1 & B2 & O). rewrite Hw in B1. injection B1 as <-. unfold weakref_obj in O.
  destruct b' as [| | |nb c args li di st| | |c|]; try (exfalso; exact O). destruct O as (<- & C & A & LI & DI & S).
  destruct c as [ca ci|]; [|exfalso; exact C]. destruct C as [<- ->].
  inversion A as [|? t' ? l' A1 A2]; subst. inversion A2; subst. inversion LI; subst. inversion DI; subst. destruct st; try (exfalso; exact S).
  eexists v', m, w', _, t'. split; [auto|]. split; [auto|]. split; [exact B2|]. split; [first [reflexivity|destruct cl; reflexivity]|]. split.
  - unfold dead. destruct t as [a j|o], t' as [a' j'|a']; try (exfalso; exact A1); cbn in A1.
    + destruct A1 as [-> ->]. rewrite (Hi a' j eq_refl). split; (intros [X|(o & X & _)]; [injection X as ->; auto|discriminate]).
    + split; (intros [X|(x & X & Y)]; [discriminate|right]); injection X as <-.
      * exists o. split; auto. rewrite (strong_reach_iff R G H (heap m) HW RO RF RI v v' o a' Hv A1). auto.
      * exists a'. split; auto. rewrite <- (strong_reach_iff R G H (heap m) HW RO RF RI v v' o a' Hv A1). auto.
  - intros o q -> Fq. destruct (follow_rel R G H (heap m) HW RF RI RO q v v' _ Hv Fq) as (x & Fx & Hx). destruct x as [|a2]; [exfalso; exact Hx|].
    destruct t' as [|a1]; [exfalso; exact A1|]. cbn in Hx, A1. rewrite Fx. do 2 f_equal. eapply RF; eauto.
Qed.

(** C53, dictionary views (Python 3.10 and later): the copy shows the copies of the same keys, values or items in the same order, and is a
    view of the dictionary's copy: every path that leads to the dictionary leads, in the copy, to the dictionary viewed *)
Theorem C53_view proto H fuel v ops p w k d kvs : heap_wf H -> proto <= 5 -> dumps proto H fuel v = Ok ops ->
  follow H v p = Some (VR w) -> H w = Some (view_obj k d) -> H d = Some (ODict kvs) ->
  exists v' m w' b' d' kvs', loads ops = Some (v', m, []) /\ follow (nth_error (heap m)) v' p = Some (VR w') /\
    nth_error (heap m) w' = Some b' /\ made_by b' = MView k (VR d') /\ nth_error (heap m) d' = Some (ODict kvs') /\
    length (shown k kvs') = length (shown k kvs) /\
    (forall n i l x, nth_error (shown k kvs) n = Some l -> nth_error l i = Some x -> exists l' x', nth_error (shown k kvs') n = Some l' /\ nth_error l' i = Some x' /\
       (forall a j, x = VA a j -> x' = VA a 0) /\ (forall o q, x = VR o -> follow H v q = Some (VR o) -> follow (nth_error (heap m)) v' q = Some x')) /\
    (forall q, follow H v q = Some (VR d) -> follow (nth_error (heap m)) v' q = Some (VR d')).
Proof.
  intros HW Hp E F Hw Hd. destruct (C01_roundtrip _ _ _ _ _ HW Hp E) as (v' & m & L & I0). pose proof I0 as (R & G & Hv & RF & RI & _ & _ & _ & RO).
  destruct (follow_rel R G H (heap m) HW RF RI RO p v v' _ Hv F) as (w0 & F' & Hw0). destruct w0 as [|w']; [exfalso; exact Hw0|]. cbn in Hw0.
  destruct (RO _ _ Hw0) as (b & b' & B1 & B2 & O). rewrite Hw in B1. injection B1 as <-. unfold view_obj in O.
  destruct b' as [| | |nb c args li di st| | |c|]; try (exfalso; exact O). destruct O as (<- & C & A & LI & DI & S).
  destruct c as [ca ci|]; [|exfalso; exact C]. destruct C as [<- ->].
  inversion A as [|? t' ? l' A1 A2]; subst. inversion A2; subst. inversion LI; subst. inversion DI; subst. destruct st; try (exfalso; exact S).
  destruct t' as [|d']; [exfalso; exact A1|]. cbn in A1.
  destruct (RO _ _ A1) as (b & b' & D1 & D2 & O). rewrite Hd in D1. injection D1 as <-. destruct b' as [| |kvs'| | | | |]; try (exfalso; exact O). cbn in O.
  assert (Hpath : forall o a q, R o a -> follow H v q = Some (VR o) -> follow (nth_error (heap m)) v' q = Some (VR a)).
  { intros o a q Ra Fq. destruct (follow_rel R G H (heap m) HW RF RI RO q v v' _ Hv Fq) as (x & Fx & Hx). destruct x as [|a2]; [exfalso; exact Hx|].
    cbn in Hx. rewrite Fx. do 2 f_equal. eapply RF; eauto. }
  eexists v', m, w', _, d', kvs'. split; [auto|]. split; [auto|]. split; [exact B2|]. split; [destruct k; reflexivity|]. split; [auto|].
  assert (Hsh : Forall2 (Forall2 (val_rel R)) (shown k kvs) (shown k kvs')).
  { clear - O. destruct k; cbn [shown]; induction O as [|[k1 v1] [k2 v2] l l' [X Y] O IH]; cbn [map fst snd]; constructor; auto. }
  split; [symmetry; eapply F2_length; eauto|]. split; [|eauto].
  intros n i l x En Ei. destruct (nth_rel _ _ _ _ _ Hsh En) as (l' & El & Hl). destruct (nth_rel _ _ _ _ _ Hl Ei) as (x' & Ex & Hx).
  exists l', x'. split; [auto|]. split; [auto|]. split.
  - intros a j ->. destruct x' as [a' j'|]; [|exfalso; exact Hx]. destruct Hx as [-> ->]. auto.
  - intros o q -> Fq. destruct x' as [|a']; [exfalso; exact Hx|]. apply (Hpath o a' q Hx Fq).
Qed.

(** C53, lru_cache: the loaded wrapper has the same maxsize and typed, around the copy of the function *)
Theorem C53_lru_cache proto H fuel v ops p w ms ty r fn : heap_wf H -> proto <= 5 -> dumps proto H fuel v = Ok ops ->
  follow H v p = Some (VR w) -> (exists a j, ms = VA a j) -> (exists a j, ty = VA a j) ->
  H w = Some (fst (lru_saved ms ty r fn)) -> (forall b, snd (lru_saved ms ty r fn) = Some b -> H r = Some b) ->
  exists v' m w' b' ms' ty' fn', loads ops = Some (v', m, []) /\ follow (nth_error (heap m)) v' p = Some (VR w') /\ nth_error (heap m) w' = Some b' /\
    lru_config (nth_error (heap m)) b' = Some (ms', ty', fn') /\ same_const ms ms' = true /\ same_const ty ty' = true /\
    follow (nth_error (heap m)) v' (p ++ [SArg 0]) = Some fn'.
Proof.
  intros HW Hp E F [ma [mj ->]] [ta [tj ->]] Hw Hr. destruct (C01_roundtrip _ _ _ _ _ HW Hp E) as (v' & m & L & I0). pose proof I0 as (R & G & Hv & RF & RI & _ & _ & _ & RO).
  destruct (follow_rel R G H (heap m) HW RF RI RO p v v' _ Hv F) as (w0 & F' & Hw0). destruct w0 as [|w']; [exfalso; exact Hw0|]. cbn in Hw0.
  destruct (RO _ _ Hw0) as (b & b' & B1 & B2 & O). rewrite Hw in B1. injection B1 as <-.
  assert (Hfol : forall hp u q y z, follow hp u q = Some y -> follow hp u (q ++ z) = follow hp y z).
  { clear. intros hp u q. revert u. induction q as [|s q IH]; intros u y z Fq; cbn [follow app] in *; [injection Fq as ->; auto|].
    destruct u; [discriminate|]. destruct (hp o); [|discriminate]. destruct (comp hp o0 s); [|discriminate]. apply IH; auto. }
  unfold lru_saved in *. destruct (same_const (VA ma mj) (fst lru_default) && same_const (VA ta tj) (snd lru_default)) eqn:Ed; cbn [fst snd] in *.
  - destruct b' as [| | |nb c args li di st| | |c|]; try (exfalso; exact O). destruct O as (<- & C & A & LI & DI & S).
    destruct c as [ca ci|]; [|exfalso; exact C]. destruct C as [<- ->]. inversion A as [|? fn' ? l' A1 A2]; subst. inversion A2; subst. inversion LI; subst. inversion DI; subst. destruct st; try (exfalso; exact S).
    apply andb_true_iff in Ed as [Ed1 Ed2].
    exists v', m, w', (ORed false (user "functools.lru_cache") [fn'] [] [] SNone), (fst lru_default), (snd lru_default), fn'.
    split; [auto|]. split; [auto|]. split; [exact B2|]. split; [reflexivity|]. split; [auto|]. split; [auto|].
    rewrite (Hfol _ _ _ _ _ F'). cbn [follow]. unfold user in *. rewrite B2. reflexivity.
  - specialize (Hr _ eq_refl). destruct b' as [| | |nb c args li di st| | |c|]; try (exfalso; exact O). destruct O as (<- & C & A & LI & DI & S).
    destruct c as [|r']; [exfalso; exact C|]. cbn in C. inversion A as [|? fn' ? l' A1 A2]; subst. inversion A2; subst. inversion LI; subst. inversion DI; subst. destruct st; try (exfalso; exact S).
    destruct (RO _ _ C) as (b & b' & D1 & D2 & O). rewrite Hr in D1. injection D1 as <-.
    destruct b' as [| | |nb c args li di st| | |c|]; try (exfalso; exact O). destruct O as (<- & C' & A' & LI' & DI' & S').
    destruct c as [ca ci|]; [|exfalso; exact C']. destruct C' as [<- ->].
    inversion A' as [|? ms' ? l1 X1 X2]; subst. inversion X2 as [|? ty' ? l2 Y1 Y2]; subst. inversion Y2; subst. inversion LI'; subst. inversion DI'; subst. destruct st; try (exfalso; exact S').
    exists v', m, w', (ORed false (VR r') [fn'] [] [] SNone), ms', ty', fn'. split; [auto|]. split; [auto|]. split; [exact B2|].
    split; [unfold lru_config; rewrite D2; reflexivity|].
    split; [destruct ms' as [a' j'|]; [destruct X1 as [-> _]; cbn; destruct (atom_eq_dec a' a'); congruence|exfalso; exact X1]|].
    split; [destruct ty' as [a' j'|]; [destruct Y1 as [-> _]; cbn; destruct (atom_eq_dec a' a'); congruence|exfalso; exact Y1]|].
    rewrite (Hfol _ _ _ _ _ F'). cbn [follow]. rewrite B2. reflexivity.
Qed.

(** C53, weak proxies: as for weak references, and a callable proxy's copy is a callable proxy *)
Theorem C53_weakproxy proto H fuel v ops p w t cl i : heap_wf H -> proto <= 5 -> dumps proto H fuel v = Ok ops ->
  follow H v p = Some (VR w) -> H w = Some (weakproxy_obj t cl) -> (forall a j, t = VA a j -> j = i) ->
  exists v' m w' b' t', loads ops = Some (v', m, []) /\ follow (nth_error (heap m)) v' p = Some (VR w') /\
    nth_error (heap m) w' = Some b' /\ made_by b' = MProxy cl t' /\
    (dead (nth_error (heap m)) v' t' <-> t = VA ANone i \/ exists o, t = VR o /\ ~ strong_reach H v o) /\
    (forall o q, t = VR o -> follow H v q = Some (VR o) -> follow (nth_error (heap m)) v' q = Some t').
Proof.
  intros HW Hp E F Hw Hi. destruct (C01_roundtrip _ _ _ _ _ HW Hp E) as (v' & m & L & I0). pose proof I0 as (R & G & Hv & RF & RI & _ & _ & _ & RO).
  destruct (follow_rel R G H (heap m) HW RF RI RO p v v' _ Hv F) as (w0 & F' & Hw0). destruct w0 as [|w']; [exfalso; exact Hw0|]. cbn in Hw0.
  destruct (RO _ _ Hw0) as (b & b' & B1 & B2 & O). rewrite Hw in B1. injection B1 as <-. unfold weakproxy_obj in O.
  destruct b' as [| | |nb c args li di st| | |c|]; try (exfalso; exact O). destruct O as (<- & C & A & LI & DI & S).
  destruct c as [ca ci|]; [|exfalso; exact C]. destruct C as [<- ->].
  inversion A as [|? t' ? l' A1 A2]; subst. inversion A2 as [|? c2 ? l2 A3 A4]; subst. inversion A4; subst. inversion LI; subst. inversion DI; subst. destruct st; try (exfalso; exact S).
  destruct c2 as [ca2 ci2|]; [|exfalso; exact A3]. destruct A3 as [<- ->].
  eexists v', m, w', _, t'. split; [auto|]. split; [auto|]. split; [exact B2|]. split; [first [reflexivity|destruct cl; reflexivity]|]. split.
  - unfold dead. destruct t as [a j|o], t' as [a' j'|a']; try (exfalso; exact A1); cbn in A1.
    + destruct A1 as [-> ->]. rewrite (Hi a' j eq_refl). split; (intros [X|(o & X & _)]; [injection X as ->; auto|discriminate]).
    + split; (intros [X|(x & X & Y)]; [discriminate|right]); injection X as <-.
      * exists o. split; auto. rewrite (strong_reach_iff R G H (heap m) HW RO RF RI v v' o a' Hv A1). auto.
      * exists a'. split; auto. rewrite <- (strong_reach_iff R G H (heap m) HW RO RF RI v v' o a' Hv A1). auto.
  - intros o q -> Fq. destruct (follow_rel R G H (heap m) HW RF RI RO q v v' _ Hv Fq) as (x & Fx & Hx). destruct x as [|a2]; [exfalso; exact Hx|].
    destruct t' as [|a1]; [exfalso; exact A1|]. cbn in Hx, A1. rewrite Fx. do 2 f_equal. eapply RF; eauto.
Qed.

(** before Python 3.10 the view of the rebuilt dictionary at least shows the same *)
Theorem C53_view39_shows k d : shown k (view_dict39 k d) = shown k d.
Proof.
  destruct k; cbn [shown view_dict39]; auto.
  - rewrite map_map. reflexivity.
  - rewrite map_map. generalize 0. induction d as [|p d IH]; intros n; cbn [length List.seq combine map fst snd]; [reflexivity|]. f_equal. apply IH.
Qed.
