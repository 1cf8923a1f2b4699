(** C17, C18: classes rebuilt from their pickles. *)
From Coq Require Import String Ascii List Bool Arith Lia.
From Verif Require Import PyDict ClassModel ClassProofs.
Import ListNotations.
Local Open Scope string_scope.

(** bases come before subclasses; the classes saved by value are as type.__new__ makes them and have no
    private slots *)
Definition wf_hier (hq : nat -> bool) (H : hier) : Prop :=
  forall c k, nth_error H c = Some k ->
    (forall b, In b (c_bases k) -> b < c) /\ (c_dyn k = true -> class_ok hq H c k /\ no_private_slots k) /\ wf (c_dict k).

(** ** which names a class loses, in terms of the class and its bases only *)
(** the object under the name in the first of the bases that defines it itself *)
Fixpoint first_base (H : hier) (bases : list nat) (n : string) : option cv :=
  match bases with
  | [] => None
  | b :: bases => match nth_error H b with
                  | Some k => match get n (c_dict k) with Some v => Some v | None => first_base H bases n end
                  | None => first_base H bases n
                  end
  end.
(** left out of the pickle: the class and the first base that has the name define it as the same object,
    one that has a __qualname__ *)
Definition elided (hq : nat -> bool) (H : hier) (k : pyclass) (n : string) : Prop :=
  exists v, get n (c_dict k) = Some v /\ first_base H (c_bases k) n = Some v /\ has_qualname hq v = true.
(** __hash__ becomes None: the rebuilt dictionary has __eq__ but no __hash__ *)
Definition hash_lost (hq : nat -> bool) (H : hier) (k : pyclass) : Prop :=
  get "__eq__" (c_dict k) <> None /\ ~ elided hq H k "__eq__" /\ (elided hq H k "__hash__" \/ get "__hash__" (c_dict k) = None).

Lemma cv_is_refl v : cv_is v v = true.
Proof.
  destruct v; cbn [cv_is]; rewrite ?Nat.eqb_refl, ?String.eqb_refl; auto.
  unfold list_string_eqb. destruct (list_eq_dec string_dec l l); congruence.
Qed.
Lemma inherited_first H bases n : (forall b k, nth_error H b = Some k -> wf (c_dict k)) ->
  get n (inherited_dict H bases) = first_base H bases n.
Proof.
  intros Hw. assert (Hwd : forall b, wf (dict_of H b)).
  { intros b. unfold dict_of. destruct (nth_error H b) eqn:E; [eapply Hw; eauto|apply wf_nil]. }
  assert (Hd : forall b, get n (dict_of H b) = match nth_error H b with Some k => get n (c_dict k) | None => None end).
  { intros b. unfold dict_of. destruct (nth_error H b); reflexivity. }
  assert (G : forall l, get n (fold_left (fun acc b => update acc (dict_of H b)) (rev l) []) = first_base H l n).
  { induction l as [|b l IH]; [reflexivity|]. cbn [rev first_base]. rewrite fold_left_app. cbn [fold_left].
    rewrite get_update by apply Hwd. rewrite Hd, IH. destruct (nth_error H b); reflexivity. }
  unfold inherited_dict. destruct bases as [|b [|b' bs]]; [apply G| |apply G].
  cbn [first_base]. rewrite Hd. destruct (nth_error H b) as [k|]; [destruct (get n (c_dict k))|]; reflexivity.
Qed.
Lemma removed_elided hq H k n : wf_hier hq H -> removed hq H k n <-> elided hq H k n.
Proof.
  intros Hwf. unfold removed, elided. rewrite inherited_first by (intros b kb Hb; apply (Hwf b kb Hb)). split.
  - intros [v [bv [H1 [H2 [H3 H4]]]]]. apply cv_is_eq in H3. subst bv. eauto.
  - intros [v [H1 [H2 H3]]]. exists v, v. auto using cv_is_refl.
Qed.

(** only single inheritance above (and at) the class *)
Inductive single (H : hier) : nat -> Prop :=
| single_root c k : nth_error H c = Some k -> c_bases k = [] -> single H c
| single_step c k b : nth_error H c = Some k -> c_bases k = [b] -> single H b -> single H c.
Inductive ancestor (H : hier) : nat -> nat -> Prop :=
| anc_self c : ancestor H c c
| anc_step a c k b : nth_error H c = Some k -> In b (c_bases k) -> ancestor H a b -> ancestor H a c.

Lemma rebuild_from_spec hq m H : forall l c0,
  (forall i k, nth_error l i = Some k -> c_dyn k = true -> class_ok hq H (c0 + i) k /\ no_private_slots k) ->
  exists l', rebuild_from hq m H c0 l = Some l' /\
  forall i, nth_error l' i = match nth_error l i with Some k => rebuild1 hq m H (c0 + i) k | None => None end.
Proof.
  induction l as [|k l IH]; intros c0 Hok.
  - exists []. split; auto. intros [|i]; reflexivity.
  - destruct (IH (S c0)) as [l' [E Hl']].
    { intros i k' Hi Hd. replace (S c0 + i) with (c0 + S i) by lia. apply Hok; auto. }
    assert (Hr : exists k', rebuild1 hq m H c0 k = Some k').
    { unfold rebuild1. destruct (c_dyn k) eqn:Ed; [|eauto].
      destruct (Hok 0 k eq_refl Ed) as [Ok Np]. rewrite Nat.add_0_r in Ok.
      destruct (rebuild1_get hq m H c0 k Ok Np) as [d' [-> _]]. eauto. }
    destruct Hr as [k' Hr]. exists (k' :: l'). split.
    + cbn [rebuild_from]. rewrite Hr, E. reflexivity.
    + intros [|i]; cbn [nth_error]; [rewrite Nat.add_0_r; auto|]. rewrite Hl'. destruct (nth_error l i); auto.
      f_equal. lia.
Qed.

Lemma rebuild_spec hq m H : wf_hier hq H -> exists H', rebuild hq m H = Some H' /\
  (forall c, option_map c_bases (nth_error H' c) = option_map c_bases (nth_error H c)) /\
  (forall c k n, nth_error H c = Some k ->
     (n = "__hash__" -> c_dyn k = true -> ~ hash_lost hq H k) ->
     (c_dyn k = false \/ ~ elided hq H k n -> get n (dict_of H' c) = get n (c_dict k)) /\
     (c_dyn k = true -> elided hq H k n -> get n (dict_of H' c) = None)).
Proof.
  intros Hwf. destruct (rebuild_from_spec hq m H H 0) as [H' [E Hn]].
  { intros i k Hi Hd. apply Hwf in Hi. tauto. }
  exists H'. split; [exact E|]. split.
  - intros c. rewrite Hn. destruct (nth_error H c) as [k|] eqn:Ek; auto. unfold rebuild1. cbn [Nat.add].
    destruct (c_dyn k) eqn:Ed; auto. apply Hwf in Ek as [_ [Ok _]]. destruct (Ok Ed) as [Ok1 Np].
    destruct (rebuild1_get hq m H c k Ok1 Np) as [d' [-> _]]. reflexivity.
  - intros c k n Hk Hh. unfold dict_of. rewrite Hn, Hk. cbn [Nat.add]. unfold rebuild1.
    destruct (c_dyn k) eqn:Ed.
    + destruct (Hwf c k Hk) as [_ [Ok _]]. destruct (Ok Ed) as [Ok1 Np].
      destruct (rebuild1_get hq m H c k Ok1 Np) as [d' [-> Hg]]. cbn [c_dict]. specialize (Hh).
      assert (Hrm : forall x, memb x (td hq H k) = true <-> elided hq H k x).
      { intros x. rewrite <- removed_elided by auto. rewrite memb_In. apply to_remove_In. apply (ok_wf _ _ _ _ Ok1). }
      rewrite Hg.
      assert (Hz : eqb n "__hash__" && (memb n (td hq H k) || negb (has n (c_dict k))) && has "__eq__" (c_dict k) && negb (memb "__eq__" (td hq H k)) = false).
      { apply not_true_iff_false. intros Ht. apply andb_prop in Ht as [Ht H3]. apply andb_prop in Ht as [Ht H2]. apply andb_prop in Ht as [H0 H1].
        destruct (eqb_spec n "__hash__") as [->|]; [|discriminate]. apply (Hh eq_refl eq_refl).
        split; [|split].
        - apply has_get in H2 as [v ->]. discriminate.
        - intros Hr. apply Hrm in Hr. rewrite Hr in H3. discriminate.
        - apply orb_prop in H1 as [H1|H1]; [left; apply Hrm; auto|right].
          unfold has in H1. destruct (get "__hash__" (c_dict k)); [discriminate|auto]. }
      rewrite Hz. split.
      * intros [?|Hr]; [discriminate|]. destruct (memb n (td hq H k)) eqn:Em; auto. apply Hrm in Em. tauto.
      * intros _ Hr. apply Hrm in Hr. rewrite Hr. reflexivity.
    + split; [auto|discriminate].
Qed.

Lemma mro_ext H H' : (forall c, option_map c_bases (nth_error H' c) = option_map c_bases (nth_error H c)) ->
  forall f c, mro H' f c = mro H f c.
Proof.
  intros He. induction f as [|f IH]; intros c; [reflexivity|]. cbn [mro]. specialize (He c).
  destruct (nth_error H' c) as [k'|], (nth_error H c) as [k|]; cbn [option_map] in He; try discriminate; auto.
  injection He as ->. destruct (c_bases k) as [|b [|b' bs]]; auto.
  - rewrite IH. reflexivity.
  - rewrite (map_ext _ _ IH). reflexivity.
Qed.
Lemma mro_fuel hq H : wf_hier hq H -> forall f c, c < f -> forall f', c < f' -> mro H f' c = mro H f c.
Proof.
  intros Hwf. induction f as [|f IH]; intros c Hc f' Hc'; [lia|]. destruct f' as [|f']; [lia|]. cbn [mro].
  destruct (nth_error H c) as [k|] eqn:Ek; auto. destruct (Hwf c k Ek) as [Hb _].
  destruct (c_bases k) as [|b [|b' bs]] eqn:Eb; auto.
  - rewrite (IH b); auto; specialize (Hb b (or_introl eq_refl)); lia.
  - assert (Hm : map (mro H f') (b :: b' :: bs) = map (mro H f) (b :: b' :: bs)).
    { apply map_ext_in. intros x Hx. specialize (Hb x Hx). apply IH; lia. }
    rewrite Hm. reflexivity.
Qed.
Lemma mro_single hq H c k b : wf_hier hq H -> nth_error H c = Some k -> c_bases k = [b] ->
  mro H (S c) c = option_map (cons c) (mro H (S b) b).
Proof.
  intros Hwf Hk Hb. assert (Hlt : b < c) by (apply (Hwf c k Hk); rewrite Hb; simpl; auto).
  rewrite (mro_fuel hq H Hwf c b) by lia. cbn [mro]. rewrite Hk, Hb. reflexivity.
Qed.
Lemma mro_single_some hq H c : wf_hier hq H -> single H c -> exists l, mro H (S c) c = Some l.
Proof.
  intros Hwf Hs. induction Hs as [c k H1 H2|c k b H1 H2 _ [l IH]].
  - cbn [mro]. rewrite H1, H2. eauto.
  - rewrite (mro_single hq H c k b), IH by auto. cbn [option_map]. eauto.
Qed.
Lemma lookup_single hq H c k b n : wf_hier hq H -> nth_error H c = Some k -> c_bases k = [b] -> single H b ->
  lookup H c n = match get n (c_dict k) with Some v => Some v | None => lookup H b n end.
Proof.
  intros Hwf Hk Hb Hs. unfold lookup. rewrite (mro_single hq H c k b) by auto.
  destruct (mro_single_some hq H b Hwf Hs) as [l ->]. cbn [option_map lookup_in]. unfold dict_of at 1. rewrite Hk. reflexivity.
Qed.

(** C17, single inheritance: every class in a hierarchy of any depth, whichever of its classes are saved by
    value, resolves every name to the same object; __hash__ too unless some class on the way loses it. *)
Theorem C17_single_inheritance_partial : forall hq m H, wf_hier hq H ->
  exists H', rebuild hq m H = Some H' /\
  forall c n, single H c ->
    (n = "__hash__" -> forall a k, ancestor H a c -> nth_error H a = Some k -> c_dyn k = true -> ~ hash_lost hq H k) ->
    lookup H' c n = lookup H c n.
Proof.
  intros hq m H Hwf. destruct (rebuild_spec hq m H Hwf) as [H' [E [Hb Hd]]]. exists H'. split; auto.
  assert (Hd0 : forall c k, nth_error H c = Some k -> dict_of H c = c_dict k) by (intros c k Hk; unfold dict_of; now rewrite Hk).
  intros c n Hs. induction Hs as [c k Hk Hnil|c k b Hk Hone Hs IH]; intros Hh.
  - unfold lookup. rewrite (mro_ext H H' Hb). cbn [mro]. rewrite Hk, Hnil. cbn [lookup_in].
    rewrite (Hd0 c k Hk). destruct (Hd c k n Hk) as [H1 _].
    { intros E1 E2. apply (Hh E1 c k); auto. constructor. }
    rewrite H1; auto. right. intros [v [_ [H2 _]]]. rewrite Hnil in H2. discriminate.
  - rewrite (lookup_single hq H c k b n Hwf Hk Hone Hs).
    assert (IH' : lookup H' b n = lookup H b n).
    { apply IH. intros E1 a ka Ha. apply Hh; auto. econstructor; eauto. rewrite Hone. simpl; auto. }
    assert (E2 : lookup H' c n = match get n (dict_of H' c) with Some v => Some v | None => lookup H' b n end).
    { unfold lookup. rewrite !(mro_ext H H' Hb). rewrite (mro_single hq H c k b) by auto.
      destruct (mro_single_some hq H b Hwf Hs) as [l ->]. reflexivity. }
    rewrite E2, IH'.
    destruct (Hd c k n Hk) as [H1 H2].
    { intros E1 E3. apply (Hh E1 c k); auto. constructor. }
    destruct (c_dyn k) eqn:Ed; [|rewrite H1; auto].
    assert (Hdec : elided hq H k n \/ ~ elided hq H k n).
    { rewrite <- removed_elided by auto. destruct (Hwf c k Hk) as [_ [Ok _]]. destruct (Ok Ed) as [Ok1 _].
      destruct (memb_spec n (td hq H k)) as [Hi|Hi]; [left|right]; [|intros Hr; apply Hi]; apply to_remove_In; auto; apply (ok_wf _ _ _ _ Ok1). }
    destruct Hdec as [Hr|Hr]; [|rewrite H1; auto].
    rewrite (H2 eq_refl Hr). destruct Hr as [v [R1 [R2 R4]]]. rewrite R1.
    rewrite Hone in R2. cbn [first_base] in R2.
    destruct (nth_error H b) as [kb|] eqn:Ekb; [|discriminate].
    assert (R5 : get n (c_dict kb) = Some v) by (destruct (get n (c_dict kb)); congruence). clear R2. rename R5 into R2.
    inversion Hs as [? ? Hx Hy|? ? ? Hx Hy Hz]; subst.
    + unfold lookup. cbn [mro]. rewrite Hx, Hy. cbn [lookup_in]. rewrite (Hd0 b kb Ekb), R2. reflexivity.
    + rewrite Ekb in Hx. injection Hx as <-. rewrite (lookup_single hq H b kb b0 n Hwf Ekb Hy Hz), R2. reflexivity.
Qed.

(** C17, any inheritance: the resolution order is the same, and a name resolves to the same object if every
    class of the order that lost it would have found the same object further on. *)
Theorem C17_multiple_inheritance_partial : forall hq m H, wf_hier hq H ->
  exists H', rebuild hq m H = Some H' /\
  forall c n l, mro H (S c) c = Some l ->
    (forall before a k after, l = (before ++ a :: after)%list -> nth_error H a = Some k -> c_dyn k = true ->
       elided hq H k n -> lookup_in H after n = get n (c_dict k)) ->
    (n = "__hash__" -> forall a k, In a l -> nth_error H a = Some k -> c_dyn k = true -> ~ hash_lost hq H k) ->
    mro H' (S c) c = Some l /\ lookup H' c n = lookup H c n.
Proof.
  intros hq m H Hwf. destruct (rebuild_spec hq m H Hwf) as [H' [E [Hb Hd]]]. exists H'. split; auto.
  intros c n l Hl Hr Hh. assert (Hl' := Hl). rewrite <- (mro_ext H H' Hb) in Hl'. split; auto.
  unfold lookup. rewrite Hl, Hl'. clear Hl Hl'.
  induction l as [|a l IH]; [reflexivity|]. cbn [lookup_in].
  rewrite IH; [| |intros E1 a0 k0 Hi; apply Hh; simpl; auto].
  2:{ intros before a0 k0 after -> H1 H2 H3. apply (Hr (a :: before) a0 k0 after); auto. }
  unfold dict_of at 2. destruct (nth_error H a) as [k|] eqn:Ek.
  - destruct (Hd a k n Ek) as [H1 H2].
    { intros E1 E2. apply (Hh E1 a k); simpl; auto. }
    destruct (c_dyn k) eqn:Ed; [|rewrite H1; auto].
    assert (Hdec : elided hq H k n \/ ~ elided hq H k n).
    { rewrite <- removed_elided by auto. destruct (Hwf a k Ek) as [_ [Ok _]]. destruct (Ok Ed) as [Ok1 _].
      destruct (memb_spec n (td hq H k)) as [Hi|Hi]; [left|right]; [|intros Hr'; apply Hi]; apply to_remove_In; auto; apply (ok_wf _ _ _ _ Ok1). }
    destruct Hdec as [He|He]; [|rewrite H1; auto].
    rewrite (H2 eq_refl He), (Hr [] a k l eq_refl Ek Ed He). destruct He as [v [-> _]]. reflexivity.
  - unfold dict_of. specialize (Hb a). rewrite Ek in Hb. destruct (nth_error H' a); [discriminate|reflexivity].
Qed.
(** in particular a name no class of the resolution order lost *)
Theorem C17_unshared_names : forall hq m H, wf_hier hq H ->
  exists H', rebuild hq m H = Some H' /\
  forall c n l, mro H (S c) c = Some l -> n <> "__hash__" ->
    (forall a k, In a l -> nth_error H a = Some k -> c_dyn k = true -> ~ elided hq H k n) ->
    lookup H' c n = lookup H c n.
Proof.
  intros hq m H Hwf. destruct (C17_multiple_inheritance_partial hq m H Hwf) as [H' [E Hx]]. exists H'. split; auto.
  intros c n l Hl Hn Ha. apply (Hx c n l Hl); [|congruence].
  intros before a k after -> H1 H2 H3. exfalso. apply (Ha a k); auto. apply in_elt.
Qed.

(** what the copy of a class has itself under the name: of a class saved by reference, the same; of one saved by value nothing if the entry was left out,
    None for __hash__ if the class lost it, else the same *)
Inductive copied_entry (hq : nat -> bool) (H : hier) (k : pyclass) (n : string) : option cv -> Prop :=
| entry_by_reference : c_dyn k = false -> copied_entry hq H k n (get n (c_dict k))
| entry_unhashable : c_dyn k = true -> n = "__hash__" -> hash_lost hq H k -> copied_entry hq H k n (Some VNone)
| entry_left_out : c_dyn k = true -> ~ (n = "__hash__" /\ hash_lost hq H k) -> elided hq H k n -> copied_entry hq H k n None
| entry_kept : c_dyn k = true -> ~ (n = "__hash__" /\ hash_lost hq H k) -> ~ elided hq H k n -> copied_entry hq H k n (get n (c_dict k)).
(** the first of the classes whose copy has the name *)
Inductive found (hq : nat -> bool) (H : hier) (n : string) : list nat -> option cv -> Prop :=
| found_nowhere : found hq H n [] None
| found_here a k l v : nth_error H a = Some k -> copied_entry hq H k n (Some v) -> found hq H n (a :: l) (Some v)
| found_later a k l r : nth_error H a = Some k -> copied_entry hq H k n None -> found hq H n l r -> found hq H n (a :: l) r
| found_no_class a l r : nth_error H a = None -> found hq H n l r -> found hq H n (a :: l) r.
Lemma copied_fun hq H k n r r' : copied_entry hq H k n r -> copied_entry hq H k n r' -> r = r'.
Proof. intros A B. destruct A; inversion B; subst; try reflexivity; try congruence; try tauto; match goal with H : ~ (_ = _ /\ _) |- _ => exfalso; apply H; split; auto; fail end. Qed.
Lemma found_fun hq H n l : forall r r', found hq H n l r -> found hq H n l r' -> r = r'.
Proof.
  induction l as [|a l IH]; intros r r' A B; inversion A; subst; inversion B; subst; auto; try congruence;
    match goal with E1 : nth_error H a = Some ?x, E2 : nth_error H a = Some ?y |- _ => rewrite E1 in E2; injection E2 as E2; subst end;
    match goal with C1 : copied_entry _ _ _ _ ?x, C2 : copied_entry _ _ _ _ ?y |- _ => pose proof (copied_fun _ _ _ _ _ _ C1 C2); try congruence end; eauto.
Qed.
Lemma elided_dec hq H c k n : wf_hier hq H -> nth_error H c = Some k -> c_dyn k = true -> elided hq H k n \/ ~ elided hq H k n.
Proof.
  intros Hwf Hk Hd. rewrite <- removed_elided by auto. destruct (Hwf c k Hk) as [_ [Ok _]]. destruct (Ok Hd) as [Ok1 _].
  destruct (memb_spec n (td hq H k)) as [Hi|Hi]; [left|right]; [|intros Hr'; apply Hi]; apply to_remove_In; auto; apply (ok_wf _ _ _ _ Ok1).
Qed.
Lemma rebuild_entry hq m H H' : wf_hier hq H -> rebuild hq m H = Some H' -> forall c k n, nth_error H c = Some k -> copied_entry hq H k n (get n (dict_of H' c)).
Proof.
  intros Hwf Er c k n Hk. destruct (rebuild_spec hq m H Hwf) as [H1 [E1 [_ Hd]]]. assert (H1 = H') by congruence. subst H1.
  destruct (c_dyn k) eqn:Ed.
  2: { assert (X : get n (dict_of H' c) = get n (c_dict k)) by (apply (Hd c k n Hk); [congruence|left; exact Ed]). rewrite X. apply entry_by_reference, Ed. }
  destruct (string_dec n "__hash__") as [Hn|Hn].
  - assert (Hl : hash_lost hq H k \/ ~ hash_lost hq H k).
    { unfold hash_lost. destruct (elided_dec hq H c k "__eq__" Hwf Hk Ed), (elided_dec hq H c k "__hash__" Hwf Hk Ed); destruct (get "__eq__" (c_dict k)); destruct (get "__hash__" (c_dict k));
        try tauto; try (left; split; [discriminate|tauto]); try (right; intros (? & ? & [?|?]); congruence || tauto). }
    destruct Hl as [Hl|Hl].
    + assert (X : get n (dict_of H' c) = Some VNone).
      { destruct (rebuild_from_spec hq m H H 0) as [H2 [E2 Hnth]]; [intros i k0 Hi Hd0; apply Hwf in Hi; tauto|]. assert (H2 = H') by (unfold rebuild in Er; congruence). subst H2.
        unfold dict_of. rewrite Hnth, Hk. cbn [Nat.add]. unfold rebuild1. rewrite Ed. destruct (Hwf c k Hk) as [_ [Ok _]]. destruct (Ok Ed) as [Ok1 Np].
        destruct (rebuild1_get hq m H c k Ok1 Np) as [d' [-> Hg]]. cbn [c_dict]. rewrite Hg.
        assert (Hrm : forall x, memb x (td hq H k) = true <-> elided hq H k x).
        { intros x. rewrite <- removed_elided by auto. rewrite memb_In. apply to_remove_In. apply (ok_wf _ _ _ _ Ok1). }
        destruct Hl as (L1 & L2 & L3). rewrite Hn.
        assert (Q1 : memb "__eq__" (td hq H k) = false) by (apply not_true_iff_false; intros Q; apply Hrm in Q; tauto). rewrite Q1.
        assert (Q2 : has "__eq__" (c_dict k) = true) by (rewrite has_get_b; destruct (get "__eq__" (c_dict k)); [reflexivity|congruence]). rewrite Q2.
        assert (Q3 : memb "__hash__" (td hq H k) || negb (has "__hash__" (c_dict k)) = true).
        { destruct L3 as [L3|L3]; [apply Hrm in L3; rewrite L3; reflexivity|]. rewrite (has_get_b "__hash__"), L3. apply orb_true_r. }
        rewrite Q3. reflexivity. }
      rewrite X. apply entry_unhashable; assumption.
    + destruct (Hd c k n Hk) as [X1 X2]; [intros _ _; exact Hl|].
      destruct (elided_dec hq H c k n Hwf Hk Ed) as [He|He]; [rewrite (X2 Ed He); apply entry_left_out; tauto|rewrite X1 by tauto; apply entry_kept; tauto].
  - destruct (Hd c k n Hk) as [X1 X2]; [congruence|].
    destruct (elided_dec hq H c k n Hwf Hk Ed) as [He|He]; [rewrite (X2 Ed He); apply entry_left_out; tauto|rewrite X1 by tauto; apply entry_kept; tauto].
Qed.
(** C17, exactly, for every hierarchy, class and name: the copy resolves the name to what the first class whose copy has it, has - and so to the same object if and
    only if that is what the original resolves it to *)
Theorem C17_exact : forall hq m H, wf_hier hq H ->
  exists H', rebuild hq m H = Some H' /\
  forall c n l, mro H (S c) c = Some l ->
    mro H' (S c) c = Some l /\ found hq H n l (lookup H' c n) /\ (lookup H' c n = lookup H c n <-> found hq H n l (lookup H c n)).
Proof.
  intros hq m H Hwf. destruct (rebuild_spec hq m H Hwf) as [H' [E [Hb _]]]. exists H'. split; [exact E|].
  intros c n l Hl. assert (Hl' := Hl). rewrite <- (mro_ext H H' Hb) in Hl'. split; [exact Hl'|].
  assert (F : found hq H n l (lookup H' c n)).
  { unfold lookup. rewrite Hl'. clear Hl Hl'. induction l as [|a l IH]; cbn [lookup_in]; [constructor|].
    destruct (nth_error H a) as [k|] eqn:Ek.
    - pose proof (rebuild_entry hq m H H' Hwf E a k n Ek) as C. destruct (get n (dict_of H' a)) as [v|]; [apply (found_here hq H n a k l v Ek C)|apply (found_later hq H n a k l _ Ek C IH)].
    - assert (X : dict_of H' a = []) by (unfold dict_of; specialize (Hb a); rewrite Ek in Hb; destruct (nth_error H' a); [discriminate|reflexivity]).
      rewrite X. cbn. apply found_no_class; assumption. }
  split; [exact F|]. split; [intros Q; rewrite <- Q; exact F|intros G; exact (found_fun hq H n l _ _ F G)].
Qed.

(** Examples and refutations.  Class 0 is object. *)
Definition object_class (d : dict string cv) : pyclass :=
  PyClass "object" [] d false false false false.
Definition plain (c : nat) (name : string) (bases : list nat) (bd : bool) (d : dict string cv) : pyclass :=
  PyClass name bases (d ++ [("__module__", VObj 90); ("__doc__", VNone)] ++
    (if bd then [] else [("__dict__", VOwn c "__dict__"); ("__weakref__", VOwn c "__weakref__")]))%list false true bd bd.
Definition hq1 (o : nat) : bool := Nat.ltb o 50.          (* objects below 50 are functions *)

(** class A0: f = 1;  class A(A0);  class B: f = 2;  class C(A, B): f = B.f  --  C().f becomes A0's *)
Definition H_multi : hier := [object_class [("__hash__", VObj 10)]; plain 1 "A0" [0] false [("f", VObj 1)]; plain 2 "A" [1] true [];
  plain 3 "B" [0] false [("f", VObj 2)]; plain 4 "C" [2; 3] true [("f", VObj 2)]].
Theorem C17_multiple_bases_refuted : exists H', rebuild hq1 91 H_multi = Some H' /\
  mro H_multi 5 4 = Some [4; 2; 1; 3; 0] /\ lookup H_multi 4 "f" = Some (VObj 2) /\ lookup H' 4 "f" = Some (VObj 1).
Proof. eexists. split; [vm_compute; reflexivity|]. vm_compute. auto. Qed.
(** class Base: f = 1;  class X(Base): f = Base.f;  class Z(Base): f = 2;  class D(X, Z)  --  D().f becomes Z's *)
Definition H_diamond : hier := [object_class [("__hash__", VObj 10)]; plain 1 "Base" [0] false [("f", VObj 1)]; plain 2 "X" [1] true [("f", VObj 1)];
  plain 3 "Z" [1] true [("f", VObj 2)]; plain 4 "D" [2; 3] true []].
Theorem C17_diamond_refuted : exists H', rebuild hq1 91 H_diamond = Some H' /\
  lookup H_diamond 4 "f" = Some (VObj 1) /\ lookup H' 4 "f" = Some (VObj 2).
Proof. eexists. split; [vm_compute; reflexivity|]. vm_compute. auto. Qed.
(** class C: def __eq__ ...; __hash__ = object.__hash__  --  the copy is unhashable *)
Definition H_hash : hier := [object_class [("__hash__", VObj 10)]; plain 1 "C" [0] false [("__eq__", VObj 1); ("__hash__", VObj 10)]].
Theorem C17_hash_refuted : exists H', rebuild hq1 91 H_hash = Some H' /\
  lookup H_hash 1 "__hash__" = Some (VObj 10) /\ lookup H' 1 "__hash__" = Some VNone.
Proof. eexists. split; [vm_compute; reflexivity|]. vm_compute. auto. Qed.

(** C18: slots.  For every class without private slots the copy declares the same slots, has its own
    descriptor for each of them, no descriptor was pickled, and all else in the dictionary is as in C17. *)
Theorem C18_slots_kept_partial : forall hq m H c k, c_dyn k = true -> class_ok hq H c k -> no_private_slots k ->
  (forall s, In s (slots_of k) -> get s (saved_dict hq H k) = None) /\
  exists k', rebuild1 hq m H c k = Some k' /\
    get "__slots__" (c_dict k') = get "__slots__" (c_dict k) /\
    (forall s, In s (slots_of k) -> special_slot s = false -> get s (c_dict k') = Some (VMember c s)) /\
    (forall s, special_slot s = true -> get s (c_dict k') = get s (c_dict k)) /\
    (forall n o s, get n (c_dict k') = Some (VMember o s) -> get n (c_dict k) = Some (VMember o s)).
Proof.
  intros hq m H c k Ed Ok Np.
  assert (Hnr : forall n v, get n (c_dict k) = Some v -> own c v \/ has_qualname hq v = false -> memb n (td hq H k) = false).
  { intros n v Hg Hv. apply not_true_iff_false. intros Hm. apply memb_In in Hm. apply to_remove_In in Hm; [|apply (ok_wf _ _ _ _ Ok)].
    pose proof (removed_not_own _ _ _ _ _ Ok Hm v Hg) as Hno. destruct Hv as [Hv|Hv]; [tauto|]. destruct Hm as [v' [bv [H1 [_ [_ H4]]]]]. congruence. }
  split.
  { intros s Hs. rewrite (get_saved hq H c k s Ok). apply memb_In in Hs. rewrite Hs, orb_true_r. reflexivity. }
  destruct (rebuild1_get hq m H c k Ok Np) as [d' [Ht Hg]]. unfold rebuild1. rewrite Ed, Ht.
  eexists. split; [reflexivity|]. cbn [c_dict]. split; [|split; [|split]].
  - rewrite Hg. change (eqb "__slots__" "__hash__") with false. cbn [andb].
    destruct (get "__slots__" (c_dict k)) as [v|] eqn:E; [|match goal with |- (if ?b then _ else _) = _ => destruct b; auto end].
    rewrite (Hnr _ _ E); [reflexivity|]. right. pose proof (ok_slots _ _ _ _ Ok) as Ho. rewrite E in Ho. destruct v; try contradiction; reflexivity.
  - intros s Hs Hsp. rewrite Hg. pose proof (ok_members _ _ _ _ Ok s Hs Hsp) as Hv. rewrite (Np s Hs) in Hv.
    rewrite (Hnr _ _ Hv) by (left; reflexivity).
    destruct (eqb_spec s "__hash__") as [->|_]; [|exact Hv].
    exfalso. apply (ok_slot_names _ _ _ _ Ok) in Hs. apply Hs. simpl; auto 8.
  - intros s Hsp. rewrite Hg. unfold special_slot in Hsp. apply orb_prop in Hsp as [Hs|Hs]; apply String.eqb_eq in Hs; subst s.
    + change (eqb "__dict__" "__hash__") with false. cbn [andb]. destruct (get "__dict__" (c_dict k)) as [v|] eqn:E; [|match goal with |- (if ?b then _ else _) = _ => destruct b; auto end].
      rewrite (Hnr _ _ E); [reflexivity|]. left. rewrite (ok_dict _ _ _ _ Ok) in E. destruct (_ && _); [injection E as <-|discriminate]. reflexivity.
    + change (eqb "__weakref__" "__hash__") with false. cbn [andb]. destruct (get "__weakref__" (c_dict k)) as [v|] eqn:E; [|match goal with |- (if ?b then _ else _) = _ => destruct b; auto end].
      rewrite (Hnr _ _ E); [reflexivity|]. left. rewrite (ok_weak _ _ _ _ Ok) in E. destruct (_ && _); [injection E as <-|discriminate]. reflexivity.
  - intros n o s Hn. rewrite Hg in Hn. destruct (_ && negb (memb "__eq__" (td hq H k))); [discriminate|].
    destruct (memb n (td hq H k)); [discriminate|auto].
Qed.

(** REFUTED for private slots: a class with a slot that is mangled cannot be loaded at all (the mangled
    descriptor stays in the pickled dictionary and type() reports a conflict) *)
Lemma lstrip_head s : match lstrip_us s with String ch _ => ch <> "_"%char | EmptyString => True end.
Proof.
  induction s as [|a s IH]; [exact I|]. destruct (Ascii.eqb_spec a "_"%char) as [->|Hn]; [exact IH|].
  destruct a as [[] [] [] [] [] [] [] []]; cbn [lstrip_us]; auto; congruence.
Qed.
Lemma mangle_private_head cls s : mangle cls s <> s -> exists ch r, mangle cls s = String "_" (String ch r) /\ ch <> "_"%char.
Proof.
  unfold mangle. destruct (_ && _); [|congruence]. pose proof (lstrip_head cls) as Hl.
  destruct (lstrip_us cls) as [|ch r]; [congruence|]. intros _. exists ch, (r ++ s). split; auto.
Qed.
Theorem C18_private_slots_refuted : forall hq m H c k s, c_dyn k = true -> class_ok hq H c k ->
  In s (slots_of k) -> mangle (c_name k) s <> s -> ~ In (mangle (c_name k) s) (slots_of k) -> mangle (c_name k) s <> "_abc_impl" ->
  rebuild1 hq m H c k = None.
Proof.
  intros hq m H c k s Ed Ok Hs Hp Hni Hna. unfold rebuild1. rewrite Ed.
  destruct (mangle_private_head _ _ Hp) as [ch [r [Em Hch]]].
  assert (Hsp : special_slot s = false).
  { unfold special_slot. apply orb_false_iff. split; apply String.eqb_neq; intros ->; apply Hp; reflexivity. }
  assert (Hspm : special_slot (mangle (c_name k) s) = false).
  { rewrite Em. unfold special_slot. apply orb_false_iff. split; apply String.eqb_neq; intros E; injection E as -> _; congruence. }
  pose proof (ok_members _ _ _ _ Ok s Hs Hsp) as Hv.
  assert (Hnr : forall n v, get n (c_dict k) = Some v -> own c v \/ has_qualname hq v = false -> memb n (td hq H k) = false).
  { intros n v Hg Hv'. apply not_true_iff_false. intros Hm. apply memb_In in Hm. apply to_remove_In in Hm; [|apply (ok_wf _ _ _ _ Ok)].
    pose proof (removed_not_own _ _ _ _ _ Ok Hm v Hg) as Hno. destruct Hv' as [Hv'|Hv']; [tauto|]. destruct Hm as [v' [bv [H1 [_ [_ H4]]]]]. congruence. }
  assert (Hsv : get (mangle (c_name k) s) (saved_dict hq H k) = Some (VMember c (mangle (c_name k) s))).
  { rewrite (get_saved hq H c k _ Ok), (Hnr _ _ Hv), Hspm by (left; reflexivity).
    apply memb_nIn in Hni. rewrite Hni. apply String.eqb_neq in Hna. rewrite Hna, andb_false_r. exact Hv. }
  assert (Hsl : get "__slots__" (saved_dict hq H k) = get "__slots__" (c_dict k)).
  { rewrite (get_saved hq H c k) by auto. change (special_slot "__slots__") with false. change (String.eqb "__slots__" "_abc_impl") with false.
    rewrite andb_false_r, !orb_false_r.
    replace (memb "__slots__" (slots_of k)) with false.
    2:{ symmetry. apply memb_nIn. intros Hi. apply (ok_slot_names _ _ _ _ Ok) in Hi. apply Hi. simpl; auto. }
    destruct (get "__slots__" (c_dict k)) eqn:E.
    - rewrite (Hnr _ _ E). + reflexivity. + right. pose proof (ok_slots _ _ _ _ Ok) as Ho. rewrite E in Ho. destruct c0; try contradiction; reflexivity.
    - destruct (_ || _); reflexivity. }
  unfold type_new. rewrite Hsl. fold (slots_of k).
  destruct (c_base_dict k && memb "__dict__" (slots_of k)); auto. destruct (c_base_weak k && memb "__weakref__" (slots_of k)); auto.
  assert (Hex : existsb (fun n => has n (saved_dict hq H k)) (map (mangle (c_name k)) (filter (fun n => negb (special_slot n)) (slots_of k))) = true).
  { apply existsb_exists. exists (mangle (c_name k) s). split.
    - apply in_map, filter_In. rewrite Hsp. auto.
    - apply has_get. eauto. }
  rewrite Hex. reflexivity.
Qed.

(** the classes type.__new__ makes meet the hypotheses: any body without the interpreter's own entries *)
Definition admin : list string := ["__doc__"; "__module__"; "__slots__"; "__hash__"; "__eq__"; "_abc_impl"].
Definition body_ok (hq : nat -> bool) (H : hier) (c : nat) (k : pyclass) (body : dict string cv) : Prop :=
  wf body /\ (forall n v, get n body = Some v -> n = "__doc__" \/ n = "__module__" -> has_qualname hq v = false) /\
  match get "__slots__" body with Some (VSlotStr _) | Some (VSlots _) | None => True | _ => False end /\
  (forall s, In s (slot_names (get "__slots__" body)) -> special_slot s = true \/
     (~ In s admin /\ ~ In (mangle (c_name k) s) ("__dict__" :: "__weakref__" :: admin))) /\
  get "__dict__" body = None /\ get "__weakref__" body = None /\
  (forall b n v, In b (c_bases k) -> In (n, v) (dict_of H b) -> ~ own c v).
Definition with_dict (k : pyclass) (d : dict string cv) : pyclass :=
  PyClass (c_name k) (c_bases k) d (c_abc k) (c_dyn k) (c_base_dict k) (c_base_weak k).

Lemma wf_setdefault n x d : wf d -> wf (setdefault n x d).
Proof. intros Hw. unfold setdefault. destruct (has n d); auto. apply wf_set; auto. Qed.
Lemma wf_type_new c m k d d' : wf d -> type_new c m k d = Some d' -> wf d'.
Proof.
  intros Hw. unfold type_new. destruct (_ && _); [discriminate|]. destruct (c_base_weak k && _); [discriminate|].
  destruct (existsb _ _); [discriminate|]. intros E. injection E as <-.
  assert (Hm : forall l d, wf d -> wf (fold_left (fun d n => setdefault n (VMember c n) d) l d)).
  { induction l as [|x l IH]; intros d0 H0; cbn [fold_left]; auto. apply IH, wf_setdefault; auto. }
  repeat match goal with
  | |- wf (if ?b then _ else _) => destruct b
  | |- wf (set _ _ _) => apply wf_set
  | |- wf (setdefault _ _ _) => apply wf_setdefault
  | |- wf (fold_left _ _ _) => apply Hm
  end; auto.
Qed.

Theorem C17_new_classes_ok : forall hq H c m k body d', hq m = false -> body_ok hq H c k body -> type_new c m k body = Some d' ->
  class_ok hq H c (with_dict k d').
Proof.
  intros hq H c m k body d' Hqm [Hw [Hmeta [Hsl [Hsn [Hd [Hwk Hown]]]]]] Ht.
  assert (Hpre := Ht). unfold type_new in Hpre.
  destruct (c_base_dict k && memb "__dict__" (slot_names (get "__slots__" body))) eqn:E1; [discriminate|].
  destruct (c_base_weak k && memb "__weakref__" (slot_names (get "__slots__" body))) eqn:E2; [discriminate|].
  destruct (existsb _ _) eqn:E3; [discriminate|]. clear Hpre.
  fold (members_of k body) in E3.
  assert (P1 : c_base_dict k = true -> ~ In "__dict__" (slot_names (get "__slots__" body))).
  { intros E. rewrite E in E1. cbn [andb] in E1. apply memb_nIn in E1. exact E1. }
  assert (P2 : c_base_weak k = true -> ~ In "__weakref__" (slot_names (get "__slots__" body))).
  { intros E. rewrite E in E2. cbn [andb] in E2. apply memb_nIn in E2. exact E2. }
  assert (P3 : forall n, In n (members_of k body) -> get n body = None).
  { intros n Hi. destruct (get n body) eqn:E; auto. exfalso. apply not_true_iff_false in E3. apply E3.
    apply existsb_exists. exists n. split; auto. apply has_get. eauto. }
  destruct (type_new_get c m k body P1 P2 P3) as [d'' [Ht' Hg]]. rewrite Ht in Ht'. injection Ht' as <-.
  assert (Hmem : forall n, In n (members_of k body) -> ~ In n ("__dict__" :: "__weakref__" :: admin)).
  { intros n Hi. unfold members_of in Hi. apply in_map_iff in Hi as [s [<- Hi]]. apply filter_In in Hi as [Hi Hx].
    destruct (Hsn s Hi) as [Hb|[_ Hb]]; [rewrite Hb in Hx; discriminate|exact Hb]. }
  assert (Hnm : forall n, In n ("__dict__" :: "__weakref__" :: admin) -> memb n (members_of k body) = false).
  { intros n Hi. apply memb_nIn. intros Hj. exact (Hmem n Hj Hi). }
  assert (Hslots : get "__slots__" d' = get "__slots__" body).
  { rewrite Hg. change (eqb "__slots__" "_abc_impl") with false. change (eqb "__slots__" "__hash__") with false. rewrite andb_false_r.
    unfold pre_hash. destruct (get "__slots__" body) eqn:E; auto. rewrite Hnm by (unfold admin; simpl; auto 10). reflexivity. }
  assert (Hso : slots_of (with_dict k d') = slot_names (get "__slots__" body)) by (unfold slots_of; cbn [with_dict c_dict]; now rewrite Hslots).
  constructor; cbn [with_dict c_dict c_name c_bases c_abc c_base_dict c_base_weak].
  - eapply wf_type_new; eauto.
  - intros n Hn. rewrite Hg.
    assert (Ea : (c_abc k && eqb n "_abc_impl") = false) by (destruct Hn as [->| ->]; apply andb_false_r).
    assert (Eh : eqb n "__hash__" = false) by (destruct Hn as [->| ->]; reflexivity).
    rewrite Ea, Eh. unfold pre_hash. destruct (get n body) as [v|] eqn:E.
    + exists v. split; auto. eapply Hmeta; eauto.
    + destruct Hn as [->| ->].
      * exists VNone. split; reflexivity.
      * exists (VObj m). split; [reflexivity|exact Hqm].
  - rewrite Hslots. exact Hsl.
  - rewrite Hso. intros s Hs. destruct (Hsn s Hs) as [Hx|[Hx _]]; [|exact Hx].
    unfold special_slot in Hx. apply orb_prop in Hx as [Hx|Hx]; apply String.eqb_eq in Hx; subst s; simpl; intuition discriminate.
  - rewrite Hso. intros s Hs Hsp.
    assert (Hi : In (mangle (c_name k) s) (members_of k body)).
    { unfold members_of. apply in_map, filter_In. rewrite Hsp. auto. }
    assert (Hna := Hmem _ Hi). rewrite Hg.
    assert (Hx : forall a, In a ("__dict__" :: "__weakref__" :: admin) -> eqb (mangle (c_name k) s) a = false).
    { intros a Ha. apply eqb_neq. intros <-. exact (Hna Ha). }
    rewrite (Hx "_abc_impl"), (Hx "__hash__") by (unfold admin; simpl; auto 10). rewrite andb_false_r.
    unfold pre_hash. rewrite (P3 _ Hi), (Hx "__module__"), (Hx "__doc__") by (unfold admin; simpl; auto 10).
    apply memb_In in Hi. rewrite Hi. reflexivity.
  - unfold slots_of at 1. rewrite has_get_b, Hg. cbn [with_dict c_dict]. rewrite Hslots.
    change (eqb "__dict__" "_abc_impl") with false. change (eqb "__dict__" "__hash__") with false. rewrite andb_false_r.
    unfold pre_hash. rewrite Hd, (Hnm "__dict__") by (simpl; auto). change (eqb "__dict__" "__module__") with false. change (eqb "__dict__" "__doc__") with false.
    rewrite eqb_refl. change (eqb "__dict__" "__weakref__") with false. cbn [andb]. unfold adds. rewrite has_get_b. reflexivity.
  - unfold slots_of at 1. rewrite has_get_b, Hg. cbn [with_dict c_dict]. rewrite Hslots.
    change (eqb "__weakref__" "_abc_impl") with false. change (eqb "__weakref__" "__hash__") with false. rewrite andb_false_r.
    unfold pre_hash. rewrite Hwk, (Hnm "__weakref__") by (simpl; auto). change (eqb "__weakref__" "__module__") with false. change (eqb "__weakref__" "__doc__") with false.
    rewrite eqb_refl. change (eqb "__weakref__" "__dict__") with false. cbn [andb]. unfold adds. rewrite has_get_b. reflexivity.
  - rewrite Hso. auto.
  - intros Ea. rewrite Hg, Ea. reflexivity.
  - exact Hown.
Qed.

(** example: object; Base with slots; X(Base) repeating Base's method (its entry is removed), an ABC;
    every lookup is the same on the rebuilt hierarchy *)
Definition H_chain : hier :=
  [object_class [("__hash__", VObj 10)];
   PyClass "Base" [0] [("f", VObj 1); ("__slots__", VSlots ["x"; "__y__"]); ("__module__", VObj 90); ("__doc__", VNone); ("x", VMember 1 "x"); ("__y__", VMember 1 "__y__")] false true false false;
   PyClass "X" [1] [("f", VObj 1); ("g", VObj 2); ("__module__", VObj 90); ("__doc__", VNone); ("__dict__", VOwn 2 "__dict__"); ("__weakref__", VOwn 2 "__weakref__"); ("_abc_impl", VOwn 2 "_abc_impl")] true true false false].
Lemma H_chain_wf : wf_hier hq1 H_chain.
Proof.
  intros [|[|[|c]]] k Hk; cbn in Hk; try (injection Hk as <-).
  - split; [intros b []|]. split; [discriminate|]. repeat constructor; simpl; intuition discriminate.
  - split; [intros b [<-|[]]; lia|]. split; [|repeat constructor; simpl; intuition discriminate]. intros _. split.
    + match goal with |- class_ok _ _ _ ?k => change k with (with_dict k (c_dict k)) end.
      eapply (C17_new_classes_ok _ _ _ 90 _ [("f", VObj 1); ("__slots__", VSlots ["x"; "__y__"])]); [reflexivity| |vm_compute; reflexivity].
      split; [|split; [|split; [|split; [|split; [|split]]]]].
      * repeat constructor; simpl; intuition discriminate.
      * intros n v Hg [->| ->]; discriminate Hg.
      * exact I.
      * intros s [<-|[<-|[]]]; right; (split; vm_compute; intuition discriminate).
      * reflexivity.
      * reflexivity.
      * intros b n v [<-|[]] [E|[]]. injection E as <- <-. intros [].
    + intros s [<-|[<-|[]]]; reflexivity.
  - split; [intros b [<-|[]]; lia|]. split; [|repeat constructor; simpl; intuition discriminate]. intros _. split.
    + match goal with |- class_ok _ _ _ ?k => change k with (with_dict k (c_dict k)) end.
      eapply (C17_new_classes_ok _ _ _ 90 _ [("f", VObj 1); ("g", VObj 2)]); [reflexivity| |vm_compute; reflexivity].
      split; [|split; [|split; [|split; [|split; [|split]]]]].
      * repeat constructor; simpl; intuition discriminate.
      * intros n v Hg [->| ->]; discriminate Hg.
      * exact I.
      * intros s [].
      * reflexivity.
      * reflexivity.
      * intros b n v [<-|[]] Hi. cbn in Hi.
        repeat (destruct Hi as [E|Hi]; [injection E as <- <-; cbn; try lia; auto|]). destruct Hi.
    + intros s [].
  - destruct c; discriminate Hk.
Qed.
Example ex_C17 : exists H', rebuild hq1 91 H_chain = Some H' /\ single H_chain 2 /\
  get "f" (dict_of H' 2) = None /\ (forall n, n <> "__hash__" -> lookup H' 2 n = lookup H_chain 2 n).
Proof.
  assert (Hs : single H_chain 2).
  { eapply single_step; [reflexivity|reflexivity|]. eapply single_step; [reflexivity|reflexivity|]. eapply single_root; reflexivity. }
  destruct (C17_single_inheritance_partial hq1 91 H_chain H_chain_wf) as [H' [E Hl]]. exists H'. split; auto. split; auto. split.
  - vm_compute in E. injection E as <-. reflexivity.
  - intros n Hn. apply Hl; auto.
Qed.
(** class C: __slots__ = ('__p',) *)
Example ex_C18_private : rebuild hq1 91 [object_class []; PyClass "C" [0] [("__slots__", VSlots ["__p"]); ("__module__", VObj 90); ("__doc__", VNone); ("_C__p", VMember 1 "_C__p")] false true false false] = None.
Proof. reflexivity. Qed.
(** class Base: f = 1;  class X(Base): f = Base.f;  class Z(Base): g = 3;  class D(X, Z): D.f is still Base's *)
Definition H_diamond2 : hier := [object_class [("__hash__", VObj 10)]; plain 1 "Base" [0] false [("f", VObj 1)]; plain 2 "X" [1] true [("f", VObj 1)];
  plain 3 "Z" [1] true [("g", VObj 3)]; plain 4 "D" [2; 3] true []].
Lemma plain_ok H c name bases bd d : (forall n v, In (n, v) d -> (exists o, v = VObj o) /\ ~ In n ("__dict__" :: "__weakref__" :: admin)) -> wf d ->
  (forall b n v, In b bases -> In (n, v) (dict_of H b) -> ~ own c v) ->
  class_ok hq1 H c (plain c name bases bd d) /\ no_private_slots (plain c name bases bd d) /\ wf (c_dict (plain c name bases bd d)).
Proof.
  intros Hd Hw Ho.
  assert (Hn : forall n, In n ("__dict__" :: "__weakref__" :: admin) -> get n d = None).
  { intros n Hi. destruct (get n d) eqn:E; auto. apply get_In in E. apply Hd in E as [_ E]. tauto. }
  assert (Ht : type_new c 90 (plain c name bases bd d) d = Some (c_dict (plain c name bases bd d))).
  { unfold type_new, plain. cbn [c_name c_base_dict c_base_weak c_abc c_dict].
    assert (Hs : get "__slots__" d = None) by (apply Hn; vm_compute; tauto). rewrite Hs. cbn [slot_names memb filter map existsb fold_left].
    assert (Hsh : has "__slots__" d = false) by (unfold has; now rewrite Hs). rewrite Hsh, !andb_false_r. cbn [negb orb]. rewrite !andb_true_r.
    assert (Gs : forall n x (e : dict string cv), get n e = None -> setdefault n x e = (e ++ [(n, x)])%list).
    { intros n x e He. unfold setdefault, has. rewrite He. clear Hd Hw Ho Hn Hs. induction e as [|[a b] e IH]; [reflexivity|]. cbn [get set app] in *.
      destruct (eqb_spec n a); [discriminate|]. rewrite IH; auto. }
    assert (Ga : forall n (a b : dict string cv), get n (a ++ b)%list = match get n a with Some v => Some v | None => get n b end).
    { intros n a b. induction a as [|[k0 v0] a IH]; [reflexivity|]. cbn [app get]. destruct (eqb n k0); auto. }
    assert (Gh : forall m (e : dict string cv), get "__eq__" e = None -> (if has "__eq__" e && m then set "__hash__" VNone e else e) = e) by (intros m e He; unfold has; rewrite He; reflexivity).
    rewrite (Gs "__module__") by (apply Hn; vm_compute; tauto).
    rewrite (Gs "__doc__") by (rewrite Ga, Hn by (vm_compute; tauto); reflexivity).
    destruct bd; cbn [negb].
    - rewrite Gh by (rewrite !Ga, Hn by (vm_compute; tauto); reflexivity). rewrite <- app_assoc. cbn [app]. reflexivity.
    - rewrite (Gs "__dict__") by (rewrite !Ga, Hn by (vm_compute; tauto); reflexivity).
      rewrite (Gs "__weakref__") by (rewrite !Ga, Hn by (vm_compute; tauto); reflexivity).
      rewrite Gh by (rewrite !Ga, Hn by (vm_compute; tauto); reflexivity). rewrite <- !app_assoc. reflexivity. }
  assert (Hs0 : get "__slots__" (c_dict (plain c name bases bd d)) = None).
  { cbn [plain c_dict]. assert (Hs : get "__slots__" d = None) by (apply Hn; vm_compute; tauto).
    clear - Hs. induction d as [|[k0 v0] d IH]; cbn [app get] in *.
    - destruct bd; reflexivity.
    - destruct (eqb "__slots__" k0); [discriminate|apply IH; auto]. }
  split; [|split].
  - change (plain c name bases bd d) with (with_dict (plain c name bases bd d) (c_dict (plain c name bases bd d))).
    eapply (C17_new_classes_ok hq1 H c 90); [reflexivity| |exact Ht].
    split; [exact Hw|]. split.
    { intros n v Hg Hi. exfalso. apply get_In, Hd in Hg as [_ Hg]. apply Hg. destruct Hi as [->| ->]; vm_compute; tauto. }
    assert (Hs : get "__slots__" d = None) by (apply Hn; vm_compute; tauto). rewrite Hs.
    split; [exact I|]. split; [intros s []|]. split; [apply Hn; vm_compute; tauto|]. split; [apply Hn; vm_compute; tauto|exact Ho].
  - intros s Hi. unfold slots_of in Hi. rewrite Hs0 in Hi. destruct Hi.
  - eapply wf_type_new; [exact Hw|exact Ht].
Qed.
Lemma H_diamond2_wf : wf_hier hq1 H_diamond2.
Proof.
  assert (P : forall c name bases bd d, nth_error H_diamond2 c = Some (plain c name bases bd d) ->
    (forall n v, In (n, v) d -> (exists o, v = VObj o) /\ ~ In n ("__dict__" :: "__weakref__" :: admin)) -> wf d ->
    (forall b, In b bases -> b < c) ->
    (forall b n v, In b bases -> In (n, v) (dict_of H_diamond2 b) -> ~ own c v) ->
    (forall b, In b bases -> b < c) /\ (true = true -> class_ok hq1 H_diamond2 c (plain c name bases bd d) /\ no_private_slots (plain c name bases bd d)) /\ wf (c_dict (plain c name bases bd d))).
  { intros c name bases bd d _ H1 H2 H3 H4. destruct (plain_ok H_diamond2 c name bases bd d H1 H2 H4) as [A [B C]]. auto. }
  intros c k Hk. destruct c as [|[|[|[|[|c]]]]].
  - cbn in Hk. injection Hk as <-. split; [intros b []|]. split; [discriminate|]. repeat constructor; simpl; intuition discriminate.
  - pose proof Hk as Hk'. cbn in Hk. injection Hk as <-. apply (P 1 "Base" [0] false [("f", VObj 1)] Hk').
    + intros n v [E|[]]. injection E as <- <-. split; [eauto|]. vm_compute. intuition discriminate.
    + repeat constructor; simpl; intuition discriminate.
    + intros b [<-|[]]. lia.
    + intros b n v [<-|[]] Hi. cbn in Hi. repeat (destruct Hi as [E|Hi]; [injection E as <- <-; cbn; try lia; auto|]). destruct Hi.
  - pose proof Hk as Hk'. cbn in Hk. injection Hk as <-. apply (P 2 "X" [1] true [("f", VObj 1)] Hk').
    + intros n v [E|[]]. injection E as <- <-. split; [eauto|]. vm_compute. intuition discriminate.
    + repeat constructor; simpl; intuition discriminate.
    + intros b [<-|[]]. lia.
    + intros b n v [<-|[]] Hi. cbn in Hi. repeat (destruct Hi as [E|Hi]; [injection E as <- <-; cbn; try lia; auto|]). destruct Hi.
  - pose proof Hk as Hk'. cbn in Hk. injection Hk as <-. apply (P 3 "Z" [1] true [("g", VObj 3)] Hk').
    + intros n v [E|[]]. injection E as <- <-. split; [eauto|]. vm_compute. intuition discriminate.
    + repeat constructor; simpl; intuition discriminate.
    + intros b [<-|[]]. lia.
    + intros b n v [<-|[]] Hi. cbn in Hi. repeat (destruct Hi as [E|Hi]; [injection E as <- <-; cbn; try lia; auto|]). destruct Hi.
  - pose proof Hk as Hk'. cbn in Hk. injection Hk as <-. apply (P 4 "D" [2; 3] true [] Hk').
    + intros n v [].
    + constructor.
    + intros b [<-|[<-|[]]]; lia.
    + intros b n v [<-|[<-|[]]] Hi; cbn in Hi; repeat (destruct Hi as [E|Hi]; [injection E as <- <-; cbn; try lia; auto|]); destruct Hi.
  - destruct c; discriminate Hk.
Qed.
Example ex_C17_multi : exists H', rebuild hq1 91 H_diamond2 = Some H' /\ mro H_diamond2 5 4 = Some [4; 2; 3; 1; 0] /\
  get "f" (dict_of H' 2) = None /\ lookup H' 4 "f" = lookup H_diamond2 4 "f" /\ lookup H_diamond2 4 "f" = Some (VObj 1).
Proof.
  destruct (C17_multiple_inheritance_partial hq1 91 H_diamond2 H_diamond2_wf) as [H' [E Hl]]. exists H'. split; auto.
  split; [reflexivity|]. split; [vm_compute in E; injection E as <-; reflexivity|]. split; [|reflexivity].
  apply (Hl 4 "f" [4; 2; 3; 1; 0]); [reflexivity| |discriminate].
  intros before a k after El Hk Hdyn [v [E1 [E2 _]]].
  do 5 (destruct before as [|x before]; [cbn in El; injection El as <- <-; cbn in Hk; injection Hk as <-; try discriminate; try reflexivity|cbn in El; injection El as <- El]).
  destruct before; discriminate El.
Qed.
