(** C37, C38: dill.pointers. *)
From Coq Require Import List Bool Arith ZArith Lia.
From Verif Require Import PyDict ChainModel ChainProofs.
Import ListNotations.
Local Open Scope Z_scope.

(** ** Specification *)
(** [x] refers to [y]: y is among gc.get_referents(x), and x among gc.get_referrers(y); None refers to nothing *)
Record heap := Heap { refs : nat -> list nat; referrers : nat -> list nat;
  inverse : forall x y, In y (refs x) <-> In x (referrers y); none_leaf : refs none = [] }.

(** every object of the chain refers to the next *)
Fixpoint refer_chain (H : heap) (c : list nat) : Prop :=
  match c with
  | x :: c' => match c' with y :: _ => In y (refs H x) | [] => True end /\ refer_chain H c'
  | [] => True
  end.
(** ** The search, for any graph: a shortest chain to a matching object within the depth, or [obj] *)
Theorem C37_find_chain : forall obj pred edges maxd ign,
  obj <> none -> (edges none = [] \/ forall x, ~ In none (edges x)) ->
  forall fuel, (length (ball obj edges (Z.to_nat maxd)) < fuel)%nat ->
  exists r, find_chain fuel obj pred edges maxd ign = Some r /\
    ((exists t c, r = t :: c /\ pred t = true /\ walk edges ign obj r /\ Z.of_nat (length c) <= Z.max 0 maxd /\
        forall t' c', walk edges ign obj (t' :: c') -> pred t' = true -> (length c <= length c')%nat) \/
     (r = [obj] /\ forall t c, walk edges ign obj (t :: c) -> Z.of_nat (length c) <= Z.max 0 maxd -> pred t = false)).
Proof.
  intros obj pred edges maxd ign H1 H2 fuel Hf.
  destruct (find_chain_spec obj pred edges maxd ign (conj H1 H2) fuel Hf) as [r [Hr Hs]]. exists r. split; auto.
  destruct r as [|t c]; [destruct Hs|]. destruct Hs as [[Hp [Hw [Hl Hm]]]|[Hr' Hm]].
  - left. exists t, c. repeat split; auto. destruct Hl as [->|Hl]; [simpl|]; lia.
  - right. split; auto. intros t' c' Hw Hl. apply (Hm t' c' Hw). destruct c' as [|u c']; auto. left. cbn [length] in *. lia.
Qed.
(** a result that starts with a matching object is a chain; a matching start is the whole chain *)
Corollary C37_start_matches : forall obj pred edges maxd ign fuel, pred obj = true ->
  find_chain (S fuel) obj pred edges maxd ign = Some [obj].
Proof. intros obj pred edges maxd ign fuel Hp. unfold find_chain. cbn [search queue par length unwind]. rewrite Hp. reflexivity. Qed.

(** ** walks and chains of references *)
Lemma walk_refers (H : heap) ign obj c : walk (refs H) ign obj c -> refer_chain H (rev c).
Proof.
  induction 1 as [|u t c Hw IH Hu Hg]; [simpl; auto|]. cbn [rev]. clear Hw.
  cbn [rev] in IH. revert IH. generalize (rev c) as l. induction l as [|x l IHl]; intros Hl.
  - simpl. auto.
  - cbn [app refer_chain] in *. destruct Hl as [H1 H2]. split; [|apply IHl; auto]. destruct l; exact H1.
Qed.
Lemma walk_referred (H : heap) ign obj c : walk (referrers H) ign obj c -> refer_chain H c.
Proof.
  induction 1 as [|u t c Hw IH Hu Hg]; [simpl; auto|]. cbn [refer_chain] in *. split; auto. apply inverse; auto.
Qed.
Lemma walk_last edges ign obj c : walk edges ign obj c -> last c obj = obj.
Proof. induction 1 as [|u t c Hw IH Hu Hg]; auto. Qed.
Lemma walk_ignored edges ign obj c : walk edges ign obj c -> forall x, In x (removelast c) -> ign x = false.
Proof.
  induction 1 as [|u t c Hw IH Hu Hg]; intros x Hx; [destruct Hx|].
  change (removelast (u :: t :: c)) with (u :: removelast (t :: c)) in Hx. destruct Hx as [<-|Hx]; auto.
Qed.
Lemma refers_walk (H : heap) : forall l obj, hd_error l = Some obj -> refer_chain H l -> walk (refs H) (fun _ => false) obj (rev l).
Proof.
  intros l obj. induction l as [|x l IH] using rev_ind; intros Hh Hr; [discriminate|].
  rewrite rev_app_distr. cbn [rev app]. destruct l as [|y l'] using rev_ind.
  - simpl in Hh. injection Hh as ->. constructor.
  - rewrite rev_app_distr. cbn [rev app]. clear IHl'.
    assert (Hr' : refer_chain H (l' ++ [y]) /\ In x (refs H y)).
    { clear - Hr. induction l' as [|z l' IH]; cbn [app refer_chain] in *; [tauto|].
      destruct Hr as [H1 H2]. destruct (IH H2) as [H3 H4]. split; auto. split; auto. destruct l'; exact H1. }
    constructor; [|tauto|reflexivity].
    specialize (IH ltac:(destruct l'; exact Hh) (proj1 Hr')). rewrite rev_app_distr in IH. exact IH.
Qed.
Lemma referred_walk (H : heap) ign : forall l obj, last l obj = obj -> l <> [] -> refer_chain H l -> (forall x, In x (removelast l) -> ign x = false) ->
  walk (referrers H) ign obj l.
Proof.
  induction l as [|x l IH]; intros obj Hl Hn Hr Hi; [congruence|]. destruct l as [|y l].
  - simpl in Hl. subst. constructor.
  - cbn [refer_chain] in Hr. constructor.
    + apply IH; [exact Hl|discriminate|apply Hr|]. intros z Hz. apply Hi. change (removelast (x :: y :: l)) with (x :: removelast (y :: l)). simpl; auto.
    + apply inverse, Hr.
    + apply Hi. change (removelast (x :: y :: l)) with (x :: removelast (y :: l)). simpl; auto.
Qed.

(** C37 for parents: the result is [obj], or a chain obj -> ... -> t of references to a matching t, and no chain
    to a matching object is shorter; if some chain within the depth exists the result is one *)
Theorem C37_parents : forall (H : heap) obj pred d ignore fuel, obj <> none -> (length (ball obj (refs H) (Z.to_nat d)) < fuel)%nat ->
  exists r, parents fuel (refs H) obj pred d ignore = Some r /\ hd_error r = Some obj /\ refer_chain H r /\ Z.of_nat (length r) - 1 <= Z.max 0 d /\
    (pred (last r obj) = true -> forall c, hd_error c = Some obj -> refer_chain H c -> pred (last c obj) = true -> (length r <= length c)%nat) /\
    (pred (last r obj) = false -> r = [obj] /\ forall c, hd_error c = Some obj -> refer_chain H c -> Z.of_nat (length c) - 1 <= Z.max 0 d -> pred (last c obj) = false).
Proof.
  intros H obj pred d ignore fuel Hn Hf. unfold parents.
  assert (Hrl : forall (l : list nat), last (rev l) obj = hd obj l).
  { intros [|x l]; [reflexivity|]. cbn [rev hd]. apply last_last. }
  assert (Hlr : forall (l : list nat), last l obj = hd obj (rev l)).
  { intros l. rewrite <- Hrl, rev_involutive. reflexivity. }
  assert (Hconv : forall c, hd_error c = Some obj -> refer_chain H c -> walk (refs H) (fun _ => false) obj (rev c)).
  { intros c H1 H2. apply refers_walk; auto. }
  destruct (C37_find_chain obj pred (refs H) d (fun _ => false) Hn (or_introl (none_leaf H)) fuel Hf) as [r [-> Hr]].
  cbn [option_map]. exists (rev r). split; auto.
  assert (Hhd : forall c, walk (refs H) (fun _ => false) obj c -> hd_error (rev c) = Some obj).
  { induction 1 as [|u t c Hw IH Hu Hg]; [reflexivity|]. cbn [rev] in *. destruct (rev c ++ [t]) as [|z l] eqn:E; [discriminate|]. exact IH. }
  destruct Hr as [[t [c [-> [Hp [Hw [Hl Hm]]]]]]|[-> Hm]].
  - split; [apply Hhd; auto|]. split; [eapply walk_refers; eauto|]. rewrite rev_length, Hrl. cbn [hd length]. split; [lia|].
    split; [|congruence]. intros _ c' H1 H2 H3. specialize (Hconv c' H1 H2). rewrite Hlr in H3.
    rewrite <- (rev_length c'). destruct (rev c') as [|t' c''] eqn:E; [inversion Hconv|]. cbn [hd length] in *. apply le_n_S. eapply Hm; eauto.
  - cbn [rev app hd_error last refer_chain length]. repeat split; auto; try lia.
    + intros Hp c' H1 _ _. destruct c'; [discriminate|cbn [length]; lia].
    + intros c' H1 H2 H3. specialize (Hconv c' H1 H2). rewrite Hlr. rewrite <- (rev_length c') in H3.
      destruct (rev c') as [|t' c''] eqn:E; [inversion Hconv|]. cbn [hd length] in *. eapply Hm; eauto. lia.
Qed.

(** C37 for children: chains t -> ... -> obj of references through no ignored object *)
Theorem C37_children : forall (H : heap) obj pred d ignore fuel, obj <> none -> (length (ball obj (referrers H) (Z.to_nat d)) < fuel)%nat ->
  exists r, children fuel (referrers H) obj pred d ignore = Some r /\ last r none = obj /\ refer_chain H r /\ Z.of_nat (length r) - 1 <= Z.max 0 d /\
    (forall x, In x (removelast r) -> ~ In x (ignored_ids ignore)) /\
    (pred (hd obj r) = true -> forall c, c <> [] -> last c obj = obj -> refer_chain H c -> (forall x, In x (removelast c) -> ~ In x (ignored_ids ignore)) ->
       pred (hd obj c) = true -> (length r <= length c)%nat) /\
    (pred (hd obj r) = false -> r = [obj] /\ forall c, last c obj = obj -> refer_chain H c -> (forall x, In x (removelast c) -> ~ In x (ignored_ids ignore)) ->
       Z.of_nat (length c) - 1 <= Z.max 0 d -> pred (hd obj c) = false).
Proof.
  intros H obj pred d ignore fuel Hn Hf. unfold children.
  set (ign := fun o => if in_dec Nat.eq_dec o (ignored_ids ignore) then true else false).
  assert (Hign : forall x, ign x = false <-> ~ In x (ignored_ids ignore)).
  { intros x. unfold ign. destruct (in_dec Nat.eq_dec x (ignored_ids ignore)); split; intros; try discriminate; tauto. }
  assert (Hnn : forall x, ~ In none (referrers H x)).
  { intros x Hx. apply inverse in Hx. rewrite none_leaf in Hx. destruct Hx. }
  assert (Hld : forall (c : list nat) x y, c <> [] -> last c x = last c y).
  { clear. induction c as [|z c IH]; intros x y Hc; [congruence|]. destruct c as [|w c]; [reflexivity|]. apply (IH x y). discriminate. }
  destruct (C37_find_chain obj pred (referrers H) d ign Hn (or_intror Hnn) fuel Hf) as [r [-> Hr]].
  exists r. split; auto.
  destruct Hr as [[t [c [-> [Hp [Hw [Hl Hm]]]]]]|[-> Hm]].
  - split; [rewrite (Hld _ none obj) by discriminate; eapply walk_last; eauto|]. split; [eapply walk_referred; eauto|].
    cbn [hd]. split; [cbn [length]; lia|]. split; [intros x Hx; apply Hign; eapply walk_ignored; eauto|]. split; [|congruence].
    intros _ c' H0 H1 H2 H3 H4. destruct c' as [|t' c']; [congruence|]. cbn [hd length] in *. apply le_n_S. eapply (Hm t' c'); auto.
    apply referred_walk; auto. intros x Hx. apply Hign; auto.
  - cbn [last refer_chain length hd removelast]. split; [auto|]. split; [auto|]. split; [lia|]. split; [intros x []|]. split; [|intros Hp; split; [auto|]].
    + intros Hp c' H0 _ _ _ _. destruct c'; [congruence|cbn [length]; lia].
    + intros c' H1 H2 H3 H4. destruct c' as [|t' c'].
      * cbn [hd]. apply (Hm obj []); [constructor|simpl; lia].
      * cbn [hd length] in *. apply (Hm t' c'); [|lia]. apply referred_walk; [auto|discriminate|auto|]. intros x Hx. apply Hign; auto.
Qed.

(** parent(obj, objtype): a direct referent of the type, if obj is not of that type and has one; else None *)
Theorem C37_parent : forall (H : heap) obj pred ignore fuel, obj <> none -> (length (ball obj (refs H) 1) < fuel)%nat ->
  exists p, parent fuel (refs H) obj pred ignore = Some p /\
  (forall t, p = Some t -> pred t = true /\ In t (refs H obj) /\ pred obj = false) /\
  (p = None <-> pred obj = true \/ forall t, In t (refs H obj) -> pred t = false).
Proof.
  intros H obj pred ignore fuel Hn Hf. unfold parent.
  destruct (C37_parents H obj pred 1 ignore fuel Hn Hf) as [r [-> [Hh [Hr [Hl [Hp Hq]]]]]].
  assert (Hlen : (length r <= 2)%nat) by lia.
  eexists. split; [reflexivity|]. destruct r as [|x [|y [|z r]]]; [discriminate| | |cbn [length] in Hlen; lia]; cbn [hd_error] in Hh; injection Hh as ->.
  - cbn [last] in *. rewrite Nat.eqb_refl. split; [intros t Ht; discriminate|]. split; auto. intros _. destruct (pred obj) eqn:E; [auto|right].
    intros t Ht. destruct (Hq eq_refl) as [_ Hq']. apply (Hq' [obj; t]); [reflexivity|simpl; auto|simpl; lia].
  - cbn [last refer_chain] in *. destruct Hr as [Hr _]. destruct (pred obj) eqn:Eo.
    { destruct (pred y) eqn:Ey; [|destruct (Hq eq_refl); discriminate].
      specialize (Hp eq_refl [obj] eq_refl). cbn in Hp. specialize (Hp (conj I I) Eo). lia. }
    destruct (pred y) eqn:Ey; [|destruct (Hq eq_refl); discriminate].
    destruct (Nat.eqb_spec y obj) as [->|Hne]; [congruence|]. split.
    + intros t Ht. injection Ht as <-. auto.
    + split; [discriminate|]. intros [|Hx]; [congruence|]. rewrite (Hx y Hr) in Ey. discriminate.
Qed.

(** C37 fails for obj = None: the chain of children of None ends early.  None is referred to by the list 1, and 1 by 2 *)
Definition H_none : heap.
Proof.
  refine (Heap (fun x => match x with 1 => [0] | 2 => [1] | _ => [] end)%nat (fun y => match y with 0 => [1] | 1 => [2] | _ => [] end)%nat _ eq_refl).
  intros x y. destruct x as [|[|[|x]]], y as [|[|y]]; simpl; intuition (try discriminate; auto).
Defined.
Theorem C37_none_refuted : forall fuel, children (S (S (S fuel))) (referrers H_none) none (Nat.eqb 2) 2 (IgnSized 0 true []) = Some [2; 1]%nat.
Proof. reflexivity. Qed.

(** C38, children: honoured when ignore is a tuple (or list): the objects in it, see C37_children.  parents ignores
    its argument: *)
Theorem C38_parents_ignore_refuted : forall fuel refs obj pred d i j, parents fuel refs obj pred d i = parents fuel refs obj pred d j.
Proof. reflexivity. Qed.
(** obj 1 refers to 2; ignoring 2 still finds 2 *)
Definition H_two : heap.
Proof.
  refine (Heap (fun x => match x with 1 => [2] | 2 => [3] | _ => [] end)%nat (fun y => match y with 2 => [1] | 3 => [2] | _ => [] end)%nat _ eq_refl).
  intros x y. destruct x as [|[|[|x]]], y as [|[|[|[|y]]]]; simpl; intuition (try discriminate; auto).
Defined.
Theorem C38_ignored_parent_found_refuted : forall fuel,
  parents (S (S fuel)) (refs H_two) 1 (Nat.eqb 2) 1 (IgnSized 9 true [2%nat]) = Some [1; 2]%nat.
Proof. reflexivity. Qed.
(** a single object that has a length is not ignored, its items are *)
Theorem C38_children_single_ignore_refuted : forall fuel,
  children (S (S fuel)) (referrers H_two) 3 (Nat.eqb 2) 1 (IgnSized 2 false [7%nat]) = Some [2; 3]%nat.
Proof. reflexivity. Qed.
(** ... and one that has none is *)
Theorem C38_children_ignore_partial : forall (H : heap) obj pred d ignore fuel r x, obj <> none ->
  (length (ball obj (referrers H) (Z.to_nat d)) < fuel)%nat -> children fuel (referrers H) obj pred d ignore = Some r ->
  match ignore with IgnOne o => x = o | IgnSized _ tuple items => tuple = true /\ In x items end ->
  In x r -> x = obj.
Proof.
  intros H obj pred d ignore fuel r x Hn Hf E Hx Hin.
  destruct (C37_children H obj pred d ignore fuel Hn Hf) as [r' [E' [Hl [_ [_ [Hi _]]]]]]. rewrite E in E'. injection E' as <-.
  assert (Hx' : In x (ignored_ids ignore)) by (destruct ignore; simpl in *; [auto|tauto]).
  destruct r as [|y r]; [destruct Hin|]. rewrite (app_removelast_last none (l := y :: r)) in Hin by discriminate.
  apply in_app_iff in Hin as [Hin|Hin]; [exfalso; eapply Hi; eauto|]. rewrite Hl in Hin. destruct Hin as [<-|[]]. auto.
Qed.
(** the order is the opposite of the documented one: parents starts with obj, children ends with obj (C37), so when
    something else is found parents does not end with obj and children does not start with it *)
Theorem C38_parents_order_refuted : forall (H : heap) obj pred d ignore fuel r, obj <> none -> (length (ball obj (refs H) (Z.to_nat d)) < fuel)%nat ->
  parents fuel (refs H) obj pred d ignore = Some r -> r <> [obj] -> last r obj <> obj.
Proof.
  intros H obj pred d ignore fuel r Hn Hf E Hr Hl.
  destruct (C37_parents H obj pred d ignore fuel Hn Hf) as [r' [E' [Hh [_ [_ [Hp Hq]]]]]]. rewrite E in E'. injection E' as <-.
  rewrite Hl in Hp, Hq. destruct (pred obj) eqn:Eo; [|apply Hr, Hq; auto].
  specialize (Hp eq_refl [obj] eq_refl (conj I I) Eo). destruct r as [|x [|y r]]; [discriminate| |cbn [length] in Hp; lia].
  cbn in Hh. injection Hh as ->. auto.
Qed.
Theorem C38_children_order_refuted : forall fuel, children (S (S fuel)) (referrers H_two) 3 (Nat.eqb 2) 1 (IgnSized 9 true []) = Some [2; 3]%nat.
Proof. reflexivity. Qed.

(** the hypotheses are met: grandparents of 1 in H_two *)
Example ex_C37 : parents 9 (refs H_two) 1 (Nat.eqb 3) 2 (IgnSized 9 true []) = Some [1; 2; 3]%nat /\
  parents 9 (refs H_two) 1 (Nat.eqb 3) 1 (IgnSized 9 true []) = Some [1]%nat /\ (length (ball 1 (refs H_two) 2) < 9)%nat /\
  parent 9 (refs H_two) 1 (Nat.eqb 2) (IgnSized 9 true []) = Some (Some 2%nat) /\
  children 9 (referrers H_two) 3 (Nat.eqb 1) 2 (IgnSized 9 true [2%nat]) = Some [3%nat].
Proof. repeat split; simpl; lia. Qed.

Print Assumptions C37_find_chain.
Print Assumptions C37_parents.
Print Assumptions C37_children.
Print Assumptions C37_parent.
Print Assumptions C38_children_ignore_partial.
Print Assumptions C38_parents_order_refuted.
