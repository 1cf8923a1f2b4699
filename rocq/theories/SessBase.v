(** What an opcode can do to the attributes of an instance. *)
From Coq Require Import String List Bool Arith ZArith Lia.
From Verif Require Import PyDict CoreModel CoreSpec CoreSim CoreStep CoreReach CoreObj CoreMain CoreProps HashSpec SessModel.
Import ListNotations.
Local Open Scope string_scope.
Local Open Scope list_scope.

(** [grows b b']: [b'] is [b] some opcodes later *)
Definition grows (b b' : obj) : Prop :=
  match b, b' with
  | ORed nb c args _ _ st, ORed nb' c' args' _ _ st' => nb = nb' /\ c = c' /\ args = args' /\ (st <> SNone -> st' <> SNone)
  | ORed _ _ _ _ _ _, _ => False
  | _, ORed _ _ _ _ _ _ => False
  | _, _ => True
  end.
Lemma grows_refl b : grows b b.
Proof. destruct b; cbn; auto. Qed.
Lemma grows_trans a b c : grows a b -> grows b c -> grows a c.
Proof. destruct a, b, c; cbn; intros X Y; try exact I; try contradiction. destruct X as (-> & -> & -> & X), Y as (-> & -> & -> & Y). repeat split; auto. Qed.
Definition hgrows (h h' : list obj) : Prop := forall a b, nth_error h a = Some b -> exists b', nth_error h' a = Some b' /\ grows b b'.
Lemma hg_refl h : hgrows h h.
Proof. intros a b E. exists b. auto using grows_refl. Qed.
Lemma hg_trans a b c : hgrows a b -> hgrows b c -> hgrows a c.
Proof. intros A B x o E. destruct (A _ _ E) as (o1 & E1 & G1). destruct (B _ _ E1) as (o2 & E2 & G2). exists o2. eauto using grows_trans. Qed.
Lemma hg_app h l : hgrows h (h ++ l).
Proof. intros a b E. exists b. split; auto using grows_refl. rewrite nth_app_l; auto. eapply nth_lt; eauto. Qed.
Lemma hg_upd h a b b' : nth_error h a = Some b -> grows b b' -> hgrows h (upd h a b').
Proof.
  intros Ea G x o E. destruct (Nat.eq_dec x a) as [->|Hn].
  - exists b'. split; [apply nth_upd_same; eapply nth_lt; eauto|congruence].
  - exists o. rewrite nth_upd_other by auto. auto using grows_refl.
Qed.
Lemma upd_state_some st new : new <> SNone -> upd_state st new <> SNone.
Proof. destruct new; cbn; congruence. Qed.
Lemma state_arg_some h v : state_arg h v <> SNone.
Proof. unfold state_arg. destruct (dict_items h v); [discriminate|]. destruct (tuple_items h v) as [[|x [|y [|]]]|]; try discriminate. destruct (dict_items h x), (dict_items h y); discriminate. Qed.

Ltac hg1 := cbn [heap alloc push set_stk set_heap]; try apply hg_refl; try apply hg_app.
Lemma call_grows f args m m' : call f args m = Some m' -> hgrows (heap m) (heap m').
Proof.
  unfold call. intros E.
  repeat match type of E with
  | context [match ?x with _ => _ end] => destruct x eqn:?; try discriminate
  end; injection E as <-; hg1;
  try (eapply hg_upd; [eassumption|cbn; auto]; fail).
  all: try (eapply hg_trans; [eapply hg_upd; [eassumption|]|apply hg_app]; cbn; auto).
Qed.
Lemma make_tuple_grows vs m : hgrows (heap m) (heap (make_tuple vs m)).
Proof. unfold make_tuple. destruct vs; hg1. Qed.
Lemma pop_mark_heap m l m' : pop_mark m = Some (l, m') -> heap m' = heap m.
Proof. unfold pop_mark. destruct (meta m); [discriminate|]. intros E; injection E as <- <-. reflexivity. Qed.
Lemma extend_grows b vs b' : extend (Some b) vs = Some b' -> grows b b'.
Proof. destruct b; cbn; intros E; try discriminate; injection E as <-; cbn; auto. Qed.
Lemma set_all_grows b vs b' : set_all (Some b) vs = Some b' -> grows b b'.
Proof. destruct b; cbn; intros E; try discriminate; injection E as <-; cbn; auto. Qed.
Lemma step_grows o m m' : step o m = Some m' -> hgrows (heap m) (heap m').
Proof.
  intros E. destruct o; cbn [step] in E; try discriminate.
  all: try match goal with E : context [pop_mark ?x] |- _ => destruct (pop_mark x) as [[items m1]|] eqn:Ep; [pose proof (pop_mark_heap _ _ _ Ep) as Eh|]; try discriminate end.
  all: try (injection E as <-; hg1; fail).
  - destruct (Nat.leb p 5); [|discriminate]. injection E as <-. hg1.
  - destruct (stk m); [injection E as <-; rewrite Eh|injection E as <-]; hg1.
  - destruct (stk m); [discriminate|injection E as <-]; hg1.
  - injection E as <-. rewrite Eh. hg1.
  - injection E as <-. rewrite <- Eh. apply make_tuple_grows.
  - destruct (Nat.leb n (length (stk m))); [|discriminate]. injection E as <-. apply (make_tuple_grows _ (set_stk (skipn n (stk m)) m)).
  - injection E as <-. rewrite <- Eh. hg1.
  - destruct (stk m) as [|v [|[|a] s]]; try discriminate. destruct (nth_error (heap m) a) as [b|] eqn:Ea; [|discriminate]. destruct (extend (Some b) [v]) as [b'|] eqn:Ee; [|discriminate].
    injection E as <-. hg1. eapply hg_upd; eauto using extend_grows.
  - destruct (stk m1) as [|[|a] s]; try discriminate. destruct (nth_error (heap m1) a) as [b|] eqn:Ea; [|discriminate]. destruct (extend (Some b) items) as [b'|] eqn:Ee; [|discriminate].
    injection E as <-. hg1. rewrite <- Eh. eapply hg_upd; eauto using extend_grows.
  - destruct (pairs items); [|discriminate]. injection E as <-. rewrite <- Eh. hg1.
  - destruct (stk m) as [|v [|k [|[|a] s]]]; try discriminate. destruct (nth_error (heap m) a) as [b|] eqn:Ea; [|discriminate]. destruct (set_all (Some b) [(k, v)]) as [b'|] eqn:Ee; [|discriminate].
    injection E as <-. hg1. eapply hg_upd; eauto using set_all_grows.
  - destruct (stk m1) as [|[|a] s]; try discriminate. destruct (pairs items) as [kvs|]; [|discriminate]. destruct (nth_error (heap m1) a) as [b|] eqn:Ea; [|discriminate]. destruct (set_all (Some b) kvs) as [b'|] eqn:Ee; [|discriminate].
    injection E as <-. hg1. rewrite <- Eh. eapply hg_upd; eauto using set_all_grows.
  - destruct (get i (mem m)); [|discriminate]. injection E as <-. hg1.
  - destruct (stk m); [discriminate|]. injection E as <-. hg1.
  - destruct (stk m); [discriminate|]. injection E as <-. hg1.
  - destruct (stk m) as [|args [|f s]]; try discriminate. destruct (tuple_items (heap m) args) as [vs|]; [|discriminate]. apply call_grows in E. exact E.
  - destruct (stk m) as [|args [|f s]]; try discriminate. destruct (tuple_items (heap m) args) as [vs|]; [|discriminate]. injection E as <-. hg1.
  - destruct (stk m) as [|v [|[|a] s]]; try discriminate. destruct (nth_error (heap m) a) as [b|] eqn:Ea; [|discriminate]. destruct b; try discriminate; injection E as <-; hg1; eapply hg_upd; eauto; cbn; auto.
    repeat split; auto. intros _. apply upd_state_some, state_arg_some.
  - destruct (stk m1) as [|[|a] s]; try discriminate. destruct (nth_error (heap m1) a) as [b|] eqn:Ea; [|discriminate]. destruct b as [| | | | | | |[|] l]; try discriminate. injection E as <-. hg1. rewrite <- Eh. eapply hg_upd; eauto. cbn; auto.
  - injection E as <-. rewrite <- Eh. hg1.
Qed.
Lemma run_grows ops : forall m m', run ops m = Some m' -> hgrows (heap m) (heap m').
Proof.
  induction ops as [|o ops IH]; cbn [run]; intros m m' E; [injection E as <-; apply hg_refl|].
  destruct (step o m) as [m1|] eqn:Es; [|discriminate]. eapply hg_trans; [eapply step_grows; eauto|eauto].
Qed.
