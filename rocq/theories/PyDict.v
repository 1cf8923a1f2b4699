(** Python dictionaries as insertion-ordered association lists, shared by all area models.
    Models the built-in [dict] (CPython): assignment to an existing key keeps its position,
    assignment to a new key appends, [del] removes the key.  Keys are compared by a boolean
    equality; Python's hash/[==] on the key types used by dill (strings, types, ids) is that equality. *)
From Coq Require Import String List Bool Ascii Arith NArith Lia.
Import ListNotations.

Class EqB (K : Type) := { eqb : K -> K -> bool; eqb_spec : forall x y, reflect (x = y) (eqb x y) }.

#[global] Instance EqB_nat : EqB nat := {| eqb := Nat.eqb; eqb_spec := Nat.eqb_spec |}.
#[global] Instance EqB_N : EqB N := {| eqb := N.eqb; eqb_spec := N.eqb_spec |}.
#[global] Instance EqB_string : EqB string := {| eqb := String.eqb; eqb_spec := String.eqb_spec |}.
#[global] Instance EqB_ascii : EqB ascii := {| eqb := Ascii.eqb; eqb_spec := Ascii.eqb_spec |}.
#[global] Instance EqB_bool : EqB bool.
Proof. refine {| eqb := Bool.eqb |}. intros [] []; simpl; constructor; congruence. Defined.

Definition prod_eqb {A B} `{EqB A} `{EqB B} (p q : A * B) : bool :=
  eqb (fst p) (fst q) && eqb (snd p) (snd q).
Lemma prod_eqb_spec {A B} `{EqB A} `{EqB B} (p q : A * B) : reflect (p = q) (prod_eqb p q).
Proof.
  destruct p as [a b], q as [a' b']; unfold prod_eqb; simpl.
  destruct (eqb_spec a a'), (eqb_spec b b'); simpl; constructor; congruence.
Qed.
#[global] Instance EqB_prod {A B} `{EqB A} `{EqB B} : EqB (A * B) :=
  {| eqb := prod_eqb; eqb_spec := prod_eqb_spec |}.

Definition option_eqb {A} `{EqB A} (p q : option A) : bool :=
  match p, q with Some a, Some b => eqb a b | None, None => true | _, _ => false end.
Lemma option_eqb_spec {A} `{EqB A} (p q : option A) : reflect (p = q) (option_eqb p q).
Proof.
  destruct p as [a|], q as [b|]; simpl; try (constructor; congruence).
  destruct (eqb_spec a b); constructor; congruence.
Qed.
#[global] Instance EqB_option {A} `{EqB A} : EqB (option A) :=
  {| eqb := option_eqb; eqb_spec := option_eqb_spec |}.

Lemma eqb_refl {K} `{EqB K} (k : K) : eqb k k = true.
Proof. destruct (eqb_spec k k); congruence. Qed.
Lemma eqb_neq {K} `{EqB K} (k k' : K) : k <> k' -> eqb k k' = false.
Proof. destruct (eqb_spec k k'); congruence. Qed.
Lemma eqb_true {K} `{EqB K} (k k' : K) : eqb k k' = true -> k = k'.
Proof. destruct (eqb_spec k k'); congruence. Qed.
Lemma eqb_false {K} `{EqB K} (k k' : K) : eqb k k' = false -> k <> k'.
Proof. destruct (eqb_spec k k'); congruence. Qed.

Fixpoint memb {K} `{EqB K} (k : K) (l : list K) : bool :=
  match l with [] => false | x :: l' => if eqb k x then true else memb k l' end.
Lemma memb_spec {K} `{EqB K} (k : K) l : reflect (In k l) (memb k l).
Proof.
  induction l as [|x l IH]; simpl; [constructor; tauto|].
  destruct (eqb_spec k x) as [->|Hn]; [constructor; auto|].
  destruct IH; constructor; [tauto|]. intros [E|E]; [congruence|tauto].
Qed.
Lemma memb_In {K} `{EqB K} (k : K) l : memb k l = true <-> In k l.
Proof. destruct (memb_spec k l); split; intros; auto; try congruence; tauto. Qed.
Lemma memb_nIn {K} `{EqB K} (k : K) l : memb k l = false <-> ~ In k l.
Proof. destruct (memb_spec k l); split; intros; auto; try congruence; tauto. Qed.

Section Dict.
  Context {K V : Type} `{EqB K}.
  Definition dict := list (K * V).

  Fixpoint get (k : K) (d : dict) : option V :=
    match d with [] => None | (k', v) :: d' => if eqb k k' then Some v else get k d' end.

  Fixpoint set (k : K) (v : V) (d : dict) : dict :=
    match d with
    | [] => [(k, v)]
    | (k', v') :: d' => if eqb k k' then (k', v) :: d' else (k', v') :: set k v d'
    end.

  Definition del (k : K) (d : dict) : dict := filter (fun p => negb (eqb k (fst p))) d.

  Definition has (k : K) (d : dict) : bool := match get k d with Some _ => true | None => false end.

  Definition keys (d : dict) : list K := map fst d.

  (** [d.update(d2)] *)
  Definition update (d d2 : dict) : dict := fold_left (fun acc p => set (fst p) (snd p) acc) d2 d.

  (** a Python dict never holds a key twice *)
  Definition wf (d : dict) : Prop := NoDup (keys d).

  Lemma get_set_same k v d : get k (set k v d) = Some v.
  Proof.
    induction d as [|[k' v'] d IH]; simpl; [now rewrite eqb_refl|].
    destruct (eqb k k') eqn:E; simpl; rewrite E; auto.
  Qed.
  Lemma get_set_other k k' v d : k <> k' -> get k (set k' v d) = get k d.
  Proof.
    intros Hn. induction d as [|[k2 v2] d IH]; simpl; [now rewrite eqb_neq|].
    destruct (eqb_spec k' k2) as [->|Hn2]; simpl.
    - now rewrite eqb_neq.
    - destruct (eqb k k2); auto.
  Qed.
  Lemma get_set k k' v d : get k (set k' v d) = if eqb k k' then Some v else get k d.
  Proof.
    destruct (eqb_spec k k') as [->|Hn]; [apply get_set_same | now apply get_set_other].
  Qed.
  Lemma get_del_same k d : get k (del k d) = None.
  Proof.
    induction d as [|[k2 v2] d IH]; simpl; auto.
    destruct (eqb k k2) eqn:E; simpl; auto. rewrite E; auto.
  Qed.
  Lemma get_del_other k k' d : k <> k' -> get k (del k' d) = get k d.
  Proof.
    intros Hn. induction d as [|[k2 v2] d IH]; simpl; auto.
    destruct (eqb_spec k' k2) as [->|Hn2]; simpl.
    - rewrite (eqb_neq k k2); auto.
    - destruct (eqb k k2); auto.
  Qed.
  Lemma get_del k k' d : get k (del k' d) = if eqb k k' then None else get k d.
  Proof.
    destruct (eqb_spec k k') as [->|Hn]; [apply get_del_same | now apply get_del_other].
  Qed.
  Lemma get_In k v d : get k d = Some v -> In (k, v) d.
  Proof.
    induction d as [|[k' v'] d IH]; simpl; [congruence|].
    destruct (eqb_spec k k') as [->|Hn]; intros E; [left; congruence | right; auto].
  Qed.
  Lemma get_None_iff k d : get k d = None <-> ~ In k (keys d).
  Proof.
    induction d as [|[k' v'] d IH]; simpl; [tauto|].
    destruct (eqb_spec k k') as [->|Hn].
    - split; [congruence | intros Hx; exfalso; apply Hx; auto].
    - rewrite IH. split; intros Hx; [intros [E|E]; [congruence | auto] | auto].
  Qed.
  Lemma get_Some_keys k v d : get k d = Some v -> In k (keys d).
  Proof. intros E. apply get_In in E. apply (in_map fst) in E. exact E. Qed.
  Lemma In_get k v d : wf d -> In (k, v) d -> get k d = Some v.
  Proof.
    unfold wf. induction d as [|[k' v'] d IH]; simpl; [tauto|].
    intros Hnd [E|Hin].
    - inversion E; subst. now rewrite eqb_refl.
    - inversion Hnd; subst. destruct (eqb_spec k k') as [->|Hn]; auto.
      exfalso. match goal with Hx : ~ In _ _ |- _ => apply Hx end.
      apply (in_map fst) in Hin. exact Hin.
  Qed.
  Lemma has_keys k d : has k d = true <-> In k (keys d).
  Proof.
    unfold has. destruct (get k d) eqn:E.
    - split; auto. intros _. eapply get_Some_keys; eauto.
    - split; [congruence|]. intros Hi. apply get_None_iff in E. tauto.
  Qed.
  Lemma has_get k d : has k d = true <-> exists v, get k d = Some v.
  Proof.
    unfold has. destruct (get k d) as [v|]; split; intros Hx; eauto; try discriminate.
    destruct Hx; discriminate.
  Qed.
  Lemma keys_set k v d : keys (set k v d) = if has k d then keys d else keys d ++ [k].
  Proof.
    unfold has. induction d as [|[k' v'] d IH]; simpl; auto.
    destruct (eqb k k') eqn:E; simpl; auto.
    rewrite IH. destruct (get k d); auto.
  Qed.
  Lemma In_keys_set k k' v d : In k (keys (set k' v d)) <-> k = k' \/ In k (keys d).
  Proof.
    rewrite keys_set. destruct (has k' d) eqn:E.
    - apply has_keys in E. split; auto. intros [->|]; auto.
    - rewrite in_app_iff; simpl. split; intros; intuition.
  Qed.
  Lemma In_keys_del k k' d : In k (keys (del k' d)) <-> k <> k' /\ In k (keys d).
  Proof.
    unfold keys, del. rewrite !in_map_iff. split.
    - intros [[k2 v2] [<- Hi]]. apply filter_In in Hi as [Hi He]. simpl in *.
      split; [|eexists; split; eauto; auto].
      intros ->. rewrite eqb_refl in He. discriminate.
    - intros [Hn [[k2 v2] [<- Hi]]]. exists (k2, v2). split; auto. apply filter_In.
      split; auto. simpl in *. rewrite eqb_neq; auto.
  Qed.
  Lemma wf_nil : wf [].
  Proof. constructor. Qed.
  Lemma NoDup_snoc (l : list K) k : NoDup l -> ~ In k l -> NoDup (l ++ [k]).
  Proof.
    induction l as [|x l IH]; simpl; intros Hnd Hn.
    - constructor; [tauto|constructor].
    - inversion Hnd; subst. constructor.
      + rewrite in_app_iff; simpl. intros [Hi|[Hi|Hi]]; subst; auto.
      + apply IH; auto.
  Qed.
  Lemma wf_set k v d : wf d -> wf (set k v d).
  Proof.
    unfold wf. rewrite keys_set. destruct (has k d) eqn:E; auto.
    intros Hnd. apply NoDup_snoc; auto.
    intros Hi. apply has_keys in Hi. congruence.
  Qed.
  Lemma wf_del k d : wf d -> wf (del k d).
  Proof.
    unfold wf, del, keys. induction d as [|[k' v'] d IH]; simpl; auto.
    intros Hnd. inversion Hnd; subst. destruct (eqb k k'); simpl; auto.
    constructor; auto.
    intros Hi. apply in_map_iff in Hi as [[k2 v2] [E Hi]]. apply filter_In in Hi as [Hi _].
    simpl in E; subst. match goal with Hx : ~ In _ _ |- _ => apply Hx end.
    apply (in_map fst) in Hi. exact Hi.
  Qed.
  Lemma wf_update d2 : forall d, wf d -> wf (update d d2).
  Proof.
    unfold update. induction d2 as [|[k v] d2 IH]; simpl; auto. intros d Hd. apply IH.
    now apply wf_set.
  Qed.
  Lemma get_update d2 : wf d2 -> forall d k,
    get k (update d d2) = match get k d2 with Some v => Some v | None => get k d end.
  Proof.
    unfold update, wf. induction d2 as [|[k' v'] d2 IH]; simpl; auto.
    intros Hnd d k. inversion Hnd; subst. rewrite IH; auto.
    rewrite get_set. destruct (eqb_spec k k') as [->|Hn].
    - destruct (get k' d2) eqn:E; auto.
      apply get_Some_keys in E. contradiction.
    - auto.
  Qed.
  Lemma In_set k v k' v' d : In (k, v) (set k' v' d) -> In (k, v) d \/ (k = k' /\ v = v').
  Proof.
    induction d as [|[k2 v2] d IH]; simpl.
    - intros [E|[]]. inversion E; auto.
    - destruct (eqb_spec k' k2) as [->|Hn]; simpl.
      + intros [E|Hi]; [inversion E; auto|auto].
      + intros [E|Hi]; auto. destruct (IH Hi); auto.
  Qed.
End Dict.
Arguments dict : clear implicits.
