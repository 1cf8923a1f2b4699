(** C114: enum classes and their members. *)
From Coq Require Import String List Bool Arith Lia.
From Verif Require Import EnumModel.
Import ListNotations.

(** ** Specification *)
Section Spec.
  Variable V : Type.
  Variable veq : V -> V -> bool.
  Variable hashable : V -> bool.
  Variable copy : V -> V.
  (** the loaded value behaves like the value: hashable or not, and equal to the same things *)
  Definition good_copy (v : V) : Prop := hashable (copy v) = hashable v /\ forall w, veq w (copy v) = veq w v.
  (** the class is stored by value: it is not importable (or is from __main__) and byref is not set *)
  Definition by_value (byref located : bool) : Prop := byref = false /\ located = false.
End Spec.

(** ** Proof *)
Section Proof.
  Variable V : Type.
  Variable veq : V -> V -> bool.
  Variable hashable : V -> bool.
  Variable copy : V -> V.
  Notation lookup := (lookup V veq hashable).
  Notation define := (define V veq hashable).
  Notation first := (first V).
  Notation lrun := (lrun V veq hashable copy).
  Notation lstep := (lstep V veq hashable copy).

  Lemma first_spec p l k : first p l = Some k <-> (exists x, nth_error l k = Some x /\ p x = true) /\ forall j y, j < k -> nth_error l j = Some y -> p y = false.
  Proof.
    revert k. induction l as [|x l IH]; intros k; cbn.
    - split; [discriminate|]. intros [(y & E & _) _]. destruct k; discriminate.
    - destruct (p x) eqn:E.
      + split.
        * intros [= <-]. split; [exists x; auto|]. intros; lia.
        * intros [_ B]. destruct k; auto. specialize (B 0 x ltac:(lia) eq_refl). congruence.
      + split.
        * destruct (first p l) as [j|] eqn:F; [|discriminate]. intros [= <-]. destruct (proj1 (IH j) eq_refl) as [A B]. split; [exact A|]. intros [|j'] y L N; [cbn in N; injection N as <-; auto|].
          cbn in N. apply (B j' y); auto. lia.
        * intros [(y & A1 & A2) B]. destruct k as [|k]; [cbn in A1; injection A1 as <-; congruence|]. cbn in A1.
          assert (F : first p l = Some k). { apply IH. split; [eauto|]. intros j z L N. apply (B (Datatypes.S j) z); auto. lia. }
          now rewrite F.
  Qed.
  Lemma first_none p l : first p l = None <-> forall j y, nth_error l j = Some y -> p y = false.
  Proof.
    induction l as [|x l IH]; cbn; [split; auto; intros _ [|j] y; discriminate|]. destruct (p x) eqn:E.
    - split; [discriminate|]. intros B. specialize (B 0 x eq_refl). congruence.
    - split.
      + destruct (first p l); [discriminate|]. intros _ [|j] y; cbn; [intros [= <-]; auto|]. apply IH. reflexivity.
      + intros B. assert (F : first p l = None) by (apply IH; intros j y; apply (B (Datatypes.S j))). now rewrite F.
  Qed.
  (** what a lookup compares with *)
  Definition hits (v x : V) : bool := if hashable v then hashable x && veq x v else veq x v.
  Lemma lookup_first vs v : lookup vs v = first (hits v) vs.
  Proof. unfold EnumModel.lookup, hits. destruct (hashable v); reflexivity. Qed.
  (** the members of a class: none is found by the value of a later one; every name leads to a member; the value of each definition finds it *)
  Definition distinct (vs : list V) : Prop := forall i j x y, i < j -> nth_error vs i = Some x -> nth_error vs j = Some y -> hits y x = false.
  Lemma define_ok defs : forall e, distinct (values V e) -> (forall n k, In (n, k) (names V e) -> k < length (values V e)) ->
    distinct (values V (define defs e)) /\ (forall n k, In (n, k) (names V (define defs e)) -> k < length (values V (define defs e))).
  Proof.
    induction defs as [|[n v] defs IH]; intros e D N; cbn; auto. apply IH; destruct (lookup (values V e) v) as [k|] eqn:E; cbn; auto.
    - intros i j x y L Ni Nj. destruct (Nat.lt_trichotomy j (length (values V e))) as [C|[C|C]].
      + rewrite nth_error_app1 in Ni, Nj by lia. eauto.
      + subst j. rewrite nth_error_app2, Nat.sub_diag in Nj by lia. injection Nj as <-. rewrite nth_error_app1 in Ni by lia.
        rewrite lookup_first in E. rewrite first_none in E. eauto.
      + assert (F : nth_error (values V e ++ [v]) j = None) by (apply nth_error_None; rewrite app_length; cbn; lia). congruence.
    - intros m j I0. apply in_app_iff in I0 as [I0|[[= <- <-]|[]]]; eauto. rewrite lookup_first in E. apply first_spec in E as [(x & E & _) _]. apply nth_error_Some. congruence.
    - intros m j I0. rewrite app_length. cbn. apply in_app_iff in I0 as [I0|[[= <- <-]|[]]]; [|lia]. specialize (N _ _ I0). lia.
  Qed.
  Lemma class_ok defs e : class_statement V veq hashable defs = Some e -> distinct (values V e) /\ forall n k, In (n, k) (names V e) -> k < length (values V e).
  Proof. unfold class_statement, enum_new. intros [= <-]. apply define_ok; cbn; [intros i j x y _ E; destruct i; discriminate|intros n k []]. Qed.
  Lemma find_self defs e k v : class_statement V veq hashable defs = Some e -> nth_error (values V e) k = Some v -> veq v v = true -> lookup (values V e) v = Some k.
  Proof.
    intros C N R. destruct (class_ok defs e C) as [D _]. rewrite lookup_first. apply first_spec. split.
    - exists v. split; auto. unfold hits. destruct (hashable v); auto.
    - intros j y L Nj. eapply D; eauto.
  Qed.
  Lemma lookup_copy vs v : good_copy V veq hashable copy v -> lookup vs (copy v) = lookup vs v.
  Proof.
    intros [A B]. rewrite !lookup_first. induction vs as [|x vs IH]; cbn; auto. assert (E : hits (copy v) x = hits v x) by (unfold hits; now rewrite A, B). rewrite E, IH. reflexivity.
  Qed.
  Lemma lrun_app env l1 : forall l2 st, lrun env (l1 ++ l2) st = match lrun env l1 st with Some st' => lrun env l2 st' | None => None end.
  Proof. induction l1 as [|o l1 IH]; intros l2 st; cbn; auto. destruct (lstep env o st); auto. Qed.
  Lemma create_fails env n l st : lrun env (LCreate V n :: l) st = None.
  Proof. destruct st. reflexivity. Qed.
End Proof.

(** ** C114 *)
(** members are found by their names and values: an alias is the earlier member with an equal value *)
Theorem C114_members : forall V veq hashable defs e n k, class_statement V veq hashable defs = Some e -> In (n, k) (names V e) ->
  exists v, nth_error (values V e) k = Some v /\ (veq v v = true -> lookup V veq hashable (values V e) v = Some k).
Proof.
  intros V veq hashable defs e n k C I0. destruct (class_ok _ _ _ _ _ C) as [_ B]. specialize (B n k I0). destruct (nth_error (values V e) k) as [v|] eqn:E.
  - exists v. split; auto. intros R. eapply find_self; eauto.
  - apply nth_error_None in E. lia.
Qed.
(** stored by reference (importable, or byref), in a process that has the class under its name: the class loads as itself and each member as itself,
    if its value is equal to itself and to the loaded value *)
Theorem C114_reference_partial : forall V veq hashable copy defs e byref located k v, class_statement V veq hashable defs = Some e -> ~ by_value byref located ->
  nth_error (values V e) k = Some v -> veq v v = true -> good_copy V veq hashable copy v ->
  (exists l, dumps_class V e byref located true = Some l /\ loads V veq hashable copy (Some e) l = Some (IClass V e)) /\
  (exists l, dumps_member V e byref located true k = Some l /\ loads V veq hashable copy (Some e) l = Some (IMember V e k)).
Proof.
  intros V veq hashable copy defs e byref located k v C B N R G. assert (D : negb byref && negb located = false) by (destruct byref, located; auto; elim B; split; auto).
  assert (L : lookup V veq hashable (values V e) (copy v) = Some k) by (rewrite lookup_copy by auto; eapply find_self; eauto).
  split.
  - unfold dumps_class, save_class. cbn [memoed existsb]. rewrite D. cbn. eexists. split; reflexivity.
  - unfold dumps_member, save_member. cbn [memoed existsb]. rewrite N. unfold save_class. cbn [memoed existsb]. rewrite D. cbn. eexists. split; [reflexivity|].
    unfold loads. cbn. rewrite L. reflexivity.
Qed.
Lemma keyb_refl x : keyb x x = true.
Proof. destruct x; cbn; auto. apply Nat.eqb_refl. Qed.
Lemma keyb_eq x y : keyb x y = true -> x = y.
Proof. destruct x, y; cbn; try discriminate; auto. intros E. apply Nat.eqb_eq in E. congruence. Qed.
(** a list of members, by reference: each element loads as the member itself, however often and in whatever order they occur *)
Theorem C114_list : forall V veq hashable copy defs e byref located ks, class_statement V veq hashable defs = Some e -> ~ by_value byref located ->
  (forall k, In k ks -> exists v, nth_error (values V e) k = Some v /\ veq v v = true /\ good_copy V veq hashable copy v) ->
  exists l, dumps_list V e byref located true ks = Some l /\ loads_list V veq hashable copy (Some e) l = Some (map (IMember V e) ks).
Proof.
  intros V veq hashable copy defs e byref located ks C B A. assert (D : negb byref && negb located = false) by (destruct byref, located; auto; elim B; split; auto).
  set (it := fun x => match x with KClass => IClass V e | KMember k => IMember V e k end).
  set (ok := fun (memo : list key) (m : list (key * item V)) => forall x, memoed x memo = true -> exists p, find (fun p => keyb x (fst p)) m = Some (p, it x)).
  assert (Add : forall memo m x, ok memo m -> ok (x :: memo) ((x, it x) :: m)).
  { intros memo m x O y. cbn. destruct (keyb y x) eqn:E; cbn; [|apply O]. intros _. apply keyb_eq in E. subst. eauto. }
  assert (Cl : forall memo m s, ok memo m -> exists l memo' m', save_class V e byref located true memo = Some (l, memo') /\ lrun V veq hashable copy (Some e) l (s, m) = Some (IClass V e :: s, m') /\
            ok memo' m' /\ forall k, memoed (KMember k) memo' = memoed (KMember k) memo).
  { intros memo m s O. unfold save_class. destruct (memoed KClass memo) eqn:M.
    - exists [LGet V KClass], memo, m. split; auto. split; [|split; auto]. cbn [lrun lstep]. destruct (O KClass M) as [p E0]. change (it KClass) with (IClass V e) in E0. rewrite E0. reflexivity.
    - rewrite D. exists [LGlobal V; LMemo V KClass], (KClass :: memo), ((KClass, IClass V e) :: m). repeat split; auto. apply (Add memo m KClass O). }
  assert (Go : forall ks memo m s, (forall k, In k ks -> exists v, nth_error (values V e) k = Some v /\ veq v v = true /\ good_copy V veq hashable copy v) -> ok memo m ->
            exists l memo' m', save_list V e byref located true ks memo = Some (l, memo') /\ lrun V veq hashable copy (Some e) l (s, m) = Some ((rev (map (IMember V e) ks) ++ s)%list, m')).
  { clear A ks. induction ks as [|k ks IH]; intros memo m s A O.
    - exists [], memo, m. auto.
    - destruct (A k (or_introl eq_refl)) as (v & N & R & G).
      assert (One : exists l memo' m', save_member V e (save_class V e byref located true) k memo = Some (l, memo') /\ lrun V veq hashable copy (Some e) l (s, m) = Some (IMember V e k :: s, m') /\ ok memo' m').
      { unfold save_member. destruct (memoed (KMember k) memo) eqn:M.
        - exists [LGet V (KMember k)], memo, m. split; auto. split; auto. cbn [lrun lstep]. destruct (O (KMember k) M) as [p E0]. rewrite E0. reflexivity.
        - rewrite N. destruct (Cl memo m s O) as (l & memo' & m' & -> & L & O' & Q). rewrite Q, M. do 3 eexists. split; [reflexivity|].
          rewrite lrun_app, L. cbn. rewrite lookup_copy by auto. rewrite (find_self V veq hashable defs e k v C N R). split; [reflexivity|]. apply (Add memo' m' (KMember k) O'). }
      destruct One as (l & memo' & m' & E & L & O'). destruct (IH memo' m' (IMember V e k :: s) (fun j J => A j (or_intror J)) O') as (l' & memo2 & m2 & E' & L').
      exists (l ++ l')%list, memo2, m2. cbn [save_list]. rewrite E, E'. split; auto. rewrite lrun_app, L, L'. cbn [map rev]. rewrite <- app_assoc. reflexivity. }
  destruct (Go ks [] [] [] A) as (l & memo' & m' & E & L); [intros x; discriminate|]. exists l. unfold dumps_list, loads_list. rewrite E, L. split; auto.
  rewrite app_nil_r, rev_involutive. reflexivity.
Qed.
(** in a process with another version of the class, it is the first member with an equal value *)
Theorem C114_other_version : forall V veq hashable copy e e' byref located k v l i, ~ by_value byref located -> nth_error (values V e) k = Some v -> good_copy V veq hashable copy v ->
  dumps_member V e byref located true k = Some l -> loads V veq hashable copy (Some e') l = Some i ->
  exists k' v', i = IMember V e' k' /\ nth_error (values V e') k' = Some v' /\ veq v' v = true.
Proof.
  intros V veq hashable copy e e' byref located k v l i B N G. assert (D : negb byref && negb located = false) by (destruct byref, located; auto; elim B; split; auto).
  unfold dumps_member, save_member. cbn [memoed existsb]. rewrite N. unfold save_class. cbn [memoed existsb]. rewrite D. cbn. intros [= <-]. unfold loads. cbn.
  rewrite lookup_copy by auto. rewrite lookup_first. destruct (first V (hits V veq hashable v) (values V e')) as [j|] eqn:F; [|discriminate]. cbn. intros [= <-].
  apply first_spec in F as [(x & F1 & F2) _]. exists j, x. repeat split; auto. unfold hits in F2. destruct (hashable v); auto. apply andb_true_iff in F2. tauto.
Qed.
(** REFUTED for a class stored by value (every enum class of __main__): if it can be dumped at all, the pickle cannot be loaded, in any process:
    the class would be created from a plain dictionary, which EnumType does not take *)
Theorem C114_value_refuted : forall V veq hashable copy e byref located importable k l env, by_value byref located ->
  dumps_class V e byref located importable = Some l \/ dumps_member V e byref located importable k = Some l -> loads V veq hashable copy env l = None.
Proof.
  intros V veq hashable copy e byref located importable k l env [-> ->] H.
  assert (K : forall memo r, memoed KClass memo = false -> save_class V e false false importable memo = Some r -> exists a n b, fst r = a ++ LCreate V n :: b).
  { intros memo r M. unfold save_class. rewrite M. cbn [negb andb]. destruct (save_members _ _ _ _ _) as [[a m']|]; [|discriminate]. destruct (memoed KClass m'); intros [= <-]; cbn [fst]; eauto. }
  assert (L : exists a n b, l = a ++ LCreate V n :: b).
  { destruct H as [H|H].
    - unfold dumps_class in H. destruct (save_class V e false false importable []) as [r|] eqn:E; [|discriminate]. injection H as <-. apply (K [] r eq_refl E).
    - unfold dumps_member, save_member in H. cbn [memoed existsb] in H. destruct (nth_error (values V e) k) as [v|]; [|discriminate].
      destruct (save_class V e false false importable []) as [[a0 m0]|] eqn:E; [|discriminate]. destruct (K [] _ eq_refl E) as (a & n & b & F). cbn [fst] in F. subst a0.
      destruct (memoed (KMember k) m0); injection H as <-; cbn [fst]; rewrite <- app_assoc; cbn [app]; eauto. }
  destruct L as (a & n & b & ->). unfold loads. rewrite lrun_app. destruct (lrun V veq hashable copy env a ([], [])); auto. now rewrite create_fails.
Qed.
(** it can be dumped exactly if its module has it under its name (or it has no members): the error comes with loading only *)
Theorem C114_value_dumps : forall V veq hashable defs e importable, class_statement V veq hashable defs = Some e ->
  ((exists l, dumps_class V e false false importable = Some l) <-> importable = true \/ names V e = []).
Proof.
  intros V veq hashable defs e importable C. destruct (class_ok _ _ _ _ _ C) as [_ B]. unfold dumps_class, save_class. cbn [memoed existsb negb andb].
  assert (A : forall ks memo, (forall k, In k ks -> k < length (values V e)) -> importable = true -> exists r, save_members V e importable ks memo = Some r).
  { induction ks as [|k ks IH]; intros memo L I0; cbn; [eauto|]. unfold save_member. destruct (memoed (KMember k) memo).
    - destruct (IH memo) as [[l m] ->]; auto. + intros; apply L; now right. + eauto.
    - destruct (nth_error (values V e) k) as [v|] eqn:E; [|apply nth_error_None in E; specialize (L k (or_introl eq_refl)); lia].
      assert (S0 : exists r, save_class_again V importable memo = Some r) by (unfold save_class_again, by_name; rewrite I0; destruct (memoed KClass memo); eauto).
      destruct S0 as [[l m] ->]. destruct (memoed (KMember k) m); (match goal with |- context [save_members _ _ _ _ ?mm] => destruct (IH mm) as [[l' m'] ->]; auto; [intros; apply L; now right|eauto] end). }
  split.
  - destruct importable; [auto|]. intros (l & H). right. destruct (names V e) as [|[n k] ns] eqn:N; auto. cbn in H. exfalso. unfold save_member in H. cbn [memoed existsb] in H.
    destruct (nth_error (values V e) k); cbn in H; discriminate.
  - intros [I0|N].
    + destruct (A (map snd (names V e) ++ map snd (names V e) ++ map snd (names V e)) []) as [[l m] E]; auto.
      { intros k I1. rewrite !in_app_iff in I1. assert (In k (map snd (names V e))) as I2 by tauto. apply in_map_iff in I2 as ([n k'] & <- & I2). eauto. }
      rewrite E. destruct (memoed KClass m); cbn; eauto.
    + rewrite N. cbn. eauto.
Qed.
(** REFUTED for a member whose value is not equal to itself (nan): it dumps and does not load *)
Theorem C114_nan_refuted : forall V veq hashable copy e k v l, (forall w, veq w v = false) -> good_copy V veq hashable copy v -> nth_error (values V e) k = Some v ->
  dumps_member V e false true true k = Some l -> loads V veq hashable copy (Some e) l = None.
Proof.
  intros V veq hashable copy e k v l Na G N. unfold dumps_member, save_member. cbn [memoed existsb]. rewrite N. cbn. intros [= <-]. unfold loads. cbn. rewrite lookup_copy by auto.
  rewrite lookup_first. assert (F : first V (hits V veq hashable v) (values V e) = None).
  { apply first_none. intros j y _. unfold hits. rewrite Na. destruct (hashable v); auto using andb_false_r. }
  now rewrite F.
Qed.
(** a case: None is nan; RED = 1, GREEN = 2, R = 1 (an alias), an unhashable value 100 *)
Definition ex_eq (a b : option nat) : bool := match a, b with Some x, Some y => Nat.eqb x y | _, _ => false end.
Definition ex_hash (a : option nat) : bool := match a with Some x => Nat.ltb x 100 | None => true end.
Theorem C114_case : exists e, class_statement _ ex_eq ex_hash [("RED", Some 1); ("GREEN", Some 2); ("R", Some 1); ("LIST", Some 100); ("NAN", None)]%string = Some e /\
  names _ e = [("RED", 0); ("GREEN", 1); ("R", 0); ("LIST", 2); ("NAN", 3)]%string /\
  (exists l, dumps_member _ e false true true 2 = Some l /\ loads _ ex_eq ex_hash (fun v => v) (Some e) l = Some (IMember _ e 2)) /\
  (exists l, dumps_member _ e false true true 3 = Some l /\ loads _ ex_eq ex_hash (fun v => v) (Some e) l = None) /\
  (exists l, dumps_class _ e false false true = Some l /\ loads _ ex_eq ex_hash (fun v => v) (Some e) l = None) /\
  (exists l, dumps_class _ e true false true = Some l /\ loads _ ex_eq ex_hash (fun v => v) (Some e) l = Some (IClass _ e)) /\
  dumps_class _ e false false false = None.
Proof. eexists. split; [reflexivity|]. split; [reflexivity|]. repeat split; try (eexists; split; reflexivity). Qed.
