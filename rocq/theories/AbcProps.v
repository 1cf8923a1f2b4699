(** C69: virtual subclasses of abstract base classes. *)
From Coq Require Import List Bool Arith Lia.
From Verif Require Import AbcModel.
Import ListNotations.

(** ** specification *)
(** [f] makes copies of the classes of [V], all new, and nothing else *)
Definition copies (W : world) (V : list nat) (f : nat -> nat) : Prop :=
  (forall a, In a V -> W (f a) = None) /\ (forall a b, In a V -> In b V -> f a = f b -> a = b) /\ (forall a, ~ In a V -> f a = a).
(** the classes of [V] exist, and classes refer to existing classes only *)
Definition closed (W : world) (V : list nat) : Prop :=
  (forall a, In a V -> W a <> None) /\ NoDup V /\
  (forall a k, W a = Some k -> forall x, In x (c_mro k) \/ In x (c_bases k) \/ In x (c_reg k) -> W x <> None).
(** issubclass(c, a), by steps that the pickle of V has: registrations of classes saved by value are made with classes saved by value,
    and classes that inherit from classes saved by value are among those saved by value *)
Inductive issub_within (W : world) (V : list nat) : nat -> nat -> Prop :=
  | iw_mro c a k : W c = Some k -> In a (c_mro k) -> (In c V \/ ~ In a V) -> issub_within W V c a
  | iw_reg c a k r : W a = Some k -> In r (c_reg k) -> (In a V \/ ~ In r V) -> issub_within W V c r -> issub_within W V c a
  | iw_sub c a s k : W s = Some k -> In a (c_bases k) -> (In s V \/ ~ In a V) -> issub_within W V c s -> issub_within W V c a.

(** ** the world after loading *)
Section After.
  Variable W : world. Variable V : list nat. Variable f : nat -> nat.
  Hypothesis CP : copies W V f. Hypothesis CL : closed W V.

  Lemma create_other l W0 x : (forall a, In a (map fst l) -> f a <> x) ->
    fold_left (fun W '(a, (m, b)) => put W (f a) (Cls (map f m) (map f b) [])) l W0 x = W0 x.
  Proof.
    revert W0. induction l as [|[a [m b]] l IH]; intros W0 H; [reflexivity|]. cbn [fold_left]. rewrite IH.
    - unfold put. destruct (Nat.eqb_spec x (f a)) as [E|]; [|reflexivity]. exfalso. apply (H a); [left; reflexivity|auto].
    - intros y Y. apply H. right. exact Y.
  Qed.
  Lemma create_same l W0 : NoDup (map fst l) -> (forall a b, In a (map fst l) -> In b (map fst l) -> f a = f b -> a = b) ->
    forall a m b, In (a, (m, b)) l -> fold_left (fun W '(a, (m, b)) => put W (f a) (Cls (map f m) (map f b) [])) l W0 (f a) = Some (Cls (map f m) (map f b) []).
  Proof.
    revert W0. induction l as [|[a0 [m0 b0]] l IH]; intros W0 ND INJ a m b I; [destruct I|]. cbn [fold_left]. inversion ND as [|y l' N1 N2]; subst.
    destruct I as [I|I].
    - injection I as <- <- <-. rewrite create_other.
      + unfold put. rewrite Nat.eqb_refl. reflexivity.
      + intros y Y E. cbn in INJ. assert (y = a0) as -> by (apply INJ; auto). exact (N1 Y).
    - apply IH; [exact N2| |exact I]. intros x y X Y. apply INJ; right; assumption.
  Qed.
  Lemma registered l : forall W0 x, fold_left (fun W '(a, r) => register W (f a) (f r)) l W0 x =
    match W0 x with Some c => Some (Cls (c_mro c) (c_bases c) (c_reg c ++ map (fun p => f (snd p)) (filter (fun p => Nat.eqb (f (fst p)) x) l))) | None => None end.
  Proof.
    induction l as [|[a r] l IH]; intros W0 x; cbn [fold_left filter map].
    - destruct (W0 x) as [[m b g]|]; [|reflexivity]. cbn. rewrite app_nil_r. reflexivity.
    - rewrite IH. unfold register. cbn [fst]. destruct (Nat.eqb_spec (f a) x) as [E|E].
      + subst x. destruct (W0 (f a)) as [[m b g]|] eqn:G.
        * unfold put. rewrite Nat.eqb_refl. cbn. rewrite <- app_assoc. reflexivity.
        * rewrite G. reflexivity.
      + destruct (W0 (f a)) as [[m b g]|] eqn:G; [|reflexivity]. unfold put. replace (Nat.eqb x (f a)) with false; [reflexivity|]. symmetry. apply Nat.eqb_neq. congruence.
  Qed.
  Lemma entries_fst L : (forall a, In a L -> W a <> None) -> map fst (flat_map (entry W) L) = L.
  Proof.
    induction L as [|a L IH]; intros H; [reflexivity|]. cbn [flat_map]. rewrite map_app, IH by (intros x X; apply H; right; exact X). unfold entry.
    destruct (W a) eqn:E; [reflexivity|]. exfalso. apply (H a); [left; reflexivity|exact E].
  Qed.
  Lemma calls_filter x z : filter (fun p => Nat.eqb (f (fst p)) x) (calls W z) = if Nat.eqb (f z) x then calls W z else [].
  Proof.
    unfold calls. destruct (W z) as [c|]; [|destruct (Nat.eqb _ _); reflexivity]. induction (c_reg c) as [|r l R]; [destruct (Nat.eqb _ _); reflexivity|].
    cbn [map filter fst]. destruct (Nat.eqb (f z) x); [f_equal; exact R|exact R].
  Qed.
  Lemma calls_none x L : (forall a, In a L -> f a <> x) -> filter (fun p => Nat.eqb (f (fst p)) x) (flat_map (calls W) L) = [].
  Proof.
    induction L as [|a L IH]; intros H; [reflexivity|]. cbn [flat_map]. rewrite filter_app, calls_filter, IH by (intros y Y; apply H; right; exact Y).
    replace (Nat.eqb (f a) x) with false; [reflexivity|]. symmetry. apply Nat.eqb_neq, H. left. reflexivity.
  Qed.
  Lemma calls_of L a k : NoDup L -> W a = Some k -> In a L -> (forall x, In x L -> f x = f a -> x = a) ->
    map (fun p => f (snd p)) (filter (fun p => Nat.eqb (f (fst p)) (f a)) (flat_map (calls W) L)) = map f (c_reg k).
  Proof.
    intros ND E I INJ. induction L as [|x L IH]; [destruct I|]. cbn [flat_map]. rewrite filter_app, map_app, calls_filter. inversion ND as [|y l N1 N2]; subst.
    destruct (Nat.eq_dec x a) as [->|NE].
    - rewrite Nat.eqb_refl. unfold calls at 1. rewrite E, map_map, calls_none; [cbn [snd map]; apply app_nil_r|].
      intros z Z Q. apply N1. rewrite <- (INJ z (or_intror Z) Q). exact Z.
    - replace (Nat.eqb (f x) (f a)) with false.
      + cbn [map List.app]. apply IH; [exact N2|destruct I; [congruence|assumption]|]. intros y Y. apply INJ. right. exact Y.
      + symmetry. apply Nat.eqb_neq. intros Q. apply NE. apply INJ; [left; reflexivity|exact Q].
  Qed.

  Let W' := load W f (dump W V).
  Lemma after_copy a k : In a V -> W a = Some k -> W' (f a) = Some (Cls (map f (c_mro k)) (map f (c_bases k)) (map f (c_reg k))).
  Proof.
    intros I E. destruct CP as (C1 & C2 & C3). destruct CL as (L1 & L2 & L3). unfold W', load, dump. cbn [p_classes p_calls]. rewrite registered.
    rewrite (create_same (flat_map (entry W) V) W) with (a := a) (m := c_mro k) (b := c_bases k).
    - cbn. f_equal. f_equal. apply calls_of; try assumption. intros x X. apply C2; assumption.
    - rewrite entries_fst by exact L1. exact L2.
    - rewrite entries_fst by exact L1. exact C2.
    - apply in_flat_map. exists a. split; [exact I|]. unfold entry. rewrite E. left. reflexivity.
  Qed.
  Lemma after_old x : (forall a, In a V -> f a <> x) -> W' x = W x.
  Proof.
    intros H. destruct CL as (L1 & _). unfold W', load, dump. cbn [p_classes p_calls]. rewrite registered, create_other by (rewrite entries_fst by exact L1; exact H).
    destruct (W x) as [[m b g]|]; [|reflexivity]. cbn. f_equal. f_equal.
    rewrite calls_none by exact H. cbn. apply app_nil_r.
  Qed.
  Lemma after_exists x k : W x = Some k -> W' x = Some k.
  Proof.
    intros E. destruct CP as (C1 & _). rewrite after_old; [exact E|]. intros a A Q. rewrite <- Q in E. rewrite (C1 a A) in E. discriminate.
  Qed.

  Lemma kept c a : issub_within W V c a -> issub W' (f c) (f a).
  Proof.
    destruct CP as (C1 & C2 & C3).
    induction 1 as [c a k E I D|c a k r E I D H IH|c a s k E I D H IH].
    - destruct (in_dec Nat.eq_dec c V) as [A|A].
      + apply (is_mro W' (f c) (f a) _ (after_copy c k A E)). apply in_map. exact I.
      + destruct D as [D|D]; [contradiction|]. rewrite (C3 c A), (C3 a D). exact (is_mro W' c a k (after_exists c k E) I).
    - destruct (in_dec Nat.eq_dec a V) as [A|A].
      + apply (is_reg W' (f c) (f a) _ (f r) (after_copy a k A E)); [|exact IH]. apply in_map. exact I.
      + destruct D as [D|D]; [contradiction|]. rewrite (C3 a A). rewrite (C3 r D) in IH. exact (is_reg W' (f c) a k r (after_exists a k E) I IH).
    - destruct (in_dec Nat.eq_dec s V) as [A|A].
      + apply (is_sub W' (f c) (f a) (f s) _ (after_copy s k A E)); [|exact IH]. apply in_map. exact I.
      + destruct D as [D|D]; [contradiction|]. rewrite (C3 a D). rewrite (C3 s A) in IH. exact (is_sub W' (f c) a s k (after_exists s k E) I IH).
  Qed.

  (** the class a class of the new world is a copy of, or itself *)
  Definition g (x : nat) : nat := match find (fun a => Nat.eqb (f a) x) V with Some a => a | None => x end.
  Lemma g_copy a : In a V -> g (f a) = a.
  Proof.
    destruct CP as (C1 & C2 & C3). intros I. unfold g. destruct (find (fun a0 => Nat.eqb (f a0) (f a)) V) as [b|] eqn:F.
    - apply find_some in F as [F1 F2]. apply Nat.eqb_eq in F2. apply C2; assumption.
    - apply (find_none _ _ F) in I. rewrite Nat.eqb_refl in I. discriminate.
  Qed.
  Lemma g_old x : W x <> None -> g x = x.
  Proof.
    destruct CP as (C1 & C2 & C3). intros E. unfold g. destruct (find (fun a => Nat.eqb (f a) x) V) as [b|] eqn:F; [|reflexivity].
    apply find_some in F as [F1 F2]. apply Nat.eqb_eq in F2. exfalso. apply E. rewrite <- F2. apply C1. exact F1.
  Qed.
  Lemma g_f x : W x <> None -> g (f x) = x.
  Proof.
    intros E. destruct (in_dec Nat.eq_dec x V) as [I|I]; [apply g_copy; exact I|]. destruct CP as (_ & _ & C3). rewrite (C3 x I). apply g_old. exact E.
  Qed.
  Lemma after_inv x k' : W' x = Some k' -> exists k, W (g x) = Some k /\ (forall y, In y (c_mro k') -> In (g y) (c_mro k)) /\ (forall y, In y (c_bases k') -> In (g y) (c_bases k)) /\
    (forall y, In y (c_reg k') -> In (g y) (c_reg k)).
  Proof.
    intros E. destruct CL as (L1 & L2 & L3). destruct (find (fun a => Nat.eqb (f a) x) V) as [a|] eqn:F.
    - apply find_some in F as [F1 F2]. apply Nat.eqb_eq in F2. subst x. destruct (W a) as [k|] eqn:Wa; [|exfalso; exact (L1 a F1 Wa)].
      rewrite (after_copy a k F1 Wa) in E. injection E as <-. rewrite (g_copy a F1). exists k. split; [exact Wa|]. cbn [c_mro c_bases c_reg].
      assert (forall l y, (forall z, In z l -> W z <> None) -> In y (map f l) -> In (g y) l) as M.
      { intros l y Z Y. apply in_map_iff in Y as (z & <- & Y). rewrite g_f by (apply Z; exact Y). exact Y. }
      split; [|split]; intros y; apply M; intros z Z; apply (L3 a k Wa); auto.
    - assert (forall a, In a V -> f a <> x) as H. { intros a A Q. apply (find_none _ _ F) in A. rewrite Q, Nat.eqb_refl in A. discriminate. }
      rewrite (after_old x H) in E. rewrite g_old by congruence. exists k'. split; [exact E|].
      split; [|split]; intros y Y; rewrite g_old by (apply (L3 x k' E); auto); exact Y.
  Qed.
  Lemma no_more x y : issub W' x y -> issub W (g x) (g y).
  Proof.
    induction 1 as [c a k E I|c a k r E I H IH|c a s k E I H IH]; destruct (after_inv _ _ E) as (k0 & E0 & M & B & R).
    - exact (is_mro W _ _ k0 E0 (M _ I)).
    - exact (is_reg W _ _ k0 (g r) E0 (R _ I) IH).
    - exact (is_sub W _ _ (g s) k0 E0 (B _ I) IH).
  Qed.
End After.

(** ** C69 *)
(** a virtual subclass stays one: the copies -- or the classes themselves, if saved by reference -- are subclasses as the originals are, if the
    registrations and subclasses that make it so are in the pickle *)
Theorem C69_kept_partial : forall W V f c a, copies W V f -> closed W V -> issub_within W V c a -> issub (load W f (dump W V)) (f c) (f a).
Proof. intros W V f c a CP CL. exact (kept W V f CP CL c a). Qed.
(** nothing becomes a subclass that was none *)
Theorem C69_no_more : forall W V f c a, copies W V f -> closed W V -> W c <> None -> W a <> None -> issub (load W f (dump W V)) (f c) (f a) -> issub W c a.
Proof.
  intros W V f c a CP CL C A H. apply (no_more W V f CP CL) in H. rewrite (g_f W V f CP c C), (g_f W V f CP a A) in H. exact H.
Qed.
(** and the classes that are not in the pickle are as they were *)
Theorem C69_others : forall W V f x k, copies W V f -> closed W V -> W x = Some k -> load W f (dump W V) x = Some k.
Proof. intros W V f x k CP CL. exact (after_exists W V f CP CL x k). Qed.
(** if every class there is is saved by value, all is kept: exactly *)
Corollary C69_exact : forall W V f c a, copies W V f -> closed W V -> (forall x, W x <> None -> In x V) -> W c <> None -> W a <> None ->
  (issub (load W f (dump W V)) (f c) (f a) <-> issub W c a).
Proof.
  intros W V f c a CP CL ALL C A. split; [apply C69_no_more; assumption|]. intros H. apply C69_kept_partial; [exact CP|exact CL|].
  induction H as [c a k E I|c a k r E I H IH|c a s k E I H IH].
  - apply (iw_mro W V c a k E I). left. apply ALL. congruence.
  - apply (iw_reg W V c a k r E I); [left; apply ALL; exact A|]. apply IH; [exact C|]. destruct CL as (_ & _ & L3). apply (L3 a k E). auto.
  - apply (iw_sub W V c a s k E I); [left; apply ALL; congruence|]. apply IH; [exact C|congruence].
Qed.

(** ** refutations *)
(** 1: a class of the program, 2, registered with an abstract base class that is saved by reference, 1 (collections.abc.Sequence) *)
Definition W1 : world := fun x => match x with 1 => Some (Cls [1] [] [2]) | 2 => Some (Cls [2] [] []) | _ => None end.
Definition f1 (x : nat) : nat := match x with 2 => 12 | _ => x end.
Lemma cp1 : copies W1 [2] f1.
Proof.
  split; [|split].
  - intros a [<-|[]]. reflexivity.
  - intros a b [<-|[]] [<-|[]] _. reflexivity.
  - intros a N. destruct a as [|[|[|a]]]; try reflexivity. exfalso. apply N. left. reflexivity.
Qed.
Lemma cl1 : closed W1 [2].
Proof.
  split; [|split].
  - intros a [<-|[]]. discriminate.
  - constructor; [intros []|constructor].
  - intros a k E x H. destruct a as [|[|[|a]]]; try discriminate; injection E as <-; cbn in H; intuition (subst; discriminate).
Qed.
Theorem C69_byref_refuted : exists W V f c a, copies W V f /\ closed W V /\ issub W c a /\ ~ In a V /\ In c V /\ ~ issub (load W f (dump W V)) (f c) (f a).
Proof.
  exists W1, [2], f1, 2, 1. split; [exact cp1|]. split; [exact cl1|]. split; [|split; [|split]].
  - apply (is_reg W1 2 1 (Cls [1] [] [2]) 2 eq_refl (or_introl eq_refl)). apply (is_mro W1 2 2 (Cls [2] [] []) eq_refl). left. reflexivity.
  - intros [X|[]]. discriminate.
  - left. reflexivity.
  - cbn [f1]. intros H. set (W2 := load W1 f1 (dump W1 [2])) in *.
    assert (forall x, x <> 12 -> W2 x = W1 x) as OLD. { intros x N. apply (after_old W1 [2] f1 cl1). intros b [<-|[]] Q. cbn in Q. congruence. }
    assert (W2 12 = Some (Cls [12] [] [])) as NEW by reflexivity.
    assert (forall x y, issub W2 x y -> x = 12 -> y = 12) as G; [|apply G in H; [discriminate|reflexivity]].
    induction 1 as [c a k E I|c a k r E I Y IH|c a t k E I Y IH]; intros ->.
    + rewrite NEW in E. injection E as <-. destruct I as [<-|[]]. reflexivity.
    + rewrite (IH eq_refl) in I. destruct (Nat.eq_dec a 12) as [->|N]; [reflexivity|]. rewrite (OLD a N) in E. exfalso.
      destruct a as [|[|[|a]]]; cbn in E; try discriminate; injection E as <-; cbn in I; intuition discriminate.
    + rewrite (IH eq_refl), NEW in E. injection E as <-. destruct I.
Qed.
(** 2: a class 3 registered with 2, a subclass of the abstract base class 1; 2 is not in the pickle of 1 and 3: the copy of 3 is no subclass of the copy of 1 *)
Definition W3 : world := fun x => match x with 1 => Some (Cls [1] [] []) | 2 => Some (Cls [2; 1] [1] [3]) | 3 => Some (Cls [3] [] []) | _ => None end.
Definition f3 (x : nat) : nat := match x with 1 => 11 | 3 => 13 | _ => x end.
Lemma cp3 : copies W3 [1; 3] f3.
Proof.
  split; [|split].
  - intros a [<-|[<-|[]]]; reflexivity.
  - intros a b [<-|[<-|[]]] [<-|[<-|[]]] H; try reflexivity; discriminate.
  - intros a N. destruct a as [|[|[|[|a]]]]; try reflexivity; exfalso; apply N; cbn; auto.
Qed.
Lemma cl3 : closed W3 [1; 3].
Proof.
  split; [|split].
  - intros a [<-|[<-|[]]]; discriminate.
  - repeat constructor; cbn; intuition discriminate.
  - intros a k E x H. destruct a as [|[|[|[|a]]]]; try discriminate; injection E as <-; cbn in H; intuition (subst; discriminate).
Qed.
Theorem C69_subclass_refuted : exists W V f c a, copies W V f /\ closed W V /\ issub W c a /\ In a V /\ In c V /\ ~ issub (load W f (dump W V)) (f c) (f a).
Proof.
  exists W3, [1; 3], f3, 3, 1. split; [exact cp3|]. split; [exact cl3|]. split; [|split; [|split]].
  - apply (is_sub W3 3 1 2 (Cls [2; 1] [1] [3]) eq_refl (or_introl eq_refl)). apply (is_reg W3 3 2 (Cls [2; 1] [1] [3]) 3 eq_refl (or_introl eq_refl)).
    apply (is_mro W3 3 3 (Cls [3] [] []) eq_refl). left. reflexivity.
  - cbn. auto.
  - cbn. auto.
  - cbn [f3]. intros H. set (W4 := load W3 f3 (dump W3 [1; 3])) in *.
    assert (forall x, x <> 11 -> x <> 13 -> W4 x = W3 x) as OLD. { intros x N1 N2. apply (after_old W3 [1; 3] f3 cl3). intros b [<-|[<-|[]]] Q; cbn in Q; congruence. }
    assert (W4 11 = Some (Cls [11] [] [])) as NEW1 by reflexivity. assert (W4 13 = Some (Cls [13] [] [])) as NEW3 by reflexivity.
    assert (forall x y, issub W4 x y -> x = 13 -> y = 13) as G; [|apply G in H; [discriminate|reflexivity]].
    induction 1 as [c a k E I|c a k r E I Y IH|c a t k E I Y IH]; intros ->.
    + rewrite NEW3 in E. injection E as <-. destruct I as [<-|[]]. reflexivity.
    + rewrite (IH eq_refl) in I. destruct (Nat.eq_dec a 13) as [->|N]; [reflexivity|]. destruct (Nat.eq_dec a 11) as [->|N1]; [rewrite NEW1 in E; injection E as <-; destruct I|].
      rewrite (OLD a N1 N) in E. exfalso. destruct a as [|[|[|[|a]]]]; cbn in E; try discriminate; injection E as <-; cbn in I; intuition discriminate.
    + rewrite (IH eq_refl), NEW3 in E. injection E as <-. destruct I.
Qed.
(** an example: 1 an abstract base class of the program with 2 registered, both saved by value, 5 (int) registered as well *)
Definition W5 : world := fun x => match x with 1 => Some (Cls [1] [] [2; 5]) | 2 => Some (Cls [2] [] []) | 5 => Some (Cls [5] [] []) | _ => None end.
Definition f5 (x : nat) : nat := match x with 1 => 11 | 2 => 12 | _ => x end.
Example C69_ex : issub_within W5 [1; 2] 2 1 /\ issub_within W5 [1; 2] 5 1 /\ load W5 f5 (dump W5 [1; 2]) 11 = Some (Cls [11] [] [12; 5]) /\
  load W5 f5 (dump W5 [1; 2]) 1 = Some (Cls [1] [] [2; 5]).
Proof.
  split; [|split; [|split; reflexivity]].
  - apply (iw_reg W5 _ 2 1 (Cls [1] [] [2; 5]) 2 eq_refl); [cbn; auto|cbn; auto|]. apply (iw_mro W5 _ 2 2 (Cls [2] [] []) eq_refl); cbn; auto.
  - apply (iw_reg W5 _ 5 1 (Cls [1] [] [2; 5]) 5 eq_refl); [cbn; auto|cbn; auto|]. apply (iw_mro W5 _ 5 5 (Cls [5] [] []) eq_refl); [cbn; auto|].
    right. cbn. intuition discriminate.
Qed.
