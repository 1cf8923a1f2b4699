(** C111: dill.detect.at is the inverse of id. *)
From Coq Require Import ZArith List Bool Arith Lia.
From Verif Require Import AtModel.
Import ListNotations.
Local Open Scope Z_scope.

(** ** Specification *)
(** the object number [n] is alive at the address [a] after the history [h]: it was made there, and not dropped since.  Stated on the history alone:
    the history is [h1], its making at a free address, [h2] without its dropping; its number is how many objects were made before *)
Definition alive_at (h : list event) (n : nat) (a : Z) : Prop :=
  exists h1 tr h2, h = h1 ++ New a tr :: h2 /\ made (run h1) = n /\ (forall o, In o (live (run h1)) -> snd o <> a) /\ ~ In (Drop n) h2.
(** the garbage collector tracks it at the end *)
Definition is_tracked (h : list event) (n : nat) : Prop := exists a, In (T n true, a) (live (run h)).

(** ** Proof *)
Lemma scan_some {obj} (id : obj -> Z) a l o : scan id a l = Some o -> In o l /\ eq_id a (id o) = true.
Proof. induction l as [|x l IH]; cbn; [discriminate|]. destruct (eq_id a (id x)) eqn:E; [intros [= <-]; auto|]. intros H. destruct (IH H). auto. Qed.
Lemma scan_none {obj} (id : obj -> Z) a l : scan id a l = None <-> forall o, In o l -> eq_id a (id o) = false.
Proof.
  induction l as [|x l IH]; cbn; [tauto|]. destruct (eq_id a (id x)) eqn:E; split.
  - discriminate.
  - intros H. rewrite (H x) in E; auto. discriminate.
  - intros H o [<-|I0]; auto. apply IH; auto.
  - intros H. apply IH. auto.
Qed.
Definition good (m : memory) : Prop := NoDup (map snd (live m)) /\ NoDup (map (fun p => serial (fst p)) (live m)) /\ Forall (fun p => (serial (fst p) < made m)%nat) (live m).
Lemma NoDup_map_filter {A B} (f : A -> B) p l : NoDup (map f l) -> NoDup (map f (filter p l)).
Proof.
  induction l as [|x l IH]; cbn; auto. intros D. inversion D as [|? ? N D']; subst. destruct (p x); cbn; auto. constructor; auto.
  intros I0. apply N. apply in_map_iff in I0 as (y & E & I0). apply filter_In in I0 as [I0 _]. rewrite <- E. now apply in_map.
Qed.
Lemma good_step e m : good m -> good (happens e m).
Proof.
  intros (A & B & C). destruct e as [a tr|n|n tr]; cbn.
  - destruct (existsb _ _) eqn:E; [repeat split; auto|]. repeat split; cbn.
    + constructor; auto. intros I0. apply in_map_iff in I0 as (x & E1 & I0). assert (existsb (fun p => Z.eqb (snd p) a) (live m) = true); [|congruence].
      apply existsb_exists. exists x. split; auto. rewrite E1. apply Z.eqb_refl.
    + constructor; auto. intros I0. apply in_map_iff in I0 as (x & E1 & I0). rewrite Forall_forall in C. specialize (C x I0). lia.
    + constructor; cbn; [lia|]. eapply Forall_impl; [|exact C]. cbn. intros; lia.
  - repeat split; cbn; auto using NoDup_map_filter. rewrite Forall_forall in *. intros x I0. apply filter_In in I0 as [I0 _]. auto.
  - assert (F1 : map snd (map (fun p => if Nat.eqb (serial (fst p)) n then (T n tr, snd p) else p) (live m)) = map snd (live m)).
    { rewrite map_map. apply map_ext. intros x. destruct (Nat.eqb _ _); auto. }
    assert (F2 : map (fun p => serial (fst p)) (map (fun p => if Nat.eqb (serial (fst p)) n then (T n tr, snd p) else p) (live m)) = map (fun p => serial (fst p)) (live m)).
    { rewrite map_map. apply map_ext. intros x. destruct (Nat.eqb_spec (serial (fst x)) n); cbn; auto. }
    repeat split; cbn; [now rewrite F1|now rewrite F2|]. rewrite Forall_forall in *. intros x I0. apply in_map_iff in I0 as (y & <- & I0).
    destruct (Nat.eqb_spec (serial (fst y)) n); cbn; [subst n|]; now apply C.
Qed.
Lemma run_snoc h e : run (h ++ [e]) = happens e (run h).
Proof. unfold run. now rewrite fold_left_app. Qed.
Lemma run_app h1 h2 : run (h1 ++ h2) = fold_left (fun m e => happens e m) h2 (run h1).
Proof. unfold run. now rewrite fold_left_app. Qed.
Lemma good_run h : good (run h).
Proof. induction h as [|e h IH] using rev_ind; [repeat split; constructor|]. rewrite run_snoc. now apply good_step. Qed.
Definition at_place (m : memory) (n : nat) (a : Z) : Prop := exists tr, In (T n tr, a) (live m).
Lemma place_kept e m n a : at_place m n a -> e <> Drop n -> at_place (happens e m) n a.
Proof.
  intros (tr & I0) E. destruct e as [a' tr'|n'|n' tr']; cbn.
  - destruct (existsb _ _); [now exists tr|]. exists tr. now right.
  - exists tr. apply filter_In. split; auto. cbn. destruct (Nat.eqb_spec n n'); [congruence|reflexivity].
  - destruct (Nat.eqb_spec n n') as [<-|D].
    + exists tr'. apply in_map_iff. exists (T n tr, a). cbn. now rewrite Nat.eqb_refl.
    + exists tr. apply in_map_iff. exists (T n tr, a). cbn. destruct (Nat.eqb_spec n n'); [contradiction|auto].
Qed.
Lemma place_from e m n a : good m -> at_place (happens e m) n a ->
  (at_place m n a /\ e <> Drop n) \/ (n = made m /\ (exists tr, e = New a tr) /\ forall o, In o (live m) -> snd o <> a).
Proof.
  intros G (tr & I0). destruct e as [a' tr'|n'|n' tr']; cbn in I0.
  - destruct (existsb _ _) eqn:E; [left; split; [now exists tr|discriminate]|]. destruct I0 as [[= <- <- <-]|I0].
    + right. split; auto. split; [eauto|]. intros o I1 D. assert (existsb (fun p => Z.eqb (snd p) a') (live m) = true); [|congruence].
      apply existsb_exists. exists o. split; auto. rewrite D. apply Z.eqb_refl.
    + left. split; [now exists tr|discriminate].
  - apply filter_In in I0 as [I0 D]. left. split; [now exists tr|]. intros [= ->]. cbn in D. now rewrite Nat.eqb_refl in D.
  - left. split; [|discriminate]. apply in_map_iff in I0 as ([[k t'] a'] & E & I0). cbn in E. destruct (Nat.eqb_spec k n').
    + injection E as <- <- <-. subst. now exists t'.
    + injection E as <- <- <-. now exists t'.
Qed.
Lemma place_spec h n a : at_place (run h) n a <-> alive_at h n a.
Proof.
  split.
  - induction h as [|e h IH] using rev_ind; [intros (tr & [])|]. rewrite run_snoc. intros P. destruct (place_from e (run h) n a (good_run h) P) as [[Q D]|(-> & [tr ->] & F)].
    + destruct (IH Q) as (h1 & tr & h2 & -> & K & F & N). exists h1, tr, (h2 ++ [e]). rewrite <- app_assoc. repeat split; auto. rewrite in_app_iff. intros [|[|[]]]; auto.
    + exists h, tr, []. repeat split; auto.
  - intros (h1 & tr & h2 & -> & K & F & N). induction h2 as [|e h2 IH] using rev_ind.
    + rewrite run_snoc. cbn. destruct (existsb _ _) eqn:E.
      * apply existsb_exists in E as (o & I0 & E). apply Z.eqb_eq in E. now elim (F o I0).
      * exists tr. left. now rewrite <- K.
    + rewrite app_comm_cons, app_assoc, run_snoc. apply place_kept; [|intros ->; apply N, in_or_app; right; now left].
      apply IH. intros I0. apply N, in_or_app. now left.
Qed.
Lemma one_at m x y : good m -> In x (live m) -> In y (live m) -> snd x = snd y -> x = y.
Proof.
  intros (D & _) I1 I2 E. revert D I1 I2. induction (live m) as [|z l IH]; cbn; [tauto|]. intros D. inversion D as [|? ? N D']; subst.
  intros [->|I1] [->|I2]; auto; exfalso; apply N; [rewrite E|rewrite <- E]; now apply in_map.
Qed.
Lemma one_place m n a a' : good m -> at_place m n a -> at_place m n a' -> a = a'.
Proof.
  intros (_ & D & _) (t & I1) (t' & I2). revert D I1 I2. induction (live m) as [|z l IH]; cbn; [tauto|]. intros D. inversion D as [|? ? N D']; subst.
  intros [->|I1] [E|I2]; auto.
  - now injection E.
  - exfalso. apply N. apply (in_map (fun p => serial (fst p))) in I2. exact I2.
  - subst z. exfalso. apply N. apply (in_map (fun p => serial (fst p))) in I1. exact I1.
Qed.

(** ** C111 *)
(** what is found is at that address: it is one of None, True, False, or an object the program made and has not dropped *)
Theorem C111_sound : forall s h a n tr z, at_now s (run h) (AInt a) = Found (T n tr, z) -> z = a /\ (In (T n tr, a) s \/ alive_at h n a).
Proof.
  intros s h a n tr z. unfold at_now, at_. destruct (scan snd (AInt a) s) as [o|] eqn:E.
  - intros [= ->]. apply scan_some in E as [I0 E]. apply Z.eqb_eq in E. cbn in E. subst. auto.
  - destruct (scan snd (AInt a) (gc_objects (run h))) as [o|] eqn:E1; [|cbn; discriminate]. intros [= ->]. apply scan_some in E1 as [I0 E1]. apply Z.eqb_eq in E1. cbn in E1. subst.
    split; auto. right. apply place_spec. apply filter_In in I0 as [I0 _]. now exists tr.
Qed.
(** the inverse of id: whatever the history, for an object that is alive and tracked by the garbage collector (and is not where None, True or False is) *)
Theorem C111_inverse_partial : forall s h a n, alive_at h n a -> is_tracked h n -> (forall o, In o s -> snd o <> a) -> at_now s (run h) (AInt a) = Found (T n true, a).
Proof.
  intros s h a n L (a' & K) S0. apply place_spec in L. assert (a' = a) as -> by (eapply one_place; [apply good_run|exists true; exact K|exact L]).
  unfold at_now, at_. destruct (scan snd (AInt a) s) as [o|] eqn:E.
  - apply scan_some in E as [I0 E]. cbn in E. apply Z.eqb_eq in E. now elim (S0 o I0).
  - assert (G : In (T n true, a) (gc_objects (run h))) by (apply filter_In; auto). destruct (scan snd (AInt a) (gc_objects (run h))) as [o|] eqn:E1.
    + apply scan_some in E1 as [I0 E1]. cbn in E1. apply Z.eqb_eq in E1. apply filter_In in I0 as [I0 _].
      f_equal. apply (one_at (run h) _ _ (good_run h) I0 K). cbn. now symmetry.
    + rewrite scan_none in E1. specialize (E1 _ G). cbn in E1. now rewrite Z.eqb_refl in E1.
Qed.
(** nothing tracked there: ReferenceError for an int, TypeError for what is no address *)
Theorem C111_nothing : forall s h a, (forall o, In o s -> snd o <> a) -> (forall n, alive_at h n a -> ~ is_tracked h n) -> at_now s (run h) (AInt a) = RaisedReference.
Proof.
  intros s h a S0 N. unfold at_now, at_. destruct (scan snd (AInt a) s) as [o|] eqn:E.
  - apply scan_some in E as [I0 E]. cbn in E. apply Z.eqb_eq in E. now elim (S0 o I0).
  - destruct (scan snd (AInt a) (gc_objects (run h))) as [[[n tr] z]|] eqn:E1; auto. apply scan_some in E1 as [I0 E1]. cbn in E1. apply Z.eqb_eq in E1. subst z. exfalso.
    apply filter_In in I0 as [I0 Tr]. cbn in Tr. subst tr. apply (N n); [apply place_spec; now exists true|now exists a].
Qed.
Theorem C111_not_an_address : forall s h z, at_now s (run h) AOther = RaisedType /\ at_now s (run h) (AFloat None) = RaisedType /\ at_now s (run h) (AIndex z) = RaisedReference.
Proof.
  intros. unfold at_now, at_. assert (E : forall a (l : list (thing * Z)), (forall i, eq_id a i = false) -> scan snd a l = None) by (intros a l K; apply scan_none; auto).
  repeat split; rewrite !E by auto; reflexivity.
Qed.
(** a float equal to the address finds the same object; when there is none it is a TypeError *)
Theorem C111_float : forall s h z, at_now s (run h) (AFloat (Some z)) = match at_now s (run h) (AInt z) with Found o => Found o | _ => RaisedType end.
Proof.
  intros. unfold at_now, at_. assert (E : forall l : list (thing * Z), scan snd (AFloat (Some z)) l = scan snd (AInt z) l) by (induction l as [|x l IH]; cbn; auto; now rewrite IH).
  rewrite !E. destruct (scan snd (AInt z) s); auto. destruct (scan snd (AInt z) (gc_objects (run h))); auto.
Qed.
(** with a module: every value of its dictionary is found, tracked or not, and nothing else *)
Theorem C111_module : forall (obj : Type) (id : obj -> Z) special gc vals o, (forall x y, In x vals -> In y vals -> id x = id y -> x = y) -> (forall x, In x special -> id x <> id o) ->
  (In o vals -> at_ id special gc (AInt (id o)) (Some vals) = Found o) /\ (~ (exists x, In x vals /\ id x = id o) -> at_ id special gc (AInt (id o)) (Some vals) = RaisedReference).
Proof.
  intros obj id special gc vals o U S0. unfold at_. assert (N : scan id (AInt (id o)) special = None).
  { apply scan_none. intros x I0. cbn. apply Z.eqb_neq. intros E. now elim (S0 x I0). }
  rewrite N. split; intros H.
  - destruct (scan id (AInt (id o)) vals) as [x|] eqn:E.
    + apply scan_some in E as [I0 E]. cbn in E. apply Z.eqb_eq in E. f_equal. auto.
    + rewrite scan_none in E. specialize (E o H). cbn in E. now rewrite Z.eqb_refl in E.
  - destruct (scan id (AInt (id o)) vals) as [x|] eqn:E; auto. apply scan_some in E as [I0 E]. cbn in E. apply Z.eqb_eq in E. elim H. eauto.
Qed.
(** None, True and False are found whatever the module *)
Theorem C111_special : forall (obj : Type) (id : obj -> Z) special gc module o, (forall x y, In x special -> In y special -> id x = id y -> x = y) -> In o special ->
  at_ id special gc (AInt (id o)) module = Found o.
Proof.
  intros obj id special gc module o U H. unfold at_. destruct (scan id (AInt (id o)) special) as [x|] eqn:E.
  - apply scan_some in E as [I0 E]. cbn in E. apply Z.eqb_eq in E. f_equal. auto.
  - rewrite scan_none in E. specialize (E o H). cbn in E. now rewrite Z.eqb_refl in E.
Qed.
(** REFUTED in full: an object that is alive but not tracked (a str, an int) is not found; the address of a dropped object may be another object's *)
Theorem C111_untracked_refuted : exists h n a, alive_at h n a /\ at_now [] (run h) (AInt a) = RaisedReference.
Proof.
  exists [New 4096 true; New 8192 false], 1%nat, 8192. split; [|reflexivity]. exists [New 4096 true], false, []. repeat split; auto. intros o [<-|[]]. cbn. lia.
Qed.
Theorem C111_stale_refuted : exists h1 h2 a, at_now [] (run h1) (AInt a) = Found (T 0 true, a) /\ at_now [] (run (h1 ++ h2)) (AInt a) = Found (T 1 true, a).
Proof. exists [New 4096 true], [Drop 0; New 4096 true], 4096. split; reflexivity. Qed.
(** the hypotheses are met: None at 64, three objects, one dropped and its address used again *)
Theorem C111_case : let h := [New 4096 true; New 8192 false; Drop 0; New 4096 true; Track 1 true] in let s := [(T 0 false, 64)] in
  alive_at h 2 4096 /\ is_tracked h 2 /\ is_tracked h 1 /\ at_now s (run h) (AInt 4096) = Found (T 2 true, 4096) /\ at_now s (run h) (AInt 64) = Found (T 0 false, 64) /\
  at_now s (run h) (AFloat (Some 8192)) = Found (T 1 true, 8192) /\ at_now s (run h) (AInt 7) = RaisedReference /\ at_now s (run h) (AFloat None) = RaisedType.
Proof.
  cbn zeta. split.
  - exists [New 4096 true; New 8192 false; Drop 0], true, [Track 1 true]. repeat split; auto. + intros o [<-|[]]. cbn. lia. + intros [H|[]]; discriminate.
  - repeat split; try reflexivity; [exists 4096|exists 8192]; cbn; auto.
Qed.
