(** C75: the class of a loaded object. *)
From Coq Require Import String List Bool Arith Lia.
From Verif Require Import PyDict LoadClassModel.
Import ListNotations.
Local Open Scope string_scope.

(** ** specification *)
(** the class of an object, and the full name of a class *)
Definition class_of (P : proc) (x : nat) : option nat := option_map o_class (get x (objects P)).
Definition state_of (P : proc) (x : nat) : option (dict string nat) := option_map o_state (get x (objects P)).
Definition full_name (P : proc) (c : nat) : option (string * string) :=
  option_map (fun k => (c_module k, c_qualname k)) (get c (classes P)).

(** The class d "is main's version of" c: both of the same module and qualified name, and d is what
    the qualified name finds there (for an undotted name). *)
Definition redefines (P : proc) (ns : dict string nat) (c d : nat) : Prop :=
  exists k, get c (classes P) = Some k /\ get (c_qualname k) ns = Some d /\ full_name P d = full_name P c.

(** main's names are honest for the class c: its short name is its qualified name (it is not nested),
    and what main binds to that name is, if it is a class at all, one of that module and name. *)
Definition honest (P : proc) (ns : dict string nat) (c : nat) : Prop :=
  forall k, get c (classes P) = Some k ->
    c_qualname k = c_name k /\
    forall d kd, get (c_name k) ns = Some d -> get d (classes P) = Some kd ->
                 c_module kd = c_module k /\ c_qualname kd = c_qualname k.

(** ** the exact effect *)
Definition eligible (P : proc) ns name ignore x c d : Prop :=
  class_of P x = Some c /\
  exists k kd, get c (classes P) = Some k /\ c_module k = main_name name /\ ignore = false /\
    get (c_name k) ns = Some d /\ get d (classes P) = Some kd /\
    c_hook k = HObject /\ c_mutable k = true /\ c_mutable kd = true /\ c_layout k = c_layout kd.

Ltac crush :=
  repeat match goal with
  | H : context [match get ?a ?b with _ => _ end] |- _ => let E := fresh "E" in destruct (get a b) eqn:E
  | |- context [match get ?a ?b with _ => _ end] => let E := fresh "E" in destruct (get a b) eqn:E
  end.

Lemma load_cases : forall ns name ignore P x P' r, load ns name ignore P x = (P', r) ->
  (exists c d, eligible P ns name ignore x c d /\ r = None /\
     P' = Proc (classes P) (set x (Obj d (match state_of P x with Some s => s | None => [] end)) (objects P)))
  \/ (P' = P /\ forall c d, ~ eligible P ns name ignore x c d)
  \/ (r = None /\ exists o k v, get x (objects P) = Some o /\ get (o_class o) (classes P) = Some k /\ c_hook k = HStore /\
      c_module k = main_name name /\ ignore = false /\ get (c_name k) ns = Some v /\
      P' = Proc (classes P) (set x (Obj (o_class o) (set "__class__" v (o_state o))) (objects P))).
Proof.
  intros ns name ignore P x P' r H. unfold load in H.
  assert (NE : forall o k, get x (objects P) = Some o -> get (o_class o) (classes P) = Some k ->
     forall c d, eligible P ns name ignore x c d -> c = o_class o /\
       exists kd, c_module k = main_name name /\ ignore = false /\
    get (c_name k) ns = Some d /\ get d (classes P) = Some kd /\
    c_hook k = HObject /\ c_mutable k = true /\ c_mutable kd = true /\ c_layout k = c_layout kd).
  { intros o k Ho Hk c d (C & k0 & kd & K & R). unfold class_of in C. rewrite Ho in C. cbn in C.
    injection C as <-. rewrite Hk in K. injection K as <-. split; auto. exists kd. exact R. }
  destruct (get x (objects P)) as [o|] eqn:Ho.
  2:{ injection H as <- <-. right; left. split; auto. intros c d (C & _). unfold class_of in C. rewrite Ho in C. discriminate. }
  destruct (get (o_class o) (classes P)) as [k|] eqn:Hk.
  2:{ injection H as <- <-. right; left. split; auto. intros c d (C & k & kd & K & _). unfold class_of in C. rewrite Ho in C. cbn in C.
      injection C as <-. congruence. }
  specialize (NE o k eq_refl Hk).
  destruct (String.eqb (c_module k) (main_name name)) eqn:Em.
  2:{ injection H as <- <-. right; left. split; auto. intros c d W. apply NE in W. destruct W as (_ & kd & W & _).
      apply String.eqb_neq in Em. auto. }
  apply String.eqb_eq in Em.
  destruct ignore; cbn [negb] in H.
  { injection H as <- <-. right; left. split; auto. intros c d W. apply NE in W. destruct W as (_ & kd & _ & W & _). discriminate. }
  destruct (get (c_name k) ns) as [v|] eqn:Ev.
  2:{ injection H as <- <-. right; left. split; auto. intros c d W. apply NE in W. destruct W as (_ & kd & _ & _ & W & _). congruence. }
  unfold assign in H. rewrite Ho, Hk in H.
  destruct (c_hook k) as [| e |] eqn:Eh.
  - unfold set_class in H. rewrite Ho, Hk in H.
    destruct (get v (classes P)) as [kd|] eqn:Ekd.
    + destruct (c_mutable k && c_mutable kd && Nat.eqb (c_layout k) (c_layout kd)) eqn:B.
      * injection H as <- <-. left. exists (o_class o), v.
        apply andb_prop in B. destruct B as [B B3]. apply andb_prop in B. destruct B as [B1 B2]. apply Nat.eqb_eq in B3.
        repeat split.
        -- unfold class_of. rewrite Ho. reflexivity.
        -- exists k, kd. repeat split; auto.
        -- unfold state_of. rewrite Ho. reflexivity.
      * injection H as <- <-. right; left. split; auto. intros c d W. apply NE in W.
        destruct W as (_ & kd' & _ & _ & W1 & W2 & _ & B1 & B2 & B3).
        assert (d = v) by congruence; subst d. assert (kd' = kd) by congruence; subst kd'. rewrite B1, B2, B3, Nat.eqb_refl in B. discriminate.
    + injection H as <- <-. right; left. split; auto. intros c d W. apply NE in W.
      destruct W as (_ & kd' & _ & _ & W1 & W2 & _). assert (d = v) by congruence; subst d. congruence.
  - right; left. destruct e; injection H as <- <-; (split; [auto|]); intros c d W; apply NE in W;
    destruct W as (_ & kd' & _ & _ & _ & _ & W & _); discriminate.
  - injection H as <- <-. right; right. split; auto. exists o, k, v. repeat split; auto.
Qed.

(** With ignore=True nothing at all is changed. *)
Theorem C75_ignored : forall ns name P x, load ns name true P x = (P, None).
Proof.
  intros. unfold load. destruct (get x (objects P)) as [o|]; auto. destruct (get (o_class o) (classes P)) as [k|]; auto.
  destruct (String.eqb (c_module k) (main_name name)); auto.
Qed.

(** A class of any other module than main is left alone, also with ignore=False. *)
Theorem C75_other_modules : forall ns name ignore P x c k,
  class_of P x = Some c -> get c (classes P) = Some k -> c_module k <> main_name name ->
  load ns name ignore P x = (P, None).
Proof.
  intros ns name ignore P x c k C K N. unfold load. unfold class_of in C.
  destruct (get x (objects P)) as [o|]; [|discriminate]. cbn in C. injection C as <-. rewrite K.
  apply String.eqb_neq in N. rewrite N. reflexivity.
Qed.

(** Exactly when, and to what, the class of the loaded object changes. *)
Theorem C75_repointed : forall ns name ignore P x d P',
  (load ns name ignore P x = (P', None) /\ class_of P x <> Some d) ->
  (class_of P' x = Some d <-> exists c, eligible P ns name ignore x c d).
Proof.
  intros ns name ignore P x d P' [H N]. destruct (load_cases _ _ _ _ _ _ _ H) as [(c & d' & El & _ & ->)|[(-> & Ne)|(_ & o & k & v & Ho & Hk & Hh & _ & _ & _ & ->)]].
  - split; intro W.
    + unfold class_of in W. cbn [objects] in W. rewrite get_set_same in W. cbn in W. injection W as <-. eauto.
    + destruct W as (c2 & C2 & k2 & kd2 & K2 & M2 & I2 & V2 & _). destruct El as (C1 & k1 & kd1 & K1 & M1 & I1 & V1 & _).
      assert (c2 = c) by congruence; subst c2. assert (k2 = k1) by congruence; subst k2. assert (d' = d) by congruence; subst d'.
      unfold class_of. cbn [objects]. rewrite get_set_same. reflexivity.
  - split; intro W; [contradiction|]. destruct W as (c & W). exfalso. eapply Ne; eauto.
  - split; intro W.
    + exfalso. apply N. unfold class_of in *. cbn [objects] in W. rewrite get_set_same in W. cbn in W. rewrite Ho. cbn. exact W.
    + destruct W as (c2 & C2 & k2 & kd2 & K2 & M2 & I2 & V2 & _ & H2 & _). unfold class_of in C2. rewrite Ho in C2. cbn in C2.
      injection C2 as <-. congruence.
Qed.

(** Only the object loads returns is touched: every other object read from the pickle, and every
    class, stays as it is. *)
Theorem C75_only_the_root : forall ns name ignore P x P' r y,
  load ns name ignore P x = (P', r) -> y <> x ->
  get y (objects P') = get y (objects P) /\ classes P' = classes P.
Proof.
  intros ns name ignore P x P' r y H N. destruct (load_cases _ _ _ _ _ _ _ H) as [(c & d' & El & _ & ->)|[(-> & Ne)|(_ & o & k & v & Ho & Hk & Hh & _ & _ & _ & ->)]].
  - cbn [objects classes]. rewrite get_set_other; auto.
  - auto.
  - cbn [objects classes]. rewrite get_set_other; auto.
Qed.

(** The attributes of the object are kept, unless its class overrides __setattr__ by storing. *)
Theorem C75_state_kept : forall ns name ignore P x P' r,
  load ns name ignore P x = (P', r) ->
  (forall c k, class_of P x = Some c -> get c (classes P) = Some k -> c_hook k <> HStore) ->
  state_of P' x = state_of P x.
Proof.
  intros ns name ignore P x P' r H S. destruct (load_cases _ _ _ _ _ _ _ H) as [(c & d' & El & _ & ->)|[(-> & Ne)|(_ & o & k & v & Ho & Hk & Hh & _ & _ & _ & ->)]].
  - unfold state_of. cbn [objects]. rewrite get_set_same. cbn. destruct El as (C & _). unfold class_of in C. destruct (get x (objects P)); [reflexivity|discriminate].
  - reflexivity.
  - exfalso. refine (S (o_class o) k _ Hk Hh). unfold class_of. rewrite Ho. reflexivity.
Qed.

(** loads itself fails here only through the class's own __setattr__. *)
Theorem C75_fails : forall ns name ignore P x P' e,
  load ns name ignore P x = (P', Some e) ->
  P' = P /\ (exists n, e = OtherError n) /\
  exists c k, class_of P x = Some c /\ get c (classes P) = Some k /\ c_hook k = HRaise e /\ c_module k = main_name name /\ ignore = false.
Proof.
  intros ns name ignore P x P' e H. unfold load in H.
  destruct (get x (objects P)) as [o|] eqn:Ho; [|discriminate].
  destruct (get (o_class o) (classes P)) as [k|] eqn:Hk; [|discriminate].
  destruct (String.eqb (c_module k) (main_name name)) eqn:Em; [|discriminate]. apply String.eqb_eq in Em.
  destruct ignore; cbn [negb] in H; [discriminate|].
  destruct (get (c_name k) ns) as [v|] eqn:Ev; [|discriminate].
  unfold assign in H. rewrite Ho, Hk in H. destruct (c_hook k) as [|e'|] eqn:Eh.
  - unfold set_class in H. rewrite Ho, Hk in H. destruct (get v (classes P)); [|discriminate].
    destruct (_ && _) in H; discriminate.
  - destruct e'; try discriminate H. injection H as <- <-. repeat split; eauto.
    exists (o_class o), k. repeat split; auto. unfold class_of. rewrite Ho. reflexivity.
  - discriminate.
Qed.

(** ** "the object is an instance of the class it was pickled with, or of main's own version of it" *)
Definition kept_or_redefined (ns : dict string nat) (P P' : proc) (x : nat) : Prop :=
  forall c, class_of P x = Some c -> exists d, class_of P' x = Some d /\ (d = c \/ redefines P ns c d).

Theorem C75_class_partial : forall ns name ignore P x P' r,
  load ns name ignore P x = (P', r) ->
  (forall c, class_of P x = Some c -> honest P ns c) ->
  kept_or_redefined ns P P' x.
Proof.
  intros ns name ignore P x P' r H Hon c C. specialize (Hon c C).
  destruct (load_cases _ _ _ _ _ _ _ H) as [(c' & d' & El & _ & ->)|[(-> & Ne)|(_ & o & k & v & Ho & Hk & Hh & _ & _ & _ & ->)]].
  - exists d'. destruct El as (C' & k & kd & K & M & Ig & V & Kd & _). assert (c' = c) by congruence; subst c'.
    split. { unfold class_of. cbn [objects]. rewrite get_set_same. reflexivity. }
    right. exists k. destruct (Hon k K) as [Q W]. destruct (W d' kd V Kd) as [W1 W2]. rewrite Q. repeat split; auto.
    unfold full_name. rewrite K, Kd. cbn. congruence.
  - eauto.
  - exists c. split; auto. unfold class_of in *. cbn [objects]. rewrite get_set_same. rewrite Ho in C. exact C.
Qed.

(** ... is false in general: a nested class Outer.Inner of main and another top-level class Inner. *)
Definition exC : dict nat cls :=
  [(1, Cls "__main__" "Inner" "Outer.Inner" true 0 HObject);   (* rebuilt from the pickle *)
   (2, Cls "__main__" "Inner" "Inner" true 0 HObject);         (* main's Inner, unrelated *)
   (3, Cls "__main__" "Node" "Node" true 0 HObject);           (* rebuilt from the pickle *)
   (4, Cls "__main__" "Node" "Node" true 0 HObject);           (* main's Node *)
   (5, Cls "__main__" "Point" "Point" true 1 (HRaise AttributeError));  (* a frozen dataclass *)
   (6, Cls "__main__" "Point" "Point" true 1 (HRaise AttributeError));
   (7, Cls "__main__" "Proxy" "Proxy" true 0 HStore);
   (8, Cls "__main__" "Strict" "Strict" true 0 (HRaise (OtherError 0)))].
Definition exNs : dict string nat := [("Inner", 2); ("Node", 4); ("Point", 6); ("Proxy", 7); ("Strict", 8)].
Definition exP : proc := Proc exC
  [(10, Obj 1 [("v", 90)]); (11, Obj 3 [("next", 12)]); (12, Obj 3 [("next", 91)]); (13, Obj 5 []); (14, Obj 7 []); (15, Obj 8 [])].

Theorem C75_nested_refuted :
  exists ns P x P', load ns (Some "__main__") false P x = (P', None) /\ ~ kept_or_redefined ns P P' x.
Proof.
  exists exNs, exP, 10, (fst (load exNs (Some "__main__") false exP 10)). split; [reflexivity|].
  intro W. destruct (W 1 eq_refl) as (d & D & [->|(k & K & V & _)]).
  - vm_compute in D. discriminate.
  - vm_compute in K. injection K as <-. vm_compute in V. discriminate.
Qed.

(** ** "objects that had one class when dumped have one class when loaded" *)
Definition same_classes (P P' : proc) : Prop :=
  forall x y, class_of P x = class_of P y -> class_of P' x = class_of P' y.

(** False: of two linked instances of a class of main only the root gets main's class. *)
Theorem C75_same_class_refuted :
  exists ns P x P', load ns (Some "__main__") false P x = (P', None) /\
    (forall c, class_of P x = Some c -> honest P ns c) /\ ~ same_classes P P'.
Proof.
  exists exNs, exP, 11, (fst (load exNs (Some "__main__") false exP 11)). split; [reflexivity|]. split.
  - intros c C k K. vm_compute in C. injection C as <-. vm_compute in K. injection K as <-. split; [reflexivity|].
    intros d kd D Kd. vm_compute in D. injection D as <-. vm_compute in Kd. injection Kd as <-. split; reflexivity.
  - intro W. specialize (W 11 12 eq_refl). vm_compute in W. discriminate.
Qed.

(** It holds when no other object has the class of the root, or with ignore=True. *)
Theorem C75_same_class_partial : forall ns name ignore P x P' r,
  load ns name ignore P x = (P', r) ->
  (ignore = true \/ forall y, class_of P y = class_of P x -> y = x) ->
  forall y z, class_of P y = class_of P z -> class_of P y <> None ->
    class_of P' y = class_of P' z.
Proof.
  intros ns name ignore P x P' r H C y z E N.
  destruct C as [->|U]. { rewrite C75_ignored in H. injection H as <- <-. exact E. }
  destruct (Nat.eq_dec y z) as [->|Nyz]; [reflexivity|].
  assert (Ny : y <> x). { intros ->. apply Nyz. symmetry. apply U. auto. }
  assert (Nz : z <> x). { intros ->. apply Nyz. apply U. auto. }
  destruct (C75_only_the_root _ _ _ _ _ _ _ y H Ny) as [Ey _]. destruct (C75_only_the_root _ _ _ _ _ _ _ z H Nz) as [Ez _].
  unfold class_of in *. rewrite Ey, Ez. exact E.
Qed.

(** Examples: Node follows main, a frozen dataclass silently does not, a proxy class stores the class
    as an attribute, and a strict __setattr__ makes loads fail. *)
Theorem C75_ex :
  class_of (fst (load exNs (Some "__main__") false exP 11)) 11 = Some 4 /\
  class_of (fst (load exNs (Some "__main__") false exP 13)) 13 = Some 5 /\
  state_of (fst (load exNs None false exP 14)) 14 = Some [("__class__", 7)] /\
  snd (load exNs (Some "__main__") false exP 15) = Some (OtherError 0) /\
  load exNs (Some "mymain") false exP 11 = (exP, None).
Proof. repeat split; reflexivity. Qed.
