(** C62: badobjects, badtypes and errors with a depth. *)
From Coq Require Import String List Bool Arith Lia.
From Verif Require Import PyDict DetectModel.
Import ListNotations.
Local Open Scope string_scope.

(** ** specification *)
(** from [o], following the attributes [path], one gets to [x], and every object on the way (not [o] itself) fails to pickle *)
Inductive bad_path (W : world) : nat -> list string -> nat -> Prop :=
  | bp_here : forall o, bad_path W o [] o
  | bp_attr : forall o n p path x, In n (dir W o) -> getattr W o n = Ret p -> pickles W p = Ret false -> bad_path W p path x ->
      bad_path W o (n :: path) x.
(** the report has [leaf] under the keys [path] *)
Inductive at_path : tree -> list string -> tree -> Prop :=
  | ap_here : forall t, at_path t [] t
  | ap_key : forall d n t path leaf, In (n, t) d -> at_path t path leaf -> at_path (TDict d) (n :: path) leaf.

(** ** lemmas *)
Lemma scan_spec W f o l d : scan W f o l = Ret d -> forall n t, In (n, t) d <-> exists x, In n l /\ getattr W o n = Ret x /\ pickles W x = Ret false /\ f x = Ret t.
Proof.
  revert d. induction l as [|m l IH]; intros d H n t; cbn in H.
  - injection H as <-. split; [intros []|intros (x & [] & _)].
  - destruct (getattr W o m) as [x|e] eqn:G; [|discriminate]. destruct (pickles W x) as [[|]|e] eqn:P; [| |discriminate].
    + rewrite (IH _ H). split; intros (y & A & B & C & D); exists y; [split; [right; exact A|auto]|].
      destruct A as [<-|A]; [rewrite G in B; injection B as <-; congruence|auto].
    + destruct (f x) as [u|e] eqn:F; [|discriminate]. destruct (scan W f o l) as [r|e] eqn:R; [|discriminate]. injection H as <-.
      specialize (IH _ eq_refl n t). cbn. rewrite IH. split.
      * intros [E|(y & A & B)]; [injection E as <- <-; exists x; auto|exists y; intuition].
      * intros (y & [<-|A] & B & C & D); [left; congruence|right; exists y; auto].
Qed.
Lemma scan_total W f o l : (forall n, In n l -> exists x b, getattr W o n = Ret x /\ pickles W x = Ret b /\ (b = false -> exists t, f x = Ret t)) ->
  exists d, scan W f o l = Ret d.
Proof.
  induction l as [|n l IH]; intros H; [exists []; reflexivity|]. cbn.
  destruct (H n (or_introl eq_refl)) as (x & b & G & P & F). rewrite G, P. destruct (IH (fun m M => H m (or_intror M))) as (d & D).
  destruct b; [exists d; exact D|]. destruct (F eq_refl) as (t & T). rewrite T, D. eexists. reflexivity.
Qed.

(** ** C62 *)
(** badobjects(o, depth): under the keys of a path of that length there is exactly the object the path leads to, if everything on the path fails to pickle *)
Theorem C62_badobjects : forall W depth o t, badobjects W depth o = Ret t -> 1 <= depth ->
  forall path leaf, List.length path = depth -> (at_path t path leaf <-> exists x, leaf = TObj x /\ bad_path W o path x).
Proof.
  intros W. induction depth as [|depth IH]; intros o t H Hd path leaf L; [lia|]. cbn in H.
  destruct (scan W (badobjects W depth) o (dir W o)) as [d|e] eqn:S; [|discriminate]. injection H as <-.
  destruct path as [|n path]; [discriminate|]. cbn in L. injection L as L.
  pose proof (scan_spec _ _ _ _ _ S n) as SP.
  split.
  - intros A. inversion A as [|d' n' t path' leaf' I B]; subst. apply SP in I as (x & A1 & A2 & A3 & A4).
    destruct path as [|m path].
    + inversion B; subst. cbn in A4. rewrite A3 in A4. injection A4 as <-. exists x. split; [reflexivity|].
      econstructor; try eassumption. constructor.
    + apply (IH x t A4) in B; [|cbn; lia|cbn; reflexivity]. destruct B as (y & -> & B). exists y. split; [reflexivity|]. econstructor; eassumption.
  - intros (x & -> & B). inversion B as [|o' n' p path' x' B1 B2 B3 B4]; subst.
    assert (exists t, badobjects W (List.length path) p = Ret t /\ at_path t path (TObj x)) as (t & T1 & T2).
    { destruct (badobjects W (List.length path) p) as [t|e] eqn:T.
      - exists t. split; [reflexivity|]. destruct path as [|m path].
        + cbn in T. rewrite B3 in T. injection T as <-. inversion B4; subst. constructor.
        + apply (IH p t T); [cbn; lia|reflexivity|]. exists x. auto.
      - exfalso. clear - S B1 B2 B3 T. revert S B1. generalize (dir W o) at 1 2. intros l. revert d. induction l as [|m l IHl]; intros d S B1; [destruct B1|].
        cbn in S. destruct (getattr W o m) as [y|] eqn:G; [|discriminate]. destruct (pickles W y) as [[|]|] eqn:P; [| |discriminate].
        + destruct B1 as [->|B1]; [rewrite B2 in G; injection G as <-; congruence|]. eapply IHl; eassumption.
        + destruct (badobjects W (List.length path) y) as [u|] eqn:U; [|discriminate].
          destruct (scan W (badobjects W (List.length path)) o l) as [r|] eqn:R; [|discriminate].
          destruct B1 as [->|B1]; [rewrite B2 in G; injection G as <-; congruence|]. eapply IHl; [reflexivity|exact B1]. }
    apply (ap_key d n t path (TObj x)); [|exact T2]. apply SP. exists p. auto.
Qed.
(** with depth 0: None if the object pickles, else the object *)
Theorem C62_badobjects_top : forall W o b, pickles W o = Ret b -> badobjects W 0 o = Ret (if b then TNone else TObj o).
Proof. intros W o b H. cbn. rewrite H. destruct b; reflexivity. Qed.

(** badtypes gives the types of what badobjects gives *)
Fixpoint map_tree (f : nat -> nat) (t : tree) : tree :=
  match t with TNone => TNone | TObj o => TObj (f o) | TDict d => TDict (map (fun p => (fst p, map_tree f (snd p))) d) end.
Definition map_res (f : nat -> nat) (r : res tree) : res tree := match r with Ret t => Ret (map_tree f t) | Raise e => Raise e end.
Theorem C62_badtypes : forall W depth o, badtypes W depth o = map_res (typ W) (badobjects W depth o).
Proof.
  intros W. induction depth as [|depth IH]; intros o; cbn.
  - destruct (pickles W o) as [[|]|]; reflexivity.
  - assert (forall l, scan W (badtypes W depth) o l = match scan W (badobjects W depth) o l with Raise e => Raise e
      | Ret d => Ret (map (fun p => (fst p, map_tree (typ W) (snd p))) d) end) as A.
    { induction l as [|n l IHl]; [reflexivity|]. cbn. destruct (getattr W o n) as [x|]; [|reflexivity]. destruct (pickles W x) as [[|]|]; [exact IHl| |reflexivity].
      rewrite IH. destruct (badobjects W depth x); [|reflexivity]. cbn. rewrite IHl. destruct (scan W (badobjects W depth) o l); reflexivity. }
    rewrite A. destruct (scan W (badobjects W depth) o (dir W o)); reflexivity.
Qed.

(** if no attribute that is met raises an exception, a report is given *)
Theorem C62_reports : forall W, (forall o n, In n (dir W o) -> exists x, getattr W o n = Ret x) -> (forall o, exists b, pickles W o = Ret b) ->
  forall depth o, exists t, badobjects W depth o = Ret t.
Proof.
  intros W G P. induction depth as [|depth IH]; intros o; cbn.
  - destruct (P o) as (b & B). rewrite B. destruct b; eexists; reflexivity.
  - destruct (scan_total W (badobjects W depth) o (dir W o)) as (d & D).
    { intros n N. destruct (G o n N) as (x & X). destruct (P x) as (b & B). exists x, b. split; [exact X|]. split; [exact B|]. intros _. apply IH. }
    rewrite D. eexists. reflexivity.
Qed.
(** REFUTED: one attribute that raises, and badobjects and badtypes raise, whatever else does not pickle *)
Theorem C62_raising_attribute_refuted : forall W depth o n e, In n (dir W o) -> getattr W o n = Raise e ->
  exists e', badobjects W (S depth) o = Raise e' /\ badtypes W (S depth) o = Raise e'.
Proof.
  intros W depth o n e N G.
  assert (exists e', badobjects W (S depth) o = Raise e') as (e' & H).
  { cbn. assert (exists e', scan W (badobjects W depth) o (dir W o) = Raise e') as (e' & ->); [|exists e'; reflexivity].
    revert N. generalize (dir W o). induction l as [|m l IH]; intros N; [destruct N|]. cbn.
    destruct (getattr W o m) as [x|e1] eqn:X; [|exists e1; reflexivity]. destruct N as [->|N]; [congruence|]. destruct (IH N) as (e' & E).
    destruct (pickles W x) as [[|]|e2]; [exists e'; exact E| |exists e2; reflexivity].
    destruct (badobjects W depth x) as [t|e2]; [|exists e2; reflexivity]. rewrite E. exists e'. reflexivity. }
  exists e'. split; [exact H|]. rewrite C62_badtypes, H. reflexivity.
Qed.
(** errors enters such an attribute with its exception, and goes on *)
Lemma scan_errors_spec W f o l d : scan_errors W f o l = Ret d -> forall n t, In (n, t) d <-> In n l /\
  ((exists e, getattr W o n = Raise e /\ t = TObj e) \/ (exists x, getattr W o n = Ret x /\ pickles W x = Ret false /\ f x = Ret t)).
Proof.
  revert d. induction l as [|m l IH]; intros d H n t; cbn in H.
  - injection H as <-. split; [intros []|intros ([] & _)].
  - destruct (getattr W o m) as [x|e] eqn:G.
    + destruct (pickles W x) as [[|]|e] eqn:P; [| |discriminate].
      * rewrite (IH _ H). split; intros (A & B); (split; [|exact B]); [right; exact A|].
        destruct A as [<-|A]; [|exact A]. destruct B as [(e & B & _)|(y & B & C & _)]; [congruence|]. rewrite G in B. injection B as <-. congruence.
      * destruct (f x) as [u|e] eqn:F; [|discriminate]. destruct (scan_errors W f o l) as [r|e] eqn:R; [|discriminate]. injection H as <-.
        specialize (IH _ eq_refl n t). cbn. rewrite IH. split.
        -- intros [E|(A & B)]; [injection E as <- <-; split; [auto|right; exists x; auto]|auto].
        -- intros ([<-|A] & B); [|auto]. left. destruct B as [(e & B & _)|(y & B & C & D)]; [congruence|]. congruence.
    + destruct (scan_errors W f o l) as [r|e1] eqn:R; [|discriminate]. injection H as <-. specialize (IH _ eq_refl n t). cbn. rewrite IH. split.
      * intros [E|(A & B)]; [injection E as <- <-; split; [auto|left; exists e; auto]|auto].
      * intros ([<-|A] & B); [|auto]. left. destruct B as [(e2 & B & ->)|(y & B & _)]; congruence.
Qed.
Theorem C62_errors : forall W exact depth o t, errors W exact (S depth) o = Ret t ->
  exists d, t = TDict d /\ forall n u, In (n, u) d <-> In n (dir W o) /\
    ((exists e, getattr W o n = Raise e /\ u = TObj e) \/ (exists x, getattr W o n = Ret x /\ pickles W x = Ret false /\ errors W exact depth x = Ret u)).
Proof.
  intros W exact depth o t H. cbn in H. destruct (scan_errors W (errors W exact depth) o (dir W o)) as [d|e] eqn:S; [|discriminate].
  injection H as <-. exists d. split; [reflexivity|]. apply scan_errors_spec. exact S.
Qed.
(** errors(o) is None exactly if the copy was made, has the type of the original and, with exact, equals it *)
Theorem C62_errors_top : forall W exact o, errors W exact 0 o = Ret TNone <->
  copy W o = Ret tt /\ same_type W o = true /\ (exact = true -> equal W o = Ret true).
Proof.
  intros W exact o. cbn. destruct (copy W o) as [[]|e]; [|split; [discriminate|intros (A & _); discriminate]].
  destruct exact.
  - destruct (equal W o) as [[|]|e]; [|split; [discriminate|intros (_ & _ & X); specialize (X eq_refl); discriminate]..].
    destruct (same_type W o); split; auto; try discriminate. intros (_ & A & _). discriminate.
  - destruct (same_type W o); split; auto; try discriminate.
    + intros _. split; [reflexivity|]. split; [reflexivity|discriminate].
    + intros (_ & A & _). discriminate.
Qed.
(** REFUTED: an object that pickles may have an error: pickles accepts a copy that equals the original, or whose type prints the same; errors does not *)
Theorem C62_disagree_refuted : exists W o, badobjects W 0 o = Ret TNone /\ errors W false 0 o = Ret (TObj assertion_error).
Proof.
  exists {| dir := fun _ => []; getattr := fun _ _ => Raise 1; pickles := fun _ => Ret true; typ := fun _ => 0; copy := fun _ => Ret tt;
            equal := fun _ => Ret true; same_type := fun _ => false |}, 5. split; reflexivity.
Qed.

(** example: object 1 has attributes ok (2, pickles), bad (3, does not), and 3 has an attribute inner (4), which does not *)
Definition ex_world : world := {|
  dir := fun o => match o with 1 => ["ok"; "bad"] | 3 => ["inner"] | _ => [] end;
  getattr := fun o n => match o with 1 => if String.eqb n "ok" then Ret 2 else Ret 3 | _ => Ret 4 end;
  pickles := fun o => Ret (Nat.eqb o 2); typ := fun o => o + 100; copy := fun o => if Nat.eqb o 2 then Ret tt else Raise 7;
  equal := fun _ => Ret true; same_type := fun _ => true |}.
Example ex_depth2 : badobjects ex_world 2 1 = Ret (TDict [("bad", TDict [("inner", TObj 4)])]). Proof. reflexivity. Qed.
Example ex_depth1 : badtypes ex_world 1 1 = Ret (TDict [("bad", TObj 103)]). Proof. reflexivity. Qed.
Example ex_errors : errors ex_world false 1 1 = Ret (TDict [("bad", TObj 7)]). Proof. reflexivity. Qed.
Example ex_path : bad_path ex_world 1 ["bad"; "inner"] 4.
Proof. apply bp_attr with 3; [cbn; auto|reflexivity|reflexivity|]. apply bp_attr with 4; [cbn; auto|reflexivity|reflexivity|]. constructor. Qed.
