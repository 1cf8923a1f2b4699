(** C99: referrednested finds exactly the functions (and frames) made from code nested in the function. *)
From Coq Require Import String List Bool Arith Lia.
From Verif Require Import PyDict ReferredModel.
Import ListNotations.
Local Open Scope string_scope.

Section Props.
  Variable H : oid -> obj.
  (** ** specification: the code object [d] is a constant of [c]; directly, or at any depth *)
  Definition contained (c d : oid) : Prop := exists v l k, H c = OCode v l /\ In k l /\ code H k = Some d.
  Inductive within : oid -> oid -> Prop :=
    | within_1 c d : contained c d -> within c d
    | within_S c d e : contained c d -> within d e -> within c e.
  Definition inside (recurse : bool) (c d : oid) : Prop := if recurse then within c d else contained c d.
  Definition is_code (c : oid) : Prop := exists v l, H c = OCode v l.
  (** equal code objects are the same *)
  Definition no_twins (recurse : bool) (c : oid) : Prop := forall d e, inside recurse c d -> inside recurse c e -> same_code H d e = true -> d = e.

  Lemma code_is o c : code H o = Some c -> is_code c.
  Proof.
    unfold code, is_code. match goal with |- context [match H ?x with OCode _ _ => _ | _ => _ end] => destruct (H x) eqn:E; try discriminate end. intros Q. injection Q as <-. eauto.
  Qed.
  Lemma code_of_code c : is_code c -> code H c = Some c.
  Proof. intros (v & l & E). unfold code. rewrite E, E, E, E, E. reflexivity. Qed.
  (** the code meant: of a function, of the function of a bound method, of a frame, of the frame of a traceback, or the code object itself *)
  Theorem C99_code : forall o c, is_code c ->
    ((exists m, H o = OFunc c m) \/ (exists g s m, H o = OMethod g s /\ H g = OFunc c m) \/ (exists m, H o = OFrame c m) \/
     (exists g m m', H o = OTraceback g m /\ H g = OFrame c m') \/ o = c) -> code H o = Some c.
  Proof.
    intros o c (v & l & Hc) [(m & A)|[(g & s & m & A & B)|[(m & A)|[(g & m & m' & A & B)| ->]]]]; unfold code.
    - rewrite A, A, Hc, Hc, Hc. reflexivity.
    - rewrite A, B, Hc, Hc, Hc. reflexivity.
    - rewrite A, A, A, A, Hc. reflexivity.
    - rewrite A, A, A, B, Hc. reflexivity.
    - rewrite !Hc. reflexivity.
  Qed.
  Lemma contained_code c d : contained c d -> is_code d.
  Proof. intros (v & l & k & _ & _ & E). eapply code_is; eauto. Qed.
  Lemma inside_code r c d : inside r c d -> is_code d.
  Proof. destruct r; cbn; [|apply contained_code]. induction 1; eauto using contained_code. Qed.
  Lemma same_refl c : is_code c -> same_code H c c = true.
  Proof. intros (v & l & E). unfold same_code. rewrite E. apply Nat.eqb_refl. Qed.
  Lemma same_trans c d e : same_code H c d = true -> same_code H d e = true -> same_code H c e = true.
  Proof.
    unfold same_code. destruct (H c); try discriminate. destruct (H d); try discriminate. destruct (H e); try discriminate.
    intros A B. apply Nat.eqb_eq in A, B. apply Nat.eqb_eq. congruence.
  Qed.

  Lemma add_old c s d : In d s -> In d (add H c s).
  Proof. unfold add. destruct (existsb (same_code H c) s); auto. intros X. apply in_or_app; auto. Qed.
  Lemma add_new c s : is_code c -> exists d, In d (add H c s) /\ same_code H c d = true.
  Proof.
    intros Hc. unfold add. destruct (existsb (same_code H c) s) eqn:E.
    - apply existsb_exists in E as (d & A & B). eauto.
    - exists c. split; [apply in_or_app; right; left; reflexivity|apply same_refl, Hc].
  Qed.
  Lemma add_inv c s d : In d (add H c s) -> d = c \/ In d s.
  Proof. unfold add. destruct (existsb (same_code H c) s); auto. intros X. apply in_app_or in X as [X|[X|[]]]; auto. Qed.
  Lemma union_old t : forall s d, In d s -> In d (union H s t).
  Proof. unfold union. induction t as [|c t IH]; intros s d X; cbn [fold_left]; auto. apply IH, add_old, X. Qed.
  Lemma union_new t : forall s d, is_code d -> In d t -> exists e, In e (union H s t) /\ same_code H d e = true.
  Proof.
    unfold union. induction t as [|c t IH]; intros s d Hd X; [destruct X|]. cbn [fold_left]. destruct X as [->|X]; [|apply IH; auto].
    destruct (add_new d s Hd) as (e & A & B). exists e. split; [apply (union_old t), A|exact B].
  Qed.
  Lemma union_inv t : forall s d, In d (union H s t) -> In d s \/ In d t.
  Proof.
    unfold union. induction t as [|c t IH]; intros s d X; cbn [fold_left] in X; auto. apply IH in X as [X|X]; [|right; right; exact X].
    apply add_inv in X as [->|X]; [right; left; reflexivity|left; exact X].
  Qed.

  (** one constant of the loop in nestedcode *)
  Definition visit (fuel : nat) (recurse : bool) (acc : option (list oid)) (k : oid) : option (list oid) :=
    match acc with
    | None => None
    | Some nested =>
      match H k with ONone => Some nested | _ =>
        match code H k with
        | None => Some nested
        | Some co => if recurse then match nestedcode H fuel true co with Some l => Some (union H (add H co nested) l) | None => None end
                     else Some (add H co nested)
        end
      end
    end.
  Lemma nestedcode_S fuel recurse func : nestedcode H (S fuel) recurse func =
    match code H func with None => Some [] | Some f => fold_left (visit fuel recurse) (match H f with OCode _ l => l | _ => [] end) (Some []) end.
  Proof. reflexivity. Qed.
  Lemma visit_code fuel recurse s k : visit fuel recurse (Some s) k =
    match code H k with
    | None => Some s
    | Some co => if recurse then match nestedcode H fuel true co with Some l => Some (union H (add H co s) l) | None => None end else Some (add H co s)
    end.
  Proof.
    cbn [visit]. destruct (H k) eqn:E; try reflexivity. assert (code H k = None) as ->; [|reflexivity].
    unfold code. rewrite E, E, E, E, E. reflexivity.
  Qed.
  Lemma fold_none fuel recurse ks : fold_left (visit fuel recurse) ks None = None.
  Proof. induction ks; auto. Qed.
  Lemma fold_visit fuel recurse : forall ks s l, fold_left (visit fuel recurse) ks (Some s) = Some l ->
    (forall d, In d l -> In d s \/ exists k co, In k ks /\ code H k = Some co /\ (d = co \/ recurse = true /\ exists l', nestedcode H fuel true co = Some l' /\ In d l')) /\
    (forall d, In d s -> In d l) /\
    (forall k co, In k ks -> code H k = Some co -> (exists e, In e l /\ same_code H co e = true) /\
       (recurse = true -> exists l', nestedcode H fuel true co = Some l' /\ forall d, is_code d -> In d l' -> exists e, In e l /\ same_code H d e = true)).
  Proof.
    induction ks as [|k ks IH]; intros s l E; cbn [fold_left] in E.
    - injection E as <-. split; [auto|]. split; [auto|]. intros ? ? [].
    - rewrite visit_code in E. destruct (code H k) as [co|] eqn:Ek.
      + assert (Hc : is_code co) by (eapply code_is; eauto). destruct recurse.
        * destruct (nestedcode H fuel true co) as [l'|] eqn:En; [|rewrite fold_none in E; discriminate]. apply IH in E as (A & B & C).
          split; [|split].
          -- intros d Hd. apply A in Hd as [Hd|(k' & co' & X & Y & Z)]; [|right; exists k', co'; split; [right; exact X|auto]].
             apply union_inv in Hd as [Hd|Hd].
             ++ apply add_inv in Hd as [->|Hd]; [|left; exact Hd]. right. exists k, co. split; [left; reflexivity|auto].
             ++ right. exists k, co. split; [left; reflexivity|]. split; [exact Ek|]. right. split; [reflexivity|]. eauto.
          -- intros d Hd. apply B, union_old, add_old, Hd.
          -- intros k' co' [<-|X] Y; [|apply (C k' co' X Y)]. rewrite Ek in Y. injection Y as <-. split.
             ++ destruct (add_new co s Hc) as (e & P & Q). exists e. split; [apply B, union_old, P|exact Q].
             ++ intros _. exists l'. split; [exact En|]. intros d Hd X. destruct (union_new l' (add H co s) d Hd X) as (e & P & Q). exists e. auto.
        * apply IH in E as (A & B & C). split; [|split].
          -- intros d Hd. apply A in Hd as [Hd|(k' & co' & X & Y & Z)]; [|right; exists k', co'; split; [right; exact X|auto]].
             apply add_inv in Hd as [->|Hd]; [|left; exact Hd]. right. exists k, co. split; [left; reflexivity|auto].
          -- intros d Hd. apply B, add_old, Hd.
          -- intros k' co' [<-|X] Y; [|apply (C k' co' X Y)]. rewrite Ek in Y. injection Y as <-. split; [|discriminate].
             destruct (add_new co s Hc) as (e & P & Q). exists e. auto.
      + apply IH in E as (A & B & C). split; [|split; [exact B|]].
        * intros d Hd. apply A in Hd as [Hd|(k' & co' & X & Y & Z)]; [left; exact Hd|]. right. exists k', co'. split; [right; exact X|auto].
        * intros k' co' [<-|X] Y; [congruence|apply (C k' co' X Y)].
  Qed.
  (** nestedcode, by relation *)
  Lemma nestedcode_spec fuel : forall recurse func l, nestedcode H fuel recurse func = Some l ->
    match code H func with
    | None => l = []
    | Some f => (forall d, In d l -> inside recurse f d) /\ (forall d, inside recurse f d -> exists e, In e l /\ same_code H d e = true)
    end.
  Proof.
    induction fuel as [|fuel IH]; intros recurse func l E; [discriminate|]. rewrite nestedcode_S in E. destruct (code H func) as [f|] eqn:Ef; [|injection E as <-; reflexivity].
    assert (Hf : is_code f) by (eapply code_is; eauto). destruct Hf as (v & ks & Hf). rewrite Hf in E. apply fold_visit in E as (A & _ & C).
    split.
    - intros d Hd. apply A in Hd as [[]|(k & co & X & Y & [->|(R & l' & En & Hd)])].
      + assert (contained f co) by (exists v, ks, k; auto). destruct recurse; [apply within_1|]; assumption.
      + subst recurse. assert (contained f co) by (exists v, ks, k; auto). apply IH in En. rewrite (code_of_code co) in En by (eapply code_is; eauto).
        cbn [inside]. eapply within_S; [eassumption|]. apply (proj1 En d Hd).
    - intros d Hd.
      assert (One : forall d, contained f d -> exists e, In e l /\ same_code H d e = true).
      { intros d0 (v0 & l0 & k & X1 & X2 & X3). rewrite Hf in X1. injection X1 as <- <-. apply (C k d0 X2 X3). }
      destruct recurse; [|apply One, Hd]. cbn [inside] in Hd. inversion Hd as [c0 d0 X|c0 co d0 X Y]; subst; [apply One, X|].
      destruct X as (v0 & l0 & k & X1 & X2 & X3). rewrite Hf in X1. injection X1 as <- <-. destruct (C k co X2 X3) as (_ & C2). destruct (C2 eq_refl) as (l' & En & C3).
      apply IH in En. rewrite (code_of_code co) in En by (eapply code_is; eauto). destruct (proj2 En d Y) as (e & P & Q).
      assert (is_code e) as He by (eapply inside_code; apply (proj1 En e P)). destruct (C3 e He P) as (e' & P' & Q'). exists e'. split; [exact P'|]. eapply same_trans; eauto.
  Qed.
  (** C99: it ends, as constants are built before the code that contains them *)
  Theorem C99_terminates (rank : oid -> nat) : (forall c d, contained c d -> rank d < rank c) ->
    forall live recurse func f, code H func = Some f -> exists r, referrednested H (S (S (rank f))) live recurse func = Some r.
  Proof.
    intros R. assert (N : forall n recurse func f, code H func = Some f -> rank f < n -> exists l, nestedcode H n recurse func = Some l).
    { induction n as [|n IH]; intros recurse func f Ef L; [lia|]. rewrite nestedcode_S, Ef. assert (Hf : is_code f) by (eapply code_is; eauto). destruct Hf as (v & ks & Hf). rewrite Hf.
      assert (G : forall ks', incl ks' ks -> forall s, exists l, fold_left (visit n recurse) ks' (Some s) = Some l).
      { induction ks' as [|k ks' IHk]; intros I0 s; [exists s; reflexivity|]. cbn [fold_left]. rewrite visit_code. destruct (code H k) as [co|] eqn:Ek.
        - destruct recurse.
          + destruct (IH true co co) as (l' & ->); [apply code_of_code; eapply code_is; eauto| |].
            * assert (contained f co) as X by (exists v, ks, k; split; [exact Hf|]; split; [apply I0; left; reflexivity|exact Ek]). apply R in X. lia.
            * apply IHk. intros x X. apply I0. right. exact X.
          + apply IHk. intros x X. apply I0. right. exact X.
        - apply IHk. intros x X. apply I0. right. exact X. }
      apply G. apply incl_refl. }
    intros live recurse func f Ef. unfold referrednested. destruct (N (S (S (rank f))) recurse func f Ef) as (l & ->); [lia|]. eauto.
  Qed.
  Lemma referred_In fuel live recurse func r x : referrednested H fuel live recurse func = Some r ->
    exists l, nestedcode H fuel recurse func = Some l /\ (In x r <-> exists co, In co l /\ In x live /\ In co (referents H x) /\ refers H co x = true).
  Proof.
    unfold referrednested. destruct (nestedcode H fuel recurse func) as [l|]; [|discriminate]. intros Q. injection Q as <-. exists l. split; [reflexivity|].
    rewrite nodup_In, in_flat_map. split.
    - intros (co & A & B). apply filter_In in B as [B C]. unfold get_referrers in B. apply filter_In in B as [B D]. apply memb_In in D. eauto 10.
    - intros (co & A & B & C & D). exists co. split; [exact A|]. apply filter_In. split; [|exact D]. apply filter_In. split; [exact B|]. apply memb_In, C.
  Qed.
  (** what an object of the result is: a function with nested code, a frame that runs nested code; or an object that is neither a function nor a
      frame and claims, by its attributes, to be one of them *)
  Definition made_of (co x : oid) : Prop := (exists more, H x = OFunc co more) \/ (exists more, H x = OFrame co more).
  Lemma refers_func co x c more : H x = OFunc c more -> refers H co x = Nat.eqb c co.
  Proof. intros E. unfold refers, attr, own_attr. rewrite E. cbn. destruct (Nat.eqb c co); reflexivity. Qed.
  Lemma refers_frame co x c more : H x = OFrame c more -> refers H co x = Nat.eqb c co.
  Proof. intros E. unfold refers, attr, own_attr. rewrite E. cbn. destruct (Nat.eqb c co); reflexivity. Qed.
  (** C99: of the live functions and frames, those whose code is nested in the function's are found, and no others *)
  Theorem C99_exact_partial : forall fuel live recurse func f r, code H func = Some f -> no_twins recurse f ->
    referrednested H fuel live recurse func = Some r ->
    forall x, (exists c more, H x = OFunc c more \/ H x = OFrame c more) ->
      (In x r <-> In x live /\ exists co, inside recurse f co /\ made_of co x).
  Proof.
    intros fuel live recurse func f r Ef NT E x Hx. destruct (referred_In fuel live recurse func r x E) as (l & El & Ex). rewrite Ex. clear Ex E.
    apply nestedcode_spec in El. rewrite Ef in El. destruct El as [El1 El2].
    assert (Hx' : exists c, (forall co, refers H co x = Nat.eqb c co) /\ In c (referents H x) /\ forall co, made_of co x <-> co = c).
    { destruct Hx as (c & more & [Hx|Hx]); exists c; (split; [|split]).
      - intros co. eapply refers_func; eauto.
      - unfold referents. rewrite Hx. left; reflexivity.
      - unfold made_of. rewrite Hx. intros co. split; [intros [(m & Q)|(m & Q)]; congruence|intros ->; left; eauto].
      - intros co. eapply refers_frame; eauto.
      - unfold referents. rewrite Hx. left; reflexivity.
      - unfold made_of. rewrite Hx. intros co. split; [intros [(m & Q)|(m & Q)]; congruence|intros ->; right; eauto]. }
    destruct Hx' as (c & R1 & R2 & R3). split.
    - intros (co & A & B & _ & D). rewrite R1 in D. apply Nat.eqb_eq in D. subst co. split; [exact B|]. exists c. split; [apply El1, A|apply R3; reflexivity].
    - intros [B (co & A & M)]. apply R3 in M. subst co. destruct (El2 c A) as (e & P & Q). exists c.
      assert (c = e) as <- by (apply NT; auto). rewrite R1, Nat.eqb_refl. auto.
  Qed.
  (** a bound method is found only in the odd case that it is bound to the code object itself *)
  Theorem C99_methods : forall fuel live recurse func f r x g c more self, code H func = Some f -> referrednested H fuel live recurse func = Some r ->
    H x = OMethod g self -> H g = OFunc c more -> In x r -> self = c /\ inside recurse f c.
  Proof.
    intros fuel live recurse func f r x g c more self Ef E Hx Hg Ix. destruct (referred_In fuel live recurse func r x E) as (l & El & Ex). destruct (proj1 Ex Ix) as (co & Il & Lx & A & B).
    apply nestedcode_spec in El. rewrite Ef in El. pose proof (proj1 El co Il) as Ic. destruct (inside_code _ _ _ Ic) as (v & ks & Hco).
    unfold referents in A. rewrite Hx in A. unfold refers, attr, own_attr in B. rewrite Hx in B. cbn in B. rewrite Hg in B. cbn in B.
    destruct (Nat.eqb c co) eqn:Q; [|discriminate B]. apply Nat.eqb_eq in Q. subst co. split; [|exact Ic]. destruct A as [A|[A|[]]]; [|auto]. subst g. congruence.
  Qed.
  (** apart from functions, frames and such methods, only objects with attributes of these names are found *)
  Theorem C99_sound : forall fuel live recurse func f r x, code H func = Some f -> referrednested H fuel live recurse func = Some r -> In x r ->
    In x live /\ exists co, inside recurse f co /\ In co (referents H x) /\
      (made_of co x \/ (exists g self, H x = OMethod g self) \/
       exists attrs refs, H x = OOther attrs refs /\ (get "__code__" attrs = Some co \/ get "f_code" attrs = Some co \/ exists g, get "__func__" attrs = Some g /\ attr H g "__code__" = Some co)).
  Proof.
    intros fuel live recurse func f r x Ef E Ix. destruct (referred_In fuel live recurse func r x E) as (l & El & Ex). destruct (proj1 Ex Ix) as (co & Il & Lx & A & B).
    apply nestedcode_spec in El. rewrite Ef in El. pose proof (proj1 El co Il) as Ic. split; [exact Lx|]. exists co. split; [exact Ic|]. split; [exact A|].
    destruct (H x) as [c more|g self|c more|fr more|v ks| |attrs refs] eqn:Hx.
    - rewrite (refers_func co x c more Hx) in B. apply Nat.eqb_eq in B. subst c. left. left. eauto.
    - right. left. eauto.
    - rewrite (refers_frame co x c more Hx) in B. apply Nat.eqb_eq in B. subst c. left. right. eauto.
    - unfold refers, attr, own_attr in B. rewrite Hx in B. discriminate B.
    - unfold referents in A. rewrite Hx in A. destruct A.
    - unfold referents in A. rewrite Hx in A. destruct A.
    - right. right. exists attrs, refs. split; [reflexivity|]. unfold refers in B. cbv beta zeta in B.
      assert (At : forall n, attr H x n = get n attrs) by (intros n; unfold attr, own_attr; rewrite Hx; reflexivity). rewrite !At in B.
      assert (Eq : forall v, match v with Some c => Nat.eqb c co | None => false end = true -> v = Some co) by (intros [c|] X; [apply Nat.eqb_eq in X; rewrite X; reflexivity|discriminate]).
      destruct (get "__func__" attrs) as [g|] eqn:Eg.
      + match type of B with (if ?b then _ else _) = _ => destruct b eqn:B1 end; [apply Eq in B1; right; right; eauto|].
        match type of B with (if ?b then _ else _) = _ => destruct b eqn:B2 end; [left; apply Eq; exact B2|].
        match type of B with (if ?b then _ else _) = _ => destruct b eqn:B3 end; [right; left; apply Eq; exact B3|]. rewrite Hx in B. discriminate B.
      + match type of B with (if ?c then _ else _) = _ => destruct c eqn:B2 end; [left; apply Eq; exact B2|].
        match type of B with (if ?c then _ else _) = _ => destruct c eqn:B3 end; [right; left; apply Eq; exact B3|]. rewrite Hx in B. discriminate B.
  Qed.
  (** without code there is nothing *)
  Theorem C99_no_code : forall fuel live recurse func, code H func = None -> referrednested H (S fuel) live recurse func = Some [].
  Proof. intros fuel live recurse func E. unfold referrednested. rewrite nestedcode_S, E. reflexivity. Qed.
End Props.

(** ** an example: def outer(): class A: def m(self): ...; def g(): ...   0: outer, 1: its code, 2: the code of the class body, 3: of m, 4: of g;
    5, 6: two functions m (outer was called twice), 7: a bound method of 5, 8: g, 9: a frame of g, 10: an unrelated function, 11: its code, 12: None *)
Definition ex_heap (o : oid) : obj :=
  nth o [OFunc 1 []; OCode 1 [12; 2; 4]; OCode 2 [12; 3]; OCode 3 [12]; OCode 4 []; OFunc 3 []; OFunc 3 []; OMethod 5 10; OFunc 4 []; OFrame 4 []; OFunc 11 []; OCode 11 []] ONone.
Example C99_ex : referrednested ex_heap 9 [0; 1; 2; 3; 4; 5; 6; 7; 8; 9; 10; 11] true 0 = Some [5; 6; 8; 9] /\
  referrednested ex_heap 9 [0; 1; 2; 3; 4; 5; 6; 7; 8; 9; 10; 11] false 0 = Some [8; 9].
Proof. split; vm_compute; reflexivity. Qed.
Lemma ex_contained c d : contained ex_heap c d -> (c = 1 /\ (d = 2 \/ d = 4)) \/ (c = 2 /\ d = 3).
Proof.
  intros (v & l & k & A & B & C). do 12 (destruct c as [|c]; [cbn in A; try discriminate A; injection A as <- <-; cbn in B; intuition (subst k; vm_compute in C; try discriminate C; injection C as <-; auto)|]).
  destruct c; discriminate A.
Qed.
Lemma ex_within c d : within ex_heap c d -> (c = 1 /\ (d = 2 \/ d = 4 \/ d = 3)) \/ (c = 2 /\ d = 3).
Proof. induction 1 as [c d X|c d e X Y IH]; [apply ex_contained in X; intuition|]. apply ex_contained in X. intuition (subst; auto; try discriminate). Qed.
(** the hypotheses of the theorems hold of it *)
Example C99_ex_hyps : code ex_heap 0 = Some 1 /\ no_twins ex_heap true 1 /\ (forall c d, contained ex_heap c d -> (fun o => match o with 1 => 2 | 2 => 1 | _ => 0 end) d < (fun o => match o with 1 => 2 | 2 => 1 | _ => 0 end) c).
Proof.
  split; [reflexivity|]. split.
  - intros d e A B C. cbn in A, B. apply ex_within in A, B. intuition (subst; try reflexivity; try discriminate).
  - intros c d X. apply ex_contained in X. intuition (subst; auto).
Qed.
(** C99 refuted: code objects that are equal but not the same (made with code.replace) are merged, and the functions of one of them are not found *)
Theorem C99_twins_refuted : exists H live f x co, code H 0 = Some f /\ within H f co /\ H x = OFunc co [] /\ In x live /\
  exists r, referrednested H 9 live true 0 = Some r /\ ~ In x r.
Proof.
  exists (fun o => nth o [OFunc 1 []; OCode 1 [2; 3]; OCode 2 []; OCode 2 []; OFunc 2 []; OFunc 3 []] ONone), [0; 1; 2; 3; 4; 5], 1, 5, 3.
  split; [reflexivity|]. split; [apply within_1; exists 1, [2; 3], 3; cbn; auto|]. split; [reflexivity|]. split; [cbn; auto 10|].
  exists [4]. split; [vm_compute; reflexivity|]. cbn. intuition discriminate.
Qed.
