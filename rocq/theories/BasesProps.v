(** C57: the bases of a class saved by value. *)
From Coq Require Import String List Bool Arith Lia.
From Verif Require Import PyDict ClassModel BasesModel.
Import ListNotations.

(** the classes were made by class statements (or calls of their metaclass): bases come first, and [__orig_bases__], where a class has its own, is
    what stood in the statement *)
Definition made (entries : nat -> list item -> list nat) (H : list bcls) : Prop :=
  forall c k, nth_error H c = Some k -> (forall b, In b (bases k) -> b < c) /\
    match orig k with None => True | Some l => existsb is_alias l = true /\ bases k = resolve entries l end.
(** the class [a] is [c] or one it inherits from *)
Inductive inherits (H : list bcls) : nat -> nat -> Prop :=
  | in_self c : inherits H c c
  | in_base a b c k : nth_error H c = Some k -> In b (bases k) -> inherits H a b -> inherits H a c.

(** the first class of the method resolution order that was written with an alias among its bases *)
Definition generic_at (H : list bcls) (l : list nat) (g : nat) : Prop :=
  exists before after k o, l = before ++ g :: after /\ nth_error H g = Some k /\ orig k = Some o /\
    forall b kb, In b before -> nth_error H b = Some kb -> orig kb = None.
Definition no_generic (H : list bcls) (l : list nat) : Prop := forall b kb, In b l -> nth_error H b = Some kb -> orig kb = None.

Lemma copy_from_nth entries H c l : forall i, nth_error (copy_from entries H c l) i = option_map (copied entries H (c + i)) (nth_error l i).
Proof.
  revert c. induction l as [|k l IH]; intros c i; [destruct i; reflexivity|]. destruct i as [|i]; cbn [copy_from nth_error option_map].
  - rewrite Nat.add_0_r. reflexivity.
  - rewrite IH. replace (S c + i) with (c + S i) by lia. reflexivity.
Qed.
Lemma copy_nth entries H c : nth_error (copy_all entries H) c = option_map (copied entries H c) (nth_error H c).
Proof. unfold copy_all. rewrite copy_from_nth. reflexivity. Qed.
Lemma first_orig_none H l : no_generic H l -> first_orig H l = None.
Proof.
  induction l as [|c l IH]; intros N; cbn [first_orig]; auto. destruct (nth_error H c) as [[bs o d]|] eqn:E.
  - pose proof (N c _ (or_introl eq_refl) E) as X. cbn in X. subst o. apply IH. intros b kb Hb. apply N. right; auto.
  - apply IH. intros b kb Hb. apply N. right; auto.
Qed.
Lemma first_orig_some H l g kg o : generic_at H l g -> nth_error H g = Some kg -> orig kg = Some o -> first_orig H l = Some o.
Proof.
  intros (before & after & k & o' & -> & E & Eo & N) Eg Eo2. rewrite E in Eg. injection Eg as ->. rewrite Eo in Eo2. injection Eo2 as ->.
  induction before as [|c l IH]; cbn [app first_orig].
  - rewrite E. destruct kg as [bs og d]. cbn in Eo. subst og. reflexivity.
  - destruct (nth_error H c) as [[bs oc d]|] eqn:Ec.
    + pose proof (N c _ (or_introl eq_refl) Ec) as X. cbn in X. subst oc. apply IH. intros b kb Hb. apply N. right; auto.
    + apply IH. intros b kb Hb. apply N. right; auto.
Qed.

(** exactly: a class saved by value gets the bases of the first class in its resolution order that was written with an alias *)
Theorem C57_exact : forall entries H c k l, made entries H -> nth_error H c = Some k -> dyn k = true -> bmro H c = Some l ->
  (no_generic H l -> exists k', nth_error (copy_all entries H) c = Some k' /\ bases k' = bases k) /\
  (forall g kg, generic_at H l g -> nth_error H g = Some kg -> exists k', nth_error (copy_all entries H) c = Some k' /\ bases k' = bases kg).
Proof.
  intros entries H c k l M E D B. rewrite copy_nth, E. cbn [option_map]. unfold copied, get_orig. rewrite D, B. split.
  - intros N. rewrite (first_orig_none H l N). eexists. split; reflexivity.
  - intros g kg G Eg. pose proof G as (before & after & kg' & o & El & Eg' & Eo & N). rewrite Eg' in Eg. injection Eg as ->.
    rewrite (first_orig_some H l g kg o G Eg' Eo). eexists. split; [reflexivity|]. cbn [new_class bases]. destruct (M g kg Eg') as [_ X]. rewrite Eo in X. symmetry. apply X.
Qed.
Lemma mro_cons H f c l : mro H f c = Some l -> exists t, l = c :: t.
Proof.
  destruct f as [|f]; cbn [mro]; [discriminate|]. destruct (nth_error H c) as [k|]; [|discriminate]. destruct (c_bases k) as [|b [|b' bs]].
  - intros X; injection X as <-. eauto.
  - destruct (mro H f b); [|discriminate]. intros X; injection X as <-. eauto.
  - destruct (all_some _); [|discriminate]. destruct (c3_merge _ _); [|discriminate]. intros X; injection X as <-. eauto.
Qed.
Lemma mro_shape_eq H H' : (forall c, option_map c_bases (nth_error H c) = option_map c_bases (nth_error H' c)) -> forall f c, mro H f c = mro H' f c.
Proof.
  intros X. induction f as [|f IH]; intros c; cbn [mro]; auto. specialize (X c). destruct (nth_error H c) as [k|], (nth_error H' c) as [k'|]; try discriminate; auto.
  injection X as ->. destruct (c_bases k') as [|b [|b' bs]]; auto.
  - rewrite IH. reflexivity.
  - rewrite (map_ext _ _ IH). reflexivity.
Qed.

(** C57: every class of the hierarchy keeps its bases and its resolution order if each class saved by value has [__orig_bases__] itself or no class it
    inherits from has *)
Theorem C57_bases_kept_partial : forall entries H, made entries H ->
  (forall c k l, nth_error H c = Some k -> dyn k = true -> bmro H c = Some l -> orig k <> None \/ no_generic H l) ->
  forall c k, nth_error H c = Some k ->
    (exists k', nth_error (copy_all entries H) c = Some k' /\ bases k' = bases k) /\ bmro (copy_all entries H) c = bmro H c.
Proof.
  intros entries H M A.
  assert (G : forall c k, nth_error H c = Some k -> exists k', nth_error (copy_all entries H) c = Some k' /\ bases k' = bases k).
  { intros c k E. destruct (dyn k) eqn:D.
    - destruct (bmro H c) as [l|] eqn:B.
      + destruct (C57_exact entries H c k l M E D B) as [X1 X2]. destruct (A c k l E D B) as [N|N]; auto.
        apply (X2 c k); auto. destruct (orig k) as [o|] eqn:Eo; [|congruence]. destruct (mro_cons _ _ _ _ B) as (t & ->).
        exists [], t, k, o. split; auto. split; auto. split; auto. intros ? ? [].
      + rewrite copy_nth, E. cbn [option_map]. unfold copied, get_orig. rewrite D, B. eexists. split; reflexivity.
    - rewrite copy_nth, E. cbn [option_map]. unfold copied. rewrite D. eexists. split; reflexivity. }
  intros c k E. split; [apply G; auto|]. unfold bmro. apply mro_shape_eq. intros c'. unfold shape. rewrite !nth_error_map. destruct (nth_error H c') as [k1|] eqn:E1.
  - destruct (G c' k1 E1) as (k2 & -> & E2). cbn. rewrite E2. reflexivity.
  - rewrite copy_nth, E1. reflexivity.
Qed.

(** the classes of the resolution order are the class and earlier ones *)
Lemma c3_in fuel : forall seqs l, c3_merge fuel seqs = Some l -> forall x, In x l -> exists s, In s seqs /\ In x s.
Proof.
  induction fuel as [|f IH]; intros seqs l E x Hx; cbn [c3_merge] in E; [discriminate|].
  destruct (forallb _ seqs); [injection E as <-; destruct Hx|]. destruct (candidate seqs) as [h|] eqn:C; [|discriminate].
  destruct (c3_merge f (map (drop_head h) seqs)) as [l'|] eqn:E2; [|discriminate]. injection E as <-. destruct Hx as [<-|Hx].
  - unfold candidate in C. destruct (find _ seqs) as [[|h' t]|] eqn:F; try discriminate. injection C as ->. apply find_some in F as [F _]. exists (h :: t). split; auto. left; auto.
  - destruct (IH _ _ E2 x Hx) as (s & Hs & Hxs). apply in_map_iff in Hs as (s0 & <- & Hs0). exists s0. split; auto. destruct s0 as [|y s0]; cbn in *; auto.
    destruct (Nat.eqb y h); [right; auto|auto].
Qed.
Lemma all_some_in {A B} (f : A -> option B) l r y : all_some (map f l) = Some r -> In y r -> exists x, In x l /\ f x = Some y.
Proof.
  revert r. induction l as [|a l IH]; intros r E Hy; cbn in E; [injection E as <-; destruct Hy|]. destruct (f a) as [b|] eqn:Fa; [|discriminate].
  destruct (all_some (map f l)) as [r'|]; [|discriminate]. injection E as <-. destruct Hy as [<-|Hy]; [exists a; split; [left|]; auto|].
  destruct (IH r' eq_refl Hy) as (x & Hx & Ex). exists x. split; [right|]; auto.
Qed.
Lemma mro_le entries H : made entries H -> forall f c l x, mro (shape H) f c = Some l -> In x l -> x <= c.
Proof.
  intros M. induction f as [|f IH]; intros c l x E Hx; cbn [mro] in E; [discriminate|].
  unfold shape in E at 1. rewrite nth_error_map in E. destruct (nth_error H c) as [k|] eqn:Ek; [|discriminate]. cbn [option_map c_bases] in E. destruct (M c k Ek) as [L _].
  destruct (bases k) as [|b [|b' bs]] eqn:Eb.
  - injection E as <-. destruct Hx as [<-|[]]. auto.
  - destruct (mro (shape H) f b) as [t|] eqn:T; [|discriminate]. injection E as <-. destruct Hx as [<-|Hx]; auto. specialize (L b (or_introl eq_refl)). specialize (IH b t x T Hx). lia.
  - destruct (all_some (map (mro (shape H) f) (b :: b' :: bs))) as [ms|] eqn:Ems; [|discriminate]. destruct (c3_merge _ _) as [t|] eqn:T; [|discriminate]. injection E as <-.
    destruct Hx as [<-|Hx]; auto. destruct (c3_in _ _ _ T x Hx) as (s & Hs & Hxs). apply in_app_iff in Hs as [Hs|[<-|[]]].
    + destruct (all_some_in _ _ _ _ Ems Hs) as (b0 & Hb0 & E0). specialize (L b0 Hb0). specialize (IH b0 s x E0 Hxs). lia.
    + specialize (L x Hxs). lia.
Qed.
Lemma first_orig_in H l o : first_orig H l = Some o -> exists g kg, In g l /\ nth_error H g = Some kg /\ orig kg = Some o.
Proof.
  induction l as [|c l IH]; cbn [first_orig]; [discriminate|]. destruct (nth_error H c) as [[bs [oc|] d]|] eqn:E.
  - intros X; injection X as ->. exists c, {| bases := bs; orig := Some o; dyn := d |}. split; [left; auto|]. auto.
  - intros X. destruct (IH X) as (g & kg & A & B). exists g, kg. split; [right|]; auto.
  - intros X. destruct (IH X) as (g & kg & A & B). exists g, kg. split; [right|]; auto.
Qed.
Lemma copy_bases_lt entries H c k' b : made entries H -> nth_error (copy_all entries H) c = Some k' -> In b (bases k') -> b < c.
Proof.
  intros M. rewrite copy_nth. destruct (nth_error H c) as [k|] eqn:E; [|discriminate]. cbn [option_map]. intros X; injection X as <-. destruct (M c k E) as [L _].
  unfold copied. destruct (dyn k); auto. unfold get_orig. destruct (bmro H c) as [l|] eqn:B; auto. destruct (first_orig H l) as [o|] eqn:F; auto.
  cbn [new_class bases]. destruct (first_orig_in _ _ _ F) as (g & kg & Hg & Eg & Eo). destruct (M g kg Eg) as [Lg X]. rewrite Eo in X. destruct X as [_ X]. rewrite <- X.
  intros Hb. specialize (Lg b Hb). pose proof (mro_le entries H M _ _ _ _ B Hg). lia.
Qed.

(** the subclass of a class written with an alias, e.g. class D(C) where class C(Generic[T]): its copy does not inherit from (the copy of) C *)
Lemma inherits_lt H a c : (forall c k b, nth_error H c = Some k -> In b (bases k) -> b < c) -> inherits H a c -> a <= c.
Proof. intros M X. induction X as [|a b c k E Hb X IH]; auto. specialize (M c k b E Hb). lia. Qed.
Theorem C57_subclass_of_generic_refuted : forall entries H c b k kb o l, made entries H ->
  nth_error H c = Some k -> dyn k = true -> orig k = None -> bases k = [b] -> nth_error H b = Some kb -> orig kb = Some o -> bmro H c = Some l ->
  inherits H b c /\ (exists k', nth_error (copy_all entries H) c = Some k' /\ bases k' = bases kb) /\ ~ inherits (copy_all entries H) b c.
Proof.
  intros entries H c b k kb o l M E D O Eb Ekb Eo B.
  assert (X : exists k', nth_error (copy_all entries H) c = Some k' /\ bases k' = bases kb).
  { destruct (C57_exact entries H c k l M E D B) as [_ X]. apply (X b kb); auto. unfold bmro in B. cbn [mro] in B. unfold shape in B at 1. rewrite nth_error_map, E in B. cbn [option_map c_bases] in B. rewrite Eb in B.
    destruct (mro (shape H) c b) as [t|] eqn:T; [|discriminate]. injection B as <-. destruct (mro_cons _ _ _ _ T) as (t' & ->).
    exists [c], t', kb, o. split; auto. split; auto. split; auto. intros b' kb' [<-|[]] E'. congruence. }
  destruct (M c k E) as [L _]. rewrite Eb in L. specialize (L b (or_introl eq_refl)).
  split; [eapply in_base; [exact E|rewrite Eb; left; reflexivity|constructor]|]. split; [exact X|]. intros I.
  destruct X as (k' & E' & Ek'). inversion I as [|a b' c' k1 E1 Hb' I' ]; subst; [lia|]. rewrite E' in E1. injection E1 as <-. rewrite Ek' in Hb'.
  destruct (M b kb Ekb) as [Lb _]. specialize (Lb b' Hb'). apply inherits_lt in I'; [lia|]. intros. eapply copy_bases_lt; eauto.
Qed.

(** class 0 is object, 1 Generic, 2 list; alias 0 is Generic[T] (no entry next to another alias), 1 is List[int], 2 is C[int] *)
Definition ex_entries (a : nat) (l : list item) : list nat :=
  match a with
  | 0 => if existsb (fun i => match i with Alias 0 => false | Alias _ => true | Cls _ => false end) l then [] else [1]
  | 1 => [2; 1]
  | _ => [3]
  end.
Definition ex_generic : list bcls := [
  BCls [] None false;                                   (* 0 object *)
  BCls [0] None false;                                  (* 1 Generic *)
  BCls [0] None false;                                  (* 2 list *)
  new_class ex_entries [Alias 0] None true;             (* 3 class C(Generic[T]) *)
  new_class ex_entries [Alias 1] None true;             (* 4 class E(List[int]) *)
  new_class ex_entries [Cls 2; Alias 2] None true;      (* 5 class F(list, C[int]) *)
  new_class ex_entries [Cls 3] None true;               (* 6 class D(C) *)
  create_type [0] None true;                            (* 7 class X *)
  new_class ex_entries [Cls 7; Cls 2] None true ].      (* 8 class Y(X, list) *)
Lemma ex_generic_made : made ex_entries ex_generic.
Proof.
  intros c k E. do 9 (destruct c as [|c]; [injection E as <-; split; [|cbn; auto]; intros b Hb; cbn in Hb; repeat (destruct Hb as [<-|Hb]; [repeat constructor|]); destruct Hb|]).
  destruct c; discriminate.
Qed.
(** D(C) loses C; C, E, F, X and Y keep their bases *)
Example ex_generic_copy :
  map (fun c => option_map bases (nth_error (copy_all ex_entries ex_generic) c)) [3; 4; 5; 6; 7; 8] =
    [Some [1]; Some [2; 1]; Some [2; 3]; Some [1]; Some [0]; Some [7; 2]] /\
  map (fun c => option_map bases (nth_error ex_generic c)) [3; 4; 5; 6; 7; 8] =
    [Some [1]; Some [2; 1]; Some [2; 3]; Some [3]; Some [0]; Some [7; 2]] /\
  ~ inherits (copy_all ex_entries ex_generic) 3 6.
Proof.
  split; [reflexivity|]. split; [reflexivity|].
  eapply (C57_subclass_of_generic_refuted ex_entries ex_generic 6 3 _ _ [Alias 0] [6; 3; 1; 0] ex_generic_made); reflexivity.
Qed.
(** without D every class keeps its bases *)
Example ex_generic_partial : let H := firstn 6 ex_generic in
  forall c k, nth_error H c = Some k -> (exists k', nth_error (copy_all ex_entries H) c = Some k' /\ bases k' = bases k) /\ bmro (copy_all ex_entries H) c = bmro H c.
Proof.
  intros H. apply C57_bases_kept_partial.
  - intros c k E. apply (ex_generic_made c k). unfold H in E. clear H. do 6 (destruct c as [|c]; [exact E|]). destruct c; discriminate.
  - intros c k l E D B. unfold H in *. clear H. do 6 (destruct c as [|c]; [injection E as <-; first [discriminate D|left; discriminate]|]). destruct c; discriminate.
Qed.
