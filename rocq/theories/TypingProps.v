(** C93: parametrised types of the typing module. *)
From Coq Require Import String List Bool Arith Lia.
From Verif Require Import PyDict TypingModel.
Import ListNotations.

(** ** specification
    [made old a]: [a] is an argument or a parametrised type that the typing module of a Python before 3.11 ([old = true])
    or from 3.11 on makes, from any arguments, to any depth. *)
Inductive made (old : bool) : arg -> Prop :=
| made_type i : made old (AType i)
| made_nonetype : made old ANoneType
| made_none : made old ANone
| made_str s : made old (AStr s)
| made_fwd s : made old (AFwd s)
| made_ellipsis : made old AEllipsis
| made_bare k : made old (ABare k)
| made_tuple l : (forall a, In a l -> made old a) -> made old (ATuple l)
| made_alias k x a : made old x -> subscript old k x = Some a -> made old a.

(** the same without Tuple\[()\]: typing.Tuple is subscripted with at least one argument *)
Inductive made_nonempty (old : bool) : arg -> Prop :=
| mn_type i : made_nonempty old (AType i)
| mn_nonetype : made_nonempty old ANoneType
| mn_none : made_nonempty old ANone
| mn_str s : made_nonempty old (AStr s)
| mn_fwd s : made_nonempty old (AFwd s)
| mn_ellipsis : made_nonempty old AEllipsis
| mn_bare k : made_nonempty old (ABare k)
| mn_tuple l : (forall a, In a l -> made_nonempty old a) -> made_nonempty old (ATuple l)
| mn_alias k x a : made_nonempty old x -> subscript old k x = Some a -> (k = KTuple -> x <> ATuple []) -> made_nonempty old a.

(** ** proofs *)
Definition fixes (old : bool) (a : arg) : Prop := copy old a = Some a.

Lemma all_some_fix old l : (forall a, In a l -> fixes old a) -> all_some (map (copy old) l) = Some l.
Proof.
  induction l as [|a l IH]; intros H; [reflexivity|]. cbn [map all_some].
  rewrite (H a (or_introl eq_refl)). rewrite IH; [reflexivity|]. intros b I. apply H. right. exact I.
Qed.

Lemma all_some_In old l : all_some (map (copy old) l) = Some l -> forall a, In a l -> fixes old a.
Proof.
  induction l as [|b l IH]; intros H a I; [destruct I|]. cbn [map all_some] in H.
  destruct (copy old b) as [b'|] eqn:E; [|discriminate].
  destruct (all_some (map (copy old) l)) as [l'|]; [|discriminate].
  assert (X : b' = b /\ l' = l) by (split; congruence). destruct X as [-> ->].
  destruct I as [<-|I]; [exact E|apply IH; [reflexivity|exact I]].
Qed.

Lemma params_fix old x : fixes old x -> forall a, In a (params_of x) -> fixes old a.
Proof.
  intros F a I. destruct x; cbn [params_of] in I; try (destruct I as [<-|[]]; exact F).
  unfold fixes in F. cbn [copy] in F.
  destruct (all_some (map (copy old) l)) as [l'|] eqn:E; [|discriminate].
  assert (l' = l) by congruence. subst l'. apply (all_some_In old l E a I).
Qed.

Lemma check_fix old a b : fixes old a -> check a = Some b -> fixes old b.
Proof. intros F E. destruct a; inversion E; subst; try exact F; reflexivity. Qed.
Lemma convert_fix old a : fixes old a -> fixes old (convert a).
Proof. intros F. destruct a; try exact F; reflexivity. Qed.
Lemma checks_fix old l : forall l', (forall a, In a l -> fixes old a) -> checks l = Some l' -> forall a, In a l' -> fixes old a.
Proof.
  induction l as [|b l IH]; intros l' F E a I.
  - inversion E; subst. destruct I.
  - cbn [checks] in E. destruct (check b) as [b'|] eqn:Eb; [|discriminate].
    destruct (checks l) as [m|]; [|discriminate]. inversion E; subst l'.
    destruct I as [<-|I].
    + apply (check_fix old b); [apply F; left; reflexivity|exact Eb].
    + apply (IH m (fun a I => F a (or_intror I)) eq_refl a I).
Qed.

Definition checked (a : arg) : Prop := check a = Some a.
Lemma check_idem a b : check a = Some b -> checked b.
Proof. intros E. destruct a; inversion E; subst; reflexivity. Qed.
Lemma checks_idem l : forall l', checks l = Some l' -> checks l' = Some l' /\ List.length l' = List.length l /\ forall a, In a l' -> checked a.
Proof.
  induction l as [|b l IH]; intros l' E.
  - inversion E; subst. split; [reflexivity|]. split; [reflexivity|]. intros a [].
  - cbn [checks] in E. destruct (check b) as [b'|] eqn:Eb; [|discriminate].
    destruct (checks l) as [m|]; [|discriminate]. inversion E; subst l'.
    destruct (IH m eq_refl) as (A & B & C). pose proof (check_idem b b' Eb) as D. split; [|split].
    + cbn [checks]. rewrite D, A. reflexivity.
    + cbn. congruence.
    + intros a [<-|I]; [exact D|apply C; exact I].
Qed.
Lemma convert_idem a : convert (convert a) = convert a.
Proof. destruct a; reflexivity. Qed.

Lemma getitem_params l : (forall a, l = [a] -> True) -> params_of (getitem_arg l) = l.
Proof. intros _. destruct l as [|a [|b l]]; try reflexivity; destruct a; reflexivity. Qed.

(** the reduce value rebuilds what subscription made *)
Lemma rebuild_made old k x args : subscript old k x = Some (AAlias k args) -> rebuild old (save_alias k args) = Some (AAlias k args).
Proof.
  intros E. unfold save_alias. destruct k as [|name n|i ps]; cbn [andb].
  - unfold subscript in E. set (l := params_of x) in *.
    destruct (old && is_nil l) eqn:Old.
    { apply andb_true_iff in Old. destruct Old as [-> _]. inversion E; subst args. reflexivity. }
    destruct (Nat.leb 2 (List.length l) && match last l ANone with AEllipsis => true | _ => false end) eqn:El.
    + destruct (checks (removelast l)) as [l'|] eqn:C; [|discriminate]. inversion E; subst args.
      destruct (checks_idem _ _ C) as (A & B & D).
      apply andb_true_iff in El. destruct El as [L2 _]. apply Nat.leb_le in L2.
      assert (Ln : l' <> []).
      { intros ->. cbn in B. destruct l as [|a0 [|a1 l0]]; cbn in L2; try lia. cbn in B. discriminate. }
      destruct l' as [|a l']; [congruence|].
      assert (X : is_nil ((a :: l') ++ [AEllipsis]) || is_unit1 ((a :: l') ++ [AEllipsis]) = false) by (destruct l'; reflexivity).
      rewrite X. cbn [rebuild]. unfold subscript. rewrite getitem_params by (intros; exact Logic.I).
      assert (X1 : old && is_nil ((a :: l') ++ [AEllipsis]) = false) by (destruct old; reflexivity).
      rewrite X1.
      assert (X2 : Nat.leb 2 (List.length ((a :: l') ++ [AEllipsis])) = true) by (apply Nat.leb_le; rewrite app_length; cbn; lia).
      rewrite X2, last_last, removelast_last. cbn [andb]. rewrite A. reflexivity.
    + destruct (checks l) as [l'|] eqn:C; [|discriminate]. inversion E; subst args.
      destruct (checks_idem _ _ C) as (A & B & D).
      destruct l' as [|a l'].
      * cbn in B. destruct l; [|discriminate]. destruct old; [discriminate|]. reflexivity.
      * assert (X : is_nil (a :: l') || is_unit1 (a :: l') = false).
        { pose proof (D a (or_introl eq_refl)) as Da. destruct l'; [|reflexivity]. destruct a; try reflexivity. discriminate. }
        rewrite X. cbn [rebuild]. unfold subscript. rewrite getitem_params by (intros; exact Logic.I).
        assert (X1 : old && is_nil (a :: l') = false) by (destruct old; reflexivity).
        rewrite X1.
        assert (X2 : match last (a :: l') ANone with AEllipsis => true | _ => false end = false).
        { assert (I : In (last (a :: l') ANone) (a :: l')).
          { rewrite (app_removelast_last (l := a :: l') ANone) at 2 by discriminate. apply in_or_app. right. left. reflexivity. }
          pose proof (D _ I) as Dl. destruct (last (a :: l') ANone); try reflexivity. discriminate. }
        rewrite X2, andb_false_r, A. reflexivity.
  - cbn [rebuild]. unfold subscript in *. rewrite getitem_params by (intros; exact Logic.I).
    destruct (checks (params_of x)) as [l'|] eqn:C; [|discriminate].
    destruct (Nat.eqb (List.length l') n) eqn:N; [|discriminate]. inversion E; subst args.
    destruct (checks_idem _ _ C) as (A & _). rewrite A, N. reflexivity.
  - cbn [rebuild]. unfold subscript in *. rewrite getitem_params by (intros; exact Logic.I).
    set (l := params_of x) in *.
    destruct (fits ps (prepare ps (map convert l))) eqn:F; [|discriminate]. inversion E as [Ea]. rewrite Ea.
    assert (Y : prepare ps (map convert args) = args).
    { rewrite <- Ea.
      assert (Cv : map convert (prepare ps (map convert l)) = prepare ps (map convert l)).
      { assert (Z : map convert (map convert l) = map convert l).
        { rewrite map_map. apply map_ext. intros a. apply convert_idem. }
        unfold prepare. destruct ps as [|p [|]]; [exact Z| |destruct p; exact Z]. destruct p; [exact Z|].
        destruct (map convert l) as [|a r]; [reflexivity|]. destruct (is_param_expr a); [exact Z|reflexivity]. }
      rewrite Cv. generalize dependent (prepare ps (map convert l)). intros m F _ _ _.
      unfold prepare. destruct ps as [|p [|q ps]]; [reflexivity| |destruct p; reflexivity].
      destruct p; [reflexivity|]. destruct m as [|a r]; [reflexivity|]. cbn [fits] in F.
      apply andb_true_iff in F. destruct F as [F _]. rewrite F. reflexivity. }
    rewrite Y. rewrite <- Ea, F. reflexivity.
Qed.

Lemma subscript_kind old k x a : subscript old k x = Some a -> exists args, a = AAlias k args.
Proof.
  intros E. unfold subscript in E. destruct k.
  - destruct (old && is_nil (params_of x)); [inversion E; eauto|].
    destruct (Nat.leb 2 (List.length (params_of x)) && _).
    + destruct (checks (removelast (params_of x))); inversion E; eauto.
    + destruct (checks (params_of x)); inversion E; eauto.
  - destruct (checks (params_of x)) as [l|]; [|discriminate]. destruct (Nat.eqb (List.length l) nparams); inversion E; eauto.
  - destruct (fits params (prepare params (map convert (params_of x)))); inversion E; eauto.
Qed.

Lemma removelast_In {A} (a : A) l : In a (removelast l) -> In a l.
Proof.
  induction l as [|b l IH]; intros I; [destruct I|]. cbn [removelast] in I. destruct l as [|c l]; [destruct I|].
  destruct I as [I|I]; [left; exact I|right; apply IH; exact I].
Qed.

Lemma args_fix w r k x args : fixes r x -> subscript w k x = Some (AAlias k args) -> forall a, In a args -> fixes r a.
Proof.
  intros F E. pose proof (params_fix r x F) as P. unfold subscript in E. set (l := params_of x) in *. destruct k.
  - destruct (w && is_nil l).
    { inversion E; subst args. intros a [<-|[]]. reflexivity. }
    destruct (Nat.leb 2 (List.length l) && _).
    + destruct (checks (removelast l)) as [l'|] eqn:C; [|discriminate]. inversion E; subst args.
      intros a I. apply in_app_or in I. destruct I as [I|[<-|[]]]; [|reflexivity].
      apply (checks_fix r _ l' (fun a I => P a (removelast_In a l I)) C a I).
    + destruct (checks l) as [l'|] eqn:C; [|discriminate]. inversion E; subst args. apply (checks_fix r l l' P C).
  - destruct (checks l) as [l'|] eqn:C; [|discriminate]. destruct (Nat.eqb (List.length l') nparams); [|discriminate].
    inversion E; subst args. apply (checks_fix r l l' P C).
  - destruct (fits params (prepare params (map convert l))); [|discriminate]. inversion E; subst args.
    assert (Q : forall a, In a (map convert l) -> fixes r a).
    { intros a I. apply in_map_iff in I. destruct I as (b & <- & I). apply convert_fix. apply P. exact I. }
    intros a I. unfold prepare in I. destruct params as [|p [|]]; [apply Q; exact I| |destruct p; apply Q; exact I].
    destruct p; [apply Q; exact I|]. destruct (map convert l) as [|b m] eqn:M; [apply Q; exact I|].
    destruct (is_param_expr b); [apply Q; exact I|]. destruct I as [<-|[]].
    unfold fixes. cbn [copy]. rewrite (all_some_fix r (b :: m) Q). reflexivity.
Qed.

Lemma with_args_same k args : with_args (save_alias k args) args = save_alias k args.
Proof.
  unfold save_alias. destruct (match k with KTuple => true | _ => false end && _); [reflexivity|].
  destruct args as [|a [|b l]]; [reflexivity| |destruct a; reflexivity]. destruct a; reflexivity.
Qed.

Lemma copy_alias old k args : (forall a, In a args -> fixes old a) ->
  copy old (AAlias k args) = rebuild old (save_alias k args).
Proof. intros F. cbn [copy]. rewrite (all_some_fix old args F), with_args_same. reflexivity. Qed.

(** every parametrised type loads, in the same version, as an equal one *)
Theorem C93_same_version old a : made old a -> copy old a = Some a.
Proof.
  induction 1 as [| | | | | | |l H IH|k x a H IH E]; try reflexivity.
  - cbn [copy]. rewrite (all_some_fix old l IH). reflexivity.
  - destruct (subscript_kind old k x a E) as (args & ->).
    rewrite copy_alias by (apply (args_fix old old k x args IH E)). apply (rebuild_made old k x args E).
Qed.

Lemma subscript_versions w r k x : (k = KTuple -> x <> ATuple []) -> subscript w k x = subscript r k x.
Proof.
  intros N. destruct k; try reflexivity. unfold subscript.
  assert (X : is_nil (params_of x) = false).
  { destruct x as [| | | | | |l| |]; try reflexivity. destruct l; [|reflexivity]. exfalso. apply (N eq_refl). reflexivity. }
  rewrite X, !andb_false_r. reflexivity.
Qed.

(** and in any other version, if no Tuple\[()\] is in it *)
Theorem C93_other_version_partial w r a : made_nonempty w a -> copy r a = Some a.
Proof.
  induction 1 as [| | | | | | |l H IH|k x a H IH E N]; try reflexivity.
  - cbn [copy]. rewrite (all_some_fix r l IH). reflexivity.
  - destruct (subscript_kind w k x a E) as (args & ->).
    rewrite copy_alias by (apply (args_fix w r k x args IH E)).
    apply (rebuild_made r k x args). rewrite <- (subscript_versions w r k x N). exact E.
Qed.

(** Tuple\[()\] of an older Python loads as the Tuple\[()\] of a newer one *)
Theorem C93_empty_upwards t t' :
  subscript true KTuple (ATuple []) = Some t -> subscript false KTuple (ATuple []) = Some t' -> copy false t = Some t'.
Proof. intros E E'. inversion E; inversion E'; subst. reflexivity. Qed.

(** REFUTED: Tuple\[()\] written by Python 3.11 or later loads in an older one as an alias that is not its Tuple\[()\] *)
Theorem C93_empty_downwards_refuted :
  exists t t' c, subscript false KTuple (ATuple []) = Some t /\ subscript true KTuple (ATuple []) = Some t'
    /\ copy true t = Some c /\ c <> t'.
Proof.
  exists (AAlias KTuple []), (AAlias KTuple [ATuple []]), (AAlias KTuple []).
  split; [reflexivity|]. split; [reflexivity|]. split; [reflexivity|]. discriminate.
Qed.

(** cases: Dict\['A', Tuple\[None, ...\]\], Tuple\[()\] in a class with a ParamSpec, Z\[int, Tuple\[()\]\] *)
Definition kdict : kind := KAlias "Dict" 2.
Definition kz : kind := KClass 9 [PSpec].
Theorem C93_case : forall old, exists t u v w,
  subscript old KTuple (ATuple [ANone; AEllipsis]) = Some t
  /\ subscript old kdict (ATuple [AStr "A"; t]) = Some u
  /\ subscript old KTuple (ATuple []) = Some v
  /\ subscript old kz (ATuple [AType 1; v]) = Some w
  /\ made_nonempty old u /\ made old w /\ copy old w = Some w
  /\ u = AAlias kdict [AFwd "A"; AAlias KTuple [ANoneType; AEllipsis]].
Proof.
  intros old.
  assert (T : exists v, subscript old KTuple (ATuple []) = Some v) by (destruct old; eexists; reflexivity).
  destruct T as (v & V).
  assert (N : check v = Some v /\ is_param_expr v = false /\ convert v = v).
  { destruct (subscript_kind old KTuple _ v V) as (args & ->). repeat split. }
  destruct N as (N1 & N2 & N3).
  assert (Wz : subscript old kz (ATuple [AType 1; v]) = Some (AAlias kz [ATuple [AType 1; v]])).
  { cbn. rewrite N3. reflexivity. }
  assert (Mw : made old (AAlias kz [ATuple [AType 1; v]])).
  { apply (made_alias old kz (ATuple [AType 1; v])); [|exact Wz]. apply made_tuple. intros a [<-|[<-|[]]]; [constructor|].
    apply (made_alias old KTuple (ATuple [])); [|exact V]. apply made_tuple. intros a []. }
  exists (AAlias KTuple [ANoneType; AEllipsis]), (AAlias kdict [AFwd "A"; AAlias KTuple [ANoneType; AEllipsis]]), v, (AAlias kz [ATuple [AType 1; v]]).
  split; [destruct old; reflexivity|]. split; [destruct old; reflexivity|]. split; [exact V|]. split; [exact Wz|].
  split; [|split; [exact Mw|split; [apply C93_same_version; exact Mw|reflexivity]]].
  apply (mn_alias old kdict (ATuple [AStr "A"; AAlias KTuple [ANoneType; AEllipsis]])); [|destruct old; reflexivity|discriminate].
  apply mn_tuple. intros a [<-|[<-|[]]]; [constructor|].
  apply (mn_alias old KTuple (ATuple [ANone; AEllipsis])); [|destruct old; reflexivity|intros _; discriminate].
  apply mn_tuple. intros a [<-|[<-|[]]]; constructor.
Qed.

(** the function that pickles of Tuple\[()\] call is also right for pickles with other arguments (written by other versions
    of dill): it gives typing.Tuple of those arguments *)
Theorem C93_create old a l t :
  a <> ATuple [] \/ l <> [] -> subscript old KTuple (ATuple (a :: l)) = Some t -> create_typing_tuple old (a :: l) = Some t.
Proof.
  intros N E. unfold create_typing_tuple. cbn [is_nil].
  assert (X : is_unit1 (a :: l) = false).
  { destruct N as [N|N]; destruct l; try reflexivity; try congruence.
    destruct a as [| | | | | |[|]| |]; try reflexivity. exfalso; apply N; reflexivity. }
  rewrite X. exact E.
Qed.
