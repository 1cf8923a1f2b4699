(** Properties C90-C92 of CallModel: objects stored as one call, shims, constants. *)
From Coq Require Import String List Bool ZArith Lia.
From Verif Require Import PyDict NamesModel CallModel.
Import ListNotations.
Local Open Scope string_scope.

(** ** the loading machine *)
Lemma run_app R a b st : run R (a ++ b)%list st = match run R a st with Some s => run R b s | None => None end.
Proof.
  revert st; induction a as [|o a IH]; intros st; [reflexivity|].
  destruct o; cbn [run app]; try apply IH.
  - destruct (path R (VMod m) p); [apply IH|reflexivity].
  - destruct (Nat.leb n (List.length st)); [apply IH|reflexivity].
  - destruct st as [|x st]; [reflexivity|]. destruct x; try reflexivity.
    destruct st as [|f st]; [reflexivity|]. destruct (apply R f l); [apply IH|reflexivity].
Qed.

Lemma run_frame R a : forall st st' t, run R a st = Some st' -> run R a (st ++ t)%list = Some (st' ++ t)%list.
Proof.
  induction a as [|o a IH]; intros st st' t E; [injection E as <-; reflexivity|].
  destruct o; cbn [run] in *.
  - apply (IH (v :: st)); exact E.
  - destruct (path R (VMod m) p) as [v|]; [apply (IH (v :: st)); exact E|discriminate].
  - destruct (Nat.leb n (List.length st)) eqn:L; [|discriminate].
    apply Nat.leb_le in L.
    assert (L' : Nat.leb n (List.length (st ++ t)) = true) by (apply Nat.leb_le; rewrite app_length; lia).
    rewrite L'. rewrite firstn_app, skipn_app.
    replace (n - List.length st) with 0 by lia. cbn [firstn skipn]. rewrite app_nil_r.
    apply (IH (VTuple (rev (firstn n st)) :: skipn n st)); exact E.
  - destruct st as [|x st]; [discriminate|]. destruct x; try discriminate.
    destruct st as [|f st]; [discriminate|]. cbn [app].
    destruct (apply R f l) as [v|]; [|discriminate]. apply (IH (v :: st)); exact E.
Qed.

(** ** specification
    [reloads v v']: dumping [v] with enough recursion depth gives a pickle, and the reading interpreter loads it as [v']. *)
Section Props.
  Variables (W R : env).
  Variable look : val -> val -> string -> option val.
  Variable pypy : bool.
  Variable builtin_code : val -> bool.
  Variable name_of : val -> string.
  Variable found_again : val -> val -> bool.

  Local Notation save := (save W look pypy builtin_code name_of found_again).

  Definition dumps (v : val) (s : list op) : Prop := exists n, forall k, n <= k -> save k v = Some s.
  Definition reloads (v v' : val) : Prop := exists s, dumps v s /\ load R s = Some v'.

  Lemma reloads_run v v' : reloads v v' ->
    exists n s, (forall k, n <= k -> save k v = Some s) /\ forall st, run R s st = Some (v' :: st).
  Proof.
    intros (s & (n & D) & L). exists n, s. split; [exact D|]. intros st.
    unfold load in L. destruct (run R s []) as [[|x [|]]|] eqn:E; try discriminate.
    injection L as ->. exact (run_frame R s [] [v'] st E).
  Qed.

  Lemma args_run l l' : Forall2 reloads l l' ->
    exists n s, (forall k, n <= k -> all_ops (map (save k) l) = Some s) /\ forall st, run R s st = Some (rev l' ++ st)%list.
  Proof.
    induction 1 as [|v v' l l' H F (n & s & D & L)].
    - exists 0, []. split; reflexivity.
    - destruct (reloads_run v v' H) as (m & t & D' & L'). exists (n + m), (t ++ s)%list. split.
      + intros k Hk. cbn [map all_ops]. rewrite D' by lia. rewrite D by lia. reflexivity.
      + intros st. rewrite run_app, L', L. cbn [rev]. rewrite <- app_assoc. reflexivity.
  Qed.

  Lemma F2_len {A B} (P : A -> B -> Prop) l l' : Forall2 P l l' -> List.length l = List.length l'.
  Proof. induction 1; cbn; congruence. Qed.

  Lemma tup_step l' st : run R [Tup (List.length l')] (rev l' ++ st)%list = Some (VTuple l' :: st).
  Proof.
    cbn [run]. rewrite app_length, rev_length.
    assert (E : Nat.leb (List.length l') (List.length l' + List.length st) = true) by (apply Nat.leb_le; lia).
    rewrite E. rewrite firstn_app, skipn_app, rev_length.
    replace (List.length l' - List.length l') with 0 by lia. cbn [firstn skipn]. rewrite app_nil_r.
    rewrite <- (rev_length l'). rewrite firstn_all, skipn_all, rev_involutive. reflexivity.
  Qed.

  Lemma call_run f f' l l' v k s t :
    callable f = true ->
    (forall st, run R s st = Some (f' :: st)) ->
    (forall st, run R t st = Some (rev l' ++ st)%list) ->
    save k f = Some s -> all_ops (map (save k) l) = Some t -> List.length l = List.length l' ->
    apply R f' l' = Some v ->
    reduce f (save k f) (all_ops (map (save k) l)) (List.length l) = Some (s ++ t ++ [Tup (List.length l'); Call])%list
    /\ load R (s ++ t ++ [Tup (List.length l'); Call])%list = Some v.
  Proof.
    intros C Ls Lt Es Et Len A. split.
    - unfold reduce. rewrite C, Es, Et, Len. reflexivity.
    - unfold load. rewrite run_app, Ls, run_app, Lt.
      change [Tup (List.length l'); Call] with ([Tup (List.length l')] ++ [Call])%list.
      rewrite run_app, tup_step. cbn [run]. rewrite A. reflexivity.
  Qed.

  (** every reduce value: function and arguments are reloaded, then called *)
  Lemma reduce_reloads w f f' l l' v :
    callable f = true -> reloads f f' -> Forall2 reloads l l' -> apply R f' l' = Some v ->
    (forall k, save (S k) w = reduce f (save k f) (all_ops (map (save k) l)) (List.length l)) ->
    reloads w v.
  Proof.
    intros C Hf F A E.
    destruct (reloads_run f f' Hf) as (n & s & D & L). destruct (args_run l l' F) as (m & t & D' & L').
    exists (s ++ t ++ [Tup (List.length l'); Call])%list. split.
    - exists (S (n + m)). intros [|k] Hk; [lia|]. rewrite E.
      apply (call_run f f' l l' v k s t); auto.
      + apply D; lia.
      + apply D'; lia.
      + apply (F2_len _ _ _ F).
    - apply (call_run f f' l l' v (n + m) s t); auto.
      + apply D; lia.
      + apply D'; lia.
      + apply (F2_len _ _ _ F).
  Qed.

  Lemma leaf_reloads v : (forall k, save (S k) v = Some [Push v]) -> reloads v v.
  Proof.
    intros E. exists [Push v]. split; [|reflexivity]. exists 1. intros [|k] Hk; [lia|]. apply E.
  Qed.
  Lemma name_reloads m q : reloads (VName m q) (VName m q).
  Proof. apply leaf_reloads. reflexivity. Qed.
  Lemma str_reloads s : reloads (VStr s) (VStr s).
  Proof. apply leaf_reloads. reflexivity. Qed.
  Lemma mod_reloads s : reloads (VMod s) (VMod s).
  Proof. apply leaf_reloads. reflexivity. Qed.

  (** *** C91 slices, bound methods and super objects *)
  Theorem C91_slice a b c a' b' c' :
    reloads a a' -> reloads b b' -> reloads c c' -> reloads (VSlice a b c) (VSlice a' b' c').
  Proof.
    intros Ha Hb Hc. apply (reduce_reloads _ f_slice f_slice [a; b; c] [a'; b'; c']); try reflexivity.
    - apply name_reloads.
    - repeat constructor; assumption.
  Qed.

  Theorem C91_tuple l l' : Forall2 reloads l l' -> reloads (VTuple l) (VTuple l').
  Proof.
    intros F. destruct (args_run l l' F) as (n & s & D & L).
    exists (s ++ [Tup (List.length l)])%list. split.
    - exists (S n). intros [|k] Hk; [lia|]. cbn [CallModel.save]. rewrite D by lia. reflexivity.
    - unfold load. rewrite run_app, L, (F2_len _ _ _ F), tup_step. reflexivity.
  Qed.

  Theorem C91_method f o f' o' :
    reloads f f' -> reloads o o' -> callable f' = true -> o' <> VNone ->
    (pypy = false \/ builtin_code f = false \/ found_again f o = false) ->
    reloads (VMeth f o) (VMeth f' o').
  Proof.
    intros Hf Ho C N B. apply (reduce_reloads _ f_method f_method [f; o] [f'; o']); try reflexivity.
    - apply name_reloads.
    - repeat constructor; assumption.
    - cbn. rewrite C. destruct o'; congruence.
    - intros k. cbn [CallModel.save].
      assert (X : andb (andb pypy (builtin_code f)) (found_again f o) = false).
      { destruct B as [->|[->| ->]]; rewrite ?andb_false_r; reflexivity. }
      rewrite X. reflexivity.
  Qed.

  (** PyPy's builtin methods: looked up by name on the reloaded object *)
  Theorem C91_pypy_method f o o' v :
    pypy = true -> builtin_code f = true -> found_again f o = true ->
    reloads o o' -> attr R o' (name_of f) = Some v -> reloads (VMeth f o) v.
  Proof.
    intros P B A Ho E. apply (reduce_reloads _ f_getattr f_getattr [o; VStr (name_of f)] [o'; VStr (name_of f)]); try reflexivity.
    - apply name_reloads.
    - constructor; [exact Ho|]. constructor; [apply str_reloads|constructor].
    - cbn. exact E.
    - intros k. cbn [CallModel.save]. rewrite P, B, A. reflexivity.
  Qed.

  (** what the attributes __thisclass__ and __self__ of the super object are *)
  Theorem C91_super_exact c o c1 o1 c' o' :
    c1 = (match o with VNone => c | _ => match look c o "__thisclass__" with Some v => v | None => c end end) ->
    o1 = (match o with VNone => o | _ => match look c o "__self__" with Some v => v | None => o end end) ->
    reloads c1 c' -> reloads o1 o' -> reloads (VSuper c o) (VSuper c' o').
  Proof.
    intros E1 E2 Hc Ho. apply (reduce_reloads _ f_super f_super [c1; o1] [c'; o']); try reflexivity.
    - apply name_reloads.
    - repeat constructor; assumption.
    - intros k. rewrite E1, E2. reflexivity.
  Qed.

  Theorem C91_super_partial c o c' o' :
    (o = VNone \/ (look c o "__thisclass__" = None /\ look c o "__self__" = None)) ->
    reloads c c' -> reloads o o' -> reloads (VSuper c o) (VSuper c' o').
  Proof.
    intros H Hc Ho. apply (C91_super_exact c o c o); auto; destruct H as [E|[E1 E2]].
    - rewrite E; reflexivity.
    - rewrite E1; destruct o; reflexivity.
    - rewrite E; reflexivity.
    - rewrite E2; destruct o; reflexivity.
  Qed.

  (** contexts: whatever can be dumped loads, as an empty context *)
  Theorem C91_context items s :
    dumps (VCtx items) s -> (forall p, In p items -> exists i, fst p = VCtxVar i) ->
    items = [] /\ load R s = Some (VCtx []).
  Proof.
    intros (n & D) V. specialize (D (n + 3) ltac:(lia)). rewrite Nat.add_comm in D. cbn [Nat.add CallModel.save] in D.
    destruct items as [|p r].
    - split; [reflexivity|]. cbn in D. injection D as <-. reflexivity.
    - exfalso. destruct (V p (or_introl eq_refl)) as (i & Ei). destruct p as [x y]. cbn [fst] in Ei. subst x.
      cbn in D. discriminate.
  Qed.

  (** *** C92 constants come back as the reader's own *)
  Lemma global_reloads v m p o : (forall k, save (S k) v = Some [Global m p]) -> path R (VMod m) p = Some o -> reloads v o.
  Proof.
    intros E P. exists [Global m p]. split.
    - exists 1. intros [|k] Hk; [lia|]. apply E.
    - unfold load. cbn [run]. rewrite P. reflexivity.
  Qed.

  Theorem C92_dataclasses c ns :
    get "dataclasses" R = Some ns ->
    (forall n, c = FieldBase n -> get n ns = Some (VConst (FieldBase n))) ->
    get "MISSING" ns = Some (VConst Missing) -> get "KW_ONLY" ns = Some (VConst KwOnly) ->
    get "_HAS_DEFAULT_FACTORY" ns = Some (VConst HasDefaultFactory) ->
    reloads (VConst c) (VConst c).
  Proof.
    intros G F M K H. apply (global_reloads _ "dataclasses" [dconst_name c]); [reflexivity|].
    cbn [path attr]. rewrite G. destruct c as [| | |n]; cbn [dconst_name].
    - rewrite H; reflexivity.
    - rewrite M; reflexivity.
    - rewrite K; reflexivity.
    - rewrite (F n eq_refl); reflexivity.
  Qed.

  (** a field kind made by the user under a name the module does not have cannot be loaded *)
  Theorem C92_field_base_refuted n ns :
    get "dataclasses" R = Some ns -> get n ns = None ->
    exists s, dumps (VConst (FieldBase n)) s /\ load R s = None.
  Proof.
    intros G N. exists [Global "dataclasses" [n]]. split.
    - exists 1. intros [|k] Hk; [lia|]. reflexivity.
    - unfold load. cbn [run path attr]. rewrite G, N. reflexivity.
  Qed.

  (** a sentinel can be dumped exactly if its module has it under its name ... *)
  Theorem C92_sentinel_dumps n m :
    (exists s, dumps (VSent n m) s) <-> path W (VMod m) (split_dot n) = Some (VSent n m).
  Proof.
    split.
    - intros (s & k & D). specialize (D (S k) ltac:(lia)). cbn [CallModel.save] in D.
      destruct (path W (VMod m) (split_dot n)) as [v|] eqn:P; cbn [same_sentinel] in D; [|discriminate].
      destruct v; cbn [same_sentinel] in D; try discriminate.
      destruct (String.eqb_spec n name); [|discriminate]. destruct (String.eqb_spec m modname); [|discriminate].
      subst. reflexivity.
    - intros P. exists [Global m (split_dot n)]. exists 1. intros [|k] Hk; [lia|]. cbn [CallModel.save].
      rewrite P. cbn [same_sentinel]. rewrite !String.eqb_refl. reflexivity.
  Qed.

  (** ... and then loads as the object the reader has there *)
  Theorem C92_sentinel_loads n m v :
    path W (VMod m) (split_dot n) = Some (VSent n m) -> path R (VMod m) (split_dot n) = Some v ->
    reloads (VSent n m) v.
  Proof.
    intros P Q. apply (global_reloads _ m (split_dot n)); [|exact Q].
    intros k. cbn [CallModel.save]. rewrite P. cbn [same_sentinel]. rewrite !String.eqb_refl. reflexivity.
  Qed.

  (** *** C90 shims *)
  (** the attribute of dill._dill in the reading interpreter *)
  Definition readers (name : string) : option val :=
    match get "dill._dill" R with Some ns => get name ns | None => None end.

  Lemma getattr_reloads name d d' :
    d <> NO_DEFAULT -> reloads d d' ->
    reloads (Getattr (VMod "dill._dill") name d) (match readers name with Some v => v | None => d' end).
  Proof.
    intros N H.
    apply (reduce_reloads _ f_getattr f_getattr [VMod "dill._dill"; VStr name; d] [VMod "dill._dill"; VStr name; d']); try reflexivity.
    - apply name_reloads.
    - constructor; [apply mod_reloads|]. constructor; [apply str_reloads|]. constructor; [exact H|constructor].
    - cbn. unfold readers. destruct (get "dill._dill" R) as [ns|]; [destruct (get name ns)|]; reflexivity.
    - intros k. unfold Getattr, Reduce.
      assert (X : is_no_default d = false).
      { destruct d; try reflexivity. cbn [is_no_default].
        destruct (String.eqb_spec name0 "Getattr.NO_DEFAULT"); [|reflexivity].
        destruct (String.eqb_spec modname "dill._shims"); [|reflexivity]. subst. exfalso. apply N. reflexivity. }
      rewrite X. reflexivity.
  Qed.

  (** a shim loads as the reader's own definition if its dill has one, as the default otherwise *)
  Theorem C90_shim G D D' name d d' shim :
    register_shim G D name d = (D', Some shim) -> d <> NO_DEFAULT -> reloads d d' ->
    reloads shim (match readers name with Some v => v | None => d' end).
  Proof.
    intros E N H.
    assert (X : shim = Getattr (VMod "dill._dill") name d).
    { unfold register_shim in E. destruct (get name G) as [f|]; [|congruence].
      destruct f; try congruence; destruct (set_module _ _); congruence. }
    rewrite X. apply getattr_reloads; assumption.
  Qed.

  Theorem C90_no_default G D D' name shim v :
    register_shim G D name NO_DEFAULT = (D', Some shim) -> readers name = Some v -> reloads shim v.
  Proof.
    intros E Rv.
    assert (X : shim = Getattr (VMod "dill._dill") name NO_DEFAULT).
    { unfold register_shim in E. destruct (get name G) as [f|]; [|congruence].
      destruct f; try congruence; destruct (set_module _ _); congruence. }
    rewrite X.
    apply (reduce_reloads _ f_getattr f_getattr [VMod "dill._dill"; VStr name] [VMod "dill._dill"; VStr name]); try reflexivity.
    - apply name_reloads.
    - constructor; [apply mod_reloads|]. constructor; [apply str_reloads|constructor].
    - unfold readers in Rv. cbn. destruct (get "dill._dill" R) as [ns|]; [exact Rv|discriminate].
  Qed.

  (** what can be called: functions and classes found by name, bound methods, objects with __call__, callable shims *)
  Definition can_call (d : val) : Prop :=
    (exists m n, d = VName m n) \/ (exists f o, d = VMeth f o) \/ (exists i attrs, d = VObj i true attrs) \/ exists r, d = VRed true r.
  Lemma can_call_iff d : can_call d <-> callable d = true.
  Proof.
    split.
    - intros [(m & n & ->)|[(f & o & ->)|[(i & a & ->)|(r & ->)]]]; reflexivity.
    - destruct d; cbn; try discriminate; intros ->||intros _; unfold can_call; eauto 8.
  Qed.

  (** a shim as the function of another reduce value: the reader calls its own definition, or the default *)
  Theorem C90_called G D D' name d d' shim args args' v call :
    register_shim G D name d = (D', Some shim) -> can_call d -> reloads d d' ->
    Forall2 reloads args args' ->
    apply R (match readers name with Some f => f | None => d' end) args' = Some v ->
    reloads (Reduce [shim; VTuple args] call) v.
  Proof.
    intros E C H F A. apply can_call_iff in C.
    assert (N : d <> NO_DEFAULT) by (intros ->; discriminate).
    apply (reduce_reloads _ shim (match readers name with Some f => f | None => d' end) args args' v); auto.
    - unfold register_shim in E. destruct (get name G) as [f|].
      + destruct f; try destruct (set_module _ _); inversion E; subst; exact C.
      + inversion E; subst; exact C.
    - apply (C90_shim G D D' name d d'); assumption.
  Qed.

  (** with a default that is not callable (or none) it cannot be the function of a reduce value: the dump fails *)
  Theorem C90_not_callable G D D' name d shim args call :
    register_shim G D name d = (D', Some shim) -> ~ can_call d ->
    forall k, save k (Reduce [shim; VTuple args] call) = None.
  Proof.
    intros E C0 [|k]; [reflexivity|].
    assert (C : callable d = false) by (destruct (callable d) eqn:Q; [exfalso; apply C0, can_call_iff, Q|reflexivity]).
    assert (X : callable shim = false).
    { unfold register_shim in E. destruct (get name G) as [f|].
      + destruct f; try destruct (set_module _ _); inversion E; subst; exact C.
      + inversion E; subst; exact C. }
    unfold Reduce. cbn [CallModel.save]. unfold reduce. rewrite X. reflexivity.
  Qed.
End Props.

(** calling the shim directly is calling what this interpreter's own dill would load it as *)
Theorem C90_direct E G D D' name d shim args :
  register_shim G D name d = (D', Some shim) -> can_call d ->
  call_shim E shim args = apply E (match readers E name with Some f => f | None => d end) args.
Proof.
  intros H C. apply can_call_iff in C.
  assert (X : shim = Getattr (VMod "dill._dill") name d).
  { unfold register_shim in H. destruct (get name G) as [f|]; [|congruence].
    destruct f; try congruence; destruct (set_module _ _); congruence. }
  rewrite X. unfold Getattr, Reduce, call_shim.
  assert (N : is_no_default d = false) by (destruct d; try reflexivity; discriminate).
  rewrite N, C. cbn. unfold readers.
  destruct (get "dill._dill" E) as [ns|]; [destruct (get name ns)|]; reflexivity.
Qed.

(** registration: a function defined in dill._shims is published as an attribute of dill._dill and says so in its
    __module__; nothing else is changed, and a name without definition changes nothing *)
Theorem C90_published G D name d i c attrs D' r :
  get name G = Some (VObj i c attrs) -> register_shim G D name d = (D', r) ->
  (exists attrs', get name D' = Some (VObj i c attrs') /\ get "__module__" attrs' = Some (VStr "dill._dill")
     /\ forall a, a <> "__module__" -> get a attrs' = get a attrs)
  /\ (forall n, n <> name -> get n D' = get n D)
  /\ exists shim, r = Some shim.
Proof.
  intros H E. unfold register_shim in E. rewrite H in E. cbn [set_module] in E. inversion E; subst D'. split.
  - eexists. split; [apply get_set_same|]. split; [apply get_set_same|]. intros a N. apply get_set_other; congruence.
  - split; [|eexists; reflexivity]. intros n N. apply get_set_other; congruence.
Qed.
Theorem C90_unpublished G D name d :
  get name G = None \/ get name G = Some VNone -> exists shim, register_shim G D name d = (D, Some shim).
Proof. intros [H|H]; unfold register_shim; rewrite H; eexists; reflexivity. Qed.
(** an object whose __module__ cannot be assigned (a number, say) is published all the same; then the call fails *)
Definition fixed (f : val) : Prop := (exists s, f = VStr s) \/ (exists l, f = VTuple l) \/ exists r, f = VRed false r.
Theorem C90_half_published G D name d f :
  get name G = Some f -> fixed f ->
  exists D', register_shim G D name d = (D', None) /\ get name D' = Some f /\ forall n, n <> name -> get n D' = get n D.
Proof.
  intros H F. exists (set name f D). split.
  - unfold register_shim. rewrite H. destruct F as [[x Ex]|[[x Ex]|[x Ex]]]; rewrite Ex; reflexivity.
  - split; [apply get_set_same|]. intros n N. apply get_set_other; congruence.
Qed.
(** a callable shim (what the name stands for after a first registration) takes the __module__: registering it again succeeds, and it is in the place of the definition *)
Theorem C90_again G D name d r :
  get name G = Some (VRed true r) ->
  exists D' shim, register_shim G D name d = (D', Some shim) /\ get name D' = Some (VRed true r) /\ forall n, n <> name -> get n D' = get n D.
Proof.
  intros H. eexists _, _. unfold register_shim. rewrite H. cbn [set_module]. split; [reflexivity|].
  split; [apply get_set_same|]. intros n N. apply get_set_other; congruence.
Qed.
Theorem C90_half_moved D mname name fname f : fixed f ->
  exists D', move_to D mname name fname f = (D', None) /\ get (match name with Some n => n | None => fname end) D' = Some f
    /\ forall n, n <> (match name with Some n => n | None => fname end) -> get n D' = get n D.
Proof.
  intros F. exists (set (match name with Some n => n | None => fname end) f D). split.
  - unfold move_to. destruct name; destruct F as [[x Ex]|[[x Ex]|[x Ex]]]; rewrite Ex; reflexivity.
  - split; [apply get_set_same|]. intros n N. apply get_set_other; congruence.
Qed.

(** move_to puts a function under the given name, or its own, and says so in its __module__ *)
Theorem C90_moved D mname name fname i c attrs D' r :
  move_to D mname name fname (VObj i c attrs) = (D', r) ->
  exists attrs', r = Some (VObj i c attrs')
    /\ get (match name with Some n => n | None => fname end) D' = r
    /\ get "__module__" attrs' = Some (VStr mname)
    /\ forall n, n <> (match name with Some n => n | None => fname end) -> get n D' = get n D.
Proof.
  intros E. unfold move_to in E. cbn [set_module] in E. inversion E; subst D' r. eexists. split; [reflexivity|].
  destruct name; (split; [apply get_set_same|]; split; [apply get_set_same|]; intros n N; apply get_set_other; congruence).
Qed.

(** REFUTED: registering the same name twice (importlib.reload of dill._shims) is not harmless.  The second time the
    name stands, in dill._shims, for the Reduce object of the first; that is put into dill._dill in the place of the
    definition there (for _CELL_EMPTY the sentinel), every shim of that name loads as it from then on, and for a
    default that is not callable the call then fails, so the shims after it are not registered *)
Definition cell_empty : val := VSent "_CELL_EMPTY" "dill._dill".
Definition once : list (string * val) * option val := register_shim [] [("_CELL_EMPTY", cell_empty)] "_CELL_EMPTY" VNone.
Definition twice (s : val) : list (string * val) * option val := register_shim [("_CELL_EMPTY", s)] (fst once) "_CELL_EMPTY" VNone.
Theorem C90_reload_refuted :
  exists s,
    snd once = Some s
    /\ (forall W look pypy bc nm fa, reloads W [("dill._dill", fst once)] look pypy bc nm fa s cell_empty)
    /\ snd (twice s) = None
    /\ (forall W look pypy bc nm fa, reloads W [("dill._dill", fst (twice s))] look pypy bc nm fa s s)
    /\ s <> cell_empty.
Proof.
  exists (Getattr (VMod "dill._dill") "_CELL_EMPTY" VNone).
  split; [reflexivity|]. split; [|split; [reflexivity|split; [|discriminate]]].
  - intros. exact (C90_shim W [("dill._dill", fst once)] look pypy bc nm fa [] [] [] "_CELL_EMPTY" VNone VNone _ eq_refl
      ltac:(discriminate) (leaf_reloads W _ look pypy bc nm fa VNone (fun k => eq_refl))).
  - intros. exact (C90_shim W [("dill._dill", fst (twice _))] look pypy bc nm fa [] [] [] "_CELL_EMPTY" VNone VNone _ eq_refl
      ltac:(discriminate) (leaf_reloads W _ look pypy bc nm fa VNone (fun k => eq_refl))).
Qed.

(** REFUTED: super(C, obj) where a class after C in the method resolution order defines __self__ (as proxy and wrapper
    classes do): dill reads the attribute of that name instead of the super object's own, and the copy is bound to it *)
Definition c_cls : val := VObj 1 true [].
Definition c_obj : val := VObj 2 false [].
Definition c_other : val := VObj 3 false [].
Definition c_look (c o : val) (a : string) : option val := if String.eqb a "__self__" then Some c_other else None.
Theorem C91_super_refuted :
  reloads [] [] c_look false (fun _ => false) (fun _ => "") (fun _ _ => false) (VSuper c_cls c_obj) (VSuper c_cls c_other)
  /\ c_other <> c_obj.
Proof.
  split; [|discriminate].
  apply (C91_super_exact [] [] c_look false (fun _ => false) (fun _ => "") (fun _ _ => false) c_cls c_obj c_cls c_other); try reflexivity.
  - apply leaf_reloads. reflexivity.
  - apply leaf_reloads. reflexivity.
Qed.

(** ** cases *)
(** the namespace of a dill with an override of _setattr, and one without *)
Definition override : val := VObj 7 true [("__name__", VStr "_setattr")].
Definition f_setattr : val := VName "builtins" "setattr".
Definition old_dill : env := [("dill._dill", fst (register_shim [("_setattr", override)] [] "_setattr" f_setattr))].
Definition new_dill : env := [("dill._dill", [])].

Theorem C90_case : forall W look pypy bc nm fa,
  let shim := Getattr (VMod "dill._dill") "_setattr" f_setattr in
  reloads W new_dill look pypy bc nm fa shim f_setattr
  /\ (exists o, readers old_dill "_setattr" = Some o /\ reloads W old_dill look pypy bc nm fa shim o)
  /\ reloads W new_dill look pypy bc nm fa (Reduce [shim; VTuple [c_obj; VStr "x"; VInt 3]] false)
       (VApp f_setattr [c_obj; VStr "x"; VInt 3]).
Proof.
  intros. split; [|split].
  - apply (C90_shim W new_dill look pypy bc nm fa [] [] [] "_setattr" f_setattr f_setattr); try reflexivity; [discriminate|].
    apply leaf_reloads. reflexivity.
  - eexists. split; [reflexivity|].
    apply (C90_shim W old_dill look pypy bc nm fa [] [] [] "_setattr" f_setattr f_setattr); try reflexivity; [discriminate|].
    apply leaf_reloads. reflexivity.
  - apply (C90_called W new_dill look pypy bc nm fa [] [] [] "_setattr" f_setattr f_setattr shim _ [c_obj; VStr "x"; VInt 3]); try reflexivity.
    + left. eexists _, _. reflexivity.
    + apply leaf_reloads. reflexivity.
    + repeat constructor; apply leaf_reloads; reflexivity.
Qed.

Definition dc_env : env :=
  [("dataclasses", [("MISSING", VConst Missing); ("KW_ONLY", VConst KwOnly);
     ("_HAS_DEFAULT_FACTORY", VConst HasDefaultFactory); ("_FIELD", VConst (FieldBase "_FIELD"))]);
   ("dill._shims", [("Getattr", VObj 9 true [("NO_DEFAULT", NO_DEFAULT)])])].
Theorem C92_case : forall look pypy bc nm fa,
  reloads dc_env dc_env look pypy bc nm fa (VTuple [VConst Missing; VConst (FieldBase "_FIELD"); VConst Missing; NO_DEFAULT])
    (VTuple [VConst Missing; VConst (FieldBase "_FIELD"); VConst Missing; NO_DEFAULT]).
Proof.
  intros. apply C91_tuple. repeat constructor.
  - eapply C92_dataclasses; try reflexivity; discriminate.
  - eapply C92_dataclasses; try reflexivity. intros n E. inversion E. reflexivity.
  - eapply C92_dataclasses; try reflexivity; discriminate.
  - apply C92_sentinel_loads; reflexivity.
Qed.

Theorem C91_case : forall W R pypy bc nm fa,
  let o := VObj 4 false [("x", VInt 1)] in
  reloads W R (fun _ _ _ => None) pypy bc nm fa
    (VTuple [VSlice VNone (VSuper c_cls o) (VInt (-1)); VSuper c_cls VNone; VCtx []])
    (VTuple [VSlice VNone (VSuper c_cls o) (VInt (-1)); VSuper c_cls VNone; VCtx []]).
Proof.
  intros. apply C91_tuple. repeat constructor.
  - apply C91_slice; try (apply leaf_reloads; reflexivity).
    apply C91_super_partial; [right; split; reflexivity| |]; apply leaf_reloads; reflexivity.
  - apply C91_super_partial; [left; reflexivity| |]; apply leaf_reloads; reflexivity.
  - exists [Push f_context; Tup 0; Call]. split; [|reflexivity]. exists 2. intros [|[|k]] Hk; [lia|lia|reflexivity].
Qed.
