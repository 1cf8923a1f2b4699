(** The old names of the session functions and of their arguments: property C104. *)
From Coq Require Import String List Bool Arith Lia.
From Verif Require Import PyDict ArgsModel.
Import ListNotations.
Local Open Scope string_scope.

(** ** specification *)
(** keywords under none of the names in question *)
Definition other_keywords (kw : kwds) : Prop :=
  forall n, In n ["main"; "byref"; "module"; "refimported"] -> has n kw = false.

(** how often the warning about the default path is given *)
Definition default_warnings (ws : list warning) : nat :=
  length (filter (fun w => match w with DefaultPath => true | _ => false end) ws).

(** ** lemmas *)
Lemma has_cons : forall (n k : string) (v : arg) (kw : kwds), has n ((k, v) :: kw) = String.eqb n k || has n kw.
Proof.
  intros n k v kw. unfold has. cbn [get].
  change (PyDict.eqb n k) with (String.eqb n k). destruct (String.eqb n k); reflexivity.
Qed.

Lemma del_absent : forall n (kw : kwds), has n kw = false -> del n kw = kw.
Proof.
  intros n kw. induction kw as [|[k v] kw IH]; intros H; [reflexivity|].
  rewrite has_cons in H. apply orb_false_iff in H as [H1 H2]. cbn [del filter fst].
  change (PyDict.eqb n k) with (String.eqb n k). rewrite H1. cbn [negb]. f_equal. apply IH, H2.
Qed.

Lemma pop_absent : forall n d kw, has n kw = false -> pop n d kw = (d, kw).
Proof. intros n d kw H. unfold pop. unfold has in H. destruct (get n kw); [discriminate|reflexivity]. Qed.

Lemma pop_here : forall n d v kw, has n kw = false -> pop n d ((n, v) :: kw) = (v, kw).
Proof.
  intros n d v kw H. unfold pop. cbn [get]. rewrite eqb_refl. f_equal. cbn [del filter fst]. rewrite eqb_refl. cbn [negb].
  apply del_absent, H.
Qed.

Lemma pop_past : forall n k d v kw, String.eqb n k = false ->
  pop n d ((k, v) :: kw) = (fst (pop n d kw), match get n kw with Some _ => (k, v) :: snd (pop n d kw) | None => (k, v) :: kw end).
Proof.
  intros n k d v kw H. unfold pop. cbn [get]. change (PyDict.eqb n k) with (String.eqb n k). rewrite H.
  destruct (get n kw); [|reflexivity]. cbn [fst snd]. f_equal. cbn [del filter fst].
  change (PyDict.eqb n k) with (String.eqb n k). rewrite H. reflexivity.
Qed.

Lemma get_absent : forall n (kw : kwds), has n kw = false -> get n kw = None.
Proof. intros n kw H. unfold has in H. destruct (get n kw); [discriminate|reflexivity]. Qed.

(** ** C104 *)
Section Old.
Variable main_module : nat.
Variable importm : string -> option nat.

(** dump_module(f, module=m, refimported=r), the same with main=m or byref=r in their place, and dump_session(f, m, r)
    do the same thing, or raise the same error; the old names add their warnings. *)
Theorem C104_dump : forall f m r kw, other_keywords kw ->
  let new := dump_module main_module importm f m r kw in
  let old1 := dump_module main_module importm f ANone r (("main", m) :: kw) in
  let old2 := dump_module main_module importm f m (ABool false) (("byref", r) :: kw) in
  let old3 := dump_module main_module importm f ANone (ABool false) (("main", m) :: ("byref", r) :: kw) in
  let old4 := dump_module main_module importm f ANone (ABool false) (("byref", r) :: ("main", m) :: kw) in
  let session := dump_session main_module importm f m r kw in
  snd old1 = snd new /\ snd old2 = snd new /\ snd old3 = snd new /\ snd old4 = snd new /\ snd session = snd new /\
  fst old1 = Renamed "main" "module" :: fst new /\ fst old2 = Renamed "byref" "refimported" :: fst new /\
  fst old3 = Renamed "main" "module" :: Renamed "byref" "refimported" :: fst new /\
  fst session = RenamedFunction "dump_session" "dump_module" :: fst new.
Proof.
  intros f m r kw O.
  assert (Om := O "main" ltac:(cbn; auto)). assert (Ob := O "byref" ltac:(cbn; auto)).
  assert (Od := O "module" ltac:(cbn; auto)). assert (Or := O "refimported" ltac:(cbn; auto)).
  assert (N1 : String.eqb "byref" "main" = false) by reflexivity.
  assert (N2 : String.eqb "main" "byref" = false) by reflexivity.
  cbv zeta. unfold dump_session. rewrite Od, Or.
  unfold dump_module. cbn [renamed]. rewrite !has_cons, !String.eqb_refl, !N1, !N2, Om, Ob. cbn [orb truth].
  change (truth (if "module" =? "module" then ANone else r)) with false.
  change (truth (if "refimported" =? "module" then m else ABool false)) with false.
  change (truth (if "module" =? "module" then ANone else ABool false)) with false.
  change (truth (if "refimported" =? "module" then ANone else ABool false)) with false.
  assert (Om' : has "main" (("byref", r) :: kw) = false) by (rewrite has_cons, N2, Om; reflexivity).
  assert (Ob' : has "byref" (("main", m) :: kw) = false) by (rewrite has_cons, N1, Ob; reflexivity).
  assert (P3 : pop "byref" (ABool false) (("main", m) :: ("byref", r) :: kw) = (r, ("main", m) :: kw)).
  { rewrite (pop_past "byref" "main" (ABool false) m _ N1), (pop_here "byref" (ABool false) r kw Ob). reflexivity. }
  rewrite (pop_absent "byref" r kw Ob), (pop_absent "byref" r _ Ob'), (pop_here "byref" (ABool false) r kw Ob), P3,
    (pop_here "byref" (ABool false) r _ Ob').
  cbv beta iota.
  rewrite (pop_absent "main" m kw Om), (pop_here "main" ANone m kw Om).
  destruct (find_main main_module importm m); [destruct (find_place f)|]; cbn; auto 12.
Qed.

(** what the argument module stands for: None is __main__, a name is imported, a module is itself *)
Definition stands_for (m : arg) (k : nat) : Prop :=
  (m = ANone /\ k = main_module) \/ (exists s, m = AStr s /\ importm s = Some k) \/ (exists t, m = AModule k t).
(** what the argument filename stands for *)
Definition goes_to (f : arg) (p : place) : Prop :=
  match f with ANone => p = TheDefaultPath | AStream n _ => p = TheStream n | _ => p = ThePath f end.

(** dump_module saves the module its argument stands for, to the place the file name stands for, with the options given;
    it is refused exactly when the argument stands for no module. *)
Theorem C104_module : forall f m r kw k, other_keywords kw ->
  (stands_for m k <->
   exists p, goes_to f p /\ snd (dump_module main_module importm f m r kw) = inl (Job k p (truth r) kw)).
Proof.
  intros f m r kw k O.
  assert (Om := O "main" ltac:(cbn; auto)). assert (Ob := O "byref" ltac:(cbn; auto)).
  unfold dump_module. cbn [renamed]. rewrite Om, Ob. rewrite (pop_absent "byref" r kw Ob). cbv beta iota.
  rewrite (pop_absent "main" m kw Om). unfold stands_for, goes_to.
  assert (F : exists p, snd (find_place f) = p /\ match f with ANone => p = TheDefaultPath | AStream n _ => p = TheStream n | _ => p = ThePath f end)
    by (destruct f; cbn; eauto).
  destruct F as (p & Fp & Gp). destruct (find_place f) as [ws pl]. cbn [snd] in Fp. subst pl. split.
  - intros [[-> ->]|[(s & -> & E)|(t & ->)]]; exists p; (split; [exact Gp|]); cbn; try rewrite E; reflexivity.
  - intros (q & Gq & E). destruct m; cbn in E; try discriminate.
    + injection E as <- _. auto.
    + destruct (importm s) eqn:Ei; [|discriminate]. injection E as <- _. eauto.
    + injection E as <- _. eauto.
Qed.

(** Using both names of one argument is an error, before anything else is done, exactly when the new one is given a
    value that counts as true. *)
Theorem C104_dump_both : forall f m r kw,
  (exists new old, snd (dump_module main_module importm f m r kw) = inr (BothUsed new old)) <->
  (has "main" kw = true /\ truth m = true) \/ (has "byref" kw = true /\ truth r = true).
Proof.
  intros f m r kw. unfold dump_module. cbn [renamed].
  change (if "module" =? "module" then m else r) with m. change (if "refimported" =? "module" then m else r) with r.
  assert (G : forall ws k1 k2, (exists new old, snd (let (refimported, kw0) := pop k1 r kw in let (module, kw1) := pop k2 m kw0 in
      match find_main main_module importm module with
      | inr e => (ws : list warning, inr e)
      | inl m0 => let (ws', pl) := find_place f in ((ws ++ ws')%list, inl (Job m0 pl (truth refimported) kw1))
      end) = inr (BothUsed new old)) -> False).
  { intros ws k1 k2 (new & old & H). destruct (pop k1 r kw) as [rr kw0]. destruct (pop k2 m kw0) as [mm kw1].
    unfold find_main in H. destruct mm; try destruct (importm s); try destruct (find_place f); cbn in H; discriminate. }
  destruct (has "main" kw) eqn:Em; [destruct (truth m) eqn:Tm|].
  - cbn. split; [auto|]. eauto.
  - destruct (has "byref" kw) eqn:Eb; [destruct (truth r) eqn:Tr|]; cbn [snd].
    + split; [auto|]. eauto.
    + split; [intros H; destruct (G _ _ _ H)|intuition congruence].
    + split; [intros H; destruct (G _ _ _ H)|intuition congruence].
  - destruct (has "byref" kw) eqn:Eb; [destruct (truth r) eqn:Tr|]; cbn [snd].
    + split; [auto|]. eauto.
    + split; [intros H; destruct (G _ _ _ H)|intuition congruence].
    + split; [intros H; destruct (G _ _ _ H)|intuition congruence].
Qed.

(** REFUTED: "using both is always refused".  refimported=False with byref=True, or a module that counts as false
    with main: the old name silently wins. *)
Theorem C104_both_refuted : forall f n k,
  snd (dump_module main_module importm f (AModule n false) (ABool false) [("main", AModule k true); ("byref", ABool true)]) =
  inl (Job k (snd (find_place f)) true []).
Proof. intros f n k. unfold dump_module. cbn. destruct (find_place f). reflexivity. Qed.

(** load_module(f, module=m), load_module(f, main=m), load_session(f, m) *)
Theorem C104_load : forall f m kw, other_keywords kw ->
  let new := load_module f m kw in
  let old := load_module f ANone (("main", m) :: kw) in
  let session := load_session f m kw in
  snd old = snd new /\ snd session = snd new /\
  fst old = Renamed "main" "module" :: fst new /\ fst session = RenamedFunction "load_session" "load_module" :: fst new.
Proof.
  intros f m kw O.
  assert (Om := O "main" ltac:(cbn; auto)). assert (Od := O "module" ltac:(cbn; auto)).
  cbv zeta. unfold load_session. rewrite Od. unfold load_module. rewrite has_cons, String.eqb_refl, Om. cbn [orb].
  rewrite (pop_here "main" ANone m kw Om). destruct (find_place f). cbn. auto.
Qed.
(** both names: an error exactly when the new one is given anything but None *)
Theorem C104_load_both : forall f m kw,
  (exists e, snd (load_module f m kw) = inr e) <-> has "main" kw = true /\ m <> ANone.
Proof.
  intros f m kw. unfold load_module. destruct (has "main" kw).
  - destruct m; try (split; [intros _; split; [reflexivity|discriminate]|intros _; cbn; eauto]; fail).
    destruct (pop "main" ANone kw). destruct (find_place f). cbn. split; [intros [e H]; discriminate|intros [_ H]; congruence].
  - destruct (find_place f). cbn. split; [intros [e H]; discriminate|intros [H _]; discriminate].
Qed.

(** The warning about the world-writable default path is given once by every call that is not refused and has no file
    name, and by no other call. *)
Theorem C104_default_path : forall f o m r kw,
  (forall j, snd (dump_module main_module importm f m r kw) = inl j ->
     default_warnings (fst (dump_module main_module importm f m r kw)) = (match f with ANone => 1 | _ => 0 end) /\
     (j_place j = TheDefaultPath <-> f = ANone)) /\
  (forall j, snd (dump_session main_module importm f m r kw) = inl j ->
     default_warnings (fst (dump_session main_module importm f m r kw)) = (match f with ANone => 1 | _ => 0 end)) /\
  (forall j, snd (load_module f m kw) = inl j ->
     default_warnings (fst (load_module f m kw)) = (match f with ANone => 1 | _ => 0 end) /\
     (l_place j = TheDefaultPath <-> f = ANone)) /\
  (forall j, snd (load_session f m kw) = inl j ->
     default_warnings (fst (load_session f m kw)) = (match f with ANone => 1 | _ => 0 end)) /\
  (forall j, snd (load_module_asdict f o kw) = inl j ->
     default_warnings (fst (load_module_asdict f o kw)) = (match f with ANone => 1 | _ => 0 end)).
Proof.
  intros f o m r kw.
  assert (P : default_warnings (fst (find_place f)) = (match f with ANone => 1 | _ => 0 end) /\
              (snd (find_place f) = TheDefaultPath <-> f = ANone)).
  { destruct f; cbn; split; try reflexivity; split; congruence. }
  assert (A : forall a b, default_warnings (a ++ b) = default_warnings a + default_warnings b).
  { intros a b. unfold default_warnings. now rewrite filter_app, app_length. }
  assert (D : forall j, snd (dump_module main_module importm f m r kw) = inl j ->
     default_warnings (fst (dump_module main_module importm f m r kw)) = (match f with ANone => 1 | _ => 0 end) /\
     (j_place j = TheDefaultPath <-> f = ANone)).
  { intros j. unfold dump_module.
    assert (R : forall ps v, default_warnings (fst (renamed ps v kw)) = 0).
    { induction ps as [|[a b] ps IH]; intros v; [reflexivity|]. cbn [renamed]. destruct (has a kw); [|apply IH].
      destruct (truth (v b)); [reflexivity|]. specialize (IH v). destruct (renamed ps v kw). exact IH. }
    specialize (R [("main", "module"); ("byref", "refimported")] (fun par => if par =? "module" then m else r)).
    destruct (renamed _ _ _) as [ws [e|]]; [discriminate|]. cbn [fst] in R.
    destruct (pop "byref" r kw) as [rr kw0]. destruct (pop "main" m kw0) as [mm kw1].
    destruct (find_main main_module importm mm); [|discriminate].
    destruct (find_place f) as [ws' pl]. cbn [fst snd]. intros E. injection E as <-. cbn [j_place].
    rewrite A, R. cbn [fst snd] in P. exact P. }
  assert (L : forall f, default_warnings (fst (find_place f)) = (match f with ANone => 1 | _ => 0 end) /\
              (snd (find_place f) = TheDefaultPath <-> f = ANone) ->
     forall m j, snd (load_module f m kw) = inl j ->
     default_warnings (fst (load_module f m kw)) = (match f with ANone => 1 | _ => 0 end) /\
     (l_place j = TheDefaultPath <-> f = ANone)).
  { clear. intros f P m j. unfold load_module. destruct (has "main" kw).
    - destruct m; try discriminate. destruct (pop "main" ANone kw) as [mm kw1]. destruct (find_place f) as [ws pl].
      cbn [fst snd app]. intros E. injection E as <-. exact P.
    - destruct (find_place f) as [ws pl]. cbn [fst snd app]. intros E. injection E as <-. exact P. }
  split; [exact D|]. split; [|split; [intros j; apply L, P|split]].
  - intros j. unfold dump_session. destruct (has "module" kw); [discriminate|]. destruct (has "refimported" kw); [discriminate|].
    specialize (D j). destruct (dump_module main_module importm f m r kw) as [ws x]. cbn [fst snd] in *. intros E. apply (D E).
  - intros j. unfold load_session. destruct (has "module" kw); [discriminate|].
    specialize (L f P m j). destruct (load_module f m kw) as [ws x]. cbn [fst snd] in *. intros E. apply (L E).
  - intros j. unfold load_module_asdict. destruct (has "module" kw); [discriminate|].
    destruct (find_place f) as [ws pl] eqn:Ef. cbn [fst snd] in P.
    assert (Q : exists n, (match pl with TheStream n => AStream n true | _ => AStream o true end) = AStream n true)
      by (destruct pl; eauto).
    destruct Q as [n ->]. specialize (L (AStream n true) ltac:(cbn; split; [reflexivity|split; congruence]) ANone j).
    destruct (load_module (AStream n true) ANone kw) as [ws' x]. cbn [fst snd] in *. intros E. rewrite A.
    rewrite (proj1 (L E)). rewrite Nat.add_0_r. apply P.
Qed.

(** REFUTED: "load_module_asdict does not take a module".  Under its old name it does, and load_module is asked to load
    into that module. *)
Theorem C104_asdict_refuted : forall f o m,
  exists ws pl, load_module_asdict f o [("main", m)] = (ws, inl (LJob m pl [])) /\
  forall kw, has "module" kw = true -> load_module_asdict f o kw = ([], inr (InvalidKeyword "module")).
Proof.
  intros f o m. unfold load_module_asdict. cbn. destruct (find_place f) as [ws pl].
  destruct pl; cbn; do 2 eexists; (split; [reflexivity|]); intros kw ->; reflexivity.
Qed.
End Old.

(** a case: dump_session("s.pkl", main=<module 7>, byref=True) and dump_module with the new names *)
Theorem C104_case :
  dump_session 0 (fun _ => None) (AStr "s.pkl") (AModule 7 true) (ABool true) [("fmode", AOther 1 true)] =
    ([RenamedFunction "dump_session" "dump_module"], inl (Job 7 (ThePath (AStr "s.pkl")) true [("fmode", AOther 1 true)])) /\
  dump_module 0 (fun _ => None) ANone ANone (ABool false) [("main", AModule 7 true)] =
    ([Renamed "main" "module"; DefaultPath], inl (Job 7 TheDefaultPath false [])) /\
  other_keywords [("fmode", AOther 1 true)].
Proof.
  split; [reflexivity|]. split; [reflexivity|]. intros n Hn. cbn in Hn.
  destruct Hn as [<-|[<-|[<-|[<-|[]]]]]; reflexivity.
Qed.
