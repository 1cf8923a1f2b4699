From Coq Require Import String Ascii List Bool Arith Lia.
From Verif Require Import PyDict NamesModel NamesProofs LoadModel LoadSpec.
Import ListNotations.
Local Open Scope string_scope.

(** ** strings *)
Lemma startswith_app p s : startswith p (p ++ s) = true.
Proof. induction p as [|c p IH]; simpl; auto. now rewrite Ascii.eqb_refl. Qed.
Lemma startswith_spec p s : startswith p s = true -> exists r, s = p ++ r.
Proof.
  revert s. induction p as [|c p IH]; intros s H; simpl in *; [eauto|].
  destruct s as [|b s]; [discriminate|]. apply andb_true_iff in H as [H1 H2].
  apply Ascii.eqb_eq in H1. subst. destruct (IH s H2) as [r ->]. eauto.
Qed.
Lemma is_runtime_iff n : is_runtime n <-> startswith "__runtime__." n = true.
Proof.
  unfold is_runtime, runtime_name. split.
  - intros [x ->]. apply startswith_app.
  - intros H. apply startswith_spec in H. exact H.
Qed.
Lemma runtime_split x : (match split_dot (runtime_name x) with _ :: rest => join_dot rest | [] => "" end) = x.
Proof.
  unfold runtime_name. change (split_dot ("__runtime__." ++ x)) with ("__runtime__" :: split_dot_aux "" x).
  apply join_split.
Qed.
Lemma runtime_has_dot n : is_runtime n -> has_dot n = true.
Proof. intros [x ->]. unfold runtime_name. rewrite has_dot_app. reflexivity. Qed.
Lemma runtime_inj x y : runtime_name x = runtime_name y -> x = y.
Proof. unfold runtime_name. simpl. congruence. Qed.

(** ** states *)
Lemma new_mid_fresh s : get (new_mid s) (heap s) = None.
Proof.
  apply get_None_iff. unfold new_mid, keys. intros H.
  assert (G : forall l n, In n l -> n <= fold_right Nat.max 0 l).
  { clear. induction l as [|x l IH]; cbn; [tauto|]. intros n [->|H]; [lia|]. apply IH in H. lia. }
  apply G in H. lia.
Qed.
Lemma set_attr_sysmod m n v s : sysmod (set_attr m n v s) = sysmod s.
Proof. unfold set_attr. destruct (get m (heap s)); auto. Qed.
Lemma set_attr_disk m n v s : disk (set_attr m n v s) = disk s.
Proof. unfold set_attr. destruct (get m (heap s)); auto. Qed.
Lemma set_attr_other m k n v s : k <> m -> get k (heap (set_attr m n v s)) = get k (heap s).
Proof. unfold set_attr. destruct (get m (heap s)); auto. intros; cbn. now apply get_set_other. Qed.
Lemma set_attrs_sysmod m l : forall s, sysmod (fold_left (fun s p => set_attr m (fst p) (snd p) s) l s) = sysmod s.
Proof. induction l as [|p l IH]; intros s; cbn; auto. rewrite IH. apply set_attr_sysmod. Qed.
Lemma set_attrs_disk m l : forall s, disk (fold_left (fun s p => set_attr m (fst p) (snd p) s) l s) = disk s.
Proof. induction l as [|p l IH]; intros s; cbn; auto. rewrite IH. apply set_attr_disk. Qed.
Lemma set_attrs_other m k l : forall s, k <> m ->
  get k (heap (fold_left (fun s p => set_attr m (fst p) (snd p) s) l s)) = get k (heap s).
Proof. induction l as [|p l IH]; intros s Hk; cbn; auto. rewrite IH by auto. now apply set_attr_other. Qed.
Lemma set_attrs_same m (l : list (string * value)) : forall s r, get m (heap s) = Some r ->
  exists r', get m (heap (fold_left (fun s p => set_attr m (fst p) (snd p) s) l s)) = Some r' /\
    m_name r' = m_name r /\ m_loader r' = m_loader r /\ updated (m_dict r) (m_dict r') l.
Proof.
  induction l as [|[k v] l IH]; intros s r Hr; cbn [fold_left].
  - exists r. repeat split; auto.
  - cbn [fst snd].
    assert (H1 : get m (heap (set_attr m k v s)) = Some {| m_name := m_name r; m_loader := m_loader r; m_dict := set k v (m_dict r) |}).
    { unfold set_attr. rewrite Hr. cbn. now rewrite get_set_same. }
    destruct (IH _ _ H1) as (r' & E & N & L & U). exists r'. repeat split; auto.
    intros n. rewrite U. cbn [m_dict saved]. destruct (saved l n); auto.
    rewrite get_set. cbn. destruct (String.eqb n k); auto.
Qed.

(** ** importing *)
Lemma import_abs_frame n s r s' : import_abs n s = (r, s') ->
  (forall k, only_imports s s' k) /\ disk s' = disk s /\
  (forall m, r = Ok m -> get n (sysmod s') = Some (VMod m)).
Proof.
  unfold import_abs. destruct (get n (sysmod s)) as [[| m |a]|] eqn:E.
  - intros H; inversion H; subst. repeat split; try (left; reflexivity); congruence.
  - intros H; inversion H; subst. repeat split; try (left; reflexivity). intros m0 H0. congruence.
  - intros H; inversion H; subst. repeat split; try (left; reflexivity); congruence.
  - destruct (get n (disk s)) as [d|] eqn:Ed.
    2:{ intros H; inversion H; subst. repeat split; try (left; reflexivity); congruence. }
    destruct (has_dot n).
    + destruct (get (join_dot (removelast (split_dot n))) (sysmod s)) as [[| p |a]|];
        try (intros H; inversion H; subst; repeat split; try (left; reflexivity); congruence).
      cbn [new_module]. intros H; inversion H; subst; clear H. repeat split.
      * intros k. unfold only_imports. rewrite set_attr_sysmod. cbn. rewrite get_set.
        destruct (eqb_spec k n) as [->|]; [right; repeat split; eauto; congruence | left; auto].
      * rewrite set_attr_disk. reflexivity.
      * intros m Hm. rewrite set_attr_sysmod. cbn. rewrite get_set_same. congruence.
    + cbn [new_module]. intros H; inversion H; subst; clear H. repeat split.
      * intros k. unfold only_imports. cbn. rewrite get_set.
        destruct (eqb_spec k n) as [->|]; [right; repeat split; eauto; congruence | left; auto].
      * intros m Hm. cbn. rewrite get_set_same. congruence.
Qed.

Lemma only_imports_trans s1 s2 s3 k : disk s2 = disk s1 ->
  only_imports s1 s2 k -> only_imports s2 s3 k -> only_imports s1 s3 k.
Proof.
  unfold only_imports. intros Hd [H|(H1 & H2 & m & H3)] [H'|(H1' & H2' & m' & H3')].
  - left. congruence.
  - right. rewrite <- Hd. rewrite <- H. eauto.
  - right. rewrite H'. eauto.
  - congruence.
Qed.

Lemma import_module_frame n s r s' : _import_module n s = (r, s') ->
  (forall k, only_imports s s' k) /\ disk s' = disk s.
Proof.
  unfold _import_module. destruct (startswith "__runtime__." n).
  { destruct (get n (sysmod s)) as [[| m |a]|]; intros H; inversion H; subst; split; auto; intros; left; auto. }
  destruct (has_dot n).
  2:{ intros H. apply import_abs_frame in H. tauto. }
  destruct (import_abs (join_dot (removelast (split_dot n))) s) as [[p|e] s1] eqn:E1.
  2:{ intros H; inversion H; subst. apply import_abs_frame in E1. tauto. }
  apply import_abs_frame in E1 as (F1 & D1 & _).
  set (s2 := match get_attr p (last (split_dot n) "") s1 with Some _ => s1 | None => snd (import_abs n s1) end).
  assert (F2 : (forall k, only_imports s s2 k) /\ disk s2 = disk s).
  { unfold s2. destruct (get_attr p (last (split_dot n) "") s1); auto.
    destruct (import_abs n s1) as [r2 s2'] eqn:E2. apply import_abs_frame in E2 as (F2 & D2 & _). cbn. split.
    - intros k. eapply only_imports_trans; eauto.
    - congruence. }
  destruct F2 as [F2 D2].
  destruct (get_attr p (last (split_dot n) "") s2) as [[| sub |a]|].
  - intros H. apply import_abs_frame in H as (F3 & D3 & _). split; [|congruence].
    intros k. eapply only_imports_trans; eauto.
  - intros H; inversion H; subst; auto.
  - intros H. apply import_abs_frame in H as (F3 & D3 & _). split; [|congruence].
    intros k. eapply only_imports_trans; eauto.
  - intros H; inversion H; subst; auto.
Qed.

Lemma import_module_plain n m s : has_dot n = false -> get n (sysmod s) = Some (VMod m) ->
  _import_module n s = (Ok m, s).
Proof.
  intros Hd Hg. unfold _import_module.
  destruct (startswith "__runtime__." n) eqn:E.
  - rewrite Hg. reflexivity.
  - rewrite Hd. unfold import_abs. rewrite Hg. reflexivity.
Qed.
Lemma import_module_runtime n m s : is_runtime n -> get n (sysmod s) = Some (VMod m) ->
  _import_module n s = (Ok m, s).
Proof. intros Hd Hg. apply is_runtime_iff in Hd. unfold _import_module. rewrite Hd, Hg. reflexivity. Qed.

Lemma imported_spec m s : _is_imported_module m s = true <-> imported s m.
Proof.
  unfold _is_imported_module, imported. rewrite orb_true_iff, existsb_exists. split.
  - intros [H|[[k v] [Hi H]]].
    + left. destruct (get m (heap s)) as [r|]; [eauto|discriminate].
    + right. cbn in H. destruct v; try discriminate. apply Nat.eqb_eq in H. subst. eauto.
  - intros [(r & Hr & Hl)|[k Hi]].
    + left. now rewrite Hr.
    + right. exists (k, VMod m). split; auto. apply Nat.eqb_refl.
Qed.

(** ** unpickling *)
Lemma unpickle_frame se s r s' : unpickle se s = (r, s') ->
  (forall k, only_imports s s' k) /\ disk s' = disk s.
Proof.
  unfold unpickle. destruct (_import_module (s_main se) s) as [[m|e] s1] eqn:E; apply import_module_frame in E as [F D].
  - set (l := firstn _ _).
    set (s2 := fold_left (fun s p => set_attr m (fst p) (snd p) s) l s1).
    assert (H2 : (forall k, only_imports s s2 k) /\ disk s2 = disk s).
    { unfold s2. split; [|rewrite set_attrs_disk; auto]. intros k. unfold only_imports. rewrite set_attrs_sysmod. apply F. }
    destruct (s_fail se); intros H; inversion H; subst; auto.
  - intros H; inversion H; subst; auto.
Qed.

(** ** load_module: sys.modules *)
Lemma only_imports_refl s k : only_imports s s k.
Proof. left; auto. Qed.

Lemma load_module_frame main_mod id se arg s r s' :
  load_module main_mod id se arg s = (r, s') ->
  (forall k, only_imports s s' k \/ (is_runtime k /\ get k (sysmod s') = None)) /\ disk s' = disk s.
Proof.
  unfold load_module.
  set (pm := match id with Name => _ | Unpeekable => _ | Garbage => _ end).
  destruct pm as [pickle_main|e]; [|intros H; inversion H; subst; split; auto; intros; left; left; auto].
  set (main := match arg, pickle_main with ArgNone, Some n => ArgName n | a, _ => a end).
  set (resolved := match main with ArgName n => _ | ArgMod m => _ | ArgOther => _ | ArgNone => _ end).
  assert (HR : (forall k, only_imports s (snd resolved) k) /\ disk (snd resolved) = disk s).
  { unfold resolved. destruct main as [|n|m|]; cbn [snd]; try (split; [intros; left; reflexivity|reflexivity]).
    destruct (startswith "__runtime__." n); cbn [new_module snd]; [split; [intros; left; reflexivity|reflexivity]|].
    destruct (_import_module n s) as [x sx] eqn:E. apply import_module_frame in E. exact E. }
  destruct resolved as [[m|e] s1]; cbn in HR; destruct HR as [F1 D1].
  2:{ intros H; inversion H; subst. split; auto. }
  match goal with |- (if ?b then _ else _) = _ -> _ => destruct b end.
  { intros H; inversion H; subst. split; auto. }
  set (nm := match get m (heap s1) with Some r => m_name r | None => "" end).
  destruct (_is_imported_module m s1).
  - destruct (unpickle se s1) as [lo s2] eqn:Eu. apply unpickle_frame in Eu as [F2 D2].
    assert (G : (forall k, only_imports s s2 k) /\ disk s2 = disk s).
    { split; [intros k; eapply only_imports_trans; eauto | congruence]. }
    destruct G as [G1 G2].
    destruct lo as [l|e]; [destruct (negb (Nat.eqb l m))|]; intros H; inversion H; subst; split; auto.
  - destruct (unpickle se (set_sysmod ("__runtime__." ++ nm) (VMod m) s1)) as [lo s2] eqn:Eu.
    apply unpickle_frame in Eu as [F2 D2]. cbn in D2.
    assert (G : (forall k, only_imports s (del_sysmod ("__runtime__." ++ nm) s2) k \/
                 (is_runtime k /\ get k (sysmod (del_sysmod ("__runtime__." ++ nm) s2)) = None)) /\
                disk (del_sysmod ("__runtime__." ++ nm) s2) = disk s).
    { split; [|cbn; congruence]. intros k.
      destruct (String.eqb_spec k ("__runtime__." ++ nm)) as [->|Hn].
      - right. split; [exists nm; reflexivity|]. cbn. apply get_del_same.
      - left. apply (only_imports_trans s s1); auto. specialize (F2 k). unfold only_imports in *.
        cbn in *. rewrite get_del_other by auto. rewrite get_set_other in F2 by auto. exact F2. }
    destruct lo as [l|e]; [destruct (negb (Nat.eqb l m))|]; intros H; inversion H; subst; exact G.
Qed.

Lemma load_module_no_runtime main_mod id se arg s r s' : sane s ->
  load_module main_mod id se arg s = (r, s') ->
  (forall k, is_runtime k -> get k (sysmod s) = None) ->
  forall k, is_runtime k -> get k (sysmod s') = None.
Proof.
  intros [_ Hd] H Hn k Hk. apply load_module_frame in H as [H _].
  destruct (H k) as [[E|(E1 & E2 & _)]|[_ E]]; auto.
  - rewrite E. auto.
  - exfalso. eapply Hd; eauto.
Qed.

(** ** load_module given a module object: exact behaviour *)
Definition saved_name (se : session) : string :=
  if startswith "__runtime__." (s_main se)
  then match split_dot (s_main se) with _ :: rest => join_dot rest | [] => "" end else s_main se.

Lemma saved_name_runtime se x : s_main se = runtime_name x -> saved_name se = x.
Proof.
  intros E. unfold saved_name. rewrite E.
  replace (startswith "__runtime__." (runtime_name x)) with true by (symmetry; apply startswith_app).
  apply runtime_split.
Qed.
Lemma saved_name_plain se : ~ is_runtime (s_main se) -> saved_name se = s_main se.
Proof.
  intros H. unfold saved_name. destruct (startswith "__runtime__." (s_main se)) eqn:E; auto.
  apply is_runtime_iff in E. contradiction.
Qed.

Lemma load_valueerror main_mod se m rec s :
  get m (heap s) = Some rec ->
  (fst (load_module main_mod Name se (ArgMod m) s) = Err ValueError <->
   ~ ((imported s m <-> ~ is_runtime (s_main se)) /\ m_name rec = saved_name se)).
Proof.
  intros Hr. unfold load_module. rewrite Hr.
  change (if startswith "__runtime__." (s_main se) then match split_dot (s_main se) with _ :: rest => join_dot rest | [] => "" end else s_main se)
    with (saved_name se).
  assert (HU : forall s, fst (unpickle se s) <> Err ValueError).
  { intros s0. unfold unpickle. 
    assert (HI : fst (_import_module (s_main se) s0) <> Err ValueError).
    { unfold _import_module. destruct (startswith _ _).
      - destruct (get (s_main se) (sysmod s0)) as [[]|]; cbn; congruence.
      - assert (HA : forall n s, fst (import_abs n s) <> Err ValueError).
        { clear. intros n s. unfold import_abs. destruct (get n (sysmod s)) as [[]|]; cbn; try congruence.
          destruct (get n (disk s)); cbn; try congruence.
          destruct (has_dot n); cbn; try congruence.
          destruct (get _ (sysmod s)) as [[]|]; cbn; congruence. }
        destruct (has_dot (s_main se)); [|apply HA].
        destruct (import_abs (join_dot (removelast (split_dot (s_main se)))) s0) as [[p|e] s1] eqn:E1.
        + match goal with |- context [get_attr p ?x ?y] => destruct (get_attr p x y) as [[]|] end; cbn; try congruence; apply HA.
        + cbn. pose proof (HA (join_dot (removelast (split_dot (s_main se)))) s0) as X. rewrite E1 in X. exact X. }
    destruct (_import_module (s_main se) s0) as [[m0|e] s1]; cbn in *; [|exact HI].
    destruct (s_fail se); cbn; congruence. }
  destruct ((startswith "__runtime__." (s_main se) && _is_imported_module m s)
            || (negb (startswith "__runtime__." (s_main se)) && negb (_is_imported_module m s))
            || negb (String.eqb (m_name rec) (saved_name se))) eqn:Em.
  - split; auto. intros _ [Hk Hn]. rewrite Hn, String.eqb_refl in Em. cbn [negb] in Em. rewrite orb_false_r in Em.
    rewrite is_runtime_iff, <- imported_spec in Hk.
    destruct (startswith "__runtime__." (s_main se)), (_is_imported_module m s); cbn in Em; try discriminate;
      intuition congruence.
  - split.
    + intros H. exfalso. revert H.
      destruct (_is_imported_module m s); cbv beta iota zeta;
        match goal with |- context [unpickle se ?x] => specialize (HU x); destruct (unpickle se x) as [[l|e] s2] eqn:E end;
        cbn [fst] in HU |- *;
        try (destruct (negb (Nat.eqb l m)); cbn [fst]; congruence);
        intros X; inversion X; subst; now apply HU.
    + intros Hx. exfalso. apply Hx.
      apply orb_false_iff in Em as [Em E3]. apply orb_false_iff in Em as [E1 E2].
      apply negb_false_iff in E3. apply String.eqb_eq in E3. split; auto.
      rewrite is_runtime_iff, <- imported_spec.
      destruct (startswith "__runtime__." (s_main se)), (_is_imported_module m s); cbn in *; try discriminate; split; congruence.
Qed.

Lemma runtime_final n v l m s k :
  get k (sysmod (del_sysmod n (fold_left (fun s p => set_attr m (fst p) (snd p) s) l (set_sysmod n v s)))) =
  if String.eqb k n then None else get k (sysmod s).
Proof.
  unfold del_sysmod, set_sysmod. cbn [sysmod]. rewrite get_del, set_attrs_sysmod. cbn [sysmod].
  rewrite get_set. change (eqb k n) with (String.eqb k n). destruct (String.eqb_spec k n); auto.
Qed.

(** success on a module-type object *)
Lemma load_runtime_object main_mod se m rec x s :
  get m (heap s) = Some rec -> m_name rec = x -> s_main se = runtime_name x -> ~ imported s m -> s_fail se = None ->
  exists s' rec', load_module main_mod Name se (ArgMod m) s = (Ok RNone, s') /\
    get m (heap s') = Some rec' /\ updated (m_dict rec) (m_dict rec') (s_state se) /\ m_name rec' = x /\
    (forall k, k <> m -> get k (heap s') = get k (heap s)) /\
    (forall k, get k (sysmod s') = if String.eqb k (runtime_name x) then None else get k (sysmod s)).
Proof.
  intros Hr Hx Hm Hi Hf. unfold load_module. rewrite Hr.
  change (if startswith "__runtime__." (s_main se) then match split_dot (s_main se) with _ :: rest => join_dot rest | [] => "" end else s_main se)
    with (saved_name se).
  assert (Eni : _is_imported_module m s = false).
  { destruct (_is_imported_module m s) eqn:E; auto. apply imported_spec in E. contradiction. }
  rewrite Eni. rewrite (saved_name_runtime se x Hm). rewrite Hx, String.eqb_refl.
  assert (Es : startswith "__runtime__." (s_main se) = true) by (rewrite Hm; apply startswith_app).
  rewrite Es. cbn [andb negb orb].
  unfold unpickle. rewrite Hm.
  change ("__runtime__." ++ x) with (runtime_name x).
  assert (Ei : _import_module (runtime_name x) (set_sysmod (runtime_name x) (VMod m) s) = (Ok m, set_sysmod (runtime_name x) (VMod m) s)).
  { apply import_module_runtime; [exists x; auto|]. cbn. apply get_set_same. }
  rewrite Ei. rewrite Hf, firstn_all. cbv beta iota zeta.
  rewrite Nat.eqb_refl. rewrite orb_true_r. cbn [negb].
  destruct (set_attrs_same m (s_state se) (set_sysmod (runtime_name x) (VMod m) s) rec Hr) as (rec' & E1 & E2 & E3 & E4).
  do 2 eexists. split; [reflexivity|]. repeat split.
  - exact E1.
  - exact E4.
  - congruence.
  - intros k Hk. unfold del_sysmod. cbn [heap]. rewrite set_attrs_other by auto. reflexivity.
  - intros k. apply runtime_final.
Qed.

(** success on an imported module whose name is its entry in sys.modules *)
Lemma load_imported main_mod se m rec x s arg :
  get m (heap s) = Some rec -> m_name rec = x -> s_main se = x -> has_dot x = false ->
  get x (sysmod s) = Some (VMod m) -> s_fail se = None ->
  (arg = ArgMod m \/ arg = ArgNone \/ arg = ArgName x) ->
  exists s' rec', load_module main_mod Name se arg s =
      (Ok (if Nat.eqb m main_mod || match arg with ArgMod _ => true | _ => false end then RNone else RModule m), s') /\
    get m (heap s') = Some rec' /\ updated (m_dict rec) (m_dict rec') (s_state se) /\ m_name rec' = x /\
    (forall k, k <> m -> get k (heap s') = get k (heap s)) /\
    sysmod s' = sysmod s.
Proof.
  intros Hr Hx Hm Hd Hg Hf Harg. unfold load_module.
  assert (Hnr : startswith "__runtime__." x = false).
  { destruct (startswith "__runtime__." x) eqn:E; auto.
    apply is_runtime_iff in E. apply runtime_has_dot in E. congruence. }
  rewrite Hm.
  set (main := match arg with ArgNone => ArgName x | a => a end).
  set (resolved := match main with ArgName n => _ | ArgMod m => _ | ArgOther => _ | ArgNone => _ end).
  assert (HR : resolved = (Ok m, s)).
  { unfold resolved, main. destruct Harg as [->|[->| ->]]; auto; rewrite Hnr;
      now apply import_module_plain. }
  rewrite HR. rewrite Hr.
  assert (Ei : _is_imported_module m s = true).
  { apply imported_spec. right. exists x. apply get_In. exact Hg. }
  rewrite Ei, Hnr, Hx, String.eqb_refl. cbn [andb negb orb].
  unfold unpickle. rewrite Hm. rewrite (import_module_plain x m s Hd Hg).
  rewrite Hf, firstn_all. cbv beta iota zeta. rewrite Nat.eqb_refl. cbn [negb].
  destruct (set_attrs_same m (s_state se) s rec Hr) as (rec' & E1 & E2 & E3 & E4).
  do 2 eexists. split.
  { f_equal. f_equal. destruct Harg as [->|[->| ->]]; rewrite ?Nat.eqb_refl; reflexivity. }
  split; [exact E1|]. split; [exact E4|]. repeat split.
  - congruence.
  - intros k Hk. now rewrite set_attrs_other.
  - apply set_attrs_sysmod.
Qed.

(** a fresh module-type object when no module is given *)
Lemma load_runtime_fresh main_mod se x s : sane s -> main_mod <> new_mid s ->
  s_main se = runtime_name x -> s_fail se = None ->
  exists s' m rec', load_module main_mod Name se ArgNone s = (Ok (RModule m), s') /\
    get m (heap s) = None /\ get m (heap s') = Some rec' /\ updated [] (m_dict rec') (s_state se) /\ m_name rec' = x /\
    (forall k, k <> m -> get k (heap s') = get k (heap s)) /\
    (forall k, get k (sysmod s') = if String.eqb k (runtime_name x) then None else get k (sysmod s)).
Proof.
  intros [Hsane _] Hmm Hm Hf. unfold load_module. rewrite Hm.
  assert (Es : startswith "__runtime__." (runtime_name x) = true) by apply startswith_app.
  rewrite Es. rewrite runtime_split. cbn [new_module].
  set (m := new_mid s).
  set (s1 := {| sysmod := sysmod s; heap := set m {| m_name := x; m_loader := false; m_dict := [] |} (heap s); disk := disk s |}).
  assert (Hr : get m (heap s1) = Some {| m_name := x; m_loader := false; m_dict := [] |}) by (cbn; apply get_set_same).
  rewrite Hr. cbn [m_name].
  assert (Eni : _is_imported_module m s1 = false).
  { destruct (_is_imported_module m s1) eqn:E; auto. apply imported_spec in E.
    destruct E as [(r & H1 & H2)|[k Hk]].
    - rewrite Hr in H1. inversion H1; subst. discriminate.
    - cbn in Hk. apply Hsane in Hk. unfold m in Hk. rewrite new_mid_fresh in Hk. congruence. }
  rewrite Eni, String.eqb_refl. cbn [andb negb orb].
  unfold unpickle. rewrite Hm. change ("__runtime__." ++ x) with (runtime_name x).
  assert (Ei : _import_module (runtime_name x) (set_sysmod (runtime_name x) (VMod m) s1) = (Ok m, set_sysmod (runtime_name x) (VMod m) s1)).
  { apply import_module_runtime; [exists x; auto|]. cbn. apply get_set_same. }
  rewrite Ei. rewrite Hf, firstn_all. cbv beta iota zeta. rewrite Nat.eqb_refl. cbn [negb].
  destruct (Nat.eqb_spec m main_mod) as [E|_]; [unfold m in E; congruence|]. cbn [orb].
  destruct (set_attrs_same m (s_state se) (set_sysmod (runtime_name x) (VMod m) s1) _ Hr) as (rec' & E1 & E2 & E3 & E4).
  do 3 eexists. split; [reflexivity|]. repeat split.
  - unfold m. apply new_mid_fresh.
  - exact E1.
  - exact E4.
  - exact E2.
  - intros k Hk. unfold del_sysmod. cbn [heap]. rewrite set_attrs_other by auto. cbn. now apply get_set_other.
  - intros k. transitivity (if String.eqb k (runtime_name x) then None else get k (sysmod s1)); [apply runtime_final|reflexivity].
Qed.

(** ** load_module_asdict *)
Lemma frame_add s1 s2 k n v : k <> n -> disk s2 = disk s1 ->
  only_imports (set_sysmod n v s1) s2 k -> only_imports s1 s2 k.
Proof. unfold only_imports. cbn. intros Hk Hd. rewrite get_set_other by auto. tauto. Qed.

Lemma asdict_sysmodules main_mod id se s r s' :
  get (s_main se) (sysmod s) <> Some VNone ->
  load_module_asdict main_mod id se false s = (r, s') ->
  get (s_main se) (sysmod s') = get (s_main se) (sysmod s) /\
  (forall k, only_imports s s' k \/ (is_runtime k /\ get k (sysmod s') = None)) /\ disk s' = disk s.
Proof.
  intros Hnn. unfold load_module_asdict.
  destruct id; try (intros H; inversion H; subst; repeat split; auto; left; left; reflexivity).
  set (n := s_main se).
  set (old := match get n (sysmod s) with Some VNone => None | x => x end).
  assert (Hold : old = get n (sysmod s)).
  { unfold old. fold n in Hnn. destruct (get n (sysmod s)) as [[]|]; congruence. }
  cbn [new_module]. cbv beta iota zeta.
  set (m := new_mid s).
  set (s1 := set_attr m "__builtins__" (VAtom 0) _).
  assert (E1 : sysmod s1 = sysmod s /\ disk s1 = disk s).
  { unfold s1. rewrite set_attr_sysmod, set_attr_disk. auto. }
  destruct E1 as [E1 D1].
  destruct (load_module main_mod Name se ArgNone (set_sysmod n (VMod m) s1)) as [r1 s2] eqn:EL.
  apply load_module_frame in EL as [F D]. cbn [disk set_sysmod] in D.
  assert (FF : forall s3, (forall k, k <> n -> get k (sysmod s3) = get k (sysmod s2)) -> disk s3 = disk s2 ->
             get n (sysmod s3) = get n (sysmod s) ->
             get n (sysmod s3) = get n (sysmod s) /\
             (forall k, only_imports s s3 k \/ (is_runtime k /\ get k (sysmod s3) = None)) /\ disk s3 = disk s).
  { intros s3 H1 H2 H3. split; auto. split; [|congruence]. intros k.
    destruct (String.eqb_spec k n) as [->|Hk]; [left; left; auto|].
    specialize (F k). unfold only_imports in *. cbn [sysmod disk set_sysmod] in F.
    rewrite get_set_other in F by auto. rewrite H1 by auto. rewrite <- E1, <- D1. exact F. }
  destruct old as [v|] eqn:Eold.
  - intros H. assert (s' = set_sysmod n v s2) by (destruct r1; inversion H; auto). subst s'.
    apply FF; cbn; auto.
    + intros k Hk. now apply get_set_other.
    + rewrite get_set_same. auto.
  - destruct (get n (sysmod s2)) eqn:E2; intros H.
    + assert (s' = del_sysmod n s2) by (destruct r1; inversion H; auto). subst s'.
      apply FF; cbn; auto.
      * intros k Hk. now apply get_del_other.
      * rewrite get_del_same. auto.
    + inversion H; subst. apply FF; auto. congruence.
Qed.

(** success for a session of an importable top-level module *)
Lemma asdict_success main_mod se x s : sane s -> main_mod <> new_mid s ->
  s_main se = x -> has_dot x = false -> get x (sysmod s) <> Some VNone -> s_fail se = None ->
  exists s' m rec, load_module_asdict main_mod Name se false s = (Ok m, s') /\
    get m (heap s) = None /\ get m (heap s') = Some rec /\
    updated [("__builtins__", VAtom 0)] (m_dict rec) (s_state se) /\
    (forall k, k <> m -> get k (heap s') = get k (heap s)) /\
    (forall k, get k (sysmod s') = get k (sysmod s)).
Proof.
  intros Hs Hmm Hx Hd Hnn Hf. unfold load_module_asdict. rewrite Hx.
  set (old := match get x (sysmod s) with Some VNone => None | y => y end).
  assert (Hold : old = get x (sysmod s)).
  { unfold old. destruct (get x (sysmod s)) as [[]|]; congruence. }
  cbn [new_module]. cbv beta iota zeta.
  set (m := new_mid s).
  set (r0 := {| m_name := x; m_loader := false; m_dict := [("__builtins__", VAtom 0)] |}).
  set (s1 := set_attr m "__builtins__" (VAtom 0) _).
  assert (E1 : sysmod s1 = sysmod s /\ get m (heap s1) = Some r0 /\ (forall k, k <> m -> get k (heap s1) = get k (heap s))).
  { unfold s1. rewrite set_attr_sysmod. repeat split.
    - unfold set_attr. cbn [heap]. rewrite get_set_same. cbn [heap]. rewrite get_set_same. reflexivity.
    - intros k Hk. rewrite set_attr_other by auto. cbn. now apply get_set_other. }
  destruct E1 as (E1 & R1 & O1).
  destruct (load_imported main_mod se m r0 x (set_sysmod x (VMod m) s1) ArgNone) as (s2 & rec & EL & G & U & N & O & SM); auto.
  { cbn. apply get_set_same. }
  rewrite EL. cbn [sysmod set_sysmod] in SM. rewrite SM. rewrite get_set_same.
  destruct old as [v|] eqn:Eold.
  - do 3 eexists. split; [reflexivity|]. repeat split; eauto.
    + unfold m. apply new_mid_fresh.
    + intros k Hk. cbn. rewrite O by auto. apply O1. auto.
    + intros k. cbn. rewrite SM. rewrite !get_set. destruct (eqb_spec k x) as [->|]; auto. now rewrite E1.
  - do 3 eexists. split; [reflexivity|]. repeat split; eauto.
    + unfold m. apply new_mid_fresh.
    + intros k Hk. cbn. rewrite O by auto. apply O1. auto.
    + intros k. cbn. rewrite SM. rewrite get_del, get_set. destruct (eqb_spec k x) as [->|]; auto. now rewrite E1.
Qed.

(** every session of a module-type object fails if no entry of that name exists *)
Lemma asdict_runtime_fails main_mod se x s : sane s -> main_mod <> new_mid s ->
  s_main se = runtime_name x -> get (runtime_name x) (sysmod s) = None ->
  fst (load_module_asdict main_mod Name se false s) = Err KeyError.
Proof.
  intros Hs Hmm Hx Hg. unfold load_module_asdict. rewrite Hx, Hg.
  cbn [new_module]. cbv beta iota zeta.
  match goal with |- context [load_module ?a ?b ?c ?d ?e] => destruct (load_module a b c d e) as [r s2] eqn:EL; set (s1 := e) in * end.
  assert (G : get (runtime_name x) (sysmod s2) = None).
  { revert EL. unfold load_module. rewrite Hx.
    replace (startswith "__runtime__." (runtime_name x)) with true by (symmetry; apply startswith_app).
    cbn [new_module]. cbv beta iota zeta. rewrite runtime_split.
    set (m := new_mid s1).
    set (s3 := {| sysmod := sysmod s1; heap := _; disk := _ |}).
    assert (Hr : get m (heap s3) = Some {| m_name := x; m_loader := false; m_dict := [] |}) by (cbn; apply get_set_same).
    rewrite Hr. cbn [m_name].
    assert (Eni : _is_imported_module m s3 = false).
    { destruct (_is_imported_module m s3) eqn:E; auto. apply imported_spec in E.
      destruct E as [(r0 & H1 & H2)|[k Hk]].
      - rewrite Hr in H1. inversion H1; subst. discriminate.
      - exfalso. cbn [sysmod s3] in Hk. unfold s1 in Hk. cbn [sysmod set_sysmod] in Hk. rewrite set_attr_sysmod in Hk. cbn [sysmod] in Hk.
        assert (Hm : get m (heap s1) <> None).
        { unfold s1. cbn [heap set_sysmod]. 
          apply In_set in Hk. destruct Hk as [Hk|[-> Hk]].
          - apply (proj1 Hs) in Hk. intros Hc.
            destruct (Nat.eq_dec m (new_mid s)) as [->|Hne]; [rewrite new_mid_fresh in Hk; congruence|].
            rewrite set_attr_other in Hc by auto. cbn in Hc. rewrite get_set_other in Hc by auto. congruence.
          - assert (Hk' : m = new_mid s) by congruence. rewrite Hk'. unfold set_attr. cbn [heap]. rewrite get_set_same. cbn [heap]. rewrite get_set_same. congruence. }
        apply Hm. apply new_mid_fresh. }
    rewrite Eni, String.eqb_refl. cbn [andb negb orb].
    destruct (unpickle se _) as [[l|e] s4]; [destruct (negb _)|]; intros H; inversion H; subst; cbn; apply get_del_same. }
  rewrite G. reflexivity.
Qed.
