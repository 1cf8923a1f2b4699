(** C28 and C29: load_module and load_module_asdict. *)
From Coq Require Import String Ascii List Bool Arith Lia.
From Verif Require Import PyDict NamesModel NamesProofs LoadModel LoadSpec LoadProofs.
Import ListNotations.
Local Open Scope string_scope.

(** ** C28 *)

(** a module object given as target is refused with ValueError exactly when its kind (imported or
    module-type object) or its name differs from the saved one *)
Theorem C28_valueerror_iff_mismatch main_mod se m rec s saved_mod :
  get m (heap s) = Some rec ->
  (s_main se = runtime_name saved_mod \/ (s_main se = saved_mod /\ ~ is_runtime saved_mod)) ->
  (fst (load_module main_mod Name se (ArgMod m) s) = Err ValueError <->
   ~ ((imported s m <-> ~ is_runtime (s_main se)) /\ m_name rec = saved_mod)).
Proof.
  intros Hr Hs. assert (E : saved_name se = saved_mod).
  { destruct Hs as [Hs|[Hs Hn]]; [now apply saved_name_runtime|]. rewrite saved_name_plain; auto. now rewrite Hs. }
  rewrite <- E. now apply load_valueerror.
Qed.

(** a refused target leaves the interpreter as it was *)
Theorem C28_refused_unchanged main_mod se m rec s s' :
  get m (heap s) = Some rec ->
  load_module main_mod Name se (ArgMod m) s = (Err ValueError, s') -> s' = s.
Proof.
  intros Hr H.
  assert (Hv : fst (load_module main_mod Name se (ArgMod m) s) = Err ValueError) by (rewrite H; auto).
  apply (load_valueerror main_mod se m rec s Hr) in Hv.
  revert H. unfold load_module. rewrite Hr.
  change (if startswith "__runtime__." (s_main se) then match split_dot (s_main se) with _ :: rest => join_dot rest | [] => "" end else s_main se)
    with (saved_name se).
  destruct ((startswith "__runtime__." (s_main se) && _is_imported_module m s)
            || (negb (startswith "__runtime__." (s_main se)) && negb (_is_imported_module m s))
            || negb (String.eqb (m_name rec) (saved_name se))) eqn:Em.
  - intros H; inversion H; auto.
  - exfalso. apply Hv. apply orb_false_iff in Em as [Em E3]. apply orb_false_iff in Em as [E1 E2].
    apply negb_false_iff in E3. apply String.eqb_eq in E3. split; auto.
    rewrite is_runtime_iff, <- imported_spec.
    destruct (startswith "__runtime__." (s_main se)), (_is_imported_module m s); try discriminate; split; congruence.
Qed.

(** whatever the arguments and whether it succeeds or fails at any point: every entry of sys.modules is
    unchanged, or is a module newly imported from disk, or was a __runtime__ entry and is gone; so no
    __runtime__ entry is ever left *)
Theorem C28_sysmodules main_mod id se arg s r s' :
  load_module main_mod id se arg s = (r, s') ->
  forall k, only_imports s s' k \/ (is_runtime k /\ get k (sysmod s') = None).
Proof. intros H. apply load_module_frame in H. tauto. Qed.

Theorem C28_no_runtime_entry_left main_mod id se arg s r s' : sane s ->
  (forall k, is_runtime k -> get k (sysmod s) = None) ->
  load_module main_mod id se arg s = (r, s') ->
  forall k, is_runtime k -> get k (sysmod s') = None.
Proof. intros Hs Hn H. eapply load_module_no_runtime; eauto. Qed.

(** loading into a given module-type object: it gets the saved contents, nothing else changes *)
Theorem C28_loads_module_object main_mod se m rec x s :
  get m (heap s) = Some rec -> m_name rec = x -> s_main se = runtime_name x -> ~ imported s m -> s_fail se = None ->
  get (runtime_name x) (sysmod s) = None ->
  exists s' rec', load_module main_mod Name se (ArgMod m) s = (Ok RNone, s') /\
    get m (heap s') = Some rec' /\ updated (m_dict rec) (m_dict rec') (s_state se) /\ m_name rec' = x /\
    (forall k, k <> m -> get k (heap s') = get k (heap s)) /\
    (forall k, get k (sysmod s') = get k (sysmod s)).
Proof.
  intros H1 H2 H3 H4 H5 H6.
  destruct (load_runtime_object main_mod se m rec x s H1 H2 H3 H4 H5) as (s' & rec' & E1 & E2 & E3 & E4 & E5 & E6).
  exists s', rec'. repeat split; auto. intros k. rewrite E6. destruct (String.eqb_spec k (runtime_name x)); congruence.
Qed.

(** loading the session of a module-type object without a target creates and returns a new module object *)
Theorem C28_creates_module_object main_mod se x s : sane s -> main_mod <> new_mid s ->
  s_main se = runtime_name x -> s_fail se = None -> get (runtime_name x) (sysmod s) = None ->
  exists s' m rec', load_module main_mod Name se ArgNone s = (Ok (RModule m), s') /\
    get m (heap s) = None /\ get m (heap s') = Some rec' /\ updated [] (m_dict rec') (s_state se) /\ m_name rec' = x /\
    (forall k, k <> m -> get k (heap s') = get k (heap s)) /\
    (forall k, get k (sysmod s') = get k (sysmod s)).
Proof.
  intros H1 H2 H3 H4 H5.
  destruct (load_runtime_fresh main_mod se x s H1 H2 H3 H4) as (s' & m & rec' & E1 & E2 & E3 & E4 & E5 & E6 & E7).
  exists s', m, rec'. repeat split; auto. intros k. rewrite E7. destruct (String.eqb_spec k (runtime_name x)); congruence.
Qed.

(** loading the session of an imported module: None for __main__ or a module passed in, else the module *)
Theorem C28_loads_imported_module main_mod se m rec x s arg :
  get m (heap s) = Some rec -> m_name rec = x -> s_main se = x -> has_dot x = false ->
  get x (sysmod s) = Some (VMod m) -> s_fail se = None ->
  (arg = ArgMod m \/ arg = ArgNone \/ arg = ArgName x) ->
  exists s' rec' r, load_module main_mod Name se arg s = (Ok r, s') /\
    (m = main_mod \/ arg = ArgMod m -> r = RNone) /\ (m <> main_mod -> arg <> ArgMod m -> r = RModule m) /\
    get m (heap s') = Some rec' /\ updated (m_dict rec) (m_dict rec') (s_state se) /\ m_name rec' = x /\
    (forall k, k <> m -> get k (heap s') = get k (heap s)) /\ sysmod s' = sysmod s.
Proof.
  intros H1 H2 H3 H4 H5 H6 Ha.
  destruct (load_imported main_mod se m rec x s arg H1 H2 H3 H4 H5 H6 Ha) as (s' & rec' & E1 & E2 & E3 & E4 & E5 & E6).
  exists s', rec'. eexists. split; [exact E1|]. repeat split; auto.
  - intros [->| ->]; [rewrite Nat.eqb_refl; auto | rewrite orb_true_r; auto].
  - intros Hn Hm. destruct (Nat.eqb_spec m main_mod); [contradiction|].
    destruct Ha as [->|[->| ->]]; [congruence|auto|auto].
Qed.

(** a file in which no module name is found is refused, and so is a stream that cannot be peeked unless a target is given; nothing has
    happened then.  With a target the kind and name of an unpeekable session are not checked: see C28_unpeekable_unchecked *)
Theorem C28_unidentified main_mod se arg s :
  load_module main_mod Garbage se arg s = (Err UnpicklingError, s) /\
  load_module main_mod Unpeekable se ArgNone s = (Err UnpicklingError, s).
Proof. split; reflexivity. Qed.
Theorem C28_unpeekable_unchecked main_mod se m s :
  fst (load_module main_mod Unpeekable se (ArgMod m) s) <> Err ValueError.
Proof.
  unfold load_module. cbv beta iota zeta.
  set (imp := _is_imported_module m s). set (rt := "__runtime__." ++ _).
  assert (G : forall s0, fst (unpickle se s0) <> Err ValueError).
  { clear. intros s0. unfold unpickle. destruct (_import_module (s_main se) s0) as [[m0|e] s1] eqn:E.
    - destruct (s_fail se); discriminate.
    - cbn. intros X. injection X as ->. revert E. unfold _import_module. destruct (startswith "__runtime__." (s_main se)).
      + destruct (get (s_main se) (sysmod s0)) as [[|k|k]|]; discriminate.
      + assert (I : forall n s, fst (import_abs n s) <> Err ValueError).
        { clear. intros n s. unfold import_abs. destruct (get n (sysmod s)) as [[|k|k]|]; try discriminate.
          destruct (get n (disk s)) as [d|]; try discriminate. destruct (has_dot n); [|destruct (new_module n d true s); discriminate].
          destruct (get _ (sysmod s)) as [[|k|k]|]; discriminate. }
        destruct (has_dot (s_main se)).
        * destruct (import_abs _ s0) as [[p|e] s2] eqn:E2.
          -- destruct (get_attr p _ _) as [[|k|k]|]; try discriminate; destruct (get_attr p _ s2); intros X; try discriminate X;
               try (eapply I; erewrite X; reflexivity).
          -- intros X. injection X as -> _. eapply I. rewrite E2. reflexivity.
        * intros X. eapply I. rewrite X. reflexivity. }
  match goal with |- context [unpickle se ?t] => specialize (G t); destruct (unpickle se t) as [[l|e] s2] end.
  - destruct (negb (Nat.eqb l m)); discriminate.
  - cbn in *. intros X. apply G. injection X as ->. reflexivity.
Qed.
(** concrete instances *)
Definition ex_main := {| m_name := "__main__"; m_loader := true; m_dict := [("x", VAtom 1)] |}.
Definition ex_rt := {| m_name := "work"; m_loader := false; m_dict := [("a", VAtom 1)] |}.
Definition ex_st := {| sysmod := [("__main__", VMod 1)]; heap := [(1, ex_main); (2, ex_rt)];
                       disk := [("lib", [("v", VAtom 7)])] |}.
Lemma ex_sane : sane ex_st.
Proof.
  split.
  - cbn. intros k m [E|[]]. inversion E; subst. cbn. congruence.
  - intros k Hk Hr. apply runtime_has_dot in Hr. cbn in Hk.
    destruct (String.eqb_spec k "lib"); [subst; discriminate|congruence].
Qed.
Example C28_ex_object :
  fst (load_module 1 Name (Session "__runtime__.work" [("b", VAtom 5)] None) (ArgMod 2) ex_st) = Ok RNone.
Proof. reflexivity. Qed.
Example C28_ex_refused :
  fst (load_module 1 Name (Session "__runtime__.work" [("b", VAtom 5)] None) (ArgMod 1) ex_st) = Err ValueError.
Proof. reflexivity. Qed.
Example C28_ex_fail_midway :
  let r := load_module 1 Name (Session "__runtime__.work" [("b", VAtom 5)] (Some 0)) (ArgMod 2) ex_st in
  fst r = Err (LoadFailed 0) /\ sysmod (snd r) = sysmod ex_st.
Proof. split; reflexivity. Qed.
Example C28_ex_main :
  fst (load_module 1 Name (Session "__main__" [("b", VAtom 5)] None) ArgNone ex_st) = Ok RNone.
Proof. reflexivity. Qed.
Example C28_ex_fresh :
  fst (load_module 1 Name (Session "__runtime__.w2" [("b", VAtom 5)] None) ArgNone ex_st) = Ok (RModule 3).
Proof. reflexivity. Qed.

(** The statement "otherwise it loads into that module and no other entry is changed" is false in two
    corners: an imported module object that is not the entry of its name in sys.modules (a reloaded
    module, say): the session goes to the other module and AssertionError is raised; and a
    __runtime__.<name> entry that existed before is deleted. *)
Theorem C28_stale_module_refuted :
  exists se m other s s' rec, get m (heap s) = Some rec /\ imported s m /\ m_name rec = s_main se /\
    ~ is_runtime (s_main se) /\ s_fail se = None /\
    load_module 1 Name se (ArgMod m) s = (Err AssertionError, s') /\
    m <> other /\ get other (heap s') <> get other (heap s).
Proof.
  exists (Session "lib" [("v", VAtom 9)] None), 3, 4,
    {| sysmod := [("lib", VMod 4)];
       heap := [(3, Mod "lib" true [("v", VAtom 1)]); (4, Mod "lib" true [("v", VAtom 2)])]; disk := [] |}.
  do 2 eexists. split; [reflexivity|]. split; [left; eexists; split; reflexivity|]. split; [reflexivity|].
  split; [intros Hr; apply runtime_has_dot in Hr; discriminate|]. repeat split.
  - lia.
  - cbn. congruence.
Qed.

Theorem C28_runtime_entry_deleted_refuted :
  exists se m s s' rec k, get m (heap s) = Some rec /\ ~ imported s m /\
    load_module 1 Name se (ArgMod m) s = (Ok RNone, s') /\ get k (sysmod s) <> None /\ get k (sysmod s') = None.
Proof.
  exists (Session "__runtime__.work" [("b", VAtom 5)] None), 2,
    {| sysmod := [("__runtime__.work", VMod 1)]; heap := [(1, ex_main); (2, ex_rt)]; disk := [] |}.
  do 2 eexists. exists "__runtime__.work". split; [reflexivity|]. split; [|repeat split; cbn; congruence].
  intros [(r & H1 & H2)|[k Hk]].
  - inversion H1; subst. discriminate.
  - cbn in Hk. destruct Hk as [Hk|[]]. inversion Hk.
Qed.

(** ** C29 *)

(** for every session, whether it succeeds or fails at any point (the file can be unreadable, the
    name unimportable, unpickling can raise after restoring any number of names): with update=False
    the entry of the saved module is what it was, and every other entry is what it was, except for
    modules newly imported from disk and __runtime__ entries, which are dropped *)
Theorem C29_sysmodules_restored_partial main_mod id se s r s' :
  get (s_main se) (sysmod s) <> Some VNone ->
  load_module_asdict main_mod id se false s = (r, s') ->
  get (s_main se) (sysmod s') = get (s_main se) (sysmod s) /\
  (forall k, only_imports s s' k \/ (is_runtime k /\ get k (sysmod s') = None)).
Proof. intros Hn H. apply asdict_sysmodules in H; tauto. Qed.

(** for a session of a top-level importable module (in particular __main__): a new dictionary with the
    saved contents is returned, every module object there was is unchanged, and so is sys.modules *)
Theorem C29_returns_saved_contents_partial main_mod se x s : sane s -> main_mod <> new_mid s ->
  s_main se = x -> has_dot x = false -> get x (sysmod s) <> Some VNone -> s_fail se = None ->
  exists s' m rec, load_module_asdict main_mod Name se false s = (Ok m, s') /\
    get m (heap s) = None /\ get m (heap s') = Some rec /\
    updated [("__builtins__", VAtom 0)] (m_dict rec) (s_state se) /\
    (forall k, k <> m -> get k (heap s') = get k (heap s)) /\
    (forall k, get k (sysmod s') = get k (sysmod s)).
Proof. apply asdict_success. Qed.

Example C29_ex :
  let r := load_module_asdict 1 Name (Session "__main__" [("x", VAtom 5); ("y", VAtom 6)] None) false ex_st in
  fst r = Ok 3 /\ get_attr 3 "x" (snd r) = Some (VAtom 5) /\ get_attr 1 "x" (snd r) = Some (VAtom 1) /\
  sysmod (snd r) = sysmod ex_st.
Proof. repeat split; reflexivity. Qed.
Example C29_ex_fail :
  let r := load_module_asdict 1 Name (Session "__main__" [("x", VAtom 5); ("y", VAtom 6)] (Some 1)) false ex_st in
  fst r = Err (LoadFailed 1) /\ get_attr 1 "x" (snd r) = Some (VAtom 1) /\ sysmod (snd r) = sysmod ex_st.
Proof. repeat split; reflexivity. Qed.

(** Not provable as first stated: EVERY session of a module-type object (saved under __runtime__.<name>)
    makes load_module_asdict raise KeyError, because load_module has already deleted the entry *)
Theorem C29_runtime_session_refuted main_mod se x s : sane s -> main_mod <> new_mid s ->
  s_main se = runtime_name x -> get (runtime_name x) (sysmod s) = None ->
  fst (load_module_asdict main_mod Name se false s) = Err KeyError.
Proof. apply asdict_runtime_fails. Qed.
Example C29_ex_runtime :
  fst (load_module_asdict 1 Name (Session "__runtime__.work" [("b", VAtom 5)] None) false ex_st) = Err KeyError.
Proof. reflexivity. Qed.

(** the session of a submodule is loaded into the live submodule, not into the returned dictionary:
    _import_module("a.b") takes the attribute b of the package a, not the entry of sys.modules *)
Theorem C29_submodule_refuted :
  exists se s s' m live, load_module_asdict 1 Name se false s = (Ok m, s') /\
    get "pkg.sub" (sysmod s) = Some (VMod live) /\ s_main se = "pkg.sub" /\
    get_attr live "v" s = Some (VAtom 1) /\ get_attr live "v" s' = Some (VAtom 2) /\
    get_attr m "v" s' = None.
Proof.
  exists (Session "pkg.sub" [("v", VAtom 2)] None),
    {| sysmod := [("pkg", VMod 3); ("pkg.sub", VMod 4)];
       heap := [(3, Mod "pkg" true [("sub", VMod 4)]); (4, Mod "pkg.sub" true [("v", VAtom 1)])]; disk := [] |}.
  do 2 eexists. exists 4. repeat split.
Qed.

(** with update=True a module that was not imported stays imported *)
Theorem C29_update_imports_refuted :
  exists se s s' m, load_module_asdict 1 Name se true s = (Ok m, s') /\
    get "lib" (sysmod s) = None /\ get "lib" (sysmod s') <> None.
Proof.
  exists (Session "lib" [("v", VAtom 2)] None), ex_st. do 2 eexists. repeat split. cbn. congruence.
Qed.

Print Assumptions C28_valueerror_iff_mismatch.
Print Assumptions C28_refused_unchanged.
Print Assumptions C28_sysmodules.
Print Assumptions C28_no_runtime_entry_left.
Print Assumptions C28_loads_module_object.
Print Assumptions C28_creates_module_object.
Print Assumptions C28_loads_imported_module.
Print Assumptions C28_stale_module_refuted.
Print Assumptions C28_runtime_entry_deleted_refuted.
Print Assumptions C29_sysmodules_restored_partial.
Print Assumptions C29_returns_saved_contents_partial.
Print Assumptions C29_runtime_session_refuted.
Print Assumptions C29_submodule_refuted.
Print Assumptions C29_update_imports_refuted.
Print Assumptions C28_unidentified.
Print Assumptions C28_unpeekable_unchecked.
