(** C30: refimported sessions restore every name. *)
From Coq Require Import String Ascii List Bool Arith Lia Permutation.
From Verif Require Import PyDict NamesModel NamesSpec NamesProofs StashModel StashSpec StashProofs.
Import ListNotations.
Local Open Scope string_scope.

(** every name of the module is put in exactly one of the four groups, none is invented *)
Theorem C30_each_name_once : forall W, wf (attr (sw_env W) (sw_main W)) ->
  let s := stash_loop W in
  Permutation (keys (attr (sw_env W) (sw_main W)))
    (keys (original s) ++ map snd (imported s) ++ map snd (imported_as s) ++ map snd (imported_top_level s))%list
  /\ NoDup (keys (original s) ++ map snd (imported s) ++ map snd (imported_as s) ++ map snd (imported_top_level s))%list.
Proof.
  intros W Hw s. pose proof (stash_names W Hw) as Hp. split.
  - symmetry. exact Hp.
  - eapply Permutation_NoDup; [symmetry; exact Hp|exact Hw].
Qed.

Section Restored.
  Variable W : sworld.
  Variable cp : oid -> oid.
  Variables target target_dict : oid.
  Variable proto : nat.
  Variable fix_imports : bool.
  Hypothesis Sane : sane_world W proto fix_imports.
  Notation md := (attr (sw_env W) (sw_main W)).

  Definition copied (o : oid) : lval :=
    if Nat.eqb o (sw_main W) then LObj target else if Nat.eqb o (sw_main_dict W) then LObj target_dict else LObj (cp o).
  Notation lv := (load_val W cp target target_dict).

  Lemma in_md k o : In (k, o) md -> get k md = Some o.
  Proof. apply In_get, (sane_main _ _ _ Sane). Qed.

  Lemma get_map_lv (d : dict string sval) k :
    get k (map (fun p => (fst p, lv (snd p))) d) = option_map lv (get k d).
  Proof. induction d as [|[k' v] d IH]; simpl; auto. destruct (String.eqb k k'); auto. Qed.
  Lemma keys_map_lv (d : dict string sval) : keys (map (fun p => (fst p, lv (snd p))) d) = keys d.
  Proof. unfold keys. rewrite map_map. reflexivity. Qed.

  (** names of the lists *)
  Let s := stash_loop W.
  Lemma list_imp : forall x, In x (imported s) -> exists o, fc_of W target_dict proto fix_imports (fst x) (snd x) = Ok o /\ get (snd x) md = Some o.
  Proof.
    intros [m k] Hi. destruct (proj1 (proj2 (loop_origin W)) _ _ Hi) as [o [Ho C]].
    pose proof (classify_denoted W _ _ k o Sane) as D. rewrite C in D. destruct D as [_ D].
    exists o. split; [eapply fc_provides; eauto|now apply in_md].
  Qed.
  Lemma list_as : forall x, In x (imported_as s) -> exists o, fc_of W target_dict proto fix_imports (fst (fst x)) (snd (fst x)) = Ok o /\ get (snd x) md = Some o.
  Proof.
    intros [[m n] k] Hi. destruct (proj1 (proj2 (proj2 (loop_origin W))) _ _ _ Hi) as [o [Ho C]].
    pose proof (classify_denoted W _ _ k o Sane) as D. rewrite C in D. destruct D as [_ D].
    exists o. split; [eapply fc_provides; eauto|now apply in_md].
  Qed.
  Lemma list_top : forall x, In x (imported_top_level s) -> exists o, import_ (sw_env W) (fst x) = Ok o /\ get (snd x) md = Some o.
  Proof.
    intros [m k] Hi. destruct (proj2 (proj2 (proj2 (loop_origin W))) _ _ Hi) as [o [Ho C]].
    pose proof (classify_denoted W _ _ k o Sane) as D. rewrite C in D. destruct D as [_ [D _]].
    exists o. split; [unfold import_; cbn [fst]; now rewrite D|now apply in_md].
  Qed.

  Lemma not_reserved k : In k (names_of s) -> ~ reserved k.
  Proof.
    intros Hi Hr. apply (sane_reserved _ _ _ Sane) in Hr. apply get_None_iff in Hr. apply Hr.
    eapply Permutation_in; [|exact Hi]. apply stash_names, (sane_main _ _ _ Sane).
  Qed.
  Lemma orig_get k o : get k md = Some o -> ~ imported_name W k o ->
    get k (original s) = Some (if Nat.eqb o (sw_main W) then VNewMod else if Nat.eqb o (sw_main_dict W) then VNewDict else VObj o).
  Proof.
    intros Hg Hn. pose proof (sane_main _ _ _ Sane) as Hw.
    assert (Hk : In k (names_of s)).
    { eapply Permutation_in; [symmetry; apply stash_names; auto|]. eapply get_Some_keys; eauto. }
    pose proof (loop_origin W) as [O1 [O2 [O3 O4]]].
    assert (Key : forall o' c, In (k, o') md -> classify W k o' = c -> o' = o /\ denoted W c k o).
    { intros o' c Hi Hc. apply in_md in Hi. assert (o' = o) by congruence. subst. split; auto.
      eapply classify_denoted; eauto. }
    unfold names_of in Hk. rewrite !in_app_iff in Hk. destruct Hk as [Hk|[Hk|[Hk|Hk]]].
    - apply has_keys in Hk. apply has_get in Hk as [v Hv]. rewrite Hv.
      destruct (O1 _ _ Hv) as [o' [Hi Hc]]. destruct (Key _ _ Hi Hc) as [-> [_ D]]. now rewrite <- D.
    - apply in_map_iff in Hk as [[m k'] [E Hk]]. cbn [snd] in E; subst k'.
      destruct (O2 _ _ Hk) as [o' [Hi Hc]]. destruct (Key _ _ Hi Hc) as [-> [D _]]. contradiction.
    - apply in_map_iff in Hk as [[[m n] k'] [E Hk]]. cbn [snd] in E; subst k'.
      destruct (O3 _ _ _ Hk) as [o' [Hi Hc]]. destruct (Key _ _ Hi Hc) as [-> [D _]]. contradiction.
    - apply in_map_iff in Hk as [[m k'] [E Hk]]. cbn [snd] in E; subst k'.
      destruct (O4 _ _ Hk) as [o' [Hi Hc]]. destruct (Key _ _ Hi Hc) as [-> [D _]]. contradiction.
  Qed.
  Lemma imp_list k o : get k md = Some o -> imported_name W k o ->
    get k (original s) = None /\
    (In k (map snd (imported s)) \/ In k (map snd (imported_as s)) \/ In k (map snd (imported_top_level s))).
  Proof.
    intros Hg Hn. pose proof (sane_main _ _ _ Sane) as Hw.
    assert (Hk : In k (names_of s)).
    { eapply Permutation_in; [symmetry; apply stash_names; auto|]. eapply get_Some_keys; eauto. }
    pose proof (loop_origin W) as [O1 _].
    assert (Hno : get k (original s) = None).
    { destruct (get k (original s)) as [v|] eqn:Hv; auto. destruct (O1 _ _ Hv) as [o' [Hi Hc]].
      apply in_md in Hi. assert (o' = o) by congruence. subst.
      pose proof (classify_denoted W _ _ k o Sane) as D. rewrite Hc in D. destruct D as [D _]. contradiction. }
    split; auto. unfold names_of in Hk. rewrite !in_app_iff in Hk. destruct Hk as [Hk|Hk]; auto.
    apply get_None_iff in Hno. contradiction.
  Qed.
  Lemma orig_none k : get k md = None -> get k (original s) = None.
  Proof.
    intros Hg. destruct (get k (original s)) as [v|] eqn:Hv; auto.
    destruct (proj1 (loop_origin W) _ _ Hv) as [o [Hi _]]. apply in_md in Hi. congruence.
  Qed.
  Lemma lists_in_md k : In k (map snd (imported s)) \/ In k (map snd (imported_as s)) \/ In k (map snd (imported_top_level s)) ->
    exists o, get k md = Some o /\ imported_name W k o.
  Proof.
    pose proof (loop_origin W) as [O1 [O2 [O3 O4]]].
    assert (Key : forall o' c, In (k, o') md -> classify W k o' = c -> denoted W c k o' /\ get k md = Some o').
    { intros o' c Hi Hc. subst. split; [eapply classify_denoted; eauto|now apply in_md]. }
    intros [Hk|[Hk|Hk]].
    - apply in_map_iff in Hk as [[m k'] [E Hk]]. cbn [snd] in E; subst k'.
      destruct (O2 _ _ Hk) as [o' [Hi Hc]]. destruct (Key _ _ Hi Hc) as [[D _] ?]. eauto.
    - apply in_map_iff in Hk as [[[m n] k'] [E Hk]]. cbn [snd] in E; subst k'.
      destruct (O3 _ _ _ Hk) as [o' [Hi Hc]]. destruct (Key _ _ Hi Hc) as [[D _] ?]. eauto.
    - apply in_map_iff in Hk as [[m k'] [E Hk]]. cbn [snd] in E; subst k'.
      destruct (O4 _ _ Hk) as [o' [Hi Hc]]. destruct (Key _ _ Hi Hc) as [[D _] ?]. eauto.
  Qed.

  Lemma wf_saved_dict : wf (saved_dict W).
  Proof.
    unfold saved_dict, _stash_modules. destruct (Nat.ltb _ _).
    - set (d := update (fresh_dict W) (original (stash_loop W))).
      assert (Hd : wf d).
      { apply wf_update. unfold wf, fresh_dict, keys; simpl. repeat constructor; simpl; intuition discriminate. }
      destruct (_ && _); repeat apply wf_set; auto.
    - unfold wf, keys. rewrite map_map. apply (sane_main _ _ _ Sane).
  Qed.
  Lemma wf_saved_state : wf (saved_state W).
  Proof. unfold saved_state. apply wf_del, wf_del, wf_saved_dict. Qed.

  Lemma get_build d0 k : get k (build W cp target target_dict d0) =
    match get k (saved_state W) with Some v => Some (lv v) | None => get k d0 end.
  Proof.
    unfold build. rewrite get_update.
    - rewrite get_map_lv. destruct (get k (saved_state W)); auto.
    - unfold wf. rewrite keys_map_lv. apply wf_saved_state.
  Qed.
  Lemma get_saved_state k : get k (saved_state W) =
    if String.eqb k "__loader__" then None else if String.eqb k "__builtins__" then None else get k (saved_dict W).
  Proof. unfold saved_state. rewrite !get_del. reflexivity. Qed.

  Lemma wf_orig : wf (original s).
  Proof. apply wf_original. apply wf_nil. Qed.

  (** not stashed: nothing is imported *)
  Lemma unstashed_none k o : _stash_modules W = None -> get k md = Some o -> ~ imported_name W k o.
  Proof.
    unfold _stash_modules. destruct (Nat.ltb_spec (length (original (stash_loop W))) (length md)) as [|Hlen]; [discriminate|].
    intros _ Hg Hi. destruct (imp_list k o Hg Hi) as [_ Hl].
    pose proof (Permutation_length (stash_names W (sane_main _ _ _ Sane))) as PL.
    unfold names_of in PL. rewrite !app_length in PL. unfold keys in PL. rewrite !map_length in PL.
    fold s in PL, Hlen.
    destruct (imported s); [|simpl in *; lia]. destruct (imported_as s); [|simpl in *; lia].
    destruct (imported_top_level s); [|simpl in *; lia]. simpl in Hl. tauto.
  Qed.

  Lemma stashed_get d k : _stash_modules W = Some d -> k <> "__loader__" -> get k d =
    if String.eqb k "__dill_imported_top_level" then Some (VImpTop (imported_top_level s))
    else if String.eqb k "__dill_imported_as" then Some (VImpAs (imported_as s))
    else if String.eqb k "__dill_imported" then Some (VImp (imported s))
    else match get k (original s) with Some v => Some v | None => get k (fresh_dict W) end.
  Proof.
    unfold _stash_modules. destruct (Nat.ltb _ _); [|discriminate]. intros E Hl. injection E as <-.
    set (d := set "__dill_imported_top_level" _ _).
    assert (Hd : forall k, get k d = if String.eqb k "__dill_imported_top_level" then Some (VImpTop (imported_top_level s))
    else if String.eqb k "__dill_imported_as" then Some (VImpAs (imported_as s))
    else if String.eqb k "__dill_imported" then Some (VImp (imported s))
    else match get k (original s) with Some v => Some v | None => get k (fresh_dict W) end).
    { intros k0. unfold d. rewrite !get_set. cbn [eqb EqB_string]. rewrite get_update by apply wf_orig. reflexivity. }
    destruct (_ && _).
    - rewrite get_set_other by auto. apply Hd.
    - apply Hd.
  Qed.

  Definition default_name (k : string) : Prop :=
    k = "__name__" \/ k = "__doc__" \/ k = "__package__" \/ k = "__loader__" \/ k = "__spec__".
  Lemma fresh_none k : ~ default_name k -> get k (fresh_dict W) = None.
  Proof.
    intros Hn. apply get_None_iff. unfold fresh_dict, keys. cbn [map fst]. intros Hi. apply Hn. unfold default_name.
    destruct Hi as [<-|[<-|[<-|[<-|[<-|[]]]]]]; auto.
  Qed.

  Theorem restored (d0 : dict string lval) :
    (forall k, reserved k -> get k d0 = None) ->
    exists d', session_roundtrip W cp target target_dict proto fix_imports d0 = Ok d' /\
      (forall k o, get k md = Some o -> imported_name W k o -> get k d' = Some (LObj o)) /\
      (forall k o, get k md = Some o -> ~ imported_name W k o -> k <> "__loader__" -> k <> "__builtins__" ->
         get k d' = Some (copied o)) /\
      (forall k o, get k md = Some o -> ~ imported_name W k o -> k = "__loader__" \/ k = "__builtins__" ->
         get k d' = get k d0) /\
      (forall k, get k md = None -> ~ default_name k -> get k d' = get k d0).
  Proof.
    intros Hres. unfold session_roundtrip, _restore_modules.
    set (d1 := build W cp target target_dict d0).
    destruct (_stash_modules W) as [d|] eqn:St.
    - (* stashed *)
      assert (Hsd : saved_dict W = d) by (unfold saved_dict; now rewrite St).
      assert (B1 : get "__dill_imported" d1 = Some (LImp (imported s))).
      { unfold d1. rewrite get_build, get_saved_state, Hsd. rewrite (stashed_get d _ St) by discriminate. reflexivity. }
      assert (B2 : get "__dill_imported_as" d1 = Some (LImpAs (imported_as s))).
      { unfold d1. rewrite get_build, get_saved_state, Hsd. rewrite (stashed_get d _ St) by discriminate. reflexivity. }
      assert (B3 : get "__dill_imported_top_level" d1 = Some (LImpTop (imported_top_level s))).
      { unfold d1. rewrite get_build, get_saved_state, Hsd. rewrite (stashed_get d _ St) by discriminate. reflexivity. }
      assert (Nr : forall k, In k (map snd (imported s)) \/ In k (map snd (imported_as s)) \/ In k (map snd (imported_top_level s)) -> ~ reserved k).
      { intros k Hk. apply not_reserved. unfold names_of. rewrite !in_app_iff. tauto. }
      rewrite B1.
      destruct (assign_all_ok _ snd (fun k => get k md) (imported s) list_imp (del "__dill_imported" d1)) as [d2 [E2 [I2 O2]]].
      rewrite E2.
      assert (B2' : get "__dill_imported_as" d2 = Some (LImpAs (imported_as s))).
      { rewrite O2. - rewrite get_del_other by discriminate. exact B2.
        - intros Hi. apply (Nr _ (or_introl Hi)). unfold reserved; auto. }
      rewrite B2'.
      destruct (assign_all_ok _ snd (fun k => get k md) (imported_as s) list_as (del "__dill_imported_as" d2)) as [d3 [E3 [I3 O3]]].
      rewrite E3.
      assert (B3' : get "__dill_imported_top_level" d3 = Some (LImpTop (imported_top_level s))).
      { rewrite O3. - rewrite get_del_other by discriminate. rewrite O2.
          + rewrite get_del_other by discriminate. exact B3.
          + intros Hi. apply (Nr _ (or_introl Hi)). unfold reserved; auto.
        - intros Hi. apply (Nr _ (or_intror (or_introl Hi))). unfold reserved; auto. }
      rewrite B3'.
      destruct (assign_all_ok _ snd (fun k => get k md) (imported_top_level s) list_top (del "__dill_imported_top_level" d3)) as [d4 [E4 [I4 O4]]].
      rewrite E4. simpl. exists d4. split; auto.
      assert (Else : forall k, ~ reserved k -> ~ In k (map snd (imported s)) -> ~ In k (map snd (imported_as s)) ->
                ~ In k (map snd (imported_top_level s)) -> get k d4 = get k d1).
      { intros k Hr N1 N2 N3. unfold reserved in Hr.
        rewrite O4, get_del_other, O3, get_del_other, O2, get_del_other; auto; intros ->; tauto. }
      assert (NotIn : forall k, (forall o, get k md = Some o -> ~ imported_name W k o) ->
                ~ In k (map snd (imported s)) /\ ~ In k (map snd (imported_as s)) /\ ~ In k (map snd (imported_top_level s))).
      { intros k Hk. assert (Hx : ~ (In k (map snd (imported s)) \/ In k (map snd (imported_as s)) \/ In k (map snd (imported_top_level s)))).
        { intros Hi. destruct (lists_in_md k Hi) as [o [Ho Hio]]. exact (Hk o Ho Hio). }
        tauto. }
      assert (Res : forall k o, get k md = Some o -> ~ reserved k).
      { intros k o Hg Hr. rewrite (sane_reserved _ _ _ Sane k Hr) in Hg. discriminate. }
      split; [|split; [|split]].
      + intros k o Hg Hi. destruct (imp_list k o Hg Hi) as [_ Hl].
        destruct (in_dec string_dec k (map snd (imported_top_level s))) as [H4|H4].
        { destruct (I4 _ H4) as [o' [Eo ->]]. congruence. }
        assert (Hr := Res _ _ Hg). unfold reserved in Hr.
        rewrite O4 by auto. rewrite get_del_other by (intros ->; tauto).
        destruct (in_dec string_dec k (map snd (imported_as s))) as [H3|H3].
        { destruct (I3 _ H3) as [o' [Eo ->]]. congruence. }
        rewrite O3 by auto. rewrite get_del_other by (intros ->; tauto).
        destruct Hl as [Hl|[Hl|Hl]]; try contradiction.
        destruct (I2 _ Hl) as [o' [Eo ->]]. congruence.
      + intros k o Hg Hi Hl Hb. destruct (NotIn k) as [N1 [N2 N3]].
        { intros o' Ho'. assert (o' = o) by congruence. now subst. }
        assert (Hr := Res _ _ Hg). rewrite Else by auto. unfold d1. rewrite get_build, get_saved_state, Hsd.
        rewrite (proj2 (String.eqb_neq _ _) Hl), (proj2 (String.eqb_neq _ _) Hb).
        rewrite (stashed_get d _ St) by auto. unfold reserved in Hr.
        rewrite (proj2 (String.eqb_neq k "__dill_imported_top_level")), (proj2 (String.eqb_neq k "__dill_imported_as")), (proj2 (String.eqb_neq k "__dill_imported")) by (intros ->; tauto).
        rewrite (orig_get k o Hg Hi). unfold copied.
        destruct (Nat.eqb o (sw_main W)) eqn:Q1; [reflexivity|]. destruct (Nat.eqb o (sw_main_dict W)) eqn:Q2; [reflexivity|].
        simpl. now rewrite Q1, Q2.
      + intros k o Hg Hi Hl. destruct (NotIn k) as [N1 [N2 N3]].
        { intros o' Ho'. assert (o' = o) by congruence. now subst. }
        rewrite Else by (eauto). unfold d1. rewrite get_build, get_saved_state.
        destruct Hl as [->| ->]; reflexivity.
      + intros k Hg Hd. destruct (NotIn k) as [N1 [N2 N3]]; [intros o Ho; congruence|].
        destruct (string_dec k "__dill_imported") as [->|K1].
        { rewrite O4, get_del_other, O3, get_del_other, O2, get_del_same; auto; try discriminate.
          symmetry. apply Hres. unfold reserved; auto. }
        destruct (string_dec k "__dill_imported_as") as [->|K2].
        { rewrite O4, get_del_other, O3, get_del_same; auto; try discriminate.
          symmetry. apply Hres. unfold reserved; auto. }
        destruct (string_dec k "__dill_imported_top_level") as [->|K3].
        { rewrite O4, get_del_same; auto; try discriminate.
          symmetry. apply Hres. unfold reserved; auto. }
        rewrite Else; auto. 2: unfold reserved; tauto.
        unfold d1. rewrite get_build, get_saved_state, Hsd.
        destruct (String.eqb_spec k "__loader__") as [->|Hl]; [reflexivity|].
        destruct (String.eqb_spec k "__builtins__") as [->|Hb]; [reflexivity|].
        rewrite (stashed_get d _ St) by auto.
        rewrite (proj2 (String.eqb_neq _ _) K1), (proj2 (String.eqb_neq _ _) K2), (proj2 (String.eqb_neq _ _) K3).
        rewrite orig_none by auto. rewrite fresh_none by auto. reflexivity.
    - (* nothing imported: the module itself was saved *)
      assert (Hsd : forall k, get k (saved_dict W) = option_map VObj (get k md)).
      { intros k. unfold saved_dict. rewrite St. induction md as [|[k' o'] l IH]; simpl; auto. destruct (String.eqb k k'); auto. }
      assert (Hb : forall k, get k d1 = if String.eqb k "__loader__" then get k d0 else if String.eqb k "__builtins__" then get k d0
                    else match get k md with Some o => Some (copied o) | None => get k d0 end).
      { intros k. unfold d1. rewrite get_build, get_saved_state. destruct (String.eqb k "__loader__"); auto.
        destruct (String.eqb k "__builtins__"); auto. rewrite Hsd. destruct (get k md); reflexivity. }
      assert (B1 : get "__dill_imported" d1 = None).
      { rewrite Hb. replace (String.eqb "__dill_imported" "__loader__") with false by reflexivity.
        replace (String.eqb "__dill_imported" "__builtins__") with false by reflexivity.
        rewrite (sane_reserved _ _ _ Sane) by (unfold reserved; auto). apply Hres. unfold reserved; auto. }
      rewrite B1. exists (del "__dill_imported" d1). split; auto.
      assert (Res : forall k o, get k md = Some o -> k <> "__dill_imported").
      { intros k o Hg ->. rewrite (sane_reserved _ _ _ Sane) in Hg by (unfold reserved; auto). discriminate. }
      split; [|split; [|split]].
      + intros k o Hg Hi. destruct (unstashed_none k o St Hg Hi).
      + intros k o Hg _ Hl Hbu. rewrite get_del_other by eauto. rewrite Hb.
        rewrite (proj2 (String.eqb_neq _ _) Hl), (proj2 (String.eqb_neq _ _) Hbu). now rewrite Hg.
      + intros k o Hg _ Hl. rewrite get_del_other by eauto. rewrite Hb. destruct Hl as [->| ->]; reflexivity.
      + intros k Hg Hd. destruct (string_dec k "__dill_imported") as [->|K1].
        * rewrite get_del_same. symmetry. apply Hres. unfold reserved; auto.
        * rewrite get_del_other by auto. rewrite Hb. rewrite Hg.
          destruct (String.eqb k "__loader__"); auto. destruct (String.eqb k "__builtins__"); auto.
  Qed.
End Restored.

(** After dump_module(module, refimported=True) and load_module into a module with namespace [d0], in
    the same interpreter state: every name of the saved module that counts as imported is bound to the
    very same object; every other name (except __builtins__ and __loader__, which are never saved) is
    bound to the copy of its value - the target module or its dictionary for references of the module
    to itself; all other names keep what they had (apart from the five standard attributes of a
    module). *)
Theorem C30_restored : forall W cp target target_dict proto fix_imports d0,
  sane_world W proto fix_imports ->
  (forall k, reserved k -> get k d0 = None) ->
  exists d', session_roundtrip W cp target target_dict proto fix_imports d0 = Ok d' /\
    (forall k o, get k (attr (sw_env W) (sw_main W)) = Some o -> imported_name W k o -> get k d' = Some (LObj o)) /\
    (forall k o, get k (attr (sw_env W) (sw_main W)) = Some o -> ~ imported_name W k o ->
       k <> "__loader__" -> k <> "__builtins__" ->
       get k d' = Some (LObj (if Nat.eqb o (sw_main W) then target
                              else if Nat.eqb o (sw_main_dict W) then target_dict else cp o))) /\
    (forall k o, get k (attr (sw_env W) (sw_main W)) = Some o -> ~ imported_name W k o ->
       k = "__loader__" \/ k = "__builtins__" -> get k d' = get k d0) /\
    (forall k, get k (attr (sw_env W) (sw_main W)) = None -> ~ default_name k -> get k d' = get k d0).
Proof.
  intros W cp target td pr fi d0 S Hr. destruct (restored W cp target td pr fi S d0 Hr) as [d' [H1 [H2 [H3 [H4 H5]]]]].
  exists d'. split; [exact H1|]. split; [exact H2|]. split; [|split; [exact H4|exact H5]].
  intros k o Hg Hi Hl Hb. rewrite (H3 k o Hg Hi Hl Hb). unfold copied.
  destruct (Nat.eqb o (sw_main W)); auto. destruct (Nat.eqb o (sw_main_dict W)); auto.
Qed.

(** The session is stored as one of an imported module exactly when the module was imported, even
    though a new module object is what is pickled. *)
Theorem C30_stored_name : forall W pr fi, sane_world W pr fi ->
  saved_name W = if main_imported W then sw_main_name W else "__runtime__." ++ sw_main_name W.
Proof.
  intros W pr fi S. unfold saved_name, _stash_modules. destruct (Nat.ltb _ _); [|reflexivity].
  set (d := set "__dill_imported_top_level" _ _).
  assert (Hd : get "__loader__" d = match get "__loader__" (original (stash_loop W)) with Some v => Some v | None => Some (VObj (none (sw_env W))) end).
  { unfold d. rewrite !get_set. cbn [eqb EqB_string].
    replace (String.eqb "__loader__" "__dill_imported_top_level") with false by reflexivity.
    replace (String.eqb "__loader__" "__dill_imported_as") with false by reflexivity.
    replace (String.eqb "__loader__" "__dill_imported") with false by reflexivity.
    rewrite get_update by (apply wf_original; apply wf_nil).
    destruct (get "__loader__" (original (stash_loop W))); reflexivity. }
  destruct (main_imported W) eqn:M.
  - rewrite andb_true_r. destruct (match get "__loader__" d with Some v => is_none W v | None => true end) eqn:N.
    + rewrite get_set_same. simpl. reflexivity.
    + destruct (get "__loader__" d); [|discriminate]. now rewrite N.
  - rewrite andb_false_r.
    assert (N : match get "__loader__" d with Some v => negb (is_none W v) | None => false end = false); [|now rewrite N].
    rewrite Hd. unfold main_imported in M. apply orb_false_iff in M as [M _].
    destruct (get "__loader__" (original (stash_loop W))) as [v|] eqn:Ev.
    + destruct (proj1 (loop_origin W) _ _ Ev) as [o [Hi Hc]].
      rewrite (In_get _ _ _ (sane_main _ _ _ S) Hi) in M. apply negb_false_iff, Nat.eqb_eq in M. subst o.
      unfold classify in Hc.
      destruct (sane_none _ _ _ S) as [N1 N2]. apply Nat.eqb_neq in N1, N2. rewrite N1, N2 in Hc.
      rewrite Nat.eqb_refl in Hc. simpl in Hc. injection Hc as <-. simpl. now rewrite Nat.eqb_refl.
    + simpl. now rewrite Nat.eqb_refl.
Qed.

(** a module was imported: it has a loader, or is in sys.modules under whatever name *)
Definition was_imported (W : sworld) : Prop :=
  (exists o, get "__loader__" (attr (sw_env W) (sw_main W)) = Some o /\ o <> none (sw_env W)) \/
  (exists n, In (n, sw_main W) (modules (sw_env W))).
Theorem C30_stored_as : forall W pr fi, sane_world W pr fi ->
  (was_imported W -> saved_name W = sw_main_name W) /\
  (~ was_imported W -> saved_name W = "__runtime__." ++ sw_main_name W).
Proof.
  intros W pr fi S. rewrite (C30_stored_name W pr fi S).
  assert (M : main_imported W = true <-> was_imported W).
  { unfold main_imported, was_imported. rewrite orb_true_iff, existsb_exists. split.
    - intros [H|([n m] & Hi & H)].
      + left. destruct (get "__loader__" _) as [o|]; [|discriminate]. exists o. split; [reflexivity|].
        apply negb_true_iff, Nat.eqb_neq in H. exact H.
      + right. cbn [snd] in H. apply Nat.eqb_eq in H. subst m. eauto.
    - intros [(o & -> & H)|(n & H)].
      + left. apply negb_true_iff, Nat.eqb_neq. exact H.
      + right. exists (n, sw_main W). split; [exact H|]. apply Nat.eqb_refl. }
  destruct (main_imported W); split; intros H; auto.
  - destruct H. apply M. reflexivity.
  - apply M in H. discriminate.
Qed.

(** ** a concrete case: module foo (object 1) with  from math import sin, sin as s, pi as p ; import math as m ;
    x = [..] ; me = foo *)
Definition exE : env := {|
  modules := [("math", 10); ("os.path", 11); ("foo", 1); ("__main__", 5)];
  attr o := match o with
            | 10 => [("sin", 20); ("pi", 21)]
            | 11 => [("join", 22)]
            | 1 => [("__loader__", 99); ("sin", 20); ("s", 20); ("p", 21); ("m", 10); ("x", 30); ("me", 1); ("d", 2); ("none", 0)]
            | _ => []
            end;
  is_mod_or_type o := Nat.leb 1 o && Nat.ltb o 20; none := 0; none_type := 100;
  name_mapping := [(("__builtin__", "xrange"), ("builtins", "range"))]; import_mapping := [("StringIO", "io")];
  rev_name_mapping := []; rev_import_mapping := [] |}.
Definition exW : sworld := {|
  sw_env := exE; sw_is_module o := memb o [1; 5; 10; 11]; sw_is_builtin_module := fun _ => false;
  sw_as_type o := memb o [1; 5; 10; 11; 20; 22]; sw_obj_module := fun _ => None;
  sw_false := 101; sw_true := 102; sw_main := 1; sw_main_dict := 2; sw_main_name := "foo" |}.

Lemma ex_sane proto : sane_world exW proto true.
Proof.
  assert (G : forall m mo, get m (modules exE) = Some mo -> In (m, mo) (modules exE)) by (intros; now apply get_In).
  assert (A : forall m mo n o, get m (modules (sw_env exW)) = Some mo -> get n (attr (sw_env exW) mo) = Some o ->
     In (m, mo) (modules exE) /\ In (n, o) (attr exE mo)).
  { intros m mo n o H1 H2. split; now apply get_In. }
  split.
  - unfold wf; simpl. repeat constructor; simpl; intuition discriminate.
  - intros m mo H. apply G in H. simpl in H. destruct H as [H|[H|[H|[H|[]]]]]; injection H as <- <-; unfold wf; simpl;
    repeat constructor; simpl; intuition discriminate.
  - unfold wf; simpl. repeat constructor; simpl; intuition discriminate.
  - intros m mo n o H1 H2. destruct (A _ _ _ _ H1 H2) as [H3 H4]. simpl in H3.
    destruct H3 as [H|[H|[H|[H|[]]]]]; injection H as <- <-; simpl in H4;
    repeat (destruct H4 as [H4|H4]; [injection H4 as <- <-; split; [reflexivity|discriminate]|]); destruct H4.
  - intros m mo n o H1 H2. destruct (A _ _ _ _ H1 H2) as [H3 H4]. simpl in H3.
    destruct H3 as [H|[H|[H|[H|[]]]]]; injection H as <- <-; simpl in H4;
    repeat (destruct H4 as [H4|H4]; [injection H4 as <- <-; split; [discriminate|split; [discriminate|reflexivity]]|]); destruct H4.
  - split; discriminate.
  - intros n [->|[->| ->]]; reflexivity.
Qed.
(** sin, s and m are imported names; p is not (a number under another name) *)
Example ex_C30 : forall proto, proto = 0 \/ proto = 4 ->
  exists d', session_roundtrip exW (fun o => 1000 + o) 7 8 proto true [("old", LObj 77)] = Ok d' /\
  get "sin" d' = Some (LObj 20) /\ get "s" d' = Some (LObj 20) /\ get "m" d' = Some (LObj 10) /\
  get "p" d' = Some (LObj 1021) /\ get "x" d' = Some (LObj 1030) /\ get "me" d' = Some (LObj 7) /\
  get "d" d' = Some (LObj 8) /\ get "old" d' = Some (LObj 77) /\ get "__loader__" d' = None.
Proof.
  intros proto [-> | ->]; eexists; (split; [vm_compute; reflexivity|]); vm_compute; auto 20.
Qed.
Example ex_C30_imported : imported_name exW "s" 20 /\ ~ imported_name exW "p" 21.
Proof.
  split.
  - pose proof (classify_denoted exW 4 true "s" 20 (ex_sane 4)) as D. vm_compute (classify _ _ _) in D. apply D.
  - pose proof (classify_denoted exW 4 true "p" 21 (ex_sane 4)) as D. vm_compute (classify _ _ _) in D. apply D.
Qed.
