From Coq Require Import String Ascii List Bool Arith Lia Permutation.
From Verif Require Import PyDict NamesModel NamesSpec NamesProofs StashModel StashSpec.
Import ListNotations.
Local Open Scope string_scope.

Lemma all_word_spec w : all_word w = true <-> Forall (fun c => is_word c = true) (list_ascii_of_string w).
Proof.
  induction w as [|c w IH]; cbn [all_word list_ascii_of_string]; [split; constructor|].
  rewrite andb_true_iff, IH. split; [intros [A B]; now constructor|intros A; inversion A; auto].
Qed.
Lemma substring_all s : forall k, String.length s <= k -> substring 0 k s = s.
Proof. induction s as [|c s IH]; intros [|k] L; cbn in *; try lia; try reflexivity. f_equal. apply IH. lia. Qed.
Lemma substring_skip p : forall s k, String.length s <= k -> substring (String.length p) k (p ++ s) = s.
Proof. induction p as [|c p IH]; intros s k L; cbn [String.length append]; [now apply substring_all|]. cbn [substring]. now apply IH. Qed.
Lemma startswith_inv_ p : forall s, startswith p s = true -> exists r, s = p ++ r.
Proof.
  induction p as [|c p IH]; intros [|d s] H; cbn [startswith] in H; try discriminate; [now exists ""|now exists (String d s)|].
  apply andb_prop in H as [A B]. apply Ascii.eqb_eq in A as ->. destruct (IH _ B) as [r ->]. now exists r.
Qed.
Lemma startswith_app_ p s : startswith p (p ++ s) = true.
Proof. induction p as [|c p IH]; cbn; [now destruct s|]. now rewrite Ascii.eqb_refl, IH. Qed.
Lemma append_len p q : String.length (p ++ q) = String.length p + String.length q.
Proof. induction p as [|c p IH]; cbn; [reflexivity|]. now rewrite IH. Qed.
Lemma opt_sub_spec p s : opt_sub p s = true <-> s = p \/ exists w, s = p ++ "." ++ w /\ w <> "" /\ Forall (fun c => is_word c = true) (list_ascii_of_string w).
Proof.
  assert (forall a b c : string, (a ++ b) ++ c = a ++ b ++ c) as AA by (induction a as [|x a IHa]; intros; cbn; [reflexivity|now rewrite IHa]).
  assert (forall w, substring (String.length p + 1) (String.length ((p ++ ".") ++ w)) ((p ++ ".") ++ w) = w) as X.
  { intros w. assert (String.length p + 1 = String.length (p ++ ".")) as -> by (now rewrite append_len). apply substring_skip. rewrite append_len. lia. }
  unfold opt_sub. rewrite orb_true_iff, String.eqb_eq. split.
  - intros [->|H]; [now left|]. right. apply andb_prop in H as [A B]. destruct (startswith_inv_ _ _ A) as [w ->]. cbn beta zeta in B. rewrite X in B.
    apply andb_prop in B as [B C]. exists w. split; [now rewrite AA|]. split; [|now apply all_word_spec].
    intros ->. discriminate B.
  - intros [->|[w [-> [N F]]]]; [now left|]. right. rewrite <- AA, startswith_app_. cbn [andb]. cbn beta zeta. rewrite X.
    apply all_word_spec in F. rewrite F. destruct (String.eqb_spec w ""); [contradiction|reflexivity].
Qed.
(** session.py:116-118 *)
Lemma imported_as_spec m : imported_as_module m = true <-> listed_package m.
Proof.
  unfold imported_as_module, listed_package. rewrite !orb_true_iff, !String.eqb_eq, !opt_sub_spec. cbn [In]. split.
  - intros [[[[[->| ->]| ->]| ->]|H]|H]; [left; tauto..| |]; right; eexists; (split; [|exact H]); tauto.
  - intros [[H|[H|[H|[H|[]]]]]|[p [[<-|[<-|[]]] H]]]; try subst m; tauto.
Qed.
Lemma In_entries W o n m : wf (modules (sw_env W)) ->
  In (o, n, m) (entries W) <->
  exists mo, get m (modules (sw_env W)) = Some mo /\ m <> "__main__" /\ m <> "__mp_main__" /\ sw_is_module W mo = true /\
    In (n, o) (attr (sw_env W) mo).
Proof.
  intros Hw. unfold entries. rewrite in_flat_map. split.
  - intros [[m' mo] [Hi He]]. unfold mapped in Hi. apply filter_In in Hi as [Hi Hc].
    apply in_map_iff in He as [[n' o'] [He Hin]]. cbn [fst snd] in *. injection He as -> -> ->.
    apply andb_true_iff in Hc as [Hc1 Hc2]. apply negb_true_iff, orb_false_iff in Hc1 as [H1 H2].
    exists mo. repeat split; auto.
    + apply In_get; auto.
    + now apply String.eqb_neq.
    + now apply String.eqb_neq.
  - intros [mo [Hg [H1 [H2 [H3 H4]]]]]. exists (m, mo). split.
    + unfold mapped. apply filter_In. split; [now apply get_In|]. cbn [fst snd]. rewrite H3.
      apply String.eqb_neq in H1, H2. now rewrite H1, H2.
    + apply in_map_iff. exists (n, o). auto.
Qed.

Lemma not_main_spec W m mo : get m (modules (sw_env W)) = Some mo -> not_main W m = true <-> mo <> sw_main W.
Proof. intros E. unfold not_main. rewrite E. rewrite negb_true_iff, Nat.eqb_neq. tauto. Qed.

Lemma entry_provides W pr fi o n m : sane_world W pr fi -> In (o, n, m) (entries W) -> not_main W m = true -> provides W m n o.
Proof.
  intros S Hi Hn. apply In_entries in Hi as [mo [Hg [H1 [H2 [H3 H4]]]]]; [|apply (sane_modules _ _ _ S)].
  exists mo. repeat split; auto.
  - now apply (not_main_spec _ _ _ Hg).
  - apply In_get; auto. eapply sane_attrs; eauto.
Qed.
Lemma provides_entry W pr fi o n m : sane_world W pr fi -> provides W m n o -> In (o, n, m) (entries W) /\ not_main W m = true.
Proof.
  intros S [mo [Hg [H1 [H2 [H3 [H4 H5]]]]]]. split.
  - apply In_entries; [apply (sane_modules _ _ _ S)|]. exists mo. repeat split; auto. now apply get_In.
  - now apply (not_main_spec _ _ _ Hg).
Qed.

Lemma find_none_iff {A} (f : A -> bool) l : find f l = None <-> forall x, In x l -> f x = false.
Proof.
  split; [apply find_none|]. induction l as [|x l IH]; simpl; auto. intros Hx.
  rewrite (Hx x); auto.
Qed.

(** what _lookup_module finds *)
Lemma lookup_sound W pr fi name obj m n : sane_world W pr fi ->
  _lookup_module W name obj = Some (m, n) ->
  provides W m n obj /\ (n = name \/ (renamable W obj /\ forall m', ~ provides W m' name obj)).
Proof.
  intros S. unfold _lookup_module.
  destruct (find _ (entries W)) as [[[o' n'] m']|] eqn:F.
  - intros E. injection E as <- <-. apply find_some in F as [Hi Hc]. cbn [fst snd] in *.
    apply andb_true_iff in Hc as [Hc Hc3]. apply andb_true_iff in Hc as [Hc1 Hc2].
    apply String.eqb_eq in Hc1. apply Nat.eqb_eq in Hc2. subst. split; auto.
    eapply entry_provides; eauto.
  - destruct (sw_as_type W obj || _) eqn:R; [|discriminate].
    destruct (find _ (entries W)) as [[[o' n'] m']|] eqn:F2 in |- *; [|discriminate].
    cbn [fst snd]. intros E. injection E as <- <-. apply find_some in F2 as [Hi Hc]. cbn [fst snd] in *.
    apply andb_true_iff in Hc as [Hc1 Hc2]. apply Nat.eqb_eq in Hc1. subst. split.
    + eapply entry_provides; eauto.
    + right. split.
      * unfold renamable. apply orb_true_iff in R as [R|R]; auto.
        destruct (sw_obj_module W obj) as [x|]; [|discriminate]. right. exists x. split; [reflexivity|now apply imported_as_spec].
      * intros m'' Hp. destruct (provides_entry _ _ _ _ _ _ S Hp) as [Hi' Hn'].
        rewrite find_none_iff in F. specialize (F _ Hi'). cbn [fst snd] in F.
        rewrite String.eqb_refl, Nat.eqb_refl, Hn' in F. discriminate.
Qed.
Lemma lookup_complete W pr fi name obj : sane_world W pr fi ->
  _lookup_module W name obj = None ->
  (forall m, ~ provides W m name obj) /\ (renamable W obj -> forall m n, ~ provides W m n obj).
Proof.
  intros S. unfold _lookup_module.
  destruct (find _ (entries W)) as [[[o' n'] m']|] eqn:F; [discriminate|].
  intros E. rewrite find_none_iff in F. split.
  - intros m Hp. destruct (provides_entry _ _ _ _ _ _ S Hp) as [Hi Hn].
    specialize (F _ Hi). cbn [fst snd] in F. rewrite String.eqb_refl, Nat.eqb_refl, Hn in F. discriminate.
  - intros R m n Hp. destruct (provides_entry _ _ _ _ _ _ S Hp) as [Hi Hn].
    assert (R' : sw_as_type W obj || match sw_obj_module W obj with Some m => imported_as_module m | None => false end = true).
    { apply orb_true_iff. destruct R as [R|[x [R1 R2]]]; auto. right. rewrite R1. now apply imported_as_spec. }
    rewrite R' in E.
    destruct (find _ (entries W)) as [e|] eqn:F2 in E; [discriminate|].
    rewrite find_none_iff in F2. specialize (F2 _ Hi). cbn [fst snd] in F2. rewrite Nat.eqb_refl, Hn in F2. discriminate.
Qed.

Lemma top_level_spec_gen (l : list (string * oid)) : forall d o,
  (forall m, get o (fold_left (fun d p => if has_dot (fst p) then d else set (snd p) (fst p) d) l d) = Some m ->
     (In (m, o) l /\ has_dot m = false) \/ get o d = Some m) /\
  (get o (fold_left (fun d p => if has_dot (fst p) then d else set (snd p) (fst p) d) l d) = None ->
     get o d = None /\ forall m, In (m, o) l -> has_dot m = true).
Proof.
  induction l as [|[m' o'] l IH]; intros d o; simpl.
  - split; auto.
  - destruct (has_dot m') eqn:D.
    + destruct (IH d o) as [I1 I2]. split.
      * intros m E. destruct (I1 m E) as [[H1 H2]|H1]; auto.
      * intros E. destruct (I2 E) as [H1 H2]. split; auto. intros m [Hm|Hm]; [congruence|auto].
    + destruct (IH (set o' m' d) o) as [I1 I2]. split.
      * intros m E. destruct (I1 m E) as [[H1 H2]|H1]; auto.
        rewrite get_set in H1. destruct (eqb_spec o o') as [->|Hn]; auto.
        injection H1 as <-. auto.
      * intros E. destruct (I2 E) as [H1 H2]. rewrite get_set in H1.
        destruct (eqb_spec o o') as [->|Hn]; [discriminate|]. split; auto.
        intros m [Hm|Hm]; [congruence|auto].
Qed.
Definition top_provided (W : sworld) (m : string) (o : oid) : Prop :=
  get m (modules (sw_env W)) = Some o /\ m <> "__main__" /\ m <> "__mp_main__" /\ sw_is_module W o = true /\ has_dot m = false.
Lemma In_mapped W pr fi m o : sane_world W pr fi -> In (m, o) (mapped W) <->
  get m (modules (sw_env W)) = Some o /\ m <> "__main__" /\ m <> "__mp_main__" /\ sw_is_module W o = true.
Proof.
  intros S. unfold mapped. rewrite filter_In. cbn [fst snd]. rewrite andb_true_iff, negb_true_iff, orb_false_iff, !String.eqb_neq.
  split.
  - intros [H1 [[H2 H3] H4]]. repeat split; auto. apply In_get; auto. apply (sane_modules _ _ _ S).
  - intros [H1 [H2 [H3 H4]]]. repeat split; auto. now apply get_In.
Qed.
Lemma top_level_sound W pr fi o m : sane_world W pr fi -> get o (top_level W) = Some m -> top_provided W m o.
Proof.
  intros S E. apply (proj1 (top_level_spec_gen _ _ _)) in E as [[H1 H2]|H1]; [|discriminate].
  apply (In_mapped _ _ _ _ _ S) in H1 as [? [? [? ?]]]. repeat split; auto.
Qed.
Lemma top_level_complete W pr fi o : sane_world W pr fi -> get o (top_level W) = None -> forall m, ~ top_provided W m o.
Proof.
  intros S E m [H1 [H2 [H3 [H4 H5]]]]. apply (proj2 (top_level_spec_gen _ _ _)) in E as [_ E].
  rewrite (E m) in H5; [discriminate|]. apply (In_mapped _ _ _ _ _ S). auto.
Qed.

(** classification *)
Definition denoted (W : sworld) (c : class) (name : string) (o : oid) : Prop :=
  match c with
  | COrig v => ~ imported_name W name o /\
               v = (if Nat.eqb o (sw_main W) then VNewMod else if Nat.eqb o (sw_main_dict W) then VNewDict else VObj o)
  | CImp m => imported_name W name o /\ provides W m name o
  | CImpAs m n => imported_name W name o /\ provides W m n o
  | CTop m => imported_name W name o /\ top_provided W m o
  end.
Lemma classify_denoted W pr fi name o : sane_world W pr fi -> denoted W (classify W name o) name o.
Proof.
  intros S. unfold classify.
  destruct (Nat.eqb_spec o (sw_main W)) as [E1|E1].
  { split; [intros [H _]; tauto|]. now rewrite (proj2 (Nat.eqb_eq _ _) E1). }
  destruct (Nat.eqb_spec o (sw_main_dict W)) as [E2|E2].
  { split; [intros [_ [H _]]; tauto|].
    rewrite (proj2 (Nat.eqb_neq _ _) E1). now rewrite (proj2 (Nat.eqb_eq _ _) E2). }
  destruct (((Nat.eqb o (none (sw_env W)) || Nat.eqb o (sw_false W) || Nat.eqb o (sw_true W))
          || (sw_is_module W o && sw_is_builtin_module W o))) eqn:B.
  { split.
    - intros [_ [_ [H1 [H2 [H3 [H4 _]]]]]]. apply Nat.eqb_neq in H1, H2, H3. rewrite H1, H2, H3 in B. simpl in B.
      apply andb_true_iff in B. tauto.
    - rewrite (proj2 (Nat.eqb_neq _ _) E1), (proj2 (Nat.eqb_neq _ _) E2). auto. }
  apply orb_false_iff in B as [B B4]. apply orb_false_iff in B as [B B3]. apply orb_false_iff in B as [B1 B2].
  apply Nat.eqb_neq in B1, B2, B3. apply andb_false_iff in B4.
  assert (Base : ((exists m, provides W m name o) \/ (renamable W o /\ exists m n, provides W m n o) \/
      (exists m, top_provided W m o)) -> imported_name W name o).
  { intros H. repeat split; auto. intros [H1 H2]. destruct B4; congruence. }
  destruct (_lookup_module W name o) as [[m n]|] eqn:L.
  - destruct (lookup_sound _ _ _ _ _ _ _ S L) as [Hp Hr].
    assert (Hi : imported_name W name o).
    { apply Base. destruct Hr as [->|[Hr _]]; eauto 6. }
    destruct (String.eqb_spec n name) as [->|Hn]; split; auto.
  - destruct (lookup_complete _ _ _ _ _ S L) as [L1 L2].
    destruct (get o (top_level W)) as [m|] eqn:T.
    + pose proof (top_level_sound _ _ _ _ _ S T) as Ht. split; auto. apply Base. eauto.
    + pose proof (top_level_complete _ _ _ _ S T) as Ht. split.
      * intros [_ [_ [_ [_ [_ [_ [[m H]|[[H [m [n H']]]|[m H]]]]]]]]].
        -- eapply L1; eauto.
        -- eapply L2; eauto.
        -- eapply Ht; eauto.
      * rewrite (proj2 (Nat.eqb_neq _ _) E1), (proj2 (Nat.eqb_neq _ _) E2). auto.
Qed.

(** ** the loop *)
Definition names_of (s : stash) : list string :=
  (keys (original s) ++ map snd (imported s) ++ map snd (imported_as s) ++ map snd (imported_top_level s))%list.
Lemma keys_set_new {V} k (v : V) (d : dict string V) : get k d = None -> keys (set k v d) = (keys d ++ [k])%list.
Proof. intros E. rewrite keys_set. unfold has. now rewrite E. Qed.
Lemma step_names W s p : get (fst p) (original s) = None ->
  Permutation (names_of (stash_step W s p)) (fst p :: names_of s).
Proof.
  destruct p as [name o]; cbn [fst]. intros Hn. unfold names_of, stash_step.
  destruct (classify W name o); simpl; rewrite ?map_app; simpl.
  - rewrite keys_set_new; auto. rewrite <- app_assoc. symmetry. apply Permutation_middle.
  - symmetry. eapply perm_trans; [|eapply Permutation_trans; [apply (Permutation_middle (keys (original s) ++ map snd (imported s)))|]].
    + rewrite <- !app_assoc. apply Permutation_refl.
    + rewrite <- !app_assoc. apply Permutation_refl.
  - symmetry. eapply perm_trans; [|eapply Permutation_trans; [apply (Permutation_middle (keys (original s) ++ map snd (imported s) ++ map snd (imported_as s)))|]].
    + rewrite <- !app_assoc. apply Permutation_refl.
    + rewrite <- !app_assoc. apply Permutation_refl.
  - symmetry. eapply perm_trans; [|eapply Permutation_trans; [apply (Permutation_middle (keys (original s) ++ map snd (imported s) ++ map snd (imported_as s) ++ map snd (imported_top_level s)) [])|]].
    + rewrite app_nil_r. apply Permutation_refl.
    + rewrite <- !app_assoc. apply Permutation_refl.
Qed.
Lemma original_incl W s p k : get k (original (stash_step W s p)) <> None -> k = fst p \/ get k (original s) <> None.
Proof.
  destruct p as [name o]; cbn [fst]. unfold stash_step. destruct (classify W name o); simpl; auto.
  rewrite get_set. destruct (eqb_spec k name); auto.
Qed.
Lemma loop_names W l : forall s, wf l -> (forall k, In k (keys l) -> get k (original s) = None) ->
  Permutation (names_of (fold_left (stash_step W) l s)) (keys l ++ names_of s)%list.
Proof.
  induction l as [|[n o] l IH]; intros s Hw Hs; [reflexivity|]. cbn [fold_left].
  inversion Hw; subst. etransitivity.
  - apply IH; auto. intros k Hk. destruct (get k (original (stash_step W s (n, o)))) eqn:E; auto.
    destruct (original_incl W s (n, o) k) as [->|E2]; [congruence| |].
    + contradiction.
    + exfalso. apply E2, Hs. right; auto.
  - etransitivity; [apply Permutation_app_head, step_names; apply Hs; left; auto|].
    cbn [fst]. symmetry. apply (Permutation_middle (keys l)).
Qed.

(** every entry of the lists comes from a classified name *)
Definition origin_ok (W : sworld) (l : list (string * oid)) (s : stash) : Prop :=
  (forall k v, get k (original s) = Some v -> exists o, In (k, o) l /\ classify W k o = COrig v) /\
  (forall m k, In (m, k) (imported s) -> exists o, In (k, o) l /\ classify W k o = CImp m) /\
  (forall m n k, In (m, n, k) (imported_as s) -> exists o, In (k, o) l /\ classify W k o = CImpAs m n) /\
  (forall m k, In (m, k) (imported_top_level s) -> exists o, In (k, o) l /\ classify W k o = CTop m).
Lemma step_origin W l s p : origin_ok W l s -> origin_ok W (l ++ [p])%list (stash_step W s p).
Proof.
  intros [H1 [H2 [H3 H4]]]. destruct p as [name o]. unfold stash_step.
  assert (Hl : forall k x, In (k, x) l -> In (k, x) (l ++ [(name, o)])%list) by (intros; apply in_app_iff; auto).
  assert (Hp : In (name, o) (l ++ [(name, o)])%list) by (apply in_app_iff; right; left; auto).
  destruct (classify W name o) eqn:C; unfold origin_ok; simpl.
  - split; [|split; [|split]].
    + intros k v'. rewrite get_set. destruct (eqb_spec k name) as [->|].
      * intros E; injection E as <-. eauto.
      * intros E. destruct (H1 _ _ E) as [x [? ?]]; eauto.
    + intros m k Hi. destruct (H2 _ _ Hi) as [x [? ?]]; eauto.
    + intros m k n Hi. destruct (H3 _ _ _ Hi) as [x [? ?]]; eauto.
    + intros m k Hi. destruct (H4 _ _ Hi) as [x [? ?]]; eauto.
  - split; [|split; [|split]].
    + intros k v' E. destruct (H1 _ _ E) as [x [? ?]]; eauto.
    + intros m' k Hi. apply in_app_iff in Hi as [Hi|[Hi|[]]].
      * destruct (H2 _ _ Hi) as [x [? ?]]; eauto.
      * injection Hi as <- <-. eauto.
    + intros m' k n Hi. destruct (H3 _ _ _ Hi) as [x [? ?]]; eauto.
    + intros m' k Hi. destruct (H4 _ _ Hi) as [x [? ?]]; eauto.
  - split; [|split; [|split]].
    + intros k v' E. destruct (H1 _ _ E) as [x [? ?]]; eauto.
    + intros m' k Hi. destruct (H2 _ _ Hi) as [x [? ?]]; eauto.
    + intros m' n' k Hi. apply in_app_iff in Hi as [Hi|[Hi|[]]].
      * destruct (H3 _ _ _ Hi) as [x [? ?]]; eauto.
      * injection Hi as <- <- <-. eauto.
    + intros m' k Hi. destruct (H4 _ _ Hi) as [x [? ?]]; eauto.
  - split; [|split; [|split]].
    + intros k v' E. destruct (H1 _ _ E) as [x [? ?]]; eauto.
    + intros m' k Hi. destruct (H2 _ _ Hi) as [x [? ?]]; eauto.
    + intros m' k n Hi. destruct (H3 _ _ _ Hi) as [x [? ?]]; eauto.
    + intros m' k Hi. apply in_app_iff in Hi as [Hi|[Hi|[]]].
      * destruct (H4 _ _ Hi) as [x [? ?]]; eauto.
      * injection Hi as <- <-. eauto.
Qed.
Lemma loop_origin_gen W l : forall l0 s, origin_ok W l0 s -> origin_ok W (l0 ++ l)%list (fold_left (stash_step W) l s).
Proof.
  induction l as [|p l IH]; intros l0 s Ho; simpl.
  - now rewrite app_nil_r.
  - replace (l0 ++ p :: l)%list with ((l0 ++ [p]) ++ l)%list by (rewrite <- app_assoc; auto).
    apply IH. now apply step_origin.
Qed.
Lemma loop_origin W : origin_ok W (attr (sw_env W) (sw_main W)) (stash_loop W).
Proof.
  apply (loop_origin_gen W _ []). unfold origin_ok; simpl.
  split; [intros; discriminate|]. repeat split; intros; tauto.
Qed.
Lemma wf_original W l : forall s, wf (original s) -> wf (original (fold_left (stash_step W) l s)).
Proof.
  induction l as [|[n o] l IH]; intros s Hs; simpl; auto. apply IH.
  unfold stash_step. destruct (classify W n o); simpl; auto. now apply wf_set.
Qed.
Lemma stash_names W : wf (attr (sw_env W) (sw_main W)) ->
  Permutation (names_of (stash_loop W)) (keys (attr (sw_env W) (sw_main W))).
Proof.
  intros Hw. unfold stash_loop. etransitivity; [apply loop_names; auto|]. unfold names_of; simpl. now rewrite app_nil_r.
Qed.

(** reading the lists back *)
Lemma fc_provides W pr fi td m n o : sane_world W pr fi -> provides W m n o -> fc_of W td pr fi m n = Ok o.
Proof.
  intros S [mo [Hg [_ [_ [_ [_ Ha]]]]]].
  destruct (sane_redirect _ _ _ S _ _ _ _ Hg Ha) as [R1 [R2 R3]].
  destruct (sane_names _ _ _ S _ _ _ _ Hg Ha) as [N1 N2].
  unfold fc_of, find_class.
  apply String.eqb_neq in R1, R2. rewrite R1, R2. cbn [andb].
  assert (St : stock_find_class (sw_env W) pr fi m n = Ok o).
  { unfold stock_find_class.
    replace (if Nat.ltb pr 3 && fi then _ else (m, n)) with (m, n).
    - cbv iota beta. unfold import_. rewrite Hg. destruct (Nat.leb 4 pr).
      + unfold _getattribute. rewrite split_nodot; auto. simpl.
        apply String.eqb_neq in N2. rewrite N2. unfold getattr. now rewrite Ha.
      + unfold getattr. now rewrite Ha.
    - destruct (Nat.ltb pr 3) eqn:L; auto. destruct fi; auto. simpl.
      apply Nat.ltb_lt in L. specialize (R3 L eq_refl). unfold to_py3 in R3. cbn [fst snd] in R3.
      now rewrite R3. }
  now rewrite St.
Qed.

Lemma assign_all_ok {A} (look : A -> res oid) (key : A -> string) (val : string -> option oid) l :
  (forall x, In x l -> exists o, look x = Ok o /\ val (key x) = Some o) ->
  forall d, exists d', assign_all look key l d = (None, d') /\
    (forall k, In k (map key l) -> exists o, val k = Some o /\ get k d' = Some (LObj o)) /\
    (forall k, ~ In k (map key l) -> get k d' = get k d).
Proof.
  induction l as [|x l IH]; intros Hl d; simpl.
  - exists d. repeat split; auto. tauto.
  - destruct (Hl x) as [o [Ho Hv]]; [left; auto|]. rewrite Ho.
    destruct (IH (fun y Hy => Hl y (or_intror Hy)) (set (key x) (LObj o) d)) as [d' [E [H1 H2]]].
    exists d'. repeat split; auto.
    + intros k [<-|Hk]; auto. destruct (in_dec string_dec (key x) (map key l)) as [Hi|Hi]; auto.
      exists o. split; auto. rewrite H2; auto. apply get_set_same.
    + intros k Hk. rewrite H2; [|tauto]. apply get_set_other. intros ->. tauto.
Qed.
