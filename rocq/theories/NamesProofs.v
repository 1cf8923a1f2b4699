From Coq Require Import String Ascii List Bool Arith Lia.
From Verif Require Import PyDict NamesModel NamesSpec.
Import ListNotations.
Local Open Scope string_scope.

(** ** strings *)
Lemma app_nil_r_s s : s ++ "" = s.
Proof. induction s; simpl; congruence. Qed.
Lemma app_assoc_s (a b c : string) : (a ++ b) ++ c = a ++ (b ++ c).
Proof. induction a as [|x a IH]; simpl; congruence. Qed.
Lemma has_dot_app a b : has_dot (a ++ b) = has_dot a || has_dot b.
Proof. induction a as [|c a IH]; simpl; auto. rewrite IH. now rewrite orb_assoc. Qed.

Lemma split_dot_aux_nonempty s : forall cur, split_dot_aux cur s <> [].
Proof. induction s as [|c s IH]; intros cur; simpl; [discriminate|]. destruct (Ascii.eqb c "."); [discriminate|auto]. Qed.
Lemma split_dot_nonempty s : split_dot s <> [].
Proof. apply split_dot_aux_nonempty. Qed.
Lemma split_dot_aux_nodot s : forall cur, has_dot cur = false ->
  Forall (fun x => has_dot x = false) (split_dot_aux cur s).
Proof.
  induction s as [|c s IH]; intros cur Hc; simpl; [repeat constructor; auto|].
  destruct (Ascii.eqb c ".") eqn:E.
  - constructor; auto.
  - apply IH. rewrite has_dot_app, Hc. simpl. now rewrite E.
Qed.
Lemma split_dot_nodot s : Forall (fun x => has_dot x = false) (split_dot s).
Proof. apply split_dot_aux_nodot. reflexivity. Qed.
Lemma join_split_aux s : forall cur, join_dot (split_dot_aux cur s) = cur ++ s.
Proof.
  induction s as [|c s IH]; intros cur; simpl; [now rewrite app_nil_r_s|].
  destruct (Ascii.eqb_spec c ".") as [->|Hn].
  - destruct (split_dot_aux "" s) eqn:E.
    + destruct (split_dot_aux_nonempty s "" E).
    + specialize (IH ""). rewrite E in IH. simpl in IH. simpl. rewrite IH. reflexivity.
  - rewrite IH, app_assoc_s. reflexivity.
Qed.
Lemma join_split s : join_dot (split_dot s) = s.
Proof. apply join_split_aux. Qed.
Lemma split_aux_app a : forall cur s, has_dot a = false -> split_dot_aux cur (a ++ s) = split_dot_aux (cur ++ a) s.
Proof.
  induction a as [|c a IH]; intros cur s Ha; simpl in *; [now rewrite app_nil_r_s|].
  apply orb_false_iff in Ha as [Hc Ha]. rewrite Hc, IH by auto. now rewrite app_assoc_s.
Qed.
Lemma split_join path : path <> [] -> Forall (fun x => has_dot x = false) path -> split_dot (join_dot path) = path.
Proof.
  unfold split_dot. induction path as [|x path IH]; [congruence|]. intros _ Hf. inversion Hf; subst.
  destruct path as [|y path].
  - simpl. rewrite <- (app_nil_r_s x) at 1. rewrite split_aux_app by auto. reflexivity.
  - change (join_dot (x :: y :: path)) with (x ++ "." ++ join_dot (y :: path)).
    rewrite split_aux_app by auto. cbn [split_dot_aux append].
    change (split_dot_aux ("" ++ x) (String "." (join_dot (y :: path))))
      with (("" ++ x) :: split_dot_aux "" (join_dot (y :: path))).
    rewrite IH; auto. discriminate.
Qed.

(** ** attribute paths *)
Lemma getattribute_follows E path : forall o par r p,
  getattribute_path E o par path = Ok (r, p) -> follows E o path r.
Proof.
  induction path as [|s path IH]; simpl; intros o par r p Hg.
  - inversion Hg; subst. constructor.
  - destruct (String.eqb_spec s "<locals>") as [|Hn]; [discriminate|].
    unfold getattr in Hg. destruct (get s (attr E o)) as [b|] eqn:Eb; [|discriminate].
    econstructor; eauto.
Qed.
Lemma follows_getattribute E path : forall o r par,
  follows E o path r -> exists p, getattribute_path E o par path = Ok (r, p).
Proof.
  induction path as [|s path IH]; simpl; intros o r par Hf; inversion Hf; subst; [eauto|].
  destruct (String.eqb_spec s "<locals>") as [|Hn]; [congruence|].
  unfold getattr. match goal with Hx : get s (attr E o) = Some _ |- _ => rewrite Hx end. eauto.
Qed.
Lemma getattribute_last E path : forall o par r p, path <> [] ->
  getattribute_path E o par path = Ok (r, p) -> getattr E p (last path "") = Ok r /\ last path "" <> "<locals>".
Proof.
  induction path as [|s path IH]; [congruence|]. intros o par r p _ Hg. simpl in Hg.
  destruct (String.eqb_spec s "<locals>") as [|Hn]; [discriminate|].
  destruct (getattr E o s) as [b|e] eqn:Eb; [|discriminate].
  destruct path as [|s' path].
  - simpl in *. inversion Hg; subst. auto.
  - eapply IH in Hg; [exact Hg|discriminate].
Qed.

Lemma last_In {A} (l : list A) d : l <> [] -> In (last l d) l.
Proof.
  induction l as [|x l IH]; [congruence|]. intros _. destruct l; [left; reflexivity|].
  right. apply IH. discriminate.
Qed.
Lemma last_part_nodot s : has_dot (last_part s) = false.
Proof.
  unfold last_part. pose proof (split_dot_nodot s) as Hf. rewrite Forall_forall in Hf. apply Hf.
  apply last_In. apply split_dot_nonempty.
Qed.
Lemma split_nodot s : has_dot s = false -> split_dot s = [s].
Proof. intros Hd. apply (split_join [s]); [discriminate|auto]. Qed.

(** ** save_global then load *)
Lemma find_class_plain E pr fx m n :
  (m, n) <> ("__builtin__", "__main__") -> (m, n) <> ("__builtin__", "NoneType") -> m <> "dill.dill" ->
  find_class E pr fx m n = match stock_find_class E pr fx m n with Ok o => Ok (FObj o) | Err e => Err e end.
Proof.
  intros H1 H2 H3. unfold find_class.
  destruct (String.eqb_spec m "__builtin__") as [->|Hb]; simpl.
  - destruct (String.eqb_spec n "__main__") as [->|]; [congruence|].
    destruct (String.eqb_spec n "NoneType") as [->|]; [congruence|]. reflexivity.
  - destruct (String.eqb_spec m "dill.dill"); [congruence|reflexivity].
Qed.

Lemma save_global_load E p describe isfc other fuel : forall o r,
  compat_ok E ->
  (forall x, n_id (describe x) = x) ->
  save_global E p describe isfc other fuel o = Ok r ->
  pure_ref r -> not_redirected r ->
  load_ref E (proto p) (fix_imports p) r = Ok (FObj (n_id o)).
Proof.
  induction fuel as [|fuel IH]; [discriminate|].
  intros o r Hco Hid Hs Hp Hr. cbn [save_global] in Hs.
  set (name := match n_qualname o with Some q => q | None => n_name o end) in *.
  set (m := whichmodule other o) in *.
  destruct (import_ E m) as [mo|e] eqn:Ei; [|discriminate].
  destruct (_getattribute E mo name) as [[o2 parent]|e] eqn:Eg; [|discriminate].
  destruct (Nat.eqb_spec o2 (n_id o)) as [->|Hne]; cbn [negb] in Hs; [|discriminate].
  unfold _getattribute in Eg.
  pose proof (getattribute_last E _ _ _ _ _ (split_dot_nonempty name) Eg) as [Hl Hloc].
  fold (last_part name) in Hl, Hloc.
  assert (Hmo : get m (modules E) = Some mo) by (unfold import_ in Ei; destruct (get m (modules E)); congruence).
  destruct (Nat.leb 4 (proto p)) eqn:E4.
  - inversion Hs; subst r; clear Hs. cbn [load_ref].
    cbn [not_redirected] in Hr. destruct Hr as (R1 & R2 & R3).
    rewrite find_class_plain by auto. unfold stock_find_class.
    apply Nat.leb_le in E4. assert (E3 : Nat.ltb (proto p) 3 = false) by (apply Nat.ltb_ge; lia).
    rewrite E3. cbn [andb]. rewrite Ei.
    assert (E4' : Nat.leb 4 (proto p) = true) by (apply Nat.leb_le; lia). rewrite E4'.
    unfold _getattribute. destruct (Nat.eqb_spec parent mo) as [->|Hpm].
    + rewrite split_nodot by apply last_part_nodot. cbn [getattribute_path].
      destruct (String.eqb_spec (last_part name) "<locals>"); [congruence|]. rewrite Hl. reflexivity.
    + rewrite Eg. reflexivity.
  - destruct (Nat.eqb_spec parent mo) as [->|Hpm]; cbn [negb] in Hs.
    + assert (Hat : get (last_part name) (attr E mo) = Some (n_id o)).
      { unfold getattr in Hl. destruct (get (last_part name) (attr E mo)); congruence. }
      destruct (Nat.leb 3 (proto p)) eqn:E3.
      * inversion Hs; subst r; clear Hs. cbn [load_ref]. destruct Hr as (R1 & R2 & R3).
        rewrite find_class_plain by auto. unfold stock_find_class.
        apply Nat.leb_le in E3. assert (E3' : Nat.ltb (proto p) 3 = false) by (apply Nat.ltb_ge; lia).
        rewrite E3'. cbn [andb]. rewrite Ei, E4. now rewrite Hl.
      * apply Nat.leb_gt in E3. assert (E3' : Nat.ltb (proto p) 3 = true) by (apply Nat.ltb_lt; lia).
        assert (E4' : Nat.leb 4 (proto p) = false) by (apply Nat.leb_gt; lia).
        destruct (fix_imports p) eqn:Ef.
        -- pose proof (Hco _ _ _ _ Hmo Hat) as Hinv.
           assert (Hr2 : r = let (a, b) := to_py2 E (m, last_part name) in RGlobal a b).
           { unfold to_py2. cbn [fst snd].
             destruct (get (m, last_part name) (rev_name_mapping E)) as [[m' n']|]; [congruence|].
             destruct (get m (rev_import_mapping E)); congruence. }
           destruct (to_py2 E (m, last_part name)) as [a b] eqn:E2. subst r.
           cbn [load_ref]. destruct Hr as (R1 & R2 & R3). rewrite find_class_plain by auto.
           unfold stock_find_class. rewrite E3'. cbn [andb].
           assert (Hmn : (match get (a, b) (name_mapping E) with
                  | Some mn => mn
                  | None => match get a (import_mapping E) with Some m' => (m', b) | None => (a, b) end
                  end) = (m, last_part name)) by exact Hinv.
           rewrite Hmn, Ei, E4'. now rewrite Hl.
        -- inversion Hs; subst r; clear Hs. cbn [load_ref]. destruct Hr as (R1 & R2 & R3).
           rewrite find_class_plain by auto. unfold stock_find_class.
           rewrite andb_false_r. rewrite Ei, E4'. now rewrite Hl.
    + destruct (isfc parent && _locate_function E p (describe parent)).
      * destruct (save_global E p describe isfc other fuel (describe parent)) as [r'|e] eqn:Es; [|discriminate].
        inversion Hs; subst r; clear Hs. cbn [load_ref pure_ref not_redirected] in *.
        rewrite (IH _ _ Hco Hid Es Hp Hr). rewrite Hid. rewrite Hl. reflexivity.
      * inversion Hs; subst r. destruct Hp.
Qed.

Lemma save_global_denotes E p describe isfc other fuel o r :
  save_global E p describe isfc other fuel o = Ok r ->
  denotes E (whichmodule other o) (match n_qualname o with Some q => q | None => n_name o end) (n_id o).
Proof.
  destruct fuel as [|fuel]; [discriminate|]. cbn [save_global].
  set (name := match n_qualname o with Some q => q | None => n_name o end).
  set (m := whichmodule other o). intros Hs.
  destruct (import_ E m) as [mo|e] eqn:Ei; [|discriminate].
  destruct (_getattribute E mo name) as [[o2 parent]|e] eqn:Eg; [|discriminate].
  destruct (Nat.eqb_spec o2 (n_id o)) as [->|Hne]; cbn [negb] in Hs; [|discriminate].
  exists mo, (split_dot name). repeat split.
  - unfold import_ in Ei. destruct (get m (modules E)); congruence.
  - now rewrite join_split.
  - apply split_dot_nonempty.
  - apply split_dot_nodot.
  - eapply getattribute_follows. exact Eg.
Qed.

Lemma locate_main E p o :
  (n_module o = Some "__main__" \/ n_module o = None \/ (exists s, session_main p = Some s /\ n_module o = Some s)) ->
  _locate_function E p o = false.
Proof.
  unfold _locate_function. intros [->|[->|(s & Hs & ->)]]; auto.
  rewrite Hs. destruct (String.eqb s "__main__"); auto. now rewrite String.eqb_refl.
Qed.

(** for an undotted module name, _locate_function is exactly "the name denotes this object" *)
Lemma locate_exact E p o m q :
  has_dot m = false -> startswith "__runtime__." m = false -> n_module o = Some m -> n_qualname o = Some q ->
  m <> "__main__" -> session_main p <> Some m -> get m (modules E) <> None ->
  (_locate_function E p o = true <-> denotes E m q (n_id o)).
Proof.
  intros Hd Hrt Hm Hq Hn1 Hn2 Hex. unfold _locate_function. rewrite Hm, Hq.
  destruct (String.eqb_spec m "__main__"); [congruence|].
  assert (Hs : match session_main p with Some s => String.eqb m s | None => false end = false).
  { destruct (session_main p) as [s|]; auto. destruct (String.eqb_spec m s); congruence. }
  rewrite Hs. unfold _import_module, import_module_raw. rewrite Hrt, Hd. unfold import_.
  destruct (get m (modules E)) as [mo|] eqn:Emo; [|congruence].
  unfold _getattribute. split.
  - destruct (getattribute_path E mo mo (split_dot q)) as [[f pr]|e] eqn:Eg; [|discriminate].
    intros Hf. apply Nat.eqb_eq in Hf. subst f.
    exists mo, (split_dot q). rewrite join_split. repeat split; auto using split_dot_nonempty, split_dot_nodot.
    eapply getattribute_follows. exact Eg.
  - intros (mo' & path & E1 & -> & Hne & Hnd & Hf). assert (mo' = mo) by congruence. subst mo'.
    rewrite split_join by auto. destruct (follows_getattribute E path mo (n_id o) mo Hf) as [pr ->].
    apply Nat.eqb_refl.
Qed.

(** ** C12 *)
Lemma find_class_denotes E pr fx m n o : 4 <= pr ->
  (m, n) <> ("__builtin__", "__main__") -> (m, n) <> ("__builtin__", "NoneType") -> m <> "dill.dill" ->
  (find_class E pr fx m n = Ok (FObj o) <-> denotes E m n o).
Proof.
  intros Hp H1 H2 H3. rewrite find_class_plain by auto. unfold stock_find_class.
  assert (E3 : Nat.ltb pr 3 = false) by (apply Nat.ltb_ge; lia). rewrite E3. cbn [andb].
  assert (E4 : Nat.leb 4 pr = true) by (apply Nat.leb_le; lia). rewrite E4.
  unfold import_. destruct (get m (modules E)) as [mo|] eqn:Em.
  - unfold _getattribute. split.
    + destruct (getattribute_path E mo mo (split_dot n)) as [[f q]|e] eqn:Eg; [|discriminate].
      intros Hx. inversion Hx; subst. exists mo, (split_dot n). rewrite join_split.
      repeat split; auto using split_dot_nonempty, split_dot_nodot. eapply getattribute_follows; eauto.
    + intros (mo' & path & E1 & -> & Hne & Hnd & Hf). assert (mo' = mo) by congruence. subst mo'.
      rewrite split_join by auto. destruct (follows_getattribute E path mo o mo Hf) as [q ->]. reflexivity.
  - split; [discriminate|]. intros (mo & path & E1 & _). congruence.
Qed.

Lemma find_class_redirect E pr fx :
  find_class E pr fx "__builtin__" "__main__" = Ok FMainDict /\
  find_class E pr fx "__builtin__" "NoneType" = Ok (FObj (none_type E)) /\
  (forall n, find_class E pr fx "dill.dill" n = find_class E pr fx "dill._dill" n).
Proof. repeat split; reflexivity. Qed.

Lemma find_class_old E pr fx m n o : pr = 3 \/ fx = false -> pr < 4 ->
  (m, n) <> ("__builtin__", "__main__") -> (m, n) <> ("__builtin__", "NoneType") -> m <> "dill.dill" ->
  (find_class E pr fx m n = Ok (FObj o) <->
   exists mo, get m (modules E) = Some mo /\ get n (attr E mo) = Some o).
Proof.
  intros Hc Hp H1 H2 H3. rewrite find_class_plain by auto. unfold stock_find_class.
  assert (E3 : Nat.ltb pr 3 && fx = false).
  { destruct Hc as [->| ->]; [reflexivity | apply andb_false_r]. }
  rewrite E3. assert (E4 : Nat.leb 4 pr = false) by (apply Nat.leb_gt; lia). rewrite E4.
  unfold import_, getattr. destruct (get m (modules E)) as [mo|] eqn:Em.
  - destruct (get n (attr E mo)) as [x|] eqn:En; split; intros Hx.
    + inversion Hx; subst; eauto.
    + destruct Hx as (mo' & E1 & E2). congruence.
    + discriminate.
    + destruct Hx as (mo' & E1 & E2). congruence.
  - split; [discriminate|]. intros (mo' & E1 & E2). congruence.
Qed.

Lemma load_class_spec main_name main_attr assign ignore c c' :
  load_class main_name main_attr assign ignore c = Ok c' <->
  ((exists v, c_module c = main_name /\ ignore = false /\ main_attr (c_name c) = Some v /\ assign v = AOk c')
   \/ (c' = c /\ (c_module c <> main_name \/ ignore = true \/ main_attr (c_name c) = None \/
        exists v, main_attr (c_name c) = Some v /\ (assign v = AAttributeError \/ assign v = ATypeError)))).
Proof.
  unfold load_class. destruct (String.eqb_spec (c_module c) main_name) as [Hm|Hm].
  - destruct ignore; cbn [negb].
    + split; [intros Hx; right; split; [congruence|auto]|].
      intros [(v & _ & Hx & _)|[-> _]]; [discriminate|reflexivity].
    + destruct (main_attr (c_name c)) as [v|] eqn:Ev.
      * destruct (assign v) eqn:Ea; split; intros Hx.
        -- left. exists v. repeat split; auto; congruence.
        -- destruct Hx as [(v' & _ & _ & E1 & E2)|[-> [Hx|[Hx|[Hx|(v' & E1 & Hx)]]]]]; try congruence.
           assert (v' = v) by congruence. subst. destruct Hx; congruence.
        -- right. split; [congruence|]. right; right; right. eauto.
        -- destruct Hx as [(v' & _ & _ & E1 & E2)|[-> _]]; [congruence|reflexivity].
        -- right. split; [congruence|]. right; right; right. eauto.
        -- destruct Hx as [(v' & _ & _ & E1 & E2)|[-> _]]; [congruence|reflexivity].
        -- discriminate.
        -- destruct Hx as [(v' & _ & _ & E1 & E2)|[-> [Hx|[Hx|[Hx|(v' & E1 & Hx)]]]]]; try congruence.
           assert (v' = v) by congruence. subst. destruct Hx; congruence.
      * split; [intros Hx; right; split; [congruence|auto]|].
        intros [(v & _ & _ & Hx & _)|[-> _]]; [discriminate|reflexivity].
  - split; [intros Hx; right; split; [congruence|auto]|].
    intros [(v & Hx & _)|[-> _]]; [congruence|reflexivity].
Qed.
