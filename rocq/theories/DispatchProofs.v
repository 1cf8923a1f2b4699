From Coq Require Import String List Bool Arith Lia.
From Verif Require Import PyDict DispatchModel DispatchSpec.
Import ListNotations.

Lemma registered_app h1 h2 t :
  registered (h1 ++ h2) t = match registered h2 t with Some f => Some f | None => registered h1 t end.
Proof.
  induction h1 as [|c h1 IH]; simpl.
  - destruct (registered h2 t); auto.
  - rewrite IH. destruct (registered h2 t); auto.
Qed.

Lemma run_app orig s h1 h2 : run orig s (h1 ++ h2) = run orig (run orig s h1) h2.
Proof. unfold run. apply fold_left_app. Qed.

Lemma dill_lookup orig h t : get t (dill_t (run orig (init orig) h)) = newest_registration orig h t.
Proof.
  induction h as [|c h IH] using rev_ind; [reflexivity|].
  rewrite run_app. unfold newest_registration in *. rewrite registered_app. simpl.
  destruct c as [t' f|[]]; simpl; auto.
  rewrite get_set. simpl. destruct (Nat.eqb t t'); auto.
Qed.

Lemma dispatch_lookup :
  forall (is_meta : ty -> bool) (save_type : fn) (orig : dict ty fn) (h : list call) (key : ty)
         (D : Type) (inj : fn -> D) (default : D),
    let d := dill_t (run orig (init orig) h) in
    (getitem is_meta save_type d key =
       match newest_registration orig h key with
       | Some f => Ok f
       | None => if is_meta key then Ok save_type else KeyError
       end)
    /\ (mget is_meta save_type d key inj default =
       match newest_registration orig h key with
       | Some f => inj f
       | None => if is_meta key then inj save_type else default
       end).
Proof.
  intros. unfold mget, getitem, missing, d. rewrite dill_lookup.
  destruct (newest_registration orig h key); split; auto; destruct (is_meta key); auto.
Qed.

(** well-formedness of both tables *)
Lemma wf_run orig h : wf orig -> wf (dill_t (run orig (init orig) h)) /\ wf (stock_t (run orig (init orig) h)).
Proof.
  intros Hw. induction h as [|c h [IH1 IH2]] using rev_ind; [split; exact Hw|].
  rewrite run_app. simpl.
  destruct c as [t f|[]]; simpl; split; auto.
  - now apply wf_set.
  - apply (wf_update (dill_t (run orig (init orig) h))); auto.
  - generalize (stock_t (run orig (init orig) h)) at 1 as its.
    intros its. revert IH2. generalize (stock_t (run orig (init orig) h)).
    induction its as [|p its IHi]; simpl; auto. intros d Hd. apply IHi.
    unfold revert_one. destruct (String.eqb _ _); auto.
    destruct (get (fst p) orig); [apply wf_set|]; now apply wf_del.
Qed.

Lemma revert_fold orig its : forall d t,
  get t (fold_left (revert_one orig) its d) =
  if existsb (fun p => Nat.eqb t (fst p) && String.eqb (fn_module (snd p)) dill_module) its
  then get t orig else get t d.
Proof.
  induction its as [|[k f] its IH]; simpl; auto. intros d t. rewrite IH.
  match goal with |- context [existsb ?F its] => destruct (existsb F its) end;
    [now rewrite orb_true_r|]. rewrite orb_false_r.
  unfold revert_one; simpl. destruct (String.eqb (fn_module f) dill_module) eqn:Em.
  - rewrite andb_true_r. destruct (Nat.eqb_spec t k) as [->|Hn].
    + destruct (get k orig) eqn:E; [now rewrite get_set_same | now rewrite get_del_same].
    + destruct (get k orig) eqn:E; [rewrite get_set_other by auto|]; now rewrite get_del_other.
  - now rewrite andb_false_r.
Qed.

Definition settle (orig : dict ty fn) (t : ty) (o : option fn) : option fn :=
  match o with
  | Some f => if String.eqb (fn_module f) dill_module then get t orig else Some f
  | None => get t orig
  end.

Lemma existsb_get (d : dict ty fn) t : wf d ->
  existsb (fun p => Nat.eqb t (fst p) && String.eqb (fn_module (snd p)) dill_module) d =
  match get t d with Some f => String.eqb (fn_module f) dill_module | None => false end.
Proof.
  unfold wf. induction d as [|[k f] d IH]; simpl; auto. intros Hnd. inversion Hnd; subst.
  change (PeanoNat.Nat.eqb t k) with (Nat.eqb t k).
  destruct (Nat.eqb_spec t k) as [->|Hn]; simpl.
  - rewrite IH by auto. destruct (get k d) eqn:E.
    + apply get_Some_keys in E. contradiction.
    + apply orb_false_r.
  - auto.
Qed.

(** after extend(False), the stock entry is the settled version of the entry before *)
Lemma revert_get orig s t : wf (stock_t s) ->
  get t (stock_t (_revert_extension orig s)) =
  match get t (stock_t s) with
  | Some f => if String.eqb (fn_module f) dill_module then get t orig else Some f
  | None => None
  end.
Proof.
  intros Hw. unfold _revert_extension; simpl. rewrite revert_fold, existsb_get by auto.
  destruct (get t (stock_t s)) as [f|]; auto.
Qed.

(** what a stock entry looks like at any time: pushed or original, raw or settled *)
Lemma last_pushed_snoc_aux orig t c : forall h before,
  last_pushed_aux orig before (h ++ [c]) t =
  match c with
  | Extend true => match newest_registration orig (before ++ h) t with
                   | Some f => Some f | None => last_pushed_aux orig before h t end
  | _ => last_pushed_aux orig before h t
  end.
Proof.
  induction h as [|a h IH]; intros before; simpl.
  - rewrite app_nil_r. destruct c as [? ?|[]]; auto. destruct (newest_registration _ _ _); auto.
  - rewrite IH. rewrite <- app_assoc. simpl.
    destruct c as [? ?|[]]; auto. destruct (newest_registration _ _ _); auto.
Qed.

Lemma stock_lookup orig h t : wf orig ->
  let o := get t (stock_t (run orig (init orig) h)) in
  (o = match last_pushed orig h t with Some f => Some f | None => get t orig end
   \/ o = settle orig t (last_pushed orig h t)).
Proof.
  intros Hw. cbv zeta. induction h as [|c h IH] using rev_ind; [left; reflexivity|].
  rewrite run_app. unfold last_pushed in *. rewrite last_pushed_snoc_aux.
  rewrite app_nil_l. pose proof (wf_run orig h Hw) as [Hwd Hws].
  destruct c as [t' f|[]]; simpl; auto.
  - left. pose proof (get_update (dill_t (run orig (init orig) h)) Hwd
                      (stock_t (run orig (init orig) h)) t) as Hgu.
    unfold update in Hgu. rewrite Hgu. clear Hgu.
    rewrite dill_lookup. destruct (newest_registration orig h t) as [f|] eqn:E; auto.
    unfold newest_registration in E. destruct (registered h t) eqn:E2; [discriminate|].
    destruct IH as [IH|IH]; rewrite IH; auto.
    destruct (last_pushed_aux orig [] h t) as [f|] eqn:E3; auto.
    exfalso. clear IH. revert E3 E2 E. clear.
    intros E3 E2 E.
    assert (G : forall h before, last_pushed_aux orig before h t = Some f ->
              registered (before ++ h) t = None -> get t orig = None -> False).
    { clear. induction h as [|c h IH]; intros before; simpl; [discriminate|].
      destruct (last_pushed_aux orig (before ++ [c]) h t) as [g|] eqn:E.
      - intros H1 H2 H3. inversion H1; subst g. eapply IH; eauto.
        now rewrite <- app_assoc.
      - destruct c as [? ?|[]]; try discriminate. intros H1 H2 H3.
        unfold newest_registration in H1. rewrite registered_app in H2.
        destruct (registered (Extend true :: h) t); [discriminate|].
        rewrite H2 in H1. congruence. }
    eapply (G h []); eauto.
  - right. change (fold_left (revert_one orig) (stock_t (run orig (init orig) h)) (stock_t (run orig (init orig) h)))
      with (stock_t (_revert_extension orig (run orig (init orig) h))).
    rewrite revert_get by auto.
    unfold settle in *. destruct IH as [IH|IH]; rewrite IH;
      destruct (last_pushed_aux orig [] h t) as [f|] eqn:E; auto;
      try (destruct (get t orig) as [g|]; auto; destruct (String.eqb (fn_module g) dill_module); auto; fail).
    destruct (String.eqb (fn_module f) dill_module) eqn:E2; [|now rewrite E2].
    destruct (get t orig) as [g|]; auto; destruct (String.eqb (fn_module g) dill_module); auto.
Qed.

Lemma revert_exact :
  forall (orig : dict ty fn) (h : list call) (t : ty),
    wf orig ->
    get t (stock_t (run orig (init orig) (h ++ [Extend false]))) =
    match last_pushed orig h t with
    | Some f => if String.eqb (fn_module f) dill_module then get t orig else Some f
    | None => get t orig
    end.
Proof.
  intros orig h t Hw. rewrite run_app. simpl.
  change (fold_left (revert_one orig) (stock_t (run orig (init orig) h)) (stock_t (run orig (init orig) h)))
      with (stock_t (_revert_extension orig (run orig (init orig) h))).
  pose proof (wf_run orig h Hw) as [Hwd Hws].
  rewrite revert_get by auto.
  pose proof (stock_lookup orig h t Hw) as IH. cbv zeta in IH. unfold settle in IH.
  destruct IH as [IH|IH]; rewrite IH; destruct (last_pushed orig h t) as [f|] eqn:E; auto;
      try (destruct (get t orig) as [g|]; auto; destruct (String.eqb (fn_module g) dill_module); auto; fail).
  destruct (String.eqb (fn_module f) dill_module) eqn:E2; [|now rewrite E2].
  destruct (get t orig) as [g|]; auto; destruct (String.eqb (fn_module g) dill_module); auto.
Qed.

Lemma registered_In h t f : registered h t = Some f -> In (Register t f) h.
Proof.
  induction h as [|c h IH]; simpl; [discriminate|].
  destruct (registered h t) as [g|]; [intros E; right; apply IH; congruence|].
  destruct c as [t' f'|b]; [|discriminate].
  destruct (Nat.eqb_spec t t') as [->|]; [|discriminate]. intros E; inversion E; auto.
Qed.

Lemma revert_partial :
  forall (orig : dict ty fn) (h : list call) (t : ty),
    wf orig ->
    (forall t' f, In (Register t' f) h -> fn_module f = dill_module) ->
    get t (stock_t (run orig (init orig) (h ++ [Extend false]))) = get t orig.
Proof.
  intros orig h t Hw Hd. rewrite revert_exact by auto.
  destruct (last_pushed orig h t) as [f|] eqn:E; auto.
  assert (G : forall h' before, last_pushed_aux orig before h' t = Some f ->
     (forall t' f, In (Register t' f) (before ++ h') -> fn_module f = dill_module) ->
     fn_module f = dill_module \/ get t orig = Some f).
  { clear. induction h' as [|c h' IH]; intros before; simpl; [discriminate|].
    destruct (last_pushed_aux orig (before ++ [c]) h' t) as [g|] eqn:E.
    - intros H1 H2. inversion H1; subst g. eapply IH; eauto. rewrite <- app_assoc. auto.
    - destruct c as [? ?|[]]; try discriminate. intros H1 H2.
      unfold newest_registration in H1. destruct (registered before t) as [g|] eqn:E2; auto.
      inversion H1; subst. apply registered_In in E2. left. eapply H2. apply in_or_app. eauto. }
  destruct (G h [] E Hd) as [G1|G1].
  - rewrite G1. now rewrite String.eqb_refl.
  - destruct (String.eqb _ _); auto.
Qed.

Lemma revert_refuted :
  exists (orig : dict ty fn) (h : list call) (t : ty),
    wf orig /\
    get t (stock_t (run orig (init orig) (h ++ [Extend false]))) <> get t orig.
Proof.
  exists [(1, Fn 1 "pickle"%string)], [Register 1 (Fn 10 "user"%string); Extend true], 1.
  split; [repeat constructor; simpl; tauto | simpl; discriminate].
Qed.
