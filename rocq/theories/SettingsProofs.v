From Coq Require Import String List Bool ZArith Lia.
From Verif Require Import PyDict SettingsModel SettingsSpec.
Import ListNotations.
Local Open Scope string_scope.

Lemma if_none_chosen s k v : get k s <> None ->
  exists x, chosen v s k = Some x /\ if_none s k v = Ok x.
Proof.
  unfold if_none, chosen, item. intros Hk. destruct v; eauto.
  destruct (get k s); [eauto | congruence].
Qed.

Lemma stock_protocol_spec v :
  stock_protocol v = match protocol_number v with Some z => Ok z | None => Err ValueErr end.
Proof.
  destruct v as [|z|[]]; simpl; auto.
  destruct (z <? 0)%Z eqn:E; auto. destruct (5 <? z)%Z eqn:E2; destruct (z <=? 5)%Z eqn:E3; auto; lia.
Qed.

Lemma complete_in s k : complete s -> In k ["protocol"; "byref"; "fmode"; "recurse"; "ignore"] ->
  exists v, get k s = Some v.
Proof. intros Hc Hi. specialize (Hc k Hi). destruct (get k s); [eauto|congruence]. Qed.

Lemma pickler_init_spec s p b f r : complete s ->
  exists b' f' r', chosen b s "byref" = Some b' /\ chosen f s "fmode" = Some f' /\
    chosen r s "recurse" = Some r' /\
    pickler_init s p b f r =
      match protocol_number p with
      | Some z => Ok {| p_proto := z; p_byref := b'; p_fmode := f'; p_recurse := r' |}
      | None => Err ValueErr
      end.
Proof.
  intros Hc.
  destruct (if_none_chosen s "byref" b (Hc "byref" ltac:(simpl; tauto))) as (b' & Hb & Eb).
  destruct (if_none_chosen s "fmode" f (Hc "fmode" ltac:(simpl; tauto))) as (f' & Hf & Ef).
  destruct (if_none_chosen s "recurse" r (Hc "recurse" ltac:(simpl; tauto))) as (r' & Hr & Er).
  exists b', f', r'. repeat split; auto. unfold pickler_init. rewrite stock_protocol_spec.
  destruct (protocol_number p); simpl; auto. rewrite Eb, Ef, Er. reflexivity.
Qed.

Lemma pn_norm s z p : (match p with PNone => item s "protocol" | _ => z <- to_int p; Ok (PInt z) end) = Ok z ->
  forall v, chosen p s "protocol" = Some v -> protocol_number z = protocol_number v.
Proof.
  unfold chosen, item. destruct p; simpl.
  - destruct (get "protocol" s); [|discriminate]. intros E v E2. congruence.
  - intros E v E2. inversion E; inversion E2; reflexivity.
  - intros E v E2. inversion E; inversion E2; destruct b; reflexivity.
Qed.

Lemma dump_spec s p b f r : complete s ->
  exists p' b' f' r', chosen p s "protocol" = Some p' /\
    chosen b s "byref" = Some b' /\ chosen f s "fmode" = Some f' /\ chosen r s "recurse" = Some r' /\
    dump s p b f r =
      match protocol_number p' with
      | Some z => Ok {| p_proto := z; p_byref := b'; p_fmode := f'; p_recurse := r' |}
      | None => Err ValueErr
      end.
Proof.
  intros Hc. destruct (complete_in s "protocol" Hc ltac:(simpl; tauto)) as [vp Hp].
  assert (exists p', chosen p s "protocol" = Some p') as [p' Hp'] by (unfold chosen; destruct p; eauto).
  unfold dump.
  destruct (match p with PNone => item s "protocol" | _ => z <- to_int p; Ok (PInt z) end) as [z|e] eqn:E.
  - pose proof (pn_norm s z p E p' Hp') as En.
    destruct (pickler_init_spec s z b f r Hc) as (b' & f' & r' & Hb & Hf & Hr & Ei).
    exists p', b', f', r'. repeat split; auto. cbn [bind]. rewrite Ei, En. reflexivity.
  - exfalso. unfold item in E. destruct p; simpl in E; try discriminate. rewrite Hp in E. discriminate.
Qed.

Lemma load_spec s ig : complete s -> exists i, chosen ig s "ignore" = Some i /\ load s ig = Ok i.
Proof. intros Hc. apply if_none_chosen. apply Hc. simpl; tauto. Qed.

Lemma copy_spec s0 s1 p b f r ig : complete s0 -> complete s1 ->
  exists i0, chosen match ig with Some v => v | None => PNone end s0 "ignore" = Some i0 /\
  copy s0 s1 p b f r ig =
    match dump s0 p b f r with
    | Err e => Err e
    | Ok pk => match chosen (match ig with Some v => v | None => i0 end) s1 "ignore" with
               | Some i => Ok (pk, i)
               | None => Err (KeyError "ignore")
               end
    end.
Proof.
  intros H0 H1. destruct (complete_in s0 "ignore" H0 ltac:(simpl; tauto)) as [v0 Hv0].
  destruct (complete_in s1 "ignore" H1 ltac:(simpl; tauto)) as [v1 Hv1].
  unfold copy, dumps, loads, unpickler_init, if_none, item, chosen.
  destruct ig as [v|]; simpl.
  - destruct v; simpl; rewrite ?Hv0; (eexists; split; [reflexivity|]);
      destruct (dump s0 p b f r); simpl; rewrite ?Hv1; auto.
  - rewrite Hv0. exists v0. split; auto. cbn [bind].
    destruct (dump s0 p b f r); simpl; auto. destruct v0; simpl; rewrite ?Hv1; auto.
Qed.

Lemma dump_module_spec s f r : complete s ->
  exists p' f', get "protocol" s = Some p' /\ chosen f s "fmode" = Some f' /\
    dump_module s f r =
      match protocol_number p' with
      | Some z => Ok {| p_proto := z; p_byref := PBool false; p_fmode := f'; p_recurse := PBool false |}
      | None => Err ValueErr
      end.
Proof.
  intros Hc. destruct (complete_in s "protocol" Hc ltac:(simpl; tauto)) as [vp Hp].
  destruct (pickler_init_spec s vp PNone f r Hc) as (b' & f' & r' & Hb & Hf & Hr & Ei).
  exists vp, f'. repeat split; auto. unfold dump_module, item. rewrite Hp. cbn [bind]. rewrite Ei.
  destruct (protocol_number vp); reflexivity.
Qed.

Lemma wrun_picklers es : forall w i c,
  nth_error (w_picklers (wrun w es)) i = Some c ->
  i < length (w_picklers w) /\ nth_error (w_picklers w) i = Some c \/
  length (w_picklers w) <= i /\
  exists s p b f r, creation es (w_settings w) (i - length (w_picklers w)) = Some (s, (p, b, f, r)) /\
                    c = pickler_init s p b f r.
Proof.
  induction es as [|e es IH]; intros w i c Hn.
  - left. split; auto. apply nth_error_Some. simpl in Hn. congruence.
  - simpl in Hn. destruct e as [k v|p b f r|j]; simpl.
    + apply IH in Hn. simpl in Hn. exact Hn.
    + apply IH in Hn. simpl in Hn. rewrite app_length in Hn. simpl in Hn.
      destruct Hn as [[Hl Hn]|[Hl Hn]].
      * destruct (Nat.eq_dec i (length (w_picklers w))) as [->|Hne].
        -- right. split; auto. rewrite nth_error_app2 in Hn by lia. rewrite Nat.sub_diag in Hn |- *. simpl in Hn.
           exists (w_settings w), p, b, f, r. split; congruence.
        -- left. split; [lia|]. rewrite nth_error_app1 in Hn by lia. exact Hn.
      * right. split; [lia|]. destruct (i - length (w_picklers w)) eqn:E; [lia|].
        replace (i - (length (w_picklers w) + 1)) with n in Hn by lia. exact Hn.
    + apply IH in Hn. simpl in Hn. exact Hn.
Qed.

Lemma wrun_app w a b : wrun w (a ++ b)%list = wrun (wrun w a) b.
Proof. apply fold_left_app. Qed.

(** a pickler, once built, is never changed by later events *)
Lemma wrun_stable es : forall w i c,
  nth_error (w_picklers w) i = Some c -> nth_error (w_picklers (wrun w es)) i = Some c.
Proof.
  induction es as [|e es IH]; intros w i c Hn; simpl; auto.
  apply IH. destruct e; simpl; auto.
  rewrite nth_error_app1; auto. apply nth_error_Some. congruence.
Qed.

Lemma used_spec es s0 : 
  let w := wrun {| w_settings := s0; w_picklers := []; w_used := [] |} es in
  forall before i after, es = (before ++ UsePickler i :: after)%list ->
  forall s p b f r, creation before s0 i = Some (s, (p, b, f, r)) ->
  nth_error (w_used w) (List.length (filter (fun e => match e with UsePickler _ => true | _ => false end) before))
    = Some (Some (pickler_init s p b f r)).
Proof.
  intros w before i after -> s p b f r Hc. unfold w.
  rewrite wrun_app. simpl.
  set (w1 := wrun {| w_settings := s0; w_picklers := []; w_used := [] |} before).
  assert (Hlen : length (w_used w1) = List.length (filter (fun e => match e with UsePickler _ => true | _ => false end) before)).
  { unfold w1. clear. rewrite <- (Nat.add_0_r (List.length (filter _ before))).
    change 0 with (length (@nil (option (res pickler)))).
    change (@nil (option (res pickler))) with (w_used {| w_settings := s0; w_picklers := []; w_used := [] |}) at 2.
    generalize {| w_settings := s0; w_picklers := []; w_used := [] |}.
    induction before as [|e es IH]; intros w; simpl; auto. rewrite IH.
    destruct e; simpl; rewrite ?app_length; simpl; lia. }
  assert (Hp : nth_error (w_picklers w1) i = Some (pickler_init s p b f r)).
  { destruct (nth_error (w_picklers w1) i) as [c|] eqn:E.
    - apply wrun_picklers in E. simpl in E. destruct E as [[E _]|[_ E]]; [lia|].
      rewrite Nat.sub_0_r in E. destruct E as (s' & p' & b' & f' & r' & E1 & E2). congruence.
    - exfalso. revert E. unfold w1.
      assert (G : forall es w i s p b f r,
        creation es (w_settings w) i = Some (s, (p, b, f, r)) ->
        length (w_picklers w) + i < length (w_picklers (wrun w es))).
      { clear. induction es as [|e es IH]; intros w i s p b f r; simpl; [discriminate|].
        destruct e as [k v|p0 b0 f0 r0|j]; simpl; intros Hc.
        - apply (IH (wstep w (SetSetting k v))) in Hc. simpl in Hc. exact Hc.
        - destruct i as [|i].
          + assert (M : forall es w, length (w_picklers w) <= length (w_picklers (wrun w es))).
            { clear. induction es as [|e es IH]; intros w; simpl; auto.
              etransitivity; [|apply IH]. destruct e; simpl; rewrite ?app_length; lia. }
            specialize (M es (wstep w (NewPickler p0 b0 f0 r0))).
            simpl in M. rewrite app_length in M. simpl in M. unfold wrun in M |- *. simpl. lia.
          + apply (IH (wstep w (NewPickler p0 b0 f0 r0))) in Hc. simpl in Hc. rewrite app_length in Hc.
            simpl in Hc. unfold wrun in Hc |- *. simpl. lia.
        - apply (IH (wstep w (UsePickler j))) in Hc. simpl in Hc. exact Hc. }
      apply (G before {| w_settings := s0; w_picklers := []; w_used := [] |}) in Hc. simpl in Hc. intros E. apply nth_error_None in E. lia. }
  assert (Hu : forall es w i x, nth_error (w_used w) i = Some x -> nth_error (w_used (wrun w es)) i = Some x).
  { clear. induction es as [|e es IH]; intros w i x Hn; simpl; auto. apply IH.
    destruct e; simpl; auto. rewrite nth_error_app1; auto. apply nth_error_Some. congruence. }
  apply (Hu after (wstep w1 (UsePickler i))). simpl. rewrite nth_error_app2 by lia.
  rewrite Hlen, Nat.sub_diag. simpl. congruence.
Qed.
