(** C98: what load_types leaves in dill.objects and dill.types. *)
From Coq Require Import String Ascii List Bool Arith.
From Verif Require Import PyDict FindModel LoadtypesModel.
Import ListNotations.
Local Open Scope string_scope.

Section Props.
  Context {O T : Type}.
  Variable type_of : O -> T.
  Notation cell := (cell T).
  Notation state := (state O T).
  Notation tables := (tables O).

  (** ** the specification: which object of the tables a call asks for under a name *)
  Definition selected (W : tables) (p u : bool) (k : string) : option O :=
    match get k (registered W), get k (failures W), get k (succeeds W) with
    | Some o, _, _ => Some o
    | None, Some o, _ => if u then Some o else None
    | None, None, Some o => if p then Some o else None
    | None, None, None => None
    end.
  Definition listed (W : tables) (k : string) : Prop := has k (registered W) = true \/ has k (failures W) = true \/ has k (succeeds W) = true.
  (** names the loop of dill/objtypes.py can bind without harm *)
  Definition safe_name (k : string) : Prop := k <> "type" /\ k <> "objects" /\ k <> "_type".
  Definition wf_tables (W : tables) : Prop := wf (succeeds W) /\ wf (failures W) /\ wf (registered W) /\ forall k, listed W k -> safe_name k.
  (** dill.objects is a dictionary with safe names, the module of types does not define a name type *)
  Definition wf_state (s : state) : Prop := wf (objects s) /\ (forall k, In k (keys (objects s)) -> safe_name k) /\ get "type" (types s) = None.


  Lemma get_dels {V} (l : list string) k : forall d : dict string V, get k (fold_left (fun o k => del k o) l d) = if memb k l then None else get k d.
  Proof.
    induction l as [|x l IH]; intros d; cbn [fold_left memb]; [reflexivity|]. rewrite IH, get_del. destruct (eqb k x); destruct (memb k l); reflexivity.
  Qed.
  Lemma wf_dels {V} (l : list string) : forall d : dict string V, wf d -> wf (fold_left (fun o k => del k o) l d).
  Proof. induction l as [|x l IH]; intros d H; cbn [fold_left]; auto. apply IH, wf_del, H. Qed.
  Lemma memb_has {V} k (d : dict string V) : memb k (keys d) = has k d.
  Proof.
    destruct (has k d) eqn:E; [apply memb_In, has_keys, E|]. apply memb_nIn. intros X. apply has_keys in X. congruence.
  Qed.
  (** C98: dill.objects after the call *)
  Theorem C98_objects W p u (o : dict string O) k : wf_tables W ->
    get k (select W p u o) = match selected W p u k with Some x => Some x | None => if has k (registered W) || has k (failures W) || has k (succeeds W) then None else get k o end.
  Proof.
    intros (Ws & Wf & Wr & _). unfold select, selected. rewrite get_update by exact Wr. unfold has. destruct (get k (registered W)) as [r|] eqn:Er; [reflexivity|]. cbn [orb].
    assert (A : forall d, get k (if u then update d (failures W) else pop_all (failures W) d) =
      match get k (failures W) with Some x => if u then Some x else None | None => get k d end).
    { intros d. destruct u; [rewrite get_update by exact Wf; reflexivity|]. unfold pop_all. rewrite get_dels, memb_has. unfold has. destruct (get k (failures W)); reflexivity. }
    rewrite A. destruct (get k (failures W)) as [f|]; [destruct u; reflexivity|]. cbn [orb].
    destruct p; [rewrite get_update by exact Ws; destruct (get k (succeeds W)); reflexivity|].
    unfold pop_all. rewrite get_dels, memb_has. unfold has. destruct (get k (succeeds W)); reflexivity.
  Qed.
  Lemma wf_select (W : tables) p u (o : dict string O) : wf o -> wf (select W p u o).
  Proof.
    intros H. unfold select. apply wf_update. destruct u; [apply wf_update|apply wf_dels]; (destruct p; [apply wf_update|apply wf_dels]; exact H).
  Qed.
  Lemma safe_select (W : tables) p u (o : dict string O) : wf_tables W -> (forall k, In k (keys o) -> safe_name k) -> forall k, In k (keys (select W p u o)) -> safe_name k.
  Proof.
    intros HW Ho k Hk. apply has_keys in Hk. unfold has in Hk. rewrite (C98_objects W p u o k HW) in Hk. destruct HW as (_ & _ & _ & HW).
    destruct (has k (registered W)) eqn:E1; [apply HW; left; exact E1|]. destruct (has k (failures W)) eqn:E2; [apply HW; right; left; exact E2|].
    destruct (has k (succeeds W)) eqn:E3; [apply HW; right; right; exact E3|]. cbn [orb] in Hk. unfold selected, has in *.
    destruct (get k (registered W)); [discriminate|]. destruct (get k (failures W)); [discriminate|]. destruct (get k (succeeds W)); [discriminate|].
    destruct (get k o) eqn:E; [|discriminate]. apply Ho. eapply get_Some_keys; eauto.
  Qed.
  Lemma bind_types_ok (o : dict string O) ks : (forall k, In k ks -> safe_name k /\ has k o = true) ->
    forall t : dict string cell, get "type" t = None -> get "objects" t = Some CObjects ->
    exists t', bind_types type_of o ks t = Some t' /\ forall k, k <> "_type" ->
      get k t' = if memb k ks then option_map (fun x => CType (type_of x)) (get k o) else get k t.
  Proof.
    induction ks as [|x ks IH]; intros Hk t T0 T1; cbn [bind_types].
    - exists t. split; [reflexivity|]. intros k _. reflexivity.
    - destruct (Hk x (or_introl eq_refl)) as [(S1 & S2 & S3) Hx]. unfold bind_type. apply has_get in Hx as (v & Hv).
      rewrite get_set_other by discriminate. rewrite T0. rewrite get_set_other by discriminate. rewrite T1, Hv.
      destruct (IH (fun k Hin => Hk k (or_intror Hin)) (set x (CType (type_of v)) (set "_type" (CName x) t))) as (t' & E & G).
      + rewrite get_set_other by congruence. rewrite get_set_other by discriminate. exact T0.
      + rewrite get_set_other by congruence. rewrite get_set_other by discriminate. exact T1.
      + exists t'. split; [exact E|]. intros k Nk. rewrite (G k Nk). cbn [memb]. destruct (eqb k x) eqn:Q.
        * apply eqb_true in Q. subst. rewrite get_set_same, Hv. cbn [option_map]. destruct (memb x ks); reflexivity.
        * destruct (memb k ks); [reflexivity|]. rewrite get_set_other by (apply eqb_false; exact Q). rewrite get_set_other by exact Nk. reflexivity.
  Qed.
  (** C98: a call succeeds, and afterwards every object of dill.objects has its type in dill.types under its name; of the other names, those that
      contain Type (and the two the loop uses) are gone, and the rest is what it was *)
  Theorem C98_types W p u (s : state) : wf_tables W -> wf_state s ->
    exists s', load_types type_of W p u s = Some s' /\ wf_state s' /\ objects s' = select W p u (objects s) /\
      forall k, get k (types s') = match get k (objects s') with
        | Some o => Some (CType (type_of o))
        | None => if contains "Type" k || String.eqb k "objects" || String.eqb k "_type" then None else get k (types s)
        end.
  Proof.
    intros HW (H1 & H2 & H3). unfold load_types. set (o := select W p u (objects s)).
    assert (So : forall k, In k (keys o) -> safe_name k) by (apply safe_select; auto).
    assert (Et : forall k, get k (empty_types (types s)) = if contains "Type" k then None else get k (types s)).
    { intros k. unfold empty_types. rewrite get_dels. destruct (memb k (filter (contains "Type") (keys (types s)))) eqn:E.
      - apply memb_In, filter_In in E as [_ ->]. reflexivity.
      - destruct (contains "Type" k) eqn:C; [|reflexivity]. apply get_None_iff. intros X. apply memb_nIn in E. apply E, filter_In. auto. }
    unfold reload. destruct (bind_types_ok o (keys o)) with (t := set "objects" CObjects (empty_types (types s))) as (t' & E & G).
    - intros k Hk. split; [apply So, Hk|apply has_keys, Hk].
    - rewrite get_set_other by discriminate. rewrite Et. rewrite H3. destruct (contains "Type" "type"); reflexivity.
    - apply get_set_same.
    - rewrite E. cbn [option_map]. eexists. split; [reflexivity|]. cbn [objects types].
      assert (Gt : forall k, get k (del "_type" (del "objects" t')) = match get k o with
        | Some x => Some (CType (type_of x))
        | None => if contains "Type" k || String.eqb k "objects" || String.eqb k "_type" then None else get k (types s)
        end).
      { intros k. rewrite !get_del. change (@eqb string _) with String.eqb.
        destruct (String.eqb k "_type") eqn:Q1.
        { apply String.eqb_eq in Q1. subst k. destruct (get "_type" o) eqn:Go; [|rewrite orb_true_r; reflexivity]. apply get_Some_keys in Go. apply So in Go as (_ & _ & C). congruence. }
        destruct (String.eqb k "objects") eqn:Q2.
        { apply String.eqb_eq in Q2. subst k. destruct (get "objects" o) eqn:Go; [|rewrite orb_true_r; reflexivity]. apply get_Some_keys in Go. apply So in Go as (_ & C & _). congruence. }
        apply String.eqb_neq in Q1, Q2. rewrite (G k Q1). rewrite memb_has. unfold has. destruct (get k o) as [x|] eqn:Go; [reflexivity|].
        rewrite get_set_other by exact Q2. rewrite Et, !orb_false_r. reflexivity. }
      split; [|split; [reflexivity|exact Gt]].
      split; [apply wf_select, H1|]. split; [exact So|]. cbn [types]. rewrite Gt. destruct (get "type" o) eqn:Go.
      + apply get_Some_keys in Go. apply So in Go as (C & _). congruence.
      + destruct (contains "Type" "type" || String.eqb "type" "objects" || String.eqb "type" "_type"); [reflexivity|exact H3].
  Qed.
  Lemma calls_wf W l : forall (s : state), wf_tables W -> wf_state s -> exists s', calls type_of W l s = Some s' /\ wf_state s'.
  Proof.
    induction l as [|[p u] l IH]; intros s HW Hs; cbn [calls]; [eauto|].
    destruct (C98_types W p u s HW Hs) as (s1 & -> & H1 & _). apply IH; auto.
  Qed.
  Lemma calls_app W l l' : forall (s : state), calls type_of W (l ++ l') s = match calls type_of W l s with Some s => calls type_of W l' s | None => None end.
  Proof. induction l as [|[p u] l IH]; intros s; cbn [calls app]; [reflexivity|]. destruct (load_types type_of W p u s); auto. Qed.
  Lemma calls_objects W l : forall (s s' : state), wf_tables W -> wf_state s -> calls type_of W l s = Some s' -> forall k, ~ listed W k -> get k (objects s') = get k (objects s).
  Proof.
    induction l as [|[p u] l IH]; intros s s' HW Hs E k Nk; cbn [calls] in E; [injection E as <-; reflexivity|].
    destruct (C98_types W p u s HW Hs) as (s1 & E1 & H1 & O1 & _). rewrite E1 in E. rewrite (IH s1 s' HW H1 E k Nk), O1, (C98_objects W p u _ k HW).
    unfold listed in Nk. destruct (has k (registered W)) eqn:A1; [tauto|]. destruct (has k (failures W)) eqn:A2; [tauto|]. destruct (has k (succeeds W)) eqn:A3; [tauto|].
    cbn [orb]. unfold selected, has in *. destruct (get k (registered W)); [discriminate|]. destruct (get k (failures W)); [discriminate|]. destruct (get k (succeeds W)); [discriminate|]. reflexivity.
  Qed.
  (** C98: whatever was loaded before, the names of the tables that contain Type are in dill.types exactly if the last call asked for their
      object (or it is a registered one), and name its type *)
  Theorem C98_last_call_partial W l p u (s : state) : wf_tables W -> wf_state s ->
    exists s', calls type_of W (l ++ [(p, u)]) s = Some s' /\
      forall k, listed W k -> get k (objects s') = selected W p u k /\
        (contains "Type" k = true -> get k (types s') = option_map (fun o => CType (type_of o)) (selected W p u k)).
  Proof.
    intros HW Hs. destruct (calls_wf W l s HW Hs) as (s1 & E1 & H1). rewrite calls_app, E1. cbn [calls].
    destruct (C98_types W p u s1 HW H1) as (s2 & E2 & _ & O2 & T2). rewrite E2. exists s2. split; [reflexivity|]. intros k Lk.
    assert (Go : get k (objects s2) = selected W p u k).
    { rewrite O2, (C98_objects W p u _ k HW). destruct (selected W p u k); [reflexivity|]. destruct Lk as [-> |[-> | ->]]; rewrite ?orb_true_r; reflexivity. }
    split; [exact Go|]. intros C. rewrite T2, Go. destruct (selected W p u k); [reflexivity|]. rewrite C. reflexivity.
  Qed.
  (** calling it again with the same arguments changes nothing *)
  Theorem C98_twice W p u (s s1 s2 : state) : wf_tables W -> wf_state s -> load_types type_of W p u s = Some s1 -> load_types type_of W p u s1 = Some s2 ->
    forall k, get k (objects s2) = get k (objects s1) /\ get k (types s2) = get k (types s1).
  Proof.
    intros HW Hs E1 E2 k. destruct (C98_types W p u s HW Hs) as (x1 & X1 & H1 & O1 & T1). rewrite E1 in X1. injection X1 as <-.
    destruct (C98_types W p u s1 HW H1) as (x2 & X2 & H2 & O2 & T2). rewrite E2 in X2. injection X2 as <-.
    assert (G : forall k, get k (objects s2) = get k (objects s1)).
    { intros j. rewrite O2, O1. rewrite !(C98_objects W p u _ j HW). destruct (selected W p u j); [reflexivity|]. destruct (has j (registered W) || has j (failures W) || has j (succeeds W)); reflexivity. }
    split; [apply G|]. rewrite T2, G. rewrite !T1. destruct (get k (objects s1)); [reflexivity|]. destruct (contains "Type" k || String.eqb k "objects" || String.eqb k "_type"); reflexivity.
  Qed.
End Props.

(** ** the tables of dill/_objects.py, a few rows: an int, a lock (registered), a StreamReader and a generator (failures); types are numbers *)
Definition ex_tables : tables nat := Tables [("IntType", 1); ("LockType", 2)] [("StreamReader", 3); ("GeneratorType", 4)] [("LockType", 2)].
Definition ex_start : state nat nat := State [] [("__name__", COther 0)].
Lemma ex_tables_wf : wf_tables ex_tables /\ wf_state ex_start.
Proof.
  split.
  - unfold wf_tables, wf, ex_tables. cbn [succeeds failures registered keys map fst].
    split; [repeat constructor; cbn; intuition discriminate|]. split; [repeat constructor; cbn; intuition discriminate|]. split; [repeat constructor; cbn; intuition discriminate|].
    intros k Lk. unfold safe_name.
    assert (In k ["LockType"; "StreamReader"; "GeneratorType"; "IntType"]) as X.
    { destruct Lk as [L|[L|L]]; apply has_keys in L; cbn in L |- *; tauto. }
    repeat destruct X as [X|X]; try (subst k; repeat split; discriminate). destruct X.
  - repeat split; try constructor; cbn; tauto.
Qed.
(** C98 refuted: StreamReader does not contain Type; it stays in dill.types after a call that does not ask for it, and is no longer in dill.objects *)
Theorem C98_streamreader_refuted : exists W (s s' : state nat nat), wf_tables W /\ wf_state s /\
  calls (fun n => n) W [(true, true); (true, false)] s = Some s' /\
  selected W true false "StreamReader" = None /\ get "StreamReader" (objects s') = None /\ get "StreamReader" (types s') = Some (CType 3).
Proof.
  exists ex_tables, ex_start. eexists. split; [apply ex_tables_wf|]. split; [apply ex_tables_wf|]. split; [vm_compute; reflexivity|]. repeat split; vm_compute; reflexivity.
Qed.
(** C98 refuted: with pickleable=False (or both False) the registered types, which can be pickled, are loaded all the same *)
Theorem C98_registered_refuted : exists W (s s' : state nat nat), wf_tables W /\ wf_state s /\
  load_types (fun n => n) W false false s = Some s' /\ get "LockType" (succeeds W) = Some 2 /\ get "LockType" (types s') = Some (CType 2).
Proof.
  exists ex_tables, ex_start. eexists. split; [apply ex_tables_wf|]. split; [apply ex_tables_wf|]. split; [vm_compute; reflexivity|]. split; vm_compute; reflexivity.
Qed.
Example C98_ex : option_map (fun s => (objects s, types s)) (calls (fun n => n) ex_tables [(true, true); (false, true); (true, false)] ex_start) =
  Some ([("LockType", 2); ("IntType", 1)], [("__name__", COther 0); ("StreamReader", CType 3); ("LockType", CType 2); ("IntType", CType 1)]).
Proof. vm_compute. reflexivity. Qed.
