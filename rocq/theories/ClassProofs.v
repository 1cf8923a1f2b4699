(** Proofs about ClassModel. *)
From Coq Require Import String Ascii List Bool Arith Lia.
From Verif Require Import PyDict ClassModel.
Import ListNotations.
Local Open Scope string_scope.

(** a name is left out of the pickled dictionary because the same object is in a direct base's dictionary *)
Definition removed (hq : nat -> bool) (H : hier) (k : pyclass) (n : string) : Prop :=
  exists v bv, get n (c_dict k) = Some v /\ get n (inherited_dict H (c_bases k)) = Some bv /\
    cv_is v bv = true /\ has_qualname hq v = true.

Lemma to_remove_In hq inh d n : wf d ->
  In n (to_remove hq inh d) <-> exists v bv, get n d = Some v /\ get n inh = Some bv /\ cv_is v bv = true /\ has_qualname hq v = true.
Proof.
  intros Hw. unfold to_remove. rewrite in_map_iff. split.
  - intros [[n' v] [<- Hi]]. apply filter_In in Hi as [Hi Hf]. cbn [fst snd] in *.
    destruct (get n' inh) as [bv|]; [|discriminate]. apply andb_prop in Hf as [H1 H2].
    exists v, bv. repeat split; auto. apply In_get; auto.
  - intros [v [bv [H1 [H2 [H3 H4]]]]]. exists (n, v). split; auto. apply filter_In. split; [apply get_In; auto|].
    cbn [fst snd]. rewrite H2, H3, H4. reflexivity.
Qed.

Lemma get_fold_del {V} (l : list string) : forall (d : dict string V) n, get n (fold_left (fun d n => del n d) l d) = if memb n l then None else get n d.
Proof.
  induction l as [|m l IH]; intros d n; [reflexivity|]. cbn [fold_left memb]. rewrite IH.
  destruct (eqb_spec n m) as [->|Hn].
  - destruct (memb m l); [reflexivity|]. apply get_del_same.
  - destruct (memb n l); [reflexivity|]. apply get_del_other; auto.
Qed.

Lemma cv_is_eq a b : cv_is a b = true -> a = b.
Proof.
  destruct a, b; cbn [cv_is]; try discriminate; auto.
  - intros E. apply Nat.eqb_eq in E. congruence.
  - intros E. apply andb_prop in E as [E1 E2]. apply Nat.eqb_eq in E1. apply String.eqb_eq in E2. congruence.
  - intros E. apply andb_prop in E as [E1 E2]. apply Nat.eqb_eq in E1. apply String.eqb_eq in E2. congruence.
  - intros E. apply String.eqb_eq in E. congruence.
  - unfold list_string_eqb. destruct (list_eq_dec string_dec l l0); [congruence|discriminate].
Qed.

(** descriptors the interpreter made for class [c] *)
Definition own (c : nat) (v : cv) : Prop := match v with VMember o _ | VOwn o _ => o = c | _ => False end.
Definition slots_of (k : pyclass) : list string := slot_names (get "__slots__" (c_dict k)).

(** a class as type.__new__ makes it, its ordinary attributes possibly changed afterwards *)
Record class_ok (hq : nat -> bool) (H : hier) (c : nat) (k : pyclass) : Prop := {
  ok_wf : wf (c_dict k);
  ok_meta : forall n, n = "__doc__" \/ n = "__module__" -> exists v, get n (c_dict k) = Some v /\ has_qualname hq v = false;
  ok_slots : match get "__slots__" (c_dict k) with Some (VSlotStr _) | Some (VSlots _) | None => True | _ => False end;
  ok_slot_names : forall s, In s (slots_of k) -> ~ In s ["__doc__"; "__module__"; "__slots__"; "__hash__"; "__eq__"; "_abc_impl"];
  ok_members : forall s, In s (slots_of k) -> special_slot s = false -> get (mangle (c_name k) s) (c_dict k) = Some (VMember c (mangle (c_name k) s));
  ok_dict : get "__dict__" (c_dict k) =
    if negb (c_base_dict k) && (negb (has "__slots__" (c_dict k)) || memb "__dict__" (slots_of k)) then Some (VOwn c "__dict__") else None;
  ok_weak : get "__weakref__" (c_dict k) =
    if negb (c_base_weak k) && (negb (has "__slots__" (c_dict k)) || memb "__weakref__" (slots_of k)) then Some (VOwn c "__weakref__") else None;
  ok_special : (c_base_dict k = true -> ~ In "__dict__" (slots_of k)) /\ (c_base_weak k = true -> ~ In "__weakref__" (slots_of k));
  ok_abc : c_abc k = true -> get "_abc_impl" (c_dict k) = Some (VOwn c "_abc_impl");
  ok_owner : forall b n v, In b (c_bases k) -> In (n, v) (dict_of H b) -> ~ own c v;
}.
(** no slot name is changed by name mangling *)
Definition no_private_slots (k : pyclass) : Prop := forall s, In s (slots_of k) -> mangle (c_name k) s = s.

Lemma In_update {V} (d2 : dict string V) : forall d n v, In (n, v) (update d d2) -> In (n, v) d \/ In (n, v) d2.
Proof.
  unfold update. induction d2 as [|[m x] d2 IH]; intros d n v Hi; [auto|]. cbn [fold_left fst snd] in Hi.
  apply IH in Hi as [Hi|Hi]; [|simpl; auto]. apply In_set in Hi as [Hi|[-> ->]]; simpl; auto.
Qed.
Lemma inherited_In H bases n v : get n (inherited_dict H bases) = Some v -> exists b, In b bases /\ In (n, v) (dict_of H b).
Proof.
  assert (G : forall l acc, In (n, v) (fold_left (fun acc b => update acc (dict_of H b)) l acc) ->
              In (n, v) acc \/ exists b, In b l /\ In (n, v) (dict_of H b)).
  { induction l as [|b l IH]; intros acc Hi; [auto|]. cbn [fold_left] in Hi. apply IH in Hi as [Hi|[b' [Hb Hi]]].
    - apply In_update in Hi as [Hi|Hi]; auto. right. exists b. simpl; auto.
    - right. exists b'. simpl; auto. }
  intros Hg. apply get_In in Hg. unfold inherited_dict in Hg.
  assert (Hor : (exists b, bases = [b] /\ In (n, v) (dict_of H b)) \/
          In (n, v) (fold_left (fun acc b => update acc (dict_of H b)) (rev bases) [])).
  { destruct bases as [|b [|b' bs]]; auto. left. exists b. auto. }
  destruct Hor as [[b [-> Hi]]|Hi].
  - exists b. simpl; auto.
  - apply G in Hi as [[]|[b [Hb Hi]]]. exists b. split; auto. apply in_rev; auto.
Qed.

(** nothing the interpreter made for the class, and none of its administrative entries, is removed *)
Lemma removed_not_own hq H c k n : class_ok hq H c k -> removed hq H k n -> forall v, get n (c_dict k) = Some v -> ~ own c v.
Proof.
  intros Ok [v [bv [H1 [H2 [H3 H4]]]]] v' Hv'. rewrite H1 in Hv'. injection Hv' as <-.
  apply cv_is_eq in H3. subst bv. apply inherited_In in H2 as [b [Hb Hi]]. eapply ok_owner; eauto.
Qed.

Definition td (hq : nat -> bool) (H : hier) (k : pyclass) := to_remove hq (inherited_dict H (c_bases k)) (c_dict k).

Lemma get_saved hq H c k n : class_ok hq H c k ->
  get n (saved_dict hq H k) =
    if memb n (td hq H k) || special_slot n || memb n (slots_of k) || (c_abc k && String.eqb n "_abc_impl") then None else get n (c_dict k).
Proof.
  intros Ok. unfold saved_dict.
  assert (Hg : forall m, get m (get_typedict hq H k) = if memb m (td hq H k) || special_slot m then None else get m (c_dict k)).
  { intros m. unfold get_typedict. rewrite !get_del, get_fold_del. fold (td hq H k). unfold special_slot.
    change (eqb m "__dict__") with (String.eqb m "__dict__"). change (eqb m "__weakref__") with (String.eqb m "__weakref__").
    destruct (String.eqb m "__weakref__"); [now rewrite !orb_true_r|].
    destruct (String.eqb m "__dict__"); [now rewrite !orb_true_r|]. rewrite orb_false_r. reflexivity. }
  assert (Hs : get "__slots__" (get_typedict hq H k) = get "__slots__" (c_dict k)).
  { rewrite Hg. cbn [special_slot String.eqb Ascii.eqb Bool.eqb orb]. 
    destruct (memb_spec "__slots__" (td hq H k)) as [Hi|Hi]; [exfalso|reflexivity].
    apply to_remove_In in Hi; [|apply (ok_wf _ _ _ _ Ok)]. destruct Hi as [v [bv [H1 [_ [_ H4]]]]].
    pose proof (ok_slots _ _ _ _ Ok) as Hsl. rewrite H1 in Hsl. destruct v; try contradiction; discriminate. }
  rewrite Hs. assert (Hps : popped_slots (get "__slots__" (c_dict k)) = slots_of k) by (unfold slots_of; destruct (get "__slots__" (c_dict k)) as [[]|]; reflexivity).
  rewrite Hps.
  assert (Hf : get n (fold_left (fun d n => del n d) (slots_of k) (get_typedict hq H k)) =
     if memb n (td hq H k) || special_slot n || memb n (slots_of k) then None else get n (c_dict k)).
  { rewrite get_fold_del, Hg. destruct (memb n (slots_of k)); [now rewrite orb_true_r|]. now rewrite orb_false_r. }
  destruct (c_abc k).
  - rewrite get_del, Hf. change (eqb n "_abc_impl") with (String.eqb n "_abc_impl"). destruct (String.eqb n "_abc_impl"); cbn [andb].
    + now rewrite orb_true_r.
    + now rewrite orb_false_r.
  - cbn [andb]. rewrite orb_false_r. exact Hf.
Qed.

Lemma get_setdefault n m x d : get n (setdefault m x d) = if eqb n m then (match get n d with Some v => Some v | None => Some x end) else get n d.
Proof.
  unfold setdefault, has. destruct (eqb_spec n m) as [->|Hn].
  - destruct (get m d) eqn:E; [exact E|]. apply get_set_same.
  - destruct (get m d); auto. apply get_set_other; auto.
Qed.
Lemma get_members self l : forall d n,
  get n (fold_left (fun d m => setdefault m (VMember self m) d) l d) =
  match get n d with Some v => Some v | None => if memb n l then Some (VMember self n) else None end.
Proof.
  induction l as [|m l IH]; intros d n; cbn [fold_left memb].
  - destruct (get n d); reflexivity.
  - rewrite IH, get_setdefault. destruct (eqb_spec n m) as [->|Hn].
    + destruct (get m d); reflexivity.
    + destruct (get n d); reflexivity.
Qed.

Lemma has_get_b {V} n (d : dict string V) : has n d = match get n d with Some _ => true | None => false end.
Proof. reflexivity. Qed.

Definition members_of (k : pyclass) (d : dict string cv) : list string :=
  map (mangle (c_name k)) (filter (fun n => negb (special_slot n)) (slot_names (get "__slots__" d))).
Definition adds (slot : string) (base : bool) (d : dict string cv) : bool :=
  negb base && (negb (has "__slots__" d) || memb slot (slot_names (get "__slots__" d))).
Definition pre_hash (self modname : nat) (k : pyclass) (d : dict string cv) (n : string) : option cv :=
  match get n d with
  | Some v => Some v
  | None =>
    if eqb n "__module__" then Some (VObj modname)
    else if eqb n "__doc__" then Some VNone
    else if memb n (members_of k d) then Some (VMember self n)
    else if eqb n "__dict__" && adds "__dict__" (c_base_dict k) d then Some (VOwn self "__dict__")
    else if eqb n "__weakref__" && adds "__weakref__" (c_base_weak k) d then Some (VOwn self "__weakref__")
    else None
  end.

Lemma type_new_get self modname k d :
  (c_base_dict k = true -> ~ In "__dict__" (slot_names (get "__slots__" d))) ->
  (c_base_weak k = true -> ~ In "__weakref__" (slot_names (get "__slots__" d))) ->
  (forall n, In n (members_of k d) -> get n d = None) ->
  exists d', type_new self modname k d = Some d' /\
  forall n, get n d' =
    if c_abc k && eqb n "_abc_impl" then Some (VOwn self "_abc_impl")
    else if eqb n "__hash__" then
      match pre_hash self modname k d n with
      | Some v => Some v
      | None => match pre_hash self modname k d "__eq__" with Some _ => Some VNone | None => None end
      end
    else pre_hash self modname k d n.
Proof.
  intros Hd Hw Hm. unfold type_new. fold (members_of k d).
  fold (adds "__dict__" (c_base_dict k) d). fold (adds "__weakref__" (c_base_weak k) d).
  replace (c_base_dict k && memb "__dict__" (slot_names (get "__slots__" d))) with false.
  2:{ symmetry. destruct (c_base_dict k) eqn:E; auto. apply memb_nIn. auto. }
  replace (c_base_weak k && memb "__weakref__" (slot_names (get "__slots__" d))) with false.
  2:{ symmetry. destruct (c_base_weak k) eqn:E; auto. apply memb_nIn. auto. }
  replace (existsb (fun n => has n d) (members_of k d)) with false.
  2:{ symmetry. apply not_true_iff_false. intros E. apply existsb_exists in E as [n [Hi He]]. rewrite has_get_b, (Hm n Hi) in He. discriminate. }
  set (d1 := setdefault "__module__" (VObj modname) d).
  set (d2 := setdefault "__doc__" VNone d1).
  set (d3 := fold_left (fun d n => setdefault n (VMember self n) d) (members_of k d) d2).
  set (d4 := if adds "__dict__" (c_base_dict k) d then setdefault "__dict__" (VOwn self "__dict__") d3 else d3).
  set (d5 := if adds "__weakref__" (c_base_weak k) d then setdefault "__weakref__" (VOwn self "__weakref__") d4 else d4).
  assert (H5 : forall n, get n d5 = pre_hash self modname k d n).
  { intros n. unfold pre_hash.
    assert (H2 : get n d2 = match get n d with Some v => Some v | None => if eqb n "__module__" then Some (VObj modname) else if eqb n "__doc__" then Some VNone else None end).
    { unfold d2. rewrite get_setdefault. unfold d1. rewrite get_setdefault. destruct (eqb_spec n "__doc__") as [->|Hn].
      - destruct (get "__doc__" d); reflexivity.
      - destruct (eqb n "__module__"), (get n d); reflexivity. }
    assert (H3 : get n d3 = match get n d2 with Some v => Some v | None => if memb n (members_of k d) then Some (VMember self n) else None end) by apply get_members.
    assert (H4 : get n d4 = match get n d3 with Some v => Some v | None => if eqb n "__dict__" && adds "__dict__" (c_base_dict k) d then Some (VOwn self "__dict__") else None end).
    { unfold d4. destruct (adds "__dict__" (c_base_dict k) d).
      - rewrite get_setdefault. destruct (eqb n "__dict__"), (get n d3); reflexivity.
      - rewrite andb_false_r. destruct (get n d3); reflexivity. }
    assert (H5 : get n d5 = match get n d4 with Some v => Some v | None => if eqb n "__weakref__" && adds "__weakref__" (c_base_weak k) d then Some (VOwn self "__weakref__") else None end).
    { unfold d5. destruct (adds "__weakref__" (c_base_weak k) d).
      - rewrite get_setdefault. destruct (eqb n "__weakref__"), (get n d4); reflexivity.
      - rewrite andb_false_r. destruct (get n d4); reflexivity. }
    rewrite H5, H4, H3, H2. destruct (get n d); auto.
    destruct (eqb n "__module__"); auto. destruct (eqb n "__doc__"); auto. destruct (memb n (members_of k d)); auto.
    destruct (eqb n "__dict__" && adds "__dict__" (c_base_dict k) d); auto. }
  set (d6 := if has "__eq__" d5 && negb (has "__hash__" d5) then set "__hash__" VNone d5 else d5).
  assert (H6 : forall n, get n d6 = if eqb n "__hash__" then
      match pre_hash self modname k d n with
      | Some v => Some v
      | None => match pre_hash self modname k d "__eq__" with Some _ => Some VNone | None => None end
      end else pre_hash self modname k d n).
  { intros n. unfold d6. rewrite !has_get_b, !H5. destruct (eqb_spec n "__hash__") as [->|Hn].
    - destruct (pre_hash self modname k d "__eq__"), (pre_hash self modname k d "__hash__") eqn:E; cbn [andb negb]; rewrite ?H5, ?get_set_same; auto.
    - match goal with |- context [if ?b then _ else _] => destruct b end; [rewrite get_set_other by auto|]; apply H5. }
  eexists. split; [reflexivity|]. intros n. destruct (c_abc k); cbn [andb].
  - rewrite get_set. destruct (eqb n "_abc_impl"); auto.
  - apply H6.
Qed.

(** the dictionary of a rebuilt class *)
Lemma rebuild1_get hq modname H c k : class_ok hq H c k -> no_private_slots k ->
  exists d', type_new c modname k (saved_dict hq H k) = Some d' /\
  forall n, get n d' =
    if eqb n "__hash__" && (memb n (td hq H k) || negb (has n (c_dict k))) && has "__eq__" (c_dict k) && negb (memb "__eq__" (td hq H k)) then Some VNone
    else if memb n (td hq H k) then None else get n (c_dict k).
Proof.
  intros Ok Np.
  assert (Hw := ok_wf _ _ _ _ Ok).
  assert (Hrm : forall n, memb n (td hq H k) = true <-> removed hq H k n).
  { intros n. rewrite memb_In. apply to_remove_In; auto. }
  assert (Hnr : forall n v, get n (c_dict k) = Some v -> own c v \/ has_qualname hq v = false -> memb n (td hq H k) = false).
  { intros n v Hg Hv. apply not_true_iff_false. intros Hm. apply Hrm in Hm. pose proof (removed_not_own _ _ _ _ _ Ok Hm v Hg) as Hno.
    destruct Hv as [Hv|Hv]; [tauto|]. destruct Hm as [v' [bv [H1 [_ [_ H4]]]]]. congruence. }
  assert (Hsl : get "__slots__" (saved_dict hq H k) = get "__slots__" (c_dict k)).
  { rewrite (get_saved hq H c k) by auto. change (special_slot "__slots__") with false. change (String.eqb "__slots__" "_abc_impl") with false.
    rewrite andb_false_r, !orb_false_r.
    replace (memb "__slots__" (slots_of k)) with false.
    2:{ symmetry. apply memb_nIn. intros Hi. apply (ok_slot_names _ _ _ _ Ok) in Hi. apply Hi. simpl; auto. }
    destruct (get "__slots__" (c_dict k)) eqn:E.
    - rewrite (Hnr _ _ E). + reflexivity. + right. pose proof (ok_slots _ _ _ _ Ok) as Ho. rewrite E in Ho. destruct c0; try contradiction; reflexivity.
    - destruct (_ || _); reflexivity. }
  assert (Hmem : members_of k (saved_dict hq H k) = filter (fun n => negb (special_slot n)) (slots_of k)).
  { unfold members_of. rewrite Hsl. fold (slots_of k). rewrite <- (map_id (filter _ (slots_of k))) at 2. apply map_ext_in.
    intros s Hs. apply filter_In in Hs as [Hs _]. apply Np; auto. }
  assert (Hgs := fun n => get_saved hq H c k n Ok).
  destruct (type_new_get c modname k (saved_dict hq H k)) as [d' [Ht Hg]].
  { intros E. rewrite Hsl. apply (proj1 (ok_special _ _ _ _ Ok) E). }
  { intros E. rewrite Hsl. apply (proj2 (ok_special _ _ _ _ Ok) E). }
  { intros n Hi. rewrite Hmem in Hi. apply filter_In in Hi as [Hi _]. rewrite Hgs. apply memb_In in Hi. rewrite Hi.
    rewrite !orb_true_r. reflexivity. }
  exists d'. split; auto.
  assert (Hhas : has "__slots__" (saved_dict hq H k) = has "__slots__" (c_dict k)) by (rewrite !has_get_b, Hsl; reflexivity).
  assert (Hpre : forall n, (c_abc k = true -> n <> "_abc_impl") -> pre_hash c modname k (saved_dict hq H k) n = if memb n (td hq H k) then None else get n (c_dict k)).
  { intros n Hna. unfold pre_hash. rewrite Hgs, Hmem.
    replace (c_abc k && String.eqb n "_abc_impl") with false.
    2:{ symmetry. destruct (c_abc k); auto. cbn [andb]. apply String.eqb_neq. auto. }
    rewrite orb_false_r. unfold adds. rewrite Hhas, Hsl. fold (slots_of k).
    destruct (eqb_spec n "__module__") as [->|N1].
    { destruct (ok_meta _ _ _ _ Ok "__module__") as [v [Hv Hq]]; auto. rewrite (Hnr _ _ Hv) by auto. rewrite Hv.
      replace (memb "__module__" (slots_of k)) with false; [reflexivity|]. symmetry. apply memb_nIn. intros Hi.
      apply (ok_slot_names _ _ _ _ Ok) in Hi. apply Hi. simpl; auto. }
    destruct (eqb_spec n "__doc__") as [->|N2].
    { destruct (ok_meta _ _ _ _ Ok "__doc__") as [v [Hv Hq]]; auto. rewrite (Hnr _ _ Hv) by auto. rewrite Hv.
      replace (memb "__doc__" (slots_of k)) with false; [reflexivity|]. symmetry. apply memb_nIn. intros Hi.
      apply (ok_slot_names _ _ _ _ Ok) in Hi. apply Hi. simpl; auto. }
    destruct (eqb_spec n "__dict__") as [->|N3].
    { change (special_slot "__dict__") with true. rewrite orb_true_r. cbn [orb].
      replace (memb "__dict__" (filter (fun n => negb (special_slot n)) (slots_of k))) with false.
      2:{ symmetry. apply memb_nIn. intros Hi. apply filter_In in Hi as [_ Hi]. discriminate. }
      cbn [andb]. change (eqb "__dict__" "__weakref__") with false. cbn [andb].
      pose proof (ok_dict _ _ _ _ Ok) as Hd. destruct (_ && _) in Hd |- *.
      - rewrite (Hnr _ _ Hd) by (left; reflexivity). auto.
      - destruct (memb "__dict__" (td hq H k)); auto. }
    destruct (eqb_spec n "__weakref__") as [->|N4].
    { change (special_slot "__weakref__") with true. rewrite orb_true_r. cbn [orb].
      replace (memb "__weakref__" (filter (fun n => negb (special_slot n)) (slots_of k))) with false.
      2:{ symmetry. apply memb_nIn. intros Hi. apply filter_In in Hi as [_ Hi]. discriminate. }
      cbn [andb].
      pose proof (ok_weak _ _ _ _ Ok) as Hd. destruct (_ && _) in Hd |- *.
      - rewrite (Hnr _ _ Hd) by (left; reflexivity). auto.
      - destruct (memb "__weakref__" (td hq H k)); auto. }
    assert (Hsp : special_slot n = false).
    { unfold special_slot. apply orb_false_iff. split; apply String.eqb_neq; auto. }
    rewrite Hsp, orb_false_r. cbn [andb].
    destruct (memb_spec n (slots_of k)) as [Hi|Hi].
    - rewrite orb_true_r. pose proof (ok_members _ _ _ _ Ok n Hi Hsp) as Hv. rewrite (Np n Hi) in Hv.
      rewrite (Hnr _ _ Hv) by (left; reflexivity). rewrite Hv.
      assert (Hin : memb n (filter (fun n => negb (special_slot n)) (slots_of k)) = true).
      { apply memb_In. apply filter_In. rewrite Hsp. auto. }
      rewrite Hin. reflexivity.
    - rewrite orb_false_r. destruct (memb n (td hq H k)) eqn:Et.
      + replace (memb n (filter (fun n => negb (special_slot n)) (slots_of k))) with false; [reflexivity|].
        symmetry. apply memb_nIn. intros Hf. apply filter_In in Hf. tauto.
      + destruct (get n (c_dict k)); auto.
        replace (memb n (filter (fun n => negb (special_slot n)) (slots_of k))) with false; [reflexivity|].
        symmetry. apply memb_nIn. intros Hf. apply filter_In in Hf. tauto. }
  intros n. rewrite Hg.
  destruct (c_abc k && eqb n "_abc_impl") eqn:Eabc.
  { apply andb_prop in Eabc as [E1 E2]. destruct (eqb_spec n "_abc_impl") as [->|]; [|discriminate].
    change (eqb "_abc_impl" "__hash__") with false. cbn [andb]. pose proof (ok_abc _ _ _ _ Ok E1) as Hv.
    rewrite (Hnr _ _ Hv) by (left; reflexivity). symmetry. exact Hv. }
  assert (Hna : c_abc k = true -> n <> "_abc_impl").
  { intros E ->. rewrite E, eqb_refl in Eabc. discriminate. }
  rewrite (Hpre n Hna). destruct (eqb_spec n "__hash__") as [->|Hnh]; cbn [andb]; auto.
  rewrite (Hpre "__eq__") by (intros _; discriminate). rewrite !has_get_b.
  destruct (memb "__hash__" (td hq H k)); cbn [orb andb].
  - destruct (memb "__eq__" (td hq H k)); [rewrite andb_false_r; reflexivity|].
    destruct (get "__eq__" (c_dict k)); reflexivity.
  - destruct (get "__hash__" (c_dict k)); cbn [negb andb]; auto.
    destruct (memb "__eq__" (td hq H k)); [rewrite andb_false_r; reflexivity|].
    destruct (get "__eq__" (c_dict k)); reflexivity.
Qed.
