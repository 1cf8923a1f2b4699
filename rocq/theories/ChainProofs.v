(** Breadth-first search: proofs about ChainModel. *)
From Coq Require Import List Bool Arith ZArith Lia.
From Verif Require Import PyDict ChainModel.
Import ListNotations.
Local Open Scope Z_scope.

(** a chain from the start: the newest object first, each an edge of the next, none but the start ignored *)
Inductive walk (edges : nat -> list nat) (ign : nat -> bool) (start : nat) : list nat -> Prop :=
| walk_start : walk edges ign start [start]
| walk_step u t c : walk edges ign start (t :: c) -> In u (edges t) -> ign u = false -> walk edges ign start (u :: t :: c).

Section BFSProof.
Context (obj : nat) (pred : nat -> bool) (edges : nat -> list nat) (maxd : Z) (ign : nat -> bool).
Notation walk := (walk edges ign obj).

(** the objects found so far; [Ex] holds of the object whose edges are being visited *)
Record Inv (s : bfs) (Ex : nat -> Prop) : Prop := {
  i_nodup : NoDup (queue s);
  i_obj : get obj (depth s) = Some 0;
  i_objp : get obj (par s) = None;
  i_q : forall x, In x (queue s) -> exists n, get x (depth s) = Some n;
  i_par : forall x n, get x (depth s) = Some n -> x <> obj ->
     exists t m, get x (par s) = Some t /\ get t (depth s) = Some m /\ n = m + 1 /\ m < maxd /\ In x (edges t) /\ ign x = false;
  i_done : forall x n, get x (depth s) = Some n -> ~ In x (queue s) -> ~ Ex x ->
     pred x = false /\ (n < maxd -> forall u, In u (edges x) -> ign u = false -> exists m, get u (depth s) = Some m /\ m <= n + 1);
  i_pos : forall x n, get x (depth s) = Some n -> 0 <= n <= Z.of_nat (length (par s));
  i_wf : wf (depth s)
}.
Definition all_at (s : bfs) (l : list nat) (k : Z) : Prop := forall x, In x l -> get x (depth s) = Some k.
Definition sorted (s : bfs) (k : Z) : Prop :=
  (exists q1 q2, queue s = q1 ++ q2 /\ all_at s q1 k /\ all_at s q2 (k + 1)) /\ forall x n, get x (depth s) = Some n -> n <= k + 1.
Definition par_known (s : bfs) : Prop := forall x, get x (par s) <> None -> exists n, get x (depth s) = Some n.

Lemma length_set_fresh {V} (k : nat) (v : V) (d : dict nat V) : get k d = None -> length (set k v d) = S (length d).
Proof.
  induction d as [|[k0 v0] d IH]; cbn [get set length]; auto. destruct (eqb k k0); [discriminate|]. intros Hg. cbn [length]. rewrite IH; auto.
Qed.

Lemma visit_inv target td s u Ex : Inv s Ex -> sorted s td -> get target (depth s) = Some td -> td < maxd -> In u (edges target) -> Ex target ->
  par_known s ->
  let s' := visit ign target td s u in
  Inv s' Ex /\ sorted s' td /\ get target (depth s') = Some td /\ par_known s' /\
  (ign u = false -> exists m, get u (depth s') = Some m /\ m <= td + 1) /\
  (forall x n, get x (depth s) = Some n -> get x (depth s') = Some n).
Proof.
  intros HI Hs Ht Hm Hu HEx Hpd. unfold visit. destruct (ign u) eqn:Eg.
  { cbv zeta. repeat (split; auto). discriminate. }
  destruct (has u (depth s)) eqn:Eh.
  { cbv zeta. split; [auto|]. split; [auto|]. split; [auto|]. split; [auto|]. split; [|auto]. intros _.
    apply has_get in Eh as [m Hm']. exists m. split; auto. apply (proj2 Hs) in Hm'. auto. }
  cbv zeta.
  assert (Hun : get u (depth s) = None) by (unfold has in Eh; destruct (get u (depth s)); [discriminate|auto]).
  assert (Hup : get u (par s) = None).
  { destruct (get u (par s)) as [p|] eqn:Ep; auto. destruct (Hpd u) as [n Hn]; congruence. }
  assert (Hpres : forall x n, get x (depth s) = Some n -> get x (set u (td + 1) (depth s)) = Some n).
  { intros x n Hx. rewrite get_set_other; auto. intros ->. congruence. }
  assert (Huobj : u <> obj) by (intros ->; rewrite (i_obj _ _ HI) in Hun; discriminate).
  split; [|split; [|split; [|split; [|split]]]].
  - constructor; cbn [queue depth par].
    + apply NoDup_snoc; [apply (i_nodup _ _ HI)|]. intros Hq. destruct (i_q _ _ HI _ Hq) as [n Hn]. congruence.
    + apply Hpres, (i_obj _ _ HI).
    + rewrite get_set_other by auto. apply (i_objp _ _ HI).
    + intros x Hx. apply in_app_iff in Hx as [Hx|[<-|[]]]; [|rewrite get_set_same; eauto].
      destruct (i_q _ _ HI _ Hx) as [n Hn]. eauto.
    + intros x n Hx Hne. destruct (Nat.eq_dec x u) as [->|Hxu].
      * rewrite get_set_same in Hx. injection Hx as <-. exists target, td. rewrite get_set_same. repeat split; auto.
      * rewrite get_set_other in Hx by auto. destruct (i_par _ _ HI _ _ Hx Hne) as [t [m [H1 [H2 H3]]]].
        exists t, m. rewrite get_set_other by auto. split; auto.
    + intros x n Hx Hq Hex. destruct (Nat.eq_dec x u) as [->|Hxu]; [exfalso; apply Hq; apply in_app_iff; simpl; auto|].
      rewrite get_set_other in Hx by auto. destruct (i_done _ _ HI _ _ Hx) as [H1 H2]; auto.
      { intros Hin. apply Hq, in_app_iff. auto. }
      split; auto. intros Hn w Hw Hgw. destruct (H2 Hn w Hw Hgw) as [m [H3 H4]]. eauto.
    + intros x n Hx. rewrite length_set_fresh by auto. destruct (Nat.eq_dec x u) as [->|Hxu].
      * rewrite get_set_same in Hx. injection Hx as <-. pose proof (i_pos _ _ HI _ _ Ht). lia.
      * rewrite get_set_other in Hx by auto. pose proof (i_pos _ _ HI _ _ Hx). lia.
    + apply wf_set, (i_wf _ _ HI).
  - destruct Hs as [[q1 [q2 [Eq [H1 H2]]]] Hb]. split.
    + exists q1, (q2 ++ [u]). cbn [queue]. rewrite Eq, app_assoc. split; auto. split.
      * intros x Hx. apply Hpres; auto.
      * intros x Hx. apply in_app_iff in Hx as [Hx|[<-|[]]]; [apply Hpres; auto|cbn [depth]; apply get_set_same].
    + cbn [depth]. intros x n Hx. rewrite get_set in Hx. destruct (eqb x u); [injection Hx; lia|eauto].
  - cbn [depth]. auto.
  - intros x Hx. cbn [depth par] in *. destruct (Nat.eq_dec x u) as [->|Hxu]; [rewrite get_set_same; eauto|].
    rewrite get_set_other in Hx by auto. destruct (Hpd x Hx) as [n Hn]. eauto.
  - intros _. cbn [depth]. rewrite get_set_same. eexists. split; [reflexivity|lia].
  - cbn [depth]. auto.
Qed.

Lemma visits_inv target td (Ex : nat -> Prop) : td < maxd -> Ex target -> forall l s, incl l (edges target) ->
  Inv s Ex -> sorted s td -> get target (depth s) = Some td -> par_known s ->
  let s' := fold_left (visit ign target td) l s in
  Inv s' Ex /\ sorted s' td /\ get target (depth s') = Some td /\ par_known s' /\
  (forall u, In u l -> ign u = false -> exists m, get u (depth s') = Some m /\ m <= td + 1) /\
  (forall x n, get x (depth s) = Some n -> get x (depth s') = Some n).
Proof.
  intros Hm HEx. induction l as [|u l IH]; intros s Hl HI Hs Ht Hp; cbn [fold_left].
  { cbv zeta. repeat (split; auto). intros u []. }
  destruct (visit_inv target td s u Ex HI Hs Ht Hm (Hl u (or_introl eq_refl)) HEx Hp) as [HI' [Hs' [Ht' [Hp' [Hu' Hpr]]]]].
  destruct (IH (visit ign target td s u)) as [G1 [G2 [G3 [G4 [G5 G6]]]]]; auto.
  { intros x Hx. apply Hl. simpl; auto. }
  cbv zeta. repeat (split; [assumption|]). split; auto. intros w [<-|Hw] Hg; auto.
  destruct (Hu' Hg) as [m [H1 H2]]. exists m. split; auto.
Qed.

(** one turn of the main loop keeps the invariant *)
Definition Ok (s : bfs) : Prop := Inv s (fun _ => False) /\ (exists k, sorted s k) /\ par_known s.
Definition head_depth (s : bfs) (target : nat) : Z := match get target (depth s) with Some d => d | None => 0 end.

Lemma ok_head s target q : Ok s -> queue s = target :: q ->
  get target (depth s) = Some (head_depth s target) /\ (forall x n, In x (queue s) -> get x (depth s) = Some n -> head_depth s target <= n) /\
  sorted (BFS q (depth s) (par s)) (head_depth s target) /\ Inv (BFS q (depth s) (par s)) (eq target).
Proof.
  intros [HI [[k [[q1 [q2 [Eq [H1 H2]]]] Hb]] Hp]] Et.
  assert (Hd : get target (depth s) = Some (head_depth s target)).
  { unfold head_depth. destruct (i_q _ _ HI target) as [n Hn]; [rewrite Et; simpl; auto|]. rewrite Hn. auto. }
  rewrite Et in Eq.
  split; [auto|]. split; [|split].
  - intros x n Hx Hn. destruct q1 as [|t1 q1].
    + cbn [app] in Eq. subst q2. rewrite (H2 target) in Hd by (simpl; auto). rewrite Et in Hx. rewrite (H2 x Hx) in Hn. injection Hd; injection Hn; lia.
    + cbn [app] in Eq. injection Eq as <- Eq. rewrite (H1 target) in Hd by (simpl; auto). injection Hd as Hd. rewrite <- Hd.
      rewrite Et in Hx. destruct Hx as [<-|Hx]; [rewrite (H1 target) in Hn by (simpl; auto); injection Hn; lia|].
      rewrite Eq in Hx. apply in_app_iff in Hx as [Hx|Hx]; [rewrite (H1 x) in Hn by (simpl; auto)|rewrite (H2 x) in Hn by auto]; injection Hn; lia.
  - split.
    + cbn [queue]. destruct q1 as [|t1 q1].
      * cbn [app] in Eq. subst q2. rewrite (H2 target) in Hd by (simpl; auto). injection Hd as Hd. rewrite <- Hd.
        exists q, []. rewrite app_nil_r. split; auto. split; [intros x Hx; apply H2; simpl; auto|intros x []].
      * cbn [app] in Eq. injection Eq as <- Eq. rewrite (H1 target) in Hd by (simpl; auto). injection Hd as Hd. rewrite <- Hd.
        exists q1, q2. split; auto. split; [intros x Hx; apply H1; simpl; auto|intros x Hx; apply H2; auto].
    + cbn [depth]. intros x n Hx. apply Hb in Hx. destruct q1 as [|t1 q1].
      * cbn [app] in Eq. subst q2. rewrite (H2 target) in Hd by (simpl; auto). injection Hd; lia.
      * cbn [app] in Eq. injection Eq as <- Eq. rewrite (H1 target) in Hd by (simpl; auto). injection Hd; lia.
  - destruct HI. rewrite Et in *. inversion i_nodup0; subst. constructor; cbn [queue depth par]; auto.
    + intros x Hx. apply i_q0. simpl; auto.
    + intros x n Hx Hq Hne. apply i_done0; auto. intros [->|Hin]; auto.
Qed.

Lemma ok_turn s target q : Ok s -> queue s = target :: q -> pred target = false ->
  let s1 := BFS q (depth s) (par s) in
  Ok (if head_depth s target <? maxd then fold_left (visit ign target (head_depth s target)) (edges target) s1 else s1).
Proof.
  intros Hok Et Hpr. destruct (ok_head s target q Hok Et) as [Hd [Hmin [Hs HI]]]. destruct Hok as [HI0 [_ Hp]].
  cbv zeta. destruct (Z.ltb_spec (head_depth s target) maxd) as [Hlt|Hge].
  - destruct (visits_inv target (head_depth s target) (eq target) Hlt eq_refl (edges target) (BFS q (depth s) (par s)) (incl_refl _) HI Hs Hd Hp)
      as [G1 [G2 [G3 [G4 [G5 G6]]]]].
    set (s' := fold_left _ _ _) in *. split; [|split; [exists (head_depth s target); auto|auto]].
    destruct G1. constructor; auto. intros x n Hx Hq _. destruct (Nat.eq_dec target x) as [<-|Hne].
    + split; auto. intros _. rewrite Hx in G3. injection G3 as ->. exact G5.
    + apply i_done0; auto.
  - split; [|split; [exists (head_depth s target); auto|auto]].
    destruct HI. constructor; auto. intros x n Hx Hq _. destruct (Nat.eq_dec target x) as [<-|Hne]; [|apply i_done0; auto].
    split; auto. cbn [depth] in Hx. rewrite Hd in Hx. injection Hx as <-. lia.
Qed.

Lemma ok_init : Ok (BFS [obj] [(obj, 0)] []).
Proof.
  assert (Hg : forall x n, get x [(obj, 0)] = Some n -> x = obj /\ n = 0).
  { intros x n Hx. cbn [get] in Hx. destruct (eqb_spec x obj) as [->|]; [|discriminate]. injection Hx; auto. }
  split; [|split].
  - constructor; cbn [queue depth par].
    + constructor; [intros []|constructor].
    + cbn [get]. rewrite eqb_refl. auto.
    + auto.
    + intros x [<-|[]]. cbn [get]. rewrite eqb_refl. eauto.
    + intros x n Hx. apply Hg in Hx. tauto.
    + intros x n Hx. apply Hg in Hx as [-> _]. simpl. tauto.
    + intros x n Hx. apply Hg in Hx as [_ ->]. simpl. lia.
    + unfold wf, keys. cbn. constructor; [intros []|constructor].
  - exists 0. split; [exists [obj], []; split; [auto|split; [|intros x []]]|].
    + intros x [<-|[]]. cbn [depth get]. rewrite eqb_refl. auto.
    + cbn [depth]. intros x n Hx. apply Hg in Hx. lia.
  - intros x Hx. cbn in Hx. congruence.
Qed.

(** the chain read off the parents is a walk as long as the depth *)
Definition none_ok : Prop := obj <> none /\ (edges none = [] \/ forall x, ~ In none (edges x)).
Lemma chain_of s : none_ok -> Ok s -> forall n x fuel, get x (depth s) = Some (Z.of_nat n) -> (n < fuel)%nat ->
  exists c, unwind fuel (par s) x = Some c /\ walk (x :: c) /\ length c = n.
Proof.
  intros [Hno Hn] [HI _]. induction n as [|n IH]; intros x fuel Hx Hf; (destruct fuel as [|fuel]; [lia|]); cbn [unwind].
  - destruct (Nat.eq_dec x obj) as [->|Hne].
    + rewrite (i_objp _ _ HI). exists []. repeat split; auto. constructor.
    + destruct (i_par _ _ HI _ _ Hx Hne) as [t [m [H1 [H2 [H3 _]]]]]. pose proof (i_pos _ _ HI _ _ H2). lia.
  - destruct (Nat.eq_dec x obj) as [->|Hne].
    { rewrite (i_obj _ _ HI) in Hx. injection Hx. lia. }
    destruct (i_par _ _ HI _ _ Hx Hne) as [t [m [H1 [H2 [H3 [H4 [H5 H6]]]]]]]. rewrite H1.
    assert (Htn : t <> none).
    { intros ->. destruct Hn as [Hn|Hn]; [rewrite Hn in H5; destruct H5|].
      destruct (Nat.eq_dec none obj) as [He|Hne']; [congruence|].
      destruct (i_par _ _ HI _ _ H2 Hne') as [t' [m' [_ [_ [_ [_ [Hin _]]]]]]]. exact (Hn _ Hin). }
    apply Nat.eqb_neq in Htn. rewrite Htn.
    assert (Hm : m = Z.of_nat n) by lia. subst m. destruct (IH t fuel H2 ltac:(lia)) as [c [E1 [E2 E3]]]. rewrite E1.
    exists (t :: c). split; auto. split; [constructor; auto|simpl; lia].
Qed.

(** every short walk ends at a known object, or passes through the queue *)
Lemma walk_known s : Ok s -> forall c, walk c -> forall x c', c = x :: c' -> Z.of_nat (length c') <= maxd \/ c' = [] ->
  (exists n, get x (depth s) = Some n /\ n <= Z.of_nat (length c')) \/
  (exists y n, In y (queue s) /\ get y (depth s) = Some n /\ n < Z.of_nat (length c')).
Proof.
  intros [HI _] c Hw. induction Hw as [|u t c Hw IH Hu Hg]; intros x c' Ec Hl; injection Ec as <- <-.
  - left. exists 0. split; [apply (i_obj _ _ HI)|simpl; lia].
  - destruct Hl as [Hl|]; [|discriminate]. cbn [length] in *.
    destruct (IH t c eq_refl) as [[n [H1 H2]]|[y [n [H1 [H2 H3]]]]]; [left; lia| |right; exists y, n; repeat split; auto; lia].
    destruct (in_dec Nat.eq_dec t (queue s)) as [Hq|Hq]; [right; exists t, n; repeat split; auto; lia|].
    destruct (i_done _ _ HI t n H1 Hq) as [_ Hd]; [tauto|]. destruct (Hd ltac:(lia) u Hu Hg) as [m [H3 H4]].
    left. exists m. split; auto. lia.
Qed.

Definition shortest (r : list nat) : Prop :=
  match r with
  | [] => False
  | t :: c =>
    (pred t = true /\ walk (t :: c) /\ (c = [] \/ Z.of_nat (length c) <= maxd) /\ forall t' c', walk (t' :: c') -> pred t' = true -> (length c <= length c')%nat) \/
    (r = [obj] /\ forall t' c', walk (t' :: c') -> Z.of_nat (length c') <= maxd \/ c' = [] -> pred t' = false)
  end.

Lemma search_spec : none_ok -> forall fuel s r, Ok s -> search fuel obj pred edges maxd ign s = Some r -> shortest r.
Proof.
  intros Hn. induction fuel as [|fuel IH]; intros s r Hok E; [discriminate|]. cbn [search] in E.
  destruct (queue s) as [|target q] eqn:Eq.
  - injection E as <-. right. split; auto. intros t' c' Hw Hl.
    destruct (walk_known s Hok _ Hw t' c' eq_refl Hl) as [[n [H1 H2]]|[y [n [H1 _]]]]; [|rewrite Eq in H1; destruct H1].
    destruct Hok as [HI _]. apply (i_done _ _ HI t' n H1); [rewrite Eq; simpl; auto|tauto].
  - cbn [par depth] in E. destruct (pred target) eqn:Ep.
    + destruct (ok_head s target q Hok Eq) as [Hd [Hmin [Hs HI]]]. pose proof (proj1 Hok) as HI0.
      pose proof (i_pos _ _ HI0 _ _ Hd) as Hpos.
      destruct (chain_of s Hn Hok (Z.to_nat (head_depth s target)) target (S (length (par s)))) as [c [E1 [E2 E3]]].
      { rewrite Z2Nat.id by lia. auto. } { lia. }
      rewrite E1 in E. injection E as <-. left. split; auto. split; auto.
      assert (Hlen : Z.of_nat (length c) = head_depth s target) by lia.
      split.
      * destruct (Nat.eq_dec target obj) as [->|Hne].
        -- left. rewrite (i_obj _ _ HI0) in Hd. injection Hd as Hd. destruct c; auto. simpl in Hlen. lia.
        -- destruct (i_par _ _ HI0 _ _ Hd Hne) as [t [m [_ [_ [H3 [H4 _]]]]]]. right. lia.
      * intros t' c' Hw Hpt. destruct (Z_le_gt_dec (Z.of_nat (length c')) maxd) as [Hle|Hgt].
        -- destruct (walk_known s Hok _ Hw t' c' eq_refl (or_introl Hle)) as [[n [H1 H2]]|[y [n [H1 [H2 H3]]]]].
           ++ destruct (in_dec Nat.eq_dec t' (queue s)) as [Hq|Hq]; [pose proof (Hmin _ _ Hq H1); lia|].
              destruct (i_done _ _ HI0 t' n H1 Hq) as [Hf _]; [tauto|]. congruence.
           ++ pose proof (Hmin _ _ H1 H2). lia.
        -- destruct (Nat.eq_dec target obj) as [->|Hne].
           ++ rewrite (i_obj _ _ HI0) in Hd. injection Hd as Hd. lia.
           ++ destruct (i_par _ _ HI0 _ _ Hd Hne) as [t [m [_ [_ [H3 [H4 _]]]]]]. lia.
    + apply (IH _ _ (ok_turn s target q Hok Eq Ep)). unfold head_depth.
      destruct (_ <? maxd)%Z; exact E.
Qed.

(** ** Termination: at most as many turns as objects within the depth *)
Fixpoint ball (n : nat) : list nat := match n with O => [obj] | S n => ball n ++ flat_map edges (ball n) end.
Lemma ball_incl n m : (n <= m)%nat -> incl (ball n) (ball m).
Proof. induction 1; [apply incl_refl|]. intros x Hx. cbn [ball]. apply in_app_iff. auto. Qed.

Lemma depth_ball s : Ok s -> forall n x, get x (depth s) = Some (Z.of_nat n) -> In x (ball n).
Proof.
  intros [HI _]. induction n as [|n IH]; intros x Hx; (destruct (Nat.eq_dec x obj) as [->|Hne]; [apply (ball_incl 0); [lia|simpl; auto]|]).
  - destruct (i_par _ _ HI _ _ Hx Hne) as [t [m [H1 [H2 [H3 _]]]]]. pose proof (i_pos _ _ HI _ _ H2). lia.
  - destruct (i_par _ _ HI _ _ Hx Hne) as [t [m [H1 [H2 [H3 [H4 [H5 H6]]]]]]]. cbn [ball]. apply in_app_iff. right. apply in_flat_map.
    exists t. split; auto. apply IH. rewrite H2. f_equal. lia.
Qed.
Lemma keys_ball s : Ok s -> incl (keys (depth s)) (ball (Z.to_nat maxd)).
Proof.
  intros Hok x Hx. destruct (get x (depth s)) as [n|] eqn:Eg; [|apply get_None_iff in Eg; tauto].
  pose proof (i_pos _ _ (proj1 Hok) _ _ Eg).
  assert (Hn : n = 0 \/ n <= maxd).
  { destruct (Nat.eq_dec x obj) as [->|Hne]; [rewrite (i_obj _ _ (proj1 Hok)) in Eg; injection Eg; auto|].
    destruct (i_par _ _ (proj1 Hok) _ _ Eg Hne) as [t [m Hm]]. right. lia. }
  apply (ball_incl (Z.to_nat n)); [lia|]. apply (depth_ball s Hok). rewrite Z2Nat.id by lia. auto.
Qed.
Lemma length_keys {V} (d : dict nat V) : length (keys d) = length d.
Proof. unfold keys. apply map_length. Qed.

Lemma visits_count target td : forall l s,
  let s' := fold_left (visit ign target td) l s in (length (queue s') + length (depth s) = length (queue s) + length (depth s'))%nat.
Proof.
  induction l as [|u l IH]; intros s; cbn [fold_left]; [simpl; lia|].
  specialize (IH (visit ign target td s u)). cbv zeta in *.
  assert (H1 : (length (queue (visit ign target td s u)) + length (depth s) = length (queue s) + length (depth (visit ign target td s u)))%nat).
  { unfold visit. destruct (ign u); [lia|]. destruct (has u (depth s)) eqn:Eh; [lia|]. cbn [queue depth].
    rewrite app_length, length_set_fresh by (unfold has in Eh; destruct (get u (depth s)); [discriminate|auto]). simpl. lia. }
  lia.
Qed.

Lemma search_total : none_ok -> forall fuel s, Ok s -> (length (ball (Z.to_nat maxd)) + length (queue s) < fuel + length (depth s))%nat ->
  exists r, search fuel obj pred edges maxd ign s = Some r.
Proof.
  intros Hn. induction fuel as [|fuel IH]; intros s Hok Hf.
  - exfalso. pose proof (NoDup_incl_length (i_wf _ _ (proj1 Hok)) (keys_ball s Hok)) as Hl. rewrite length_keys in Hl. lia.
  - cbn [search]. destruct (queue s) as [|target q] eqn:Eq; [eauto|]. cbn [par depth].
    destruct (pred target) eqn:Ep.
    + destruct (ok_head s target q Hok Eq) as [Hd _]. pose proof (i_pos _ _ (proj1 Hok) _ _ Hd) as Hpos.
      destruct (chain_of s Hn Hok (Z.to_nat (head_depth s target)) target (S (length (par s)))) as [c [E1 _]].
      { rewrite Z2Nat.id by lia. auto. } { lia. }
      rewrite E1. eauto.
    + pose proof (ok_turn s target q Hok Eq Ep) as Hok'. cbv zeta in Hok'.
      pose proof (visits_count target (head_depth s target) (edges target) (BFS q (depth s) (par s))) as Hc. cbv zeta in Hc. cbn [queue depth length] in Hc, Hf.
      unfold head_depth in *. destruct (_ <? maxd)%Z; apply IH; auto; cbn [queue depth]; lia.
Qed.

Theorem find_chain_spec : none_ok -> forall fuel, (length (ball (Z.to_nat maxd)) < fuel)%nat ->
  exists r, find_chain fuel obj pred edges maxd ign = Some r /\ shortest r.
Proof.
  intros Hn fuel Hf. destruct (search_total Hn fuel _ ok_init) as [r Hr]; [cbn [queue depth length]; lia|].
  exists r. split; [exact Hr|]. eapply search_spec; eauto. apply ok_init.
Qed.
End BFSProof.
