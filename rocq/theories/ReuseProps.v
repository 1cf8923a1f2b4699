(** C78: several dumps with one Pickler.  C79: a Pickler after a failed dump. *)
From Coq Require Import String List Bool Arith ZArith Lia.
From Verif Require Import PyDict CoreModel CoreSpec CoreSim CoreStep CoreReach CoreMain CoreProps CoreInd ReuseModel CoreExamples.
Import ListNotations.
Local Open Scope string_scope.
Local Open Scope list_scope.

(** ** C78 specification *)
(** The graphs reachable from the values [vs'] in [h] together are isomorphic to those reachable from
    [vs] in [H]: one correspondence for all of them, so that what was shared between different values
    is shared between their copies. *)
Definition isos (H : oid -> option obj) (vs : list val) (h : list obj) (vs' : list val) : Prop :=
  exists (R G : oid -> nat -> Prop),
    Forall2 (val_rel R) vs vs' /\
    (forall o a a', R o a -> R o a' -> a = a') /\
    (forall o o' a, R o a -> R o' a -> o = o') /\
    (forall f g g', G f g -> G f g' -> g = g') /\
    (forall f f' g, G f g -> G f' g -> f = f') /\
    (forall f g o, G f g -> ~ R o g) /\
    (forall o a, R o a -> exists b b', H o = Some b /\ nth_error h a = Some b' /\
                                       obj_rel R H (G o) (fun a b => nth_error h a = Some b) b b').

Lemma isos_each H vs h vs' v v' : isos H vs h vs' -> In (v, v') (combine vs vs') -> iso H v h v'.
Proof.
  intros (R & G & F & rest) Hi. exists R, G. split; auto. clear rest. induction F as [|x x' l l' A F IH]; [destruct Hi|].
  destruct Hi as [Hi|Hi]; [injection Hi as -> ->; exact A|auto].
Qed.

Lemma isos_of_sim H e m vs vs' P : Sim H X0 (Ik []) [] [] [] [] e (heap m) P -> env_ok H e (heap m) P ->
  Forall2 (val_rel (Renv e)) vs vs' -> isos H vs (heap m) vs'.
Proof.
  intros Si E Hv.
  assert (EP : P = []) by (pose proof (s_post Si) as F; inversion F; auto). subst P.
  exists (Renv e), (Genv e). split; auto. split; [intros; eapply env_Rfun; eauto|]. split; [intros; eapply env_Rinj; eauto|].
  split; [|split; [|split]].
  - intros f g g' A B. assert (X : VR g = VR g') by (eapply (ek_fun _ _ _ _ E); [|exact A|exact B]; discriminate). congruence.
  - intros f f' g A B. pose proof (ek_inj _ _ _ _ E _ _ _ A B). congruence.
  - intros f g o A B. pose proof (ek_inj _ _ _ _ E _ _ _ A B). discriminate.
  - intros o a Ho. destruct (s_cov Si o a Ho) as [[]|[[]|[C|(p & [[]|(x & Hx & _)] & _)]]]; [|destruct Hx].
    destruct C as (b & b' & A & (B & _) & D). exists b, b'. split; auto. split; auto.
    eapply obj_rel_mono; [| | |exact D]; auto. intros x y _ [Hx _]. exact Hx.
Qed.

Lemma dump_shape proto H fuel v s ops s' : dump proto H fuel v s = Ok (ops, s') ->
  exists l, ops = (if Nat.leb 2 proto then [PROTO proto] else []) ++ l ++ [STOP] /\
            save proto H fuel v s = Ok (l, s') /\ ~ In STOP ((if Nat.leb 2 proto then [PROTO proto] else []) ++ l).
Proof.
  unfold dump. destruct (save proto H fuel v s) as [[l s1]|] eqn:E; [|discriminate]. intros E'. inversion E'; subst.
  exists l. split; auto. split; auto. intros Hi. apply in_app_iff in Hi as [Hi|Hi].
  - destruct (Nat.leb 2 proto); [destruct Hi as [Hi|[]]; discriminate|contradiction].
  - eapply ns_save; eauto.
Qed.

Lemma one_reader proto H fuel : heap_wf H -> proto <= 5 -> forall vs s e m stream s' rest done done',
  sync H s e m -> Sim H X0 (Ik []) [] [] [] [] e (heap m) (post s) -> Forall2 (val_rel (Renv e)) done done' ->
  write proto H fuel (map Dump vs) s = Ok (stream, s') ->
  exists vs' m', read (length vs) (stream ++ rest) m = Some (vs', m', rest) /\ isos H (done ++ vs) (heap m') (done' ++ vs') /\
    post s' = [] /\ (forall a b, nth_error (heap m) a = Some b -> nth_error (heap m') a = Some b).
Proof.
  intros HW Hp. induction vs as [|v vs IH]; intros s e m stream s' rest dn dn' S Si F E.
  - injection E as <- <-. exists [], m. cbn. rewrite !app_nil_r. split; auto. split.
    + eapply isos_of_sim; eauto. apply (sy_env _ _ _ _ S).
    + split; auto. pose proof (s_post Si) as Q. inversion Q; auto.
  - cbn [map write] in E. destruct (dump proto H fuel v s) as [[l s1]|] eqn:Ed; [|discriminate].
    destruct (write proto H fuel (map Dump vs) s1) as [[l2 s2]|] eqn:Ew; [|discriminate]. injection E as <- <-.
    destruct (dump_shape _ _ _ _ _ _ _ Ed) as (ops & -> & Es & Hn).
    assert (Ep : post s = []) by (pose proof (s_post Si) as Q; inversion Q; auto).
    assert (S0 : sync H s e (again m)) by (eapply sync_stk; eauto).
    destruct (save_ok proto H HW fuel v s e (again m) S0 _ _ Es) as (e1 & m1 & R1 & S1 & Si1 & v' & A1 & B1 & C1). cbn [heap again] in Si1.
    rewrite Ep in Si1.
    assert (Si2 : Sim H X0 (Ik []) [] [] [] [] e1 (heap m1) (post s1)).
    { rewrite Ep in Si; eapply Sim_trans; [exact Si|exact Si1]. }
    destruct (IH s1 e1 m1 l2 s2 rest (dn ++ [v]) (dn' ++ [v']) S1 Si2) as (vs' & m' & Rd & Is & Pn & Hp'); auto.
    { apply Forall2_app; [|constructor; auto]. eapply Forall2_mono; [|exact F]. intros x y. apply val_rel_mono. intros o a. unfold Renv. apply (s_env Si1). }
    exists (v' :: vs'), m'. split; [|split; [|split]]; auto.
    + cbn [length read]. rewrite <- !app_assoc.
      assert (Ld : load ((if Nat.leb 2 proto then [PROTO proto] else []) ++ ops ++ [STOP] ++ l2 ++ rest) (again m) = Some (v', m1, l2 ++ rest)).
      { rewrite app_assoc. erewrite load_run; [|exact Hn|].
        - cbn [app load]. rewrite A1. reflexivity.
        - destruct (Nat.leb 2 proto); cbn [app]; auto. cbn [run step]. rewrite (proj2 (Nat.leb_le _ _) Hp). exact R1. }
      rewrite Ld, Rd. reflexivity.
    + rewrite <- !app_assoc in Is. exact Is.
    + intros a b Ha. apply Hp'. apply (s_heap Si1); auto.
Qed.

(** C78.  Whatever is dumped in turn with one Pickler is read back by one Unpickler: one isomorphism
    for all of it, also for objects that several of the dumps share; and the Pickler is left ready for
    the next dump. *)
Theorem C78_one_reader : forall proto H fuel vs stream s' rest, heap_wf H -> proto <= 5 ->
  write proto H fuel (map Dump vs) new_pickler = Ok (stream, s') ->
  exists vs' m, read (length vs) (stream ++ rest) new_unpickler = Some (vs', m, rest) /\ isos H vs (heap m) vs' /\ post s' = [].
Proof.
  intros proto H fuel vs stream s' rest HW Hp E.
  destruct (one_reader proto H fuel HW Hp vs new_pickler [] new_unpickler stream s' rest [] []) as (vs' & m & A & B & C & _); auto.
  - apply sync0.
  - apply Sim_refl.
  - eauto.
Qed.

(** C78.  What an earlier load gave is not touched by later ones. *)
Theorem C78_earlier_untouched : forall proto H fuel vs ws stream s' rest, heap_wf H -> proto <= 5 ->
  write proto H fuel (map Dump (vs ++ ws)) new_pickler = Ok (stream, s') ->
  exists vs' m rest1 ws' m', read (length vs) (stream ++ rest) new_unpickler = Some (vs', m, rest1) /\ isos H vs (heap m) vs' /\
    read (length ws) rest1 m = Some (ws', m', rest) /\ isos H (vs ++ ws) (heap m') (vs' ++ ws') /\
    forall a b, nth_error (heap m) a = Some b -> nth_error (heap m') a = Some b.
Proof.
  intros proto H fuel vs ws stream s' rest HW Hp.
  assert (G : forall vs s e m stream s' dn dn', sync H s e m -> Sim H X0 (Ik []) [] [] [] [] e (heap m) (post s) -> Forall2 (val_rel (Renv e)) dn dn' ->
    write proto H fuel (map Dump (vs ++ ws)) s = Ok (stream, s') ->
    exists vs' m1 rest1 ws' m', read (length vs) (stream ++ rest) m = Some (vs', m1, rest1) /\ isos H (dn ++ vs) (heap m1) (dn' ++ vs') /\
      read (length ws) rest1 m1 = Some (ws', m', rest) /\ isos H (dn ++ vs ++ ws) (heap m') (dn' ++ vs' ++ ws') /\
      forall a b, nth_error (heap m1) a = Some b -> nth_error (heap m') a = Some b).
  { clear vs stream s'. induction vs as [|v vs IH]; intros s e m stream s' dn dn' S Si F E.
    - cbn [app] in E. destruct (one_reader proto H fuel HW Hp ws s e m stream s' rest dn dn' S Si F E) as (ws' & m' & A & B & C & D).
      exists [], m, (stream ++ rest), ws', m'. cbn [length read app]. rewrite !app_nil_r. split; auto. split; auto. eapply isos_of_sim; eauto. apply (sy_env _ _ _ _ S).
    - cbn [map write app] in E. destruct (dump proto H fuel v s) as [[l s1]|] eqn:Ed; [|discriminate].
      destruct (write proto H fuel (map Dump (vs ++ ws)) s1) as [[l2 s2]|] eqn:Ew; [|discriminate]. injection E as <- <-.
      destruct (dump_shape _ _ _ _ _ _ _ Ed) as (ops & -> & Es & Hn).
      assert (Ep : post s = []) by (pose proof (s_post Si) as Q; inversion Q; auto).
      assert (S0 : sync H s e (again m)) by (eapply sync_stk; eauto).
      destruct (save_ok proto H HW fuel v s e (again m) S0 _ _ Es) as (e1 & m1 & R1 & S1 & Si1 & v' & A1 & B1 & C1). cbn [heap again] in Si1.
      rewrite Ep in Si1.
      assert (Si2 : Sim H X0 (Ik []) [] [] [] [] e1 (heap m1) (post s1)).
      { rewrite Ep in Si; eapply Sim_trans; [exact Si|exact Si1]. }
      destruct (IH s1 e1 m1 l2 s2 (dn ++ [v]) (dn' ++ [v']) S1 Si2) as (vs' & m2 & rest1 & ws' & m' & A & B & C & D & K); auto.
      { apply Forall2_app; [|constructor; auto]. eapply Forall2_mono; [|exact F]. intros x y. apply val_rel_mono. intros o a. unfold Renv. apply (s_env Si1). }
      exists (v' :: vs'), m2, rest1, ws', m'. cbn [length read]. rewrite <- !app_assoc in *. cbn [app] in *.
      assert (Ld : load ((if Nat.leb 2 proto then [PROTO proto] else []) ++ ops ++ STOP :: l2 ++ rest) (again m) = Some (v', m1, l2 ++ rest)).
      { rewrite app_assoc. erewrite load_run; [|exact Hn|].
        - cbn [app load]. rewrite A1. reflexivity.
        - destruct (Nat.leb 2 proto); cbn [app]; auto. cbn [run step]. rewrite (proj2 (Nat.leb_le _ _) Hp). exact R1. }
      rewrite Ld, A. auto. }
  intros E. destruct (G vs new_pickler [] new_unpickler stream s' [] []) as (vs' & m & rest1 & ws' & m' & A); auto.
  - apply sync0.
  - apply Sim_refl.
  - exists vs', m, rest1, ws', m'. exact A.
Qed.

Lemma isos_mono H vs h h' vs' : isos H vs h vs' -> (forall a b, nth_error h a = Some b -> nth_error h' a = Some b) -> isos H vs h' vs'.
Proof.
  intros (R & G & F & A & B & C & D & K & L) Hh. exists R, G. repeat (split; auto).
  intros o a Ho. destruct (L o a Ho) as (b & b' & X & Y & Z). exists b, b'. split; auto. split; auto.
  eapply obj_rel_mono; [| | |exact Z]; auto.
Qed.
Lemma iso_mono H v h h' v' : iso H v h v' -> (forall a b, nth_error h a = Some b -> nth_error h' a = Some b) -> iso H v h' v'.
Proof.
  intros (R & G & F & A & B & C & D & K & L) Hh. exists R, G. repeat (split; auto).
  intros o a Ho. destruct (L o a Ho) as (b & b' & X & Y & Z). exists b, b'. split; auto. split; auto.
  eapply obj_rel_mono; [| | |exact Z]; auto.
Qed.
Lemma sync_new H m : mem m = [] -> sync H new_pickler [] m.
Proof. intros E. constructor; auto. constructor; intros; contradiction. Qed.

(** what is written with a Pickler whose memo is cleared before every dump *)
Definition cleared (vs : list val) : list use := flat_map (fun v => [Clear; Dump v]) vs.
(** C78.  If the memo is cleared before every dump, each dump can be read on its own, with a new
    Unpickler (dill.load), and earlier copies are not touched. *)
Theorem C78_new_readers : forall proto H fuel vs stream s' rest m, heap_wf H -> proto <= 5 ->
  write proto H fuel (cleared vs) new_pickler = Ok (stream, s') ->
  exists vs' m', read_new (length vs) (stream ++ rest) m = Some (vs', m', rest) /\ Forall2 (fun v v' => iso H v (heap m') v') vs vs' /\
    (forall a b, nth_error (heap m) a = Some b -> nth_error (heap m') a = Some b) /\ post s' = [].
Proof.
  intros proto H fuel vs stream s' rest m HW Hp. unfold cleared.
  assert (G : forall vs s stream s' m, post s = [] -> write proto H fuel (flat_map (fun v => [Clear; Dump v]) vs) s = Ok (stream, s') ->
    exists vs' m', read_new (length vs) (stream ++ rest) m = Some (vs', m', rest) /\ Forall2 (fun v v' => iso H v (heap m') v') vs vs' /\
    (forall a b, nth_error (heap m) a = Some b -> nth_error (heap m') a = Some b) /\ post s' = []).
  { clear vs stream s' m. induction vs as [|v vs IH]; intros s stream s' m Ep E.
    - injection E as <- <-. exists [], m. cbn. auto.
    - cbn [flat_map app write] in E. unfold clear_memo in E. rewrite Ep in E. fold new_pickler in E.
      destruct (dump proto H fuel v new_pickler) as [[l s1]|] eqn:Ed; [|discriminate].
      destruct (write proto H fuel (flat_map (fun v => [Clear; Dump v]) vs) s1) as [[l2 s2]|] eqn:Ew; [|discriminate]. injection E as <- <-.
      destruct (dump_shape _ _ _ _ _ _ _ Ed) as (ops & -> & Es & Hn).
      destruct (save_ok proto H HW fuel v new_pickler [] (renew m) (sync_new H (renew m) eq_refl) _ _ Es) as (e1 & m1 & R1 & S1 & Si1 & v' & A1 & B1 & C1).
      cbn [heap renew post new_pickler] in Si1.
      assert (Ep1 : post s1 = []) by (pose proof (s_post Si1) as Q; inversion Q; auto).
      destruct (IH s1 l2 s2 m1 Ep1 Ew) as (vs' & m' & Rd & F & Hh & Pn).
      exists (v' :: vs'), m'. split; [|split; [|split]]; auto.
      + cbn [length read_new]. rewrite <- !app_assoc.
        assert (Ld : load ((if Nat.leb 2 proto then [PROTO proto] else []) ++ ops ++ [STOP] ++ l2 ++ rest) (renew m) = Some (v', m1, l2 ++ rest)).
        { rewrite app_assoc. erewrite load_run; [|exact Hn|].
          - cbn [app load]. rewrite A1. reflexivity.
          - destruct (Nat.leb 2 proto); cbn [app]; auto. cbn [run step]. rewrite (proj2 (Nat.leb_le _ _) Hp). exact R1. }
        rewrite Ld, Rd. reflexivity.
      + constructor; auto. apply iso_mono with (h := heap m1); auto.
        assert (I1 : isos H [v] (heap m1) [v']); [|eapply isos_each; [exact I1|left; reflexivity]].
        exists (Renv e1), (Genv e1). pose proof (sy_env _ _ _ _ S1) as E.
        split; [constructor; auto|]. split; [intros; eapply env_Rfun; eauto|]. split; [intros; eapply env_Rinj; eauto|].
        split; [|split; [|split]].
        * intros f g g' A B. assert (X : VR g = VR g') by (eapply (ek_fun _ _ _ _ E); [|exact A|exact B]; discriminate). congruence.
        * intros f f' g A B. pose proof (ek_inj _ _ _ _ E _ _ _ A B). congruence.
        * intros f g o A B. pose proof (ek_inj _ _ _ _ E _ _ _ A B). discriminate.
        * intros o a Ho. destruct (s_cov Si1 o a Ho) as [[]|[[]|[C|(p & [[]|(x & Hx & _)] & _)]]]; [|rewrite Ep1 in Hx; destruct Hx].
          destruct C as (b & b' & A & (B & _) & D). exists b, b'. split; auto. split; auto.
          eapply obj_rel_mono; [| | |exact D]; auto. intros x y _ [Hx _]. exact Hx.
      + intros a b Ha. apply Hh. apply (s_heap Si1); auto. }
  intros E. eapply G; eauto. reflexivity.
Qed.

(** ** C78: the other two combinations do not work *)
(** 0: a list; 1: a list holding 0; 2: another list *)
Definition rx (o : oid) : option obj :=
  match o with
  | 0 => Some (OList [VA (AScalar 7) 0])
  | 1 => Some (OList [VR 0])
  | 2 => Some (OList [VA (AScalar 8) 0; VA (AScalar 9) 0])
  | 3 => Some (OList [VR 2; VR 2])
  | _ => None
  end.
Lemma rx_wf : heap_wf rx.
Proof. intros o b Ho. do 4 (destruct o as [|o]; [injection Ho as <-; split; exact I|]). discriminate. Qed.
(** Without clear_memo the second dump of a shared object is a reference to the first, which a new
    Unpickler (dill.load) has not seen: it fails (protocols 0 to 3) or gives another object instead (4
    and 5: here a list holding itself). *)
Theorem C78_uncleared_refuted : forall proto, proto <= 5 ->
  exists s' stream, write proto rx 9 [Dump (VR 0); Dump (VR 1)] new_pickler = Ok (stream, s') /\
    (forall vs' m rest, read_new 2 stream new_unpickler = Some (vs', m, rest) -> ~ Forall2 (fun v v' => iso rx v (heap m) v') [VR 0; VR 1] vs') /\
    (proto <= 3 -> read_new 2 stream new_unpickler = None) /\
    exists r, read 2 stream new_unpickler = Some r.
Proof.
  intros p Hp. assert (p = 0 \/ p = 1 \/ p = 2 \/ p = 3 \/ p = 4 \/ p = 5) as C by lia.
  destruct C as [->|[->|[->|[->|[->| ->]]]]]; eexists; eexists; (split; [vm_compute; reflexivity|split; [|split; [intros H3; try lia; vm_compute; reflexivity|eexists; vm_compute; reflexivity]]]);
    intros vs' m rest E; vm_compute in E; try discriminate E;
    (assert (E' : vs' = [VR 0; VR 1] /\ heap m = [OList [VA (AScalar 7) 0]; OList [VR 1]]) by (inversion E; subst; split; reflexivity));
    destruct E' as [-> Eh]; intros F; rewrite Eh in F; inversion F as [|? ? ? ? _ F2]; subst; inversion F2 as [|? ? ? ? I1 _]; subst;
    destruct (C02_paths rx (VR 1) _ _ rx_wf I1 [SItem 0; SItem 0] (VA (AScalar 7) 0) eq_refl) as (w & Ew & Hw & _);
    rewrite (Hw _ 0 eq_refl) in Ew; vm_compute in Ew; discriminate Ew.
Qed.
(** With clear_memo, one Unpickler for all loads gives wrong objects under protocols 4 and 5: its own
    memo goes on counting. *)
Theorem C78_cleared_refuted : forall proto, 4 <= proto <= 5 ->
  exists s' stream vs' m, write proto rx 9 (cleared [VR 0; VR 3]) new_pickler = Ok (stream, s') /\
    read 2 stream new_unpickler = Some (vs', m, []) /\ ~ isos rx [VR 0; VR 3] (heap m) vs'.
Proof.
  assert (G : forall h vs', isos rx [VR 0; VR 3] h vs' -> exists w, follow (nth_error h) (nth 1 vs' vNone) [SItem 1; SItem 0] = Some w /\ w = VA (AScalar 8) 0).
  { intros h vs' Is. assert (L : exists a b, vs' = [a; b]).
    { destruct Is as (R & G & F & _). inversion F as [|? a ? l F1 F2]; subst. inversion F2 as [|? b ? l' F3 F4]; subst. inversion F4; subst. eauto. }
    destruct L as (a & b & ->).
    assert (I1 : iso rx (VR 3) h b) by (eapply isos_each; [exact Is|right; left; reflexivity]).
    destruct (C02_paths rx (VR 3) h b rx_wf I1 [SItem 1; SItem 0] (VA (AScalar 8) 0) eq_refl) as (w & Ew & Hw & _).
    exists w. split; auto. apply (Hw _ 0). reflexivity. }
  intros p Hp. assert (p = 4 \/ p = 5) as C by lia.
  destruct C as [->| ->]; do 4 eexists; (split; [vm_compute; reflexivity|split; [vm_compute; reflexivity|]]);
    intros Is; apply G in Is as (w & Ew & ->); vm_compute in Ew; discriminate.
Qed.

(** ** C79: a Pickler after a dump that failed *)
Section Quiet.
  Variable proto : nat.
  Variable H : oid -> option obj.
  Definition T_quiet (A : act) : Prop := forall s, post s = [] -> match A s with Ok (_, s') | Fail _ s' => post s' = [] end.
  Lemma q_emit l : T_quiet (emit l).
  Proof. intros s Hs. exact Hs. Qed.
  Lemma q_seq A B : T_quiet A -> T_quiet B -> T_quiet (A ;; B).
  Proof.
    intros HA HB s Hs. unfold seq. specialize (HA s Hs). destruct (A s) as [[l s1]|]; auto.
    specialize (HB s1 HA). destruct (B s1) as [[l2 s2]|]; auto.
  Qed.
  Lemma q_memoize k : T_quiet (memoize proto k).
  Proof. intros s Hs. exact Hs. Qed.
  Lemma q_get k (f : option nat -> act) : (forall i, T_quiet (f i)) -> T_quiet (fun s => f (memo_get k s) s).
  Proof. intros Hf s Hs. apply Hf, Hs. Qed.
  Variable v0 : val.
  Definition in_graph (v : val) : Prop := match v with VR o => reach H v0 o | VA _ _ => True end.
  (** neither a function nor a class is stored by value *)
  Hypothesis Hq : forall o, reach H v0 o -> match H o with Some (OFun _ _ _ _ _ _) | Some (OType _ _ _ _ _) => False | _ => True end.
  Lemma q_save fuel : forall v, in_graph v -> T_quiet (save proto H fuel v).
  Proof.
    induction fuel as [|n IH]; intros v Hv; [intros s Hs; exact Hs|]. cbn [save].
    assert (At : forall a i, in_graph (VA a i)) by (intros; exact I).
    assert (Sub : forall o b, reach H v0 o -> H o = Some b -> forall w, In w (refs b) -> in_graph w).
    { intros o b Ro Hb [a i|o'] Hi; [exact I|]. cbn. eapply reach_closed; eauto. }
    destruct v as [a i|o].
    - apply (T_atom proto T_quiet q_emit q_seq q_memoize q_get).
    - change (save_val proto H (save proto H n) (VR o)) with
        (fun s => (fun (x : option nat) s => match x with Some n => Ok ([GET n], s) | None => match H o with Some b => save_obj proto H (save proto H n) o b s | None => Fail Dangling s end end) (memo_get (KObj o) s) s).
      apply q_get. intros [x|]; [intros s Hs; exact Hs|]. destruct (H o) as [b|] eqn:Eb; [|intros s Hs; exact Hs].
      pose proof (Hq o Hv) as Hk. rewrite Eb in Hk. specialize (Sub o b Hv Eb).
      destruct b as [vs|vs|kvs|nb c args li di st|co gl nm de cl st|mt nm bs d q|c|fz vs]; cbn [save_obj refs] in *; try contradiction.
      + apply (T_tuple proto T_quiet q_emit q_seq q_memoize q_get in_graph); auto. intros x Hx. apply in_map_iff in Hx as (w & <- & Hw). apply Sub, Hw.
      + apply (T_list proto T_quiet q_emit q_seq q_memoize in_graph); auto.
      + apply (T_dict proto T_quiet q_emit q_seq q_memoize in_graph); auto.
      + apply (T_instance proto T_quiet q_emit q_seq q_memoize q_get in_graph); auto.
        * apply Sub. left; auto.
        * intros x Hx. apply in_map_iff in Hx as (w & <- & Hw). apply Sub. right. apply in_app_iff; auto.
        * intros w Hw. apply Sub. right. rewrite !in_app_iff. auto.
        * intros w Hw. apply Sub. right. rewrite !in_app_iff. auto.
        * intros w Hw. apply Sub. right. rewrite !in_app_iff. auto.
      + assert (Rd : forall c xs k, in_graph c -> (forall x, In x xs -> exists w, x = AV w /\ in_graph w) -> T_quiet (save_reduce proto (save proto H n) false c xs SNone k)).
        { intros c0 xs k Hc Hx. apply (T_reduce proto T_quiet q_emit q_seq q_memoize q_get in_graph); auto.
          - intros x Hi. destruct (Hx x Hi) as (w & -> & Hw). exact Hw.
          - intros w []. }
        intros s Hs. unfold save_cell. destruct c as [w|].
        * rewrite Hs. assert (Ed : (match w with VR f => if memb f (map fst (@nil (oid * list pp))) then Some f else None | _ => None end) = @None nat) by (destruct w; reflexivity).
          destruct w as [a i|f]; cbn [map memb existsb]; apply Rd; auto; intros x [<-|[]]; eexists; (split; [reflexivity|]); apply Sub; left; auto.
        * revert s Hs. apply q_seq; [|apply q_seq; [|apply q_emit]]; apply Rd; auto; try exact I.
          -- intros x [<-|[]]; eexists; split; [reflexivity|exact I].
          -- intros x [<-|[<-|[]]]; eexists; split; try reflexivity; auto; exact I.
      + apply (T_set proto T_quiet q_emit q_seq q_memoize q_get in_graph); auto.
  Qed.
End Quiet.

Lemma get_stale (P : list (oid * list pp)) o (Q : list (oid * list pp)) : ~ In o (map fst P) -> get o (P ++ Q) = get o Q.
Proof.
  intros Hn. induction P as [|[o' l] P' IH]; auto. cbn [app get]. destruct (eqb_spec o o') as [->|]; [exfalso; apply Hn; left; auto|].
  apply IH. intros X; apply Hn; right; auto.
Qed.
Lemma del_stale (P : list (oid * list pp)) o (Q : list (oid * list pp)) : ~ In o (map fst P) -> del o (P ++ Q) = P ++ del o Q.
Proof.
  intros Hn. unfold del. rewrite filter_app. f_equal. induction P as [|[o' l] P' IH]; auto. cbn [filter fst].
  destruct (eqb_spec o o') as [->|]; [exfalso; apply Hn; left; auto|]. cbn [negb]. f_equal. apply IH. intros X; apply Hn; right; auto.
Qed.
Section Stale.
  Variable proto : nat.
  Variable H : oid -> option obj.
  Variable P : list (oid * list pp).
  Variable v0 : val.
  (** a state with the entries [P] left by an earlier dump *)
  Definition stale (s : pst) : pst := {| memo := memo s; post := P ++ post s |}.
  Definition clean (s : pst) : Prop := forall x p, In x (post s) -> In p (snd x) -> exists t, p = PSetQual t /\ reach H v0 t.
  Definition T_same (A : act) : Prop := forall s, clean s ->
    match A s with
    | Ok (l, s') => A (stale s) = Ok (l, stale s') /\ clean s'
    | Fail e s' => A (stale s) = Fail e (stale s')
    end.
  Lemma st_emit l : T_same (emit l).
  Proof. intros s Hs. split; auto. Qed.
  Lemma st_seq A B : T_same A -> T_same B -> T_same (A ;; B).
  Proof.
    intros HA HB s Hs. unfold seq. specialize (HA s Hs). destruct (A s) as [[l s1]|].
    - destruct HA as [-> Hs1]. specialize (HB s1 Hs1). destruct (B s1) as [[l2 s2]|]; [destruct HB as [-> Hs2]; auto|rewrite HB; auto].
    - rewrite HA. auto.
  Qed.
  Lemma st_memoize k : T_same (memoize proto k).
  Proof. intros s Hs. split; auto. Qed.
  Lemma stale_get k s : memo_get k (stale s) = memo_get k s.
  Proof. destruct k; reflexivity. Qed.
  Lemma st_get k (f : option nat -> act) : (forall i, T_same (f i)) -> T_same (fun s => f (memo_get k s) s).
  Proof. intros Hf s Hs. rewrite stale_get. apply Hf, Hs. Qed.

  (** nothing that dill completes later: no cell with contents, no function with globals of its own;
      and no function or class whose own earlier dump failed *)
  Hypothesis Hp : forall o, reach H v0 o ->
    match H o with
    | Some (OCell (Some _)) => False
    | Some (OFun _ (GCopy _ _) _ _ _ _) => False
    | Some (OFun _ _ _ _ _ _) | Some (OType _ _ _ _ _) => ~ In o (map fst P)
    | _ => True
    end.
  Notation in_graph := (in_graph H v0).

  Lemma st_post sv o own red : ~ In o (map fst P) -> (forall p, In p own -> exists t, p = PSetQual t /\ reach H v0 t) -> T_same red ->
    (forall v, in_graph v -> T_same (sv v)) -> T_same (save_with_postproc proto H sv o own red).
  Proof.
    intros Hn Hown Hr Hsv s Hs. unfold save_with_postproc.
    assert (Em : memb o (map fst (post (stale s))) = memb o (map fst (post s))).
    { cbn [post stale]. rewrite map_app. destruct (memb_spec o (map fst (post s))) as [Hi|Hi]; [apply memb_In|apply memb_nIn]; rewrite in_app_iff; tauto. }
    rewrite Em. destruct (memb o (map fst (post s))); [reflexivity|].
    set (s1 := {| memo := memo s; post := post s ++ [(o, own)] |}).
    assert (E1 : push_post o own s = Ok ([], s1)) by reflexivity.
    assert (E2 : push_post o own (stale s) = Ok ([], stale s1)) by (unfold push_post, stale; cbn [memo post s1]; rewrite app_assoc; reflexivity).
    assert (C1 : clean s1).
    { intros x p Hx Hi. cbn [post s1] in Hx. apply in_app_iff in Hx as [Hx|[<-|[]]]; [eapply Hs; eauto|apply Hown; exact Hi]. }
    assert (Sq : forall (A B : act) x y, A x = Ok ([], y) -> (A ;; B) x = B y).
    { intros A B x y EA. unfold seq. rewrite EA. destruct (B y) as [[l s2]|]; reflexivity. }
    rewrite (Sq _ _ _ _ E1), (Sq _ _ _ _ E2).
    assert (T : T_same (red ;; pop_run proto H sv o)).
    { apply st_seq; auto. clear s Hs Em s1 E1 E2 C1. intros s Hs. unfold pop_run. cbn [post stale]. rewrite get_stale, del_stale by auto.
      destruct (get o (post s)) as [l|] eqn:Eg; [|reflexivity].
      set (s2 := {| memo := memo s; post := del o (post s) |}).
      change {| memo := memo (stale s); post := P ++ del o (post s) |} with (stale s2).
      assert (C2 : clean s2). { intros x p Hx Hi. eapply Hs; [|exact Hi]. cbn [post s2] in Hx. unfold del in Hx. apply filter_In in Hx. tauto. }
      clearbody s2. revert s2 C2. change (T_same (seqs (exec_pp proto H sv) (rev l))).
      apply (T_seqs T_same st_emit st_seq). intros p Hi. apply in_rev in Hi.
      destruct (Hs (o, l) p (get_In _ _ _ Eg) Hi) as (t & -> & Rt). cbn [exec_pp].
      destruct (H t) as [[]|] eqn:Et; try (intros s0 _; reflexivity).
      apply st_seq; [|apply st_emit]. apply (T_reduce proto T_same st_emit st_seq st_memoize st_get in_graph); auto; try (intros; exact I).
      - intros x [<-|[<-|[<-|[]]]]; cbn; auto. destruct qual as [a i|o']; [exact I|]. cbn. eapply reach_closed; [exact Rt|exact Et|]. cbn. auto.
      - intros w []. }
    exact (T s1 C1).
  Qed.

  Lemma st_save fuel : forall v, in_graph v -> T_same (save proto H fuel v).
  Proof.
    induction fuel as [|n IH]; intros v Hv; [intros s Hs; reflexivity|]. cbn [save].
    assert (At : forall a i, in_graph (VA a i)) by (intros; exact I).
    assert (Sub : forall o b, reach H v0 o -> H o = Some b -> forall w, In w (refs b) -> in_graph w).
    { intros o b Ro Hb [a i|o'] Hi; [exact I|]. cbn. eapply reach_closed; eauto. }
    destruct v as [a i|o].
    - apply (T_atom proto T_same st_emit st_seq st_memoize st_get).
    - change (save_val proto H (save proto H n) (VR o)) with
        (fun s => (fun (x : option nat) s => match x with Some n => Ok ([GET n], s) | None => match H o with Some b => save_obj proto H (save proto H n) o b s | None => Fail Dangling s end end) (memo_get (KObj o) s) s).
      apply st_get. intros [x|]; [apply (st_emit [GET x])|]. destruct (H o) as [b|] eqn:Eb; [|intros s Hs; reflexivity].
      pose proof (Hp o Hv) as Hk. rewrite Eb in Hk. specialize (Sub o b Hv Eb).
      assert (Rd : forall c xs st k, in_graph c -> (forall x, In x xs -> Va in_graph x) ->
        (forall w, In w (state_vals st) -> in_graph w) -> T_same (save_reduce proto (save proto H n) false c xs st k)).
      { intros c0 xs st k Hc Hx Hst. apply (T_reduce proto T_same st_emit st_seq st_memoize st_get in_graph); auto. }
      destruct b as [vs|vs|kvs|nb c args li di st|co gl nm de cl st|mt nm bs d q|c|fz vs]; cbn [save_obj refs] in *; try contradiction.
      + apply (T_tuple proto T_same st_emit st_seq st_memoize st_get in_graph); auto. intros x Hx. apply in_map_iff in Hx as (w & <- & Hw). apply Sub, Hw.
      + apply (T_list proto T_same st_emit st_seq st_memoize in_graph); auto.
      + apply (T_dict proto T_same st_emit st_seq st_memoize in_graph); auto.
      + apply (T_instance proto T_same st_emit st_seq st_memoize st_get in_graph); auto.
        * apply Sub. left; auto.
        * intros x Hx. apply in_map_iff in Hx as (w & <- & Hw). apply Sub. right. apply in_app_iff; auto.
        * intros w Hw. apply Sub. right. rewrite !in_app_iff. auto.
        * intros w Hw. apply Sub. right. rewrite !in_app_iff. auto.
        * intros w Hw. apply Sub. right. rewrite !in_app_iff. auto.
      + destruct gl as [a|]; [|contradiction]. unfold save_function. apply st_post; auto; [intros p []|].
        apply Rd; [exact I| |intros w Hw; apply Sub; do 4 right; exact Hw].
        intros x Hx. cbn [In] in Hx. decompose [or] Hx; subst; try exact I; try contradiction; apply Sub; cbn; auto.
      + unfold save_type. apply st_post; auto; [intros p [<-|[]]; eauto|].
        apply Rd; [exact I| |intros w []].
        intros x Hx. cbn [In] in Hx. decompose [or] Hx; subst; try contradiction; try (apply Sub; cbn; auto; fail).
        intros w Hw. apply Sub. do 4 right. exact Hw.
      + destruct c; [contradiction|]. unfold save_cell. intros s. revert s. change (T_same (save_reduce proto (save proto H n) false (g_ GCreateCell) [AV (VA ACellEmpty 0)] SNone (Some (KObj o)) ;;
         save_reduce proto (save proto H n) false (g_ GDelattr) [AV (VR o); AV sCONTENTS] SNone None ;; emit [POP])).
        apply st_seq; [|apply st_seq; [|apply st_emit]]; apply Rd; try exact I; try (intros w F; exact (match F : False with end)).
        -- intros x [<-|[]]; exact I.
        -- intros x [<-|[<-|[]]]; auto.
      + apply (T_set proto T_same st_emit st_seq st_memoize st_get in_graph); auto.
  Qed.
End Stale.

(** ** C79: the theorems *)
(** a Pickler after any number of dumps that all succeeded and clear_memo() is as new *)
Theorem C79_success_partial : forall proto H fuel vs stream s, heap_wf H -> proto <= 5 ->
  write proto H fuel (map Dump vs) new_pickler = Ok (stream, s) -> clear_memo s = new_pickler.
Proof.
  intros proto H fuel vs stream s HW Hp E. destruct (C78_one_reader proto H fuel vs stream s [] HW Hp E) as (_ & _ & _ & _ & Ep).
  unfold clear_memo, new_pickler. rewrite Ep. reflexivity.
Qed.
(** If no function and no class is stored by value, then also after a dump that failed, for whatever
    reason and wherever it stopped. *)
Theorem C79_failed_partial : forall proto H fuel v s e s',
  (forall o, reach H v o -> match H o with Some (OFun _ _ _ _ _ _) | Some (OType _ _ _ _ _) => False | _ => True end) ->
  post s = [] -> dump proto H fuel v s = Fail e s' -> clear_memo s' = new_pickler.
Proof.
  intros proto H fuel v s e s' Hq Ep E. unfold dump in E.
  pose proof (q_save proto H v Hq fuel v) as Q. specialize (Q ltac:(destruct v; [exact I|apply r_here]) s Ep).
  destruct (save proto H fuel v s) as [[l s1]|e1 s1]; [discriminate|]. injection E as <- <-.
  unfold clear_memo, new_pickler. rewrite Q. reflexivity.
Qed.
(** Whatever earlier failed dumps have left behind: after clear_memo() a graph without non-empty cells
    and functions with globals of their own, and without the functions and classes whose dump failed
    before, is written exactly as by a new Pickler. *)
Theorem C79_stale_partial : forall proto H fuel v s,
  (forall o, reach H v o ->
     match H o with
     | Some (OCell (Some _)) => False
     | Some (OFun _ (GCopy _ _) _ _ _ _) => False
     | Some (OFun _ _ _ _ _ _) | Some (OType _ _ _ _ _) => ~ In o (map fst (post s))
     | _ => True
     end) ->
  match dump proto H fuel v new_pickler with
  | Ok (ops, _) => exists s', dump proto H fuel v (clear_memo s) = Ok (ops, s')
  | Fail e _ => exists s', dump proto H fuel v (clear_memo s) = Fail e s'
  end.
Proof.
  intros proto H fuel v s Hp.
  pose proof (st_save proto H (post s) v Hp fuel v) as Q. specialize (Q ltac:(destruct v; [exact I|apply r_here]) new_pickler ltac:(intros x p [])).
  unfold dump. replace (clear_memo s) with (stale (post s) new_pickler) by (unfold stale, clear_memo; cbn; rewrite app_nil_r; reflexivity).
  destruct (save proto H fuel v new_pickler) as [[l s1]|e1 s1]; [destruct Q as [-> _]|rewrite Q]; eauto.
Qed.

(** a function whose dump fails (0, one of its defaults cannot be pickled; in [fx'] it has been
    replaced), and an unrelated function with a closure (1) *)
Definition fx0 (d : val) (o : oid) : option obj :=
  match o with
  | 0 => Some (OFun (VA (AGlob (GUser "code_f")) 0) (GRef (AModDict "__main__")) (VA (AStr "f") 0) d vNone (SAttrs [] (Some [])))
  | 1 => Some (OFun (VA (AGlob (GUser "code_g")) 0) (GRef (AModDict "__main__")) (VA (AStr "g") 0) vNone (VR 2) (SAttrs [] (Some [])))
  | 2 => Some (OTup [VR 3])
  | 3 => Some (OCell (Some (VA (AScalar 42) 0)))
  | _ => None
  end.
Definition fx := fx0 (VR 9).
Definition fx' := fx0 vNone.
Lemma fx_wf d : heap_wf (fx0 d).
Proof. intros o b Ho. do 4 (destruct o as [|o]; [injection Ho as <-; split; try exact I; cbn; repeat split; auto; discriminate|]). discriminate. Qed.
(** C79 as stated is false: after the failed dump and clear_memo(), the unrelated function is dumped
    without an error, but what is loaded has None in its closure; a new Pickler does it right. *)
Theorem C79_reuse_refuted : forall proto, proto <= 5 ->
  exists s ops s' v' m, dump proto fx 20 (VR 0) new_pickler = Fail Dangling s /\
    dump proto fx 20 (VR 1) (clear_memo s) = Ok (ops, s') /\ loads ops = Some (v', m, []) /\
    follow (nth_error (heap m)) v' [SClosure; SItem 0; SContents] = Some vNone /\
    follow fx (VR 1) [SClosure; SItem 0; SContents] = Some (VA (AScalar 42) 0) /\
    ~ iso fx (VR 1) (heap m) v' /\
    exists ops0 v0 m0, dumps proto fx 20 (VR 1) = Ok ops0 /\ loads ops0 = Some (v0, m0, []) /\ iso fx (VR 1) (heap m0) v0.
Proof.
  intros p Hp. assert (D : exists ops0, dumps p fx 20 (VR 1) = Ok ops0).
  { assert (p = 0 \/ p = 1 \/ p = 2 \/ p = 3 \/ p = 4 \/ p = 5) as C by lia.
    destruct C as [->|[->|[->|[->|[->| ->]]]]]; eexists; vm_compute; reflexivity. }
  destruct D as (ops0 & D). destruct (C01_roundtrip p fx 20 (VR 1) ops0 (fx_wf _) Hp D) as (v0 & m0 & L0 & I0).
  assert (G : forall h v', follow (nth_error h) v' [SClosure; SItem 0; SContents] = Some vNone -> ~ iso fx (VR 1) h v').
  { intros h v' E Is. destruct (C02_paths fx (VR 1) h v' (fx_wf _) Is [SClosure; SItem 0; SContents] (VA (AScalar 42) 0) eq_refl) as (w & Ew & Hw & _).
    rewrite (Hw _ 0 eq_refl) in Ew. rewrite E in Ew. discriminate. }
  assert (W : exists s ops s' v' m, dump p fx 20 (VR 0) new_pickler = Fail Dangling s /\
    dump p fx 20 (VR 1) (clear_memo s) = Ok (ops, s') /\ loads ops = Some (v', m, []) /\
    follow (nth_error (heap m)) v' [SClosure; SItem 0; SContents] = Some vNone).
  { assert (p = 0 \/ p = 1 \/ p = 2 \/ p = 3 \/ p = 4 \/ p = 5) as C by lia.
    destruct C as [->|[->|[->|[->|[->| ->]]]]]; do 5 eexists; (split; [vm_compute; reflexivity|split; [vm_compute; reflexivity|split; [vm_compute; reflexivity|vm_compute; reflexivity]]]). }
  destruct W as (s & ops & s' & v' & m & A & B & C & E). exists s, ops, s', v', m. split; [exact A|]. split; [exact B|]. split; [exact C|]. split; [exact E|]. split; [reflexivity|].
  split; [exact (G _ _ E)|]. exists ops0, v0, m0. auto.
Qed.
(** The function itself cannot be dumped again once the reason for the failure has gone: it is taken
    for one that is being dumped (dill warns and tries to store it as a global). *)
Theorem C79_retry_refuted : forall proto, proto <= 5 ->
  exists s ops, dump proto fx 20 (VR 0) new_pickler = Fail Dangling s /\
    failed (dump proto fx' 20 (VR 0) (clear_memo s)) Recursive /\ dumps proto fx' 20 (VR 0) = Ok ops.
Proof.
  intros p Hp. assert (p = 0 \/ p = 1 \/ p = 2 \/ p = 3 \/ p = 4 \/ p = 5) as C by lia.
  destruct C as [->|[->|[->|[->|[->| ->]]]]]; do 2 eexists; (split; [vm_compute; reflexivity|split; [eexists; vm_compute; reflexivity|vm_compute; reflexivity]]).
Qed.

(** ** the hypotheses are met *)
Theorem C78_ex : heap_wf ex_heap /\ forall p, p <= 5 ->
  (exists stream s, write p ex_heap 40 (map Dump [VR 7; VR 5; VR 11; VR 0]) new_pickler = Ok (stream, s)) /\
  (exists stream s, write p ex_heap 40 (cleared [VR 7; VR 5; VR 11; VR 0]) new_pickler = Ok (stream, s)).
Proof.
  split; [exact ex_wf|]. intros p Hp. assert (p = 0 \/ p = 1 \/ p = 2 \/ p = 3 \/ p = 4 \/ p = 5) as C by lia.
  destruct C as [->|[->|[->|[->|[->| ->]]]]]; split; do 2 eexists; vm_compute; reflexivity.
Qed.
(** a dump that fails in a list; a class and an instance of it dumped after the failure of [fx] *)
Definition fy (o : oid) : option obj :=
  match o with
  | 0 => fx 0
  | 4 => Some (OList [VA (AScalar 1) 0; VR 5])
  | 5 => Some (OTup [VR 4; VR 9])
  | 6 => Some (ORed true (VR 7) [] [] [] (SAttrs [(VA (AStr "me") 0, VR 6)] None))
  | 7 => Some (OType (VA (AGlob (GUser "type")) 0) (VA (AStr "C") 0) (VA AEmptyTuple 0) [(VA (AStr "x") 0, VA (AScalar 3) 0)] (VA (AStr "C") 0))
  | _ => None
  end.
Theorem C79_ex : forall p, p <= 5 ->
  (forall o, reach fy (VR 4) o -> match fy o with Some (OFun _ _ _ _ _ _) | Some (OType _ _ _ _ _) => False | _ => True end) /\
  (exists s, dump p fy 20 (VR 4) new_pickler = Fail Dangling s) /\
  (exists s, dump p fy 20 (VR 0) new_pickler = Fail Dangling s /\ post s <> [] /\
     forall o, reach fy (VR 6) o ->
     match fy o with
     | Some (OCell (Some _)) => False
     | Some (OFun _ (GCopy _ _) _ _ _ _) => False
     | Some (OFun _ _ _ _ _ _) | Some (OType _ _ _ _ _) => ~ In o (map fst (post s))
     | _ => True
     end) /\
  (exists ops, dumps p fy 20 (VR 6) = Ok ops).
Proof.
  assert (R : forall v o, reach fy v o -> (v = VR 4 \/ v = VR 5 \/ v = VR 9 -> o = 4 \/ o = 5 \/ o = 9) /\ (v = VR 6 \/ v = VR 7 -> o = 6 \/ o = 7)).
  { intros v o Hr. induction Hr as [o|o b v o' Hb Hi Hr IH]; [split; intros X; decompose [or] X; match goal with E : VR _ = VR _ |- _ => injection E as -> end; auto|].
    destruct IH as [I1 I2]. split; intros X; decompose [or] X; clear X; (match goal with E : VR _ = VR _ |- _ => injection E as -> end);
      try discriminate Hb; injection Hb as <-; cbn in Hi; decompose [or] Hi; clear Hi; subst; try contradiction; try (inversion Hr; fail); auto. }
  intros p Hp. split; [|split; [|split]].
  - intros o Ho. apply R in Ho as [Ho _]. destruct Ho as [->|[->| ->]]; auto; exact I.
  - assert (p = 0 \/ p = 1 \/ p = 2 \/ p = 3 \/ p = 4 \/ p = 5) as C by lia.
    destruct C as [->|[->|[->|[->|[->| ->]]]]]; eexists; vm_compute; reflexivity.
  - assert (E : exists s, dump p fy 20 (VR 0) new_pickler = Fail Dangling s /\ map fst (post s) = [0]).
    { assert (p = 0 \/ p = 1 \/ p = 2 \/ p = 3 \/ p = 4 \/ p = 5) as C by lia.
      destruct C as [->|[->|[->|[->|[->| ->]]]]]; eexists; (split; [vm_compute; reflexivity|reflexivity]). }
    destruct E as (s & E & Ep). exists s. split; [exact E|]. split; [intros X; rewrite X in Ep; discriminate|].
    intros o Ho. rewrite Ep. apply R in Ho as [_ Ho]. destruct Ho as [->| ->]; auto; [exact I|]. cbn. intros [X|[]]; discriminate.
  - assert (p = 0 \/ p = 1 \/ p = 2 \/ p = 3 \/ p = 4 \/ p = 5) as C by lia.
    destruct C as [->|[->|[->|[->|[->| ->]]]]]; eexists; vm_compute; reflexivity.
Qed.
