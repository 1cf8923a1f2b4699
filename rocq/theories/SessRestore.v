(** C82, sessions saved with refimported=True. *)
From Coq Require Import String List Bool.
From Verif Require Import PyDict NamesModel StashModel SessRestoreModel.
Import ListNotations.
Local Open Scope string_scope.

Lemma restore_left_agrees fc imp d :
  _restore_modules fc imp d = match restore_left fc imp d with (None, d') => Ok d' | (Some e, _) => Err e end.
Proof.
  unfold _restore_modules, restore_left.
  destruct (get "__dill_imported" d) as [[]|]; try reflexivity.
  destruct (assign_all _ snd l _) as [[e1|] d1]; [destruct e1; reflexivity|].
  destruct (get "__dill_imported_as" d1) as [[]|]; try reflexivity.
  destruct (assign_all _ snd l0 _) as [[e2|] d2]; [destruct e2; reflexivity|].
  destruct (get "__dill_imported_top_level" d2) as [[]|]; try reflexivity.
  destruct (assign_all _ snd l1 _) as [[e3|] d3]; [destruct e3; reflexivity|]. reflexivity.
Qed.

(** the three lists in a saved namespace *)
Definition listed (d : dict string lval) (k : string) : Prop :=
  (exists l m, get "__dill_imported" d = Some (LImp l) /\ In (m, k) l) \/
  (exists l m o, get "__dill_imported_as" d = Some (LImpAs l) /\ In (m, o, k) l) \/
  (exists l m, get "__dill_imported_top_level" d = Some (LImpTop l) /\ In (m, k) l).
Definition own_name (k : string) : Prop := k = "__dill_imported" \/ k = "__dill_imported_as" \/ k = "__dill_imported_top_level".

Lemma assign_other {A} (look : A -> res oid) (key : A -> string) l : forall d k, ~ In k (map key l) -> get k (snd (assign_all look key l d)) = get k d.
Proof.
  induction l as [|x l IH]; intros d k Hn; [reflexivity|]. cbn [assign_all]. destruct (look x); [|reflexivity].
  rewrite IH by (intros Hi; apply Hn; right; auto). apply get_set_other. intros ->. apply Hn. left. auto.
Qed.
Lemma snd_swallow r : snd (swallow r) = snd r.
Proof. destruct r as [[[]|] d]; reflexivity. Qed.

(** names that are not imported ones are never touched by the second phase, whether it fails or not (so they are all
    as BUILD left them: restored if saved, as before otherwise).  The lists are not to bind each other's names. *)
Theorem C82_values_kept_partial : forall fc imp d k,
  (forall n, own_name n -> ~ listed d n) ->
  ~ listed d k -> ~ own_name k -> get k (snd (restore_left fc imp d)) = get k d.
Proof.
  intros fc imp d k No Nl Nk. unfold restore_left.
  assert (K1 : k <> "__dill_imported") by (intros ->; apply Nk; left; auto).
  assert (K2 : k <> "__dill_imported_as") by (intros ->; apply Nk; right; left; auto).
  assert (K3 : k <> "__dill_imported_top_level") by (intros ->; apply Nk; right; right; auto).
  destruct (get "__dill_imported" d) as [[o|s|l|l|l]|] eqn:E1; try (cbn [snd]; apply get_del_other; exact K1).
  assert (N1 : forall n, ~ listed d n -> ~ In n (map snd l)).
  { intros n Hn Hi. apply in_map_iff in Hi as ([m n'] & En & Hi). cbn in En. subst. apply Hn. left. eauto. }
  pose proof (fun n Hn => assign_other (fun x : string * string => fc (fst x) (snd x)) snd l (del "__dill_imported" d) n (N1 n Hn)) as O1.
  destruct (assign_all _ snd l _) as [e1 d1]. cbn [snd] in O1.
  assert (B1 : get k d1 = get k d) by (rewrite O1 by exact Nl; apply get_del_other; exact K1).
  destruct e1 as [e1|]; [rewrite snd_swallow; exact B1|].
  assert (G2 : get "__dill_imported_as" d1 = get "__dill_imported_as" d).
  { rewrite O1 by (apply No; right; left; auto). apply get_del_other. discriminate. }
  assert (G3 : get "__dill_imported_top_level" d1 = get "__dill_imported_top_level" d).
  { rewrite O1 by (apply No; right; right; auto). apply get_del_other. discriminate. }
  rewrite G2. destruct (get "__dill_imported_as" d) as [[o|s|l2|l2|l2]|] eqn:E2; try (cbn [snd]; rewrite get_del_other by exact K2; exact B1).
  assert (N2 : forall n, ~ listed d n -> ~ In n (map snd l2)).
  { intros n Hn Hi. apply in_map_iff in Hi as ([[m o] n'] & En & Hi). cbn in En. subst. apply Hn. right. left. eauto. }
  pose proof (fun n Hn => assign_other (fun x : string * string * string => fc (fst (fst x)) (snd (fst x))) snd l2 (del "__dill_imported_as" d1) n (N2 n Hn)) as O2.
  destruct (assign_all _ snd l2 _) as [e2 d2]. cbn [snd] in O2.
  assert (B2 : get k d2 = get k d) by (rewrite O2 by exact Nl; rewrite get_del_other by exact K2; exact B1).
  destruct e2 as [e2|]; [rewrite snd_swallow; exact B2|].
  assert (G4 : get "__dill_imported_top_level" d2 = get "__dill_imported_top_level" d).
  { rewrite O2 by (apply No; right; right; auto). rewrite get_del_other by discriminate. exact G3. }
  rewrite G4. destruct (get "__dill_imported_top_level" d) as [[o|s|l3|l3|l3]|] eqn:E3; try (cbn [snd]; rewrite get_del_other by exact K3; exact B2).
  rewrite snd_swallow. rewrite assign_other.
  - rewrite get_del_other by exact K3. exact B2.
  - intros Hi. apply in_map_iff in Hi as ([m n'] & En & Hi). cbn in En. subst. apply Nl. right. right. eauto.
Qed.

(** the session of a module with  x = 5  and two imported names, loaded where x is 1 and the second import fails *)
Definition rf_old : dict string lval := [("x", LObj 1); ("y", LObj 2)].
Definition rf_saved : dict string lval :=
  [("x", LObj 5); ("__dill_imported", LImp [("os", "path"); ("gone", "f")]); ("__dill_imported_as", LImpAs [("re", "compile", "c")]); ("__dill_imported_top_level", LImpTop [])].
Definition rf_fc (e : exn) (m n : string) : res oid := if String.eqb m "gone" then Err e else Ok 7.
Definition rf_imp (m : string) : res oid := Ok 8.
(** a load that raises may leave the namespace changed: the saved values are in, the imported names only in part, and
    the lists themselves are left among the names *)
Theorem C82_refimported_refuted :
  ~ (forall fc imp d0 s e d, load_refimported fc imp d0 s = (Some e, d) -> forall k, get k d = get k d0) /\
  (forall e, e <> KeyError -> exists d, load_refimported (rf_fc e) rf_imp rf_old rf_saved = (Some e, d) /\
     get "x" d = Some (LObj 5) /\ get "path" d = Some (LObj 7) /\ get "f" d = None /\ get "c" d = None /\
     get "__dill_imported_as" d = Some (LImpAs [("re", "compile", "c")])).
Proof.
  split.
  - intros F. specialize (F (rf_fc ImportError) rf_imp rf_old rf_saved ImportError _ eq_refl "x"). discriminate F.
  - intros e He. eexists. split; [|split; [|split; [|split; [|split]]]].
    + unfold load_refimported. destruct e; try congruence; reflexivity.
    + reflexivity.
    + reflexivity.
    + reflexivity.
    + reflexivity.
    + reflexivity.
Qed.
(** and a load that does not raise may have restored only some of the names: a KeyError from an import (raised, say,
    by the code of the imported module) is taken for the absence of the lists *)
Theorem C82_keyerror_refuted :
  ~ (forall fc imp d0 s d, load_refimported fc imp d0 s = (None, d) -> forall l m n, get "__dill_imported" s = Some (LImp l) -> In (m, n) l -> get n d <> None) /\
  exists d, load_refimported (rf_fc KeyError) rf_imp rf_old rf_saved = (None, d) /\ get "f" d = None /\ get "c" d = None.
Proof.
  split.
  - intros F. refine (F (rf_fc KeyError) rf_imp rf_old rf_saved _ eq_refl _ "gone" "f" eq_refl _ eq_refl). right. left. reflexivity.
  - eexists. split; [reflexivity|]. split; reflexivity.
Qed.
(** the case meets the hypotheses of C82_values_kept_partial *)
Lemma C82_values_case : let d := update rf_old rf_saved in (forall n, own_name n -> ~ listed d n) /\ ~ listed d "x" /\ ~ own_name "x" /\ listed d "f" /\ get "x" (snd (restore_left (rf_fc ImportError) rf_imp d)) = Some (LObj 5).
Proof.
  cbn zeta. assert (X : forall k, listed (update rf_old rf_saved) k -> k = "path" \/ k = "f" \/ k = "c").
  { intros k [(l & m & E & Hi)|[(l & m & o & E & Hi)|(l & m & E & Hi)]]; injection E as <-.
    - destruct Hi as [E|[E|[]]]; injection E as <- <-; auto.
    - destruct Hi as [E|[]]; injection E as <- <- <-; auto.
    - destruct Hi. }
  split. { intros n Hn L. apply X in L. destruct Hn as [->|[->| ->]]; destruct L as [L|[L|L]]; discriminate. }
  split. { intros L. apply X in L. destruct L as [L|[L|L]]; discriminate. }
  split. { intros [L|[L|L]]; discriminate. }
  split; [|reflexivity]. left. exists [("os", "path"); ("gone", "f")], "gone". split; [reflexivity|]. right. left. reflexivity.
Qed.
