(** C105: globalvars(func, recurse=False). *)
From Coq Require Import String Ascii List Bool Arith Lia.
From Verif Require Import PyDict GlobalsModel GlobalsProofs GlobalsProps.
Import ListNotations.
Local Open Scope string_scope.

(** the names that count for [o]: those its own code lists, and those that count for what its closure holds;
    a code object has no globals, so that only names of builtins count for it *)
Inductive names_of (H : nat -> obj) (bi : dict string nat) (b : bool) : nat -> string -> Prop :=
| names_own : forall o co g cells n, H (unmethod H o) = OFunc co g cells -> In n (co_names co) -> names_of H bi b o n
| names_cell : forall o co g cells c n, H (unmethod H o) = OFunc co g cells -> In (Some c) cells -> names_of H bi b c n -> names_of H bi b o n
| names_code : forall o co n x, H (unmethod H o) = OCode co -> In n (co_names co) -> b = true -> get n bi = Some x -> names_of H bi b o n.

Lemma flat_func fuel H bi b o co g cells r : H (unmethod H o) = OFunc co g cells ->
  globalvars (S fuel) H bi false b o = Some r ->
  exists names globs,
    fold_opt (cell_step (globalvars fuel H bi false b)) cells ([], if b then bi else []) = Some (names, globs) /\
    r = pick (names ++ co_names co)%list (update globs g).
Proof.
  intros Ho E. cbn [globalvars] in E. rewrite Ho in E.
  destruct (fold_opt (cell_step _) _ _) as [[names globs]|] eqn:E1; [|discriminate]. injection E as <-. eauto.
Qed.
Lemma cells_names gv : forall cells st st', fold_opt (cell_step gv) cells st = Some st' ->
  forall n, In n (fst st') <-> In n (fst st) \/ exists c vars, In (Some c) cells /\ gv c = Some vars /\ In n (keys vars).
Proof.
  induction cells as [|cell cells IH]; intros st st' E n; cbn [fold_opt] in E.
  - injection E as <-. split; [auto|intros [Hn|[c [vars [[] _]]]]; auto].
  - destruct (cell_step gv st cell) as [st1|] eqn:E1; [|discriminate]. rewrite (IH _ _ E n).
    destruct cell as [c0|]; cbn [cell_step] in E1.
    + destruct (gv c0) as [v0|] eqn:Ev; [|discriminate]. injection E1 as <-. cbn [fst]. rewrite in_app_iff. split.
      * intros [[Hn|Hn]|[c [vars [H1 [H2 H3]]]]]; auto; right; [exists c0, v0|exists c, vars]; simpl; auto.
      * intros [Hn|[c [vars [[H1|H1] [H2 H3]]]]]; auto; [injection H1 as ->; rewrite Ev in H2; injection H2 as <-; auto|right; eauto].
    + injection E1 as <-. split.
      * intros [Hn|[c [vars [H1 [H2 H3]]]]]; auto. right. exists c, vars. simpl; auto.
      * intros [Hn|[c [vars [[H1|H1] [H2 H3]]]]]; auto; [discriminate|right; eauto].
Qed.
Lemma in_keys (n : string) (d : dict string nat) : wf d -> In n (keys d) <-> exists v, get n d = Some v.
Proof.
  intros _. split.
  - intros Hn. destruct (get n d) as [v|] eqn:E; [eauto|]. apply get_None_iff in E. contradiction.
  - intros [v Hv]. destruct (memb_spec n (keys d)) as [Hm|Hm]; auto. apply get_None_iff in Hm. congruence.
Qed.

(** C105.  For the functions of one module: the result binds exactly the names that count, to what the function
    sees under them, and nothing else. *)
Theorem C105_exact : forall H bi b G P, wf_world H bi -> wf G -> one_module H G P ->
  forall fuel o r co g cells, P o -> H (unmethod H o) = OFunc co g cells -> globalvars fuel H bi false b o = Some r ->
  forall n v, get n r = Some v <-> names_of H bi b o n /\ sees bi b G n = Some v.
Proof.
  intros H bi b G P Hw HG Hm.
  assert (Q : forall fuel o r, P o -> globalvars fuel H bi false b o = Some r ->
    (forall n v, get n r = Some v -> names_of H bi b o n /\ ((exists co, H (unmethod H o) = OCode co) \/ sees bi b G n = Some v) /\ exists v', sees bi b G n = Some v') /\
    (forall n v, names_of H bi b o n -> sees bi b G n = Some v -> exists v', get n r = Some v' /\ ((exists co, H (unmethod H o) = OCode co) \/ v' = v)) /\
    (forall n v co, H (unmethod H o) = OCode co -> get n r = Some v -> b = true /\ get n bi = Some v)).
  { induction fuel as [|fuel IH]; intros o r Po E; [discriminate|].
    destruct (H (unmethod H o)) as [co g cells|f|co|] eqn:Ho.
    - destruct (Hm o co g cells Po Ho) as [-> Hc].
      destruct (flat_func _ _ _ _ _ _ _ _ _ Ho E) as [names [globs [E1 ->]]].
      pose proof (cells_names _ _ _ _ E1) as Hn. cbn [fst] in Hn.
      assert (Hwf : forall c vars, globalvars fuel H bi false b c = Some vars -> wf vars) by (intros c vars; apply globalvars_wf).
      assert (HB : forall n x, get n globs = Some x -> get n G = None -> b = true /\ get n bi = Some x).
      { intros n x Hx HGn. destruct (cells_globs _ _ _ _ E1 Hwf n x Hx) as [Hs|[c [rc [Hi [Ec Hs]]]]].
        - cbn [snd] in Hs. destruct b; [auto|discriminate].
        - destruct (IH c rc (Hc c Hi) Ec) as [Ha [_ Hcode]]. destruct (Ha n x Hs) as [_ [[[co' Hco]|Hs'] _]]; [eauto|].
          unfold sees in Hs'. rewrite HGn in Hs'. destruct b; [auto|discriminate]. }
      assert (HK : forall n x, b = true -> get n bi = Some x -> exists y, get n globs = Some y).
      { intros n x -> Hx. apply (cells_globs_kept _ _ _ _ E1 Hwf n x). exact Hx. }
      assert (HS : forall n, get n (update globs G) = sees bi b G n).
      { intros n. rewrite get_update by exact HG. unfold sees. destruct (get n G) as [v|] eqn:Eg; [reflexivity|].
        destruct (get n globs) as [x|] eqn:Ex.
        - destruct (HB n x Ex Eg) as [-> ->]. reflexivity.
        - destruct b; [|reflexivity]. destruct (get n bi) as [x|] eqn:Eb; [|reflexivity]. destruct (HK n x eq_refl Eb) as [y Hy]. congruence. }
      assert (HN : forall n v, sees bi b G n = Some v -> (In n (names ++ co_names co)%list <-> names_of H bi b o n)).
      { intros n v Hv. rewrite in_app_iff, Hn. split.
        - intros [[[]|[c [rc [Hi [Ec Hk]]]]]|Hk]; [|eapply names_own; eauto].
          apply (in_keys n rc (Hwf _ _ Ec)) in Hk as [w Hk]. eapply names_cell; eauto.
          destruct (IH c rc (Hc c Hi) Ec) as [Ha _]. exact (proj1 (Ha n w Hk)).
        - intros Hx. inversion Hx as [o' co' g' cells' n' Ho' Hi'|o' co' g' cells' c n' Ho' Hi' Hx'|o' co' n' x Ho' Hi' Hb Hx']; subst o' n'; rewrite Ho in Ho'; try discriminate.
          + injection Ho' as <- <- <-. auto.
          + injection Ho' as <- <- <-. left. right.
            destruct (fold_opt_each _ _ _ _ E1 (Some c) Hi') as [st [st' Es]]. cbn [cell_step] in Es.
            destruct (globalvars fuel H bi false b c) as [rc|] eqn:Ec; [|discriminate].
            exists c, rc. split; [auto|]. split; [auto|]. apply (in_keys n rc (Hwf _ _ Ec)).
            destruct (IH c rc (Hc c Hi') Ec) as [_ [Hb _]]. destruct (Hb n v Hx' Hv) as [v' [Hv' _]]. eauto. }
      split; [|split].
      + intros n v Hr. rewrite get_pick in Hr. destruct (memb_spec n (names ++ co_names co)%list) as [Hi|]; [|discriminate].
        rewrite HS in Hr. split; [apply (HN n v Hr); auto|]. eauto.
      + intros n v Hx Hv. exists v. split; auto. rewrite get_pick, HS, Hv.
        replace (memb n (names ++ co_names co)%list) with true; auto. symmetry. apply memb_In, (HN n v Hv), Hx.
      + intros; discriminate.
    - cbn [globalvars] in E. rewrite Ho in E. injection E as <-. split; [|split].
      + intros n v Hr; discriminate.
      + intros n v Hx. inversion Hx; congruence.
      + intros; discriminate.
    - cbn [globalvars] in E. rewrite Ho in E. injection E as <-.
      assert (R : forall n v, get n (pick (co_names co) (if b then bi else [])) = Some v -> In n (co_names co) /\ b = true /\ get n bi = Some v).
      { intros n v Hr. rewrite get_pick in Hr. destruct (memb_spec n (co_names co)) as [Hi|]; [|discriminate]. destruct b; [auto|discriminate]. }
      split; [|split].
      + intros n v Hr. destruct (R n v Hr) as [Hi [Hb Hx]]. split; [eapply names_code; eauto|]. split; [left; eauto|].
        unfold sees. destruct (get n G); [eauto|]. rewrite Hb. eauto.
      + intros n v Hx Hv. inversion Hx as [o' co' g' cells' n' Ho' Hi'|o' co' g' cells' c n' Ho' Hi' Hx'|o' co' n' x Ho' Hi' Hb Hx']; subst o' n'; rewrite Ho in Ho'; try discriminate.
        injection Ho' as <-. exists x. split; [|left; eauto]. rewrite get_pick, Hb.
        replace (memb n (co_names co)) with true; [exact Hx'|]. symmetry. apply memb_In, Hi'.
      + intros n v co' _ Hr. destruct (R n v Hr) as [_ Hr']. exact Hr'.
    - cbn [globalvars] in E. rewrite Ho in E. injection E as <-. split; [|split].
      + intros n v Hr; discriminate.
      + intros n v Hx. inversion Hx; congruence.
      + intros; discriminate. }
  intros fuel o r co g cells Po Ho E n v. destruct (Q fuel o r Po E) as [H1 [H2 _]]. split.
  - intros Hr. destruct (H1 n v Hr) as [Ha [[[co' Hb]|Hb] _]]; [congruence|auto].
  - intros [Hx Hv]. destruct (H2 n v Hx Hv) as [v' [Hr [[co' Hb]| ->]]]; [congruence|auto].
Qed.
(** of a code object: exactly the builtins it names if builtin=True, nothing otherwise *)
Theorem C105_code : forall H bi b o co, H o = OCode co -> exists r, (forall fuel, globalvars (S fuel) H bi false b o = Some r) /\
  forall n v, get n r = Some v <-> b = true /\ In n (co_names co) /\ get n bi = Some v.
Proof.
  intros H bi b o co Ho. exists (pick (co_names co) (if b then bi else [])). split.
  - intros fuel. cbn [globalvars]. replace (unmethod H o) with o by (unfold unmethod; now rewrite Ho). rewrite Ho. reflexivity.
  - intros n v. rewrite get_pick. destruct (memb_spec n (co_names co)) as [Hi|Hi]; destruct b; cbn [get]; split; try tauto; try discriminate; intros [Hx _]; discriminate.
Qed.
(** anything else, a builtin function or a class for example, gives {} whatever the settings *)
Theorem C105_other : forall H bi rc b o fuel, H o = OOther -> globalvars (S fuel) H bi rc b o = Some [].
Proof.
  intros H bi rc b o fuel Ho. cbn [globalvars]. replace (unmethod H o) with o by (unfold unmethod; now rewrite Ho). rewrite Ho. reflexivity.
Qed.
(** It returns if no function is reached again through closures; what a global is bound to does not matter. *)
Inductive closes (H : nat -> obj) : nat -> nat -> Prop :=
| closes_cell : forall o co g cells c, H (unmethod H o) = OFunc co g cells -> In (Some c) cells -> closes H o c.
Theorem C105_terminates : forall H bi b o, Acc (fun c o => closes H o c) o -> exists fuel r, globalvars fuel H bi false b o = Some r.
Proof.
  intros H bi b o HA. induction HA as [o _ IH].
  destruct (H (unmethod H o)) as [co g cells|f|co|] eqn:Ho; [|exists 1; cbn [globalvars]; rewrite Ho; eauto..].
  assert (Huni : forall cs, (forall c, In (Some c) cs -> In (Some c) cells) -> exists F, forall c, In (Some c) cs -> exists r, globalvars F H bi false b c = Some r).
  { induction cs as [|[c|] cs IHc]; intros Hc.
    - exists 0. intros c [].
    - destruct IHc as [F1 H1]; [intros y Hy; apply Hc; simpl; auto|].
      destruct (IH c) as [F2 [r2 H2]]; [eapply closes_cell; eauto; apply Hc; simpl; auto|].
      exists (F1 + F2). intros y [Hy|Hy].
      + injection Hy as <-. exists r2. eapply globalvars_le; [|exact H2]. lia.
      + destruct (H1 y Hy) as [r Hr]. exists r. eapply globalvars_le; [|exact Hr]. lia.
    - destruct IHc as [F1 H1]; [intros y Hy; apply Hc; simpl; auto|]. exists F1. intros y [Hy|Hy]; [discriminate|auto]. }
  destruct (Huni cells (fun c Hc => Hc)) as [F HF]. exists (S F).
  destruct (fold_opt_total (cell_step (globalvars F H bi false b)) cells ([], if b then bi else [])) as [[names globs] E1].
  { intros st [c|] Hc; cbn [cell_step]; [|eauto]. destruct (HF c Hc) as [r ->]. eauto. }
  cbn [globalvars]. rewrite Ho, E1. eauto.
Qed.
(** ... but an inner function whose closure holds itself, as every recursive inner function, makes it recurse for ever *)
Theorem C105_inner_recursion_refuted : forall H bi b o co g cells, H o = OFunc co g cells -> In (Some o) cells ->
  forall fuel rc, globalvars fuel H bi rc b o = None.
Proof.
  intros H bi b o co g cells Ho Hc. induction fuel as [|fuel IH]; intros rc; [reflexivity|].
  cbn [globalvars]. replace (unmethod H o) with o by (unfold unmethod; now rewrite Ho). rewrite Ho.
  destruct (fold_opt (cell_step _) _ _) as [[names globs]|] eqn:E; [|reflexivity].
  destruct (fold_opt_each _ _ _ _ E _ Hc) as [st [st' Es]]. cbn [cell_step] in Es. rewrite IH in Es. discriminate.
Qed.
(** f uses K and closes over g, which uses len and L; h is only named by L's value, a function *)
Example ex_C105 : let G := [("K", 5); ("L", 6); ("M", 7)] in
  let H := fun o => match o with 1 => OFunc (leaf "f" ["K"]) G [Some 2] | 2 => OFunc (leaf "g" ["len"; "L"]) G [] | 6 => OFunc (leaf "h" ["M"]) G [] | _ => OOther end in
  globalvars 9 H [("len", 8)] false true 1 = Some [("len", 8); ("L", 6); ("K", 5)] /\
  globalvars 9 H [("len", 8)] false false 1 = Some [("L", 6); ("K", 5)] /\
  one_module H G (fun o => o = 1 \/ o = 2).
Proof.
  cbv zeta. split; [reflexivity|]. split; [reflexivity|].
  intros o co g cells [-> | ->] Ho; injection Ho as <- <- <-; split; auto; intros c Hc; cbn [In] in Hc; intuition congruence.
Qed.
Print Assumptions C105_exact.
Print Assumptions C105_terminates.
