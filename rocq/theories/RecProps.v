(** C71: a function or class that is saved by value comes back as a copy -- unless it is inside what is needed to create it. *)
From Coq Require Import String List Bool Arith ZArith Lia.
From Verif Require Import PyDict CoreModel CoreSpec CoreProps CoreTerm CoreExamples CoreTermEx CoreTotal RecModel RecSpec RecProofs.
Import ListNotations.
Local Open Scope string_scope.
Local Open Scope list_scope.

(** ** dumps that do not meet the case are those of CoreModel *)
Definition le (A B : act) : Prop := forall s r, A s = Ok r -> B s = Ok r.
Lemma le_refl A : le A A.
Proof. intros s r E. exact E. Qed.
Lemma le_seq A B A' B' : le A A' -> le B B' -> le (A ;; B) (A' ;; B').
Proof.
  intros HA HB s r E. unfold seq in *. destruct (A s) as [[l s1]|] eqn:EA; [|discriminate]. rewrite (HA _ _ EA). destruct (B s1) as [[l' s2]|] eqn:EB; [|discriminate]. rewrite (HB _ _ EB). exact E.
Qed.
Lemma le_seqs {A} (f g : A -> act) l : (forall x, le (f x) (g x)) -> le (seqs f l) (seqs g l).
Proof. intros HF. induction l; cbn [seqs]; [apply le_refl|apply le_seq; auto]. Qed.
Lemma le_look k (A A' : nat -> res (list op * pst)) B B' : le B B' -> le (fun s => match memo_get k s with Some i => Ok ([POP; GET i], s) | None => B s end) (fun s => match memo_get k s with Some i => Ok ([POP; GET i], s) | None => B' s end).
Proof. intros HB s r. destruct (memo_get k s); auto. Qed.

Section Mono.
  Variable proto : nat.
  Variable H : nat -> option obj.
  Variable names : nat -> option string.
  Variables sv sv' : val -> act.
  Hypothesis SV : forall v, le (sv v) (sv' v).
  Lemma le_batches {A} (one one' : A -> act) (many many' : list A -> act) : (forall x, le (one x) (one' x)) -> (forall x, le (many x) (many' x)) ->
    forall fuel l, le (batches one many fuel l) (batches one' many' fuel l).
  Proof.
    intros H1 H2. induction fuel as [|fuel IH]; intros l; [apply le_refl|]. unfold batches; fold (@batches A). apply le_seq.
    - destruct (firstn BATCHSIZE l) as [|x [|y t]]; [apply le_refl|apply H1|apply H2].
    - destruct (Nat.ltb _ _); [apply le_refl|apply IH].
  Qed.
  Lemma le_kv p : le (save_kv sv p) (save_kv sv' p).
  Proof. unfold save_kv. apply le_seq; apply SV. Qed.
  Lemma le_appends vs : le (batch_appends proto sv vs) (batch_appends proto sv' vs).
  Proof.
    unfold batch_appends. destruct (bin proto).
    - apply le_batches; intros x; [apply le_seq; [apply SV|apply le_refl]|]. apply le_seq; [apply le_refl|]. apply le_seq; [apply le_seqs; exact SV|apply le_refl].
    - apply le_seqs. intros x. apply le_seq; [apply SV|apply le_refl].
  Qed.
  Lemma le_setitems vs : le (batch_setitems proto sv vs) (batch_setitems proto sv' vs).
  Proof.
    unfold batch_setitems. destruct (bin proto).
    - apply le_batches; intros x; [apply le_seq; [apply le_kv|apply le_refl]|]. apply le_seq; [apply le_refl|]. apply le_seq; [apply le_seqs; exact le_kv|apply le_refl].
    - apply le_seqs. intros x. apply le_seq; [apply le_kv|apply le_refl].
  Qed.
  Lemma le_dict k kvs : le (save_dict proto sv k kvs) (save_dict proto sv' k kvs).
  Proof. unfold save_dict. apply le_seq; [apply le_refl|]. apply le_seq; [apply le_refl|apply le_setitems]. Qed.
  Lemma le_list k vs : le (save_list proto sv k vs) (save_list proto sv' k vs).
  Proof. unfold save_list. apply le_seq; [apply le_refl|]. apply le_seq; [apply le_refl|apply le_appends]. Qed.
  Lemma le_arg x : le (save_arg proto sv x) (save_arg proto sv' x).
  Proof. destruct x; [apply SV|apply le_dict|apply le_list]. Qed.
  Lemma le_tuple k xs : le (save_tuple proto sv k xs) (save_tuple proto sv' k xs).
  Proof.
    unfold save_tuple. destruct xs as [|x xs]; [apply le_refl|]. cbv zeta. destruct (Nat.leb _ 3 && Nat.leb 2 proto).
    - apply le_seq; [apply le_seqs; exact le_arg|apply le_refl].
    - apply le_seq; [apply le_refl|]. apply le_seq; [apply le_seqs; exact le_arg|apply le_refl].
  Qed.
  Lemma le_state st : le (save_state proto sv st) (save_state proto sv' st).
  Proof. destruct st as [|v|d [sl|]]; cbn [save_state]; [apply le_refl| | |]; (apply le_seq; [|apply le_refl]); [apply SV|apply le_tuple|apply le_dict]. Qed.
  Lemma le_call nb c args : le (red_call proto sv nb c args) (red_call proto sv' nb c args).
  Proof.
    unfold red_call. destruct nb; [destruct (Nat.leb 2 proto)|]; (apply le_seq; [apply SV|]; apply le_seq; [apply le_tuple|apply le_refl]).
  Qed.
  Lemma le_reduce nb c args st k : le (save_reduce proto sv nb c args st k) (save_reduce proto sv' nb c args st k).
  Proof. unfold save_reduce. apply le_seq; [apply le_call|]. apply le_seq; [apply le_refl|apply le_state]. Qed.
  Lemma le_instance nb c args li di st k : le (save_instance proto sv nb c args li di st k) (save_instance proto sv' nb c args li di st k).
  Proof.
    unfold save_instance. apply le_seq; [apply le_call|]. apply le_seq; [apply le_refl|]. apply le_seq; [apply le_appends|]. apply le_seq; [apply le_setitems|apply le_state].
  Qed.
  Lemma le_set k fz vs : le (save_set proto sv k fz vs) (save_set proto sv' k fz vs).
  Proof.
    unfold save_set. destruct (Nat.leb 4 proto); [destruct fz|apply le_reduce].
    - apply le_seq; [apply le_refl|]. apply le_seq; [apply le_seqs; exact SV|apply le_refl].
    - assert (forall l, le (add_batch sv l) (add_batch sv' l)) as A by (intros l; apply le_seq; [apply le_refl|]; apply le_seq; [apply le_seqs; exact SV|apply le_refl]).
      apply le_seq; [apply le_refl|]. apply le_seq; [apply le_refl|]. apply le_batches; auto.
  Qed.
  Lemma le_exec p : le (exec_pp proto H sv p) (exec_pp proto H sv' p).
  Proof.
    destruct p; cbn [exec_pp].
    - destruct (H c) as [[| | | | | |[v|]|]|]; try apply le_refl. apply le_seq; [apply le_reduce|apply le_refl].
    - destruct (glob_items H f) as [[|kv kvs]|]; try apply le_refl. intros s r. destruct (memo_get (KGlob f) s); [|auto]. apply le_seq; [apply le_refl|]. apply le_seq; [apply le_setitems|apply le_refl].
    - destruct (H t) as [[]|]; try apply le_refl. apply le_seq; [apply le_reduce|apply le_refl].
  Qed.
  Lemma le_postproc o own A A' : le A A' -> le (save_with_postproc proto H sv o own A) (save_with_postproc proto H sv' o own A').
  Proof.
    intros HA s r. unfold save_with_postproc. destruct (memb o _); [auto|]. apply le_seq; [apply le_refl|]. apply le_seq; [exact HA|]. intros s1 r1. unfold pop_run. destruct (get o (post s1)); [|auto].
    apply le_seqs. exact le_exec.
  Qed.
  Lemma le_obj o b : le (save_obj proto H sv o b) (save_obj_r proto H names sv' o b).
  Proof.
    destruct b as [vs|vs|kvs|nb c args li di st|co gl nm de cl st|mt nm bs d q|c|fz vs]; cbn [save_obj save_obj_r].
    - apply le_tuple.
    - apply le_list.
    - apply le_dict.
    - apply le_instance.
    - intros s r E. unfold save_function_r. destruct (memb o (map fst (post s))) eqn:M.
      + exfalso. unfold save_function in E. destruct gl as [a|g mo].
        * unfold save_with_postproc in E. rewrite M in E. discriminate.
        * destruct (H g) as [[]|]; try discriminate. unfold seq in E at 1.
          destruct (match first_in (map snd kvs) (post s) with Some e => add_pp e (PSetItems o) | None => emit [] end s) as [[l s1]|] eqn:A; [|discriminate].
          assert (map fst (post s1) = map fst (post s)) as D. { destruct (first_in (map snd kvs) (post s)); injection A as _ <-; [cbn [post]; apply append_dom|reflexivity]. }
          unfold save_with_postproc in E. rewrite D, M in E. discriminate.
      + unfold save_function in *. destruct gl as [a|g mo].
        * revert E. apply le_postproc. apply le_reduce.
        * destruct (H g) as [[]|]; try discriminate. revert E. apply le_seq; [apply le_refl|]. apply le_postproc. apply le_reduce.
    - intros s r E. unfold save_type_r. destruct (memb o (map fst (post s))) eqn:M.
      + exfalso. unfold save_type, save_with_postproc in E. rewrite M in E. discriminate.
      + revert E. unfold save_type. apply le_postproc. apply le_reduce.
    - intros s r. unfold save_cell. destruct c as [v|].
      + destruct (match v with VR f => if memb f (map fst (post s)) then Some f else match post s with [] => None | (e, _) :: _ => Some e end | _ => match post s with [] => None | (e, _) :: _ => Some e end end).
        * apply le_seq; [apply le_reduce|apply le_refl].
        * apply le_reduce.
      + apply le_seq; [apply le_reduce|]. apply le_seq; [apply le_reduce|apply le_refl].
    - apply le_set.
  Qed.
  Lemma le_val v : le (save_val proto H sv v) (save_val_r proto H names sv' v).
  Proof.
    intros s r. unfold save_val, save_val_r. destruct v as [a i|o]; [auto|]. destruct (memo_get (KObj o) s); [auto|]. destruct (H o); [|auto]. apply le_obj.
  Qed.
End Mono.
Lemma le_save proto H names : forall fuel v, le (save proto H fuel v) (save_r proto H names fuel v).
Proof. induction fuel as [|fuel IH]; intros v; [apply le_refl|]. apply le_val. exact IH. Qed.
Theorem C71_extends : forall proto H names fuel v ops, dumps proto H fuel v = Ok ops -> dumps_r proto H names fuel v = Ok ops.
Proof.
  intros proto H names fuel v ops E. unfold dumps, dump in E. destruct (save proto H fuel v _) as [[l s]|] eqn:S; [|discriminate]. unfold dumps_r. rewrite (le_save _ _ names _ _ _ _ S). exact E.
Qed.

(** loading: a pickle that CoreModel loads is loaded alike where its names are defined *)
Lemma step_le defined o m m' : (forall n, o = CONST (AGlob (GUser n)) -> defined n = true) -> step o m = Some m' -> step_r defined o m = Some m'.
Proof.
  intros D E. destruct o; cbn [step_r]; try exact E.
  - destruct a as [| | | | |g| | | |]; try exact E. destruct g; try exact E. rewrite (D name eq_refl). exact E.
  - cbn [step] in *. destruct (stk m) as [|args [|[[| | | | |g| | | |] i|] s]]; try exact E. destruct g; try exact E. destruct (tuple_items (heap m) args) as [[|[[| | | | |g| | | |] j|] l]|]; try exact E.
    destruct g; try exact E. discriminate.
  - cbn [step] in *. destruct (stk m) as [|v [|[[| | | | |g| | | |] i|] s]]; try exact E. destruct g; try exact E. discriminate.
Qed.
Lemma load_le defined : forall ops m r, (forall n, In (CONST (AGlob (GUser n))) ops -> defined n = true) -> load ops m = Some r -> load_r defined ops m = Some r.
Proof.
  induction ops as [|o ops IH]; intros m r D E; [discriminate|]. assert (o = STOP \/ o <> STOP) as [->|N] by (destruct o; auto; right; discriminate).
  - exact E.
  - assert (match step o m with Some m' => load ops m' | None => None end = Some r) as E' by (destruct o; try exact E; contradiction).
    destruct (step o m) as [m'|] eqn:S; [|discriminate]. pose proof (IH m' r (fun n I => D n (or_intror I)) E') as L.
    pose proof (step_le defined o m m' (fun n Q => D n (or_introl Q)) S) as S'. destruct o; cbn [load_r]; rewrite ?S'; try exact L. contradiction.
Qed.

(** ** the case *)
Section Case.
  Variable proto : nat.
  Variable H : nat -> option obj.
  Variable names : nat -> option string.
  Variable defined : string -> bool.
  Notation J := (J H names defined).
  Notation run := (run defined).

  (** while the needed values are saved, the object is saved by name *)
  Lemma met o b v s1 s2 : H o = Some b -> In o (dom s1) ->
    ext H names (fun _ => False) s1 s2 -> inside H (fun x => ~ inm x s1 /\ (In x (dom s1) -> x = o)) o v -> match b with OTup _ => False | _ => True end ->
    done H v s2 -> inm o s2.
  Proof.
    intros Ho Io X P NT. induction P as [|x bx v (A1 & A2) Hx Iv P IH].
    - intros [I|I]; [exact I|]. rewrite Ho in I. injection I as ->. contradiction.
    - intros [I|I]; [|rewrite Hx in I; injection I as ->; destruct Iv].
      destruct (x_new _ _ _ _ _ X x bx I A1 Hx) as [[]|[[Ix _]|Q]]; [rewrite (A2 Ix) in I; exact I|]. apply IH; auto.
  Qed.

  Section Save.
    Variable sv : val -> act.
    Hypothesis SV : forall E v, J E (sv v) (Tpush 1) [v].
    Lemma postproc_met o b own c args st s ops s' v : H o = Some b -> match b with OFun _ _ _ _ _ _ | OType _ _ _ _ _ => True | _ => False end ->
      domok H s -> ~ In o (dom s) -> ~ inm o s -> (forall x, In x args -> aE (fun _ => False) x) ->
      In v (c :: flat_map a_vals args) -> inside H (fun x => ~ inm x s /\ ~ In x (dom s)) o v ->
      save_with_postproc proto H sv o own (save_reduce proto sv false c args st (Some (KObj o))) s = Ok (ops, s') ->
      names o <> None /\ forall m m', msync s m -> run ops m = Some m' -> exists r, byname names defined o r /\ stk m' = r :: stk m.
    Proof.
      intros Ho PR D NI NM AK Iv P EQ. unfold save_with_postproc in EQ. replace (memb o (map fst (post s))) with false in EQ by (symmetry; apply memb_nIn; exact NI).
      unfold seq in EQ at 1. cbn [push_post] in EQ. set (s1 := {| memo := memo s; post := post s ++ [(o, own)] |}) in EQ.
      assert (dom s1 = dom s ++ [o]) as D1 by (unfold dom, s1; cbn [post]; rewrite map_app; reflexivity).
      assert (domok H s1) as OK1. { intros x I. rewrite D1 in I. apply in_app_iff in I as [I|[<-|[]]]; [apply D; exact I|eauto]. }
      unfold seq in EQ at 1. unfold save_reduce in EQ. unfold seq in EQ at 1.
      destruct (red_call proto sv false c args s1) as [[l2 s2]|] eqn:E2; [|discriminate].
      destruct (J_red_call proto H names defined sv SV (fun _ => False) false c args AK s1 l2 s2 OK1 E2) as (X2 & NS2 & DN2 & R2).
      assert (In o (dom s1)) as Io by (rewrite D1; apply in_or_app; right; left; reflexivity).
      assert (inm o s2) as I2.
      { apply (met o b v s1 s2 Ho Io X2); [|destruct b; auto|apply DN2; exact Iv]. clear - P D1. induction P as [|x b v (A1 & A2) Hx Iv P IH]; [constructor|].
        econstructor; [split; [exact A1|]|exact Hx|exact Iv|exact IH]. intros I. rewrite D1 in I. apply in_app_iff in I as [I|[I|[]]]; [contradiction|auto]. }
      split; [exact (x_nm _ _ _ _ _ X2 o I2 NM Io (fun f => f))|].
      destruct (find_key_some _ _ I2 0) as (j & Fj). unfold seq in EQ at 1. cbn [red_memo] in EQ. unfold memo_get in EQ. rewrite Fj in EQ.
      destruct (save_state proto sv st s2) as [[l3 s3]|] eqn:E3; [|discriminate].
      assert (domok H s2) as OK2 by (eapply ext_domok; eassumption).
      destruct (J_state proto H names defined sv SV (fun _ => False) st s2 l3 s3 OK2 E3) as (X3 & NS3 & _ & R3).
      unfold pop_run in EQ. destruct (get o (post s3)) as [lp|]; [|discriminate]. set (s4 := {| memo := memo s3; post := del o (post s3) |}) in EQ.
      destruct (seqs (exec_pp proto H sv) (rev lp) s4) as [[l4 s5]|] eqn:E4; [|discriminate]. injection EQ as <- <-.
      assert (dom s4 = dom s) as D4. { unfold dom at 1, s4. cbn [post]. apply (del_dom o); [|exact NI]. fold (dom s3). rewrite (x_dom _ _ _ _ _ X3), (x_dom _ _ _ _ _ X2). exact D1. }
      assert (domok H s4) as OK4. { intros x I. rewrite D4 in I. apply D. exact I. }
      destruct (J_execs proto H names defined sv SV (fun _ => False) (rev lp) s4 l4 s5 OK4 E4) as (X5 & _ & _ & R4).
      intros m m' S R. cbn [app] in R. rewrite <- !app_assoc in R. rewrite run_app in R. destruct (run l2 m) as [m2|] eqn:Q2; [|discriminate].
      destruct (R2 m m2 S Q2) as (S2 & K2 & (vs & L & T1 & T2) & N2). destruct vs as [|w [|? ?]]; try discriminate L. cbn [st2 fst snd app] in T1, T2.
      destruct (N2 o j Io (fun f => f) NM Fj) as (r & G & B).
      cbn [app RecProofs.run step_r step] in R. rewrite T1 in R. cbn [set_stk mem] in R. rewrite G in R.
      rewrite run_app in R. match type of R with match run l3 ?x with _ => _ end = _ => set (m3 := x) in R end. destruct (run l3 m3) as [m4|] eqn:Q3; [|discriminate].
      destruct (R3 m3 m4 S2 Q3) as (S3 & K3 & T3 & _). destruct (R4 m4 m' S3 R) as (_ & _ & T4 & _). exists r. split; [exact B|].
      unfold Tid in T3, T4. rewrite T3 in T4. unfold st2, m3 in T4. cbn [push set_stk stk meta] in T4. injection T4 as T4 _. exact T4.
    Qed.
  End Save.
  Lemma save_met fuel o s ops s' b v : H o = Some b -> domok H s -> ~ In o (dom s) -> ~ inm o s -> In v (needed b) -> inside H (fun x => ~ inm x s /\ ~ In x (dom s)) o v ->
    save_r proto H names fuel (VR o) s = Ok (ops, s') ->
    names o <> None /\ forall m m', msync s m -> run ops m = Some m' -> exists r, byname names defined o r /\ stk m' = r :: stk m.
  Proof.
    intros Ho D NI NM Iv P EQ. destruct fuel as [|fuel]; [discriminate|]. cbn [save_r] in EQ. unfold save_val_r in EQ.
    destruct (memo_get (KObj o) s) as [i|] eqn:G; [exfalso; apply NM; eapply find_key_in; exact G|]. rewrite Ho in EQ.
    assert (memb o (map fst (post s)) = false) as Mb by (apply memb_nIn; exact NI).
    pose proof (fun E v => J_save proto H names defined fuel E v) as SV. set (sv := save_r proto H names fuel) in *.
    destruct b as [| | | |co gl nm de cl st|mt nm bs d q| |]; try contradiction Iv; cbn [save_obj_r] in EQ.
    - unfold save_function_r in EQ. rewrite Mb in EQ. unfold save_function in EQ. destruct gl as [a|g mo].
      + eapply (postproc_met sv SV o _ _ _ _ _ s ops s' v Ho Logic.I D NI NM); [| |exact P|exact EQ].
        * intros x [<-|[<-|[<-|[<-|[<-|[]]]]]]; exact Logic.I.
        * cbn [needed In] in Iv. cbn [flat_map a_vals app In]. intuition.
      + destruct (H g) as [[| |kvs| | | | |]|]; try discriminate. unfold seq in EQ at 1. set (dest := first_in (map snd kvs) (post s)) in EQ.
        destruct (match dest with Some e => add_pp e (PSetItems o) | None => emit [] end s) as [[l s1]|] eqn:A; [|discriminate].
        assert (l = [] /\ memo s1 = memo s /\ dom s1 = dom s) as (-> & M1 & D1).
        { destruct dest; injection A as <- <-; [cbn [memo post]; split; [reflexivity|split; [reflexivity|apply append_dom]]|auto]. }
        destruct (save_with_postproc proto H sv o (match dest with Some _ => [] | None => [PSetItems o] end)
             (save_reduce proto sv false (g_ GCreateFunction) [AV co; AD (KGlob o) [(sNAME, mo)]; AV nm; AV de; AV cl] st (Some (KObj o))) s1) as [[l' s2]|] eqn:E2; [|discriminate].
        injection EQ as <- <-. cbn [app].
        assert (inside H (fun x => ~ inm x s1 /\ ~ In x (dom s1)) o v) as P1. { unfold inm. rewrite M1, D1. exact P. }
        assert (domok H s1) as D1' by (intros x Ix; rewrite D1 in Ix; apply D; exact Ix).
        assert (~ In o (dom s1)) as NI1 by (rewrite D1; exact NI).
        assert (~ inm o s1) as NM1 by (unfold inm; rewrite M1; exact NM).
        edestruct (postproc_met sv SV o) as (Q1 & Q2); [exact Ho|exact Logic.I|exact D1'|exact NI1|exact NM1| | |exact P1|exact E2|].
        * intros x [<-|[<-|[<-|[<-|[<-|[]]]]]]; exact Logic.I.
        * cbn [needed In] in Iv. cbn [flat_map a_vals kv_vals app In fst snd]. intuition.
        * split; [exact Q1|]. intros m m' S. apply Q2. unfold msync. rewrite M1. exact S.
    - unfold save_type_r in EQ. rewrite Mb in EQ. unfold save_type in EQ.
      eapply (postproc_met sv SV o _ _ _ _ _ s ops s' v Ho Logic.I D NI NM); [| |exact P|exact EQ].
      * intros x [<-|[<-|[<-|[<-|[]]]]]; exact Logic.I.
      * cbn [needed app In] in Iv. cbn [flat_map a_vals app In]. rewrite ?app_nil_r. intuition.
  Qed.
End Case.

Lemma load_run defined : forall l m rest, ~ In STOP l -> load_r defined (l ++ rest) m = match run defined l m with Some m' => load_r defined rest m' | None => None end.
Proof.
  induction l as [|o l IH]; intros m rest N; [reflexivity|]. cbn [app run]. rewrite <- (fun m' => IH m' rest (fun I => N (or_intror I))) at 1 || idtac.
  assert (load_r defined (o :: l ++ rest) m = match step_r defined o m with Some m' => load_r defined (l ++ rest) m' | None => None end) as ->.
  { destruct o; try reflexivity. exfalso. apply N. left. reflexivity. }
  destruct (step_r defined o m); [|reflexivity]. apply IH. intros I. apply N. right. exact I.
Qed.

Lemma Ok_inv {A} (x y : A) : Ok x = Ok y -> y = x.
Proof. intros E. injection E as ->. reflexivity. Qed.
(** ** theorems *)
(** a function or class that is inside what is needed to create it: dumps succeeds only if it has a name, and loads gives what has this name in the loading process *)
Theorem C71_by_name : forall proto H names fuel o ops, needs_itself H o -> dumps_r proto H names fuel (VR o) = Ok ops ->
  exists n, names o = Some n /\ forall defined r m rest, loads_r defined ops = Some (r, m, rest) -> defined n = true /\ r = VA (AGlob (GUser n)) 0.
Proof.
  intros proto H names fuel o ops (b & v & Ho & Iv & P) E. unfold dumps_r in E. destruct (save_r proto H names fuel (VR o) {| memo := []; post := [] |}) as [[l s']|] eqn:S; [|discriminate]. apply Ok_inv in E. subst ops.
  assert (domok H {| memo := []; post := [] |}) as D by (intros x []).
  assert (inside H (fun x => ~ inm x {| memo := []; post := [] |} /\ ~ In x (dom {| memo := []; post := [] |})) o v) as P'.
  { clear - P. induction P as [|x b v _ Hx Iv P IH]; [constructor|]. econstructor; [split; intros []|exact Hx|exact Iv|exact IH]. }
  pose proof (fun d => save_met proto H names d fuel o {| memo := []; post := [] |} l s' b v Ho D (fun f => f) (fun f => f) Iv P' S) as M.
  destruct (M (fun _ => true)) as (N & _). destruct (names o) as [n|] eqn:En; [|congruence]. exists n. split; [reflexivity|]. intros defined r m rest L.
  destruct (M defined) as (_ & R). destruct (J_save proto H names defined fuel (fun _ => False) (VR o) _ _ _ D S) as (_ & NS & _ & _).
  unfold loads_r in L. rewrite load_run in L; [|destruct (Nat.leb 2 proto); cbn [In]; intros F; decompose [or] F; congruence].
  set (m0 := {| stk := []; meta := []; mem := []; heap := [] |}) in L.
  assert (RecProofs.run defined (if Nat.leb 2 proto then [PROTO proto] else []) m0 = Some m0 \/ RecProofs.run defined (if Nat.leb 2 proto then [PROTO proto] else []) m0 = None) as [Q|Q].
  { destruct (Nat.leb 2 proto); [|left; reflexivity]. cbn [RecProofs.run step_r step]. destruct (Nat.leb proto 5); auto. }
  2: { rewrite Q in L. discriminate. }
  rewrite Q in L. rewrite load_run in L by exact NS. destruct (RecProofs.run defined l m0) as [m1|] eqn:R1; [|discriminate].
  destruct (R m0 m1 eq_refl R1) as (r' & (n' & B1 & B2 & ->) & T). cbn [load_r] in L. rewrite T in L. injection L as <- _ _. rewrite En in B1. injection B1 as <-. auto.
Qed.
(** hence: it cannot be saved without a name, and not loaded where the name is not defined *)
Corollary C71_no_name : forall proto H names fuel o ops, needs_itself H o -> names o = None -> dumps_r proto H names fuel (VR o) <> Ok ops.
Proof. intros proto H names fuel o ops N Nn E. destruct (C71_by_name _ _ _ _ _ _ N E) as (n & A & _). congruence. Qed.
Corollary C71_not_defined : forall proto H names fuel o ops n defined, needs_itself H o -> dumps_r proto H names fuel (VR o) = Ok ops -> names o = Some n -> defined n = false ->
  loads_r defined ops = None.
Proof.
  intros proto H names fuel o ops n defined N E En Dn. destruct (C71_by_name _ _ _ _ _ _ N E) as (n' & A & B). rewrite En in A. injection A as <-.
  destruct (loads_r defined ops) as [[[r m] rest]|] eqn:L; [|reflexivity]. destruct (B defined r m rest L) as (X & _). congruence.
Qed.

(** if no object needs itself to be created ([definable]), and the nesting is bounded as in C07, the pickle is self-contained: the pickle does
    not depend on the names of functions and classes saved by value, and the copy is rebuilt from it where the constants it names are defined *)
Theorem C71_self_contained_partial : forall proto H v D fuel,
  heap_wf H -> proto <= 5 -> closed H D -> (forall o, In o D -> H o <> None) -> vD D v ->
  acyclic (needs H) -> acyclic (needs_top H) -> definable H -> depth_bound (length D) <= fuel ->
  exists ops, (forall names, dumps_r proto H names fuel v = Ok ops) /\
    forall defined, (forall n, In (CONST (AGlob (GUser n))) ops -> defined n = true) -> exists v' m, loads_r defined ops = Some (v', m, []) /\ iso H v (heap m) v'.
Proof.
  intros proto H v D fuel HW Hp CD HD Hv A1 A2 DF Hf. destruct (C01_total proto H v D fuel HW Hp CD HD Hv A1 A2 DF Hf) as (ops & v' & m & E & L & I).
  exists ops. split; [intros names; apply C71_extends; exact E|]. intros defined Df. exists v', m. split; [|exact I]. apply load_le; assumption.
Qed.

(** ** cases that meet the hypotheses *)
(** class C: inst = None; C.inst = C() *)
Definition singleton (o : oid) : option obj :=
  match o with
  | 0 => Some (OType (VA (AGlob (GUser "type")) 0) (VA (AStr "C") 0) (VA AEmptyTuple 0) [(VA (AStr "inst") 0, VR 1)] (VA (AStr "C") 0))
  | 1 => Some (ORed true (VR 0) [] [] [] SNone)
  | _ => None
  end.
Definition in_main (o : oid) : option string := match o with 0 => Some "__main__.C" | _ => None end.
(** def f(x=[]): ...; f.__defaults__[0].append(f) *)
Definition selfdef (o : oid) : option obj :=
  match o with
  | 0 => Some (OFun (VA (AGlob (GUser "code_f")) 0) (GRef (AModDict "__main__")) (VA (AStr "f") 0) (VR 1) vNone (SAttrs [] (Some [])))
  | 1 => Some (OTup [VR 2])
  | 2 => Some (OList [VR 0])
  | _ => None
  end.
Definition in_main_f (o : oid) : option string := match o with 0 => Some "__main__.f" | _ => None end.
Example C71_singleton_needs : needs_itself singleton 0.
Proof.
  exists (OType (VA (AGlob (GUser "type")) 0) (VA (AStr "C") 0) (VA AEmptyTuple 0) [(VA (AStr "inst") 0, VR 1)] (VA (AStr "C") 0)), (VR 1). split; [reflexivity|]. split; [cbn; tauto|].
  eapply in_step; [exact Logic.I|reflexivity|left; reflexivity|apply in_here].
Qed.
Example C71_selfdef_needs : needs_itself selfdef 0.
Proof.
  eexists _, (VR 1). split; [reflexivity|]. split; [cbn; tauto|].
  eapply in_step; [exact Logic.I|reflexivity|left; reflexivity|]. eapply in_step; [exact Logic.I|reflexivity|left; reflexivity|apply in_here].
Qed.
(** the pickle of a class saved by value is not self-contained: under every protocol dumps succeeds, and loads fails where __main__.C is not defined, and gives whatever
    __main__.C is where it is defined *)
Theorem C71_self_contained_refuted : forall p, p <= 5 -> exists ops, dumps_r p singleton in_main 10 (VR 0) = Ok ops /\
  loads_r (fun n => negb (String.eqb n "__main__.C")) ops = None /\
  exists m, loads_r (fun _ => true) ops = Some (VA (AGlob (GUser "__main__.C")) 0, m, []).
Proof.
  intros p Hp. destruct p as [|[|[|[|[|[|p]]]]]]; try lia; eexists; (split; [vm_compute; reflexivity|split; [vm_compute; reflexivity|eexists; vm_compute; reflexivity]]).
Qed.
Theorem C71_self_contained_refuted_function : forall p, p <= 5 -> exists ops, dumps_r p selfdef in_main_f 10 (VR 0) = Ok ops /\
  loads_r (fun n => negb (String.eqb n "__main__.f")) ops = None /\
  exists m, loads_r (fun _ => true) ops = Some (VA (AGlob (GUser "__main__.f")) 0, m, []).
Proof.
  intros p Hp. destruct p as [|[|[|[|[|[|p]]]]]]; try lia; eexists; (split; [vm_compute; reflexivity|split; [vm_compute; reflexivity|eexists; vm_compute; reflexivity]]).
Qed.
(** the graph of CoreExamples meets the hypotheses of C71_self_contained_partial *)
Example C71_ex : forall p v, p <= 5 -> vD (List.seq 0 16) v -> exists ops, (forall names, dumps_r p ex_heap names (depth_bound 16) v = Ok ops) /\
  forall defined, (forall n, In (CONST (AGlob (GUser n))) ops -> defined n = true) -> exists v' m, loads_r defined ops = Some (v', m, []) /\ iso ex_heap v (heap m) v'.
Proof.
  intros p v Hp Hv. apply (C71_self_contained_partial p ex_heap v (List.seq 0 16)); auto using ex_wf, ex_closed, ex_needs, ex_needs_top, ex_definable.
  intros o I. apply in_seq in I. do 16 (destruct o as [|o]; [discriminate|]). lia.
Qed.
(** with its own copy of its globals, in which it is, dumps fails with KeyError even if it has a name: the update of the globals is scheduled twice *)
Definition selfglob (o : oid) : option obj :=
  match o with
  | 0 => Some (OFun (VA (AGlob (GUser "code_f")) 0) (GCopy 3 (VA (AStr "m") 0)) (VA (AStr "f") 0) (VR 1) vNone (SAttrs [] (Some [])))
  | 3 => Some (ODict [(VA (AStr "f") 0, VR 0)])
  | 4 => Some (OFun (VA (AGlob (GUser "code_f")) 0) (GCopy 5 (VA (AStr "m") 0)) (VA (AStr "f") 0) (VR 6) vNone (SAttrs [] (Some [])))
  | 5 => Some (ODict [(VA (AStr "x") 0, VA (AScalar 3) 0)])
  | 6 => Some (OTup [VR 4])
  | n => selfdef n
  end.
Definition in_m (o : oid) : option string := match o with 0 => Some "m.f" | 4 => Some "m.g" | _ => None end.
Theorem C71_own_globals_key_error : forall p, p <= 5 -> failed (dumps_r p selfglob in_m 20 (VR 0)) KeyErr /\ exists ops, dumps_r p selfglob in_m 20 (VR 4) = Ok ops.
Proof. intros p Hp. destruct p as [|[|[|[|[|[|p]]]]]]; try lia; (split; [eexists; vm_compute; reflexivity|eexists; vm_compute; reflexivity]). Qed.
