(** The pickler's actions simulated by the unpickler: instances, cells, classes and functions. *)
From Coq Require Import String List Bool Arith ZArith Lia.
From Verif Require Import PyDict CoreModel CoreSpec CoreSim CoreStep CoreReduce CoreReach.
Import ListNotations.
Local Open Scope string_scope.
Local Open Scope list_scope.

Lemma keys_distinct_rel (R : oid -> nat -> Prop) d d' : (forall o a a', R o a -> R o a' -> a = a') -> (forall o o' a, R o a -> R o' a -> o = o') ->
  Forall2 (item_rel R) d d' -> keys_distinct d -> keys_distinct d'.
Proof.
  intros Rf Ri F. induction F as [|[k v] [k' v'] d d' [A B] F IH]; cbn; auto.
  intros [Kd K]. split; auto. intros k2 v2 Hi.
  assert (exists k1 v1, In (k1, v1) d /\ val_rel R k1 k2) as (k1 & v1 & Hi1 & Hr).
  { clear - F Hi. induction F as [|[x y] [x' y'] d d' [A B] F IH]; [destruct Hi|]. destruct Hi as [E|Hi].
    - inversion E; subst. exists x, y. split; [left; auto|auto].
    - destruct (IH Hi) as (k1 & v1 & C & D). exists k1, v1. split; [right; auto|auto]. }
  cbn [fst snd] in *. erewrite <- keyeq_rel; eauto.
Qed.
Lemma val_rel_fun (R : oid -> nat -> Prop) v x y : (forall o a a', R o a -> R o a' -> a = a') -> val_rel R v x -> val_rel R v y -> x = y.
Proof.
  intros Rf. destruct v, x, y; cbn; try tauto.
  - intros [-> ->] [-> ->]. auto.
  - intros A B. f_equal. eauto.
Qed.
Lemma items_fun (R : oid -> nat -> Prop) v : (forall o a a', R o a -> R o a' -> a = a') -> forall x y,
  Forall2 (item_rel R) v x -> Forall2 (item_rel R) v y -> x = y.
Proof.
  intros Rf. induction v as [|[k w] v IH]; intros x y A B; inversion A; inversion B; subst; auto.
  destruct y0, y1. match goal with H1 : item_rel _ _ _, H2 : item_rel _ _ _ |- _ => destruct H1, H2; cbn in * end.
  f_equal; [|auto]. f_equal; eapply val_rel_fun; eauto.
Qed.
Lemma state_rel_fun (R : oid -> nat -> Prop) v x y : (forall o a a', R o a -> R o a' -> a = a') ->
  state_rel R v x -> state_rel R v y -> x = y.
Proof.
  intros Rf. destruct v as [|v|d [sl|]], x as [|x|dx [sx|]], y as [|y|dy [sy|]]; cbn; try tauto.
  - intros A B. f_equal. eapply val_rel_fun; eauto.
  - intros [A B] [C D]. f_equal; [eapply items_fun; eauto|]. f_equal. eapply items_fun; eauto.
  - intros A B. f_equal. eapply items_fun; eauto.
Qed.

(** states *)
Definition get_state (b : obj) : state := match b with ORed _ _ _ _ _ st | OFun _ _ _ _ _ st => st | _ => SNone end.
Definition set_state (b : obj) (st : state) : obj :=
  match b with
  | ORed nb c args li di _ => ORed nb c args li di st
  | OFun co gl nm de cl _ => OFun co gl nm de cl st
  | b => b
  end.
Definition has_state (b : obj) : Prop := match b with ORed _ _ _ _ _ _ | OFun _ _ _ _ _ _ => True | _ => False end.
Lemma set_get_state b : has_state b -> set_state b (get_state b) = b.
Proof. destruct b; cbn; tauto. Qed.
Definition state_distinct (st : state) : Prop :=
  match st with
  | SAttrs d sl => keys_distinct d /\ match sl with Some s => keys_distinct s | None => True end
  | _ => True
  end.
Lemma upd_state_none st : state_distinct st -> upd_state SNone st = st.
Proof.
  destruct st as [| |d [s|]]; cbn; auto.
  - intros [A B]. rewrite !setitems_nil; auto.
  - intros [A _]. rewrite setitems_nil; auto.
Qed.
Lemma setitems_self d : keys_distinct d -> setitems d d = d.
Proof. intros K. pose proof (setitems_twice d K []) as E. rewrite !(setitems_nil d K) in E. exact E. Qed.
Lemma upd_state_self st : state_distinct st -> upd_state st st = st.
Proof.
  destruct st as [| |d [s|]]; cbn; auto.
  - intros [A B]. rewrite !setitems_self; auto.
  - intros [A _]. rewrite setitems_self; auto.
Qed.
Lemma state_distinct_rel (R : oid -> nat -> Prop) st st' : (forall o a a', R o a -> R o a' -> a = a') -> (forall o o' a, R o a -> R o' a -> o = o') ->
  state_rel R st st' -> state_distinct st -> state_distinct st'.
Proof.
  intros Rf Ri. destruct st as [|v|d [sl|]], st' as [|v'|d' [sl'|]]; cbn; try tauto.
  - intros [A B] [C D]. split; eapply keys_distinct_rel; eauto.
  - intros A [C _]. split; auto. eapply keys_distinct_rel; eauto.
Qed.

Section Obj.
  Variable proto : nat.
  Variable H : oid -> option obj.
  Notation Sim := (Sim H).
  Notation sync := (sync H).
  Notation env_ok := (env_ok H).
  Notation ok := (ok H).
  Variable sv : val -> act.
  Hypothesis SV : sv_ok H sv.

  Lemma ok_bind I A B s e m (Q Q' : pst -> env -> vm -> Prop) : ok X0 I A s e m Q ->
    (forall s1 e1 m1, sync s1 e1 m1 -> Sim X0 I [] e (heap m) (post s) e1 (heap m1) (post s1) -> Q s1 e1 m1 ->
       forall ops s', B s1 = Ok (ops, s') -> exists e' m', run ops m1 = Some m' /\ sync s' e' m' /\
         Sim X0 I [] e (heap m) (post s) e' (heap m') (post s') /\ Q' s' e' m') ->
    ok X0 I (A ;; B) s e m Q'.
  Proof.
    intros OA OB ops s' E. unfold seq in E.
    destruct (A s) as [[l s1]|] eqn:EA; [|discriminate].
    destruct (B s1) as [[l' s2]|] eqn:EB; [|discriminate]. inversion E; subst.
    destruct (OA _ _ EA) as (e1 & m1 & R1 & S1 & Si1 & q1).
    destruct (OB _ _ _ S1 Si1 q1 _ _ EB) as (e2 & m2 & R2 & S2 & Si2 & q2).
    exists e2, m2. split; [rewrite (run_app _ _ _ _ R1); auto|]. auto.
  Qed.

  Lemma seq_cong_l (A A' B : act) s : A s = A' s -> (A ;; B) s = (A' ;; B) s.
  Proof. unfold seq. intros ->. auto. Qed.
  Lemma seq_cong_r (A B B' : act) s : (forall s, B s = B' s) -> (A ;; B) s = (A ;; B') s.
  Proof. unfold seq. intros E. destruct (A s) as [[l s1]|]; auto. now rewrite E. Qed.

  (** ** states *)
  Definition state_val (st : state) : act :=
    match st with
    | SNone => emit []
    | SVal v => sv v
    | SAttrs d None => save_dict proto sv KAnon d
    | SAttrs d (Some sl) => save_tuple proto sv KAnon [AD KAnon d; AD KAnon sl]
    end.
  Lemma save_state_eq st s : st <> SNone -> save_state proto sv st s = (state_val st ;; emit [BUILD]) s.
  Proof. destruct st as [| |d [sl|]]; [congruence| | |]; reflexivity. Qed.
  Lemma state_wf_distinct st : state_wf H st -> state_distinct st.
  Proof. destruct st as [| |d [sl|]]; cbn; auto. Qed.

  Lemma key_new_anon I e P : key_new KAnon I e P.
  Proof. split; [congruence|]. split; intros; discriminate. Qed.

  Lemma state_val_ok st s e m (I : key -> Prop) : sync s e m -> (forall k, I k -> Ik (post s) k) ->
    state_wf H st -> st <> SNone ->
    ok X0 I (state_val st) s e m (fun s' e' m' => exists v', stk m' = v' :: stk m /\ meta m' = meta m /\
                                                  state_rel (Renv e') st (state_arg (heap m') v')).
  Proof.
    intros S HI W Hn. destruct st as [|v|d [sl|]]; [congruence| | |]; cbn [state_val].
    - eapply ok_conseq; [apply sv_okI; eauto|]. intros s' e' m' S' Si (v' & A & B & C). exists v'. split; auto. split; auto.
      replace (state_arg (heap m') v') with (SVal v'); [exact C|].
      destruct v as [a i|o], v' as [a' i'|a']; cbn in C; try tauto.
      + destruct C as [-> _]. unfold state_arg; cbn. destruct a'; cbn in *; congruence.
      + destruct (ek_kind _ _ _ _ (sy_env _ _ _ _ S') _ _ C) as (b & b' & Hb & Hb' & K).
        cbn in W. rewrite Hb in W. unfold state_arg; cbn. rewrite Hb'. destruct b'; auto; destruct b; cbn in *; try tauto; discriminate.
    - eapply ok_conseq; [apply save_targs_ok; eauto|].
      + intros k kvs [E|[E|[]]]; inversion E; subst; split; try tauto; apply W.
      + cbn. tauto.
      + intros s' e' m' S' Si (t & vs' & A & B & C & D). exists t. split; auto. split; auto.
        inversion D as [|? x ? ? E1 D']; subst. inversion D' as [|? y ? ? F1 D'']; subst. inversion D''; subst.
        destruct E1 as (a1 & d1 & -> & _ & _ & E2 & E3). destruct F1 as (a2 & d2 & -> & _ & _ & F2 & F3).
        unfold state_arg. destruct t as [at_ it|t]; cbn in C; [destruct at_; discriminate|].
        cbn. destruct (nth_error (heap m') t) as [[]|]; try discriminate. injection C as ->.
        cbn. rewrite E2, F2. cbn. auto.
    - eapply ok_conseq; [apply save_dict_ok; eauto|].
      + apply key_new_anon.
      + intros; discriminate.
      + apply W.
      + intros s' e' m' S' Si (A & B & _ & d' & C & D). eexists. split; [exact A|]. split; auto.
        unfold state_arg. cbn. rewrite C. cbn. auto.
  Qed.

  Lemma build_step m v a r b : stk m = v :: VR a :: r -> nth_error (heap m) a = Some b -> has_state b ->
    run [BUILD] m = Some (set_heap (upd (heap m) a (set_state b (upd_state (get_state b) (state_arg (heap m) v)))) (set_stk (VR a :: r) m)).
  Proof. intros A B C. cbn [run step]. rewrite A, B. destruct b; cbn in C; try tauto; reflexivity. Qed.

  Lemma save_state_ok st a r b s e m (I : key -> Prop) : sync s e m -> (forall k, I k -> Ik (post s) k) ->
    state_wf H st -> stk m = VR a :: r -> nth_error (heap m) a = Some b -> has_state b -> get_state b = SNone ->
    ok (eq a) I (save_state proto sv st) s e m
      (fun s' e' m' => stk m' = stk m /\ meta m' = meta m /\
         exists st', nth_error (heap m') a = Some (set_state b st') /\ state_rel (Renv e') st st').
  Proof.
    intros S HI W St Hb Hs Hg. destruct (match st with SNone => true | _ => false end) eqn:En.
    - destruct st; try discriminate. apply ok_nil; auto. split; auto. split; auto. exists SNone.
      rewrite <- Hg, set_get_state by auto. split; auto. rewrite Hg. cbn. auto.
    - assert (Hn : st <> SNone) by (destruct st; congruence).
      eapply ok_ext; [apply save_state_eq; auto|].
      eapply ok_seq0; [intros ? <-; eapply nth_lt; eauto|apply state_val_ok; eauto|].
      intros s1 e1 m1 S1 Si1 (v' & A & B & C). rewrite St in A.
      pose proof (Sim0_heap _ _ _ _ _ _ _ _ _ _ _ Si1 Hb) as Hb1.
      pose proof (nth_lt _ _ _ Hb1) as La.
      eapply ok_emit; [eapply build_step; eauto| | |].
      + eapply sync_vm; [exact S1|reflexivity|cbn; rewrite upd_length; auto|cbn]. eapply kind_upd; eauto.
        destruct b; cbn in Hs; try tauto; reflexivity.
      + cbn. apply Sim_eq_mut. auto.
      + cbn [stk meta heap set_heap set_stk]. split; [congruence|]. split; auto.
        exists (state_arg (heap m1) v'). rewrite nth_upd_same by auto. rewrite Hg, upd_state_none; auto.
        eapply state_distinct_rel; [| |exact C|now apply state_wf_distinct].
        * eapply env_Rfun; apply (sy_env _ _ _ _ S1).
        * eapply env_Rinj; apply (sy_env _ _ _ _ S1).
  Qed.
  (** setting the same state again *)
  Lemma save_state_again_ok st a r b s e m (I : key -> Prop) : sync s e m -> (forall k, I k -> Ik (post s) k) ->
    state_wf H st -> stk m = VR a :: r -> nth_error (heap m) a = Some b -> has_state b -> state_rel (Renv e) st (get_state b) ->
    ok X0 I (save_state proto sv st) s e m (fun s' e' m' => stk m' = stk m /\ meta m' = meta m).
  Proof.
    intros S HI W St Hb Hs Hg. destruct (match st with SNone => true | _ => false end) eqn:En.
    - destruct st; try discriminate. apply ok_nil; auto.
    - assert (Hn : st <> SNone) by (destruct st; congruence).
      eapply ok_ext; [apply save_state_eq; auto|].
      eapply ok_seq; [apply state_val_ok; eauto|].
      intros s1 e1 m1 S1 Si1 (v' & A & B & C). rewrite St in A.
      pose proof (Sim0_heap _ _ _ _ _ _ _ _ _ _ _ Si1 Hb) as Hb1.
      assert (Rf : forall o a a', Renv e1 o a -> Renv e1 o a' -> a = a') by (eapply env_Rfun; apply (sy_env _ _ _ _ S1)).
      assert (Ri : forall o o' a, Renv e1 o a -> Renv e1 o' a -> o = o') by (eapply env_Rinj; apply (sy_env _ _ _ _ S1)).
      assert (Es : state_arg (heap m1) v' = get_state b).
      { eapply state_rel_fun; [exact Rf|exact C|]. eapply Sim_state; eauto. }
      assert (Eh : upd (heap m1) a (set_state b (upd_state (get_state b) (state_arg (heap m1) v'))) = heap m1).
      { rewrite Es, upd_state_self, set_get_state by (auto; rewrite <- Es; eapply state_distinct_rel; eauto; now apply state_wf_distinct).
        now apply upd_same. }
      eapply ok_emit; [eapply build_step; eauto| | |]; rewrite Eh.
      + eapply sync_stk; eauto.
      + apply Sim_refl.
      + cbn. split; congruence.
  Qed.

  (** ** instances *)
  (** an object under construction becomes complete, after all its parts were saved *)
  Lemma Sim_exempt_new I e0 h0 P0 e h P o a : env_ok e h P -> a = length h -> (forall v, ~ In (KObj o, v) e) ->
    Sim X0 I [] e0 h0 P0 e h P -> Sim (eq a) I [] e0 h0 P0 e h P.
  Proof.
    intros E -> Hn S. eapply Sim_exempt with (f := o); [| | | |exact S].
    - intros a o' <- Ho. apply (ek_dom _ _ _ _ E) in Ho. lia.
    - intros a o' <- Ho. apply (ek_dom _ _ _ _ E) in Ho. lia.
    - intros a Ho. exfalso. eapply Hn; eauto.
    - intros a <-. apply (s_len S).
  Qed.

  Lemma memo_cases k s e m : sync s e m -> k <> KAnon ->
    (exists i v, memo_get k s = Some i /\ In (k, v) e /\ get i (mem m) = Some v) \/
    (memo_get k s = None /\ forall v, ~ In (k, v) e).
  Proof.
    intros S Hn. destruct (memo_get k s) as [i|] eqn:E.
    - left. destruct (memo_get_some _ _ _ _ _ _ S E) as (v & A & B & _). eauto.
    - right. split; auto. eapply memo_get_none; eauto.
  Qed.

  (** the part of save_reduce before the state, once the callable and arguments are on the stack *)
  Definition finish_red (op1 : op) (k : key) : act :=
    emit [op1] ;; (fun s => match memo_get k s with Some i => Ok ([POP; GET i], s) | None => memoize proto k s end).

  Lemma finish_red_again op1 k s e m mb v w i I (Q : pst -> env -> vm -> Prop) : sync s e m -> memo_get k s = Some i -> get i (mem m) = Some v ->
    run [op1] m = Some mb -> stk mb = w -> mem mb = mem m -> length (heap m) <= length (heap mb) ->
    (forall a b, nth_error (heap m) a = Some b -> nth_error (heap mb) a = Some b) ->
    forall x r, w = x :: r ->
    (forall m', sync s e m' -> stk m' = v :: r -> meta m' = meta mb -> heap m' = heap mb -> Q s e m') ->
    ok X0 I (finish_red op1 k) s e m Q.
  Proof.
    intros S Em Eg R1 Ew Em1 Hl Hh x r -> HQ.
    set (m' := push v (set_stk r mb)).
    assert (S' : sync s e m').
    { eapply sync_vm; [exact S|exact Em1|exact Hl|]. intros a b E. exists b. split; auto. }
    eapply ok_ext with (B := emit ([op1; POP; GET i])).
    { unfold finish_red, seq, emit. rewrite Em. reflexivity. }
    eapply ok_emit with (m' := m').
    - change [op1; POP; GET i] with ([op1] ++ [POP; GET i]). rewrite (run_app _ _ _ _ R1). cbn [run step]. rewrite Ew. cbn [mem set_stk].
      rewrite Em1, Eg. reflexivity.
    - exact S'.
    - apply Sim_mut; auto.
    - apply HQ; auto.
  Qed.

  Lemma red_construct (nb : bool) c args s e m (I : key -> Prop) : sync s e m -> (forall k, I k -> Ik (post s) k) ->
    (match c with VR _ | VA (AGlob (GUser _)) _ => True | _ => False end) ->
    exists pre op1,
      (forall s, red_call proto sv nb c (map AV args) s = (pre ;; emit [op1]) s) /\
      ok X0 I pre s e m (fun s' e' m' => exists c' vs',
        run [op1] m' = Some (alloc (ORed nb c' vs' [] [] SNone) {| stk := stk m; meta := meta m; mem := mem m'; heap := heap m' |}) /\
        val_rel (Renv e') c c' /\ Forall2 (val_rel (Renv e')) args vs').
  Proof.
    intros S HI Hc.
    assert (AN : forall xs, (forall x, In x xs -> exists v, x = AV v) -> args_new I e (post s) xs).
    { intros xs Hx k kvs Hi. destruct (Hx _ Hi). discriminate. }
    assert (ON : forall xs, (forall x, In x xs -> exists v, x = AV v) -> once xs).
    { induction xs as [|x xs IH]; intros Hx; cbn; auto. destruct (Hx x (or_introl eq_refl)) as (v & ->). apply IH. intros; apply Hx; right; auto. }
    assert (MV : forall x, In x (map AV args) -> exists v, x = AV v).
    { intros x Hi. apply in_map_iff in Hi as (v & <- & _). eauto. }
    assert (MV' : forall x, In x (AV c :: map AV args) -> exists v, x = AV v).
    { intros x [<-|Hi]; eauto. }
    unfold red_call. destruct nb; [destruct (Nat.leb 2 proto)|].
    - exists (sv c ;; save_tuple proto sv KAnon (map AV args)), NEWOBJ. split; [intros; symmetry; apply seq_assoc|].
      eapply ok_conseq; [apply save_call_ok; eauto|]. intros s' e' m' S' Si (t & c' & vs' & A & B & C & D & E).
      exists c', vs'. apply args_vals in E. split; auto.
      cbn [run step]. rewrite A, D. unfold set_stk. rewrite B. reflexivity.
    - exists (sv (g_ GNewobj) ;; save_tuple proto sv KAnon (AV c :: map AV args)), REDUCE. split; [intros; symmetry; apply seq_assoc|].
      eapply ok_conseq; [apply save_call_ok; eauto|]. intros s' e' m' S' Si (t & g' & vs' & A & B & C & D & E).
      destruct g'; cbn in C; [|tauto]. destruct C as [<- ->]. inversion E as [|? c' ? vs2 Ec E']; subst. exists c', vs2. apply args_vals in E'. split; auto.
      cbn [run step]. rewrite A, D. unfold set_stk. rewrite B. reflexivity.
    - exists (sv c ;; save_tuple proto sv KAnon (map AV args)), REDUCE. split; [intros; symmetry; apply seq_assoc|].
      eapply ok_conseq; [apply save_call_ok; eauto|]. intros s' e' m' S' Si (t & c' & vs' & A & B & C & D & E).
      exists c', vs'. apply args_vals in E. split; auto.
      cbn [run step]. rewrite A, D. unfold set_stk. rewrite B.
      destruct c as [[| | | | |[| | | | | | | |nm]| | | |] i|o], c' as [a' i'|a']; cbn in C; try tauto.
      + destruct C as [<- ->]. reflexivity.
  Qed.

  Lemma cov_complete I e h P e' h' P' o a b : Sim X0 I [] e h P e' h' P' -> (forall v, ~ In (KObj o, v) e) -> Renv e' o a ->
    H o = Some b -> kind b < 5 -> complete H e' (hidn X0 (length h) h') o a.
  Proof.
    intros S Hn Ho Hb Hk. destruct (s_cov S o a Ho) as [E|[[]|[E|(p & _ & Ht & Hr)]]].
    - exfalso. eapply Hn; eauto.
    - auto.
    - exfalso. apply readyX0, ready_kind in Hr. eapply no_kind; eauto.
  Qed.

  (** what an action adds to the memo *)
  Lemma ok_nw X I A s e m Q V : nw V A -> ok X I A s e m Q -> ok X I A s e m (fun s' e' m' => Q s' e' m' /\ grow V s s').
  Proof.
    intros N O ops s' E. destruct (O _ _ E) as (e' & m' & R & S & Si & q). exists e', m'. split; auto. split; auto. split; auto. split; auto.
    eapply N; eauto.
  Qed.
  Lemma seq_skip (A B : act) s : A s = Ok ([], s) -> (A ;; B) s = B s.
  Proof. unfold seq. intros ->. destruct (B s) as [[l x]|]; reflexivity. Qed.
  Lemma appends_nil s : batch_appends proto sv [] s = Ok ([], s).
  Proof. unfold batch_appends. destruct (bin proto); reflexivity. Qed.

  Hypothesis SN : sv_new H sv.
  Lemma save_inst_ok o nb c args li di st s e m (I : key -> Prop) : sync s e m -> (forall k, I k -> Ik (post s) k) ->
    H o = Some (ORed nb c args li di st) -> obj_wf H (ORed nb c args li di st) -> items_once H o (ORed nb c args li di st) ->
    (forall v, ~ In (KObj o, v) e) ->
    ok X0 I (save_instance proto sv nb c (map AV args) li di st (KObj o)) s e m (P_val (VR o) m).
  Proof.
    intros S HI Ho (Wc & Wd & Ws) Once Hn.
    destruct (red_construct nb c args s e m I S HI Wc) as (pre & op1 & Epre & Opre).
    set (V := fun o' => exists v, In v (c :: args) /\ reach H v o').
    assert (Npre : nw V pre).
    { intros s0 ops0 s1 E0. assert (N : nw V (red_call proto sv nb c (map AV args))).
      { assert (SVV : forall w, VV V w -> nw V (sv w)).
        { intros w Hw. eapply nw_mono; [|apply SN]. intros o' Ro. destruct w as [|o1]; [inversion Ro|]. destruct Hw as (v & Hv & Rv).
          exists v. split; auto. eapply reach_trans; eauto. }
        assert (HV : forall w, In w (c :: args) -> VV V w).
        { intros [a0 i0|o1] Hw; cbn; auto. exists (VR o1). split; auto. constructor. }
        apply nw_call; [exact SVV|apply HV; left; auto|]. intros x Hx. apply in_map_iff in Hx as (w & <- & Hw). cbn. apply HV. right; auto. }
      refine (N s0 (ops0 ++ [op1]) s1 _). rewrite Epre. unfold seq, emit. rewrite E0. reflexivity. }
    unfold save_instance.
    eapply ok_ext with (B := pre ;; (finish_red op1 (KObj o) ;; batch_appends proto sv li ;; batch_setitems proto sv di ;; save_state proto sv st)).
    { etransitivity; [apply seq_cong_l; apply Epre|]. rewrite seq_assoc. apply seq_cong_r. intros s1. symmetry. apply seq_assoc. }
    eapply ok_bind; [exact (ok_nw _ _ _ _ _ _ _ V Npre Opre)|]. intros s1 e1 m1 S1 Si1 ((c' & vs' & R1 & Vc & Va) & Gr) ops s' E.
    destruct (memo_cases (KObj o) s1 e1 m1 S1 ltac:(discriminate)) as [(i & v & Em & Hv & Eg)|[Em Hv]].
    - (* the object was saved while saving its class or arguments *)
      destruct (ek_obj _ _ _ _ (sy_env _ _ _ _ S1) _ _ Hv) as (a & ->).
      assert (El : li = []).
      { destruct li as [|l0 li]; [reflexivity|]. exfalso. destruct Gr as (GM & _).
        assert (Hm : In (KObj o) (memo s1)) by (rewrite (sy_memo _ _ _ _ S1); apply in_map_iff; eexists; split; [|exact Hv]; reflexivity).
        destruct (GM _ Hm) as [Hm0|(w & Hw & Rw)].
        - rewrite (sy_memo _ _ _ _ S) in Hm0. apply in_map_iff in Hm0 as ([k w] & Ek & Hw). cbn in Ek. subst. eapply Hn; eauto.
        - eapply Once; eauto. }
      assert (O : ok X0 I (finish_red op1 (KObj o) ;; batch_appends proto sv li ;; batch_setitems proto sv di ;; save_state proto sv st) s1 e1 m1 (P_val (VR o) m)).
      { eapply ok_seq.
        - eapply finish_red_again with (i := i) (v := VR a)
            (Q := fun s' e' m' => e' = e1 /\ stk m' = VR a :: stk m /\ meta m' = meta m /\
                                  heap m' = heap m1 ++ [ORed nb c' vs' [] [] SNone]); eauto; cbn; try reflexivity.
          + rewrite app_length; lia.
          + intros x b Ex. rewrite nth_app_l; auto. eapply nth_lt; eauto.
        - intros s2 e2 m2 S2 Si2 (-> & A & B & C).
          destruct (cov_complete _ _ _ _ _ _ _ _ _ _ Si1 Hn Hv Ho) as (b & b' & Hb & (Hh & _ & _) & Hr); [cbn; lia|].
          rewrite Ho in Hb; inversion Hb; subst b. destruct b' as [| | |nb' c2 args' li' di' st'| | | |]; cbn in Hr; try tauto.
          destruct Hr as (-> & _ & _ & Hli & Hdi & Hst). subst li. inversion Hli; subst li'.
          eapply ok_ext with (B := batch_setitems proto sv di ;; save_state proto sv st).
          { apply seq_skip, appends_nil. }
          assert (Rf : forall o a a', Renv e1 o a -> Renv e1 o a' -> a = a') by (eapply env_Rfun; apply (sy_env _ _ _ _ S1)).
          assert (Ri : forall o o' a, Renv e1 o a -> Renv e1 o' a -> o = o') by (eapply env_Rinj; apply (sy_env _ _ _ _ S1)).
          set (W := fun d => ORed nb' c2 args' [] d st').
          eapply ok_seq with (Q := T_again W a (stk m) (meta m) I di).
          + eapply batch_setitems_again_ok; [exact SV|apply dict_like_red|exact S2|]. split; auto. split; auto. split.
            * eapply Sim_inI; [|exact HI]. eapply Sim_trans; eauto.
            * exists di'. split; [rewrite C, nth_app_l; [exact Hh|eapply nth_lt; eauto]|]. split; [eapply keys_distinct_rel; eauto|exact Hdi].
          + intros s3 e3 m3 S3 Si3 (A3 & B3 & HI3 & d3 & Hd3 & _ & Fd3).
            assert (Ed : d3 = di').
            { pose proof (Sim0_heap _ _ _ _ _ _ _ _ _ a (ORed nb' c2 args' [] di' st') Si3) as Hx. rewrite C, nth_app_l in Hx by (eapply nth_lt; eauto).
              specialize (Hx Hh). rewrite Hd3 in Hx. unfold W in Hx. congruence. }
            subst d3.
            eapply ok_conseq; [eapply save_state_again_ok with (b := ORed nb' c2 args' [] di' st'); eauto|].
            * cbn [get_state]. eapply Sim_state; [exact Si3|]. exact Hst.
            * intros s4 e4 m4 S4 Si4 (A4 & B4). exists (VR a). rewrite A4, B4, A3, B3. repeat split; auto. cbn.
              apply (s_env Si4). apply (s_env Si3). auto. }
      destruct (O _ _ E) as (e2 & m2 & R2 & S2 & Si2 & Q2). exists e2, m2. split; auto. split; auto. split; auto. eapply Sim_trans; eauto.
    - set (a := length (heap m1)). set (b1 := ORed nb c' vs' [] [] SNone).
      assert (O : ok (eq a) I (finish_red op1 (KObj o) ;; batch_appends proto sv li ;; batch_setitems proto sv di ;; save_state proto sv st) s1 e1 m1
                (fun s' e' m' => stk m' = VR a :: stk m /\ meta m' = meta m /\ Renv e' o a /\
                   exists li' di' st', nth_error (heap m') a = Some (ORed nb c' vs' li' di' st') /\ Forall2 (val_rel (Renv e')) li li' /\
                     Forall2 (item_rel (Renv e')) di di' /\ state_rel (Renv e') st st')).
      { eapply ok_seq with (Q := fun s' e' m' => Renv e' o a /\ T_list (fun l => ORed nb c' vs' l [] SNone) a (stk m) (meta m) I [] s' e' m').
        - eapply ok_ext with (B := emit [op1] ;; memoize proto (KObj o)).
          { unfold finish_red, seq, emit. rewrite Em. reflexivity. }
          eapply ok_new; [exact S1|exact R1|reflexivity|reflexivity| | |].
          + cbn [heap alloc]. eapply env_ok_alloc with (I := I); [apply (sy_env _ _ _ _ S1)| |].
            * split; auto. split; intros; discriminate.
            * intros o' Eo. inversion Eo; subst. exists (ORed nb c args li di st). auto.
          + cbn [heap alloc]. apply Sim_alloc.
            * intros x; split; auto.
            * intros o' Eo. inversion Eo; subst. left. eapply no_proc; eauto; discriminate.
            * intros; discriminate.
          + intros s2 m2 Ep S2 A B C. split; [apply in_app_iff; right; left; auto|]. split; auto. split; auto.
            split; [rewrite Ep; eapply Sim_inI; [exact Si1|exact HI]|].
            exists []. rewrite C. cbn. split; [apply nth_snoc|constructor].
        - intros s2 e2 m2 S2 Si2 (Ro & TL).
          eapply ok_seq with (Q := fun s' e' m' => Renv e' o a /\ T_list (fun l => ORed nb c' vs' l [] SNone) a (stk m) (meta m) I li s' e' m').
          { eapply ok_conseq; [apply batch_appends_ok; [exact SV|apply list_like_red|exact S2|exact TL]|].
            intros s3 e3 m3 S3 Si3 T3. split; auto. apply (s_env Si3); auto. }
          intros s3 e3 m3 S3 Si3 (Ro3 & A3 & B3 & HI3 & li' & C3 & D3).
          eapply ok_seq with (Q := fun s' e' m' => Renv e' o a /\ Forall2 (val_rel (Renv e')) li li' /\
                                     T_dict (fun d => ORed nb c' vs' li' d SNone) a (stk m) (meta m) I [] di s' e' m').
          { eapply ok_conseq; [apply batch_setitems_ok with (W := fun d => ORed nb c' vs' li' d SNone); [exact SV|apply dict_like_red|exact S3|]|].
            - split; [exact A3|]. split; [exact B3|]. split; [exact HI3|]. exists []. split; [exact C3|constructor].
            - intros s4 e4 m4 S4 Si4 T4. split; [apply (s_env Si4); auto|]. split; [eapply Sim_vals; eauto|exact T4]. }
          intros s4 e4 m4 S4 Si4 (Ro4 & Fl & A4 & B4 & HI4 & di' & C4 & D4). rewrite setitems_nil in D4 by exact Wd.
          eapply ok_conseq; [eapply save_state_ok with (b := ORed nb c' vs' li' di' SNone); eauto; exact Logic.I|].
          intros s5 e5 m5 S5 Si5 (A5 & B5 & st' & C5 & D5). rewrite A5, B5. split; auto. split; auto. split; [apply (s_env Si5); auto|].
          exists li', di', st'. split; [exact C5|]. split; [eapply Sim_vals; eauto|]. split; [eapply Sim_items; eauto|exact D5]. }
      destruct (O _ _ E) as (e2 & m2 & R2 & S2 & Si2 & A & B & C & li' & di' & st' & D & Fl & Fd & Fs).
      exists e2, m2. split; auto. split; auto. split.
      + apply Sim_done with (a := a) (k := KObj o); auto.
        * apply (s_len Si1).
        * apply (sy_env _ _ _ _ S2).
        * intros o' Eo. inversion Eo; subst o'. exists (ORed nb c args li di st), (ORed nb c' vs' li' di' st'). split; auto. split.
          -- split; auto. split; auto. apply (s_len Si1).
          -- cbn. split; auto. split; [eapply Sim_val; eauto|]. split; auto. eapply Sim_vals; eauto.
        * intros p o' Eo Ht. inversion Eo; subst o'. eapply no_kind; eauto.
        * eapply Sim_trans; [|exact Si2]. eapply Sim_exempt_new; eauto. apply (sy_env _ _ _ _ S1).
      + exists (VR a). auto.
  Qed.

  (** ** sets *)
  Lemma close_ok o b b' dp mk md mb m0 s e m (I : key -> Prop) : sync s e m -> H o = Some b -> kind b < 5 -> kind b' = kind b ->
    (forall e', (forall x, In x e -> In x e') -> forall hp, obj_rel (Renv e') H (Genv e' o) hp b b') ->
    run dp m = Some md -> stk md = stk m0 -> meta md = meta m0 -> mem md = mem m -> (exists g, heap md = heap m ++ g) ->
    run mk m = Some (alloc b' mb) -> stk mb = stk m0 -> meta mb = meta m0 -> mem mb = mem m -> heap mb = heap m ->
    ok X0 I (fun s => match memo_get (KObj o) s with
                      | Some i => Ok (dp ++ [GET i], s)
                      | None => (emit mk ;; memoize proto (KObj o)) s
                      end) s e m (P_val (VR o) m0).
  Proof.
    intros S Ho Kb Kb' Hr Rd D1 D2 D3 (g & D4) Rm B1 B2 B3 B4. destruct (memo_get (KObj o) s) as [i|] eqn:E.
    - eapply ok_ext with (B := emit (dp ++ [GET i])); [rewrite E; reflexivity|].
      destruct (memo_get_some _ _ _ _ _ _ S E) as (v & Hi & Hg & Hn).
      destruct (ek_obj _ _ _ _ (sy_env _ _ _ _ S) _ _ Hi) as (a & ->).
      eapply ok_emit with (m' := push (VR a) md).
      + rewrite (run_app _ _ _ _ Rd). cbn [run step]. rewrite D3, Hg. reflexivity.
      + eapply sync_vm; [exact S|exact D3|cbn; rewrite D4, app_length; lia|]. cbn. rewrite D4. apply kind_app.
      + cbn. rewrite D4. apply Sim_mut; [rewrite app_length; lia|]. intros a' b0 Ea _. rewrite nth_app_l; auto. eapply nth_lt; eauto.
      + exists (VR a). cbn. rewrite D1, D2. auto.
    - eapply ok_ext with (B := emit mk ;; memoize proto (KObj o)); [rewrite E; reflexivity|].
      assert (Hnew : forall v, ~ In (KObj o, v) e) by (intros; eapply memo_get_none; eauto; discriminate).
      set (a := length (heap m)).
      assert (Hh : heap (alloc b' mb) = heap m ++ [b']) by (cbn; rewrite B4; auto).
      eapply ok_new with (m1 := alloc b' mb) (v := VR a) (r := stk m0); auto.
      + cbn. unfold a. congruence.
      + rewrite Hh. apply env_ok_alloc with (I := fun _ => False).
        * apply (sy_env _ _ _ _ S).
        * split; auto. split; intros; discriminate.
        * intros o' Ek. inversion Ek; subst. eauto.
      + rewrite Hh. apply Sim_new.
        * rewrite app_length; lia.
        * intros a' b0 E' _. rewrite nth_app_l; auto. eapply nth_lt; eauto.
        * intros o' a' Ek Ev. inversion Ev; subst a'. inversion Ek; subst o'. right; left.
          exists b, b'. split; auto. split; [split; [apply nth_snoc|split; auto]|].
          apply Hr. intros x Hx. apply in_app_iff; auto.
        * intros o' Ek. inversion Ek; subst. left. eapply no_proc; [exact Ho|lia|lia].
        * intros f Ek. discriminate.
        * intros a' Ev. inversion Ev; subst. auto.
      + intros s' m' Ep S' St Me He. exists (VR a). split; auto. split; [rewrite Me; auto|]. apply in_app_iff; right; left; auto.
  Qed.
  Lemma save_set_ok o fz vs s e m (I : key -> Prop) : sync s e m -> (forall k, I k -> Ik (post s) k) ->
    H o = Some (OSet fz vs) -> elems_distinct vs -> (forall v, ~ In (KObj o, v) e) ->
    ok X0 I (save_set proto sv (KObj o) fz vs) s e m (P_val (VR o) m).
  Proof.
    intros S HI Ho Ed Hn.
    assert (Rel : forall e1 h1 P1 vs', env_ok e1 h1 P1 -> Forall2 (val_rel (Renv e1)) vs vs' ->
              forall e', (forall x, In x e1 -> In x e') -> forall hp, obj_rel (Renv e') H (Genv e' o) hp (OSet fz vs) (OSet fz (set_adds [] vs'))).
    { intros e1 h1 P1 vs' E1 F e' He hp. split; [reflexivity|]. eapply vals_mono; [intros x y; apply He|].
      rewrite <- (set_adds_nil vs Ed) at 1. apply set_adds_rel; auto; [eapply env_Rfun; eauto|eapply env_Rinj; eauto]. }
    unfold save_set. destruct (Nat.leb 4 proto); [destruct fz|].
    - eapply ok_seq.
      { eapply ok_emit with (Q := fun s' e' m' => s' = s /\ e' = e /\ stk m' = [] /\ meta m' = stk m :: meta m /\ heap m' = heap m).
        - reflexivity.
        - eapply sync_stk; eauto.
        - apply Sim_refl.
        - cbn. auto. }
      intros s1 e1 m0 S1 _ (-> & -> & A0 & B0 & C0).
      eapply ok_seq; [apply seqs_sv_ok; eauto|].
      intros s1 e1 m1 S2 Si1 (vs' & A & B & C). rewrite A0, app_nil_r in A. rewrite B0 in B.
      set (mb := {| stk := stk m; meta := meta m; mem := mem m1; heap := heap m1 |}).
      eapply close_ok with (b := OSet true vs) (b' := OSet true (set_adds [] vs')) (dp := [POP_MARK]) (mk := [FROZENSET]) (md := mb) (mb := mb); eauto; try (cbn; lia); try reflexivity.
      + eapply Rel; [apply (sy_env _ _ _ _ S2)|exact C].
      + cbn [run step]. unfold pop_mark. rewrite B. reflexivity.
      + exists []. cbn. now rewrite app_nil_r.
      + cbn [run step]. unfold pop_mark. rewrite B, A, rev_involutive. reflexivity.
    - apply save_newset_ok; auto.
    - set (g := if fz then GFrozenset else GSet).
      eapply ok_ext with (B := (sv (g_ g) ;; save_tuple proto sv KAnon [AL vs]) ;; finish_red REDUCE (KObj o)).
      { unfold save_reduce, red_call, red_memo, save_state, finish_red. rewrite !seq_assoc. apply seq_cong_r. intros s1. rewrite !seq_assoc. apply seq_cong_r. intros s2.
        apply seq_cong_r. intros s3. unfold seq, emit. destruct (memo_get (KObj o) s3); [reflexivity|]. destruct (memoize proto (KObj o) s3) as [[l s4]|]; [|reflexivity]. now rewrite app_nil_r. }
      eapply ok_seq.
      { apply save_call_ok; eauto. intros k kvs [X|[]]; discriminate. exact Logic.I. }
      intros s1 e1 m1 S1 Si1 (t & c' & vs' & A & B & C & D & E).
      assert (Ec : c' = g_ g) by (destruct c'; cbn in C; [|tauto]; destruct C as [<- ->]; reflexivity). subst c'.
      inversion E as [|? v0 ? ? Ev E']; subst. inversion E'; subst. destruct Ev as (a & d' & -> & _ & Hd & F).
      set (mb := {| stk := stk m; meta := meta m; mem := mem m1; heap := heap m1 |}).
      assert (R : run [REDUCE] m1 = Some (alloc (OSet fz (set_adds [] d')) mb)).
      { cbn [run step]. rewrite A, D. unfold set_stk. rewrite B. unfold g, g_. destruct fz; cbn [call heap]; rewrite Hd; reflexivity. }
      eapply ok_ext with (B := fun s => match memo_get (KObj o) s with Some i => Ok ([REDUCE; POP] ++ [GET i], s) | None => (emit [REDUCE] ;; memoize proto (KObj o)) s end).
      { unfold finish_red, seq at 1, emit at 1. destruct (memo_get (KObj o) s1); reflexivity. }
      eapply close_ok with (b := OSet fz vs) (b' := OSet fz (set_adds [] d')) (mb := mb) (md := set_stk (stk m) (alloc (OSet fz (set_adds [] d')) mb)); eauto; try (cbn; lia); try reflexivity.
      + eapply Rel; [apply (sy_env _ _ _ _ S1)|exact F].
      + change [REDUCE; POP] with ([REDUCE] ++ [POP]). rewrite (run_app _ _ _ _ R). reflexivity.
      + eexists. reflexivity.
  Qed.
End Obj.
