(** C07, C01: on closed graphs in which no object is needed for its own construction, dumps succeeds, and so what it writes loads. *)
From Coq Require Import String List Bool Arith ZArith Lia.
From Verif Require Import PyDict CoreModel CoreSpec CoreTerm CoreProps CoreExamples CoreTermEx.
Import ListNotations.
Local Open Scope string_scope.
Local Open Scope list_scope.

Section Total.
  Variable proto : nat.
  Variable H : oid -> option obj.
  Variable D : list oid.
  Hypothesis CD : closed H D.
  Hypothesis HD : forall o, In o D -> H o <> None.
  Hypothesis HW : heap_wf H.
  Hypothesis DF : definable H.

  Definition creach (e : oid) (v : val) : Prop := match v with VA _ _ => True | VR o => during H e o end.
  (** saving [v] does not meet an object of [ids] that is still being created *)
  Definition Good (m : list key) (ids : list oid) (v : val) : Prop :=
    forall e, In e ids -> In (KObj e) m \/ creach e v \/ (exists o, v = VR o /\ In (KObj o) m).
  (** a deferred update in the list of [e], with [P] below and [Q] above it on the stack *)
  Definition pok (m : list key) (P : list oid) (e : oid) (Q : list oid) (p : pp) : Prop :=
    match p with
    | PSetCell c => In c D /\ In (KObj c) m /\ exists v, H c = Some (OCell (Some v)) /\ (v = VR e \/ P = [])
    | PSetItems f => In f D /\ (exists kvs, glob_items H f = Some kvs /\ forall w, In w (flat kvs) -> Good m P w) /\ (In (KGlob f) m \/ f = e \/ In f Q)
    | PSetQual t => t = e /\ In t D /\ exists mt n bs d q, H t = Some (OType mt n bs d q) /\ Good m P q
    end.
  Fixpoint pinv (m : list key) (P : list oid) (l : list (oid * list pp)) : Prop :=
    match l with
    | [] => True
    | (e, ps) :: l' => Forall (pok m P e (map fst l')) ps /\ pinv m (P ++ [e]) l'
    end.
  Definition PI (s : pst) : Prop := pinv (memo s) [] (post s).

  Lemma Good_mono m m' ids v : incl m m' -> Good m ids v -> Good m' ids v.
  Proof. intros Hi Hg e He. destruct (Hg e He) as [A|[A|(o & A & B)]]; eauto 8. Qed.
  Lemma pok_mono m m' P e Q Q' p : incl m m' -> incl Q Q' -> pok m P e Q p -> pok m' P e Q' p.
  Proof.
    intros Hm Hq. destruct p as [c|f|t]; cbn.
    - intros (A & B & C). auto.
    - intros (A & (kvs & B & C) & E). split; auto. split; [exists kvs; split; auto; intros; eapply Good_mono; eauto|].
      destruct E as [E|[E|E]]; auto.
    - intros (A & B & mt & n & bs & d & q & C & E). split; auto. split; auto. exists mt, n, bs, d, q. split; auto. eapply Good_mono; eauto.
  Qed.
  Lemma pinv_mono m m' l : forall P, incl m m' -> pinv m P l -> pinv m' P l.
  Proof.
    induction l as [|[e ps] l IH]; cbn; auto. intros P Hi (A & B). split; auto. eapply Forall_impl; [|exact A]. intros p. apply pok_mono; auto. apply incl_refl.
  Qed.
  Lemma pinv_append m e p l : forall P, pinv m P l ->
    (forall P' Q', map fst l = P' ++ e :: Q' -> ~ In e P' -> pok m (P ++ P') e Q' p) -> pinv m P (append_pp e p l).
  Proof.
    induction l as [|[e' ps] l IH]; intros P Hp Hk; cbn [append_pp]; auto. cbn [pinv] in Hp. destruct Hp as (A & B).
    destruct (Nat.eqb_spec e e') as [<-|Hne].
    - cbn [pinv]. split; auto. apply Forall_app. split; auto. constructor; auto.
      specialize (Hk [] (map fst l) eq_refl). rewrite app_nil_r in Hk. apply Hk. intros [].
    - cbn [pinv]. assert (Ef : forall l0, map fst (append_pp e p l0) = map fst l0).
      { clear. induction l0 as [|[y k] l0 IH]; cbn; auto. destruct (Nat.eqb e y); cbn; congruence. }
      rewrite Ef. split; auto. apply IH; auto. intros P' Q' E Hn. rewrite <- app_assoc. apply Hk; [cbn; congruence|].
      intros [X|X]; [congruence|auto].
  Qed.
  Lemma append_fst e p l : map fst (append_pp e p l) = map fst l.
  Proof. induction l as [|[y k] l IH]; cbn; auto. destruct (Nat.eqb e y); cbn; congruence. Qed.
  Lemma pinv_push m o own l : forall P, pinv m P l -> Forall (pok m (P ++ map fst l) o []) own -> pinv m P (l ++ [(o, own)]).
  Proof.
    induction l as [|[e ps] l IH]; intros P Hp Ho; cbn [app pinv map fst] in *.
    - rewrite app_nil_r in Ho. auto.
    - destruct Hp as (A & B). split.
      + eapply Forall_impl; [|exact A]. intros p. apply pok_mono; [apply incl_refl|]. rewrite map_app. apply incl_appl, incl_refl.
      + apply IH; auto. rewrite <- app_assoc. auto.
  Qed.
  Lemma pinv_pop m o own l : forall P, pinv m P (l ++ [(o, own)]) -> (forall kvs, glob_items H o = Some kvs -> In (KGlob o) m) ->
    pinv m P l /\ Forall (pok m (P ++ map fst l) o []) own.
  Proof.
    induction l as [|[e ps] l IH]; intros P Hp Hk; cbn [app pinv map fst] in *.
    - rewrite app_nil_r. tauto.
    - destruct Hp as (A & B). destruct (IH _ B Hk) as (X & Y). rewrite <- app_assoc in Y. split; auto. split; auto.
      eapply Forall_impl; [|exact A]. intros [c|f|t]; cbn; auto. intros (F1 & (kvs & F2 & F3) & F4). split; auto. split; [eauto|].
      destruct F4 as [F4|[F4|F4]]; auto. rewrite map_app in F4. apply in_app_iff in F4 as [F4|[F4|[]]]; auto. cbn in F4. subst f. left. eauto.
  Qed.
  Lemma PI_memo s k : PI s -> PI {| memo := memo s ++ [k]; post := post s |}.
  Proof. unfold PI. cbn. apply pinv_mono. apply incl_appl, incl_refl. Qed.

  Definition ext (s s' : pst) : Prop :=
    incl (memo s) (memo s') /\ map fst (post s') = map fst (post s) /\ (PI s -> PI s').
  Lemma ext_refl s : ext s s.
  Proof. split; [apply incl_refl|auto]. Qed.
  Lemma ext_trans a b c : ext a b -> ext b c -> ext a c.
  Proof. intros (A & B & C) (A' & B' & C'). split; [eapply incl_tran; eauto|]. split; [congruence|auto]. Qed.

  Definition tr (I Q : pst -> Prop) (A : act) : Prop :=
    forall s, I s -> match A s with Ok (_, s') => ext s s' /\ Q s' | Fail e _ => e = OutOfFuel end.
  Lemma tr_seq I Q R A B : tr I Q A -> tr Q R B -> tr I R (A ;; B).
  Proof.
    intros TA TB s HI. unfold seq. specialize (TA s HI). destruct (A s) as [[l s1]|]; auto. destruct TA as [E1 Q1].
    specialize (TB s1 Q1). destruct (B s1) as [[l' s2]|]; auto. destruct TB as [E2 R2]. split; auto. eapply ext_trans; eauto.
  Qed.
  Lemma tr_emit I l : tr I I (emit l).
  Proof. intros s HI. cbn. split; auto. apply ext_refl. Qed.
  Lemma tr_fail I Q e : e = OutOfFuel -> tr I Q (fail e).
  Proof. intros Hn s HI. exact Hn. Qed.

  Section Inv.
  Variable I : pst -> Prop.
  Hypothesis ISt : forall s s', I s -> ext s s' -> I s'.

  Lemma tr_memoize k : tr I (fun s => I s /\ In k (memo s)) (memoize proto k).
  Proof.
    intros s HI. cbn. set (s' := {| memo := memo s ++ [k]; post := post s |}).
    assert (E : ext s s') by (split; [apply incl_appl, incl_refl|split; [auto|apply PI_memo]]).
    split; auto. split; [eapply ISt; eauto|]. cbn. apply in_app_iff. right; left; auto.
  Qed.
  Lemma tr_memo k : tr I I (memoize proto k).
  Proof. intros s HI. pose proof (tr_memoize k s HI) as T. destruct (memoize proto k s) as [[]|]; tauto. Qed.
  Lemma tr_seqs {A} (f : A -> act) l : (forall x, In x l -> tr I I (f x)) -> tr I I (seqs f l).
  Proof.
    induction l as [|x l IH]; intros Hf; cbn [seqs]; [apply tr_emit|]. eapply tr_seq; [apply Hf; left; auto|].
    apply IH. intros; apply Hf; right; auto.
  Qed.

  Variable sv : val -> act.
  Variable W : val -> Prop.
  Hypothesis SV : forall w, W w -> tr I I (sv w).

  Lemma tr_batches {A} (one : A -> act) many : forall n l, (forall x, In x l -> tr I I (one x)) ->
    (forall l', incl l' l -> tr I I (many l')) -> tr I I (batches one many n l).
  Proof.
    induction n as [|n IH]; intros l H1 H2; cbn [batches]; [apply tr_emit|].
    assert (Hf : incl (firstn BATCHSIZE l) l).
    { intros x Hx. rewrite <- (firstn_skipn BATCHSIZE l). apply in_app_iff; auto. }
    assert (Hs : incl (skipn BATCHSIZE l) l).
    { intros x Hx. rewrite <- (firstn_skipn BATCHSIZE l). apply in_app_iff; auto. }
    eapply tr_seq.
    - destruct (firstn BATCHSIZE l) as [|x [|y r]]; [apply tr_emit|apply H1, Hf; left; auto|apply H2; auto].
    - destruct (Nat.ltb _ _); [apply tr_emit|]. apply IH; [intros; apply H1; auto|]. intros; apply H2. eapply incl_tran; eauto.
  Qed.
  Definition Wkv (kvs : list (val * val)) : Prop := forall v, In v (flat kvs) -> W v.
  Lemma Wkv_in kvs p : Wkv kvs -> In p kvs -> W (fst p) /\ W (snd p).
  Proof. intros A B. split; apply A; apply in_flat_map; exists p; cbn; auto. Qed.
  Lemma tr_kv kvs p : Wkv kvs -> In p kvs -> tr I I (save_kv sv p).
  Proof. intros A B. destruct (Wkv_in _ _ A B). eapply tr_seq; apply SV; auto. Qed.
  Lemma tr_setitems kvs : Wkv kvs -> tr I I (batch_setitems proto sv kvs).
  Proof.
    intros A. unfold batch_setitems. destruct (bin proto).
    - apply tr_batches.
      + intros. eapply tr_seq; [eapply tr_kv; eauto|apply tr_emit].
      + intros l' Hl. eapply tr_seq; [apply tr_emit|]. eapply tr_seq; [apply tr_seqs|apply tr_emit]. intros; eapply tr_kv; eauto.
    - apply tr_seqs. intros. eapply tr_seq; [eapply tr_kv; eauto|apply tr_emit].
  Qed.
  Lemma tr_appends vs : (forall v, In v vs -> W v) -> tr I I (batch_appends proto sv vs).
  Proof.
    intros A. unfold batch_appends. destruct (bin proto).
    - apply tr_batches.
      + intros. eapply tr_seq; [apply SV; auto|apply tr_emit].
      + intros l' Hl. eapply tr_seq; [apply tr_emit|]. eapply tr_seq; [apply tr_seqs; intros; apply SV; auto|apply tr_emit].
    - apply tr_seqs. intros. eapply tr_seq; [apply SV; auto|apply tr_emit].
  Qed.
  Lemma tr_dict k kvs : Wkv kvs -> tr I I (save_dict proto sv k kvs).
  Proof. intros A. eapply tr_seq; [apply tr_emit|]. eapply tr_seq; [apply tr_memo|now apply tr_setitems]. Qed.
  Lemma tr_list k vs : (forall v, In v vs -> W v) -> tr I I (save_list proto sv k vs).
  Proof. intros A. eapply tr_seq; [apply tr_emit|]. eapply tr_seq; [apply tr_memo|now apply tr_appends]. Qed.
  Definition Warg (x : arg) : Prop := match x with AV v => W v | AD _ kvs => Wkv kvs | AL vs => forall v, In v vs -> W v end.
  Lemma tr_arg x : Warg x -> tr I I (save_arg proto sv x).
  Proof. destruct x; cbn; [apply SV|apply tr_dict|apply tr_list]. Qed.
  Lemma tr_tuple k xs : (forall x, In x xs -> Warg x) -> tr I I (save_tuple proto sv k xs).
  Proof.
    intros A. unfold save_tuple. destruct xs as [|x0 xs0] eqn:Ex; [apply tr_emit|]. rewrite <- Ex in *. clear Ex x0 xs0.
    assert (T : tr I I (seqs (save_arg proto sv) xs)) by (apply tr_seqs; intros; apply tr_arg; auto).
    assert (G : forall ops mk, tr I I (fun s => match memo_get k s with Some i => Ok (ops ++ [GET i], s) | None => (emit mk ;; memoize proto k) s end)).
    { intros ops mk s HI. destruct (memo_get k s).
      - split; auto. apply ext_refl.
      - revert s HI. change (tr I I (emit mk ;; memoize proto k)). eapply tr_seq; [apply tr_emit|apply tr_memo]. }
    destruct (_ && _).
    - eapply tr_seq; [exact T|apply G].
    - eapply tr_seq; [apply tr_emit|]. eapply tr_seq; [exact T|apply G].
  Qed.
  Lemma tr_call c xs : W c -> (forall x, In x xs -> Warg x) -> tr I I (sv c ;; save_tuple proto sv KAnon xs ;; emit [REDUCE]).
  Proof. intros A B. eapply tr_seq; [apply SV; auto|]. eapply tr_seq; [apply tr_tuple; auto|apply tr_emit]. Qed.
  Lemma tr_reduce_none c xs : W c -> (forall x, In x xs -> Warg x) -> tr I I (save_reduce proto sv false c xs SNone None).
  Proof. intros A B. unfold save_reduce, red_call, red_memo. eapply tr_seq; [apply tr_call; auto|]. eapply tr_seq; apply tr_emit. Qed.
  Lemma tr_set k (fz : bool) vs : W (g_ (if fz then GFrozenset else GSet)) -> (forall v, In v vs -> W v) -> tr I I (save_set proto sv k fz vs).
  Proof.
    intros Ag A. unfold save_set. destruct (Nat.leb 4 proto); [destruct fz|].
    - eapply tr_seq; [apply tr_emit|]. eapply tr_seq; [apply tr_seqs; intros; apply SV; auto|].
      intros s HI. destruct (memo_get k s).
      + split; auto. apply ext_refl.
      + revert s HI. change (tr I I (emit [FROZENSET] ;; memoize proto k)). eapply tr_seq; [apply tr_emit|apply tr_memo].
    - assert (AB : forall l, incl l vs -> tr I I (add_batch sv l)).
      { intros l Hl. eapply tr_seq; [apply tr_emit|]. eapply tr_seq; [apply tr_seqs; intros; apply SV; auto|apply tr_emit]. }
      eapply tr_seq; [apply tr_emit|]. eapply tr_seq; [apply tr_memo|]. apply tr_batches; auto.
      intros x Hx. apply AB. intros w [<-|[]]; auto.
    - unfold save_reduce, red_call, red_memo. eapply tr_seq; [apply tr_call; auto; intros x [<-|[]]; exact A|].
      eapply tr_seq; [|apply tr_emit]. intros s HI. destruct (memo_get k s).
      + split; auto. apply ext_refl.
      + revert s HI. apply tr_memo.
  Qed.
  End Inv.

  (** an object with a state: after it is in the memo a stronger invariant holds *)
  Lemma find_key_in k l : forall i n, find_key k l i = Some n -> In k l.
  Proof. induction l as [|k' l IH]; cbn; intros i n E; [discriminate|]. destruct (key_eq_dec k k'); [left; auto|right; eauto]. Qed.
  Lemma memo_get_in k s i : memo_get k s = Some i -> In k (memo s).
  Proof. destruct k; cbn; try discriminate; apply find_key_in. Qed.

  Lemma tr_state (I : pst -> Prop) (ISt : forall s s', I s -> ext s s' -> I s') sv (W : val -> Prop) (SV : forall w, W w -> tr I I (sv w)) st :
    (forall v, In v (state_vals st) -> W v) -> tr I I (save_state proto sv st).
  Proof.
    intros A. destruct st as [|v|d [sl|]]; cbn [save_state].
    - apply tr_emit.
    - eapply tr_seq; [apply SV, A; left; auto|apply tr_emit].
    - eapply tr_seq; [eapply tr_tuple with (W := W); auto|apply tr_emit].
      intros x [<-|[<-|[]]] v Hv; apply A; cbn; apply in_app_iff; auto.
    - eapply tr_seq; [eapply tr_dict with (W := W); auto|apply tr_emit].
  Qed.

  Lemma tr_reduce (I I2 : pst -> Prop) (ISt : forall s s', I s -> ext s s' -> I s') (ISt2 : forall s s', I2 s -> ext s s' -> I2 s')
      sv (W W2 : val -> Prop) (SV : forall w, W w -> tr I I (sv w)) (SV2 : forall w, W2 w -> tr I2 I2 (sv w)) nb c xs st k :
    W c -> W (g_ GNewobj) -> (forall x, In x xs -> Warg W x) -> (forall v, In v (state_vals st) -> W2 v) ->
    (forall s, I s -> In k (memo s) -> I2 s) ->
    tr I I2 (save_reduce proto sv nb c xs st (Some k)).
  Proof.
    intros A A' B C HI. unfold save_reduce, red_call, red_memo. eapply tr_seq with (Q := I); [|eapply tr_seq with (Q := I2)].
    - destruct nb; [destruct (Nat.leb 2 proto)|].
      + eapply tr_seq; [apply SV; auto|]. eapply tr_seq; [eapply tr_tuple with (W := W); auto|apply tr_emit].
      + apply (tr_call I ISt sv W SV); auto. intros x [<-|Hx]; auto.
      + apply (tr_call I ISt sv W SV); auto.
    - intros s Hs. destruct (memo_get k s) eqn:E.
      + split; [apply ext_refl|]. apply HI; auto. eapply memo_get_in; eauto.
      + pose proof (tr_memoize I ISt k s Hs) as T. destruct (memoize proto k s) as [[]|]; auto. destruct T as (T1 & T2 & T3). auto.
    - eapply tr_state; eauto.
  Qed.
  Lemma tr_instance (I I2 : pst -> Prop) (ISt : forall s s', I s -> ext s s' -> I s') (ISt2 : forall s s', I2 s -> ext s s' -> I2 s')
      sv (W W2 : val -> Prop) (SV : forall w, W w -> tr I I (sv w)) (SV2 : forall w, W2 w -> tr I2 I2 (sv w)) nb c xs li di st k :
    W c -> W (g_ GNewobj) -> (forall x, In x xs -> Warg W x) -> (forall v, In v (li ++ flat di ++ state_vals st) -> W2 v) ->
    (forall s, I s -> In k (memo s) -> I2 s) ->
    tr I I2 (save_instance proto sv nb c xs li di st k).
  Proof.
    intros A A' B C HI. unfold save_instance, red_call, red_memo. eapply tr_seq with (Q := I); [|eapply tr_seq with (Q := I2)].
    - destruct nb; [destruct (Nat.leb 2 proto)|].
      + eapply tr_seq; [apply SV; auto|]. eapply tr_seq; [eapply tr_tuple with (W := W); auto|apply tr_emit].
      + apply (tr_call I ISt sv W SV); auto. intros x [<-|Hx]; auto.
      + apply (tr_call I ISt sv W SV); auto.
    - intros s Hs. destruct (memo_get k s) eqn:E.
      + split; [apply ext_refl|]. apply HI; auto. eapply memo_get_in; eauto.
      + pose proof (tr_memoize I ISt k s Hs) as T. destruct (memoize proto k s) as [[]|]; auto. destruct T as (T1 & T2 & T3). auto.
    - eapply tr_seq with (Q := I2); [eapply tr_appends with (W := W2); eauto; intros; apply C; rewrite !in_app_iff; auto|].
      eapply tr_seq with (Q := I2); [eapply tr_setitems with (W := W2); eauto; intros v Hv; apply C; rewrite !in_app_iff; auto|].
      eapply tr_state; eauto. intros v Hv. apply C. rewrite !in_app_iff; auto.
  Qed.

  (** after an argument that is a temporary dictionary, its key is in the memo *)
  Section Key.
    Variable I : pst -> Prop.
    Hypothesis ISt : forall s s', I s -> ext s s' -> I s'.
    Variable sv : val -> act.
    Variable W : val -> Prop.
    Hypothesis SV : forall w, W w -> tr I I (sv w).
    Variable key0 : key.
    Let I' := fun s => I s /\ In key0 (memo s).
    Lemma I'_st s s' : I' s -> ext s s' -> I' s'.
    Proof. intros (A & B) E. split; [eapply ISt; eauto|]. apply E. auto. Qed.
    Lemma tr_lift A : tr I I A -> tr I' I' A.
    Proof. intros T s (Hs & Hk). specialize (T s Hs). destruct (A s) as [[l s']|]; auto. destruct T as (E & T). split; auto. split; auto. apply E. auto. Qed.
    Lemma tr_seqs_key xs kvs : (forall x, In x xs -> Warg W x) -> In (AD key0 kvs) xs -> tr I I' (seqs (save_arg proto sv) xs).
    Proof.
      induction xs as [|x xs IH]; intros A Hi; [destruct Hi|]. destruct Hi as [->|Hi].
      - cbn [seqs]. eapply tr_seq with (Q := I').
        + cbn [save_arg]. unfold save_dict. eapply tr_seq; [apply tr_emit|]. eapply tr_seq; [apply tr_memoize; exact ISt|]. apply tr_lift.
          apply (tr_setitems I sv W SV). apply (A (AD key0 kvs)). left; auto.
        + apply tr_seqs. intros y Hy. apply tr_lift. apply (tr_arg I ISt sv W SV). apply A. right; auto.
      - cbn [seqs]. eapply tr_seq; [apply (tr_arg I ISt sv W SV); apply A; left; auto|]. apply IH; auto. intros; apply A; right; auto.
    Qed.
    Lemma tr_tuple_key k xs kvs : (forall x, In x xs -> Warg W x) -> In (AD key0 kvs) xs -> tr I I' (save_tuple proto sv k xs).
    Proof.
      intros A Hi. unfold save_tuple. destruct xs as [|x0 xs0] eqn:Ex; [destruct Hi|]. rewrite <- Ex in *. clear Ex x0 xs0.
      assert (T : tr I I' (seqs (save_arg proto sv) xs)) by (eapply tr_seqs_key; eauto).
      assert (G : forall ops mk, tr I' I' (fun s => match memo_get k s with Some i => Ok (ops ++ [GET i], s) | None => (emit mk ;; memoize proto k) s end)).
      { intros ops mk s HI. destruct (memo_get k s).
        - split; auto. apply ext_refl.
        - revert s HI. change (tr I' I' (emit mk ;; memoize proto k)). eapply tr_seq; [apply tr_emit|apply tr_memo; exact I'_st]. }
      destruct (_ && _).
      - eapply tr_seq; [exact T|apply G].
      - eapply tr_seq; [apply tr_emit|]. eapply tr_seq; [exact T|apply G].
    Qed.
  End Key.
  Lemma tr_reduce_key (I I2 : pst -> Prop) (ISt : forall s s', I s -> ext s s' -> I s') (ISt2 : forall s s', I2 s -> ext s s' -> I2 s')
      sv (W W2 : val -> Prop) (SV : forall w, W w -> tr I I (sv w)) (SV2 : forall w, W2 w -> tr I2 I2 (sv w)) c xs st k key0 kvs :
    W c -> (forall x, In x xs -> Warg W x) -> (forall v, In v (state_vals st) -> W2 v) -> In (AD key0 kvs) xs ->
    (forall s, I s -> In k (memo s) -> In key0 (memo s) -> I2 s) ->
    tr I I2 (save_reduce proto sv false c xs st (Some k)).
  Proof.
    intros A B C Hk HI. unfold save_reduce, red_call, red_memo. set (I' := fun s => I s /\ In key0 (memo s)).
    assert (St' : forall s s', I' s -> ext s s' -> I' s') by (apply I'_st; auto).
    eapply tr_seq with (Q := I'); [|eapply tr_seq with (Q := I2)].
    - eapply tr_seq; [apply SV; auto|]. eapply tr_seq; [eapply tr_tuple_key with (W := W); eauto|apply tr_emit].
    - intros s Hs. destruct (memo_get k s) eqn:E.
      + split; [apply ext_refl|]. destruct Hs. apply HI; auto. eapply memo_get_in; eauto.
      + pose proof (tr_memoize I' St' k s Hs) as T. destruct (memoize proto k s) as [[]|]; auto. destruct T as (T1 & (T2 & T4) & T3). auto.
    - eapply tr_state; eauto.
  Qed.

  (** ** the invariant from an entry state *)
  Definition Iv (s0 : pst) (ids : list oid) (s : pst) : Prop := incl (memo s0) (memo s) /\ map fst (post s) = ids /\ PI s.
  Lemma Iv_st s0 ids s s' : Iv s0 ids s -> ext s s' -> Iv s0 ids s'.
  Proof. intros (A & B & C) (A' & B' & C'). split; [eapply incl_tran; eauto|]. split; [congruence|auto]. Qed.
  Definition Im (ks : list key) (s0 : pst) (ids : list oid) (s : pst) : Prop := Iv s0 ids s /\ incl ks (memo s).
  Lemma Im_st ks s0 ids s s' : Im ks s0 ids s -> ext s s' -> Im ks s0 ids s'.
  Proof. intros (A & B) E. split; [eapply Iv_st; eauto|]. eapply incl_tran; [exact B|apply E]. Qed.

  Definition Tl (sv : val -> act) : Prop := forall v s, vD D v -> PI s -> Good (memo s) (map fst (post s)) v ->
    match sv v s with Ok (_, s') => ext s s' | Fail e _ => e = OutOfFuel end.

  Section Step.
    Variable sv : val -> act.
    Hypothesis IH : Tl sv.

    Lemma tr_sv ks s0 ids w : vD D w -> Good (ks ++ memo s0) ids w -> tr (Im ks s0 ids) (Im ks s0 ids) (sv w).
    Proof.
      intros Hw Hg s Hs. pose proof Hs as ((A & B & C) & K). assert (T := IH w s Hw C). rewrite B in T.
      assert (G : Good (memo s) ids w) by (eapply Good_mono; [|exact Hg]; apply incl_app; auto).
      specialize (T G). destruct (sv w s) as [[l s']|]; auto. split; auto. eapply Im_st; eauto.
    Qed.
    Lemma Good_atom m ids a i : Good m ids (VA a i).
    Proof. intros e _. right; left. exact Logic.I. Qed.
    Lemma Good_in m ids o : In (KObj o) m -> Good m ids (VR o).
    Proof. intros Hm e _. right; right. eauto. Qed.

    (** a deferred update *)
    Lemma tr_exec s0 ids e p : pok (memo s0) ids e [] p -> In (KObj e) (memo s0) -> (forall kvs, glob_items H e = Some kvs -> In (KGlob e) (memo s0)) ->
      tr (Im [] s0 ids) (Im [] s0 ids) (exec_pp proto H sv p).
    Proof.
      intros Hp He Hg. set (W := fun w => vD D w /\ Good (memo s0) ids w).
      assert (SV : forall w, W w -> tr (Im [] s0 ids) (Im [] s0 ids) (sv w)) by (intros w (A & B); apply tr_sv; auto).
      pose proof (Im_st [] s0 ids) as St.
      assert (Wa : forall a i, W (VA a i)) by (intros; split; [exact Logic.I|apply Good_atom]).
      destruct p as [c|f|t]; cbn [exec_pp pok] in *.
      - destruct Hp as (A & B & v & C & E). rewrite C. eapply tr_seq; [|apply tr_emit]. apply (tr_reduce_none _ St sv W SV); [apply Wa|].
        intros x [<-|[<-|[<-|[]]]]; cbn [Warg]; [split; [exact A|apply Good_in; auto]|apply Wa|].
        split; [apply (CD c _ v A C); left; auto|]. destruct E as [->| ->]; [apply Good_in; auto|intros y []].
      - destruct Hp as (A & (kvs & B & C) & E). rewrite B. destruct kvs as [|kv kvs0] eqn:Ek; [apply tr_emit|]. rewrite <- Ek in *. clear Ek kv kvs0.
        assert (K : In (KGlob f) (memo s0)) by (destruct E as [E|[->|[]]]; eauto).
        intros s Hs. destruct (memo_get (KGlob f) s) eqn:Em.
        + revert s Hs Em. intros s Hs _. revert s Hs.
          match goal with |- forall s, Im _ _ _ s -> match ?A s with _ => _ end => change (tr (Im [] s0 ids) (Im [] s0 ids) A) end.
          eapply tr_seq; [apply tr_emit|]. eapply tr_seq; [|apply tr_emit]. apply (tr_setitems _ sv W SV).
          intros w Hw. split; [|auto]. unfold glob_items in B. destruct (H f) as [[| | | |co [|g m] n1 de cl st| | |]|] eqn:Ef; try discriminate.
          destruct (H g) as [[| |kvs'| | | | |]|] eqn:Eg; try discriminate. injection B as ->.
          assert (Hgd : In g D) by (apply (CD f _ (VR g) A Ef); cbn; auto 8). apply (CD g _ w Hgd Eg). exact Hw.
        + exfalso. cbn [memo_get] in Em. apply Hs in K.
          assert (G : forall l i, In (KGlob f) l -> find_key (KGlob f) l i <> None).
          { induction l as [|k l IHl]; [intros i []|]. cbn [find_key In]. intros i X. destruct (key_eq_dec (KGlob f) k); [discriminate|]. apply IHl. destruct X; congruence. }
          eapply G; eauto.
      - destruct Hp as (-> & A & mt & n & bs & d & q & C & E). rewrite C. eapply tr_seq; [|apply tr_emit]. apply (tr_reduce_none _ St sv W SV); [apply Wa|].
        intros x [<-|[<-|[<-|[]]]]; cbn [Warg]; [split; [exact A|apply Good_in; auto]|apply Wa|].
        split; [apply (CD e _ q A C); cbn; auto|auto].
    Qed.

    Lemma last_entry (l : list (oid * list pp)) : forall P o, map fst l = P ++ [o] -> ~ In o P -> exists l' own, l = l' ++ [(o, own)] /\ map fst l' = P /\ get o l = Some own /\ del o l = l'.
    Proof.
      induction l as [|[y k] l IHl]; intros P o E Hn; [destruct P; discriminate|]. destruct P as [|x P].
      - cbn in E. injection E as -> E. destruct l; [|discriminate]. exists [], k. cbn. rewrite Nat.eqb_refl. auto.
      - cbn in E. injection E as -> E. destruct (IHl P o E) as (l' & own & A & B & C & F); [intros X; apply Hn; right; auto|].
        exists ((x, k) :: l'), own. cbn. destruct (Nat.eqb_spec o x) as [->|]; [exfalso; apply Hn; left; auto|]. split; [f_equal; exact A|]. split; [f_equal; exact B|]. split; [exact C|]. cbn [negb]. f_equal; exact F.
    Qed.

    Lemma tr_postproc o own red s0 ks : ~ In o (map fst (post s0)) -> PI {| memo := memo s0; post := post s0 ++ [(o, own)] |} ->
      tr (Im [] s0 (map fst (post s0) ++ [o])) (Im ks s0 (map fst (post s0) ++ [o])) red ->
      In (KObj o) ks -> (forall kvs, glob_items H o = Some kvs -> In (KGlob o) ks) ->
      match save_with_postproc proto H sv o own red s0 with
      | Ok (_, s') => incl (memo s0) (memo s') /\ map fst (post s') = map fst (post s0) /\ PI s'
      | Fail e _ => e = OutOfFuel
      end.
    Proof.
      intros Hn HP HR Hk Hg. unfold save_with_postproc. destruct (memb o (map fst (post s0))) eqn:Em; [exfalso; apply Hn; apply memb_In; auto|].
      unfold seq at 1, push_post. set (s1 := {| memo := memo s0; post := post s0 ++ [(o, own)] |}) in *.
      assert (I1 : Im [] s0 (map fst (post s0) ++ [o]) s1).
      { split; [|intros x []]. split; [apply incl_refl|]. cbn. split; [rewrite map_app; reflexivity|exact HP]. }
      unfold seq. specialize (HR s1 I1). destruct (red s1) as [[l2 s2]|]; auto. destruct HR as (E2 & (I2 & J2 & K2) & M2).
      destruct (last_entry _ _ _ J2 Hn) as (l' & own' & Lp & Lf & Lg & Ld). unfold pop_run. rewrite Lg, Ld.
      assert (K2' := K2). unfold PI in K2'. rewrite Lp in K2'.
      destruct (pinv_pop _ _ _ _ _ K2' (fun kvs Hx => M2 _ (Hg kvs Hx))) as (Hl' & Hown). cbn [app] in Hown. rewrite Lf in Hown.
      set (s3 := {| memo := memo s2; post := l' |}).
      assert (T : tr (Im [] s3 (map fst (post s0))) (Im [] s3 (map fst (post s0))) (seqs (exec_pp proto H sv) (rev own'))).
      { apply tr_seqs. intros p Hp. apply in_rev in Hp. rewrite Forall_forall in Hown. apply (tr_exec s3 _ o); [apply Hown; auto|apply M2; auto|intros; apply M2; eauto]. }
      assert (I3 : Im [] s3 (map fst (post s0)) s3).
      { split; [|intros x []]. split; [apply incl_refl|]. split; [exact Lf|exact Hl']. }
      specialize (T s3 I3). destruct (seqs _ _ s3) as [[l4 s4]|]; auto. destruct T as [E4 ((I4 & J4 & K4) & _)].
      split; [eapply incl_tran; eauto|]. auto.
    Qed.

    Variable s0 : pst.
    Variable o : oid.
    Variable b : obj.
    Hypothesis Ho : In o D.
    Hypothesis Hb : H o = Some b.
    Hypothesis HP : PI s0.
    Hypothesis Hn : ~ In (KObj o) (memo s0).
    Let ids := map fst (post s0).
    Hypothesis HG : Good (memo s0) ids (VR o).

    Lemma child_good w e : In e ids -> In w (at_once H e b) -> In (KObj e) (memo s0) \/ creach e w.
    Proof.
      intros He Hw. destruct (HG e He) as [A|[A|(o' & A & B)]]; auto.
      - right. destruct w as [|o']; [exact Logic.I|]. cbn in *. eapply du_step; eauto.
      - injection A as <-. contradiction.
    Qed.
    Lemma child_Good w : (forall e, In w (at_once H e b)) -> Good (memo s0) ids w.
    Proof. intros Hw e He. destruct (child_good w e He (Hw e)); auto. Qed.
    (** inside a function or class *)
    Lemma part_Good w : (forall e, In w (at_once H e b)) -> In w (parts b) -> Good (memo s0) (ids ++ [o]) w.
    Proof.
      intros Hw Hp e He. apply in_app_iff in He as [He|[<-|[]]]; [destruct (child_good w e He (Hw e)); auto|].
      right; left. destruct w as [|o']; [exact Logic.I|]. cbn. eapply du_part; eauto.
    Qed.
    Lemma state_Good ks w : In (KObj o) ks -> (forall e, In w (at_once H e b)) -> Good (ks ++ memo s0) (ids ++ [o]) w.
    Proof.
      intros Hk Hw e He. apply in_app_iff in He as [He|[<-|[]]]; [|left; apply in_app_iff; auto].
      destruct (child_good w e He (Hw e)); auto. left. apply in_app_iff; auto.
    Qed.
    Lemma refs_D w : In w (refs b) -> vD D w.
    Proof. eapply CD; eauto. Qed.
    Lemma not_on_stack : (match b with OFun _ _ _ _ _ _ | OType _ _ _ _ _ => True | _ => False end) -> ~ In o ids.
    Proof.
      intros Hd Hi. destruct (HG o Hi) as [A|[A|(o' & A & B)]]; [contradiction| |injection A as <-; contradiction].
      pose proof (DF o) as F. rewrite Hb in F. destruct b; try contradiction; exact (F A).
    Qed.

    Lemma first_in_some vals l e : first_in vals l = Some e ->
      In (VR e) vals /\ exists P Q, map fst l = P ++ e :: Q /\ forall e0, In e0 P -> ~ In (VR e0) vals.
    Proof.
      unfold first_in. induction l as [|[y k] l IHl]; cbn [find]; [discriminate|].
      destruct (existsb _ vals) eqn:Ex; cbn [fst] in *.
      - intros E. injection E as <-. apply existsb_exists in Ex as ([|v] & Hv & Ev); [discriminate|]. apply Nat.eqb_eq in Ev. subst v. split; auto.
        exists [], (map fst l). split; [reflexivity|]. intros e0 [].
      - intros E. destruct (IHl E) as (A & P & Q & B & C). split; auto. exists (y :: P), Q. split; [cbn; congruence|].
        intros e0 [<-|X]; auto. intros Hv. assert (existsb (fun v => match v with VR o => Nat.eqb o y | _ => false end) vals = true); [|congruence].
        apply existsb_exists. exists (VR y). split; auto. apply Nat.eqb_refl.
    Qed.
    Lemma first_in_none vals l : first_in vals l = None -> forall e0, In e0 (map fst l) -> ~ In (VR e0) vals.
    Proof.
      unfold first_in. induction l as [|[y k] l IHl]; cbn [find]; [intros _ e0 []|].
      destruct (existsb _ vals) eqn:Ex; [discriminate|]. intros E e0 [<-|X]; [|apply IHl; auto]. cbn [fst] in *. intros Hv.
      assert (existsb (fun v => match v with VR o => Nat.eqb o y | _ => false end) vals = true); [|congruence].
      apply existsb_exists. exists (VR y). split; auto. apply Nat.eqb_refl.
    Qed.
    Lemma append_app e p l x : In e (map fst l) -> append_pp e p (l ++ x) = append_pp e p l ++ x.
    Proof.
      induction l as [|[y k] l IHl]; cbn [map fst In append_pp app]; [tauto|]. intros Hi.
      destruct (Nat.eqb_spec e y) as [->|Hne]; [reflexivity|]. cbn. f_equal. apply IHl. destruct Hi; [congruence|auto].
    Qed.

    Lemma Fin ks A : tr (Im [] s0 ids) (Im ks s0 ids) A -> match A s0 with Ok (_, s') => ext s0 s' | Fail e _ => e = OutOfFuel end.
    Proof.
      intros T. assert (I0 : Im [] s0 ids s0) by (split; [split; [apply incl_refl|split; auto]|intros x []]).
      specialize (T s0 I0). destruct (A s0) as [[]|]; tauto.
    Qed.
    Lemma memo_Im k ids' : tr (Im [] s0 ids') (Im [k] s0 ids') (memoize proto k).
    Proof.
      intros s Hs. pose proof (tr_memoize (Im [] s0 ids') (Im_st [] s0 ids') k s Hs) as T. destruct (memoize proto k s) as [[l s']|]; auto.
      destruct T as (E & (A & _) & B). split; auto. split; auto. intros x [<-|[]]; auto.
    Qed.
    Definition Wn (ids' : list oid) (w : val) : Prop := vD D w /\ Good (memo s0) ids' w.
    Definition Wk (ks : list key) (ids' : list oid) (w : val) : Prop := vD D w /\ Good (ks ++ memo s0) ids' w.
    Lemma Wn_sv ids' w : Wn ids' w -> tr (Im [] s0 ids') (Im [] s0 ids') (sv w).
    Proof. intros (A & B). apply tr_sv; auto. Qed.
    Lemma Wk_sv ks ids' w : Wk ks ids' w -> tr (Im ks s0 ids') (Im ks s0 ids') (sv w).
    Proof. intros (A & B). apply tr_sv; auto. Qed.
    Lemma Wn_atom ids' a i : Wn ids' (VA a i).
    Proof. split; [exact Logic.I|apply Good_atom]. Qed.

    Lemma step_ok : match save_obj proto H sv o b s0 with Ok (_, s') => ext s0 s' | Fail e _ => e = OutOfFuel end.
    Proof.
      pose proof child_Good as CG. pose proof part_Good as PG. pose proof state_Good as SG. pose proof refs_D as RD. pose proof not_on_stack as NS.
      assert (BO : obj_wf H b) by (apply (proj1 (HW _ _ Hb))).
      destruct b as [vs|vs|kvs|nb c args li di st|co gl nm de cl st|mt nm bs d q|c|fz vs] eqn:Eb; cbn [save_obj].
      - apply (Fin []). apply (tr_tuple _ (Im_st [] s0 ids) sv (Wn ids) (Wn_sv ids)).
        intros x Hx. apply in_map_iff in Hx as (w & <- & Hw). split; [apply RD; auto|]. apply CG. auto.
      - apply (Fin [KObj o]). unfold save_list. eapply tr_seq; [apply tr_emit|]. eapply tr_seq; [apply memo_Im|]. unfold batch_appends.
        assert (T : forall w, In w vs -> tr (Im [KObj o] s0 ids) (Im [KObj o] s0 ids) (sv w)).
        { intros w Hw. apply Wk_sv. split; [apply RD; auto|]. eapply Good_mono; [|apply CG; auto]. apply incl_appr, incl_refl. }
        destruct (bin proto).
        + apply tr_batches.
          * intros. eapply tr_seq; [apply T; auto|apply tr_emit].
          * intros l' Hl. eapply tr_seq; [apply tr_emit|]. eapply tr_seq; [apply tr_seqs; intros; apply T; auto|apply tr_emit].
        + apply tr_seqs. intros. eapply tr_seq; [apply T; auto|apply tr_emit].
      - apply (Fin [KObj o]). unfold save_dict. eapply tr_seq; [apply tr_emit|]. eapply tr_seq; [apply memo_Im|].
        apply (tr_setitems (Im [KObj o] s0 ids) sv (Wk [KObj o] ids)); [apply Wk_sv|]. intros w Hw. split; [apply RD; auto|].
        eapply Good_mono; [|apply CG; auto]. apply incl_appr, incl_refl.
      - apply (Fin [KObj o]). apply tr_instance with (I := Im [] s0 ids) (W := Wn ids) (W2 := Wk [KObj o] ids).
        + intros; eapply Im_st; eauto.
        + intros; eapply Im_st; eauto.
        + apply Wn_sv.
        + apply Wk_sv.
        + split; [apply RD; left; auto|apply CG; left; auto].
        + apply Wn_atom.
        + intros x Hx. apply in_map_iff in Hx as (w & <- & Hw). split; [apply RD; right; apply in_app_iff; auto|apply CG; right; apply in_app_iff; auto].
        + intros w Hw. split; [apply RD; right; apply in_app_iff; auto|]. eapply Good_mono; [|apply CG; intros; right; apply in_app_iff; auto]. apply incl_appr, incl_refl.
        + intros s (A & _) C. split; auto. intros x [<-|[]]; auto.
      - specialize (NS Logic.I). destruct BO as (BG & _).
        assert (Wparts : forall w, In w (parts (OFun co gl nm de cl st)) -> Wn (ids ++ [o]) w).
        { intros w Hw. split; [apply RD|apply PG; auto; intros e].
          - cbn in Hw |- *. destruct gl as [ga|g m]; cbn in Hw |- *; intuition.
          - cbn in Hw |- *. destruct gl as [ga|g m]; cbn in Hw |- *; rewrite ?in_app_iff; cbn; intuition. }
        assert (Wst : forall ks w, In (KObj o) ks -> In w (state_vals st) -> Wk ks (ids ++ [o]) w).
        { intros ks w Hk Hw. split; [apply RD; cbn; right; right; right; right; apply in_app_iff; auto|]. apply SG; auto. intros e. cbn. right; right; right; right. apply in_app_iff; auto. }
        destruct gl as [ga|g m]; cbn [save_function].
        + assert (P := tr_postproc o [] (save_reduce proto sv false (g_ GCreateFunction) [AV co; AV (VA ga 0); AV nm; AV de; AV cl] st (Some (KObj o))) s0 [KObj o] NS).
          assert (P1 : PI {| memo := memo s0; post := post s0 ++ [(o, [])] |}) by (apply pinv_push; [exact HP|constructor]).
          specialize (P P1). fold ids in P.
          assert (Red : tr (Im [] s0 (ids ++ [o])) (Im [KObj o] s0 (ids ++ [o])) (save_reduce proto sv false (g_ GCreateFunction) [AV co; AV (VA ga 0); AV nm; AV de; AV cl] st (Some (KObj o)))).
          { apply tr_reduce with (I := Im [] s0 (ids ++ [o])) (W := Wn (ids ++ [o])) (W2 := Wk [KObj o] (ids ++ [o])).
            - intros; eapply Im_st; eauto.
            - intros; eapply Im_st; eauto.
            - apply Wn_sv.
            - apply Wk_sv.
            - apply Wn_atom.
            - apply Wn_atom.
            - intros x [<-|[<-|[<-|[<-|[<-|[]]]]]]; cbn [Warg]; try apply Wn_atom; apply Wparts; cbn; auto.
            - intros w Hw. apply Wst; auto. left; auto.
            - intros s (A & _) C. split; auto. intros x [<-|[]]; auto. }
          specialize (P Red (or_introl eq_refl)).
          assert (Pg : forall kvs, glob_items H o = Some kvs -> In (KGlob o) [KObj o]) by (unfold glob_items; rewrite Hb; discriminate).
          specialize (P Pg). destruct (save_with_postproc _ _ _ _ _ _ s0) as [[l s']|]; auto. destruct P as (A & B & C). split; auto.
        + destruct BG as (kvs & Eg). rewrite Eg. cbv zeta.
          assert (Gi : glob_items H o = Some kvs) by (unfold glob_items; rewrite Hb, Eg; auto).
          assert (Gv : glob_vals H g = kvs) by (unfold glob_vals; rewrite Eg; auto).
          assert (Hout : forall e w, In e ids -> ~ In (VR e) (map snd kvs) -> In w (flat kvs) -> In (KObj e) (memo s0) \/ creach e w).
          { intros e w He Hne Hw. rewrite <- Eb in *. apply child_good; auto. rewrite Eb. cbn. right; right; right; right. apply in_app_iff. right. right. rewrite Gv.
            destruct (in_dec val_eq_dec (VR e) (map snd kvs)); [contradiction|auto]. }
          assert (Red : tr (Im [] s0 (ids ++ [o])) (Im [KObj o; KGlob o] s0 (ids ++ [o])) (save_reduce proto sv false (g_ GCreateFunction)
                [AV co; AD (KGlob o) [(sNAME, m)]; AV nm; AV de; AV cl] st (Some (KObj o)))).
          { apply tr_reduce_key with (I := Im [] s0 (ids ++ [o])) (W := Wn (ids ++ [o])) (W2 := Wk [KObj o; KGlob o] (ids ++ [o])) (key0 := KGlob o) (kvs := [(sNAME, m)]).
            - intros; eapply Im_st; eauto.
            - intros; eapply Im_st; eauto.
            - apply Wn_sv.
            - apply Wk_sv.
            - apply Wn_atom.
            - intros x [<-|[<-|[<-|[<-|[<-|[]]]]]]; cbn [Warg]; try (apply Wparts; cbn; auto; fail).
              intros w [<-|[<-|[]]]; [apply Wn_atom|apply Wparts; cbn; auto 8].
            - intros w Hw. apply Wst; auto. left; auto.
            - right; left; auto.
            - intros s (A & _) C E. split; auto. intros x [<-|[<-|[]]]; auto. }
          assert (Pg : forall kvs0, glob_items H o = Some kvs0 -> In (KGlob o) [KObj o; KGlob o]) by (intros; right; left; auto).
          destruct (first_in (map snd kvs) (post s0)) as [x|] eqn:Ef.
          * destruct (first_in_some _ _ _ Ef) as (Hx & P & Q & Eids & HPn).
            unfold seq, add_pp. set (sa := {| memo := memo s0; post := append_pp x (PSetItems o) (post s0) |}).
            assert (Eid : map fst (post sa) = ids) by apply append_fst.
            assert (Hin : In x ids) by (unfold ids; rewrite Eids; apply in_app_iff; right; left; auto).
            assert (PIa : PI {| memo := memo sa; post := post sa ++ [(o, [])] |}).
            { unfold PI. cbn [memo post sa]. rewrite <- append_app by exact Hin. apply pinv_append.
              - apply pinv_push; [exact HP|constructor].
              - intros P' Q' E' Hnx. cbn [app pok]. split; [exact Ho|]. rewrite map_app, Eids in E'. cbn [map fst] in E'. rewrite <- app_assoc in E'. cbn [app] in E'.
                assert (E2 : P' = P /\ Q' = Q ++ [o]).
                { assert (Hxp : ~ In x P) by (intros X; apply (HPn x X); exact Hx).
                  clear - E' Hnx Hxp. revert P' E' Hnx. induction P as [|y P IHP]; intros [|z P'] E' Hnx; cbn in E'.
                  - injection E' as <-. auto.
                  - injection E' as <- E'. exfalso. apply Hnx. left; auto.
                  - injection E' as -> E'. exfalso. apply Hxp. left; auto.
                  - injection E' as <- E'. destruct (IHP ltac:(intros X; apply Hxp; right; auto) P' E') as (-> & ->); [intros X; apply Hnx; right; auto|]. auto. }
                destruct E2 as (-> & ->). split; [|right; right; apply in_app_iff; right; left; auto].
                exists kvs. split; auto. intros w Hw e He. destruct (Hout e w) as [A|A]; auto. unfold ids. rewrite Eids. apply in_app_iff; auto. }
            assert (R := tr_postproc o [] (save_reduce proto sv false (g_ GCreateFunction)
                [AV co; AD (KGlob o) [(sNAME, m)]; AV nm; AV de; AV cl] st (Some (KObj o))) sa [KObj o; KGlob o]).
            rewrite Eid in R. specialize (R NS PIa). change (Im [] sa) with (Im [] s0) in R. change (Im [KObj o; KGlob o] sa) with (Im [KObj o; KGlob o] s0) in R.
            specialize (R Red (or_introl eq_refl) Pg).
            destruct (save_with_postproc proto H sv o [] _ sa) as [[l s']|]; auto. destruct R as (A & B & C). split; auto.
          * unfold seq, emit. pose proof (first_in_none _ _ Ef) as Hno.
            assert (PIa : PI {| memo := memo s0; post := post s0 ++ [(o, [PSetItems o])] |}).
            { apply pinv_push; [exact HP|]. constructor; [|constructor]. cbn [app pok]. split; [exact Ho|]. split; [|auto].
              exists kvs. split; auto. intros w Hw e He. destruct (Hout e w) as [A|A]; auto. }
            assert (R := tr_postproc o [PSetItems o] (save_reduce proto sv false (g_ GCreateFunction)
                [AV co; AD (KGlob o) [(sNAME, m)]; AV nm; AV de; AV cl] st (Some (KObj o))) s0 [KObj o; KGlob o] NS PIa Red (or_introl eq_refl) Pg).
            destruct (save_with_postproc proto H sv o [PSetItems o] _ s0) as [[l s']|]; auto. destruct R as (A & B & C). split; auto.
      - specialize (NS Logic.I). unfold save_type.
        assert (Wparts : forall w, In w (parts (OType mt nm bs d q)) -> Wn (ids ++ [o]) w).
        { intros w Hw. assert (X : In w (refs (OType mt nm bs d q))) by (cbn in Hw |- *; intuition). split; [apply RD; auto|apply PG; auto]. }
        assert (P1 : PI {| memo := memo s0; post := post s0 ++ [(o, [PSetQual o])] |}).
        { apply pinv_push; [exact HP|]. constructor; [|constructor]. cbn [app pok]. split; auto. split; [exact Ho|].
          exists mt, nm, bs, d, q. split; auto. apply CG. intros e. cbn. auto. }
        assert (Red : tr (Im [] s0 (ids ++ [o])) (Im [KObj o] s0 (ids ++ [o])) (save_reduce proto sv false (g_ GCreateType) [AV mt; AV nm; AV bs; AD KAnon d] SNone (Some (KObj o)))).
        { apply tr_reduce with (I := Im [] s0 (ids ++ [o])) (W := Wn (ids ++ [o])) (W2 := Wk [KObj o] (ids ++ [o])).
          - intros; eapply Im_st; eauto.
          - intros; eapply Im_st; eauto.
          - apply Wn_sv.
          - apply Wk_sv.
          - apply Wn_atom.
          - apply Wn_atom.
          - intros x [<-|[<-|[<-|[<-|[]]]]]; cbn [Warg]; try (apply Wparts; cbn; auto; fail). intros w Hw. apply Wparts. cbn. auto 8.
          - intros w [].
          - intros s (A & _) C. split; auto. intros x [<-|[]]; auto. }
        assert (Pg : forall kvs, glob_items H o = Some kvs -> In (KGlob o) [KObj o]) by (unfold glob_items; rewrite Hb; discriminate).
        assert (P := tr_postproc o [PSetQual o] _ s0 [KObj o] NS P1 Red (or_introl eq_refl) Pg).
        destruct (save_with_postproc _ _ _ _ _ _ s0) as [[l s']|]; auto. destruct P as (A & B & C). split; auto.
      - unfold save_cell.
        assert (Red : forall v, Wn ids v -> tr (Im [] s0 ids) (Im [KObj o] s0 ids) (save_reduce proto sv false (g_ GCreateCell) [AV v] SNone (Some (KObj o)))).
        { intros v Hv. apply tr_reduce with (I := Im [] s0 ids) (W := Wn ids) (W2 := Wk [KObj o] ids).
          - intros; eapply Im_st; eauto.
          - intros; eapply Im_st; eauto.
          - apply Wn_sv.
          - apply Wk_sv.
          - apply Wn_atom.
          - apply Wn_atom.
          - intros x [<-|[]]. exact Hv.
          - intros w [].
          - intros s (A & _) C. split; auto. intros x [<-|[]]; auto. }
        assert (I0 : Im [] s0 ids s0) by (split; [split; [apply incl_refl|split; auto]|intros x []]).
        destruct c as [v|].
        + cbv zeta. match goal with |- context [match ?d with Some _ => _ | None => _ end] => destruct d as [x|] eqn:Ed end.
          * specialize (Red vNone (Wn_atom _ _ _) s0 I0). unfold seq. destruct (save_reduce _ _ _ _ _ _ _ s0) as [[l s1]|]; auto.
            destruct Red as (E1 & (_ & A & B) & C). unfold add_pp. split; [apply E1|]. split; [cbn [post]; rewrite append_fst; auto|].
            intros _. unfold PI. cbn [memo post]. apply pinv_append; [exact B|]. intros P' Q' E' Hnx. cbn [app pok]. split; [exact Ho|]. split; [apply C; left; auto|].
            exists v. split; auto. rewrite A in E'.
            assert (Eh : forall y, match post s0 with [] => None | (e, _) :: _ => Some e end = Some y -> exists Q, ids = y :: Q).
            { intros y Ey. unfold ids. destruct (post s0) as [|[e k] l0]; [discriminate|]. injection Ey as <-. cbn. eauto. }
            assert (Hd : forall Q, ids = x :: Q -> P' = []).
            { intros Q Eq. rewrite Eq in E'. destruct P' as [|z P']; auto. cbn in E'. injection E' as <- _. exfalso. apply Hnx. left; auto. }
            destruct v as [a i|f].
            -- right. destruct (Eh x Ed) as (Q & Eq). eauto.
            -- destruct (memb f (map fst (post s0))); [injection Ed as <-; auto|]. right. destruct (Eh x Ed) as (Q & Eq). eauto.
          * assert (Ht : ids = []).
            { unfold ids. destruct (post s0) as [|[y k] P]; auto. destruct v; [discriminate|]. destruct (memb _ _); discriminate. }
            apply (Fin [KObj o]). apply Red. split; [apply RD; left; auto|]. rewrite Ht. intros e [].
        + apply (Fin [KObj o]). eapply tr_seq; [apply Red; apply Wn_atom|]. eapply tr_seq; [|apply tr_emit].
          apply (tr_reduce_none _ (Im_st [KObj o] s0 ids) sv (Wk [KObj o] ids) (Wk_sv _ _)).
          * split; [exact Logic.I|apply Good_atom].
          * intros x [<-|[<-|[]]]; cbn [Warg]; [split; [exact Ho|apply Good_in; left; auto]|split; [exact Logic.I|apply Good_atom]].
      - apply (Fin []). apply (tr_set _ (Im_st [] s0 ids) sv (Wn ids) (Wn_sv ids)); [apply Wn_atom|].
        intros w Hw. split; [apply RD; auto|]. apply CG. auto.
    Qed.
  End Step.

  Lemma Tl_all n : Tl (save proto H n).
  Proof.
    induction n as [|n IH]; intros v s Hv HP HG; [reflexivity|]. cbn [save]. unfold save_val.
    destruct v as [a i|o].
    - unfold save_atom. assert (G : forall a', match (if memoized a' then match memo_get (KAtom a' i) s with
                 | Some n => Ok ([GET n], s) | None => (emit [CONST a'] ;; memoize proto (KAtom a' i)) s end else Ok ([CONST a'], s)) with
                 Ok (_, s') => ext s s' | Fail e _ => e = OutOfFuel end).
      { intros a'. destruct (memoized a'); [destruct (memo_get (KAtom a' i) s)|]; try apply ext_refl.
        cbn. split; [apply incl_appl, incl_refl|split; [auto|apply PI_memo]]. }
      destruct a; try apply G. apply ext_refl.
    - destruct (memo_get (KObj o) s) eqn:Em; [apply ext_refl|]. cbn in Hv. destruct (H o) as [b|] eqn:Ho; [|exfalso; eapply HD; eauto].
      eapply step_ok; eauto. intros Hm. clear - Em Hm. cbn [memo_get] in Em.
      assert (G : forall l i, In (KObj o) l -> find_key (KObj o) l i <> None).
      { induction l as [|k l IHl]; [intros i []|]. cbn [find_key In]. intros i X. destruct (key_eq_dec (KObj o) k); [discriminate|]. apply IHl. destruct X; congruence. }
      eapply G; eauto.
  Qed.
End Total.

(** whatever the graph, the recursion limit is then the only reason for a dump to fail *)
Theorem C07_only_depth : forall proto H v D fuel e,
  heap_wf H -> closed H D -> (forall o, In o D -> H o <> None) -> vD D v -> definable H ->
  failed (dumps proto H fuel v) e -> e = OutOfFuel.
Proof.
  intros proto H v D fuel e HW CD HD Hv DF [sf E]. unfold dumps, dump in E.
  assert (T := Tl_all proto H D CD HD HW DF fuel v {| memo := []; post := [] |} Hv Logic.I ltac:(intros x [])).
  destruct (save proto H fuel v {| memo := []; post := [] |}) as [[l s']|e' s1]; [discriminate|]. congruence.
Qed.

(** C01, C07, total: every closed graph in which no object is needed for its own construction, and no function or class is met while it is
    being created, is dumped under every protocol, given a recursion limit computed from its size; and what is written loads as an isomorphic graph *)
Theorem C01_total : forall proto H v D fuel,
  heap_wf H -> proto <= 5 -> closed H D -> (forall o, In o D -> H o <> None) -> vD D v ->
  acyclic (needs H) -> acyclic (needs_top H) -> definable H -> depth_bound (length D) <= fuel ->
  exists ops v' m, dumps proto H fuel v = Ok ops /\ loads ops = Some (v', m, []) /\ iso H v (heap m) v'.
Proof.
  intros proto H v D fuel HW Hp CD HD Hv A1 A2 DF Hf. pose proof (C07_depth proto H v D fuel CD Hv A1 A2 Hf) as T.
  destruct (dumps proto H fuel v) as [ops|e s] eqn:E; [|exfalso; apply T; exists s; f_equal; eapply (C07_only_depth proto H v D fuel); eauto; exists s; exact E].
  destruct (C01_roundtrip _ _ _ _ _ HW Hp E) as (v' & m & L & I). eauto 8.
Qed.

(** * The hypotheses hold of the example heap: a recursive function, a class whose method refers back to it, shared and cyclic containers *)
Lemma during_in H e (L : list oid) : (forall b o, H e = Some b -> In (VR o) (parts b) -> In o L) ->
  (forall o b o', In o L -> H o = Some b -> In (VR o') (at_once H e b) -> In o' L) -> forall o, during H e o -> In o L.
Proof. intros A B o Dn. induction Dn; eauto. Qed.
Fixpoint close (H : oid -> option obj) (e : oid) (n : nat) (L : list oid) : list oid :=
  match n with
  | 0 => L
  | S n => close H e n (nodup Nat.eq_dec (L ++ flat_map (fun o => match H o with Some b => flat_map (fun v => match v with VR o' => [o'] | _ => [] end) (at_once H e b) | None => [] end) L))
  end.
Definition met (H : oid -> option obj) (e : oid) (n : nat) : list oid :=
  close H e n (match H e with Some b => flat_map (fun v => match v with VR o' => [o'] | _ => [] end) (parts b) | None => [] end).
Definition inclb (l L : list oid) : bool := forallb (fun o => if in_dec Nat.eq_dec o L then true else false) l.
Definition met_ok (H : oid -> option obj) (e : oid) (L : list oid) : bool :=
  match H e with Some b => inclb (flat_map (fun v => match v with VR o' => [o'] | _ => [] end) (parts b)) L | None => true end &&
  forallb (fun o => match H o with Some b => inclb (flat_map (fun v => match v with VR o' => [o'] | _ => [] end) (at_once H e b)) L | None => true end) L &&
  (if in_dec Nat.eq_dec e L then false else true).
Lemma inclb_spec l L : inclb l L = true -> forall o, In o l -> In o L.
Proof. unfold inclb. rewrite forallb_forall. intros A o Ho. specialize (A o Ho). destruct (in_dec Nat.eq_dec o L); [auto|discriminate]. Qed.
Lemma in_vrefs vs o : In (VR o) vs -> In o (flat_map (fun v => match v with VR o' => [o'] | _ => [] end) vs).
Proof. intros Hi. apply in_flat_map. exists (VR o). split; cbn; auto. Qed.
Lemma met_ok_spec H e L : met_ok H e L = true -> ~ during H e e.
Proof.
  unfold met_ok. intros E Dn. apply andb_true_iff in E as [E E3]. apply andb_true_iff in E as [E1 E2]. rewrite forallb_forall in E2.
  assert (In e L); [|destruct (in_dec Nat.eq_dec e L); [discriminate|contradiction]].
  revert Dn. generalize e at 2 3 as o. apply during_in.
  - intros b o Hb Hi. rewrite Hb in E1. eapply inclb_spec; eauto. apply in_vrefs; auto.
  - intros o b o' Ho Hb Hi. specialize (E2 o Ho). rewrite Hb in E2. eapply inclb_spec; eauto. apply in_vrefs; auto.
Qed.
Lemma ex_definable : definable ex_heap.
Proof.
  intros e. assert (E : (e < 16) \/ ex_heap e = None).
  { destruct (Nat.lt_ge_cases e 16); auto. right. apply nth_error_None. exact H. }
  destruct E as [E| ->]; [|exact Logic.I].
  do 16 (destruct e as [|e]; [try exact Logic.I; match goal with |- match ex_heap ?x with _ => _ end => change (~ during ex_heap x x); apply (met_ok_spec ex_heap x (met ex_heap x 16)) end; vm_compute; reflexivity|]). lia.
Qed.
Example ex_total : forall proto v, proto <= 5 -> vD (List.seq 0 16) v ->
  exists ops v' m, dumps proto ex_heap (depth_bound 16) v = Ok ops /\ loads ops = Some (v', m, []) /\ iso ex_heap v (heap m) v'.
Proof.
  intros proto v Hp Hv. apply (C01_total proto ex_heap v (List.seq 0 16)); auto using ex_wf, ex_closed, ex_needs, ex_needs_top, ex_definable.
  intros o Ho. apply in_seq in Ho. unfold ex_heap. apply nth_error_Some. cbn. lia.
Qed.

(** * [definable] cannot be dropped: a class one of whose attributes is an instance of it is refused, at every recursion limit *)
Definition self_attr (o : oid) : option obj :=
  match o with
  | 0 => Some (OType (str "type") (str "C") (VR 1) [(str "x", VR 2)] (str "C"))
  | 1 => Some (OTup [])
  | 2 => Some (ORed true (VR 0) [] [] [] SNone)
  | _ => None
  end.
Example self_attr_met : during self_attr 0 0.
Proof. apply (du_step _ _ 2 (ORed true (VR 0) [] [] [] SNone)); [|reflexivity|cbn; auto]. eapply du_part; [reflexivity|cbn; auto 10]. Qed.
Example self_attr_refused : forall p, p <= 5 -> failed (dumps p self_attr 100 (VR 0)) Recursive.
Proof.
  intros p Hp. assert (p = 0 \/ p = 1 \/ p = 2 \/ p = 3 \/ p = 4 \/ p = 5) as C by lia.
  destruct C as [->|[->|[->|[->|[->| ->]]]]]; (eexists; vm_compute; reflexivity).
Qed.
