(** C07: dumps ends within a recursion depth bounded by the number of reachable objects. *)
From Coq Require Import String List Bool Arith ZArith Lia.
From Verif Require Import PyDict CoreModel CoreSpec.
Import ListNotations.
Local Open Scope string_scope.
Local Open Scope list_scope.

Section Term.
  Variable proto : nat.
  Variable H : oid -> option obj.
  Variable D : list oid.
  Hypothesis CD : closed H D.

  Definition tgt (p : pp) : oid := match p with PSetCell c => c | PSetItems f => f | PSetQual t => t end.
  Definition inD (s : pst) : Prop := forall x p, In x (post s) -> In p (snd x) -> In (tgt p) D.
  Definition ext (s s' : pst) : Prop :=
    incl (memo s) (memo s') /\ map fst (post s') = map fst (post s) /\ (inD s -> inD s').
  Lemma ext_refl s : ext s s.
  Proof. split; [apply incl_refl|auto]. Qed.
  Lemma ext_trans a b c : ext a b -> ext b c -> ext a c.
  Proof. intros (A & B & C) (A' & B' & C'). split; [eapply incl_tran; eauto|]. split; [congruence|auto]. Qed.

  Definition tr (I Q : pst -> Prop) (A : act) : Prop :=
    forall s, I s -> match A s with Ok (_, s') => ext s s' /\ Q s' | Fail e _ => e <> OutOfFuel end.
  Lemma tr_seq I Q R A B : tr I Q A -> tr Q R B -> tr I R (A ;; B).
  Proof.
    intros TA TB s HI. unfold seq. specialize (TA s HI). destruct (A s) as [[l s1]|]; auto. destruct TA as [E1 Q1].
    specialize (TB s1 Q1). destruct (B s1) as [[l' s2]|]; auto. destruct TB as [E2 R2]. split; auto. eapply ext_trans; eauto.
  Qed.
  Lemma tr_emit I l : tr I I (emit l).
  Proof. intros s HI. cbn. split; auto. apply ext_refl. Qed.
  Lemma tr_fail I Q e : e <> OutOfFuel -> tr I Q (fail e).
  Proof. intros Hn s HI. exact Hn. Qed.

  Section Inv.
  Variable I : pst -> Prop.
  Hypothesis ISt : forall s s', I s -> ext s s' -> I s'.

  Lemma tr_memoize k : tr I (fun s => I s /\ In k (memo s)) (memoize proto k).
  Proof.
    intros s HI. cbn. set (s' := {| memo := memo s ++ [k]; post := post s |}).
    assert (E : ext s s') by (split; [apply incl_appl, incl_refl|auto]).
    split; auto. split; [eapply ISt; eauto|]. cbn. apply in_app_iff. right; left; auto.
  Qed.
  Lemma tr_memo k : tr I I (memoize proto k).
  Proof. intros s HI. pose proof (tr_memoize k s HI) as T. destruct (memoize proto k s) as [[]|]; tauto. Qed.
  Lemma tr_seqs {A} (f : A -> act) l : (forall x, In x l -> tr I I (f x)) -> tr I I (seqs f l).
  Proof.
    induction l as [|x l IH]; intros Hf; cbn [seqs]; [apply tr_emit|]. eapply tr_seq; [apply Hf; left; auto|].
    apply IH. intros; apply Hf; right; auto.
  Qed.

  Variable sv : val -> act.
  Variable W : val -> Prop.
  Hypothesis SV : forall w, W w -> tr I I (sv w).

  Lemma tr_batches {A} (one : A -> act) many : forall n l, (forall x, In x l -> tr I I (one x)) ->
    (forall l', incl l' l -> tr I I (many l')) -> tr I I (batches one many n l).
  Proof.
    induction n as [|n IH]; intros l H1 H2; cbn [batches]; [apply tr_emit|].
    assert (Hf : incl (firstn BATCHSIZE l) l).
    { intros x Hx. rewrite <- (firstn_skipn BATCHSIZE l). apply in_app_iff; auto. }
    assert (Hs : incl (skipn BATCHSIZE l) l).
    { intros x Hx. rewrite <- (firstn_skipn BATCHSIZE l). apply in_app_iff; auto. }
    eapply tr_seq.
    - destruct (firstn BATCHSIZE l) as [|x [|y r]]; [apply tr_emit|apply H1, Hf; left; auto|apply H2; auto].
    - destruct (Nat.ltb _ _); [apply tr_emit|]. apply IH; [intros; apply H1; auto|]. intros; apply H2. eapply incl_tran; eauto.
  Qed.
  Definition Wkv (kvs : list (val * val)) : Prop := forall v, In v (flat kvs) -> W v.
  Lemma Wkv_in kvs p : Wkv kvs -> In p kvs -> W (fst p) /\ W (snd p).
  Proof. intros A B. split; apply A; apply in_flat_map; exists p; cbn; auto. Qed.
  Lemma tr_kv kvs p : Wkv kvs -> In p kvs -> tr I I (save_kv sv p).
  Proof. intros A B. destruct (Wkv_in _ _ A B). eapply tr_seq; apply SV; auto. Qed.
  Lemma tr_setitems kvs : Wkv kvs -> tr I I (batch_setitems proto sv kvs).
  Proof.
    intros A. unfold batch_setitems. destruct (bin proto).
    - apply tr_batches.
      + intros. eapply tr_seq; [eapply tr_kv; eauto|apply tr_emit].
      + intros l' Hl. eapply tr_seq; [apply tr_emit|]. eapply tr_seq; [apply tr_seqs|apply tr_emit]. intros; eapply tr_kv; eauto.
    - apply tr_seqs. intros. eapply tr_seq; [eapply tr_kv; eauto|apply tr_emit].
  Qed.
  Lemma tr_appends vs : (forall v, In v vs -> W v) -> tr I I (batch_appends proto sv vs).
  Proof.
    intros A. unfold batch_appends. destruct (bin proto).
    - apply tr_batches.
      + intros. eapply tr_seq; [apply SV; auto|apply tr_emit].
      + intros l' Hl. eapply tr_seq; [apply tr_emit|]. eapply tr_seq; [apply tr_seqs; intros; apply SV; auto|apply tr_emit].
    - apply tr_seqs. intros. eapply tr_seq; [apply SV; auto|apply tr_emit].
  Qed.
  Lemma tr_dict k kvs : Wkv kvs -> tr I I (save_dict proto sv k kvs).
  Proof. intros A. eapply tr_seq; [apply tr_emit|]. eapply tr_seq; [apply tr_memo|now apply tr_setitems]. Qed.
  Lemma tr_list k vs : (forall v, In v vs -> W v) -> tr I I (save_list proto sv k vs).
  Proof. intros A. eapply tr_seq; [apply tr_emit|]. eapply tr_seq; [apply tr_memo|now apply tr_appends]. Qed.
  Definition Warg (x : arg) : Prop := match x with AV v => W v | AD _ kvs => Wkv kvs | AL vs => forall v, In v vs -> W v end.
  Lemma tr_arg x : Warg x -> tr I I (save_arg proto sv x).
  Proof. destruct x; cbn; [apply SV|apply tr_dict|apply tr_list]. Qed.
  Lemma tr_tuple k xs : (forall x, In x xs -> Warg x) -> tr I I (save_tuple proto sv k xs).
  Proof.
    intros A. unfold save_tuple. destruct xs as [|x0 xs0] eqn:Ex; [apply tr_emit|]. rewrite <- Ex in *. clear Ex x0 xs0.
    assert (T : tr I I (seqs (save_arg proto sv) xs)) by (apply tr_seqs; intros; apply tr_arg; auto).
    assert (G : forall ops mk, tr I I (fun s => match memo_get k s with Some i => Ok (ops ++ [GET i], s) | None => (emit mk ;; memoize proto k) s end)).
    { intros ops mk s HI. destruct (memo_get k s).
      - split; auto. apply ext_refl.
      - revert s HI. change (tr I I (emit mk ;; memoize proto k)). eapply tr_seq; [apply tr_emit|apply tr_memo]. }
    destruct (_ && _).
    - eapply tr_seq; [exact T|apply G].
    - eapply tr_seq; [apply tr_emit|]. eapply tr_seq; [exact T|apply G].
  Qed.
  Lemma tr_call c xs : W c -> (forall x, In x xs -> Warg x) -> tr I I (sv c ;; save_tuple proto sv KAnon xs ;; emit [REDUCE]).
  Proof. intros A B. eapply tr_seq; [apply SV; auto|]. eapply tr_seq; [apply tr_tuple; auto|apply tr_emit]. Qed.
  Lemma tr_reduce_none c xs : W c -> (forall x, In x xs -> Warg x) -> tr I I (save_reduce proto sv false c xs SNone None).
  Proof. intros A B. unfold save_reduce, red_call, red_memo. eapply tr_seq; [apply tr_call; auto|]. eapply tr_seq; apply tr_emit. Qed.
  Lemma tr_set k (fz : bool) vs : W (g_ (if fz then GFrozenset else GSet)) -> (forall v, In v vs -> W v) -> tr I I (save_set proto sv k fz vs).
  Proof.
    intros Ag A. unfold save_set. destruct (Nat.leb 4 proto); [destruct fz|].
    - eapply tr_seq; [apply tr_emit|]. eapply tr_seq; [apply tr_seqs; intros; apply SV; auto|].
      intros s HI. destruct (memo_get k s).
      + split; auto. apply ext_refl.
      + revert s HI. change (tr I I (emit [FROZENSET] ;; memoize proto k)). eapply tr_seq; [apply tr_emit|apply tr_memo].
    - assert (AB : forall l, incl l vs -> tr I I (add_batch sv l)).
      { intros l Hl. eapply tr_seq; [apply tr_emit|]. eapply tr_seq; [apply tr_seqs; intros; apply SV; auto|apply tr_emit]. }
      eapply tr_seq; [apply tr_emit|]. eapply tr_seq; [apply tr_memo|]. apply tr_batches; auto.
      intros x Hx. apply AB. intros w [<-|[]]; auto.
    - unfold save_reduce, red_call, red_memo. eapply tr_seq; [apply tr_call; auto; intros x [<-|[]]; exact A|].
      eapply tr_seq; [|apply tr_emit]. intros s HI. destruct (memo_get k s).
      + split; auto. apply ext_refl.
      + revert s HI. apply tr_memo.
  Qed.
  End Inv.

  (** an object with a state: after it is in the memo a stronger invariant holds *)
  Lemma find_key_in k l : forall i n, find_key k l i = Some n -> In k l.
  Proof. induction l as [|k' l IH]; cbn; intros i n E; [discriminate|]. destruct (key_eq_dec k k'); [left; auto|right; eauto]. Qed.
  Lemma memo_get_in k s i : memo_get k s = Some i -> In k (memo s).
  Proof. destruct k; cbn; try discriminate; apply find_key_in. Qed.

  Lemma tr_state (I : pst -> Prop) (ISt : forall s s', I s -> ext s s' -> I s') sv (W : val -> Prop) (SV : forall w, W w -> tr I I (sv w)) st :
    (forall v, In v (state_vals st) -> W v) -> tr I I (save_state proto sv st).
  Proof.
    intros A. destruct st as [|v|d [sl|]]; cbn [save_state].
    - apply tr_emit.
    - eapply tr_seq; [apply SV, A; left; auto|apply tr_emit].
    - eapply tr_seq; [eapply tr_tuple with (W := W); auto|apply tr_emit].
      intros x [<-|[<-|[]]] v Hv; apply A; cbn; apply in_app_iff; auto.
    - eapply tr_seq; [eapply tr_dict with (W := W); auto|apply tr_emit].
  Qed.

  Lemma tr_reduce (I I2 : pst -> Prop) (ISt : forall s s', I s -> ext s s' -> I s') (ISt2 : forall s s', I2 s -> ext s s' -> I2 s')
      sv (W W2 : val -> Prop) (SV : forall w, W w -> tr I I (sv w)) (SV2 : forall w, W2 w -> tr I2 I2 (sv w)) nb c xs st k :
    W c -> W (g_ GNewobj) -> (forall x, In x xs -> Warg W x) -> (forall v, In v (state_vals st) -> W2 v) ->
    (forall s, I s -> In k (memo s) -> I2 s) ->
    tr I I2 (save_reduce proto sv nb c xs st (Some k)).
  Proof.
    intros A A' B C HI. unfold save_reduce, red_call, red_memo. eapply tr_seq with (Q := I); [|eapply tr_seq with (Q := I2)].
    - destruct nb; [destruct (Nat.leb 2 proto)|].
      + eapply tr_seq; [apply SV; auto|]. eapply tr_seq; [eapply tr_tuple with (W := W); auto|apply tr_emit].
      + apply (tr_call I ISt sv W SV); auto. intros x [<-|Hx]; auto.
      + apply (tr_call I ISt sv W SV); auto.
    - intros s Hs. destruct (memo_get k s) eqn:E.
      + split; [apply ext_refl|]. apply HI; auto. eapply memo_get_in; eauto.
      + pose proof (tr_memoize I ISt k s Hs) as T. destruct (memoize proto k s) as [[]|]; auto. destruct T as (T1 & T2 & T3). auto.
    - eapply tr_state; eauto.
  Qed.
  Lemma tr_instance (I I2 : pst -> Prop) (ISt : forall s s', I s -> ext s s' -> I s') (ISt2 : forall s s', I2 s -> ext s s' -> I2 s')
      sv (W W2 : val -> Prop) (SV : forall w, W w -> tr I I (sv w)) (SV2 : forall w, W2 w -> tr I2 I2 (sv w)) nb c xs li di st k :
    W c -> W (g_ GNewobj) -> (forall x, In x xs -> Warg W x) -> (forall v, In v (li ++ flat di ++ state_vals st) -> W2 v) ->
    (forall s, I s -> In k (memo s) -> I2 s) ->
    tr I I2 (save_instance proto sv nb c xs li di st k).
  Proof.
    intros A A' B C HI. unfold save_instance, red_call, red_memo. eapply tr_seq with (Q := I); [|eapply tr_seq with (Q := I2)].
    - destruct nb; [destruct (Nat.leb 2 proto)|].
      + eapply tr_seq; [apply SV; auto|]. eapply tr_seq; [eapply tr_tuple with (W := W); auto|apply tr_emit].
      + apply (tr_call I ISt sv W SV); auto. intros x [<-|Hx]; auto.
      + apply (tr_call I ISt sv W SV); auto.
    - intros s Hs. destruct (memo_get k s) eqn:E.
      + split; [apply ext_refl|]. apply HI; auto. eapply memo_get_in; eauto.
      + pose proof (tr_memoize I ISt k s Hs) as T. destruct (memoize proto k s) as [[]|]; auto. destruct T as (T1 & T2 & T3). auto.
    - eapply tr_seq with (Q := I2); [eapply tr_appends with (W := W2); eauto; intros; apply C; rewrite !in_app_iff; auto|].
      eapply tr_seq with (Q := I2); [eapply tr_setitems with (W := W2); eauto; intros v Hv; apply C; rewrite !in_app_iff; auto|].
      eapply tr_state; eauto. intros v Hv. apply C. rewrite !in_app_iff; auto.
  Qed.

  (** ** invariants from an entry state *)
  Definition Iv (s0 : pst) (ids : list oid) (s : pst) : Prop :=
    incl (memo s0) (memo s) /\ map fst (post s) = ids /\ inD s.
  Lemma Iv_st s0 ids s s' : Iv s0 ids s -> ext s s' -> Iv s0 ids s'.
  Proof. intros (A & B & C) (A' & B' & C'). split; [eapply incl_tran; eauto|]. split; [congruence|auto]. Qed.
  Definition Im (o : oid) (s0 : pst) (ids : list oid) (s : pst) : Prop := Iv s0 ids s /\ In (KObj o) (memo s).
  Lemma Im_st o s0 ids s s' : Im o s0 ids s -> ext s s' -> Im o s0 ids s'.
  Proof. intros (A & B) E. split; [eapply Iv_st; eauto|]. apply E. auto. Qed.

  Lemma fst_del o P (l : list (oid * list pp)) : map fst l = P ++ [o] -> ~ In o P -> map fst (del o l) = P.
  Proof.
    revert P. induction l as [|[y k] l IH]; cbn; intros P E Hn; [destruct P; discriminate|].
    destruct P as [|x P].
    - cbn in E. inversion E; subst. destruct l; [|discriminate]. now rewrite Nat.eqb_refl.
    - cbn in E. inversion E; subst. destruct (Nat.eqb_spec o x) as [->|]; [exfalso; apply Hn; left; auto|].
      cbn. f_equal. apply IH; auto. intros Hx; apply Hn; right; auto.
  Qed.
  Lemma in_del o x (l : list (oid * list pp)) : In x (del o l) -> In x l.
  Proof. induction l as [|[y k] l IH]; cbn; auto. destruct (Nat.eqb o y); cbn; [auto|]. intros [<-|Hx]; auto. Qed.
  Lemma get_in o l (P : list (oid * list pp)) : get o P = Some l -> In (o, l) P.
  Proof. induction P as [|[y k] P IH]; cbn; [discriminate|]. destruct (Nat.eqb_spec o y) as [->|]; [intros E; inversion E; left; auto|right; auto]. Qed.

  Section Exec.
    Variable sv : val -> act.
    Variable I : pst -> Prop.
    Hypothesis ISt : forall s s', I s -> ext s s' -> I s'.
    Hypothesis SV : forall w, vD D w -> tr I I (sv w).
    Lemma kv_D o b (d : list (val * val)) : In o D -> H o = Some b -> (forall v, In v (flat d) -> In v (refs b)) -> Wkv (vD D) d.
    Proof. intros A B C v Hv. eapply CD; eauto. Qed.
    Lemma tr_exec p : In (tgt p) D -> tr I I (exec_pp proto H sv p).
    Proof.
      intros Hp. destruct p as [c|f|t]; cbn [exec_pp tgt] in *.
      - destruct (H c) as [[| | | | | |[v|]|]|] eqn:E; try (apply tr_fail; discriminate).
        eapply tr_seq; [|apply tr_emit]. apply (tr_reduce_none I ISt sv (vD D) SV); [exact Logic.I|].
        intros x [<-|[<-|[<-|[]]]]; cbn; auto. apply (CD c _ v Hp E). left; auto.
      - unfold glob_items. destruct (H f) as [[| | | |co [|g m] n de cl st| | |]|] eqn:E; try (apply tr_fail; discriminate).
        destruct (H g) as [[| |kvs| | | | |]|] eqn:Eg; try (apply tr_fail; discriminate).
        assert (Hg : In g D). { apply (CD f _ (VR g) Hp E). cbn. auto 8. }
        destruct kvs as [|kv kvs0] eqn:Ek; [apply tr_emit|]. rewrite <- Ek in *. clear Ek kv kvs0.
        intros s Hs. destruct (memo_get (KGlob f) s); [|discriminate]. revert s Hs.
        match goal with |- forall s, I s -> match ?A s with _ => _ end => change (tr I I A) end.
        eapply tr_seq; [apply tr_emit|]. eapply tr_seq; [|apply tr_emit].
        apply (tr_setitems I sv (vD D) SV). eapply kv_D; eauto.
      - destruct (H t) as [[| | | | |mt n bs d q| |]|] eqn:E; try (apply tr_fail; discriminate).
        eapply tr_seq; [|apply tr_emit]. apply (tr_reduce_none I ISt sv (vD D) SV); [exact Logic.I|].
        intros x [<-|[<-|[<-|[]]]]; cbn; auto. apply (CD t _ q Hp E). cbn. auto.
    Qed.
  End Exec.

  Lemma tr_postproc sv o own red s0 : In o D -> (forall p, In p own -> In (tgt p) D) ->
    (~ In o (map fst (post s0)) -> tr (Iv s0 (map fst (post s0) ++ [o])) (Im o s0 (map fst (post s0) ++ [o])) red) ->
    (forall w, vD D w -> tr (Im o s0 (map fst (post s0))) (Im o s0 (map fst (post s0))) (sv w)) ->
    inD s0 ->
    match save_with_postproc proto H sv o own red s0 with Ok (_, s') => ext s0 s' | Fail e _ => e <> OutOfFuel end.
  Proof.
    intros Ho Hown HR HS Hi. unfold save_with_postproc. destruct (memb o (map fst (post s0))) eqn:Em; [discriminate|].
    assert (Hn : ~ In o (map fst (post s0))) by (intros X; apply memb_In in X; congruence). specialize (HR Hn).
    unfold seq at 1, push_post. set (s1 := {| memo := memo s0; post := post s0 ++ [(o, own)] |}).
    assert (I1 : Iv s0 (map fst (post s0) ++ [o]) s1).
    { split; [apply incl_refl|]. cbn. split; [rewrite map_app; reflexivity|].
      intros x p Hx Hp. apply in_app_iff in Hx as [Hx|[<-|[]]]; [eapply Hi; eauto|apply Hown; auto]. }
    unfold seq. specialize (HR s1 I1). destruct (red s1) as [[l2 s2]|]; auto. destruct HR as (E2 & (I2 & J2 & K2) & M2).
    unfold pop_run. destruct (get o (post s2)) as [l|] eqn:Eg; [|discriminate].
    set (s3 := {| memo := memo s2; post := del o (post s2) |}).
    assert (I3 : Im o s0 (map fst (post s0)) s3).
    { split; [|exact M2]. split; [exact I2|]. cbn. split; [apply fst_del; auto|]. intros x p Hx Hp. apply in_del in Hx. eapply K2; eauto. }
    assert (T : tr (Im o s0 (map fst (post s0))) (Im o s0 (map fst (post s0))) (seqs (exec_pp proto H sv) (rev l))).
    { apply tr_seqs. intros p Hp. apply in_rev in Hp. apply tr_exec; auto; [intros; eapply Im_st; eauto|].
      apply get_in in Eg. eapply K2; eauto. }
    specialize (T s3 I3). destruct (seqs _ _ s3) as [[l4 s4]|]; auto. destruct T as [E4 ((I4 & J4 & K4) & _)].
    split; [auto|]. split; [congruence|auto].
  Qed.

  (** ** counting *)
  Definition inm (s : pst) (o : oid) : bool := if in_dec key_eq_dec (KObj o) (memo s) then true else false.
  Definition un (s : pst) : nat := length (filter (fun o => negb (inm s o)) D).
  Lemma filter_le {A} (f g : A -> bool) l : (forall x, g x = true -> f x = true) -> length (filter g l) <= length (filter f l).
  Proof.
    intros Hf. induction l as [|x l IH]; cbn; auto. destruct (g x) eqn:E; [rewrite (Hf _ E); cbn; lia|]. destruct (f x); cbn; lia.
  Qed.
  Lemma filter_lt {A} (f g : A -> bool) l x : (forall x, g x = true -> f x = true) -> In x l -> f x = true -> g x = false ->
    length (filter g l) < length (filter f l).
  Proof.
    intros Hf. induction l as [|y l IH]; cbn; intros Hx F G; [tauto|].
    destruct Hx as [->|Hx].
    - rewrite F, G. cbn. pose proof (filter_le f g l Hf). lia.
    - specialize (IH Hx F G). destruct (g y) eqn:E; [rewrite (Hf _ E); cbn; lia|]. destruct (f y); cbn; lia.
  Qed.
  Lemma un_mono s s' : incl (memo s) (memo s') -> un s' <= un s.
  Proof.
    intros Hi. apply filter_le. intros o. unfold inm. destruct (in_dec _ _ (memo s')), (in_dec _ _ (memo s)); cbn; auto.
  Qed.
  Lemma un_lt s s' o : incl (memo s) (memo s') -> In o D -> ~ In (KObj o) (memo s) -> In (KObj o) (memo s') -> un s' < un s.
  Proof.
    intros Hi Ho Hn Hm. apply filter_lt with (x := o); auto.
    - intros x. unfold inm. destruct (in_dec _ _ (memo s')), (in_dec _ _ (memo s)); cbn; auto.
    - unfold inm. destruct (in_dec _ _ (memo s)); auto.
    - unfold inm. destruct (in_dec key_eq_dec (KObj o) (memo s')); [reflexivity|contradiction].
  Qed.

  Hypothesis A1 : acyclic (needs H).
  Hypothesis A2 : acyclic (needs_top H).
  Definition N := length D.
  Definition top (ids : list oid) : bool := match ids with [] => true | _ => false end.
  Definition rel (ids : list oid) : oid -> oid -> Prop := if top ids then needs_top H else needs H.
  Definition B (u : nat) (t : bool) (len : nat) : nat := u * (2 * N + 2) + (if t then N + 1 else 0) + (N - len).
  Definition path_ok (ids path : list oid) (v : val) : Prop :=
    NoDup path /\ incl path D /\ match v with VR o => forall p, In p path -> trans (rel ids) p o | VA _ _ => True end.

  Lemma rel_acyclic ids : acyclic (rel ids).
  Proof. unfold rel. destruct (top ids); auto. Qed.

  Definition Cl (n : nat) (sv : val -> act) : Prop := forall v s path, vD D v -> inD s -> path_ok (map fst (post s)) path v ->
    B (un s) (top (map fst (post s))) (length path) < n ->
    match sv v s with Ok (_, s') => ext s s' | Fail e _ => e <> OutOfFuel end.

  Section Step.
    Variable n : nat.
    Variable sv : val -> act.
    Hypothesis IH : Cl n sv.

    Lemma tr_of_Cl s0 ids w path : vD D w -> path_ok ids path w -> B (un s0) (top ids) (length path) < n ->
      tr (Iv s0 ids) (Iv s0 ids) (sv w).
    Proof.
      intros Hw Hp Hb s (HI & E & Hd). pose proof (un_mono _ _ HI) as Hu.
      assert (T := IH w s path Hw Hd). rewrite E in T. specialize (T Hp).
      assert (Hb' : B (un s) (top ids) (length path) < n).
      { unfold B in *. assert (un s * (2 * N + 2) <= un s0 * (2 * N + 2)) by (apply Nat.mul_le_mono_r; auto). lia. }
      specialize (T Hb'). destruct (sv w s) as [[l s']|]; auto. split; auto. eapply Iv_st; [|exact T]. split; auto.
    Qed.
    Lemma trm_of_Cl s0 ids w o : vD D w -> In o D -> ~ In (KObj o) (memo s0) -> un s0 * (2 * N + 2) <= n ->
      tr (Im o s0 ids) (Im o s0 ids) (sv w).
    Proof.
      intros Hw Ho Hn Hb s ((HI & E & Hd) & Hm). pose proof (un_lt _ _ _ HI Ho Hn Hm) as Hu.
      assert (Hp : path_ok ids [] w).
      { split; [constructor|]. split; [intros x []|]. destruct w; auto. intros p []. }
      assert (T := IH w s [] Hw Hd). rewrite E in T. specialize (T Hp).
      assert (Hb' : B (un s) (top ids) 0 < n).
      { unfold B. assert (Datatypes.S (un s) * (2 * N + 2) <= un s0 * (2 * N + 2)) by (apply Nat.mul_le_mono_r; auto). destruct (top ids); cbn in *; lia. }
      specialize (T Hb'). destruct (sv w s) as [[l s']|]; auto. split; auto. eapply Im_st; [|exact T]. split; auto. split; auto.
    Qed.

    Variable s0 : pst.
    Variable o : oid.
    Variable b : obj.
    Variable path : list oid.
    Hypothesis Ho : In o D.
    Hypothesis Hb : H o = Some b.
    Hypothesis Hi : inD s0.
    Hypothesis Hn : ~ In (KObj o) (memo s0).
    Let ids := map fst (post s0).
    Hypothesis Hp : path_ok ids path (VR o).
    Hypothesis HB : B (un s0) (top ids) (length path) < Datatypes.S n.

    Lemma len_lt : length path < N.
    Proof.
      destruct Hp as (A & C & E). unfold N. apply (NoDup_incl_length (l := o :: path)).
      - constructor; auto. intros X. apply (rel_acyclic ids o). apply E; auto.
      - intros x [<-|X]; auto.
    Qed.
    Lemma un_le_n : un s0 * (2 * N + 2) <= n.
    Proof. pose proof len_lt. unfold B in HB. destruct (top ids); lia. Qed.
    Lemma path_ext w : match w with VR o' => rel ids o o' | _ => True end -> path_ok ids (o :: path) w.
    Proof.
      intros Hr. destruct Hp as (A & C & E). split; [|split].
      - constructor; auto. intros X. apply (rel_acyclic ids o). apply E; auto.
      - intros x [<-|X]; auto.
      - destruct w as [|o']; auto. intros p [<-|X]; [now apply t_step|]. eapply t_trans; eauto.
    Qed.
    (** children needed for construction, the set of functions being saved unchanged *)
    Lemma tr_part w : vD D w -> match w with VR o' => rel ids o o' | _ => True end -> tr (Iv s0 ids) (Iv s0 ids) (sv w).
    Proof.
      intros Hw Hr. apply tr_of_Cl with (path := o :: path); auto; [now apply path_ext|].
      pose proof len_lt. unfold B in *. cbn [length]. destruct (top ids); lia.
    Qed.
    (** the same inside a function or class *)
    Lemma tr_part_in w : vD D w -> match w with VR o' => needs H o o' | _ => True end -> tr (Iv s0 (ids ++ [o])) (Iv s0 (ids ++ [o])) (sv w).
    Proof.
      intros Hw Hr. assert (Ht : top (ids ++ [o]) = false) by (destruct ids; reflexivity).
      assert (Hrel : rel (ids ++ [o]) = needs H) by (unfold rel; rewrite Ht; reflexivity).
      destruct (top ids) eqn:Et.
      - apply tr_of_Cl with (path := []); auto.
        + split; [constructor|]. split; [intros x []|]. destruct w; auto. intros p [].
        + rewrite Ht. unfold B in *. cbn [length]. lia.
      - apply tr_of_Cl with (path := o :: path); auto.
        + destruct (path_ext w) as (X & Y & Z).
          * destruct w; auto. unfold rel. rewrite Et. auto.
          * split; auto. split; auto. destruct w; auto. rewrite Hrel. unfold rel in Z. rewrite Et in Z. auto.
        + rewrite Ht. pose proof len_lt. unfold B in *. cbn [length]. lia.
    Qed.
    Lemma tr_later w ids' : vD D w -> tr (Im o s0 ids') (Im o s0 ids') (sv w).
    Proof. intros Hw. apply trm_of_Cl; auto. apply un_le_n. Qed.

    Definition not_proc (b : obj) : Prop := match b with OFun _ _ _ _ _ _ | OType _ _ _ _ _ => False | _ => True end.
    Definition Wp (w : val) : Prop := vD D w /\ match w with VR o' => In (VR o') (parts b) | _ => True end.
    Lemma Wp_rel w : not_proc b -> Wp w -> tr (Iv s0 ids) (Iv s0 ids) (sv w).
    Proof.
      intros Np [A C]. apply tr_part; auto. destruct w as [|o']; auto. unfold rel.
      assert (Hd : needs H o o') by (exists b; auto). destruct (top ids); auto.
      right. split; auto. rewrite Hb. destruct b; auto.
    Qed.
    Lemma Wp_in w : Wp w -> tr (Iv s0 (ids ++ [o])) (Iv s0 (ids ++ [o])) (sv w).
    Proof. intros [A C]. apply tr_part_in; auto. destruct w as [|o']; auto. exists b; auto. Qed.
    Lemma parts_refs w : In w (parts b) -> In w (refs b).
    Proof.
      destruct b as [vs|vs|kvs|nb c args st|co [ga|g m] nm de cl st|mt nm bs d q|c|fz vs]; cbn; auto; try tauto.
      - intros [<-|X]; auto. right. apply in_app_iff; auto.
    Qed.
    Lemma Wp_of w : In w (parts b) -> Wp w.
    Proof. intros X. split; [eapply CD; eauto; now apply parts_refs|]. destruct w; auto. Qed.
    Lemma Wp_atom a i : Wp (VA a i).
    Proof. split; exact Logic.I. Qed.
    Lemma later_refs v : In v (refs b) -> vD D v.
    Proof. eapply CD; eauto. Qed.

    Lemma step_ok : match save_obj proto H sv o b s0 with Ok (_, s') => ext s0 s' | Fail e _ => e <> OutOfFuel end.
    Proof.
      assert (I0 : Iv s0 ids s0) by (split; [apply incl_refl|split; auto]).
      assert (Fin : forall Q A, tr (Iv s0 ids) Q A -> match A s0 with Ok (_, s') => ext s0 s' | Fail e _ => e <> OutOfFuel end).
      { intros Q A T. specialize (T s0 I0). destruct (A s0) as [[]|]; tauto. }
      pose proof (Iv_st s0 ids) as St. pose proof (Im_st o s0 ids) as Stm.
      pose proof Wp_rel as WR. pose proof Wp_of as WO. pose proof later_refs as LR.
      destruct b as [vs|vs|kvs|nb c args li di st|co gl nm de cl st|mt nm bs d q|c|fz vs] eqn:Eb; cbn [save_obj].
      - eapply Fin. apply (tr_tuple _ St sv Wp); auto; [intros w; apply WR; exact Logic.I|].
        intros x Hx. apply in_map_iff in Hx as (w & <- & Hw). apply WO; auto.
      - eapply (Fin (Im o s0 ids)). unfold save_list. eapply tr_seq; [apply tr_emit|]. eapply tr_seq; [apply tr_memoize; exact St|].
        change (tr (Im o s0 ids) (Im o s0 ids) (batch_appends proto sv vs)). unfold batch_appends.
        assert (T : forall w, In w vs -> tr (Im o s0 ids) (Im o s0 ids) (sv w)) by (intros; apply tr_later; apply LR; auto).
        destruct (bin proto).
        + apply tr_batches.
          * intros. eapply tr_seq; [apply T; auto|apply tr_emit].
          * intros l' Hl. eapply tr_seq; [apply tr_emit|]. eapply tr_seq; [apply tr_seqs; intros; apply T; auto|apply tr_emit].
        + apply tr_seqs. intros. eapply tr_seq; [apply T; auto|apply tr_emit].
      - eapply (Fin (Im o s0 ids)). unfold save_dict. eapply tr_seq; [apply tr_emit|]. eapply tr_seq; [apply tr_memoize; exact St|].
        apply (tr_setitems (Im o s0 ids) sv (vD D)); [intros; apply tr_later; auto|]. intros v Hv. apply LR. exact Hv.
      - eapply (Fin (Im o s0 ids)). apply tr_instance with (I := Iv s0 ids) (W := Wp) (W2 := vD D); auto.
        + intros w; apply WR; exact Logic.I.
        + intros; apply tr_later; auto.
        + apply WO. left; auto.
        + split; exact Logic.I.
        + intros x Hx. apply in_map_iff in Hx as (w & <- & Hw). apply WO. right; auto.
        + intros v Hv. apply LR. right. apply in_app_iff; auto.
        + intros s A C. split; auto.
      - assert (Red : forall xs, (forall x, In x xs -> Warg Wp x) ->
                 tr (Iv s0 (ids ++ [o])) (Im o s0 (ids ++ [o])) (save_reduce proto sv false (g_ GCreateFunction) xs st (Some (KObj o)))).
        { intros xs Hxs. apply tr_reduce with (I := Iv s0 (ids ++ [o])) (W := Wp) (W2 := vD D); auto.
          - intros; eapply Iv_st; eauto.
          - intros; eapply Im_st; eauto.
          - rewrite <- Eb in *. apply Wp_in.
          - intros; apply tr_later; auto.
          - split; exact Logic.I.
          - split; exact Logic.I.
          - intros v Hv. apply LR. cbn. right; right; right; right. apply in_app_iff; auto.
          - intros s A C. split; auto. }
        destruct gl as [ga|g m]; cbn [save_function].
        + apply tr_postproc; auto; [intros p []| |intros; apply tr_later; auto]. intros _. apply Red.
          intros x [<-|[<-|[<-|[<-|[<-|[]]]]]]; try (apply WO; cbn; auto 8; fail). split; exact Logic.I.
        + destruct (H g) as [[| |kvs| | | | |]|]; try discriminate. cbv zeta.
          assert (Red' : tr (Iv s0 (ids ++ [o])) (Im o s0 (ids ++ [o])) (save_reduce proto sv false (g_ GCreateFunction)
                [AV co; AD (KGlob o) [(sNAME, m)]; AV nm; AV de; AV cl] st (Some (KObj o)))).
          { apply Red. intros x [<-|[<-|[<-|[<-|[<-|[]]]]]]; try (apply WO; cbn; auto 8; fail).
            intros v [<-|[<-|[]]]; [split; exact Logic.I|]. apply WO. cbn. auto 8. }
          destruct (first_in (map snd kvs) (post s0)) as [x|].
          * unfold seq, add_pp. set (sa := {| memo := memo s0; post := append_pp x (PSetItems o) (post s0) |}).
            assert (Eid : map fst (post sa) = ids).
            { cbn. clear. unfold ids. induction (post s0) as [|[y k] P IHP]; cbn; auto. destruct (Nat.eqb x y); cbn; congruence. }
            assert (Hia : inD sa).
            { cbn. intros y p Hy Hpy. clear - Hy Hpy Hi Ho. cbn in Hy. unfold inD in Hi. revert Hi Hy. induction (post s0) as [|[z k] P IHP]; cbn; intros Hi Hy; [tauto|].
              destruct (Nat.eqb x z).
              - cbn in Hy. destruct Hy as [<-|Hy]; [|eapply Hi; eauto]. cbn in Hpy. apply in_app_iff in Hpy as [Hpy|[<-|[]]]; [eapply (Hi (z, k)); eauto|exact Ho].
              - cbn in Hy. destruct Hy as [<-|Hy]; [eapply (Hi (z, k)); eauto|]. apply IHP; auto. intros; eapply Hi; eauto. }
            assert (P := tr_postproc sv o [] (save_reduce proto sv false (g_ GCreateFunction)
                [AV co; AD (KGlob o) [(sNAME, m)]; AV nm; AV de; AV cl] st (Some (KObj o))) sa Ho (fun p (X : In p []) => match X with end)).
            rewrite Eid in P. change (Iv sa) with (Iv s0) in P. change (Im o sa) with (Im o s0) in P.
            specialize (P (fun _ => Red') (fun w Hw => tr_later w ids Hw) Hia).
            destruct (save_with_postproc proto H sv o [] _ sa) as [[l s']|]; auto.
            destruct P as (P1 & P2 & P3). split; auto. split; [rewrite P2; exact Eid|auto].
          * unfold seq, emit.
            assert (P := tr_postproc sv o [PSetItems o] (save_reduce proto sv false (g_ GCreateFunction)
                [AV co; AD (KGlob o) [(sNAME, m)]; AV nm; AV de; AV cl] st (Some (KObj o))) s0 Ho).
            specialize (P ltac:(intros p [<-|[]]; exact Ho) (fun _ => Red') (fun w Hw => tr_later w ids Hw) Hi).
            destruct (save_with_postproc proto H sv o [PSetItems o] _ s0) as [[l s']|]; auto.
      - unfold save_type. apply tr_postproc; auto; [intros p [<-|[]]; exact Ho| |intros; apply tr_later; auto].
        intros _. apply tr_reduce with (I := Iv s0 (ids ++ [o])) (W := Wp) (W2 := vD D); auto.
        + intros; eapply Iv_st; eauto.
        + intros; eapply Im_st; eauto.
        + rewrite <- Eb in *. apply Wp_in.
        + intros; apply tr_later; auto.
        + split; exact Logic.I.
        + split; exact Logic.I.
        + intros x [<-|[<-|[<-|[<-|[]]]]]; try (apply WO; cbn; auto 8; fail). intros v Hv. apply WO. cbn. auto 8.
        + intros v [].
        + intros s A C. split; auto.
      - unfold save_cell.
        assert (Red : forall v, vD D v -> (match v with VR o' => rel ids o o' | _ => True end) ->
                 tr (Iv s0 ids) (Im o s0 ids) (save_reduce proto sv false (g_ GCreateCell) [AV v] SNone (Some (KObj o)))).
        { intros v Hv Hr. apply tr_reduce with (I := Iv s0 ids) (W := fun w => vD D w /\ match w with VR o' => rel ids o o' | _ => True end) (W2 := vD D); auto.
          - intros w [X Y]. apply tr_part; auto.
          - intros; apply tr_later; auto.
          - split; exact Logic.I.
          - split; exact Logic.I.
          - intros x [<-|[]]. split; auto.
          - intros w [].
          - intros s A C. split; auto. }
        destruct c as [v|].
        + cbv zeta. match goal with |- context [match ?d with Some _ => _ | None => _ end] => destruct d as [x|] eqn:Ed end.
          * specialize (Red vNone Logic.I Logic.I s0 I0). unfold seq. destruct (save_reduce _ _ _ _ _ _ _ s0) as [[l s1]|]; auto.
            destruct Red as (E1 & _ & _). unfold add_pp. destruct E1 as (X & Y & Z). split; [exact X|]. split.
            -- cbn. rewrite <- Y. clear. induction (post s1) as [|[y k] P IHP]; cbn; auto. destruct (Nat.eqb x y); cbn; congruence.
            -- intros _. specialize (Z Hi). cbn. intros y p Hy Hpy. clear - Hy Hpy Z Ho. cbn in Hy. unfold inD in Z. revert Z Hy. induction (post s1) as [|[z k] P IHP]; cbn; intros Hi Hy; [tauto|].
               destruct (Nat.eqb x z).
               ++ cbn in Hy. destruct Hy as [<-|Hy]; [|eapply Hi; eauto]. cbn in Hpy. apply in_app_iff in Hpy as [Hpy|[<-|[]]]; [eapply (Hi (z, k)); eauto|exact Ho].
               ++ cbn in Hy. destruct Hy as [<-|Hy]; [eapply (Hi (z, k)); eauto|]. apply IHP; auto. intros; eapply Hi; eauto.
          * assert (Ht : top ids = true).
            { unfold ids. destruct (post s0) as [|[y k] P]; auto. destruct v; [discriminate|]. destruct (memb _ _); discriminate. }
            assert (T : tr (Iv s0 ids) (Im o s0 ids) (save_reduce proto sv false (g_ GCreateCell) [AV v] SNone (Some (KObj o)))).
            { apply Red; [apply LR; left; auto|]. destruct v as [|o']; auto. unfold rel. rewrite Ht. left. exact Hb. }
            specialize (T s0 I0). destruct (save_reduce _ _ _ _ _ _ _ s0) as [[]|]; tauto.
        + eapply (Fin (Im o s0 ids)). eapply tr_seq; [apply Red; exact Logic.I|]. eapply tr_seq; [|apply tr_emit].
          apply (tr_reduce_none _ Stm sv (vD D)); [intros; apply tr_later; auto|exact Logic.I|].
          intros x [<-|[<-|[]]]; cbn; auto.
      - eapply Fin. apply (tr_set _ St sv Wp); auto; [intros w; apply WR; exact Logic.I|]. split; exact Logic.I.
    Qed.
  End Step.

  Lemma Cl_all n : Cl n (save proto H n).
  Proof.
    induction n as [|n IH]; intros v s path Hv Hi Hp Hb; [lia|]. cbn [save]. unfold save_val.
    destruct v as [a i|o].
    - unfold save_atom. assert (G : forall a', match (if memoized a' then match memo_get (KAtom a' i) s with
                 | Some n => Ok ([GET n], s) | None => (emit [CONST a'] ;; memoize proto (KAtom a' i)) s end else Ok ([CONST a'], s)) with
                 Ok (_, s') => ext s s' | Fail e _ => e <> OutOfFuel end).
      { intros a'. destruct (memoized a'); [destruct (memo_get (KAtom a' i) s)|]; try apply ext_refl.
        cbn. split; [apply incl_appl, incl_refl|auto]. }
      destruct a; try apply G. apply ext_refl.
    - destruct (memo_get (KObj o) s) eqn:Em; [apply ext_refl|]. destruct (H o) as [b|] eqn:Ho; [|discriminate].
      eapply step_ok; eauto. intros Hm. clear - Em Hm. cbn [memo_get] in Em.
      assert (G : forall l i, In (KObj o) l -> find_key (KObj o) l i <> None).
      { induction l as [|k l IHl]; [intros i []|]. cbn [find_key In]. intros i X. destruct (key_eq_dec (KObj o) k); [discriminate|]. apply IHl. destruct X; congruence. }
      eapply G; eauto.
  Qed.
End Term.

(** C07: if no object is needed for its own construction, a recursion depth computed from the number of
    reachable objects is enough, however cyclic the graph is otherwise *)
Theorem C07_depth : forall proto H v D fuel,
  closed H D -> vD D v -> acyclic (needs H) -> acyclic (needs_top H) ->
  depth_bound (length D) <= fuel -> ~ failed (dumps proto H fuel v) OutOfFuel.
Proof.
  intros proto H v D fuel CD Hv A1 A2 Hf [sf Ef]. revert Ef. unfold dumps, dump.
  assert (T := Cl_all proto H D CD A1 A2 fuel v {| memo := []; post := [] |} []).
  destruct (save proto H fuel v {| memo := []; post := [] |}) as [[l s']|e s1]; [discriminate|].
  intros E. inversion E; subst. apply T; auto.
  - intros x p [].
  - split; [constructor|]. split; [intros x []|]. destruct v; auto. intros p [].
  - cbn [post map top length]. unfold B. assert (un D {| memo := []; post := [] |} <= N D).
    { unfold un, N. clear. generalize (fun o : oid => negb (inm {| memo := []; post := [] |} o)). intros f. induction D as [|o D IH]; cbn [filter length]; [lia|]. destruct (f o); cbn [length]; lia. }
    unfold depth_bound in Hf. fold (N D) in Hf. nia.
Qed.
