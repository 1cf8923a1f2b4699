(** Saving a value puts only objects reachable from it into the memo. *)
From Coq Require Import String List Bool Arith ZArith Lia.
From Verif Require Import PyDict CoreModel CoreSpec.
Import ListNotations.
Local Open Scope list_scope.

Definition pp_tgt (p : pp) : oid := match p with PSetCell c => c | PSetItems f => f | PSetQual t => t end.
Definition allowed (V : oid -> Prop) (k : key) : Prop := match k with KObj o => V o | _ => True end.
Definition grow (V : oid -> Prop) (s s' : pst) : Prop :=
  (forall k, In k (memo s') -> In k (memo s) \/ allowed V k) /\
  Forall2 (fun p p' => fst p = fst p' /\ exists n, snd p' = snd p ++ n /\ Forall (fun q => V (pp_tgt q)) n) (post s) (post s').
Definition nw (V : oid -> Prop) (A : act) : Prop := forall s ops s', A s = Ok (ops, s') -> grow V s s'.

Lemma F2_refl_post V l : Forall2 (fun p p' : oid * list pp => fst p = fst p' /\ exists n, snd p' = snd p ++ n /\ Forall (fun q => V (pp_tgt q)) n) l l.
Proof. induction l as [|x l IH]; constructor; auto. split; auto. exists []. rewrite app_nil_r. auto. Qed.
Lemma grow_refl V s : grow V s s.
Proof. split; auto. apply F2_refl_post. Qed.
Lemma grow_trans V s1 s2 s3 : grow V s1 s2 -> grow V s2 s3 -> grow V s1 s3.
Proof.
  intros (A1 & B1) (A2 & B2). split.
  - intros k Hk. destruct (A2 k Hk) as [X|X]; auto.
  - clear A1 A2. revert B2. generalize (post s3) as l3. induction B1 as [|p p' l l' (E & n & En & Fn) B1 IH]; intros l3 B2.
    + inversion B2. constructor.
    + inversion B2 as [|? p'' ? l'' (E' & n' & En' & Fn') B2']; subst. constructor; auto. split; [congruence|].
      exists (n ++ n'). rewrite En', En, app_assoc. split; auto. apply Forall_app; auto.
Qed.
Lemma nw_emit V l : nw V (emit l).
Proof. intros s ops s' E. injection E as _ <-. apply grow_refl. Qed.
Lemma nw_fail V e : nw V (fail e).
Proof. intros s ops s' E. discriminate. Qed.
Lemma nw_seq V A B : nw V A -> nw V B -> nw V (A ;; B).
Proof.
  intros HA HB s ops s' E. unfold seq in E. destruct (A s) as [[l s1]|] eqn:EA; [|discriminate]. destruct (B s1) as [[l' s2]|] eqn:EB; [|discriminate].
  injection E as _ <-. eapply grow_trans; eauto.
Qed.
Lemma nw_seqs {T} V (f : T -> act) l : (forall x, In x l -> nw V (f x)) -> nw V (seqs f l).
Proof. induction l as [|x l IH]; intros Hl; cbn; [apply nw_emit|]. apply nw_seq; [apply Hl; left; auto|apply IH; intros; apply Hl; right; auto]. Qed.
Lemma nw_state (V : oid -> Prop) (f : pst -> act) : (forall s, nw V (f s)) -> nw V (fun s => f s s).
Proof. intros Hf s ops s' E. eapply Hf; eauto. Qed.
Lemma firstn_incl {T} n (l : list T) x : In x (firstn n l) -> In x l.
Proof. revert l. induction n; intros [|y l]; cbn; auto; [tauto|]. intros [A|A]; auto. Qed.
Lemma skipn_incl {T} n (l : list T) x : In x (skipn n l) -> In x l.
Proof. revert l. induction n; intros [|y l]; cbn; auto. Qed.

Section Reach.
  Variable proto : nat.
  Variable H : oid -> option obj.
  Section One.
    Variable V : oid -> Prop.
    Hypothesis VC : forall o b o', V o -> H o = Some b -> In (VR o') (refs b) -> V o'.
    Variable sv : val -> act.
    Definition VV (w : val) : Prop := match w with VR o => V o | VA _ _ => True end.
    Hypothesis SV : forall w, VV w -> nw V (sv w).
    Lemma VC' o b w : V o -> H o = Some b -> In w (refs b) -> VV w.
    Proof. destruct w as [|o']; cbn; [auto|]. apply VC. Qed.
    Definition VA_ (x : arg) : Prop := match x with AV v => VV v | AD k kvs => allowed V k /\ forall w, In w (flat kvs) -> VV w | AL vs => forall w, In w vs -> VV w end.

    Lemma nw_memoize k : allowed V k -> nw V (memoize proto k).
    Proof.
      intros Hk s ops s' E. injection E as _ <-. split; [|apply F2_refl_post]. cbn. intros k' Hi. apply in_app_iff in Hi as [Hi|[<-|[]]]; auto.
    Qed.
    Lemma nw_batches {T} (one : T -> act) many fuel : forall l, (forall x, In x l -> nw V (one x)) -> (forall l', (forall x, In x l' -> In x l) -> nw V (many l')) ->
      nw V (batches one many fuel l).
    Proof.
      induction fuel as [|fuel IH]; intros l H1 H2; [apply nw_emit|].
      change (batches one many (S fuel) l) with ((match firstn BATCHSIZE l with [] => emit [] | [x] => one x | _ => many (firstn BATCHSIZE l) end) ;;
        (if Nat.ltb (length (firstn BATCHSIZE l)) BATCHSIZE then emit [] else batches one many fuel (skipn BATCHSIZE l))).
      apply nw_seq.
      - pose proof (firstn_incl BATCHSIZE l) as F. destruct (firstn BATCHSIZE l) as [|x [|y r]]; [apply nw_emit|apply H1, F; left; auto|apply H2; auto].
      - destruct (Nat.ltb _ _); [apply nw_emit|]. apply IH; [intros; apply H1; eapply skipn_incl; eauto|]. intros l' Hl. apply H2. intros; eapply skipn_incl; eauto.
    Qed.
    Lemma in_flat k v (kvs : list (val * val)) : In (k, v) kvs -> In k (flat kvs) /\ In v (flat kvs).
    Proof. intros Hi. unfold flat. split; apply in_flat_map; exists (k, v); cbn; auto. Qed.
    Lemma nw_kv kvs p : (forall w, In w (flat kvs) -> VV w) -> In p kvs -> nw V (save_kv sv p).
    Proof. intros Hw Hp. destruct p as [k v]. destruct (in_flat _ _ _ Hp). apply nw_seq; apply SV; auto. Qed.
    Lemma nw_setitems kvs : (forall w, In w (flat kvs) -> VV w) -> nw V (batch_setitems proto sv kvs).
    Proof.
      intros Hw. unfold batch_setitems. destruct (bin proto).
      - apply nw_batches.
        + intros x Hx. apply nw_seq; [eapply nw_kv; eauto|apply nw_emit].
        + intros l' Hl. repeat apply nw_seq; try apply nw_emit. apply nw_seqs. intros; eapply nw_kv; eauto.
      - apply nw_seqs. intros x Hx. apply nw_seq; [eapply nw_kv; eauto|apply nw_emit].
    Qed.
    Lemma nw_appends vs : (forall w, In w vs -> VV w) -> nw V (batch_appends proto sv vs).
    Proof.
      intros Hw. unfold batch_appends. destruct (bin proto).
      - apply nw_batches.
        + intros x Hx. apply nw_seq; [apply SV; auto|apply nw_emit].
        + intros l' Hl. repeat apply nw_seq; try apply nw_emit. apply nw_seqs. intros; apply SV; auto.
      - apply nw_seqs. intros x Hx. apply nw_seq; [apply SV; auto|apply nw_emit].
    Qed.
    Lemma nw_dict k kvs : allowed V k -> (forall w, In w (flat kvs) -> VV w) -> nw V (save_dict proto sv k kvs).
    Proof. intros Hk Hw. unfold save_dict. repeat apply nw_seq; [apply nw_emit|apply nw_memoize; auto|apply nw_setitems; auto]. Qed.
    Lemma nw_list k vs : allowed V k -> (forall w, In w vs -> VV w) -> nw V (save_list proto sv k vs).
    Proof. intros Hk Hw. unfold save_list. repeat apply nw_seq; [apply nw_emit|apply nw_memoize; auto|apply nw_appends; auto]. Qed.
    Lemma nw_arg x : VA_ x -> nw V (save_arg proto sv x).
    Proof. destruct x; cbn; [apply SV| |]; [intros (A & B); apply nw_dict; auto|]. intros B. apply nw_list; auto. exact I. Qed.
    Lemma nw_tuple k xs : allowed V k -> (forall x, In x xs -> VA_ x) -> nw V (save_tuple proto sv k xs).
    Proof.
      intros Hk Hx. unfold save_tuple. destruct xs as [|x0 xs0]; [apply nw_emit|]. remember (x0 :: xs0) as xs.
      assert (T : forall dp mk, nw V (fun s => match memo_get k s with Some i => Ok (dp ++ [GET i], s) | None => (emit mk ;; memoize proto k) s end)).
      { intros dp mk. apply (nw_state V (fun s0 s => match memo_get k s0 with Some i => Ok (dp ++ [GET i], s) | None => (emit mk ;; memoize proto k) s end)).
        intros s0. destruct (memo_get k s0); [apply (nw_emit V (dp ++ [GET n]))|]. apply nw_seq; [apply nw_emit|apply nw_memoize; auto]. }
      destruct (_ && _).
      - apply nw_seq; [apply nw_seqs; intros; apply nw_arg; auto|]. apply T.
      - apply nw_seq; [apply nw_emit|]. apply nw_seq; [apply nw_seqs; intros; apply nw_arg; auto|]. apply T.
    Qed.
    Lemma nw_st st : (forall w, In w (state_vals st) -> VV w) -> nw V (save_state proto sv st).
    Proof.
      intros Hw. destruct st as [|v|d [sl|]]; cbn [save_state state_vals] in *; [apply nw_emit| | |]; (apply nw_seq; [|apply nw_emit]).
      - apply SV. apply Hw. left; auto.
      - apply nw_tuple; [exact I|]. intros x [<-|[<-|[]]]; (split; [exact I|]); intros w Hi; apply Hw; apply in_app_iff; auto.
      - apply nw_dict; [exact I|auto].
    Qed.
    Lemma nw_call nb c xs : VV c -> (forall x, In x xs -> VA_ x) -> nw V (red_call proto sv nb c xs).
    Proof.
      intros Hc Hx. unfold red_call. destruct nb; [destruct (Nat.leb 2 proto)|]; (apply nw_seq; [apply SV; try exact I; auto|]; apply nw_seq; [apply nw_tuple; [exact I|auto]|apply nw_emit]).
      intros x [<-|Hi]; auto.
    Qed.
    Lemma nw_memo k : (match k with Some k => allowed V k | None => True end) -> nw V (red_memo proto k).
    Proof.
      intros Hk. unfold red_memo. destruct k as [k|]; [|apply nw_emit].
      apply (nw_state V (fun s0 s => match memo_get k s0 with Some i => Ok ([POP; GET i], s) | None => memoize proto k s end)).
      intros s0. destruct (memo_get k s0); [apply (nw_emit V [POP; GET n])|]. apply nw_memoize; auto.
    Qed.
    Lemma nw_reduce nb c xs st k : VV c -> (forall x, In x xs -> VA_ x) -> (forall w, In w (state_vals st) -> VV w) ->
      (match k with Some k => allowed V k | None => True end) -> nw V (save_reduce proto sv nb c xs st k).
    Proof. intros. unfold save_reduce. repeat apply nw_seq; [apply nw_call|apply nw_memo|apply nw_st]; auto. Qed.

    Lemma nw_set k fz vs : allowed V k -> (forall w, In w vs -> VV w) -> nw V (save_set proto sv k fz vs).
    Proof.
      intros Hk Hw. unfold save_set. destruct (Nat.leb 4 proto); [destruct fz|].
      - apply nw_seq; [apply nw_emit|]. apply nw_seq; [apply nw_seqs; intros; apply SV; auto|].
        apply (nw_state V (fun s0 s => match memo_get k s0 with Some i => Ok ([POP_MARK; GET i], s) | None => (emit [FROZENSET] ;; memoize proto k) s end)).
        intros s0. destruct (memo_get k s0); [apply (nw_emit V [POP_MARK; GET n])|]. apply nw_seq; [apply nw_emit|apply nw_memoize; auto].
      - apply nw_seq; [apply nw_emit|]. apply nw_seq; [apply nw_memoize; auto|].
        assert (B : forall l, (forall x, In x l -> In x vs) -> nw V (add_batch sv l)).
        { intros l Hl. unfold add_batch. repeat apply nw_seq; try apply nw_emit. apply nw_seqs. intros; apply SV; auto. }
        apply nw_batches; [|exact B]. intros x Hx. apply B. intros y [<-|[]]. exact Hx.
      - apply nw_reduce; [destruct fz; exact I| |intros w []|exact Hk]. intros x [<-|[]]. exact Hw.
    Qed.

    Lemma nw_exec p : V (pp_tgt p) -> nw V (exec_pp proto H sv p).
    Proof.
      intros Hp. destruct p as [c|f|t]; cbn [exec_pp pp_tgt] in *.
      - destruct (H c) as [[| | | | | |[v|]|]|] eqn:E; try apply nw_fail. apply nw_seq; [|apply nw_emit].
        apply nw_reduce; try exact I; [|intros w []]. intros x [<-|[<-|[<-|[]]]]; cbn; auto. eapply VC'; eauto. left; auto.
      - unfold glob_items. destruct (H f) as [[| | | |co [a|g m] n de cl st| | |]|] eqn:E; try apply nw_fail.
        destruct (H g) as [[| |kvs| | | | |]|] eqn:Eg; try apply nw_fail.
        assert (Vg : V g) by (eapply VC; eauto; cbn; auto 8). destruct kvs as [|kv kvs]; [apply nw_emit|].
        apply (nw_state V (fun s0 s => match memo_get (KGlob f) s0 with None => Fail KeyErr s | Some i => (emit [GET i] ;; batch_setitems proto sv (kv :: kvs) ;; emit [POP]) s end)).
        intros s0. destruct (memo_get _ s0); [|apply nw_fail]. repeat apply nw_seq; try apply nw_emit. apply nw_setitems. intros w Hw. eapply VC'; eauto.
      - destruct (H t) as [[| | | | |mt n bs d q| |]|] eqn:E; try apply nw_fail. apply nw_seq; [|apply nw_emit].
        apply nw_reduce; try exact I; [|intros w []]. intros x [<-|[<-|[<-|[]]]]; cbn; auto. eapply VC'; eauto. cbn; auto 8.
    Qed.
    Lemma grow_last (l l' : list (oid * list pp)) o own :
      Forall2 (fun p p' => fst p = fst p' /\ exists n, snd p' = snd p ++ n /\ Forall (fun q => V (pp_tgt q)) n) (l ++ [(o, own)]) l' ->
      exists l0 n, l' = l0 ++ [(o, own ++ n)] /\ Forall (fun q => V (pp_tgt q)) n /\
        Forall2 (fun p p' => fst p = fst p' /\ exists n, snd p' = snd p ++ n /\ Forall (fun q => V (pp_tgt q)) n) l l0.
    Proof.
      intros F. apply Forall2_app_inv_l in F as (l0 & l1 & F0 & F1 & ->). inversion F1 as [|? [o' ps] ? ? (E & n & En & Fn) F2]; subst. inversion F2; subst.
      cbn in E, En. subst. exists l0, n. auto.
    Qed.
    Lemma get_last (l : list (oid * list pp)) o x : ~ In o (map fst l) -> get o (l ++ [(o, x)]) = Some x /\ del o (l ++ [(o, x)]) = l.
    Proof.
      induction l as [|[y k] l IH]; intros Hn; cbn.
      - rewrite Nat.eqb_refl. auto.
      - destruct (Nat.eqb_spec o y) as [->|Hne]; [exfalso; apply Hn; left; auto|]. destruct IH as [A B]; [intros X; apply Hn; right; auto|]. split; auto. cbn. f_equal. exact B.
    Qed.
    Lemma nw_postproc o own red : Forall (fun q => V (pp_tgt q)) own -> nw V red -> nw V (save_with_postproc proto H sv o own red).
    Proof.
      intros Ho Hr s ops s' E. unfold save_with_postproc in E. destruct (memb o (map fst (post s))) eqn:Em; [discriminate|].
      assert (Hn : ~ In o (map fst (post s))) by (intros X; apply memb_In in X; congruence).
      unfold seq, push_post in E. set (s1 := {| memo := memo s; post := post s ++ [(o, own)] |}) in *.
      destruct (red s1) as [[l2 s2]|] eqn:Er; [|discriminate]. destruct (Hr _ _ _ Er) as (M2 & P2). cbn [post s1] in P2. cbn [memo s1] in M2.
      destruct (grow_last _ _ _ _ P2) as (l0 & n & El & Fn & F0). unfold pop_run in E. rewrite El in E.
      assert (Hl0 : ~ In o (map fst l0)).
      { intros X. apply Hn. clear - X F0. induction F0 as [|p p' l l' (E & _) F IH]; cbn in *; auto. destruct X as [<-|X]; auto. }
      destruct (get_last l0 o (own ++ n) Hl0) as (Eg & Ed). rewrite Eg, Ed in E.
      match type of E with context [seqs ?f ?l ?s3] => destruct (seqs f l s3) as [[l4 s4]|] eqn:E4; [|discriminate] end. injection E as _ <-.
      assert (Hx : nw V (seqs (exec_pp proto H sv) (rev (own ++ n)))).
      { apply nw_seqs. intros q Hq. apply in_rev in Hq. apply nw_exec. apply in_app_iff in Hq. rewrite Forall_forall in *. destruct Hq; auto. }
      eapply grow_trans; [|eapply Hx; exact E4]. split; cbn; auto.
    Qed.
    Lemma nw_add e p : V (pp_tgt p) -> nw V (add_pp e p).
    Proof.
      intros Hp s ops s' E. injection E as _ <-. split; cbn; auto. induction (post s) as [|[y k] l IH]; cbn; [constructor|].
      destruct (Nat.eqb e y); constructor; auto using F2_refl_post; cbn; (split; [auto|]).
      - exists [p]. auto.
      - exists []. rewrite app_nil_r. auto.
    Qed.

    Lemma nw_obj o b : V o -> H o = Some b -> nw V (save_obj proto H sv o b).
    Proof.
      intros Ho Hb. assert (R : forall w, In w (refs b) -> VV w) by (intros; eapply VC'; eauto).
      destruct b as [vs|vs|kvs|nb c args li di st|co gl nm de cl st|mt nm bs d q|c|fz vs]; cbn [save_obj refs] in *.
      - apply nw_tuple; auto. intros x Hx. apply in_map_iff in Hx as (w & <- & Hw). cbn. auto.
      - unfold save_list. repeat apply nw_seq; [apply nw_emit|apply nw_memoize; auto|apply nw_appends; auto].
      - apply nw_dict; auto.
      - unfold save_instance. repeat apply nw_seq.
        + apply nw_call; [apply R; left; auto|]. intros x Hx. apply in_map_iff in Hx as (w & <- & Hw). cbn. apply R. right. apply in_app_iff; auto.
        + apply nw_memo. exact Ho.
        + apply nw_appends. intros w Hw. apply R. right. rewrite !in_app_iff. auto.
        + apply nw_setitems. intros w Hw. apply R. right. rewrite !in_app_iff. auto.
        + apply nw_st. intros w Hw. apply R. right. rewrite !in_app_iff. auto.
      - destruct gl as [a|g m]; cbn [save_function].
        + apply nw_postproc; [constructor|]. apply nw_reduce; try exact I; auto.
          * intros x [<-|[<-|[<-|[<-|[<-|[]]]]]]; cbn [VA_ VV]; auto; apply R; cbn; auto 8.
          * intros w Hw. apply R. right; right; right; right. exact Hw.
        + destruct (H g) as [[| |kvs| | | | |]|] eqn:Eg; try apply nw_fail. cbv zeta.
          assert (Red : nw V (save_reduce proto sv false (g_ GCreateFunction) [AV co; AD (KGlob o) [(sNAME, m)]; AV nm; AV de; AV cl] st (Some (KObj o)))).
          { apply nw_reduce; try exact I; auto.
            - intros x [<-|[<-|[<-|[<-|[<-|[]]]]]]; cbn [VA_ VV]; auto; try (apply R; cbn; auto 8; fail).
              split; [exact I|]. intros w [<-|[<-|[]]]; [exact I|]. apply R; cbn; auto 10.
            - intros w Hw. apply R. do 6 right. exact Hw. }
          intros s ops s' E. destruct (first_in (map snd kvs) (post s)) as [x|].
          * refine (nw_seq V _ _ (nw_add x (PSetItems o) Ho) (nw_postproc o [] _ (Forall_nil _) Red) s ops s' E).
          * refine (nw_seq V _ _ (nw_emit V []) (nw_postproc o [PSetItems o] _ _ Red) s ops s' E). constructor; auto.
      - unfold save_type. apply nw_postproc; [constructor; auto|]. apply nw_reduce; try exact I; auto; [|intros w []].
        intros x [<-|[<-|[<-|[<-|[]]]]]; cbn [VA_ VV]; try (apply R; cbn; auto 8; fail). split; [exact I|]. intros w Hw. apply R. do 4 right. exact Hw.
      - unfold save_cell. intros s ops s' E. destruct c as [v|].
        + cbv zeta in E. match type of E with context [match ?d with Some _ => _ | None => _ end] => destruct d as [x|] end.
          * assert (A : nw V (save_reduce proto sv false (g_ GCreateCell) [AV vNone] SNone (Some (KObj o)))).
            { apply nw_reduce; [exact I| |intros w []|exact Ho]. intros y [<-|[]]. exact I. }
            exact (nw_seq V _ _ A (nw_add x (PSetCell o) Ho) s ops s' E).
          * assert (A : nw V (save_reduce proto sv false (g_ GCreateCell) [AV v] SNone (Some (KObj o)))).
            { apply nw_reduce; [exact I| |intros w []|exact Ho]. intros y [<-|[]]. cbn. apply R. left; auto. }
            exact (A s ops s' E).
        + assert (A : nw V (save_reduce proto sv false (g_ GCreateCell) [AV (VA ACellEmpty 0)] SNone (Some (KObj o)))).
          { apply nw_reduce; [exact I| |intros w []|exact Ho]. intros y [<-|[]]. exact I. }
          assert (B : nw V (save_reduce proto sv false (g_ GDelattr) [AV (VR o); AV sCONTENTS] SNone None)).
          { apply nw_reduce; [exact I| |intros w []|exact I]. intros y [<-|[<-|[]]]; [exact Ho|exact I]. }
          exact (nw_seq V _ _ A (nw_seq V _ _ B (nw_emit V _)) s ops s' E).
      - apply nw_set; auto.
    Qed.
    Lemma nw_val v : VV v -> nw V (save_val proto H sv v).
    Proof.
      intros Hv s ops s' E. unfold save_val in E. destruct v as [a i|o].
      - unfold save_atom in E. assert (G : forall a', (if memoized a' then match memo_get (KAtom a' i) s with
           | Some n => Ok ([GET n], s) | None => (emit [CONST a'] ;; memoize proto (KAtom a' i)) s end else Ok ([CONST a'], s)) = Ok (ops, s') -> grow V s s').
        { intros a' E'. destruct (memoized a'); [destruct (memo_get (KAtom a' i) s)|]; try (injection E' as _ <-; apply grow_refl).
          refine (nw_seq V _ _ (nw_emit V _) (nw_memoize _ _) s ops s' E'). exact I. }
        destruct a as [| |z|t| |g|md|b|f|t]; [exact (G ANone E)| |exact (G (AScalar z) E)|exact (G (AStr t) E)|exact (G ACellEmpty E)|exact (G (AGlob g) E)|exact (G (AModDict md) E)|exact (G (ABool b) E)|exact (G (AFloat f) E)|exact (G (ABytes t) E)].
        injection E as _ <-. apply grow_refl.
      - destruct (memo_get (KObj o) s); [injection E as _ <-; apply grow_refl|]. destruct (H o) as [b|] eqn:Ho; [|discriminate]. eapply nw_obj; eauto.
    Qed.
  End One.

  Lemma reach_closed v o b o' : reach H v o -> H o = Some b -> In (VR o') (refs b) -> reach H v o'.
  Proof. intros R Hb Hi. induction R as [o|o b1 v1 o1 H1 I1 R IH]; [eapply r_step; eauto; constructor|eapply r_step; eauto]. Qed.
  Lemma reach_trans v o o' : reach H v o -> reach H (VR o) o' -> reach H v o'.
  Proof. intros R R2. induction R as [o|o b1 v1 o1 H1 I1 R IH]; auto. eapply r_step; eauto. Qed.
  (** what sv v adds to the memo is reachable from v *)
  Definition sv_new (sv : val -> act) : Prop := forall v, nw (reach H v) (sv v).
  Lemma nw_mono (V W : oid -> Prop) A : (forall o, V o -> W o) -> nw V A -> nw W A.
  Proof.
    intros HVW HA s ops s' E. destruct (HA s ops s' E) as (M & P). split.
    - intros k Hk. destruct (M k Hk) as [X|X]; auto. right. destruct k; cbn in *; auto.
    - clear - P HVW. induction P as [|p p' l l' (A1 & n & A2 & A3) P IH]; constructor; auto. split; auto. exists n. split; auto. eapply Forall_impl; [|exact A3]. auto.
  Qed.
  Theorem save_new fuel : sv_new (save proto H fuel).
  Proof.
    induction fuel as [|n IH]; intros v; [apply nw_fail|]. cbn [save].
    apply (nw_val (reach H v)); [intros o b o' Ro Hb Hi; eapply reach_closed; eauto| |].
    - intros w Hw. eapply nw_mono; [|apply IH]. intros o Ro. destruct w as [|o1]; [inversion Ro|]. eapply reach_trans; eauto.
    - destruct v; cbn; [auto|constructor].
  Qed.
End Reach.
