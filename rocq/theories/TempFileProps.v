(** C76, C77: dill.temp.dump/load and dumpIO/loadIO over whole histories. *)
From Coq Require Import String List Bool Arith Lia.
From Verif Require Import PyDict TempFileModel.
Import ListNotations.

Section Props.
  Variable V : Type.
  Variable dumps : V -> list (list nat) * bool.
  Variable loads : list nat -> option V.
  Notation event := (event V).
  Notation dump := (dump V dumps).
  Notation dumpIO := (dumpIO V dumps).
  Notation load := (load V loads).
  Notation loadIO := (loadIO V loads).
  Notation step := (step V dumps).
  Notation run := (run V dumps).

  (** ** specification *)
  (** A pickle ends itself: reading one that a successful dump wrote gives the object back, whatever
      follows it in the file. *)
  Definition self_delimiting : Prop :=
    forall v rest, snd (dumps v) = true -> loads (concat (fst (dumps v)) ++ rest) = Some v.

  (** names and ids the system gives out are new *)
  Definition unused (W : world) (name h : nat) : Prop :=
    get name (files W) = None /\ get h (handles W) = None /\
    forall h' d, get h' (handles W) = Some d -> h_name d <> name.
  Definition new (W : world) (e : event) : Prop :=
    match e with
    | EDump _ _ _ name h _ => unused W name h
    | EDumpIO _ _ b => get b (buffers W) = None
    | _ => True
    end.
  (** file.tell() *)
  Definition tell (W : world) (h : nat) : nat :=
    match get h (handles W) with Some d => h_pos d + length (h_pending d) | None => 0 end.

  (** The handle is kept: it is not closed (or was made with delete=False), its file is not removed,
      and nothing is written over the first [len] bytes. Anything else may happen: reading, seeking,
      appending, other dumps, closing other handles. *)
  Definition keeps (h name len : nat) (delete : bool) (W : world) (e : event) : Prop :=
    match e with
    | EClose _ h' => h' = h -> delete = false
    | EUnlink _ n => n <> name
    | EWrite _ h' bs => h' = h -> len <= tell W h
    | _ => True
    end.
  Fixpoint along (P : world -> event -> Prop) (W : world) (es : list event) : Prop :=
    match es with [] => True | e :: es => P W e /\ along P (step W e) es end.

  (** ** lemmas *)
  Lemma write_at_end : forall old bs, write_at old (length old) bs = old ++ bs.
  Proof.
    intros. unfold write_at. rewrite firstn_all, Nat.sub_diag. cbn. rewrite skipn_all2 by lia. now rewrite app_nil_r.
  Qed.
  Lemma write_at_prefix : forall pre old p bs, (exists r, old = pre ++ r) -> length pre <= p -> exists r, write_at old p bs = pre ++ r.
  Proof.
    intros pre old p bs [r ->] L. unfold write_at. rewrite firstn_app, firstn_all2 by lia. rewrite <- app_assoc. eauto.
  Qed.
  Lemma write_at_nil : forall old p, p <= length old -> write_at old p [] = old.
  Proof.
    intros. unfold write_at. cbn. rewrite Nat.add_0_r. replace (p - length old) with 0 by lia. cbn. apply firstn_skipn.
  Qed.

  (** the state of the file and stream of handle h while dump writes: everything so far is either in
      the file or pending *)
  Definition writing (W0 W : world) (name h : nat) (del_ : bool) (sofar : list nat) : Prop :=
    (exists d old, get h (handles W) = Some d /\ d = Handle name (length old) (h_pending d) del_ false /\
       get name (files W) = Some old /\ old ++ h_pending d = sofar) /\
    (forall h', h' <> h -> get h' (handles W) = get h' (handles W0)) /\
    (forall n, n <> name -> get n (files W) = get n (files W0)) /\ buffers W = buffers W0.

  Lemma writing_write : forall W0 W name h dl s bs, writing W0 W name h dl s -> writing W0 (write W h bs) name h dl (s ++ bs).
  Proof.
    intros W0 W name h dl s bs ((d & old & D & Ed & F & S) & H2 & H3 & H4). unfold write. rewrite D. split; [|split; [|split]]; cbn [files handles buffers].
    - eexists _, old. rewrite get_set_same. split; [reflexivity|]. rewrite Ed. cbn. split; [reflexivity|]. split; [auto|]. rewrite app_assoc, S. reflexivity.
    - intros. rewrite get_set_other; auto.
    - auto.
    - auto.
  Qed.
  Lemma writing_flush : forall W0 W name h dl s k, writing W0 W name h dl s -> writing W0 (flush k W h) name h dl s.
  Proof.
    intros W0 W name h dl s k ((d & old & D & Ed & F & S) & H2 & H3 & H4). unfold flush. rewrite D.
    assert (Hn : h_name d = name) by (rewrite Ed; reflexivity). assert (Hp : h_pos d = length old) by (rewrite Ed; reflexivity).
    rewrite Hn, F, Hp. split; [|split; [|split]]; cbn [files handles buffers].
    - eexists _, _. rewrite get_set_same. split; [reflexivity|]. cbn [h_pending]. rewrite get_set_same. split.
      2:{ split; [reflexivity|]. rewrite write_at_end, <- app_assoc, firstn_skipn. exact S. }
      rewrite write_at_end, app_length. rewrite Ed. reflexivity.
    - intros. rewrite get_set_other; auto.
    - intros. rewrite get_set_other; auto.
    - auto.
  Qed.
  Lemma writing_flush_all : forall W0 W name h dl s, writing W0 W name h dl s ->
    writing W0 (flush_all W h) name h dl s /\ exists d, get h (handles (flush_all W h)) = Some d /\ h_pending d = [].
  Proof.
    intros W0 W name h dl s Hw. generalize Hw. intros ((d & old & D & Ed & F & S) & H2 & H3 & H4). unfold flush_all. rewrite D. split.
    - now apply writing_flush.
    - unfold flush. rewrite D. replace (h_name d) with name by (rewrite Ed; reflexivity). rewrite F. cbn [handles]. rewrite get_set_same.
      eexists. split; [reflexivity|]. cbn. apply skipn_all.
  Qed.
  Lemma writing_all : forall chunks W0 W name h dl s spill, writing W0 W name h dl s ->
    writing W0 (write_all W h chunks spill) name h dl (s ++ concat chunks).
  Proof.
    induction chunks as [|c chunks IH]; intros; cbn [write_all concat].
    - now rewrite app_nil_r.
    - rewrite app_assoc. destruct spill as [|k spill].
      + apply IH. now apply writing_write.
      + apply IH. apply writing_flush. now apply writing_write.
  Qed.
  Lemma dump_writing : forall W v delete name h spill,
    writing W (write_all (World (set name [] (files W)) (set h (Handle name 0 [] delete false) (handles W)) (buffers W)) h (fst (dumps v)) spill)
      name h delete (concat (fst (dumps v))).
  Proof.
    intros. apply (writing_all (fst (dumps v)) W _ name h delete [] spill). split; [|split; [|split]]; cbn [files handles buffers].
    - eexists _, []. rewrite !get_set_same. repeat split.
    - intros. rewrite get_set_other; auto.
    - intros. rewrite get_set_other; auto.
    - auto.
  Qed.

  Definition opt (delete : option bool) := match delete with Some b => b | None => true end.

  (** Right after a dump that succeeds: the file holds exactly the pickle, and no other file, stream
      or buffer is different. *)
  Theorem C76_dumped : forall W v delete name h spill W1 h1, dump v delete name h spill W = (W1, Ok h1) ->
    h1 = h /\ get name (files W1) = Some (concat (fst (dumps v))) /\
    get h (handles W1) = Some (Handle name (length (concat (fst (dumps v)))) [] (opt delete) false) /\
    (forall n, n <> name -> get n (files W1) = get n (files W)) /\
    (forall h', h' <> h -> get h' (handles W1) = get h' (handles W)) /\ buffers W1 = buffers W.
  Proof.
    intros W v delete name h spill W1 h1 E. unfold TempFileModel.dump in E. fold (opt delete) in E.
    destruct (snd (dumps v)); [|discriminate]. injection E as <- <-. split; auto.
    destruct (writing_flush_all _ _ _ _ _ _ (dump_writing W v (opt delete) name h spill)) as (Hw & (d' & D' & P')).
    destruct Hw as ((d & old & D & Ed & F & S) & H2 & H3 & H4).
    assert (d = d') by congruence. subst d'. rewrite P' in *. rewrite app_nil_r in S. subst old. repeat split; auto. congruence.
  Qed.

  Lemma flush_spec : forall k W h d, get h (handles W) = Some d ->
    (forall h', h' <> h -> get h' (handles (flush k W h)) = get h' (handles W)) /\
    (forall n, n <> h_name d -> get n (files (flush k W h)) = get n (files W)) /\
    buffers (flush k W h) = buffers W /\
    match get (h_name d) (files W) with
    | Some old => get (h_name d) (files (flush k W h)) = Some (write_at old (h_pos d) (firstn k (h_pending d))) /\
        get h (handles (flush k W h)) = Some (Handle (h_name d) (h_pos d + length (firstn k (h_pending d))) (skipn k (h_pending d)) (h_delete d) (h_closed d))
    | None => flush k W h = W
    end.
  Proof.
    intros k W h d D. unfold flush. rewrite D. destruct (get (h_name d) (files W)) as [old|] eqn:F; cbn [files handles buffers].
    - repeat split; intros; try (rewrite get_set_other; auto; fail); rewrite get_set_same; reflexivity.
    - repeat split; auto.
  Qed.

  (** ** the invariant of a kept handle *)
  Definition kept (h name : nat) (data : list nat) (delete : bool) (W : world) : Prop :=
    (exists d, get h (handles W) = Some d /\ h_name d = name /\ h_delete d = delete /\ (h_closed d = true -> delete = false) /\
       (h_pending d <> [] -> length data <= h_pos d)) /\
    (exists rest, get name (files W) = Some (data ++ rest)) /\
    (forall h' d', h' <> h -> get h' (handles W) = Some d' -> h_name d' <> name).

  Lemma kept_flush : forall h name data dl k h' W, kept h name data dl W -> kept h name data dl (flush k W h').
  Proof.
    intros h name data dl k h' W ((d & D & N & De & C & P) & (rest & F) & O).
    destruct (get h' (handles W)) as [d'|] eqn:D'.
    2:{ unfold flush. rewrite D'. split; [|split]; eauto 10. }
    destruct (flush_spec k W h' d' D') as (A1 & A2 & A3 & A4).
    destruct (Nat.eq_dec h' h) as [->|Ne].
    - assert (d' = d) by congruence. subst d'. rewrite N, F in A4. destruct A4 as (A4 & A5). split; [|split].
      + eexists. split; [exact A5|]. cbn. repeat split; auto. intro W1. assert (h_pending d <> []). { intro Z. rewrite Z in W1. destruct k; apply W1; reflexivity. }
        specialize (P H). lia.
      + rewrite A4. destruct (h_pending d) as [|b0 pend] eqn:Ep.
        * rewrite firstn_nil. unfold write_at. destruct (Nat.le_gt_cases (h_pos d) (length (data ++ rest))) as [L|L].
          -- fold (write_at (data ++ rest) (h_pos d) []). rewrite write_at_nil by auto. eauto.
          -- rewrite firstn_all2 by lia. cbn. rewrite <- app_assoc. eauto.
        * destruct (write_at_prefix data (data ++ rest) (h_pos d) (firstn k (b0 :: pend))) as (r & ->); eauto. apply P. discriminate.
      + intros h2 d2 Ne2 D2. rewrite A1 in D2 by auto. eauto.
    - assert (Nn : h_name d' <> name) by eauto. split; [|split].
      + exists d. rewrite A1 by auto. auto 10.
      + rewrite A2 by auto. eauto.
      + intros h2 d2 Ne2 D2. destruct (Nat.eq_dec h2 h') as [->|Ne3].
        * destruct (get (h_name d') (files W)) as [old|].
          -- destruct A4 as (_ & A5). rewrite D2 in A5. injection A5 as ->. exact Nn.
          -- rewrite A4 in D2. eauto.
        * rewrite A1 in D2 by auto. eauto.
  Qed.
  Lemma kept_flush_all : forall h name data dl h' W, kept h name data dl W -> kept h name data dl (flush_all W h').
  Proof. intros. unfold flush_all. destruct (get h' (handles W)); auto. now apply kept_flush. Qed.

  Lemma flush_all_pending : forall W h d d1, get h (handles W) = Some d -> get h (handles (flush_all W h)) = Some d1 ->
    get (h_name d) (files W) <> None -> h_pending d1 = [] /\ h_name d1 = h_name d /\ h_delete d1 = h_delete d /\ h_closed d1 = h_closed d.
  Proof.
    intros W h d d1 D D1 F. unfold flush_all in D1. rewrite D in D1. destruct (flush_spec (length (h_pending d)) W h d D) as (_ & _ & _ & A).
    destruct (get (h_name d) (files W)); [|congruence]. destruct A as (_ & A). rewrite D1 in A. injection A as ->. cbn. rewrite skipn_all. auto.
  Qed.

  Lemma kept_step : forall h name data dl W e, kept h name data dl W -> new W e -> keeps h name (length data) dl W e ->
    kept h name data dl (step W e).
  Proof.
    intros h name data dl W e K N Ke. destruct e as [v dele name' h' spill|h' bs|h'|h' k|h' p|h'|n|v b|b bs|b p|b]; cbn [TempFileModel.step].
    - (* another dump *)
      generalize K. intros ((d & D & Nm & De & C & P) & (rest & F) & O). destruct N as (N1 & N2 & N3).
      assert (Hh : h' <> h) by (intros ->; congruence). assert (Hn : name' <> name) by (intros ->; congruence).
      unfold TempFileModel.dump. fold (opt dele).
      set (W1 := write_all _ h' (fst (dumps v)) spill). pose proof (dump_writing W v (opt dele) name' h' spill) as Wr. fold W1 in Wr.
      destruct (snd (dumps v)).
      + cbn [fst]. destruct (writing_flush_all _ _ _ _ _ _ Wr) as (((d2 & old & D2 & Ed & F2 & S2) & H2 & H3 & H4) & _). split; [|split].
        * exists d. rewrite H2 by auto. auto 10.
        * rewrite H3 by auto. eauto.
        * intros h2 d3 Ne D3. destruct (Nat.eq_dec h2 h') as [->|Ne2].
          -- assert (d3 = d2) by congruence. subst d3. rewrite Ed. cbn. auto.
          -- rewrite H2 in D3 by auto. eauto.
      + cbn [fst]. unfold close. destruct (writing_flush_all _ _ _ _ _ _ Wr) as (((d2 & old & D2 & Ed & F2 & S2) & H2 & H3 & H4) & _). rewrite D2, Ed. cbn [h_closed h_delete h_name].
        split; [|split]; cbn [files handles].
        * exists d. rewrite get_set_other by auto. rewrite H2 by auto. auto 10.
        * destruct (opt dele). { rewrite get_del_other by auto. rewrite H3 by auto. eauto. } rewrite H3 by auto. eauto.
        * intros h2 d3 Ne D3. destruct (Nat.eq_dec h2 h') as [->|Ne2].
          -- rewrite get_set_same in D3. injection D3 as <-. cbn. auto.
          -- rewrite get_set_other in D3 by auto. rewrite H2 in D3 by auto. eauto.
    - (* write *)
      destruct (is_open W h'); auto. generalize K. intros ((d & D & Nm & De & C & P) & (rest & F) & O). unfold write.
      destruct (get h' (handles W)) as [d'|] eqn:D'; auto. split; [|split]; cbn [files handles]; eauto.
      + destruct (Nat.eq_dec h' h) as [->|Ne].
        * rewrite get_set_same. eexists. split; [reflexivity|]. cbn. assert (d' = d) by congruence. subst d'. repeat split; auto.
          intros _. cbn in Ke. specialize (Ke eq_refl). unfold tell in Ke. rewrite D in Ke. destruct (h_pending d) eqn:Ep; [cbn in Ke; lia|]. apply P. discriminate.
        * rewrite get_set_other by auto. eauto 10.
      + intros h2 d3 Ne D3. destruct (Nat.eq_dec h2 h') as [->|Ne2].
        * rewrite get_set_same in D3. injection D3 as <-. cbn. eauto.
        * rewrite get_set_other in D3 by auto. eauto.
    - destruct (is_open W h'); auto using kept_flush_all.
    - destruct (is_open W h'); auto using kept_flush.
    - (* seek *)
      destruct (is_open W h'); auto. unfold seek. pose proof (kept_flush_all h name data dl h' W K) as K1.
      generalize K1. intros ((d & D & Nm & De & C & P) & (rest & F) & O).
      destruct (get h' (handles (flush_all W h'))) as [d'|] eqn:D'; auto. split; [|split]; cbn [files handles]; eauto.
      + destruct (Nat.eq_dec h' h) as [->|Ne].
        * rewrite get_set_same. eexists. split; [reflexivity|]. cbn. assert (d' = d) by congruence. subst d'. repeat split; auto.
          intro Z. exfalso. apply Z. destruct K as ((d0 & D0 & N0 & _) & (r0 & F0) & _). eapply (flush_all_pending W h d0 d); eauto. rewrite N0, F0. discriminate.
        * rewrite get_set_other by auto. eauto 10.
      + intros h2 d3 Ne D3. destruct (Nat.eq_dec h2 h') as [->|Ne2].
        * rewrite get_set_same in D3. injection D3 as <-. cbn. eauto.
        * rewrite get_set_other in D3 by auto. eauto.
    - (* close *)
      unfold close. pose proof (kept_flush_all h name data dl h' W K) as K1. generalize K1. intros ((d & D & Nm & De & C & P) & (rest & F) & O).
      destruct (get h' (handles (flush_all W h'))) as [d'|] eqn:D'; auto. destruct (h_closed d') eqn:Cl; auto. split; [|split]; cbn [files handles].
      + destruct (Nat.eq_dec h' h) as [->|Ne].
        * rewrite get_set_same. eexists. split; [reflexivity|]. cbn. assert (d' = d) by congruence. subst d'. repeat split; auto.
        * rewrite get_set_other by auto. eauto 10.
      + destruct (h_delete d') eqn:Dd; eauto. destruct (Nat.eq_dec h' h) as [->|Ne].
        * exfalso. assert (d' = d) by congruence. subst d'. cbn in Ke. specialize (Ke eq_refl). congruence.
        * pose proof (O h' d' Ne D'). rewrite get_del_other by congruence. eauto.
      + intros h2 d3 Ne D3. destruct (Nat.eq_dec h2 h') as [->|Ne2].
        * rewrite get_set_same in D3. injection D3 as <-. cbn. eauto.
        * rewrite get_set_other in D3 by auto. eauto.
    - (* unlink *)
      destruct K as (K1 & (rest & F) & O). split; [|split]; cbn [files handles]; auto. cbn in Ke. rewrite get_del_other by auto. eauto.
    - unfold TempFileModel.dumpIO. destruct (snd (dumps v)); auto.
    - destruct (get b (buffers W)) as [[[old p] [|]]|]; auto.
    - destruct (get b (buffers W)) as [[[old p0] [|]]|]; auto.
    - destruct (get b (buffers W)) as [[[old p0] c]|]; auto.
  Qed.

  Lemma kept_run : forall h name data dl es W, kept h name data dl W -> along new W es -> along (keeps h name (length data) dl) W es ->
    kept h name data dl (run W es).
  Proof.
    intros h name data dl. induction es as [|e es IH]; intros W K A1 A2; cbn; auto. destruct A1, A2. apply IH; auto. now apply kept_step.
  Qed.

  (** C76.  From any state in which dump made a new file, and after any history that keeps the handle
      (dumps, loads, reads, appends, seeks, closes of other handles ...), load gives the object back,
      through the handle and by the file's name, again and again. *)
  Theorem C76_load_back : forall W v delete name h spill W1 es,
    self_delimiting -> unused W name h -> dump v delete name h spill W = (W1, Ok h) ->
    along new W1 es -> along (keeps h name (length (concat (fst (dumps v)))) (opt delete)) W1 es ->
    load (run W1 es) (THandle h) = Ok v /\ load (run W1 es) (TName name) = Ok v.
  Proof.
    intros W v delete name h spill W1 es SD (U1 & U2 & U3) E A1 A2.
    assert (Ok_ : snd (dumps v) = true). { unfold TempFileModel.dump in E. destruct (snd (dumps v)); [reflexivity|discriminate]. }
    destruct (C76_dumped _ _ _ _ _ _ _ _ E) as (_ & F & D & O1 & O2 & _).
    assert (K : kept h name (concat (fst (dumps v))) (opt delete) W1).
    { split; [|split].
      - eexists. split; [exact D|]. cbn. repeat split; try discriminate. intros Z. now destruct Z.
      - exists []. now rewrite app_nil_r.
      - intros h' d' Ne D'. rewrite O2 in D' by auto. eauto. }
    pose proof (kept_run _ _ _ _ es W1 K A1 A2) as ((d & D2 & N2 & _) & (rest & F2) & _).
    unfold TempFileModel.load, target_name. rewrite D2. cbn [option_map]. rewrite N2, F2, (SD v rest Ok_). auto.
  Qed.

  (** ... but only that long: once the handle of a default dump is closed (or dropped), the file is
      gone for good, whatever is done afterwards. *)
  Definition gone (h name : nat) (W : world) : Prop :=
    (exists d, get h (handles W) = Some d /\ h_name d = name /\ h_closed d = true) /\
    get name (files W) = None.
  Lemma gone_flush : forall h name k h' W, gone h name W -> gone h name (flush k W h').
  Proof.
    intros h name k h' W ((d & D & N & C) & F). destruct (get h' (handles W)) as [d'|] eqn:D'.
    2:{ unfold flush. rewrite D'. split; eauto. }
    destruct (flush_spec k W h' d' D') as (A1 & A2 & _ & A4). split.
    - destruct (Nat.eq_dec h' h) as [->|Ne].
      + assert (d' = d) by congruence. subst d'. rewrite N, F in A4. rewrite A4. eauto.
      + rewrite A1 by auto. eauto.
    - destruct (Nat.eq_dec (h_name d') name) as [E|Ne].
      + rewrite E, F in A4. rewrite A4. auto.
      + rewrite A2 by auto. auto.
  Qed.
  Lemma gone_flush_all : forall h name h' W, gone h name W -> gone h name (flush_all W h').
  Proof. intros. unfold flush_all. destruct (get h' (handles W)); auto using gone_flush. Qed.
  Lemma gone_step : forall h name W e, gone h name W -> new W e -> gone h name (step W e).
  Proof.
    intros h name W e G N. destruct e as [v dele name' h' spill|h' bs|h'|h' k|h' p|h'|n|v b|b bs|b p|b]; cbn [TempFileModel.step].
    - destruct G as ((d & D & Nm & C) & F). destruct N as (N1 & N2 & N3).
      assert (Hh : h' <> h) by (intros ->; congruence). assert (Hn : name' <> name) by (intro Z; apply (N3 h d D); congruence).
      unfold TempFileModel.dump. fold (opt dele). pose proof (dump_writing W v (opt dele) name' h' spill) as Wr.
      destruct (writing_flush_all _ _ _ _ _ _ Wr) as (((d2 & old & D2 & Ed & F2 & S2) & H2 & H3 & H4) & _).
      destruct (snd (dumps v)); cbn [fst].
      + split; [rewrite H2 by auto; eauto|rewrite H3 by auto; auto].
      + unfold close. rewrite D2, Ed. cbn [h_closed h_delete h_name]. split; cbn [files handles].
        * rewrite get_set_other by auto. rewrite H2 by auto. eauto.
        * destruct (opt dele); [rewrite get_del_other by auto|]; rewrite H3 by auto; auto.
    - unfold is_open, write. destruct (get h' (handles W)) as [d'|] eqn:D'; auto. destruct (h_closed d') eqn:Cl; cbn; auto.
      destruct G as ((d & D & Nm & C) & F). split; cbn [files handles]; auto. rewrite get_set_other; eauto. intros ->. congruence.
    - destruct (is_open W h'); auto using gone_flush_all.
    - destruct (is_open W h'); auto using gone_flush.
    - destruct (is_open W h') eqn:Op; auto. unfold seek. generalize (gone_flush_all h name h' W G). intros ((d & D & Nm & C) & F).
      destruct (get h' (handles (flush_all W h'))) as [d'|] eqn:D'; [|split; eauto]. split; cbn [files handles]; auto.
      destruct (Nat.eq_dec h' h) as [->|Ne].
      + rewrite get_set_same. eexists. split; [reflexivity|]. cbn. assert (d' = d) by congruence. subst d'. auto.
      + rewrite get_set_other by auto. eauto.
    - unfold close. generalize (gone_flush_all h name h' W G). intros ((d & D & Nm & C) & F).
      destruct (get h' (handles (flush_all W h'))) as [d'|] eqn:D'; [|split; eauto]. destruct (h_closed d') eqn:Cl; [split; eauto|]. split; cbn [files handles].
      + rewrite get_set_other; eauto. intros ->. congruence.
      + destruct (h_delete d'); auto. destruct (Nat.eq_dec (h_name d') name) as [->|Ne]; [apply get_del_same|rewrite get_del_other; auto].
    - destruct G as (G1 & F). split; cbn [files handles]; auto. destruct (Nat.eq_dec n name) as [->|Ne]; [apply get_del_same|rewrite get_del_other; auto].
    - unfold TempFileModel.dumpIO. destruct (snd (dumps v)); auto.
    - destruct (get b (buffers W)) as [[[old p] [|]]|]; auto.
    - destruct (get b (buffers W)) as [[[old p0] [|]]|]; auto.
    - destruct (get b (buffers W)) as [[[old p0] c]|]; auto.
  Qed.
  Theorem C76_gone : forall W v name h spill W1 es es',
    unused W name h -> dump v None name h spill W = (W1, Ok h) ->
    along new W1 es -> along (keeps h name (length (concat (fst (dumps v)))) true) W1 es ->
    along new (run W1 (es ++ [EClose V h])) es' ->
    load (run W1 (es ++ EClose V h :: es')) (THandle h) = Err FileNotFound /\
    load (run W1 (es ++ EClose V h :: es')) (TName name) = Err FileNotFound.
  Proof.
    intros W v name h spill W1 es es' (U1 & U2 & U3) E A1 A2 A3.
    destruct (C76_dumped _ _ _ _ _ _ _ _ E) as (_ & F & D & O1 & O2 & _).
    assert (K : kept h name (concat (fst (dumps v))) true W1).
    { split; [|split].
      - eexists. split; [exact D|]. cbn. repeat split; try discriminate. intros Z. now destruct Z.
      - exists []. now rewrite app_nil_r.
      - intros h' d' Ne D'. rewrite O2 in D' by auto. eauto. }
    pose proof (kept_run _ _ _ _ es W1 K A1 A2) as K2.
    assert (G : gone h name (step (run W1 es) (EClose V h))).
    { cbn. unfold close. generalize (kept_flush_all h name _ true h _ K2). intros ((d2 & D2 & N2 & De & C2 & _) & (rest & F2) & _). rewrite D2.
      destruct (h_closed d2) eqn:Cl; [discriminate (C2 eq_refl)|]. rewrite De. split; cbn [files handles].
      - rewrite get_set_same. eexists. split; [reflexivity|]. auto.
      - rewrite N2. apply get_del_same. }
    assert (G2 : gone h name (run W1 (es ++ EClose V h :: es'))).
    { unfold TempFileModel.run in *. rewrite fold_left_app in *. cbn [fold_left] in *. revert G A3. generalize (step (fold_left step es W1) (EClose V h)).
      induction es' as [|e es' IH]; intros w G A3; cbn; auto. destruct A3. apply IH; auto. now apply gone_step. }
    destruct G2 as ((d & D2 & N2 & _) & F2). unfold TempFileModel.load, target_name. rewrite D2. cbn [option_map]. rewrite N2, F2. auto.
  Qed.

  (** *** buffers *)
  Definition keepsIO (b len : nat) (W : world) (e : event) : Prop :=
    match e with
    | ECloseIO _ b' => b' <> b
    | EWriteIO _ b' bs => b' = b -> forall old p, get b (buffers W) = Some (old, p, false) -> len <= p
    | _ => True
    end.
  Lemma flush_buffers : forall k W h, buffers (flush k W h) = buffers W.
  Proof. intros. unfold flush. destruct (get h (handles W)) as [d|]; auto. destruct (get (h_name d) (files W)); auto. Qed.
  Lemma flush_all_buffers : forall W h, buffers (flush_all W h) = buffers W.
  Proof. intros. unfold flush_all. destruct (get h (handles W)); auto using flush_buffers. Qed.
  Lemma close_buffers : forall W h, buffers (close W h) = buffers W.
  Proof. intros. unfold close. destruct (get h (handles (flush_all W h))) as [d|]; [destruct (h_closed d)|]; cbn; apply flush_all_buffers. Qed.

  (** C76.  Likewise for buffers: loadIO reads from the beginning wherever the buffer's position is,
      and the bytes themselves (getvalue()) serve as well. *)
  Theorem C76_loadIO_back : forall W v b W1 es,
    self_delimiting -> dumpIO v b W = (W1, Ok b) ->
    along new W1 es -> along (keepsIO b (length (concat (fst (dumps v))))) W1 es ->
    loadIO (run W1 es) (SBuffer b) = Ok v /\
    exists bs p, get b (buffers (run W1 es)) = Some (bs, p, false) /\ loadIO W (SBytes bs) = Ok v.
  Proof.
    intros W v b W1 es SD E A1 A2. unfold TempFileModel.dumpIO in E. destruct (snd (dumps v)) eqn:Ok_; [|discriminate]. injection E as <-.
    set (data := concat (fst (dumps v))) in *.
    assert (Inv : forall w, (exists rest p, get b (buffers w) = Some (data ++ rest, p, false)) -> along new w es -> along (keepsIO b (length data)) w es ->
                  exists rest p, get b (buffers (run w es)) = Some (data ++ rest, p, false)).
    { clear A1 A2. induction es as [|e es IH]; intros w I1 A1 A2; cbn; auto. destruct A1 as (N & A1), A2 as (Ke & A2). apply IH; auto. clear IH A1 A2.
      destruct I1 as (rest & p & B). destruct e as [v' dele name' h' spill|h' bs|h'|h' k|h' p'|h'|n|v' b'|b' bs|b' p'|b']; cbn [TempFileModel.step].
      - exists rest, p. unfold TempFileModel.dump. fold (opt dele). pose proof (dump_writing w v' (opt dele) name' h' spill) as (_ & _ & _ & Wr).
        destruct (snd (dumps v')); cbn [fst]; [rewrite flush_all_buffers|rewrite close_buffers]; rewrite Wr; auto.
      - exists rest, p. destruct (is_open w h'); auto. unfold write. destruct (get h' (handles w)); auto.
      - exists rest, p. destruct (is_open w h'); auto. now rewrite flush_all_buffers.
      - exists rest, p. destruct (is_open w h'); auto. now rewrite flush_buffers.
      - exists rest, p. destruct (is_open w h'); auto. unfold seek. destruct (get h' (handles (flush_all w h'))); cbn; now rewrite flush_all_buffers.
      - exists rest, p. now rewrite close_buffers.
      - exists rest, p. auto.
      - exists rest, p. unfold TempFileModel.dumpIO. destruct (snd (dumps v')); auto. cbn. rewrite get_set_other; auto. intros ->. cbn in N. congruence.
      - destruct (Nat.eq_dec b' b) as [->|Ne].
        + rewrite B. cbn in Ke. specialize (Ke eq_refl _ _ B). destruct (write_at_prefix data (data ++ rest) p bs) as (r & ->); eauto.
          exists r, (p + length bs). cbn. now rewrite get_set_same.
        + exists rest, p. destruct (get b' (buffers w)) as [[[old p0] [|]]|]; auto. cbn. rewrite get_set_other; auto.
      - destruct (Nat.eq_dec b' b) as [->|Ne].
        + rewrite B. exists rest, p'. cbn. now rewrite get_set_same.
        + exists rest, p. destruct (get b' (buffers w)) as [[[old p0] [|]]|]; auto. cbn. rewrite get_set_other; auto.
      - exists rest, p. cbn in Ke. destruct (get b' (buffers w)) as [[[old p0] c]|]; auto. cbn. rewrite get_set_other; auto. }
    match type of A1 with along new ?w _ => assert (B0 : exists rest p, get b (buffers w) = Some (data ++ rest, p, false)) end.
    { exists [], (length data). cbn [buffers]. now rewrite get_set_same, app_nil_r. }
    destruct (Inv _ B0 A1 A2) as (rest & p & B).
    pose proof (SD v rest Ok_) as SDv. fold data in SDv.
    unfold TempFileModel.loadIO. rewrite B, SDv. split; auto. exists (data ++ rest), p. split; auto. now rewrite SDv.
  Qed.

  (** ** C77: a dump that fails *)
  (** With the default delete=True it leaves the files exactly as they were ... *)
  Theorem C77_failed_partial : forall W v name h spill W1 e,
    unused W name h -> dump v None name h spill W = (W1, Err e) ->
    forall n, get n (files W1) = get n (files W).
  Proof.
    intros W v name h spill W1 e (U1 & U2 & U3) E n. unfold TempFileModel.dump in E. pose proof (dump_writing W v true name h spill) as Wr.
    destruct (snd (dumps v)); [discriminate|]. injection E as <- <-.
    destruct (writing_flush_all _ _ _ _ _ _ Wr) as (((d2 & old & D2 & Ed & F2 & S2) & H2 & H3 & H4) & _).
    unfold close. rewrite D2, Ed. cbn [h_closed h_delete h_name files].
    destruct (Nat.eq_dec n name) as [->|Ne]; [rewrite get_del_same; auto|rewrite get_del_other; auto].
  Qed.
  (** ... and with delete=False it leaves a file with what was written before the failure. *)
  Theorem C77_failed_leftover : forall W v name h spill W1 e,
    unused W name h -> dump v (Some false) name h spill W = (W1, Err e) ->
    get name (files W1) = Some (concat (fst (dumps v))).
  Proof.
    intros W v name h spill W1 e (U1 & U2 & U3) E. unfold TempFileModel.dump in E. pose proof (dump_writing W v false name h spill) as Wr.
    destruct (snd (dumps v)); [discriminate|]. injection E as <- <-.
    destruct (writing_flush_all _ _ _ _ _ _ Wr) as (((d2 & old & D2 & Ed & F2 & S2) & H2 & H3 & H4) & (d' & D' & P')).
    unfold close. rewrite D2, Ed. cbn [h_closed h_delete h_name files]. assert (d' = d2) by congruence. subst d'. rewrite P', app_nil_r in S2. congruence.
  Qed.
End Props.

(** ** a concrete pickler: a list of numbers as its length followed by the numbers; the empty list
    cannot be pickled, but something has been written when that is found out *)
Definition ex_dumps (v : list nat) : list (list nat) * bool :=
  match v with [] => ([[99]; [98]], false) | _ => ([[length v]; v], true) end.
Definition ex_loads (bs : list nat) : option (list nat) :=
  match bs with [] => None | n :: bs => if Nat.leb n (length bs) then Some (firstn n bs) else None end.

Lemma ex_self_delimiting : self_delimiting (list nat) ex_dumps ex_loads.
Proof.
  intros v rest Hv. destruct v as [|x v]; [discriminate|]. set (l := x :: v) in *.
  assert (E : ex_dumps l = ([[length l]; l], true)) by reflexivity. rewrite E. cbn [fst concat app]. rewrite app_nil_r. unfold ex_loads.
  replace (Nat.leb (length l) (length (l ++ rest))) with true by (symmetry; apply Nat.leb_le; rewrite app_length; lia).
  rewrite firstn_app, Nat.sub_diag, firstn_all. cbn [firstn]. now rewrite app_nil_r.
Qed.

(** The full claim "a failed dump leaves no file" is false. *)
Theorem C77_failed_refuted : exists W v delete name h spill W1 e,
  unused W name h /\ dump (list nat) ex_dumps v delete name h spill W = (W1, Err e) /\
  get name (files W1) <> get name (files W) /\ load (list nat) ex_loads W1 (TName name) = Err BadPickle.
Proof.
  exists (World [] [] []), [], (Some false), 7, 1, [0; 1]. eexists _, _. split; [|split; [reflexivity|split; [discriminate|reflexivity]]].
  repeat split; auto. intros h' d D. discriminate D.
Qed.

(** a history: another dump, appending, a seek to the start, closing the other, and dumpIO *)
Theorem C76_ex :
  let W := World [] [] [] in
  let r := dump (list nat) ex_dumps [4; 5] None 7 1 [1; 0] W in
  let es := [EDump (list nat) [8] None 9 2 []; EWrite _ 1 [3; 3; 3]; ESpill _ 1 2; ESeek _ 1 0; EClose _ 2; EDumpIO _ [6] 3; EWriteIO _ 3 [0]; ESeekIO _ 3 1] in
  unused W 7 1 /\ snd r = Ok 1 /\ along _ ex_dumps (new _) (fst r) es /\
  along _ ex_dumps (keeps _ 1 7 3 true) (fst r) es /\
  let W2 := run _ ex_dumps (fst r) es in
  load _ ex_loads W2 (THandle 1) = Ok [4; 5] /\ files W2 = [(7, [2; 4; 5; 3; 3; 3])] /\
  loadIO _ ex_loads W2 (SBuffer 3) = Ok [6] /\
  load _ ex_loads (close W2 1) (THandle 1) = Err FileNotFound /\
  load _ ex_loads (run _ ex_dumps (fst r) [ESeek _ 1 0; EWrite _ 1 [9]; EFlush _ 1]) (THandle 1) = Err BadPickle /\
  loadIO _ ex_loads W2 SOther = Err NotABuffer.
Proof.
  cbv zeta. split. { repeat split; auto. intros h' d D. discriminate D. }
  split; [reflexivity|]. split.
  { cbn [along new step fst]. repeat split; auto. vm_compute. intros h' d D. destruct h' as [|[|h']]; try discriminate D. injection D as <-. cbn. discriminate. }
  split. { cbn [along keeps]. repeat split; try discriminate; auto. }
  repeat split; reflexivity.
Qed.
