(** What load_module and load_module_asdict do to the stream or file they load from: property C103. *)
From Coq Require Import String List Bool Arith NArith Lia.
From Verif Require Import IdentifyModel IdentifyProps StreamModel.
Import ListNotations.

(** ** specification *)
(** a stream that can be looked into: it has peek(), or tell() and seek() that work *)
Definition lookable (f : fileobj) : Prop :=
  a_peek f = true \/ (a_tell f = true /\ a_seek f = true /\ tell_ok f = true /\ seek_ok f = true).
(** a stream io.BufferedReader is wrapped around: neither peek() nor both of tell() and seek(), but readinto() *)
Definition bufferable (f : fileobj) : Prop :=
  a_peek f = false /\ (a_tell f = false \/ a_seek f = false) /\ a_raw f = true.
(** a stream with a position that can be set, and no peek(): io.BytesIO, a file opened with buffering=0 *)
Definition positioned (f : fileobj) : Prop :=
  a_peek f = false /\ a_tell f = true /\ a_seek f = true /\ tell_ok f = true /\ seek_ok f = true.

(** [p] is the image of a session of the module [name]: it starts as save_module writes it, with the name within the
    first 256 bytes, and load() reads exactly its bytes whatever follows *)
Definition session_of (size : list N -> nat * bool) (name p : list N) : Prop :=
  (exists proto flen tail, (proto <= 5)%nat /\ (flen < 256 ^ 8)%N /\ is_str name /\
     (N.of_nat (length (utf8 name)) < 256 ^ 4)%N /\
     p = session_start proto flen name tail /\ (length (header_bytes proto flen name) <= 256)%nat) /\
  forall rest, size (p ++ rest)%list = (length p, true).

(** the buffer of an object with peek() shows the next 256 bytes (or all that is left): it is empty, and a fill brings
    that many, or it holds that many (without this the session may not be identified: C27_buffer_boundary_refuted) *)
Definition shows (f : fileobj) : Prop :=
  a_peek f = true ->
  let n := Nat.min 256 (length (remaining f)) in (f_ahead f = 0 /\ n <= f_chunk f) \/ n <= f_ahead f.

(** ** lemmas *)
Lemma identified : forall proto flen name rest k,
  (proto <= 5)%nat -> (flen < 256 ^ 8)%N -> is_str name -> (N.of_nat (length (utf8 name)) < 256 ^ 4)%N ->
  (length (header_bytes proto flen name) <= k)%nat ->
  let chunk := firstn k (session_start proto flen name rest) in
  identify_loop (S (length chunk)) false chunk = IName name.
Proof.
  intros proto flen name rest k Hp Hf Hn Hl Hk chunk.
  assert (Hc : (length (header_bytes proto flen name) <= length chunk)%nat).
  { unfold chunk, session_start. rewrite firstn_length, app_length. lia. }
  assert (Hne : chunk <> []).
  { intros E. rewrite E in Hc. cbn [length] in Hc.
    destruct proto as [|[|[|[|[|[|p]]]]]]; cbn [header_bytes header flat_map bytes_of app length] in Hc;
      try (rewrite ?app_length in Hc; cbn [length] in Hc; lia). }
  pose proof (C27_identify proto flen name rest (Buffered chunk (skipn k (session_start proto flen name rest)) 0) false
                Hp Hf Hn Hl) as H.
  unfold _identify_module, visible in H. destruct chunk as [|b c] eqn:Ec; [congruence|].
  cbn [peek256 fst snd] in H. rewrite (proj2 (Nat.leb_le _ _)) in H by exact Hc.
  apply H.
  - cbn [IdentifyModel.remaining]. rewrite <- Ec. unfold chunk. apply firstn_skipn.
  - discriminate.
Qed.

Lemma nth_session : forall size name p rest k, session_of size name p -> 256 <= k ->
  identify_loop (S (length (firstn k (p ++ rest)))) false (firstn k (p ++ rest)) = IName name.
Proof.
  intros size name p rest k [(proto & flen & tail & H1 & H2 & H3 & H4 & -> & H6) _] Hk.
  unfold session_start. rewrite <- app_assoc. apply (identified proto flen name (tail ++ rest) k); auto. lia.
Qed.

Lemma firstn_over : forall (l : list N) a b, length l <= a -> a <= b -> firstn a l = firstn b l.
Proof. intros. rewrite !firstn_all2; auto. lia. Qed.

Lemma skipn_add : forall (l : list N) a b, skipn (a + b) l = skipn b (skipn a l).
Proof. intros l a; revert l; induction a as [|a IH]; intros [|x l] b; cbn; auto. now rewrite skipn_nil. Qed.

Lemma at_same : forall f, at_pos f (f_pos f) = f.
Proof. destruct f; reflexivity. Qed.

(** reading through the object itself *)
Lemma f_read_spec : forall left n f, fst (f_read left n f) = firstn n (remaining f) /\
  remaining (snd (f_read left n f)) = skipn n (remaining f) /\ f_closed (snd (f_read left n f)) = f_closed f.
Proof.
  intros left n f. unfold f_read, remaining. cbn [fst snd].
  split; [reflexivity|].
  assert (X : forall p (l : list N), skipn (p + length (firstn n (skipn p l))) l = skipn n (skipn p l)).
  { intros p l. rewrite skipn_add, firstn_length. destruct (Nat.le_gt_cases n (length (skipn p l))).
    - now rewrite Nat.min_l.
    - rewrite Nat.min_r by lia. rewrite skipn_all. symmetry. apply skipn_all2. lia. }
  destruct (a_peek f); cbn; auto.
Qed.

Lemma read_attrs : forall left n f, let f' := snd (f_read left n f) in
  a_peek f' = a_peek f /\ a_tell f' = a_tell f /\ a_seek f' = a_seek f /\ a_raw f' = a_raw f /\ tell_ok f' = tell_ok f /\
  seek_ok f' = seek_ok f /\ f_data f' = f_data f.
Proof. intros. subst f'. unfold f_read. cbn [snd]. destruct (a_peek f) eqn:E; cbn; rewrite ?E; auto 10. Qed.


Section Streams.
Variable size : list N -> nat * bool.
Variable fits : option (list N) -> bool.
Variable left : nat -> nat.

Lemma peek_lookable : forall f, lookable f -> exists k,
  peek left 256 (_make_peekable f) f =
    (Some (firstn k (remaining f)), if a_peek f then Itself else PeekableReader, if a_peek f then with_ahead f k else f) /\
  (shows f -> Nat.min 256 (length (remaining f)) <= k /\ shows (if a_peek f then with_ahead f k else f)).
Proof.
  intros f L.
  destruct (a_peek f) eqn:Ep.
  - unfold _make_peekable. rewrite Ep. cbn [peek].
    eexists. split; [reflexivity|]. intros Sh. cbv zeta in Sh. specialize (Sh Ep).
    set (k := if f_ahead f =? 0 then _ else _).
    assert (K : Nat.min 256 (length (remaining f)) <= k).
    { unfold k. unfold remaining in *. rewrite skipn_length in *.
      destruct (Nat.eqb_spec (f_ahead f) 0); lia. }
    split; [exact K|]. intros _. cbv zeta. right. exact K.
  - destruct L as [L|(Et & Es & Ot & Os)]; [congruence|].
    exists 256. split; [|intros _; split; [lia|intros E; congruence]].
    unfold _make_peekable. rewrite Ep, Et, Es. cbn [negb andb peek]. unfold f_tell, f_seek. rewrite Et, Ot, Es, Os.
    cbn [andb]. rewrite at_same. unfold f_read. rewrite Ep. cbn. rewrite Es, Os. cbn. destruct f; reflexivity.
Qed.

Lemma make_lookable : forall f, lookable f -> forall h, h = _make_peekable f ->
  h = if a_peek f then Itself else PeekableReader.
Proof.
  intros f L h ->. unfold _make_peekable. destruct (a_peek f) eqn:E; [reflexivity|].
  destruct L as [L|(-> & -> & _)]; [congruence|reflexivity].
Qed.

Lemma remaining_ahead : forall f k, remaining (with_ahead f k) = remaining f.
Proof. reflexivity. Qed.

(** the body of the call, once the stream has been looked into *)
Lemma body_lookable : forall mg f, lookable f -> exists k f1,
  (shows f -> Nat.min 256 (length (remaining f)) <= k /\ shows f1) /\
  f1 = (if a_peek f then with_ahead f k else f) /\
  body size fits left mg (_make_peekable f) f =
    (let chunk := firstn k (remaining f) in
     match identify_loop (S (length chunk)) false chunk with
     | IName s =>
         if negb (fits (Some s)) then (Refused, _make_peekable f, f1)
         else (if snd (size (remaining f)) then Loaded (firstn (fst (size (remaining f))) (remaining f)) else LoadError,
               _make_peekable f, snd (f_read left (fst (size (remaining f))) f1))
     | INone =>
         if negb (fits None) then (Refused, _make_peekable f, f1)
         else (if snd (size (remaining f)) then Loaded (firstn (fst (size (remaining f))) (remaining f)) else LoadError,
               _make_peekable f, snd (f_read left (fst (size (remaining f))) f1))
     | _ => (NotIdentified, _make_peekable f, f1)
     end).
Proof.
  intros mg f L. destruct (peek_lookable f L) as (k & Ek & Sh).
  exists k, (if a_peek f then with_ahead f k else f). split; [exact Sh|]. split; [reflexivity|].
  unfold body. rewrite Ek. rewrite <- (make_lookable f L _ eq_refl).
  assert (U : unread (_make_peekable f) (if a_peek f then with_ahead f k else f) = remaining f).
  { rewrite (make_lookable f L _ eq_refl). destruct (a_peek f); reflexivity. }
  rewrite U.
  assert (R : forall n, read left n (_make_peekable f) (if a_peek f then with_ahead f k else f) =
            (firstn n (remaining f), _make_peekable f, snd (f_read left n (if a_peek f then with_ahead f k else f)))).
  { intros n. assert (F : firstn n (remaining f) = fst (f_read left n (if a_peek f then with_ahead f k else f))).
    { rewrite (proj1 (f_read_spec left n _)). destruct (a_peek f); reflexivity. }
    rewrite F. rewrite (make_lookable f L _ eq_refl). unfold read.
    destruct (a_peek f); destruct (f_read left n _); reflexivity. }
  set (X := identify_loop _ _ _). destruct X; auto.
  - destruct (fits _); cbn [negb]; [|reflexivity]. destruct (size (remaining f)) as [n ok]. cbn [fst snd]. now rewrite R.
  - destruct (fits _); cbn [negb]; [|reflexivity]. destruct (size (remaining f)) as [n ok]. cbn [fst snd]. now rewrite R.
Qed.

Lemma same_name : forall name p rest k, session_of size name p -> Nat.min 256 (length (p ++ rest)) <= k ->
  identify_loop (S (length (firstn k (p ++ rest)))) false (firstn k (p ++ rest)) = IName name.
Proof.
  intros name p rest k Hs Hk.
  destruct (Nat.le_gt_cases 256 k) as [H|H].
  - now apply (nth_session size name p rest).
  - rewrite (firstn_all2 (n := k)) by lia.
    rewrite <- (@firstn_all2 _ 256 (p ++ rest)) by lia. now apply (nth_session size name p rest).
Qed.

Lemma body_session : forall mg f name p rest,
  lookable f -> shows f -> session_of size name p -> fits (Some name) = true -> remaining f = (p ++ rest)%list ->
  exists f', body size fits left mg (_make_peekable f) f = (Loaded p, _make_peekable f, f') /\
    remaining f' = rest /\ f_closed f' = f_closed f.
Proof.
  intros mg f name p rest L Sh Hs Hf Hr.
  destruct (body_lookable mg f L) as (k & f1 & Ek & E1 & ->). cbn zeta.
  destruct (Ek Sh) as [Hk _]. rewrite Hr in Hk |- *.
  rewrite (same_name name p rest k Hs Hk), Hf. cbn [negb].
  rewrite (proj2 Hs rest). cbn [fst snd].
  rewrite firstn_app, Nat.sub_diag, firstn_O, app_nil_r, firstn_all.
  eexists. split; [reflexivity|].
  destruct (f_read_spec left (length p) f1) as (_ & Hrem & Hcl). rewrite Hrem, Hcl.
  assert (R1 : remaining f1 = remaining f) by (rewrite E1; destruct (a_peek f); reflexivity).
  assert (C1 : f_closed f1 = f_closed f) by (rewrite E1; destruct (a_peek f); reflexivity).
  rewrite R1, C1, Hr. split; [|reflexivity].
  rewrite skipn_app, Nat.sub_diag, skipn_all. reflexivity.
Qed.

Lemma collect_lookable : forall f f', lookable f -> collect (_make_peekable f) f' = f'.
Proof. intros f f' L. rewrite (make_lookable f L _ eq_refl). destruct (a_peek f); reflexivity. Qed.
End Streams.

(** ** C103 *)
(** Exactly one session is read.  The stream can be looked into and holds the image [p] of a session of the module
    [name] followed by anything: load_module reads exactly [p], what follows [p] is still to be read, and the stream
    is left open; so does load_module_asdict. *)
Theorem C103_one_session : forall size fits left mg f name p rest,
  lookable f -> shows f -> session_of size name p -> fits (Some name) = true ->
  remaining f = (p ++ rest)%list ->
  (let '(r, f') := load_module_stream size fits left mg f in
   r = Loaded p /\ remaining f' = rest /\ f_closed f' = f_closed f) /\
  (let '(r, f') := asdict_stream size fits left true f in
   r = Loaded p /\ remaining f' = rest /\ f_closed f' = f_closed f).
Proof.
  intros size fits left mg f name p rest L Sh Hs Hf Hr. split.
  - unfold load_module_stream. destruct (body_session size fits left mg f name p rest L Sh Hs Hf Hr) as (f' & -> & H1 & H2).
    rewrite collect_lookable by exact L. auto.
  - unfold asdict_stream, asdict_body.
    destruct (peek_lookable left f L) as (k & -> & Sh1). destruct (Sh1 Sh) as [Hk Sh2].
    rewrite Hr in Hk |- *. rewrite (same_name size name p rest k Hs Hk).
    set (f1 := if a_peek f then with_ahead f k else f) in *.
    assert (M : (if a_peek f then Itself else PeekableReader) = _make_peekable f1).
    { rewrite <- (make_lookable f L _ eq_refl). unfold f1. destruct (a_peek f); reflexivity. }
    assert (L1 : lookable f1) by (unfold f1; destruct (a_peek f); exact L).
    assert (R1 : remaining f1 = (p ++ rest)%list) by (rewrite <- Hr; unfold f1; destruct (a_peek f); reflexivity).
    rewrite M. destruct (body_session size fits left false f1 name p rest L1 Sh2 Hs Hf R1) as (f' & -> & H1 & H2).
    rewrite collect_lookable by exact L1. split; [reflexivity|]. split; [exact H1|]. rewrite H2.
    unfold f1. destruct (a_peek f); reflexivity.
Qed.

(** [n] calls of load_module on the same stream, one after the other: their outcomes, and the stream afterwards *)
Fixpoint load_each (size : list N -> nat * bool) (fits : option (list N) -> bool) (left : nat -> nat) (n : nat)
    (f : fileobj) : list outcome * fileobj :=
  match n with
  | O => ([], f)
  | S n => let '(r, f) := load_module_stream size fits left false f in
           let '(rs, f) := load_each size fits left n f in (r :: rs, f)
  end.

Lemma body_keeps : forall size fits left mg f, positioned f ->
  let '(r, h, f') := body size fits left mg (_make_peekable f) f in positioned f'.
Proof.
  intros size fits left mg f P. destruct P as (P0 & P1 & P2 & P3 & P4) eqn:EP.
  assert (L : lookable f) by (right; auto).
  destruct (body_lookable size fits left mg f L) as (k & f1 & _ & E1 & ->). cbn zeta.
  rewrite P0 in E1. subst f1. pose proof (read_attrs left (fst (size (remaining f))) f) as A. cbv zeta in A.
  destruct A as (A1 & A2 & A3 & A4 & A5 & A6 & _).
  assert (Q : positioned (snd (f_read left (fst (size (remaining f))) f))) by (unfold positioned; rewrite A1, A2, A3, A5, A6; auto).
  assert (Q0 : positioned f) by (repeat split; assumption).
  set (X := identify_loop _ _ _). destruct X; auto; destruct (fits _); cbn [negb]; auto.
Qed.

(** A stream with a position holding any number of sessions one after the other, then anything: that many calls of
    load_module load each of them in turn, and leave the stream open right after the last. *)
Theorem C103_many_sessions : forall size fits left sessions rest f,
  positioned f ->
  (forall name p, In (name, p) sessions -> session_of size name p /\ fits (Some name) = true) ->
  remaining f = (concat (map snd sessions) ++ rest)%list ->
  let '(rs, f') := load_each size fits left (length sessions) f in
  rs = map (fun s => Loaded (snd s)) sessions /\ remaining f' = rest /\ f_closed f' = f_closed f.
Proof.
  intros size fits left sessions. induction sessions as [|[name p] ss IH]; intros rest f P Hs Hr.
  - cbn. auto.
  - cbn [length load_each].
    assert (L : lookable f) by (destruct P as (_ & ?); right; auto).
    assert (Sh : shows f) by (intros E; destruct P as (E0 & _); congruence).
    destruct (Hs name p (or_introl eq_refl)) as [S1 F1].
    cbn [map concat snd] in Hr. rewrite <- app_assoc in Hr.
    pose proof (C103_one_session size fits left false f name p _ L Sh S1 F1 Hr) as [H1 _].
    pose proof (body_keeps size fits left false f P) as K.
    unfold load_module_stream in *. destruct (body size fits left false (_make_peekable f) f) as [[r h] f'] eqn:Eb.
    assert (C : h = _make_peekable f).
    { destruct (body_session size fits left false f name p _ L Sh S1 F1 Hr) as (g & Eg & _). congruence. }
    subst h. rewrite collect_lookable in * by exact L.
    destruct H1 as (-> & R & Cl).
    specialize (IH rest f' K (fun n q I' => Hs n q (or_intror I')) R).
    destruct (load_each size fits left (length ss) f') as [rs f''].
    destruct IH as (-> & R2 & C2). cbn [map snd]. rewrite C2. auto.
Qed.

(** A call that is refused, because the session is not identified or does not fit the module, reads nothing from a
    stream that can be looked into; a stream with a position is left exactly as it was. *)
Theorem C103_refused_untouched : forall size fits left mg prepared f r f',
  lookable f ->
  load_module_stream size fits left mg f = (r, f') \/ asdict_stream size fits left prepared f = (r, f') ->
  r = NotIdentified \/ r = Refused ->
  remaining f' = remaining f /\ f_closed f' = f_closed f /\ f_pos f' = f_pos f /\ (a_peek f = false -> f' = f).
Proof.
  assert (B : forall size fits left mg f r h f', lookable f -> body size fits left mg (_make_peekable f) f = (r, h, f') ->
     r = NotIdentified \/ r = Refused ->
     h = _make_peekable f /\ exists k, f' = if a_peek f then with_ahead f k else f).
  { intros size fits left mg f r h f' L E Hr.
    destruct (body_lookable size fits left mg f L) as (k & f1 & _ & E1 & Eb). rewrite Eb in E. cbn zeta in E. clear Eb.
    set (X := identify_loop _ _ _) in E. subst f1.
    assert (Y : forall o n ok l, (if (ok : bool) then Loaded (firstn n l) else LoadError) = o -> o <> NotIdentified /\ o <> Refused)
      by (intros o n ok l <-; destruct ok; split; discriminate).
    destruct X.
    - destruct (fits (Some s)); cbn [negb] in E; injection E as E2 E3 E4;
        [apply Y in E2; destruct Hr; tauto|subst; eauto].
    - destruct (fits None); cbn [negb] in E; injection E as E2 E3 E4;
        [apply Y in E2; destruct Hr; tauto|subst; eauto].
    - injection E as E2 E3 E4; subst; eauto.
    - injection E as E2 E3 E4; subst; eauto. }
  assert (Fin : forall f k g, g = (if a_peek f then with_ahead f k else f) ->
     remaining g = remaining f /\ f_closed g = f_closed f /\ f_pos g = f_pos f /\ (a_peek f = false -> g = f)).
  { intros f k g ->. destruct (a_peek f); repeat split; intros; congruence. }
  intros size fits left mg prepared f r f' L [E|E] Hr.
  - unfold load_module_stream in E. destruct (body size fits left mg (_make_peekable f) f) as [[r0 h] f0] eqn:Eb.
    injection E as E1 E2. subst r0. destruct (B _ _ _ _ _ _ _ _ L Eb Hr) as (-> & k & Ef).
    rewrite collect_lookable in E2 by exact L. subst f'. eapply Fin; eauto.
  - unfold asdict_stream, asdict_body in E. destruct (peek_lookable left f L) as (k & Ek & _). rewrite Ek in E.
    set (f1 := if a_peek f then with_ahead f k else f) in *.
    assert (M : (if a_peek f then Itself else PeekableReader) = _make_peekable f1).
    { rewrite <- (make_lookable f L _ eq_refl). unfold f1. destruct (a_peek f); reflexivity. }
    assert (L1 : lookable f1) by (unfold f1; destruct (a_peek f); exact L).
    rewrite M in E.
    assert (D : (r, f') = (Refused, collect (_make_peekable f1) f1) \/ (r, f') = (NotIdentified, collect (_make_peekable f1) f1) \/
                (let '(r0, h, g) := body size fits left false (_make_peekable f1) f1 in (r0, collect h g)) = (r, f')).
    { set (X := identify_loop _ _ _) in E. destruct X; try (right; left; congruence).
      destruct prepared; [right; right; exact E|left; congruence]. }
    destruct D as [D|[D|D]].
    1,2: injection D as D1 D2; rewrite collect_lookable in D2 by exact L1; subst f'; eapply Fin; reflexivity.
    destruct (body size fits left false (_make_peekable f1) f1) as [[r0 h] f0] eqn:Eb.
    injection D as D1 D2. subst r0. destruct (B _ _ _ _ _ _ _ _ L1 Eb Hr) as (-> & k' & Ef).
    rewrite collect_lookable in D2 by exact L1. subst f'. subst f0. unfold f1.
    destruct (a_peek f) eqn:Ep; cbn [a_peek with_ahead]; rewrite ?Ep; repeat split; intros; congruence.
Qed.

(** A stream that can be neither looked into nor buffered: without a module the call is refused and the stream left
    exactly as it was; with one (that fits) exactly one session is read. *)
Theorem C103_unpeekable : forall size fits left f,
  ~ lookable f -> ~ bufferable f ->
  load_module_stream size fits left false f = (NotIdentified, f) /\
  (forall prepared, asdict_stream size fits left prepared f = (NotIdentified, f)) /\
  (forall p rest, remaining f = (p ++ rest)%list -> size (p ++ rest)%list = (length p, true) -> fits None = true ->
   let '(r, f') := load_module_stream size fits left true f in
   r = Loaded p /\ remaining f' = rest /\ f_closed f' = f_closed f).
Proof.
  intros size fits left f NL NB.
  assert (Ep : a_peek f = false) by (destruct (a_peek f) eqn:E; [destruct NL; now left|reflexivity]).
  assert (Eh : _make_peekable f = PeekableReader).
  { unfold _make_peekable. rewrite Ep. destruct (a_tell f && a_seek f) eqn:E; [reflexivity|]. cbn [negb].
    destruct (a_raw f) eqn:Er; [|reflexivity]. destruct NB. apply andb_false_iff in E. repeat split; auto. }
  assert (Pk : peek left 256 PeekableReader f = (None, PeekableReader, f)).
  { cbn [peek]. unfold f_tell. destruct (a_tell f && tell_ok f) eqn:E1; [|reflexivity].
    unfold f_seek. destruct (a_seek f && seek_ok f) eqn:E2; [|reflexivity].
    destruct NL. apply andb_true_iff in E1, E2. right. tauto. }
  split; [|split].
  - unfold load_module_stream, body. rewrite Eh, Pk. reflexivity.
  - intros prepared. unfold asdict_stream, asdict_body. rewrite Eh, Pk. reflexivity.
  - intros p rest Hr Hs Hf. unfold load_module_stream, body. rewrite Eh, Pk. cbn zeta. rewrite Hf. cbn [negb unread].
    rewrite Hr, Hs. cbn [read]. destruct (f_read left (length p) f) as [c g] eqn:Eg. cbn [collect].
    pose proof (f_read_spec left (length p) f) as (A & B & C). rewrite Eg in A, B, C. cbn [fst snd] in A, B, C.
    rewrite A, B, C, Hr. rewrite firstn_app, Nat.sub_diag, firstn_O, app_nil_r, firstn_all, skipn_app, Nat.sub_diag, skipn_all.
    auto.
Qed.

(** ** streams io.BufferedReader is wrapped around *)
Lemma fill_to_spec : forall fuel n buf f, length (remaining f) < fuel -> f_chunk f <> 0 ->
  let '(buf', f') := fill_to fuel n buf f in
  (buf' ++ remaining f' = buf ++ remaining f)%list /\ (n <= length buf' \/ remaining f' = []) /\ f_closed f' = f_closed f.
Proof.
  induction fuel as [|fuel IH]; intros n buf f Hf Hc; [lia|]. cbn [fill_to].
  destruct (Nat.leb_spec n (length buf)) as [H1|H1]; [auto|].
  destruct (Nat.leb_spec (length (f_data f)) (f_pos f)) as [H2|H2].
  - assert (R : remaining f = []) by (unfold remaining; apply skipn_all2; exact H2). auto.
  - destruct (fill buf f) as [buf1 f1] eqn:Ef. unfold fill in Ef. injection Ef as E1 E2.
    assert (R1 : remaining f1 = skipn (f_chunk f) (remaining f)).
    { rewrite <- E2. unfold remaining. cbn [f_pos f_data at_pos]. rewrite skipn_add, firstn_length.
      destruct (Nat.le_gt_cases (f_chunk f) (length (skipn (f_pos f) (f_data f)))).
      - now rewrite Nat.min_l.
      - rewrite Nat.min_r by lia. rewrite skipn_all. symmetry. apply skipn_all2. lia. }
    assert (L1 : length (remaining f1) < fuel).
    { rewrite R1, skipn_length. assert (length (remaining f) <> 0) by (unfold remaining; rewrite skipn_length; lia). lia. }
    assert (C1 : f_chunk f1 <> 0) by (rewrite <- E2; exact Hc).
    specialize (IH n buf1 f1 L1 C1). destruct (fill_to fuel n buf1 f1) as [buf' f'].
    destruct IH as (A & B & C). rewrite A, R1, <- E1. split; [|split; [exact B|]].
    + rewrite <- app_assoc. f_equal. apply firstn_skipn.
    + rewrite C, <- E2. reflexivity.
Qed.

Lemma peek_bufferable : forall left f, bufferable f ->
  _make_peekable f = NewBuffered [] /\
  peek left 256 (NewBuffered []) f =
    (Some (firstn (f_chunk f) (remaining f)), NewBuffered (firstn (f_chunk f) (remaining f)), snd (fill [] f)) /\
  (firstn (f_chunk f) (remaining f) ++ remaining (snd (fill [] f)))%list = remaining f.
Proof.
  intros left f (Ep & Ets & Er). split; [|split].
  - unfold _make_peekable. rewrite Ep, Er. destruct Ets as [-> | ->]; [reflexivity|]. rewrite andb_false_r. reflexivity.
  - reflexivity.
  - unfold fill, remaining. cbn [snd f_pos f_data at_pos]. rewrite skipn_add, firstn_length.
    set (l := skipn (f_pos f) (f_data f)).
    destruct (Nat.le_gt_cases (f_chunk f) (length l)).
    + rewrite Nat.min_l by lia. apply firstn_skipn.
    + rewrite Nat.min_r by lia. rewrite skipn_all, app_nil_r. apply firstn_all2. lia.
Qed.

(** Such a stream (a raw stream, a socket file without seek) is loaded from all right, but it is read ahead of the
    session and, when the wrapper goes away, closed. *)
Theorem C103_raw_loads : forall size fits left mg f name p rest,
  bufferable f -> 256 <= f_chunk f -> session_of size name p -> fits (Some name) = true ->
  remaining f = (p ++ rest)%list ->
  let '(r, f') := load_module_stream size fits left mg f in
  r = Loaded p /\ f_closed f' = true /\ exists taken, rest = (taken ++ remaining f')%list.
Proof.
  intros size fits left mg f name p rest B Hc Hs Hf Hr.
  destruct (peek_bufferable left f B) as (Eh & Pk & Sp).
  unfold load_module_stream, body. rewrite Eh, Pk. cbn zeta.
  assert (Id : identify_loop (S (length (firstn (f_chunk f) (remaining f)))) false (firstn (f_chunk f) (remaining f)) = IName name).
  { rewrite Hr. apply (same_name size name p rest); [exact Hs|lia]. }
  rewrite Id, Hf. cbn [negb unread]. rewrite Sp, Hr, (proj2 Hs rest). cbn [read].
  set (buf := firstn (f_chunk f) (p ++ rest)). set (g := snd (fill [] f)).
  assert (Sp' : (buf ++ remaining g)%list = (p ++ rest)%list) by (unfold buf, g; rewrite <- Hr; exact Sp).
  clearbody buf.
  assert (Lg : length (remaining g) < S (length (f_data g))) by (unfold remaining; rewrite skipn_length; lia).
  assert (Cg : f_chunk g <> 0) by (unfold g; cbn; lia).
  pose proof (fill_to_spec (S (length (f_data g))) (length p) buf g Lg Cg) as F. clearbody g.
  destruct (fill_to (S (length (f_data g))) (length p) buf g) as [buf' f'].
  destruct F as (A & Hn & Cl). rewrite Sp' in A. cbn [collect].
  assert (Lp : length p <= length buf').
  { destruct Hn as [H|H]; [exact H|]. rewrite H, app_nil_r in A. rewrite A, app_length. lia. }
  assert (P1 : firstn (length p) buf' = p).
  { transitivity (firstn (length p) (buf' ++ remaining f')).
    - rewrite firstn_app. replace (length p - length buf') with 0 by lia. rewrite firstn_O, app_nil_r. reflexivity.
    - rewrite A. rewrite firstn_app, Nat.sub_diag, firstn_O, app_nil_r, firstn_all. reflexivity. }
  split; [now rewrite P1|]. split; [reflexivity|].
  exists (skipn (length p) buf').
  assert (Q : buf' = (p ++ skipn (length p) buf')%list) by (rewrite <- P1 at 1; symmetry; apply firstn_skipn).
  rewrite Q in A at 1. rewrite <- app_assoc in A. apply app_inv_head in A. symmetry. exact A.
Qed.

Lemma peek_handle : forall left n h f, (let '(c, h', f') := peek left n h f in
    f_closed f' = f_closed f /\ (match h with NewBuffered _ => True | _ => False end <-> match h' with NewBuffered _ => True | _ => False end)).
Proof.
  intros left n h f. destruct h as [| |[|b buf]]; cbn [peek].
  - tauto.
  - destruct (f_tell f) as [pos|]; [|tauto]. unfold f_seek. destruct (a_seek f && seek_ok f); [|tauto].
    destruct (f_read left n (at_pos f pos)) as [c g] eqn:Eg.
    pose proof (f_read_spec left n (at_pos f pos)) as (_ & _ & C). rewrite Eg in C. cbn [snd] in C.
    destruct (a_seek g && seek_ok g); cbn; rewrite ?C; cbn; tauto.
  - unfold fill. cbn. tauto.
  - tauto.
Qed.

Lemma fill_to_closed : forall fuel n buf f, f_closed (snd (fill_to fuel n buf f)) = f_closed f.
Proof.
  induction fuel as [|fuel IH]; intros n buf f; [reflexivity|]. cbn [fill_to].
  destruct (n <=? length buf); [reflexivity|]. destruct (length (f_data f) <=? f_pos f); [reflexivity|].
  destruct (fill buf f) as [b g] eqn:E. rewrite IH. unfold fill in E. injection E as _ <-. reflexivity.
Qed.

Lemma read_handle : forall left n h f, (let '(c, h', f') := read left n h f in
    f_closed f' = f_closed f /\ (match h with NewBuffered _ => True | _ => False end <-> match h' with NewBuffered _ => True | _ => False end)).
Proof.
  intros left n h f. destruct h; cbn [read].
  1,2: pose proof (f_read_spec left n f) as (_ & _ & C); destruct (f_read left n f); cbn [snd] in C; rewrite C; tauto.
  pose proof (fill_to_closed (S (length (f_data f))) n buf f) as C.
  destruct (fill_to (S (length (f_data f))) n buf f); cbn [snd] in C. rewrite C. tauto.
Qed.

Lemma body_handle : forall size fits left mg h f, (let '(c, h', f') := body size fits left mg h f in
    f_closed f' = f_closed f /\ (match h with NewBuffered _ => True | _ => False end <-> match h' with NewBuffered _ => True | _ => False end)).
Proof.
  intros size fits left mg h f. unfold body.
  pose proof (peek_handle left 256 h f) as P. destruct (peek left 256 h f) as [[c h1] f1].
  cbn zeta. destruct P as [P1 P2]. rewrite <- P1.
  assert (M : forall o, let '(c, h', f') := (if negb (fits o) then (Refused, h1, f1)
    else let (n, ok) := size (unread h1 f1) in let '(p, h2, f2) := read left n h1 f1 in (if ok then Loaded p else LoadError, h2, f2)) in
    f_closed f' = f_closed f1 /\ (match h with NewBuffered _ => True | _ => False end <-> match h' with NewBuffered _ => True | _ => False end)).
  { intros o. destruct (fits o); cbn [negb]; [|tauto]. destruct (size (unread h1 f1)) as [n ok].
    pose proof (read_handle left n h1 f1) as R. destruct (read left n h1 f1) as [[q h2] f2]. tauto. }
  destruct (match c with Some chunk => _ | None => _ end); try apply M; tauto.
Qed.

(** Who closes what, in every outcome of either function.  A file opened for a path is closed.  A stream that was
    passed open is closed afterwards exactly when io.BufferedReader had to be wrapped around it. *)
Theorem C103_closed : forall size fits left mg prepared f,
  (forall r f', load_module_path size fits left mg (Some f) = (r, f') \/ asdict_path size fits left prepared (Some f) = (r, f') ->
     exists g, f' = Some g /\ f_closed g = true) /\
  (f_closed f = false ->
   forall r f', load_module_stream size fits left mg f = (r, f') \/ asdict_stream size fits left prepared f = (r, f') ->
     (f_closed f' = true <-> bufferable f)).
Proof.
  intros size fits left mg prepared f. split.
  - intros r f' [E|E]; unfold load_module_path, asdict_path in E.
    + destruct (body _ _ _ _ _ _) as [[? ?] ?]. injection E as _ <-. eauto.
    + destruct (asdict_body _ _ _ _ _ _) as [[? ?] ?]. injection E as _ <-. eauto.
  - intros Ho r f'.
    assert (M : match _make_peekable f with NewBuffered _ => True | _ => False end <-> bufferable f).
    { unfold _make_peekable, bufferable. destruct (a_peek f), (a_tell f), (a_seek f), (a_raw f); cbn [negb andb]; intuition congruence. }
    assert (C : forall h' g, f_closed g = f_closed f ->
       (match _make_peekable f with NewBuffered _ => True | _ => False end <-> match h' with NewBuffered _ => True | _ => False end) ->
       f_closed (collect h' g) = true <-> bufferable f).
    { intros h' g Eg Eh. rewrite <- M, Eh. destruct h'; cbn [collect]; rewrite ?Eg, ?Ho; cbn; intuition congruence. }
    intros [E|E].
    + unfold load_module_stream in E. pose proof (body_handle size fits left mg (_make_peekable f) f) as B.
      destruct (body _ _ _ _ _ _) as [[r0 h'] g]. injection E as _ <-. apply C; tauto.
    + unfold asdict_stream, asdict_body in E.
      pose proof (peek_handle left 256 (_make_peekable f) f) as P.
      destruct (peek left 256 (_make_peekable f) f) as [[c h1] f1]. destruct P as [P1 P2].
      pose proof (body_handle size fits left false h1 f1) as B.
      assert (D : exists r0 h' g, (r, f') = (r0, collect h' g) /\ f_closed g = f_closed f1 /\
         (match h1 with NewBuffered _ => True | _ => False end <-> match h' with NewBuffered _ => True | _ => False end)).
      { destruct (match c with Some chunk => _ | None => _ end); try (destruct prepared);
          try (destruct (body size fits left false h1 f1) as [[r0 h'] g]; exists r0, h', g; split; [congruence|tauto]);
          eexists _, h1, f1; (split; [symmetry; exact E|tauto]). }
      destruct D as (r0 & h' & g & D & Dg & Dh). injection D as _ ->. apply C; [congruence|tauto].
Qed.

(** ** concrete cases *)
(** a toy reader: everything up to and including the first STOP *)
Fixpoint to_stop (l : list N) : nat * bool :=
  match l with
  | [] => (0, false)
  | b :: l => if N.eqb b 46 then (1, true) else let (n, ok) := to_stop l in (S n, ok)
  end.
(** the sessions of the modules "pkg" and "mod", protocol 4; "dill._dill" contains a STOP byte, so protocol 0..3 style
    names are avoided by a reader that skips the header *)
Definition hdr (name : string) : list N := header_bytes 4 50 (text_of name).
Definition toy_size (l : list N) : nat * bool :=
  let (n, ok) := to_stop (skipn (length (hdr "pkg")) l) in (length (hdr "pkg") + n, ok).
Definition image (name : string) : list N := (hdr name ++ text_of "state.")%list.

Lemma image_ok : forall name, In name ["pkg"; "mod"]%string -> session_of toy_size (text_of name) (image name).
Proof.
  intros name Hin. split.
  - exists 4, 50%N, (text_of "state."). split; [lia|]. split; [reflexivity|].
    split; [|split; [|split; [reflexivity|]]].
    + destruct Hin as [<-|[<-|[]]]; repeat constructor.
    + destruct Hin as [<-|[<-|[]]]; reflexivity.
    + destruct Hin as [<-|[<-|[]]]; apply Nat.leb_le; reflexivity.
  - intros rest. destruct Hin as [<-|[<-|[]]]; reflexivity.
Qed.

(** io.BytesIO, a pipe opened unbuffered, and a raw stream without tell and seek *)
Definition bytesio (d : list N) : fileobj := File false true true true true true d 0 0 4096 false.
Definition pipe (d : list N) : fileobj := File false true true true false false d 0 0 4096 false.
Definition rawstream (d : list N) : fileobj := File false false false true false false d 0 0 4096 false.

Theorem C103_case :
  let d := (image "pkg" ++ image "mod" ++ [1; 2]%N)%list in
  positioned (bytesio d) /\
  fst (load_each toy_size (fun _ => true) (fun _ => 0) 2 (bytesio d)) = [Loaded (image "pkg"); Loaded (image "mod")] /\
  remaining (snd (load_each toy_size (fun _ => true) (fun _ => 0) 2 (bytesio d))) = [1; 2]%N /\
  ~ lookable (pipe d) /\ ~ bufferable (pipe d) /\
  fst (load_module_stream toy_size (fun _ => true) (fun _ => 0) true (pipe d)) = Loaded (image "pkg") /\
  bufferable (rawstream d).
Proof.
  intros d. split; [repeat split|]. split; [vm_compute; reflexivity|]. split; [vm_compute; reflexivity|].
  split; [intros [H|(_ & _ & H & _)]; discriminate|]. split; [intros (_ & [H|H] & _); discriminate|].
  split; [vm_compute; reflexivity|]. repeat split. now left.
Qed.

(** REFUTED: "the stream is left open, right after the session".  A raw stream holding two sessions: the first call
    loads the first, and then the stream is closed and the second session has been swallowed. *)
Theorem C103_raw_refuted : exists f p q,
  f_closed f = false /\ remaining f = (p ++ q)%list /\
  session_of toy_size (text_of "pkg") p /\ session_of toy_size (text_of "mod") q /\
  let '(r, f') := load_module_stream toy_size (fun _ => true) (fun _ => 0) false f in
  r = Loaded p /\ f_closed f' = true /\ remaining f' = [].
Proof.
  exists (rawstream (image "pkg" ++ image "mod")%list), (image "pkg"), (image "mod").
  split; [reflexivity|]. split; [reflexivity|]. split; [apply image_ok; cbn; auto|]. split; [apply image_ok; cbn; auto|].
  destruct (load_module_stream toy_size (fun _ => true) (fun _ => 0) false (rawstream (image "pkg" ++ image "mod")%list)) as [r f'] eqn:E.
  vm_compute in E. injection E as <- <-. split; [vm_compute; reflexivity|]. split; reflexivity.
Qed.
