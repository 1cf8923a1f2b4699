(** C107: the trace is drawn in characters its stream can write. *)
From Coq Require Import String Ascii List Bool Arith NArith ZArith Lia.
From Verif Require Import PyDict LocksModel TraceModel TraceProps FormatModel.
Import ListNotations.

(** ** Specification *)
(** box drawings: vertical, vertical and right, down and horizontal, up and right *)
Definition vertical : N := 9474. Definition vert_right : N := 9500. Definition down_horiz : N := 9516. Definition up_right : N := 9492.
Definition ascii_char (c : N) : Prop := (c < 128)%N.
(** a stream that takes ASCII, and, if it says (or the locale says for it) that it is UTF-8, the tree characters *)
Definition honest (K : codec_info) (st : stream) : Prop :=
  (forall c, (c < 128)%N -> takes st c = true) /\ (is_utf8 K st = true -> Forall (fun c => takes st c = true) [vertical; vert_right; down_horiz; up_right]).
(** what sys.stderr is after [es], if it was [i] at first *)
Fixpoint stderr_at (i : nat) (es : list fevent) : nat := match es with [] => i | SetErr j :: es => stderr_at j es | _ :: es => stderr_at i es end.
(** what it was when dill was imported, or the last redirected context left *)
Fixpoint stderr_noted (now noted : nat) (es : list fevent) : nat :=
  match es with [] => noted | SetErr j :: es => stderr_noted j noted es | Exit _ :: es => stderr_noted now now es | _ :: es => stderr_noted now noted es end.

(** a stream counts as UTF-8 exactly if the encoding it says, or, if it says none, the locale's, is known, and known to be utf-8 *)
Theorem C107_utf8 : forall K st, lookup K "utf-8"%string = Some "utf-8"%string ->
  (is_utf8 K st = true <-> exists e, (encoding st = Some e \/ encoding st = None /\ e = preferred K) /\ lookup K e = Some "utf-8"%string).
Proof.
  intros K st U. unfold is_utf8. rewrite U.
  assert (X : forall e, match lookup K e with Some n => String.eqb n "utf-8" | None => false end = true <-> lookup K e = Some "utf-8"%string).
  { intros e. destruct (lookup K e) as [n|]; [|split; discriminate]. rewrite String.eqb_eq. split; congruence. }
  destruct (encoding st) as [e|]; rewrite X; split.
  - intros H. exists e. auto.
  - intros [e' [[H|[H _]] H']]; congruence.
  - intros H. exists (preferred K). auto.
  - intros [e' [[H|[_ ->]] H']]; congruence.
Qed.

(** ** The drawing *)
Lemma chars_true l : map glyph_char (repeat Bar l) = repeat vertical l.
Proof. induction l; cbn [repeat map]; [reflexivity|]. rewrite IHl. reflexivity. Qed.
Lemma chars_false l : map ascii_map (map glyph_char (repeat Bar l)) = repeat 124%N l.
Proof. induction l; cbn [repeat map]; [reflexivity|]. rewrite IHl. reflexivity. Qed.

(** entries and exits at every depth, on both kinds of streams: the same columns, and on the others a dash more *)
Theorem C107_drawing : forall m k, starts_hash m = false ->
  prefix_text true m (Z.of_nat k + 2) = repeat vertical k ++ [vert_right; down_horiz; 32%N] /\
  prefix_text false m (Z.of_nat k + 2) = repeat 124%N k ++ text_of "|+- " /\
  prefix_text true m 1 = [down_horiz; 32%N] /\ prefix_text false m 1 = text_of "+- " /\
  prefix_text true (String "#" m) (Z.of_nat k + 1) = repeat vertical k ++ [up_right; 32%N] /\
  prefix_text false (String "#" m) (Z.of_nat k + 1) = repeat 124%N k ++ text_of "`- ".
Proof.
  intros m k H.
  assert (P : prefix m (Z.of_nat k + 2) = repeat Bar k ++ [Tee; Down]).
  { unfold prefix. destruct (Z.ltb_spec 0 (Z.of_nat k + 2)); [|lia]. rewrite H. destruct (Z.eqb_spec (Z.of_nat k + 2) 1); [lia|].
    replace (Z.to_nat (Z.of_nat k + 2 - 2)) with k by lia. reflexivity. }
  assert (Q : prefix (String "#" m) (Z.of_nat k + 1) = repeat Bar k ++ [Corner]).
  { unfold prefix. destruct (Z.ltb_spec 0 (Z.of_nat k + 1)); [|lia]. cbn [starts_hash].
    replace (Z.to_nat (Z.of_nat k + 1 - 1)) with k by lia. reflexivity. }
  unfold prefix_text. destruct (Z.ltb_spec 0 (Z.of_nat k + 2)); [|lia]. destruct (Z.ltb_spec 0 (Z.of_nat k + 1)); [|lia].
  rewrite P, Q, !map_app, chars_false, chars_true. unfold prefix. rewrite H. rewrite <- !app_assoc. repeat split; reflexivity.
Qed.

Lemma prefix_cases m d : (0 < d)%Z ->
  (starts_hash m = true /\ exists k, d = Z.of_nat k + 1 /\ prefix m d = repeat Bar k ++ [Corner])%Z \/
  (starts_hash m = false /\ exists k, d = Z.of_nat k + 1 /\ prefix m d = match k with O => [Down] | Datatypes.S k => repeat Bar k ++ [Tee; Down] end)%Z.
Proof.
  intros D. unfold prefix. destruct (Z.ltb_spec 0 d); [|lia]. destruct (starts_hash m).
  - left. split; auto. exists (Z.to_nat (d - 1)). split; [lia|]. reflexivity.
  - right. split; auto. destruct (Z.eqb_spec d 1) as [->|N].
    + exists 0%nat. auto.
    + exists (Datatypes.S (Z.to_nat (d - 2))). split; [lia|]. reflexivity.
Qed.

(** on a stream that is not UTF-8 the drawing is ASCII *)
Theorem C107_ascii : forall m d, Forall ascii_char (prefix_text false m d).
Proof.
  intros m d. unfold prefix_text. destruct (0 <? d)%Z; [|constructor]. rewrite !Forall_app. repeat split; try (repeat constructor; fail).
  rewrite Forall_forall. intros c Hc. apply in_map_iff in Hc. destruct Hc as [x [<- Hx]]. apply in_map_iff in Hx. destruct Hx as [g [<- _]].
  destruct g; reflexivity.
Qed.

Lemma repeat_end {A} (x : A) a b l r : repeat x a ++ l = repeat x b ++ r -> (forall t, l <> x :: t) -> (forall t, r <> x :: t) -> a = b /\ l = r.
Proof.
  revert b. induction a as [|a IH]; intros [|b] E L R; cbn in E.
  - auto.
  - exfalso. apply (L _ E).
  - exfalso. apply (R _ (eq_sym E)).
  - injection E as E. destruct (IH _ E L R) as [-> ->]. auto.
Qed.
(** and loses nothing: the depth, and whether it is an entry or an exit, can be read off it *)
Theorem C107_read_back : forall m d m' d', (1 <= d)%Z -> (1 <= d')%Z -> prefix_text false m d = prefix_text false m' d' -> d = d' /\ starts_hash m = starts_hash m'.
Proof.
  intros m d m' d' D D' E. unfold prefix_text in E. destruct (Z.ltb_spec 0 d); [|lia]. destruct (Z.ltb_spec 0 d'); [|lia].
  assert (N : forall m d, (0 < d)%Z -> exists k, d = (Z.of_nat k + 1)%Z /\ map ascii_map (map glyph_char (prefix m d)) = repeat 124%N k ++ [if starts_hash m then 96%N else 43%N]).
  { intros m0 d0 D0. destruct (prefix_cases m0 d0 D0) as [[S0 [k [-> ->]]]|[S0 [k [-> ->]]]]; rewrite S0; exists k; split; auto.
    - rewrite !map_app, chars_false. reflexivity.
    - destruct k; [reflexivity|]. rewrite !map_app, chars_false. cbn [map]. replace (ascii_map (glyph_char Tee)) with 124%N by reflexivity.
      replace (ascii_map (glyph_char Down)) with 43%N by reflexivity. change [124%N; 43%N] with ([124%N] ++ [43%N]). rewrite app_assoc. f_equal. symmetry. apply (repeat_cons k 124%N). }
  destruct (N m d ltac:(lia)) as [k [-> E1]]. destruct (N m' d' ltac:(lia)) as [k' [-> E2]]. rewrite E1, E2, <- !app_assoc in E.
  apply repeat_end in E.
  - destruct E as [-> E]. split; auto. destruct (starts_hash m), (starts_hash m'); auto; discriminate.
  - intros t X. destruct (starts_hash m); discriminate.
  - intros t X. destruct (starts_hash m'); discriminate.
Qed.

(** ** The streams *)
Section Streams.
  Variable K : codec_info.
  Variable S : nat -> stream.

  Lemma emit_keeps r full s h : let s' := emit S r full s h in
    err s' = err s /\ on s' = on s /\ stream_of s' = stream_of s /\ fmt s' = fmt s /\ made s' = made s.
  Proof. unfold emit. destruct (format _ r full); [destruct (forallb _ _)|]; cbn; auto. Qed.
  Lemma emits_keep r full l : forall s, let s' := fold_left (emit S r full) l s in
    err s' = err s /\ on s' = on s /\ stream_of s' = stream_of s /\ fmt s' = fmt s /\ made s' = made s.
  Proof.
    induction l as [|h l IH]; intros s; cbn [fold_left]; [cbn; auto|]. destruct (IH (emit S r full s h)) as [A [B [C [D E]]]].
    destruct (emit_keeps r full s h) as [A' [B' [C' [D' E']]]]. cbn zeta. repeat split; congruence.
  Qed.

  Lemma err_after es : forall s, err (fold_left (happen K S) es s) = stderr_at (err s) es.
  Proof.
    induction es as [|e es IH]; intros s; [reflexivity|]. cbn [fold_left]. rewrite IH. destruct e; try reflexivity.
    cbn [stderr_at]. f_equal. apply (emits_keep r full (on s) s).
  Qed.

  (** handlers made are known; each has a formatter for its stream, stderr's for what stderr was *)
  Definition good (noted : nat) (s : fstate) : Prop :=
    0 < made s /\ (forall h, In h (on s) -> h < made s) /\
    (forall h i, get h (stream_of s) = Some i -> 0 < h < made s) /\
    (forall h, In h (on s) -> h <> 0 -> exists i, get h (stream_of s) = Some i /\ get h (fmt s) = Some (is_utf8 K (S i))) /\
    get 0 (fmt s) = Some (is_utf8 K (S noted)).
  Lemma in_add h l x : In x (add_handler h l) <-> x = h \/ In x l.
  Proof.
    unfold add_handler. destruct (existsb (Nat.eqb h) l) eqn:E.
    - apply existsb_exists in E. destruct E as [y [Y E]]. apply Nat.eqb_eq in E. subst y. intuition congruence.
    - rewrite in_app_iff. cbn. intuition congruence.
  Qed.
  Lemma in_remove h l x : In x (remove_handler h l) <-> x <> h /\ In x l.
  Proof. unfold remove_handler. rewrite filter_In, negb_true_iff, Nat.eqb_neq. intuition. Qed.

  Lemma good_step e s noted : good noted s -> good (stderr_noted (err s) noted [e]) (happen K S s e).
  Proof.
    intros [M [O [T [F Z]]]]. destruct e as [i|i|h|r full]; cbn [stderr_noted].
    - exact (conj M (conj O (conj T (conj F Z)))).
    - cbn [happen]. unfold attach, detach. cbn [err on stream_of fmt made written lost].
      assert (TS : the_stream (FS (err s) (remove_handler 0 (on s)) (set (made s) i (stream_of s)) (fmt s) (Datatypes.S (made s)) (written s) (lost s)) (made s) = i).
      { unfold the_stream. cbn [err stream_of]. destruct (Nat.eqb_spec (made s) 0); [lia|]. rewrite get_set_same. reflexivity. }
      rewrite TS. unfold good. cbn [err on stream_of fmt made]. split; [lia|]. split; [|split; [|split]].
      + intros h H. apply in_add in H. destruct H as [->|H]; [lia|]. apply in_remove in H. pose proof (O h (proj2 H)). lia.
      + intros h j H. destruct (Nat.eq_dec h (made s)) as [->|N]; [lia|]. rewrite get_set_other in H by auto. apply T in H. lia.
      + intros h H N. apply in_add in H. destruct H as [->|H].
        * exists i. rewrite !get_set_same. auto.
        * apply in_remove in H. destruct (F h (proj2 H) N) as [j [J1 J2]]. exists j. apply T in J1 as L. rewrite !get_set_other by lia. auto.
      + rewrite get_set_other by lia. exact Z.
    - cbn [happen]. unfold attach, detach. unfold good. cbn [err on stream_of fmt made].
      split; [lia|]. split; [|split; [|split]].
      + intros x H. apply in_add in H. destruct H as [->|H]; [lia|]. apply in_remove in H. apply O. tauto.
      + exact T.
      + intros x H N. apply in_add in H. destruct H as [->|H]; [congruence|]. apply in_remove in H. rewrite get_set_other by auto. apply F; tauto.
      + rewrite get_set_same. unfold the_stream. cbn. reflexivity.
    - cbn [happen]. destruct (emits_keep r full (on s) s) as [A [B [C [D E]]]]. unfold good. rewrite B, C, D, E. exact (conj M (conj O (conj T (conj F Z)))).
  Qed.
  Lemma noted_cons e es now noted : stderr_noted now noted (e :: es) = stderr_noted (stderr_at now [e]) (stderr_noted now noted [e]) es.
  Proof. destruct e; reflexivity. Qed.
  Lemma good_after es : forall s noted, good noted s -> good (stderr_noted (err s) noted es) (fold_left (happen K S) es s).
  Proof.
    induction es as [|e es IH]; intros s noted G; [exact G|]. rewrite noted_cons. cbn [fold_left].
    rewrite <- (err_after [e] s). cbn [fold_left]. apply IH. apply good_step. exact G.
  Qed.
  Lemma good_imported i : good i (imported K S i).
  Proof.
    unfold imported, attach, good. cbn. split; [lia|]. split; [|split; [|split]]; auto.
    - intros h [<-|[]]. lia.
    - discriminate.
    - intros h [<-|[]] N. congruence.
  Qed.

  Lemma emit_writes r full s h b t : get h (fmt s) = Some b -> format b r full = Some t -> forallb (takes (S (the_stream s h))) (t ++ [10%N]) = true ->
    emit S r full s h = FS (err s) (on s) (stream_of s) (fmt s) (made s) (written s ++ [(the_stream s h, t ++ [10%N])]) (lost s).
  Proof. intros A B C. unfold emit. rewrite A, B, C. reflexivity. Qed.
  Lemma the_stream_keeps s s' h : err s' = err s -> stream_of s' = stream_of s -> the_stream s' h = the_stream s h.
  Proof. unfold the_stream. intros -> ->. reflexivity. Qed.
  Lemma emits_write r full (line : nat -> text) l : forall s,
    (forall h, In h l -> exists b, get h (fmt s) = Some b /\ format b r full = Some (line h) /\ forallb (takes (S (the_stream s h))) (line h ++ [10%N]) = true) ->
    fold_left (emit S r full) l s = FS (err s) (on s) (stream_of s) (fmt s) (made s) (written s ++ map (fun h => (the_stream s h, line h ++ [10%N])) l) (lost s).
  Proof.
    induction l as [|h l IH]; intros s H; cbn [fold_left map].
    - rewrite app_nil_r. destruct s; reflexivity.
    - destruct (H h (or_introl eq_refl)) as [b [B1 [B2 B3]]]. rewrite (emit_writes _ _ _ _ _ _ B1 B2 B3). rewrite IH.
      + cbn [err on stream_of fmt made written lost]. rewrite <- app_assoc. reflexivity.
      + intros x X. apply H. right. exact X.
  Qed.
  Lemma prefix_taken m d st : honest K st -> forallb (takes st) (prefix_text (is_utf8 K st) m d) = true.
  Proof.
    intros [A U]. apply forallb_forall. intros c C. destruct (is_utf8 K st).
    - specialize (U eq_refl). rewrite Forall_forall in U. unfold prefix_text in C. destruct (0 <? d)%Z; [|contradiction].
      apply in_app_iff in C. destruct C as [C|[<-|[]]]; [|apply A; reflexivity]. apply in_map_iff in C. destruct C as [g [<- _]]. apply U. destruct g; cbn; auto.
    - apply A. pose proof (C107_ascii m d) as F. rewrite Forall_forall in F. apply F. exact C.
  Qed.
  Lemma forallb_app' {A} (f : A -> bool) a b : forallb f a = true -> forallb f b = true -> forallb f (a ++ b) = true.
  Proof. intros X Y. rewrite forallb_app, X, Y. reflexivity. Qed.
End Streams.

(** where the handlers write: stderr's on what stderr is at that time, each other on the stream of its context *)
Theorem C107_streams : forall K S i es, the_stream (after K S i es) 0 = stderr_at i es /\
  forall es1 j es2, es = es1 ++ Enter j :: es2 -> the_stream (after K S i es) (made (after K S i es1)) = j.
Proof.
  intros K S i es. split.
  - unfold after, the_stream. cbn [Nat.eqb]. rewrite err_after. reflexivity.
  - intros es1 j es2 ->. unfold after. rewrite fold_left_app. cbn [fold_left]. set (s := fold_left (happen K S) es1 (imported K S i)).
    assert (G : good K S (stderr_noted i i es1) s) by (apply (good_after K S es1 (imported K S i) i); apply good_imported).
    assert (P : 0 < made s) by exact (proj1 G). set (h := made s) in *.
    assert (X : forall es s, h < made s -> get h (stream_of s) = Some j -> get h (stream_of (fold_left (happen K S) es s)) = Some j).
    { clearbody h; clear; induction es as [|e es IH]; intros s L H; [exact H|]. cbn [fold_left]. apply IH.
      - destruct e; cbn; try lia. destruct (emits_keep S r full (on s) s) as [_ [_ [_ [_ ->]]]]. exact L.
      - destruct e; cbn; auto.
        + rewrite get_set_other by lia. exact H.
        + destruct (emits_keep S r full (on s) s) as [_ [_ [-> _]]]. exact H. }
    unfold the_stream. destruct (Nat.eqb_spec h 0); [lia|]. rewrite X; auto.
    cbn. unfold h. apply get_set_same.
Qed.

(** After any history, if the streams are honest, stderr is (UTF-8 or not) as when dill last looked, the message can be written and its size is below 1 PiB: every handler
    writes the line on its stream, drawn as that stream can take it, and nothing else happens *)
Theorem C107_printed_partial : forall K S i es r full sfx, (forall j, honest K (S j)) ->
  is_utf8 K (S (stderr_noted i i es)) = is_utf8 K (S (stderr_at i es)) ->
  suffix_text (size r) = Some sfx ->
  let s := after K S i es in
  (forall h, In h (on s) -> forallb (takes (S (the_stream s h))) (full ++ sfx) = true) ->
  written (happen K S s (Log r full)) = written s ++ map (fun h => (the_stream s h, prefix_text (is_utf8 K (S (the_stream s h))) (msg r) (depth r) ++ full ++ sfx ++ [10%N])) (on s) /\
  lost (happen K S s (Log r full)) = lost s.
Proof.
  intros K S i es r full sfx Hon N X s T. cbn [happen].
  assert (G : good K S (stderr_noted i i es) s) by (apply (good_after K S es (imported K S i) i); apply good_imported).
  destruct G as [_ [O [_ [F Z]]]].
  set (line := fun h => prefix_text (is_utf8 K (S (the_stream s h))) (msg r) (depth r) ++ full ++ sfx).
  rewrite (emits_write S r full line).
  - cbn [written lost]. split; auto. f_equal. apply map_ext. intros h. unfold line. rewrite <- !app_assoc. reflexivity.
  - intros h H. exists (is_utf8 K (S (the_stream s h))). split; [|split].
    + destruct (Nat.eq_dec h 0) as [->|H0].
      * rewrite Z. f_equal. rewrite N. f_equal. f_equal. symmetry. apply (proj1 (C107_streams K S i es)).
      * destruct (F h H H0) as [j [J1 J2]]. unfold the_stream. destruct (Nat.eqb_spec h 0); [lia|]. rewrite J1. exact J2.
    + unfold format. rewrite X. reflexivity.
    + unfold line. repeat apply forallb_app'.
      * apply prefix_taken. apply Hon.
      * specialize (T h H). rewrite forallb_app, andb_true_iff in T. apply T.
      * specialize (T h H). rewrite forallb_app, andb_true_iff in T. apply T.
      * cbn. destruct (Hon (the_stream s h)) as [A _]. rewrite A; reflexivity.
Qed.

(** in a redirected block (stderr's handler is away) what stderr is does not matter *)
Theorem C107_redirected : forall K S i es r full sfx, (forall j, honest K (S j)) -> suffix_text (size r) = Some sfx ->
  let s := after K S i es in ~ In 0 (on s) ->
  (forall h, In h (on s) -> forallb (takes (S (the_stream s h))) (full ++ sfx) = true) ->
  written (happen K S s (Log r full)) = written s ++ map (fun h => (the_stream s h, prefix_text (is_utf8 K (S (the_stream s h))) (msg r) (depth r) ++ full ++ sfx ++ [10%N])) (on s) /\
  lost (happen K S s (Log r full)) = lost s.
Proof.
  intros K S i es r full sfx Hon X s N0 T. cbn [happen].
  assert (G : good K S (stderr_noted i i es) s) by (apply (good_after K S es (imported K S i) i); apply good_imported).
  destruct G as [_ [O [_ [F Z]]]].
  set (line := fun h => prefix_text (is_utf8 K (S (the_stream s h))) (msg r) (depth r) ++ full ++ sfx).
  rewrite (emits_write S r full line).
  - cbn [written lost]. split; auto. f_equal. apply map_ext. intros h. unfold line. rewrite <- !app_assoc. reflexivity.
  - intros h H. exists (is_utf8 K (S (the_stream s h))). split; [|split].
    + destruct (Nat.eq_dec h 0) as [->|H0]; [contradiction|].
      destruct (F h H H0) as [j [J1 J2]]. unfold the_stream. destruct (Nat.eqb_spec h 0); [lia|]. rewrite J1. exact J2.
    + unfold format. rewrite X. reflexivity.
    + unfold line. repeat apply forallb_app'.
      * apply prefix_taken. apply Hon.
      * specialize (T h H). rewrite forallb_app, andb_true_iff in T. apply T.
      * specialize (T h H). rewrite forallb_app, andb_true_iff in T. apply T.
      * cbn. destruct (Hon (the_stream s h)) as [A _]. rewrite A; reflexivity.
Qed.

(** sizes below 1 PiB have a suffix *)
Theorem C107_sizes : forall n, (0 <= n < 2 ^ 50)%Z -> (exists sfx, suffix_text (Some n) = Some sfx) /\ (exists sfx, suffix_text None = Some sfx).
Proof.
  intros n [H1 H2]. split; [|exists []; reflexivity]. unfold suffix_text.
  destruct (Z.ltb_spec n 1).
  - exists []. replace n with 0%Z by lia. reflexivity.
  - destruct (Z.ltb_spec n 1024).
    + destruct (C50_small_partial n ltac:(lia)) as [-> _]. eexists. reflexivity.
    + destruct (C50_unit_refuted n ltac:(lia)) as [v [c [-> _]]]. eexists. reflexivity.
Qed.

(** the text behind the message: nothing for no size or nothing written; the number of bytes below 1024; from there on, the number of whole powers of 1024
    with the name dill shows for it (one too large, C50) *)
Theorem C107_suffix : suffix_text None = Some [] /\ suffix_text (Some 0%Z) = Some [] /\
  (forall n, (1 <= n < 1024)%Z -> suffix_text (Some n) = Some (text_of (" [" ++ dec (Z.to_N n) ++ " B]"))) /\
  (forall n p c, In (p, c) [(1, "M"%char); (2, "G"%char); (3, "T"%char); (4, "P"%char)]%Z -> (1024 ^ p <= n < 1024 ^ (p + 1))%Z ->
     suffix_text (Some n) = Some (text_of (" [" ++ dec (Z.to_N (n / 1024 ^ p)) ++ " " ++ String c "iB]"))) /\
  (forall n, (1024 ^ 5 <= n)%Z -> suffix_text (Some n) = None).
Proof.
  split; [reflexivity|]. split; [reflexivity|]. split; [|split].
  - intros n H. unfold suffix_text. rewrite (proj1 (C50_small_partial n H)). reflexivity.
  - intros n p c P H.
    assert (Q : (1 <= p <= 4)%Z /\ String.get (Z.to_nat p) "KMGTP" = Some c).
    { cbn [In] in P. destruct P as [P|[P|[P|[P|[]]]]]; injection P as <- <-; (split; [lia|reflexivity]). }
    destruct Q as [Q G]. replace 1024%Z with (2 ^ 10)%Z in H by reflexivity. rewrite <- !Z.pow_mul_r in H by lia.
    destruct (suffix_shape n p ltac:(lia) H) as [L _]. unfold suffix_text, suffix.
    assert (X : (0 < 2 ^ (10 * p))%Z) by (apply Z.pow_pos_nonneg; lia).
    replace (1 <=? n)%Z with true by (symmetry; apply Z.leb_le; lia). rewrite L.
    replace (p =? 0)%Z with false by (symmetry; apply Z.eqb_neq; lia). rewrite G, Z.shiftr_div_pow2 by lia.
    replace 1024%Z with (2 ^ 10)%Z by reflexivity. rewrite <- Z.pow_mul_r by lia. replace (p * 10)%Z with (10 * p)%Z by lia. reflexivity.
  - intros n H. unfold suffix_text. rewrite C50_huge_refuted; [reflexivity|]. exact H.
Qed.

(** ** A concrete world: stream 0 is UTF-8, stream 1 ASCII, stream 2 says no encoding, in a UTF-8 locale *)
Definition K0 : codec_info := Codecs (fun e => if String.eqb e "UTF-8" || String.eqb e "utf-8" || String.eqb e "utf8" then Some "utf-8" else if String.eqb e "ascii" then Some "ascii" else None)%string "UTF-8".
Definition S0 (i : nat) : stream := match i with 0 => Stream (Some "utf8"%string) (fun _ => true) | 1 => Stream (Some "ascii"%string) (fun c => (c <? 128)%N) | _ => Stream None (fun _ => true) end.
Lemma S0_honest : forall j, honest K0 (S0 j).
Proof. intros [|[|j]]; split; try reflexivity; try (repeat constructor; fail). - intros c H. apply N.ltb_lt. exact H. - discriminate. Qed.

Definition r0 : record := Rec "D2: %s" 1 None.
Theorem C107_case : let s := after K0 S0 0 [Enter 1; Enter 2] in
  (forall j, honest K0 (S0 j)) /\ on s = [1; 2] /\
  written (happen K0 S0 s (Log r0 (text_of "D2: x"))) = [(1, text_of "+- D2: x" ++ [10%N]); (2, down_horiz :: text_of " D2: x" ++ [10%N])].
Proof. split; [apply S0_honest|]. split; reflexivity. Qed.

(** REFUTED if sys.stderr has been replaced by a stream that is not UTF-8 since dill was imported: an honest stream, and a message in ASCII, yet the line is lost;
    a redirected context makes dill look again *)
Theorem C107_stderr_refuted : let s := after K0 S0 0 [SetErr 1] in
  (forall j, honest K0 (S0 j)) /\ forallb (takes (S0 1)) (text_of "D2: x") = true /\
  lost (happen K0 S0 s (Log r0 (text_of "D2: x"))) = [(0, r0)] /\ written (happen K0 S0 s (Log r0 (text_of "D2: x"))) = [] /\
  written (happen K0 S0 (after K0 S0 0 [SetErr 1; Enter 2; Exit 1]) (Log r0 (text_of "D2: x"))) = [(1, text_of "+- D2: x" ++ [10%N])].
Proof. split; [apply S0_honest|]. repeat split; reflexivity. Qed.
