(** C22, exactly: what is in the file after loading, for all contents; what happens with mode wb; what cannot be dumped. *)
From Coq Require Import String List Bool Arith Lia.
From Verif Require Import PyDict FilesModel FilesProps.
Import ListNotations.
Local Open Scope string_scope.

(** [t] is [c] with every line end -- carriage return, line feed, or both -- a line feed (13, 10: their codes) *)
Inductive line_feeds : list nat -> list nat -> Prop :=
| lf_end : line_feeds [] []
| lf_both c t : line_feeds c t -> line_feeds (13 :: 10 :: c) (10 :: t)
| lf_cr c t : (forall r, c <> 10 :: r) -> line_feeds c t -> line_feeds (13 :: c) (10 :: t)
| lf_other b c t : b <> 13 -> line_feeds c t -> line_feeds (b :: c) (b :: t).

Lemma universal_lf c : line_feeds c (universal c).
Proof.
  enough (G : forall n c, length c <= n -> line_feeds c (universal c)) by (apply (G (length c)); lia).
  clear c. induction n as [|n IH]; intros [|b c] L; try (cbn in L; lia); try constructor. cbn in L.
  destruct (Nat.eq_dec b 13) as [->|N].
  - cbn [universal]. destruct c as [|d c].
    + apply lf_cr; [discriminate|]. constructor.
    + destruct (Nat.eq_dec d 10) as [->|D].
      * apply lf_both. apply IH. cbn in L. lia.
      * assert (U : universal (d :: c) = universal (d :: c)) by reflexivity.
        assert (X : match d :: c with 10 :: l'' => 10 :: universal l'' | _ => 10 :: universal (d :: c) end = 10 :: universal (d :: c)).
        { do 10 (destruct d as [|d]; [reflexivity|]). destruct d; [congruence|reflexivity]. }
        rewrite X. apply lf_cr; [congruence|]. apply IH. cbn in L |- *. lia.
  - assert (U : universal (b :: c) = b :: universal c).
    { cbn [universal]. do 13 (destruct b as [|b]; [reflexivity|]). destruct b; [congruence|reflexivity]. }
    rewrite U. apply lf_other; auto. apply IH. lia.
Qed.

Lemma line_feeds_no_cr c t : line_feeds c t -> ~ In 13 t.
Proof. induction 1; cbn; intuition congruence. Qed.
Lemma line_feeds_id c : ~ In 13 c -> forall t, line_feeds c t -> t = c.
Proof. intros N t L. induction L; auto; try (exfalso; apply N; left; reflexivity). f_equal. apply IHL. intros I. apply N. right; exact I. Qed.

Lemma restored_any : forall h w0 w n c r0 wr0 s f w',
  h_target h = TNamed n -> plain n ->
  get n (fs w0) = Some (NFile c r0 wr0) -> decodable w0 c = true ->
  m_kind (h_mode h) <> X -> ~ (m_kind (h_mode h) = W /\ m_plus (h_mode h) = false /\ m_bin (h_mode h) = true) ->
  _save_file false FILE_FMODE h w0 = Ok s ->
  _create_filehandle s w = (Ok f, w') ->
  (exists r wr, get n (fs w') = Some (NFile (universal c) r wr)) /\ only_at n w w' /\
  h_target f = TNamed n /\ h_mode f = reported (h_mode h) /\ h_closed f = h_closed h /\
  (h_closed h = false -> h_pos f = h_pos h).
Proof.
  intros h w0 w n c r0 wr0 s f w' Ht Hp H0 Hd HX Hwb Hs.
  unfold _save_file in Hs. rewrite Ht in Hs. cbn [is_file_fmode] in Hs.
  destruct (open_ n _ w0) as [[g|e] wg]; [|discriminate]. rewrite H0, Hd in Hs. injection Hs as <-.
  destruct (plain_std n Hp) as [P1 [P2 P3]].
  unfold _create_filehandle, finish. cbn [s_name s_mode s_pos s_closed s_strictio s_fmode s_data]. rewrite P1, P2, P3.
  cbn [is_file_fmode is_contents_fmode is_handle_fmode negb]. rewrite !andb_false_r. cbn [andb].
  set (m := reported (h_mode h)) in *.
  set (m' := if is_kind W m then m else {| m_kind := W; m_plus := false; m_bin := false |}).
  assert (Hm' : m_bin m' = false /\ m_kind m' = W).
  { unfold m', m, is_kind, reported in *. destruct (h_mode h) as [[] [] []]; cbn in *; auto; exfalso; apply Hwb; auto. }
  destruct Hm' as [Hb Hk].
  set (pos := if h_closed h then Some 0 else Some (h_pos h)).
  destruct (open_ n m' w) as [[f1|e1] w1] eqn:O1; [|destruct (open_err _ _ _ _ _ O1) as [-> ->]; discriminate].
  destruct (open_target _ _ _ _ _ O1) as [T1 [T2 T3]]. unfold write_text. rewrite T2, Hb, T1.
  assert (F1 : exists r wr, get n (fs w1) = Some (NFile [] r wr)).
  { unfold open_ in O1. rewrite Hk in O1. destruct (get n (fs w)) as [[c1 r1 wr1|]|]; try discriminate.
    - destruct (_ || _); [discriminate|]. injection O1 as _ <-. exists r1, wr1. cbn. apply get_set_same.
    - destruct (creatable w n); [|discriminate]. injection O1 as _ <-. exists true, true. cbn. apply get_set_same. }
  destruct F1 as [r1 [wr1 F1]]. rewrite F1.
  set (w2 := set_node n (NFile (universal c) r1 wr1) w1).
  assert (A2 : only_at n w w2).
  { eapply only_at_trans; [|apply only_at_set]. pose proof (open_only_at n m' w) as A. rewrite O1 in A. exact A. }
  assert (F2 : get n (fs w2) = Some (NFile (universal c) r1 wr1)) by (cbn; apply get_set_same).
  assert (Fin : forall g wg, h_target g = TNamed n -> h_mode g = m -> h_closed g = false ->
    get n (fs wg) = Some (NFile (universal c) r1 wr1) -> only_at n w wg ->
    (if h_closed h then let (g, w2) := close g wg in (@Ok handle g, w2)
     else match pos with Some p => let (g, w2) := seek g p wg in (Ok g, w2) | None => (Ok g, wg) end) = (Ok f, w') ->
    (exists r wr, get n (fs w') = Some (NFile (universal c) r wr)) /\ only_at n w w' /\
    h_target f = TNamed n /\ h_mode f = m /\ h_closed f = h_closed h /\ (h_closed h = false -> h_pos f = h_pos h)).
  { intros g' wg' G1 G2 G3 G4 G5 E. unfold pos in E. destruct (h_closed h) eqn:C.
    - unfold close in E. rewrite G1 in E. injection E as <- <-. cbn. repeat split; eauto; try apply G5. discriminate.
    - unfold seek in E. rewrite G1 in E. injection E as <- <-. cbn. repeat split; eauto; apply G5. }
  destruct (is_kind W m) eqn:KW; cbn [negb].
  - cbn [as_unpickling]. apply Fin; auto.
  - destruct (open_ n m w2) as [[g3|e] w3] eqn:O2; [|destruct (open_err _ _ _ _ _ O2) as [-> ->]; discriminate].
    destruct (open_target _ _ _ _ _ O2) as [G1 [G2 G3]]. cbn [as_unpickling].
    assert (w3 = w2) as ->.
    { unfold open_ in O2. rewrite F2 in O2. destruct (_ || _); [discriminate|].
      unfold is_kind in KW. destruct (m_kind m); try discriminate; injection O2 as _ <-; auto. }
    apply Fin; auto.
Qed.

(** Whatever happened to the file in between, if loading succeeds the file has the contents of dump time with line feeds for line ends:
    so the very contents of dump time exactly if they have no carriage return *)
Theorem C22_contents_exact : forall h w0 w n c r0 wr0 s f w',
  h_target h = TNamed n -> plain n -> get n (fs w0) = Some (NFile c r0 wr0) -> decodable w0 c = true ->
  m_kind (h_mode h) <> X -> ~ (m_kind (h_mode h) = W /\ m_plus (h_mode h) = false /\ m_bin (h_mode h) = true) ->
  _save_file false FILE_FMODE h w0 = Ok s -> _create_filehandle s w = (Ok f, w') ->
  exists t r wr, get n (fs w') = Some (NFile t r wr) /\ line_feeds c t /\ (t = c <-> ~ In 13 c).
Proof.
  intros h w0 w n c r0 wr0 s f w' H1 H2 H3 H4 H5 H6 H7 H8.
  destruct (restored_any h w0 w n c r0 wr0 s f w' H1 H2 H3 H4 H5 H6 H7 H8) as [[r [wr G]] _].
  exists (universal c), r, wr. split; [exact G|]. split; [apply universal_lf|]. split.
  - intros <-. eapply line_feeds_no_cr. apply universal_lf.
  - intros N. apply (line_feeds_id c N). apply universal_lf.
Qed.

(** What can be dumped: exactly a handle whose file, at that moment, is there, may be read and is text; the handle itself may be closed or write-only *)
Theorem C22_dumps : forall h w n, h_target h = TNamed n ->
  ((exists s, _save_file false FILE_FMODE h w = Ok s) <-> exists c wr, get n (fs w) = Some (NFile c true wr) /\ decodable w c = true) /\
  (forall c wr, get n (fs w) = Some (NFile c true wr) -> decodable w c = false -> _save_file false FILE_FMODE h w = Err UnicodeDecodeError) /\
  (get n (fs w) = None -> _save_file false FILE_FMODE h w = Err OSError).
Proof.
  intros h w n T. unfold _save_file. rewrite T. cbn [is_file_fmode]. unfold open_. cbn [m_kind needs_read needs_write is_kind m_plus].
  split; [|split].
  - destruct (get n (fs w)) as [[c r wr|]|] eqn:G.
    + cbn. destruct r; cbn [negb orb].
      * destruct (decodable w c) eqn:D.
        -- split; [intros _; exists c, wr; auto|intros _; eexists; reflexivity].
        -- split; [intros [s X]; discriminate|]. intros [c' [wr' [X Y]]]. injection X as -> ->. congruence.
      * split; [intros [s X]; discriminate|]. intros [c' [wr' [X Y]]]. discriminate.
    + split; [intros [s X]; discriminate|]. intros [c' [wr' [X Y]]]. discriminate.
    + split; [intros [s X]; discriminate|]. intros [c' [wr' [X Y]]]. discriminate.
  - intros c wr G D. rewrite G. cbn. rewrite D. reflexivity.
  - intros G. rewrite G. reflexivity.
Qed.

(** REFUTED for every handle of mode wb: loading, where the file can be written, raises TypeError and leaves the file empty *)
Theorem C22_wb_always_refuted : forall h w0 w n s,
  h_target h = TNamed n -> plain n -> h_mode h = {| m_kind := W; m_plus := false; m_bin := true |} ->
  _save_file false FILE_FMODE h w0 = Ok s ->
  (exists c r, get n (fs w) = Some (NFile c r true)) \/ (get n (fs w) = None /\ creatable w n = true) ->
  exists w', _create_filehandle s w = (Err TypeError, w') /\ (exists r, get n (fs w') = Some (NFile [] r true)) /\ only_at n w w'.
Proof.
  intros h w0 w n s T Hp M Hs Hw. unfold _save_file in Hs. rewrite T in Hs.
  destruct (if is_file_fmode FILE_FMODE then _ else _) as [d|e]; [|discriminate]. injection Hs as <-.
  destruct (plain_std n Hp) as [P1 [P2 P3]].
  unfold _create_filehandle, finish. cbn [s_name s_mode s_pos s_closed s_strictio s_fmode s_data]. rewrite P1, P2, P3.
  cbn [is_file_fmode is_contents_fmode is_handle_fmode negb]. rewrite !andb_false_r. cbn [andb]. rewrite M. cbn [reported is_kind m_kind m_bin m_plus].
  pose proof (open_only_at n {| m_kind := W; m_plus := false; m_bin := true |} w) as A. revert A.
  unfold open_. cbn [m_kind needs_read needs_write is_kind m_plus].
  destruct Hw as [[c [r ->]]|[-> ->]].
  - cbn. intros A. eexists. split; [reflexivity|]. split; [|exact A]. exists r. cbn. apply get_set_same.
  - cbn. intros A. eexists. split; [reflexivity|]. split; [|exact A]. exists true. cbn. apply get_set_same.
Qed.

Theorem C22_exact_case :
  let h := {| h_target := TNamed "f"; h_mode := {| m_kind := R; m_plus := true; m_bin := true |}; h_pos := 2; h_closed := false |} in
  let w := {| fs := [("f", NFile [97; 13; 10; 98; 13; 99] true true)]; creatable := fun _ => true; decodable := fun _ => true; std := fun _ => (false, 0) |} in
  plain "f" /\ exists s f w', _save_file false FILE_FMODE h w = Ok s /\ _create_filehandle s {| fs := []; creatable := fun _ => true; decodable := fun _ => true; std := fun _ => (false, 0) |} = (Ok f, w') /\
  get "f" (fs w') = Some (NFile [97; 10; 98; 10; 99] true true) /\ h_pos f = 2.
Proof. split; [|do 3 eexists; vm_compute; repeat split; reflexivity]. repeat split; discriminate. Qed.
