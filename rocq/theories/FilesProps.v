(** C20-C23: pickled file handles. *)
From Coq Require Import String Ascii List Bool Arith Lia.
From Verif Require Import PyDict FilesModel.
Import ListNotations.
Local Open Scope string_scope.

(** an ordinary file name *)
Definition plain (n : string) : Prop :=
  n <> "<stdin>" /\ n <> "<stdout>" /\ n <> "<stderr>" /\ n <> "<tmpfile>" /\ n <> "<fdopen>".
Lemma plain_std n : plain n -> std_of_name n = None /\ String.eqb n "<tmpfile>" = false /\ String.eqb n "<fdopen>" = false.
Proof.
  intros [H1 [H2 [H3 [H4 H5]]]]. unfold std_of_name.
  apply String.eqb_neq in H1, H2, H3, H4, H5. now rewrite H1, H2, H3.
Qed.
Definition exists_file (w : world) (n : string) : Prop := get n (fs w) <> None.
(** the world afterwards differs at most in what is stored at [n] *)
Definition only_at (n : string) (w w' : world) : Prop :=
  (forall k, k <> n -> get k (fs w') = get k (fs w)) /\ std w' = std w.
Lemma only_at_refl n w : only_at n w w.
Proof. split; auto. Qed.
Lemma only_at_set n x w : only_at n w (set_node n x w).
Proof. split; auto. intros k Hk. simpl. now apply get_set_other. Qed.
Lemma only_at_trans n w1 w2 w3 : only_at n w1 w2 -> only_at n w2 w3 -> only_at n w1 w3.
Proof. intros [A1 A2] [B1 B2]. split; [|congruence]. intros k Hk. rewrite B1, A1; auto. Qed.
Lemma open_only_at n m w : only_at n w (snd (open_ n m w)).
Proof.
  unfold open_. destruct (get n (fs w)) as [[c r wr|]|]; try apply only_at_refl.
  - destruct (_ || _); [apply only_at_refl|]. destruct (m_kind m); simpl; try apply only_at_refl. apply only_at_set.
  - destruct (m_kind m); simpl; try apply only_at_refl; destruct (creatable w n); simpl; try apply only_at_refl; apply only_at_set.
Qed.
(** the same handle, closed or moved *)
Definition at_pos (h : handle) (p : nat) : handle := {| h_target := h_target h; h_mode := h_mode h; h_pos := p; h_closed := h_closed h |}.
Definition closed_as (h : handle) (c : bool) : handle := {| h_target := h_target h; h_mode := h_mode h; h_pos := h_pos h; h_closed := c |}.

Lemma open_target n m w h w' : open_ n m w = (Ok h, w') -> h_target h = TNamed n /\ h_mode h = m /\ h_closed h = false.
Proof.
  unfold open_. destruct (get n (fs w)) as [[c r wr|]|]; try discriminate.
  - destruct (_ || _); [discriminate|]. destruct (m_kind m); try discriminate; intros E; injection E as <- _; auto.
  - destruct (m_kind m); try discriminate; destruct (creatable w n); try discriminate; intros E; injection E as <- _; auto.
Qed.
Lemma open_err n m w e w' : open_ n m w = (Err e, w') -> e = OSError /\ w' = w.
Proof.
  unfold open_. destruct (get n (fs w)) as [[c r wr|]|].
  - destruct (_ || _); [intros E; injection E as <- <-; auto|]. destruct (m_kind m); try discriminate. intros E; injection E as <- <-; auto.
  - intros E; injection E as <- <-; auto.
  - destruct (m_kind m); [intros E; injection E as <- <-; auto| | |]; (destruct (creatable w n); [discriminate|intros E; injection E as <- <-; auto]).
Qed.

(** *** C20 *)
(** With HANDLE_FMODE, a handle h on a named file, pickled in world w0 and loaded in world w, is the
    handle open(name, mode) gives in w (same name, same mode, the position of a fresh open), closed if
    h was closed; open's effect is the only one; an error of open is an UnpicklingError.  Excepted: a
    file missing at load time whose mode reads (C23). *)
Theorem C20_handle_reopens : forall h w0 w n,
  h_target h = TNamed n -> plain n ->
  exists s, _save_file false HANDLE_FMODE h w0 = Ok s /\
    (exists_file w n \/ m_kind (reported (h_mode h)) <> R ->
     _create_filehandle s w =
     match open_ n (reported (h_mode h)) w with
     | (Ok f, w') => (Ok (closed_as f (h_closed h)), w')
     | (Err _, _) => (Err UnpicklingError, w)
     end).
Proof.
  intros h w0 w n Ht Hp. unfold _save_file. rewrite Ht. cbn [is_file_fmode].
  eexists. split; [reflexivity|]. intros Hex. destruct (plain_std n Hp) as [P1 [P2 P3]].
  unfold _create_filehandle, finish. cbn [s_name s_mode s_pos s_closed s_strictio s_fmode s_data]. rewrite P1, P2, P3.
  cbn [is_file_fmode is_contents_fmode is_handle_fmode negb]. rewrite !andb_true_r, !andb_false_r. cbn [andb].
  replace (negb (match get n (fs w) with Some _ => true | None => false end) && is_kind R (reported (h_mode h))) with false.
  2: { destruct Hex as [Hex|Hex].
       - unfold exists_file in Hex. destruct (get n (fs w)); [reflexivity|congruence].
       - unfold is_kind. destruct (m_kind (reported (h_mode h))); try congruence; now rewrite andb_false_r. }
  destruct (open_ n (reported (h_mode h)) w) as [[f|e] w'] eqn:E.
  - destruct (open_target _ _ _ _ _ E) as [T1 [T2 T3]]. cbn [as_unpickling].
    destruct (h_closed h) eqn:C.
    + unfold close. rewrite T1. unfold closed_as. now rewrite T1.
    + unfold closed_as. rewrite <- T3. destruct f. reflexivity.
  - destruct (open_err _ _ _ _ _ E) as [-> ->]. reflexivity.
Qed.
(** the mode is the one the handle reports; only for "w+b" does that differ from the mode it was opened with *)
Theorem C20_reported_mode : forall m, reported m = m \/ (m_kind m = W /\ m_plus m = true /\ m_bin m = true).
Proof. intros [[] [] []]; cbn; auto. Qed.

(** *** C21 *)
(** With CONTENTS_FMODE no existing file changes in any way, whether loading succeeds or not. *)
Theorem C21_existing_files_unchanged : forall s w n x,
  s_fmode s = CONTENTS_FMODE -> get n (fs w) = Some x ->
  get n (fs (snd (_create_filehandle s w))) = Some x.
Proof.
  intros s w n x Hf Hn. unfold _create_filehandle. rewrite Hf. cbn [is_file_fmode is_contents_fmode is_handle_fmode negb].
  assert (Hfin : forall h pos w', get n (fs w') = Some x -> get n (fs (snd (finish s h pos w'))) = Some x).
  { intros h pos w' H. unfold finish. rewrite Hf. cbn [is_handle_fmode]. destruct (s_closed s).
    - unfold close. cbn [snd]. destruct (h_target h); auto.
    - destruct pos; auto. unfold seek. cbn [snd]. destruct (h_target h); auto. }
  destruct (std_of_name (s_name s)); [now apply Hfin|].
  destruct (String.eqb (s_name s) "<tmpfile>"); auto.
  destruct (String.eqb (s_name s) "<fdopen>"); [now apply Hfin|].
  destruct (negb _ && s_strictio s); auto.
  destruct (_ && s_strictio s); auto.
  rewrite !andb_true_r. cbn [andb].
  set (opened := as_unpickling _).
  assert (Ho : get n (fs (snd opened)) = Some x).
  { assert (Ha : forall r : res handle * world, get n (fs (snd r)) = Some x -> get n (fs (snd (as_unpickling r))) = Some x).
    { intros [[h|[]] w'] H; exact H. }
    apply Ha.
    destruct (negb (match get (s_name s) (fs w) with Some _ => true | None => false end) && is_kind R (s_mode s)); auto.
    destruct (is_kind W (s_mode s) || is_kind X (s_mode s)) eqn:K.
    - unfold open_no_truncate. destruct (get (s_name s) (fs w)) as [[c r wr|]|] eqn:G; cbn [snd]; auto.
      + destruct (m_plus (s_mode s) && negb r || negb wr); exact Hn.
      + destruct (creatable w (s_name s)); [|exact Hn]. cbn. rewrite get_set_other; auto. intros ->. congruence.
    - unfold open_. destruct (get (s_name s) (fs w)) as [[c r wr|]|] eqn:G; cbn [snd]; auto.
      + destruct (needs_read (s_mode s) && negb r || needs_write (s_mode s) && negb wr); [exact Hn|]. unfold is_kind in K. destruct (m_kind (s_mode s)); try exact Hn. discriminate.
      + destruct (m_kind (s_mode s)); try exact Hn; (destruct (creatable w (s_name s)); [|exact Hn]); cbn; rewrite get_set_other; auto; intros ->; congruence. }
  destruct opened as [[f|e] w']; auto.
Qed.
(** size of the file at that name, 0 if there is none *)
Definition size_of (w : world) (n : string) : nat :=
  match get n (fs w) with Some (NFile c _ _) => length c | _ => 0 end.
(** A handle on a named file, open at position p when pickled: if loading succeeds the result is a handle on that
    name in that mode at min(p, current size), or, if the file is missing and the mode reads, an empty temporary
    file at position 0; a handle that was closed comes back closed. *)
Theorem C21_position : forall h w0 w n s f w',
  h_target h = TNamed n -> plain n ->
  _save_file false CONTENTS_FMODE h w0 = Ok s ->
  _create_filehandle s w = (Ok f, w') ->
  h_mode f = reported (h_mode h) /\ h_closed f = h_closed h /\
  (h_closed h = false -> h_pos f = Nat.min (h_pos h) (size_of w n)) /\
  (exists_file w n \/ m_kind (reported (h_mode h)) <> R -> h_target f = TNamed n) /\
  (~ exists_file w n -> m_kind (reported (h_mode h)) = R -> h_target f = TTemp /\ w' = w).
Proof.
  intros h w0 w n s f w' Ht Hp Hs. unfold _save_file in Hs. rewrite Ht in Hs. cbn [is_file_fmode] in Hs. injection Hs as <-.
  destruct (plain_std n Hp) as [P1 [P2 P3]].
  unfold _create_filehandle, finish. cbn [s_name s_mode s_pos s_closed s_strictio s_fmode s_data]. rewrite P1, P2, P3.
  cbn [is_file_fmode is_contents_fmode is_handle_fmode negb]. rewrite !andb_true_r, !andb_false_r. cbn [andb].
  set (m := reported (h_mode h)). fold (size_of w n).
  set (pos := if h_closed h then Some 0 else Some (h_pos h)).
  set (p' := if match pos with Some p => Nat.ltb (size_of w n) p | None => false end then Some (size_of w n) else pos).
  assert (Hp' : h_closed h = false -> p' = Some (Nat.min (h_pos h) (size_of w n))).
  { intros C. unfold p', pos. rewrite C. destruct (Nat.ltb_spec (size_of w n) (h_pos h)); f_equal; lia. }
  assert (Fin : forall (g : handle) wg, h_mode g = m -> h_closed g = false -> (forall k, h_target g <> TStd k) ->
    (if h_closed h then let (g, w2) := close g wg in (@Ok handle g, w2)
     else match p' with Some p => let (g, w2) := seek g p wg in (Ok g, w2) | None => (Ok g, wg) end) = (Ok f, w') ->
    h_mode f = m /\ h_closed f = h_closed h /\ (h_closed h = false -> h_pos f = Nat.min (h_pos h) (size_of w n)) /\
    h_target f = h_target g /\ w' = wg).
  { intros g wg G1 G2 G3 E. destruct (h_closed h) eqn:C.
    - unfold close in E. injection E as <- <-. cbn. repeat split; auto; [discriminate|]. destruct (h_target g) eqn:T; auto. destruct (G3 i eq_refl).
    - rewrite (Hp' eq_refl) in E. unfold seek in E. injection E as <- <-. cbn. repeat split; auto.
      destruct (h_target g) eqn:T; auto. destruct (G3 i eq_refl). }
  destruct (negb (match get n (fs w) with Some _ => true | None => false end) && is_kind R m) eqn:T.
  - (* missing, reading: temporary *)
    cbn [as_unpickling]. intros E. apply Fin in E as [E1 [E2 [E3 [E4 E5]]]]; try reflexivity; [|discriminate].
    repeat split; auto. intros Hex. exfalso. apply andb_true_iff in T as [T1 T2]. destruct Hex as [Hex|Hex].
    + unfold exists_file in Hex. destruct (get n (fs w)); [discriminate|congruence].
    + unfold is_kind in T2. destruct (m_kind m); congruence.
  - assert (NotTemp : ~ exists_file w n -> m_kind m = R -> False).
    { intros H1 H2. unfold exists_file, is_kind in *. rewrite H2 in T. destruct (get n (fs w)) eqn:G; [apply H1; discriminate|discriminate]. }
    destruct (is_kind W m || is_kind X m).
    + destruct (open_no_truncate n m w) as [[g|e] wg] eqn:E; [|destruct e; discriminate].
      assert (Hg : h_mode g = m /\ h_closed g = false /\ h_target g = TNamed n).
      { unfold open_no_truncate in E. destruct (get n (fs w)) as [[c r wr|]|]; try discriminate.
        - destruct (_ || _); [discriminate|]. injection E as <- _. auto.
        - destruct (creatable w n); [|discriminate]. injection E as <- _. auto. }
      destruct Hg as [G1 [G2 G3]]. cbn [as_unpickling]. intros Ef. apply Fin in Ef as [E1 [E2 [E3 [E4 E5]]]]; auto.
      2: { intros k. rewrite G3. discriminate. }
      repeat split; auto; [congruence| |]; exfalso; eauto.
    + destruct (open_ n m w) as [[g|e] wg] eqn:E; [|destruct e; discriminate].
      destruct (open_target _ _ _ _ _ E) as [G3 [G1 G2]].
      cbn [as_unpickling]. intros Ef. apply Fin in Ef as [E1 [E2 [E3 [E4 E5]]]]; auto.
      2: { intros k. rewrite G3. discriminate. }
      repeat split; auto; [congruence| |]; exfalso; eauto.
Qed.
(** and a file that exists, with the permissions its mode needs, does load - also in exclusive-creation mode - onto
    that file, nothing else happening to the world *)
Theorem C21_existing_loads : forall h w0 w n c r wr,
  h_target h = TNamed n -> plain n -> get n (fs w) = Some (NFile c r wr) ->
  (m_kind (reported (h_mode h)) = R \/ m_plus (h_mode h) = true -> r = true) ->
  (m_kind (reported (h_mode h)) <> R \/ m_plus (h_mode h) = true -> wr = true) ->
  exists s f, _save_file false CONTENTS_FMODE h w0 = Ok s /\ _create_filehandle s w = (Ok f, w) /\ h_target f = TNamed n.
Proof.
  intros h w0 w n c r wr Ht Hp Hn Hr Hw. unfold _save_file. rewrite Ht. cbn [is_file_fmode].
  match goal with |- exists s f, Ok ?x = Ok s /\ _ => exists x end. destruct (plain_std n Hp) as [P1 [P2 P3]].
  unfold _create_filehandle, finish. cbn [s_name s_mode s_pos s_closed s_strictio s_fmode s_data]. rewrite P1, P2, P3.
  cbn [is_file_fmode is_contents_fmode is_handle_fmode negb]. rewrite !andb_true_r, !andb_false_r. cbn [andb].
  rewrite Hn. cbn [negb andb]. assert (Hpl : m_plus (reported (h_mode h)) = m_plus (h_mode h)) by (destruct (h_mode h) as [[] [] []]; reflexivity).
  rewrite <- Hpl in Hr, Hw. set (m := reported (h_mode h)) in *.
  set (pos := if match (if h_closed h then Some 0 else Some (h_pos h)) with Some p => Nat.ltb (length c) p | None => false end
              then Some (length c) else if h_closed h then Some 0 else Some (h_pos h)).
  assert (exists g, (if is_kind W m || is_kind X m then open_no_truncate n m w else open_ n m w) = (Ok g, w) /\ h_target g = TNamed n) as [g [-> G]].
  { unfold open_no_truncate, open_, is_kind, needs_read, needs_write, is_kind. rewrite Hn.
    destruct (m_kind m) eqn:K, (m_plus m) eqn:P; cbn [orb andb negb];
    try (assert (r = true) as -> by (apply Hr; auto)); try (assert (wr = true) as -> by (apply Hw; first [now right | left; discriminate]));
    cbn [negb orb]; eexists; (split; [reflexivity|reflexivity]). }
  cbn [as_unpickling]. destruct (h_closed h).
  - eexists. split; [reflexivity|]. unfold close. rewrite G. split; reflexivity.
  - destruct pos; eexists; (split; [reflexivity|]); [unfold seek; rewrite G; split; reflexivity|split; [reflexivity|exact G]].
Qed.
(** a missing file whose mode writes (w, a, x) is created empty, if the directory allows it, and nothing else changes *)
Theorem C21_missing_created : forall h w0 w n,
  h_target h = TNamed n -> plain n -> get n (fs w) = None -> m_kind (reported (h_mode h)) <> R -> creatable w n = true ->
  exists s f w', _save_file false CONTENTS_FMODE h w0 = Ok s /\ _create_filehandle s w = (Ok f, w') /\
    fs w' = fs (set_node n (NFile [] true true) w) /\ std w' = std w /\ h_target f = TNamed n /\ h_pos f = 0.
Proof.
  intros h w0 w n Ht Hp Hn Hk Hc. unfold _save_file. rewrite Ht. cbn [is_file_fmode].
  match goal with |- exists s f w', Ok ?x = Ok s /\ _ => exists x end. destruct (plain_std n Hp) as [P1 [P2 P3]].
  unfold _create_filehandle, finish. cbn [s_name s_mode s_pos s_closed s_strictio s_fmode s_data]. rewrite P1, P2, P3.
  cbn [is_file_fmode is_contents_fmode is_handle_fmode negb]. rewrite !andb_true_r, !andb_false_r. cbn [andb].
  rewrite Hn. cbn [negb andb]. set (m := reported (h_mode h)) in *.
  replace (is_kind R m) with false by (unfold is_kind; destruct (m_kind m); congruence).
  assert (Ho : (if is_kind W m || is_kind X m then open_no_truncate n m w else open_ n m w) =
     (Ok {| h_target := TNamed n; h_mode := m; h_pos := 0; h_closed := false |}, set_node n (NFile [] true true) w)).
  { unfold open_no_truncate, open_, is_kind. rewrite Hn, Hc. destruct (m_kind m); auto. congruence. }
  rewrite Ho. cbn [as_unpickling]. destruct (h_closed h).
  - do 2 eexists. split; [reflexivity|]. split; [unfold close; reflexivity|]. repeat split; auto.
  - destruct (Nat.ltb_spec 0 (h_pos h)); unfold seek; cbn [h_target]; do 2 eexists; (split; [reflexivity|]).
    + split; [reflexivity|]. repeat split; auto.
    + split; [reflexivity|]. repeat split; auto. cbn. lia.
Qed.

(** *** C22 *)
Definition text_like (w : world) (c : list nat) : Prop := decodable w c = true /\ ~ In 13 c.
Lemma universal_id c : ~ In 13 c -> universal c = c.
Proof.
  induction c as [|b c IH]; intros H; auto. cbn [universal].
  assert (Hc : universal c = c) by (apply IH; intros Hi; apply H; right; auto).
  assert (b <> 13) by (intros ->; apply H; left; auto).
  do 14 (destruct b as [|b]; [now rewrite Hc|]); rewrite Hc; try reflexivity; congruence.
Qed.
(** With FILE_FMODE and a handle whose (reported) mode is not "wb" or exclusive creation, on a file that
    decodes as text without carriage returns: whatever happened to the file in between, if loading
    succeeds the file has the contents of dump time, and the handle has the saved name, mode, position
    and closed state; no other file is touched. *)
Theorem C22_contents_restored_partial : forall h w0 w n c r0 wr0 s f w',
  h_target h = TNamed n -> plain n ->
  get n (fs w0) = Some (NFile c r0 wr0) -> text_like w0 c ->
  m_kind (h_mode h) <> X -> ~ (m_kind (h_mode h) = W /\ m_plus (h_mode h) = false /\ m_bin (h_mode h) = true) ->
  _save_file false FILE_FMODE h w0 = Ok s ->
  _create_filehandle s w = (Ok f, w') ->
  (exists r wr, get n (fs w') = Some (NFile c r wr)) /\ only_at n w w' /\
  h_target f = TNamed n /\ h_mode f = reported (h_mode h) /\ h_closed f = h_closed h /\
  (h_closed h = false -> h_pos f = h_pos h).
Proof.
  intros h w0 w n c r0 wr0 s f w' Ht Hp H0 [Hd Hcr] HX Hwb Hs.
  unfold _save_file in Hs. rewrite Ht in Hs. cbn [is_file_fmode] in Hs.
  destruct (open_ n _ w0) as [[g|e] wg]; [|discriminate]. rewrite H0, Hd, (universal_id c Hcr) in Hs. injection Hs as <-.
  destruct (plain_std n Hp) as [P1 [P2 P3]].
  unfold _create_filehandle, finish. cbn [s_name s_mode s_pos s_closed s_strictio s_fmode s_data]. rewrite P1, P2, P3.
  cbn [is_file_fmode is_contents_fmode is_handle_fmode negb]. rewrite !andb_false_r. cbn [andb].
  set (m := reported (h_mode h)) in *.
  set (m' := if is_kind W m then m else {| m_kind := W; m_plus := false; m_bin := false |}).
  assert (Hm' : m_bin m' = false /\ m_kind m' = W).
  { unfold m', m, is_kind, reported in *. destruct (h_mode h) as [[] [] []]; cbn in *; auto; exfalso; apply Hwb; auto. }
  destruct Hm' as [Hb Hk].
  set (pos := if h_closed h then Some 0 else Some (h_pos h)).
  destruct (open_ n m' w) as [[f1|e1] w1] eqn:O1; [|destruct (open_err _ _ _ _ _ O1) as [-> ->]; discriminate].
  destruct (open_target _ _ _ _ _ O1) as [T1 [T2 T3]]. unfold write_text. rewrite T2, Hb, T1.
  assert (F1 : exists r wr, get n (fs w1) = Some (NFile [] r wr)).
  { unfold open_ in O1. rewrite Hk in O1. destruct (get n (fs w)) as [[c1 r1 wr1|]|]; try discriminate.
    - destruct (_ || _); [discriminate|]. injection O1 as _ <-. exists r1, wr1. cbn. apply get_set_same.
    - destruct (creatable w n); [|discriminate]. injection O1 as _ <-. exists true, true. cbn. apply get_set_same. }
  destruct F1 as [r1 [wr1 F1]]. rewrite F1.
  set (w2 := set_node n (NFile c r1 wr1) w1).
  assert (A2 : only_at n w w2).
  { eapply only_at_trans; [|apply only_at_set]. pose proof (open_only_at n m' w) as A. rewrite O1 in A. exact A. }
  assert (F2 : get n (fs w2) = Some (NFile c r1 wr1)) by (cbn; apply get_set_same).
  assert (Fin : forall g wg, h_target g = TNamed n -> h_mode g = m -> h_closed g = false ->
    get n (fs wg) = Some (NFile c r1 wr1) -> only_at n w wg ->
    (if h_closed h then let (g, w2) := close g wg in (@Ok handle g, w2)
     else match pos with Some p => let (g, w2) := seek g p wg in (Ok g, w2) | None => (Ok g, wg) end) = (Ok f, w') ->
    (exists r wr, get n (fs w') = Some (NFile c r wr)) /\ only_at n w w' /\
    h_target f = TNamed n /\ h_mode f = m /\ h_closed f = h_closed h /\ (h_closed h = false -> h_pos f = h_pos h)).
  { intros g' wg' G1 G2 G3 G4 G5 E. unfold pos in E. destruct (h_closed h) eqn:C.
    - unfold close in E. rewrite G1 in E. injection E as <- <-. cbn. repeat split; eauto; try apply G5. discriminate.
    - unfold seek in E. rewrite G1 in E. injection E as <- <-. cbn. repeat split; eauto; apply G5. }
  destruct (is_kind W m) eqn:KW; cbn [negb].
  - cbn [as_unpickling]. apply Fin; auto.
  - destruct (open_ n m w2) as [[g3|e] w3] eqn:O2; [|destruct (open_err _ _ _ _ _ O2) as [-> ->]; discriminate].
    destruct (open_target _ _ _ _ _ O2) as [G1 [G2 G3]]. cbn [as_unpickling].
    assert (w3 = w2) as ->.
    { unfold open_ in O2. rewrite F2 in O2. destruct (_ || _); [discriminate|].
      unfold is_kind in KW. destruct (m_kind m); try discriminate; injection O2 as _ <-; auto. }
    apply Fin; auto.
Qed.
(** and loading does succeed if the file can be written in the loading process *)
Theorem C22_loads_partial : forall h w0 w n c wr0,
  h_target h = TNamed n -> plain n ->
  get n (fs w0) = Some (NFile c true wr0) -> text_like w0 c ->
  m_kind (h_mode h) <> X -> ~ (m_kind (h_mode h) = W /\ m_plus (h_mode h) = false /\ m_bin (h_mode h) = true) ->
  (exists c', get n (fs w) = Some (NFile c' true true)) \/ (get n (fs w) = None /\ creatable w n = true) ->
  exists s f w', _save_file false FILE_FMODE h w0 = Ok s /\ _create_filehandle s w = (Ok f, w').
Proof.
  intros h w0 w n c wr0 Ht Hp H0 [Hd Hcr] HX Hwb Hw. unfold _save_file. rewrite Ht. cbn [is_file_fmode].
  replace (open_ n {| m_kind := R; m_plus := false; m_bin := false |} w0) with (Ok {| h_target := TNamed n; h_mode := {| m_kind := R; m_plus := false; m_bin := false |}; h_pos := 0; h_closed := false |}, w0) by (unfold open_; rewrite H0; reflexivity).
  rewrite H0, Hd.
  match goal with |- exists s f w', Ok ?x = Ok s /\ _ => exists x end.
  destruct (plain_std n Hp) as [P1 [P2 P3]].
  unfold _create_filehandle, finish. cbn [s_name s_mode s_pos s_closed s_strictio s_fmode s_data]. rewrite P1, P2, P3.
  cbn [is_file_fmode is_contents_fmode is_handle_fmode negb]. rewrite !andb_false_r. cbn [andb].
  set (m := reported (h_mode h)) in *.
  set (m' := if is_kind W m then m else {| m_kind := W; m_plus := false; m_bin := false |}).
  assert (Hm' : m_bin m' = false /\ m_kind m' = W).
  { unfold m', m, is_kind, reported in *. destruct (h_mode h) as [[] [] []]; cbn in *; auto; exfalso; apply Hwb; auto. }
  destruct Hm' as [Hb Hk].
  assert (O1 : exists w1, open_ n m' w = (Ok {| h_target := TNamed n; h_mode := m'; h_pos := 0; h_closed := false |}, w1) /\
      get n (fs w1) = Some (NFile [] true true)).
  { unfold open_. rewrite Hk. destruct Hw as [[c' ->]|[-> ->]].
    - cbn [negb]. rewrite !andb_false_r. cbn [orb]. eexists. split; [reflexivity|]. cbn. apply get_set_same.
    - eexists. split; [reflexivity|]. cbn. apply get_set_same. }
  destruct O1 as [w1 [-> F1]]. unfold write_text. cbn [h_mode h_target h_closed]. rewrite Hb, F1.
  assert (F2 : get n (fs (set_node n (NFile (universal c) true true) w1)) = Some (NFile (universal c) true true)) by (cbn; apply get_set_same).
  set (w2 := set_node n (NFile (universal c) true true) w1) in *.
  assert (O2 : is_kind W m = false -> exists g, open_ n m w2 = (Ok g, w2) /\ h_target g = TNamed n).
  { intros K. unfold open_. rewrite F2. cbn [negb]. rewrite !andb_false_r. cbn [orb].
    unfold is_kind in K. destruct (m_kind m) eqn:Km; try discriminate; try (eexists; split; reflexivity).
    exfalso. apply HX. unfold m, reported in Km. destruct (h_mode h) as [[] [] []]; cbn in Km; try discriminate; reflexivity. }
  destruct (is_kind W m) eqn:KW; cbn [negb].
  - cbn [as_unpickling]. destruct (h_closed h).
    + do 2 eexists. split; [reflexivity|]. unfold close. reflexivity.
    + do 2 eexists. split; [reflexivity|]. unfold seek. reflexivity.
  - destruct (O2 eq_refl) as [g [-> G]]. cbn [as_unpickling]. destruct (h_closed h).
    + do 2 eexists. split; [reflexivity|]. unfold close. reflexivity.
    + do 2 eexists. split; [reflexivity|]. unfold seek. reflexivity.
Qed.
(** REFUTED for "wb": the file is emptied and loading fails with TypeError *)
Theorem C22_wb_refuted : exists h w n c s,
  get n (fs w) = Some (NFile c true true) /\ c <> [] /\ text_like w c /\
  _save_file false FILE_FMODE h w = Ok s /\
  fst (_create_filehandle s w) = Err TypeError /\
  get n (fs (snd (_create_filehandle s w))) = Some (NFile [] true true).
Proof.
  exists {| h_target := TNamed "f"; h_mode := {| m_kind := W; m_plus := false; m_bin := true |}; h_pos := 2; h_closed := false |},
    {| fs := [("f", NFile [104; 105] true true)]; creatable := fun _ => true; decodable := fun _ => true; std := fun _ => (false, 0) |},
    "f", [104; 105]. eexists.
  repeat split; try discriminate; try reflexivity. simpl. intuition discriminate.
Qed.
(** REFUTED for exclusive creation ("x"): loading always fails, even where the file had been deleted *)
Theorem C22_x_refuted : forall s w, s_fmode s = FILE_FMODE -> m_kind (s_mode s) = X -> plain (s_name s) -> s_strictio s = false ->
  fst (_create_filehandle s w) = Err UnpicklingError.
Proof.
  intros s w Hf Hm Hp Hst. destruct (plain_std _ Hp) as [P1 [P2 P3]]. unfold _create_filehandle, finish. rewrite Hf, P1, P2, P3, Hst.
  cbn [is_file_fmode is_contents_fmode is_handle_fmode negb]. rewrite !andb_false_r. unfold is_kind. rewrite Hm. cbn [negb].
  destruct (open_ (s_name s) _ w) as [[g|e] w1] eqn:O1; [|destruct (open_err _ _ _ _ _ O1) as [-> ->]; reflexivity].
  destruct (open_target _ _ _ _ _ O1) as [T1 [T2 T3]]. unfold write_text. rewrite T2. cbn [m_bin]. rewrite T1.
  destruct (get (s_name s) (fs w1)) as [[c r wr|]|]; [|reflexivity|reflexivity].
  unfold open_. cbn [set_node fs]. rewrite get_set_same. destruct (_ || _); [reflexivity|]. rewrite Hm. reflexivity.
Qed.
(** REFUTED for carriage returns: the restored contents differ *)
Theorem C22_newlines_refuted : exists h w n c s,
  get n (fs w) = Some (NFile c true true) /\ decodable w c = true /\
  h_mode h = {| m_kind := R; m_plus := false; m_bin := true |} /\
  _save_file false FILE_FMODE h w = Ok s /\
  exists f w' c', _create_filehandle s w = (Ok f, w') /\ get n (fs w') = Some (NFile c' true true) /\ c' <> c.
Proof.
  exists {| h_target := TNamed "f"; h_mode := {| m_kind := R; m_plus := false; m_bin := true |}; h_pos := 0; h_closed := false |},
    {| fs := [("f", NFile [97; 13; 10; 98] true true)]; creatable := fun _ => true; decodable := fun _ => true; std := fun _ => (false, 0) |},
    "f", [97; 13; 10; 98]. eexists.
  repeat split. do 3 eexists. split; [reflexivity|]. split; [reflexivity|]. discriminate.
Qed.

(** *** C23 *)
(** an open standard stream loads as the process's own stream, untouched, with the two modes that do not
    copy file contents *)
Theorem C23_standard_streams : forall h i w0 w fm,
  h_target h = TStd i -> i < 3 -> h_closed h = false -> fm <> FILE_FMODE ->
  exists s f, _save_file false fm h w0 = Ok s /\ _create_filehandle s w = (Ok f, w) /\ h_target f = TStd i /\
    h_pos f = snd (std w i) /\ h_closed f = fst (std w i).
Proof.
  intros h i w0 w fm Ht Hi Hc Hfm. unfold _save_file. rewrite Ht, Hc.
  destruct fm; [| |congruence]; do 2 eexists; (split; [reflexivity|]); unfold _create_filehandle; cbn [s_name s_pos s_closed s_fmode s_mode];
  destruct i as [|[|[|i]]]; try lia; (split; [reflexivity|]); auto.
Qed.
(** a handle of a standard stream that was closed when pickled closes the loading process's stream *)
Theorem C23_closed_stream_closes : forall h i w0 w fm s,
  h_target h = TStd i -> i < 3 -> h_closed h = true ->
  _save_file false fm h w0 = Ok s ->
  fst (std (snd (_create_filehandle s w)) i) = true.
Proof.
  intros h i w0 w fm s Ht Hi Hc Hs. unfold _save_file in Hs. rewrite Ht, Hc in Hs.
  destruct (if is_file_fmode fm then _ else Ok []) as [d|]; [|discriminate]. injection Hs as <-.
  unfold _create_filehandle, finish. cbn [s_name s_pos s_closed s_fmode s_mode].
  destruct i as [|[|[|i]]]; try lia; reflexivity.
Qed.
(** An ordinary name that does not strictly exist-check (strictio off) fails only with UnpicklingError - or, in
    FILE_FMODE with mode "wb", TypeError - and exactly when the file cannot be opened. *)
Theorem C23_errors : forall s w e w',
  plain (s_name s) -> s_strictio s = false ->
  _create_filehandle s w = (Err e, w') ->
  e = UnpicklingError \/
  (e = TypeError /\ s_fmode s = FILE_FMODE /\ m_kind (s_mode s) = W /\ m_bin (s_mode s) = true).
Proof.
  intros s w e w' Hp Hst. destruct (plain_std _ Hp) as [P1 [P2 P3]]. unfold _create_filehandle, finish. rewrite P1, P2, P3, Hst.
  rewrite !andb_false_r.
  set (opened := as_unpickling _).
  assert (Ho : forall x, fst opened = Err x -> x = UnpicklingError \/ (x = TypeError /\ s_fmode s = FILE_FMODE /\ m_kind (s_mode s) = W /\ m_bin (s_mode s) = true)).
  { intros x Hx. unfold opened in Hx. destruct (is_file_fmode (s_fmode s)) eqn:Ff.
    - set (m := if is_kind W (s_mode s) then _ else _) in Hx.
      destruct (open_ (s_name s) m w) as [[g|e1] w1] eqn:O1.
      + destruct (open_target _ _ _ _ _ O1) as [T1 [T2 T3]]. unfold write_text in Hx. rewrite T2 in Hx.
        destruct (m_bin m) eqn:B.
        * cbn in Hx. injection Hx as <-. right. unfold m, is_kind in B. destruct (m_kind (s_mode s)) eqn:K; try discriminate.
          destruct (s_fmode s); try discriminate. auto.
        * rewrite T1 in Hx. destruct (get (s_name s) (fs w1)) as [[c r wr|]|]; [|cbn in Hx; injection Hx as <-; auto|cbn in Hx; injection Hx as <-; auto].
          destruct (negb (is_kind W (s_mode s))); [|cbn in Hx; discriminate].
          destruct (open_ (s_name s) (s_mode s) _) as [[g2|e2] w2] eqn:O2; [cbn in Hx; discriminate|].
          destruct (open_err _ _ _ _ _ O2) as [-> ->]. cbn in Hx. injection Hx as <-. auto.
      + destruct (open_err _ _ _ _ _ O1) as [-> ->]. cbn in Hx. injection Hx as <-. auto.
    - destruct (negb _ && is_kind R (s_mode s) && negb false); [cbn in Hx; discriminate|].
      destruct (is_contents_fmode (s_fmode s) && _).
      + destruct (open_no_truncate (s_name s) (s_mode s) w) as [[g|e1] w1] eqn:O1; [cbn in Hx; discriminate|].
        assert (e1 = OSError) as ->.
        { unfold open_no_truncate in O1. destruct (get (s_name s) (fs w)) as [[c r wr|]|]; [destruct (_ || _)| |destruct (creatable w (s_name s))]; congruence. }
        cbn in Hx. injection Hx as <-. auto.
      + destruct (open_ (s_name s) (s_mode s) w) as [[g|e1] w1] eqn:O1; [cbn in Hx; discriminate|].
        destruct (open_err _ _ _ _ _ O1) as [-> ->]. cbn in Hx. injection Hx as <-. auto. }
  destruct opened as [[f|e1] w1].
  - destruct (s_closed s); [unfold close; discriminate|]. destruct (if _ && is_contents_fmode (s_fmode s) then _ else _); [|discriminate].
    destruct (is_handle_fmode (s_fmode s)); [discriminate|]. unfold seek; discriminate.
  - intros E. injection E as <- _. apply Ho. reflexivity.
Qed.
(** a missing file opened for reading is not an error: an empty temporary file takes its place *)
Theorem C23_missing_reads_temporary : forall s w,
  plain (s_name s) -> s_strictio s = false -> s_fmode s <> FILE_FMODE ->
  get (s_name s) (fs w) = None -> m_kind (s_mode s) = R ->
  exists f, _create_filehandle s w = (Ok f, w) /\ h_target f = TTemp /\ h_mode f = s_mode s.
Proof.
  intros s w Hp Hst Hf Hn Hm. destruct (plain_std _ Hp) as [P1 [P2 P3]]. unfold _create_filehandle, finish. rewrite P1, P2, P3, Hst, Hn.
  rewrite !andb_false_r. unfold is_kind. rewrite Hm. cbn [negb andb].
  destruct (s_fmode s); [| |congruence]; cbn [is_file_fmode is_contents_fmode is_handle_fmode negb as_unpickling];
  (destruct (s_closed s); [eexists; split; [reflexivity|auto]|]).
  - destruct (s_pos s); eexists; split; try reflexivity; auto.
    all: rewrite ?andb_false_r; try reflexivity; auto.
  - destruct (s_pos s) as [p|]; [destruct (Nat.ltb 0 p)|]; eexists; split; try reflexivity; auto.
Qed.
(** with strictio a missing file is FileNotFoundError, not UnpicklingError *)
Theorem C23_strictio_refuted : exists s w, plain (s_name s) /\ fst (_create_filehandle s w) = Err FileNotFoundError.
Proof.
  exists {| s_name := "gone"; s_mode := {| m_kind := R; m_plus := false; m_bin := false |}; s_pos := Some 0; s_closed := false;
            s_strictio := true; s_fmode := HANDLE_FMODE; s_data := [] |},
         {| fs := []; creatable := fun _ => true; decodable := fun _ => true; std := fun _ => (false, 0) |}.
  split; [repeat split; discriminate|reflexivity].
Qed.

(** concrete cases *)
Definition exw (c : list nat) : world :=
  {| fs := [("a", NFile [1] true true); ("f", NFile c true true); ("d", NDir)]; creatable := fun _ => true; decodable := fun _ => true; std := fun _ => (false, 7) |}.
Definition exh k p : handle := {| h_target := TNamed "f"; h_mode := {| m_kind := k; m_plus := p; m_bin := false |}; h_pos := 4; h_closed := false |}.
Example ex_C20 : exists s, _save_file false HANDLE_FMODE (exh W false) (exw [1; 2; 3; 4; 5]) = Ok s /\
  _create_filehandle s (exw [6; 7]) = (Ok {| h_target := TNamed "f"; h_mode := {| m_kind := W; m_plus := false; m_bin := false |}; h_pos := 0; h_closed := false |},
     set_node "f" (NFile [] true true) (exw [6; 7])).
Proof. eexists. split; reflexivity. Qed.
Example ex_C21 : exists s, _save_file false CONTENTS_FMODE (exh W false) (exw [1; 2; 3; 4; 5]) = Ok s /\
  _create_filehandle s (exw [6; 7]) = (Ok {| h_target := TNamed "f"; h_mode := {| m_kind := W; m_plus := false; m_bin := false |}; h_pos := 2; h_closed := false |}, exw [6; 7]).
Proof. eexists. split; reflexivity. Qed.
Example ex_C22 : exists s, _save_file false FILE_FMODE (exh R true) (exw [1; 2; 3; 4; 5]) = Ok s /\
  exists w', _create_filehandle s (exw [6; 7]) = (Ok {| h_target := TNamed "f"; h_mode := {| m_kind := R; m_plus := true; m_bin := false |}; h_pos := 4; h_closed := false |}, w')
   /\ get "f" (fs w') = Some (NFile [1; 2; 3; 4; 5] true true).
Proof. eexists. split; [reflexivity|]. eexists. split; reflexivity. Qed.
