From Coq Require Import String List Bool Arith NArith Lia.
From Verif Require Import PyDict SafeOpenModel SafeOpenProofs DumpModuleModel.
Import ListNotations.

Definition content (i : ino) (f : fs) : option (list nat) :=
  match get i (inodes f) with Some nd => Some (data nd) | None => None end.

Lemma append_content i bs f d : content i f = Some d -> content i (append_data i bs f) = Some (d ++ bs).
Proof.
  unfold content, append_data. destruct (get i (inodes f)) as [nd|]; [|discriminate].
  intros E. inversion E; subst. cbn. now rewrite get_set_same.
Qed.
Lemma append_other i j bs f : j <> i -> get j (inodes (append_data i bs f)) = get j (inodes f).
Proof. unfold append_data. destruct (get i (inodes f)); auto. intros Hn. cbn. now apply get_set_other. Qed.
Lemma append_path i bs f : at_path (append_data i bs f) = at_path f.
Proof. unfold append_data. destruct (get i (inodes f)); auto. Qed.

Lemma do_writes_spec ws : forall h f d, content (h_ino h) f = Some d ->
  let (h', f') := do_writes ws h f in
  h_ino h' = h_ino h /\ h_closed h' = h_closed h /\ at_path f' = at_path f /\
  (forall j, j <> h_ino h -> get j (inodes f') = get j (inodes f)) /\
  exists d', content (h_ino h) f' = Some d' /\ d' ++ h_buf h' = d ++ h_buf h ++ concat (map fst ws).
Proof.
  induction ws as [|[c n] ws IH]; intros h f d Hd; cbn [do_writes].
  - repeat split; auto. exists d. split; auto. cbn. now rewrite app_nil_r.
  - unfold h_write.
    set (h1 := {| h_ino := h_ino h; h_buf := skipn n (h_buf h ++ c); h_closed := h_closed h |}).
    set (f1 := append_data (h_ino h) (firstn n (h_buf h ++ c)) f).
    assert (H1 : content (h_ino h1) f1 = Some (d ++ firstn n (h_buf h ++ c))).
    { apply append_content. exact Hd. }
    specialize (IH h1 f1 _ H1). destruct (do_writes ws h1 f1) as [h' f'].
    destruct IH as (I1 & I2 & I3 & I4 & d' & I5 & I6). cbn in I1, I2, I5, I6 |- *.
    repeat split; auto.
    + rewrite I3. apply append_path.
    + intros j Hj. rewrite I4 by auto. now apply append_other.
    + exists d'. split; auto. rewrite I6. rewrite <- app_assoc. f_equal.
      rewrite app_assoc, firstn_skipn. now rewrite <- app_assoc.
Qed.

Lemma open_empty umask f i f1 :
  _safe_open_for_writing true umask (fun f => f) (fun f => f) f = Ok (i, f1) ->
  at_path f1 = Reg i /\ content i f1 = Some [] /\ forall j, j <> i -> get j (inodes f1) = get j (inodes f).
Proof.
  intros H. split; [eapply write_safe; exact H|]. split.
  - unfold _safe_open_for_writing, os_open, _check_symlink in H; cbn in H.
    destruct (at_path f) eqn:E; cbn in H; try rewrite E in H; try discriminate.
    + inversion H; subst. unfold content. cbn. now rewrite get_set_same.
    + apply open_inode_spec in H as (-> & _ & (nd & _ & Hn) & _). unfold content. rewrite Hn. reflexivity.
  - intros j Hj. destruct (write_frame _ _ _ _ _ _ H j Hj); auto.
Qed.

Definition written (r : run) : list nat := concat (map fst (executed r)).

Lemma dump_path_spec umask r f o h f' :
  dump_to_path umask r f = (o, h, f') ->
  match h with
  | None => f' = f /\ ((exists n, o = Raised (ArgError n)) \/ (exists e, o = Raised (OpenError e)))
  | Some h =>
    at_path f' = Reg (h_ino h) /\
    (forall j, j <> h_ino h -> get j (inodes f') = get j (inodes f)) /\
    match o with
    | Crashed => exists d rest, content (h_ino h) f' = Some d /\ written r = d ++ rest
    | _ => content (h_ino h) f' = Some (written r) /\ h_closed h = true
    end
  end.
Proof.
  unfold dump_to_path. destruct (arg_error r) as [n|].
  { intros H; inversion H; subst. split; auto. left; eauto. }
  destruct (_safe_open_for_writing true umask (fun f => f) (fun f => f) f) as [[i f1]|e] eqn:Eo.
  2:{ intros H; inversion H; subst. split; auto. right; eauto. }
  apply open_empty in Eo as (Hp & Hc & Hfr).
  pose proof (do_writes_spec (executed r) {| h_ino := i; h_buf := []; h_closed := false |} f1 [] Hc) as Hw.
  destruct (do_writes (executed r) _ f1) as [h1 f2]. cbn in Hw.
  destruct Hw as (W1 & W2 & W3 & W4 & d' & W5 & W6).
  destruct (crash r).
  - intros H; inversion H; subst. rewrite W3. repeat split; auto.
    + intros j Hj. rewrite W4; auto.
    + exists d', (h_buf h1). split; auto. 
  - unfold h_close. assert (Hcl : content i (append_data i (h_buf h1) f2) = Some (written r)).
    { rewrite (append_content i _ f2 d' W5). f_equal. exact W6. }
    rewrite W1. destruct (fail r) as [[k n]|]; intros H; inversion H; subst; clear H; cbn;
    (repeat split; [rewrite append_path; congruence | | exact Hcl]);
    intros j Hj; rewrite append_other, W4 by auto; auto.
Qed.

Lemma dump_stream_spec r s o s' : dump_to_stream r s = (o, s') ->
  s_closed s' = s_closed s /\
  (s' = s /\ (exists n, o = Raised (ArgError n)) \/ s_data s' = s_data s ++ written r).
Proof.
  unfold dump_to_stream. destruct (arg_error r) as [n|].
  { intros H; inversion H; subst. split; auto. left; eauto. }
  destruct (crash r); [|destruct (fail r) as [[k n]|]]; intros H; inversion H; subst; cbn; auto.
Qed.
