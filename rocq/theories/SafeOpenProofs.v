From Coq Require Import String List Bool Arith NArith Lia.
From Verif Require Import PyDict SafeOpenModel.
Import ListNotations.

Definition no_adv (f : fs) : fs := f.

Lemma open_inode_spec fl f i j f' : open_inode fl f i = Ok (j, f') ->
  j = i /\ at_path f' = at_path f /\
  (exists nd, get i (inodes f) = Some nd /\
     get i (inodes f') = Some {| data := if o_trunc fl then [] else data nd; perm := perm nd |}) /\
  (forall k, k <> i -> get k (inodes f') = get k (inodes f)).
Proof.
  unfold open_inode. destruct (get i (inodes f)) as [nd|] eqn:E; [|discriminate].
  destruct (o_trunc fl); intros H; inversion H; subst; clear H; cbn.
  - repeat split; eauto.
    + exists nd. split; auto. now rewrite get_set_same.
    + intros k Hk. now apply get_set_other.
  - repeat split; auto. exists nd. split; auto. rewrite E. destruct nd; reflexivity.
Qed.

(** the file opened is the one the path itself names at that instant *)
Lemma write_safe umask adv1 adv2 f i f' :
  _safe_open_for_writing true umask adv1 adv2 f = Ok (i, f') -> at_path f' = Reg i.
Proof.
  unfold _safe_open_for_writing, os_open, _check_symlink; cbn.
  destruct (at_path f) eqn:E; cbn.
  - intros H. inversion H; subst. reflexivity.
  - destruct (at_path (adv1 f)); try discriminate;
      destruct (at_path (adv2 (adv1 f))) eqn:E2; try discriminate; intros H;
      apply open_inode_spec in H as (-> & H & _); congruence.
  - destruct (at_path (adv1 f)); try discriminate;
      destruct (at_path (adv2 (adv1 f))) eqn:E2; try discriminate; intros H;
      apply open_inode_spec in H as (-> & H & _); congruence.
  - destruct (at_path (adv1 f)); try discriminate;
      destruct (at_path (adv2 (adv1 f))) eqn:E2; try discriminate; intros H;
      apply open_inode_spec in H as (-> & H & _); congruence.
Qed.

Lemma read_safe umask adv f i f' :
  _safe_open_for_reading true umask adv f = Ok (i, f') -> f' = adv f /\ at_path f' = Reg i.
Proof.
  unfold _safe_open_for_reading, os_open, _check_symlink; cbn.
  assert (G : forall j, at_path (adv f) = Reg j ->
     open_inode {| o_creat_excl := false; o_trunc := false; o_nofollow := true |} (adv f) j = Ok (i, f') ->
     f' = adv f /\ at_path f' = Reg i).
  { intros j Ej H. unfold open_inode in H. destruct (get j (inodes (adv f))); cbn in H; [|discriminate].
    inversion H; subst. auto. }
  destruct (at_path f); try discriminate;
    destruct (at_path (adv f)) eqn:E2; try discriminate; eauto.
Qed.

(** no file other than the opened one is changed by the opening itself *)
Lemma write_frame umask adv1 adv2 f i f' :
  _safe_open_for_writing true umask adv1 adv2 f = Ok (i, f') ->
  forall k, k <> i -> get k (inodes f') = get k (inodes f) \/ get k (inodes f') = get k (inodes (adv2 (adv1 f))).
Proof.
  unfold _safe_open_for_writing, os_open, _check_symlink; cbn.
  destruct (at_path f) eqn:E; cbn.
  - intros H. inversion H; subst. intros k Hk. left. cbn. now apply get_set_other.
  - destruct (at_path (adv1 f)); try discriminate;
      destruct (at_path (adv2 (adv1 f))) eqn:E2; try discriminate; intros H k Hk;
      apply open_inode_spec in H as (-> & H & _ & Hf); right; auto.
  - destruct (at_path (adv1 f)); try discriminate;
      destruct (at_path (adv2 (adv1 f))) eqn:E2; try discriminate; intros H k Hk;
      apply open_inode_spec in H as (-> & H & _ & Hf); right; auto.
  - destruct (at_path (adv1 f)); try discriminate;
      destruct (at_path (adv2 (adv1 f))) eqn:E2; try discriminate; intros H k Hk;
      apply open_inode_spec in H as (-> & H & _ & Hf); right; auto.
Qed.

(** without O_NOFOLLOW and without interference it is safe too *)
Lemma write_safe_quiet umask f i f' :
  _safe_open_for_writing false umask no_adv no_adv f = Ok (i, f') -> at_path f' = Reg i.
Proof.
  unfold _safe_open_for_writing, os_open, _check_symlink, no_adv; cbn.
  destruct (at_path f) eqn:E; cbn; rewrite ?E; try discriminate.
  - intros H. inversion H; subst. reflexivity.
  - intros H. apply open_inode_spec in H as (-> & H & _); congruence.
Qed.
Lemma read_safe_quiet umask f i f' :
  _safe_open_for_reading false umask no_adv f = Ok (i, f') -> at_path f' = Reg i.
Proof.
  unfold _safe_open_for_reading, os_open, _check_symlink, no_adv; cbn.
  destruct (at_path f) eqn:E; cbn; try discriminate.
  intros H. apply open_inode_spec in H as (-> & H & _); congruence.
Qed.

Lemma fresh_none f : get (fresh f) (inodes f) = None.
Proof.
  apply get_None_iff. unfold fresh, keys. intros H.
  assert (G : forall l n, In n l -> n <= fold_right Nat.max 0 l).
  { clear. induction l as [|x l IH]; cbn; [tauto|]. intros n [->|H]; [lia|]. apply IH in H. lia. }
  apply G in H. lia.
Qed.

Lemma write_created umask adv1 adv2 f : at_path f = Absent ->
  forall nf, exists i f',
  _safe_open_for_writing nf umask adv1 adv2 f = Ok (i, f') /\ at_path f' = Reg i /\
  get i (inodes f) = None /\ get i (inodes f') = Some {| data := []; perm := N.ldiff 384 umask |}.
Proof.
  intros E nf. unfold _safe_open_for_writing, os_open; cbn. rewrite E.
  do 2 eexists. split; [reflexivity|]. cbn. repeat split.
  - apply fresh_none.
  - apply get_set_same.
Qed.

Lemma write_existing umask f i nd nf : at_path f = Reg i -> get i (inodes f) = Some nd ->
  exists f', _safe_open_for_writing nf umask no_adv no_adv f = Ok (i, f') /\
    get i (inodes f') = Some {| data := []; perm := perm nd |}.
Proof.
  intros E Hi. unfold _safe_open_for_writing, os_open, _check_symlink, no_adv; cbn. rewrite E. cbn.
  unfold open_inode. rewrite Hi. cbn. eexists. split; [reflexivity|]. cbn. apply get_set_same.
Qed.
