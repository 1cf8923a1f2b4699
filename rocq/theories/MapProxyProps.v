(** C65: mapping proxies and dictionary views keep showing their mapping. *)
From Coq Require Import List Bool Arith Lia.
From Verif Require Import PyDict MapProxyModel.
Import ListNotations.

Definition fresh (H : heap) : Prop := forall o m, objs H o = Some m -> o < next H.

(** the mapping pickled always has the items of the mapping shown *)
Theorem C65_contents : forall trick H o m o' H', objs H o = Some m -> saved_mapping trick H o = Some (o', H') ->
  exists m', objs H' o' = Some m' /\ m_items m' = m_items m.
Proof.
  intros trick H o m o' H' E S. unfold saved_mapping, or_helper, copy_of in S. rewrite E in S. destruct trick.
  - destruct (is_dict (m_cls m)); [|destruct (c_or (m_cls m))]; injection S as <- <-; cbn; rewrite ?Nat.eqb_refl; eauto.
  - destruct (c_copy (m_cls m)); try discriminate; injection S as <- <-; cbn; rewrite Nat.eqb_refl; eauto.
Qed.
(** pickling changes no mapping *)
Theorem C65_untouched : forall trick H o x m o' H', fresh H -> objs H x = Some m -> saved_mapping trick H o = Some (o', H') -> objs H' x = Some m.
Proof.
  intros trick H o x m o' H' F X S. assert (forall n, objs (snd (alloc H n)) x = Some m) as A.
  { intros n. cbn. destruct (Nat.eqb_spec x (next H)) as [->|]; [|exact X]. specialize (F _ _ X). lia. }
  unfold saved_mapping, or_helper, copy_of in S. destruct (objs H o) as [mo|] eqn:E; [|destruct trick; discriminate]. destruct trick.
  - destruct (is_dict (m_cls mo)); [|destruct (c_or (m_cls mo))]; injection S as <- <-; try exact X; apply A.
  - destruct (c_copy (m_cls mo)); try discriminate; injection S as <- <-; apply A.
Qed.
(** the copy of a proxy of a dict, or of a mapping whose class makes no | with dictionaries, is a proxy of the copy of that mapping: whatever is done to the
    copied mapping [cp o] later, it shows *)
Theorem C65_live_partial : forall H o m, objs H o = Some m -> is_dict (m_cls m) = true \/ c_or (m_cls m) = OrDeclines ->
  exists H', saved_mapping true H o = Some (o, H') /\
    forall L cp, loaded H' L cp -> shows L (cp o) = Some (m_items m) /\
      (forall k v, shows (setitem L (cp o) k v) (cp o) = Some (set k v (m_items m))).
Proof.
  intros H o m E C. exists H. split.
  - unfold saved_mapping, or_helper. rewrite E. destruct C as [-> | C]; [reflexivity|]. destruct (is_dict (m_cls m)); [reflexivity|]. rewrite C. reflexivity.
  - intros L cp LD. unfold shows, setitem. cbn. rewrite Nat.eqb_refl, (LD _ _ E). split; [reflexivity|]. intros k v. reflexivity.
Qed.
(** REFUTED: a mapping of any other class with a | is copied first (and always before Python 3.9): the copied proxy shows a mapping of its own, and no longer
    what happens to the copied mapping *)
Theorem C65_copy_refuted : forall trick H o m, fresh H -> objs H o = Some m ->
  (trick = true -> is_dict (m_cls m) = false /\ c_or (m_cls m) <> OrDeclines) -> (trick = false -> c_copy (m_cls m) <> NoCopy) ->
  exists o' H', saved_mapping trick H o = Some (o', H') /\ o' <> o /\
    forall L cp, (forall a b, cp a = cp b -> a = b) -> loaded H' L cp ->
      forall k v, shows (setitem L (cp o) k v) (cp o) = Some (set k v (m_items m)) /\ shows (setitem L (cp o) k v) (cp o') = Some (m_items m).
Proof.
  intros trick H o m F E T N. pose proof (F _ _ E) as Lt.
  assert (exists c H', saved_mapping trick H o = Some (next H, H') /\ objs H' (next H) = Some (Mapping c (m_items m)) /\ objs H' o = Some m) as (c & H' & S & A & B).
  { assert (forall n, objs (snd (alloc H n)) o = Some m) as K. { intros n. cbn. destruct (Nat.eqb_spec o (next H)); [lia|exact E]. }
    assert (forall n, objs (snd (alloc H n)) (next H) = Some n) as K2. { intros n. cbn. rewrite Nat.eqb_refl. reflexivity. }
    unfold saved_mapping, or_helper, copy_of. rewrite E. destruct trick.
    - destruct (T eq_refl) as (-> & Q). destruct (c_or (m_cls m)); [..|contradiction]; (eexists; eexists; split; [reflexivity|split; [apply K2|apply K]]).
    - specialize (N eq_refl). destruct (c_copy (m_cls m)); [..|contradiction]; (eexists; eexists; split; [reflexivity|split; [apply K2|apply K]]). }
  exists (next H), H'. split; [exact S|]. split; [lia|]. intros L cp I LD k v. unfold shows, setitem. cbn.
  rewrite Nat.eqb_refl, (LD _ _ B). split; [reflexivity|]. destruct (Nat.eqb_spec (cp (next H)) (cp o)) as [Q|Q]; [apply I in Q; lia|].
  rewrite (LD _ _ A). reflexivity.
Qed.
(** REFUTED: a proxy of an instance of a subclass of dict becomes a proxy of a plain dict *)
Theorem C65_class_refuted : forall H o m, objs H o = Some m -> is_dict (m_cls m) = false -> c_or (m_cls m) = OrDict ->
  exists o' H' m', saved_mapping true H o = Some (o', H') /\ objs H' o' = Some m' /\ m_cls m' = dict_class /\ m_cls m' <> m_cls m.
Proof.
  intros H o m E D O. unfold saved_mapping, or_helper. rewrite E, D, O. eexists. eexists. eexists. split; [reflexivity|]. cbn. rewrite Nat.eqb_refl.
  split; [reflexivity|]. split; [reflexivity|]. cbn. intros X. rewrite <- X in D. discriminate.
Qed.
(** REFUTED before Python 3.9: a proxy of a mapping without copy() does not pickle *)
Theorem C65_no_copy_refuted : forall H o m, objs H o = Some m -> c_copy (m_cls m) = NoCopy -> saved_mapping false H o = None.
Proof. intros H o m E C. unfold saved_mapping, copy_of. rewrite E, C. reflexivity. Qed.

(** examples: 1 is a dict, 2 an OrderedDict, 3 an instance of a subclass of dict *)
Definition ordered : cls := Cls false OrOwn CopyOwn 1.
Definition missing : cls := Cls false OrDict CopyDict 2.
Definition ex_heap : heap := Heap (fun o => match o with 1 => Some (Mapping dict_class [(7, 70)]) | 2 => Some (Mapping ordered [(8, 80)])
  | 3 => Some (Mapping missing [(9, 90)]) | _ => None end) 4.
Example ex_fresh : fresh ex_heap.
Proof. intros o m. cbn. destruct o as [|[|[|[|]]]]; try discriminate; lia. Qed.
Example ex_dict : option_map fst (saved_mapping true ex_heap 1) = Some 1. Proof. reflexivity. Qed.
Example ex_ordered : option_map fst (saved_mapping true ex_heap 2) = Some 4. Proof. reflexivity. Qed.
Example ex_missing : match saved_mapping true ex_heap 3 with Some (o, H) => objs H o = Some (Mapping dict_class [(9, 90)]) | None => False end.
Proof. reflexivity. Qed.
