(** C70: creating a class again runs its hooks again. *)
From Coq Require Import String List Bool Arith Lia.
From Verif Require Import PyDict HooksModel.
Import ListNotations.
Local Open Scope string_scope.

(** ** specification *)
(** what __init_subclass__ stores in a class made without keywords *)
Definition default_of (hs : list hook) (n : string) (v : nat) : Prop := exists h, In h hs /\ In (n, Some v) (h_params h).
Definition is_param (hs : list hook) (n : string) : Prop := exists h o, In h hs /\ In (n, o) (h_params h).
(** a parameter that must be given *)
Definition required (hs : list hook) (n : string) : Prop := exists h, In h hs /\ In (n, None) (h_params h).
(** the last name of descriptor d in a namespace *)
Definition last_name (ns : dict string av) (d : nat) (n : string) : Prop :=
  exists pre post, ns = (pre ++ (n, ADesc d) :: post)%list /\ forall n', ~ In (n', ADesc d) post.
(** new descriptors for those of the class *)
Definition fresh_descs (W : world) (ns : dict string av) (f : nat -> nat) : Prop :=
  (forall n d, In (n, ADesc d) ns -> descs W (f d) = None) /\
  (forall n n' d d', In (n, ADesc d) ns -> In (n', ADesc d') ns -> f d = f d' -> d = d').

(** ** lemmas *)
Lemma In_params hs n o : In (n, o) (all_params hs) <-> exists h, In h hs /\ In (n, o) (h_params h).
Proof. unfold all_params. rewrite in_flat_map. firstorder. Qed.

Lemma arguments_nil ps : (forall n, ~ In (n, None) ps) -> exists l, arguments [] ps = Some l /\ map (fun a => (fst a, Some (snd a))) l = ps.
Proof.
  induction ps as [|[n o] ps IH]; intros N; [exists []; split; reflexivity|]. destruct IH as (l & E & M). { intros k K. apply (N k). right. exact K. }
  destruct o as [v|]; [|exfalso; apply (N n); left; reflexivity]. exists ((n, v) :: l). cbn [arguments argument fst snd get]. rewrite E. split; [reflexivity|].
  cbn [map fst snd]. rewrite M. reflexivity.
Qed.
Lemma arguments_none ps n : In (n, None) ps -> arguments [] ps = None.
Proof.
  induction ps as [|[k o] ps IH]; intros I; [destruct I|]. cbn [arguments argument fst snd get]. destruct I as [E|I].
  - injection E as -> ->. reflexivity.
  - rewrite (IH I). destruct o; reflexivity.
Qed.

Lemma get_set_params l : forall ns n, NoDup (map fst l) ->
  get n (set_params ns l) = match get n l with Some v => Some (AVal v) | None => get n ns end.
Proof.
  induction l as [|[k v] l IH]; intros ns n ND; [reflexivity|]. cbn [map fst] in ND. inversion ND as [|? ? N1 N2]; subst.
  unfold set_params in *. cbn [fold_left fst snd get]. rewrite IH by exact N2. destruct (eqb n k) eqn:E.
  - destruct (eqb_spec n k) as [->|]; [|discriminate]. replace (get k l) with (@None nat); [apply get_set_same|]. symmetry. apply get_None_iff. exact N1.
  - destruct (get n l); [reflexivity|]. apply get_set_other. intros ->. rewrite eqb_refl in E. discriminate.
Qed.
Lemma get_map_copy f (d : dict string av) (n : string) : get n (map (fun e => (fst e, copy_av f (snd e))) d) = option_map (copy_av f) (get n d).
Proof. induction d as [|[k v] d IH]; [reflexivity|]. cbn [map fst snd get]. destruct (eqb n k); [reflexivity|exact IH]. Qed.

Lemma set_names_app D a b : set_names D (a ++ b)%list = set_names (set_names D a) b.
Proof. unfold set_names. apply fold_left_app. Qed.
Lemma set_names_other b : forall D d, (forall n, ~ In (n, ADesc d) b) -> set_names D b d = D d.
Proof.
  induction b as [|[n v] b IH]; intros D d N; [reflexivity|]. unfold set_names in *. cbn [fold_left].
  rewrite IH by (intros n' I; apply (N n'); right; exact I). unfold set_name. cbn [fst snd]. destruct v as [x|d']; [reflexivity|]. unfold put.
  destruct (Nat.eqb_spec d d') as [->|]; [exfalso; apply (N n); left; reflexivity|reflexivity].
Qed.
Lemma set_names_last D ns d n : last_name ns d n -> set_names D ns d = Some (Some n).
Proof.
  intros (pre & post & -> & N). rewrite set_names_app. change ((n, ADesc d) :: post) with ([(n, ADesc d)] ++ post)%list. rewrite set_names_app.
  rewrite set_names_other by exact N. cbn. unfold put. rewrite Nat.eqb_refl. reflexivity.
Qed.
Lemma last_name_copy W ns f d n : fresh_descs W ns f -> last_name ns d n -> last_name (map (fun e => (fst e, copy_av f (snd e))) ns) (f d) n.
Proof.
  intros (_ & INJ) (pre & post & -> & N). exists (map (fun e => (fst e, copy_av f (snd e))) pre), (map (fun e => (fst e, copy_av f (snd e))) post).
  split; [rewrite map_app; reflexivity|]. intros n' I. apply in_map_iff in I as ([k v] & E & I). cbn [fst snd] in E. injection E as -> E.
  destruct v as [x|d']; [discriminate|]. cbn [copy_av] in E. injection E as E. apply (N n'). replace d with d'; [exact I|].
  apply (INJ n' n d' d); [apply in_or_app; right; right; exact I|apply in_or_app; right; left; reflexivity|exact E].
Qed.
Lemma copy_descs_other D0 f d : forall ns D, (forall n d', In (n, ADesc d') ns -> f d' <> d) -> copy_descs D D0 f ns d = D d.
Proof.
  induction ns as [|[n v] ns IH]; intros D N; [reflexivity|]. unfold copy_descs in *. cbn [fold_left snd].
  rewrite IH by (intros n' d' I; apply (N n'); right; exact I). destruct v as [x|d']; [reflexivity|]. destruct (D0 d'); [|reflexivity]. unfold put.
  destruct (Nat.eqb_spec d (f d')) as [->|]; [exfalso; apply (N n d'); [left; reflexivity|reflexivity]|reflexivity].
Qed.

Lemma create_inv W hs ne pr c ns W' : create W hs ne pr c ns [] = Some W' ->
  (ne = true -> pr = true) /\ (forall n, ~ required hs n) /\
  exists l, map (fun a => (fst a, Some (snd a))) l = all_params hs /\ W' = World (put (classes W) c (set_params ns l)) (set_names (descs W) ns) (registry W ++ logged hs c).
Proof.
  unfold create. destruct (ne && negb pr) eqn:E; [discriminate|]. cbn [keys map forallb negb].
  destruct (arguments [] (all_params hs)) as [l|] eqn:A; [|discriminate]. intros X. injection X as <-.
  assert (forall n, ~ In (n, None) (all_params hs)) as R. { intros n I. rewrite (arguments_none _ _ I) in A. discriminate. }
  split; [intros ->; destruct pr; [reflexivity|discriminate]|]. split.
  - intros n (h & I & J). apply (R n). apply In_params. exists h. auto.
  - destruct (arguments_nil _ R) as (l' & E' & M). rewrite A in E'. injection E' as <-. exists l. split; [exact M|reflexivity].
Qed.

(** ** theorems *)
(** the class can be loaded exactly if its metaclass accepts a plain dictionary (or the class has __orig_bases__) and no hook has a parameter without default *)
Theorem C70_loads_iff : forall W hs needs ob c c' f d, classes W c = Some d ->
  ((exists W', copy_class W hs needs ob c c' f = Some W') <-> (needs = true -> ob = true) /\ forall n, ~ required hs n).
Proof.
  intros W hs ne ob c c' f d E. unfold copy_class. rewrite E. split.
  - intros (W' & X). apply create_inv in X as (A & B & _). split; assumption.
  - intros (A & B). unfold create. destruct (ne && negb ob) eqn:N.
    { apply andb_true_iff in N as [N1 N2]. rewrite (A N1) in N2. discriminate. }
    cbn [keys map forallb negb]. destruct (arguments_nil (all_params hs)) as (l & L & _).
    { intros n I. apply (B n). apply In_params in I as (h & I & J). exists h. auto. }
    rewrite L. eexists. reflexivity.
Qed.

(** the attributes of the copy: the parameters of the hooks have their defaults, every other attribute is the copy of the original's *)
Theorem C70_attributes : forall W hs needs ob c c' f d W', classes W c = Some d -> NoDup (map fst (all_params hs)) -> copy_class W hs needs ob c c' f = Some W' ->
  exists d', classes W' c' = Some d' /\
    (forall n v, default_of hs n v -> get n d' = Some (AVal v)) /\
    (forall n, ~ is_param hs n -> get n d' = option_map (copy_av f) (get n d)).
Proof.
  intros W hs ne ob c c' f d W' E ND X. unfold copy_class in X. rewrite E in X. apply create_inv in X as (_ & _ & l & M & ->).
  cbn [classes]. unfold put at 1. rewrite Nat.eqb_refl. eexists. split; [reflexivity|].
  assert (map fst l = map fst (all_params hs)) as ML. { rewrite <- M, map_map. reflexivity. }
  assert (forall n v, In (n, Some v) (all_params hs) <-> In (n, v) l) as IL.
  { intros n v. rewrite <- M, in_map_iff. split; [intros ([k w] & Q & I); cbn [fst snd] in Q; injection Q as -> ->; exact I|intros I; exists (n, v); split; [reflexivity|exact I]]. }
  split.
  - intros n v (h & I & J). rewrite get_set_params by (rewrite ML; exact ND).
    rewrite (In_get n v l); [reflexivity|unfold wf, keys; rewrite ML; exact ND|]. apply IL. apply In_params. exists h. auto.
  - intros n N. rewrite get_set_params by (rewrite ML; exact ND). replace (get n l) with (@None nat); [apply get_map_copy|].
    symmetry. apply get_None_iff. unfold keys. intros I. rewrite ML in I. apply in_map_iff in I as ([k o] & <- & I). apply N. apply In_params in I as (h & I & J).
    exists h, o. auto.
Qed.

(** so the copy has the attributes of the original if each parameter has its default there *)
Theorem C70_kept_partial : forall W hs needs ob c c' f d W', classes W c = Some d -> NoDup (map fst (all_params hs)) -> copy_class W hs needs ob c c' f = Some W' ->
  (forall n v, default_of hs n v -> get n d = Some (AVal v)) ->
  exists d', classes W' c' = Some d' /\ forall n, get n d' = option_map (copy_av f) (get n d).
Proof.
  intros W hs ne ob c c' f d W' E ND X DV. destruct (C70_attributes _ _ _ _ _ _ _ _ _ E ND X) as (d' & E' & A & B).
  exists d'. split; [exact E'|]. intros n. destruct (in_dec string_dec n (map fst (all_params hs))) as [I|I].
  - apply in_map_iff in I as ([k o] & Q & I). cbn [fst] in Q. subst k. assert (forall n, ~ required hs n) as R.
    { apply (C70_loads_iff W hs ne ob c c' f d E). exists W'. exact X. }
    apply In_params in I as (h & I & J). destruct o as [v|]; [|exfalso; apply (R n); exists h; auto].
    assert (default_of hs n v) as Df by (exists h; auto). rewrite (A n v Df), (DV n v Df). reflexivity.
  - apply B. intros (h & o & J & K). apply I. apply in_map_iff. exists (n, o). split; [reflexivity|]. apply In_params. exists h. auto.
Qed.

(** each load adds the copy to the lists of the bases that record their subclasses, once for every such hook; nothing else is changed *)
Theorem C70_registry : forall W hs needs ob c c' f W', copy_class W hs needs ob c c' f = Some W' ->
  registry W' = (registry W ++ repeat c' (List.length (filter h_log hs)))%list.
Proof.
  intros W hs ne ob c c' f W' X. unfold copy_class in X. destruct (classes W c) as [d|]; [|discriminate]. apply create_inv in X as (_ & _ & l & _ & ->).
  cbn [registry]. f_equal. induction hs as [|h hs IH]; [reflexivity|]. unfold logged in *. cbn [flat_map filter]. destruct (h_log h); cbn [app List.length repeat]; rewrite IH; reflexivity.
Qed.
Theorem C70_others : forall W hs needs ob c c' f d W', classes W c = Some d -> copy_class W hs needs ob c c' f = Some W' ->
  (forall k, k <> c' -> classes W' k = classes W k) /\ (forall x, (forall n y, In (n, ADesc y) d -> f y <> x) -> descs W' x = descs W x).
Proof.
  intros W hs ne ob c c' f d W' E X. unfold copy_class in X. rewrite E in X. apply create_inv in X as (_ & _ & l & _ & ->). cbn [classes descs]. split.
  - intros k K. unfold put. destruct (Nat.eqb_spec k c'); [contradiction|reflexivity].
  - intros x N. rewrite set_names_other; [apply copy_descs_other; exact N|]. intros n I. apply in_map_iff in I as ([k v] & Q & I). cbn [fst snd] in Q.
    injection Q as -> Q. destruct v as [v|y]; [discriminate|]. cbn [copy_av] in Q. injection Q as Q. apply (N n y I Q).
Qed.

(** a descriptor of the copy is told the last name it has in the class *)
Theorem C70_names : forall W hs needs ob c c' f d W' x n, classes W c = Some d -> fresh_descs W d f -> copy_class W hs needs ob c c' f = Some W' -> last_name d x n ->
  descs W' (f x) = Some (Some n).
Proof.
  intros W hs ne ob c c' f d W' x n E FR X L. unfold copy_class in X. rewrite E in X. apply create_inv in X as (_ & _ & l & _ & ->). cbn [descs].
  apply set_names_last. eapply last_name_copy; eassumption.
Qed.

(** ... which is what the original knows, if the class statement made it *)
Lemma set_absent (n : string) (v : av) ns : get n ns = None -> set n v ns = (ns ++ [(n, v)])%list.
Proof.
  induction ns as [|[k w] ns IH]; intros G; [reflexivity|]. cbn [get] in G. cbn [set app]. destruct (eqb n k); [discriminate|]. rewrite IH by exact G. reflexivity.
Qed.
Lemma set_params_app l : forall ns, (forall n, In n (map fst l) -> get n ns = None) -> NoDup (map fst l) ->
  set_params ns l = (ns ++ map (fun a => (fst a, AVal (snd a))) l)%list.
Proof.
  induction l as [|[k v] l IH]; intros ns N ND; [symmetry; apply app_nil_r|]. cbn [map fst] in ND, N. inversion ND as [|? ? N1 N2]; subst.
  unfold set_params in *. cbn [fold_left fst snd map]. rewrite set_absent by (apply N; left; reflexivity). rewrite IH; [rewrite <- app_assoc; reflexivity| |exact N2].
  intros n I. apply get_None_iff. unfold keys. rewrite map_app, in_app_iff. intros [J|[J|[]]].
  - assert (get n ns = None) as G by (apply N; right; exact I). apply get_None_iff in G. exact (G J).
  - cbn [fst] in J. subst k. exact (N1 I).
Qed.
Lemma last_name_app ns l d n : last_name ns d n -> last_name (ns ++ map (fun a : string * nat => (fst a, AVal (snd a))) l)%list d n.
Proof.
  intros (pre & post & -> & N). exists pre, (post ++ map (fun a => (fst a, AVal (snd a))) l)%list. rewrite <- app_assoc. split; [reflexivity|].
  intros n' I. apply in_app_iff in I as [I|I]; [exact (N n' I)|]. apply in_map_iff in I as (a & Q & _). discriminate.
Qed.
Lemma last_name_ex ns d n : In (n, ADesc d) ns -> exists n', last_name ns d n'.
Proof.
  induction ns as [|[k v] ns IH]; intros I; [destruct I|].
  assert ((exists n', In (n', ADesc d) ns) \/ forall n', ~ In (n', ADesc d) ns) as [(n' & J)|J].
  { clear. induction ns as [|[k v] ns [(n' & IH)|IH]]; [right; intros n' []|left; exists n'; right; exact IH|].
    destruct v as [x|x]; [right; intros n' [Q|Q]; [discriminate|exact (IH n' Q)]|]. destruct (Nat.eq_dec x d) as [->|Ne]; [left; exists k; left; reflexivity|].
    right. intros n' [Q|Q]; [congruence|exact (IH n' Q)]. }
  - assert (exists n', last_name ns d n') as (m & pre & post & -> & N).
    { clear - J IH I. destruct I as [Q|I]; [|exact (IH I)]. revert n' J. clear IH Q. induction ns as [|[k' v'] ns IH]; intros n' J; [destruct J|].
      assert ((exists n', In (n', ADesc d) ns) \/ forall n', ~ In (n', ADesc d) ns) as [(m & M)|M].
      { clear. induction ns as [|[k v] ns [(n' & IH)|IH]]; [right; intros n' []|left; exists n'; right; exact IH|].
        destruct v as [x|x]; [right; intros n' [Q|Q]; [discriminate|exact (IH n' Q)]|]. destruct (Nat.eq_dec x d) as [->|Ne]; [left; exists k; left; reflexivity|].
        right. intros n' [Q|Q]; [congruence|exact (IH n' Q)]. }
      - destruct (IH m M) as (m' & pre & post & -> & N). exists m', ((k', v') :: pre)%list, post. split; [reflexivity|exact N].
      - destruct J as [Q|J]; [|exfalso; exact (M n' J)]. injection Q as -> ->. exists n', [], ns. split; [reflexivity|exact M]. }
    exists m, ((k, v) :: pre)%list, post. split; [reflexivity|exact N].
  - destruct I as [Q|I]; [|exfalso; exact (J n I)]. injection Q as -> ->. exists n, [], ns. split; [reflexivity|exact J].
Qed.
Theorem C70_names_kept_partial : forall W0 hs needs ob c c' f ns kw W W' x n, class_statement W0 hs needs c ns kw = Some W -> NoDup (map fst (all_params hs)) ->
  (forall p, is_param hs p -> get p ns = None) -> In (n, ADesc x) ns -> fresh_descs W ns f -> copy_class W hs needs ob c c' f = Some W' ->
  descs W' (f x) = descs W x.
Proof.
  intros W0 hs ne ob c c' f ns kw W W' x n S ND DJ I FR X. unfold class_statement, create in S. destruct (ne && negb true); [discriminate|].
  destruct (negb (forallb (fun k => memb k (map fst (all_params hs))) (keys kw))); [discriminate|]. destruct (arguments kw (all_params hs)) as [l|] eqn:A; [|discriminate].
  injection S as S. assert (map fst l = map fst (all_params hs)) as ML.
  { clear - A. revert l A. induction (all_params hs) as [|p ps IH]; intros l A; [injection A as <-; reflexivity|]. cbn [arguments] in A.
    destruct (argument kw p) as [a|] eqn:P; [|discriminate]. destruct (arguments kw ps) as [l'|]; [|discriminate]. injection A as <-. cbn [map]. rewrite (IH l' eq_refl). f_equal.
    unfold argument in P. destruct (get (fst p) kw); [injection P as <-; reflexivity|]. destruct (snd p); [injection P as <-; reflexivity|discriminate]. }
  assert (set_params ns l = (ns ++ map (fun a => (fst a, AVal (snd a))) l)%list) as SP.
  { apply set_params_app; [|rewrite ML; exact ND]. intros k K. rewrite ML in K. apply in_map_iff in K as ([k' o] & <- & K). apply DJ. apply In_params in K as (h & K & J). exists h, o. auto. }
  rewrite SP in S. destruct (last_name_ex _ _ _ I) as (m & L). pose proof (last_name_app ns l x m L) as L'.
  assert (descs W x = Some (Some m)) as E1. { subst W. cbn [descs]. apply set_names_last. exact L. }
  rewrite E1. eapply C70_names; [|  |exact X|exact L'].
  - subst W. cbn [classes]. unfold put. rewrite Nat.eqb_refl. reflexivity.
  - destruct FR as (F1 & F2).
    assert (forall k y, In (k, ADesc y) (ns ++ map (fun a => (fst a, AVal (snd a))) l)%list -> In (k, ADesc y) ns) as IN.
    { intros k y J. apply in_app_iff in J as [J|J]; [exact J|]. apply in_map_iff in J as (a & Q & _). discriminate. }
    split; [intros k y J; apply (F1 k y); apply IN; exact J|intros k k' y y' J J'; apply (F2 k k'); apply IN; assumption].
Qed.

(** ** refuted *)
Definition W0 : world := World (fun _ => None) (fun d => if Nat.eqb d 0 then Some None else None) [].
Definition tagged : hook := Hook [("tag", Some 0)] false.
(** class C(Base, tag=5): the copy has tag 0 *)
Theorem C70_keyword_refuted : exists hs kw W W' d', class_statement W0 hs false 1 [] kw = Some W /\ classes W 1 = Some [("tag", AVal 5)] /\
  copy_class W hs false false 1 2 (fun x => x) = Some W' /\ classes W' 2 = Some d' /\ get "tag" d' = Some (AVal 0).
Proof. exists [tagged], [("tag", 5)]. do 3 eexists. repeat split. Qed.
(** def __init_subclass__(cls, tag): a parameter without default: made, but not loaded *)
Theorem C70_required_refuted : exists hs kw W, class_statement W0 hs false 1 [] kw = Some W /\ forall c' f ob, copy_class W hs false ob 1 c' f = None.
Proof. exists [Hook [("tag", None)] false], [("tag", 5)]. eexists. split; [reflexivity|]. intros c' f [|]; reflexivity. Qed.
(** class Color(Enum): the metaclass needs its own namespace *)
Theorem C70_prepare_refuted : forall hs ns kw W, class_statement W0 hs true 1 ns kw = Some W -> forall c' f, copy_class W hs true false 1 c' f = None.
Proof. intros hs ns kw W _ c' f. unfold copy_class. destruct (classes W 1); reflexivity. Qed.
Lemma C70_prepare_ex : exists W, class_statement W0 [] true 1 [("R", AVal 1)] [] = Some W.
Proof. eexists. reflexivity. Qed.
(** C.x = Descriptor() after the class statement: the original's is not told a name, the copy's is *)
Theorem C70_later_refuted : exists W W', class_statement W0 [] false 1 [] [] = Some W /\ classes (later W 1 [SetAttr "x" (ADesc 0)]) 1 = Some [("x", ADesc 0)] /\
  descs (later W 1 [SetAttr "x" (ADesc 0)]) 0 = Some None /\ copy_class (later W 1 [SetAttr "x" (ADesc 0)]) [] false false 1 2 (fun _ => 7) = Some W' /\
  descs W' 7 = Some (Some "x").
Proof. do 2 eexists. repeat split. Qed.

(** an example: two hooks, one records; a class with a descriptor under two names; the copy keeps everything *)
Definition ex_hs : list hook := [tagged; Hook [("kind", Some 3)] true].
Definition ex_ns : dict string av := [("a", ADesc 0); ("m", AVal 9); ("b", ADesc 0)].
Example C70_ex : exists W W', class_statement W0 ex_hs false 1 ex_ns [] = Some W /\ fresh_descs W ex_ns (fun _ => 7) /\ NoDup (map fst (all_params ex_hs)) /\
  copy_class W ex_hs false false 1 2 (fun _ => 7) = Some W' /\ descs W 0 = Some (Some "b") /\ descs W' 7 = Some (Some "b") /\ registry W' = [1; 2] /\
  classes W' 2 = Some [("a", ADesc 7); ("m", AVal 9); ("b", ADesc 7); ("tag", AVal 0); ("kind", AVal 3)].
Proof.
  do 2 eexists. split; [reflexivity|]. split; [|split; [repeat constructor; cbn; intuition discriminate|repeat split]].
  split; [intros n d [Q|[Q|[Q|[]]]]; inversion Q; reflexivity|]. intros n n' d d' [Q|[Q|[Q|[]]]] [Q'|[Q'|[Q'|[]]]]; inversion Q; inversion Q'; reflexivity.
Qed.
