(** C95: which function pickles a numpy object, and what an array keeps. *)
From Coq Require Import String List Bool Arith Lia.
From Verif Require Import PyDict NumpyModel.
Import ListNotations.
Local Open Scope string_scope.

(** ** specification *)
(** an array class (numpy.ndarray or a subclass of it) that leaves pickling to numpy *)
Definition array_class (c : cls) : Prop :=
  In ("numpy", "ndarray") (mro c) /\ own_reduce c = false /\ own_reduce_ex c = false /\ is_type c = false.
(** an array class with its own __reduce__ or __reduce_ex__, not a ufunc or dtype as well *)
Definition own_pickling (c : cls) : Prop :=
  (own_reduce c = true \/ own_reduce_ex c = true) /\ metaclass c = false
  /\ ~ In ("numpy", "ufunc") (mro c) /\ ~ In ("numpy", "dtype") (mro c).
(** the save function that dumping an object of class [t] uses after the events [l] *)
Definition used (numpy : bool) (s : state) (l : list event) (t : nat) : option saver :=
  snd (step numpy (run numpy s l) (Dump t)).
(** the event neither changes the class [t] nor registers something for it *)
Definition leaves (t : nat) (e : event) : Prop :=
  match e with
  | Register u _ | Change u _ | Copyreg u _ => u <> t
  | Dump _ => True
  end.

Lemma has_class_spec p c : has_class p c = true <-> In p (mro c).
Proof.
  unfold has_class. rewrite existsb_exists. split.
  - intros (q & I & E). apply eqb_true in E. subst q. exact I.
  - intros I. exists p. split; [exact I|apply eqb_refl].
Qed.
Lemma has_class_not p c : has_class p c = false <-> ~ In p (mro c).
Proof. rewrite <- has_class_spec. destruct (has_class p c); split; intros; try congruence; exfalso; auto. Qed.

Lemma hack_in numpy D t c s : get t D = Some s -> hack numpy D t c = D.
Proof.
  intros G. unfold hack, has. rewrite G. rewrite orb_true_r. cbn [negb]. rewrite andb_false_r. reflexivity.
Qed.
Lemma hack_other numpy D t c u : u <> t -> get u (hack numpy D t c) = get u D.
Proof.
  intros N. unfold hack. destruct (numpy && negb (is_type c || has t D)); [|reflexivity].
  destruct (ndarraysubclassinstance c); [rewrite get_set_other by congruence|];
  (destruct (numpydtype c); [rewrite get_set_other by congruence|];
   (destruct (numpyufunc c); [rewrite get_set_other by congruence|]; reflexivity)).
Qed.
Lemma hack_idem numpy D t c : hack numpy (hack numpy D t c) t c = hack numpy D t c.
Proof.
  destruct (get t D) as [s|] eqn:G; [rewrite (hack_in numpy D t c s G); apply (hack_in numpy D t c s G)|].
  destruct (get t (hack numpy D t c)) as [s|] eqn:G'; [apply (hack_in _ _ _ _ s G')|].
  assert (E : hack numpy D t c = D).
  { unfold hack in *. unfold has in *. rewrite G in *. destruct (numpy && negb (is_type c || false)); [|reflexivity].
    destruct (ndarraysubclassinstance c); [rewrite get_set_same in G'; discriminate|].
    destruct (numpydtype c); [rewrite get_set_same in G'; discriminate|].
    destruct (numpyufunc c); [rewrite get_set_same in G'; discriminate|]. reflexivity. }
  rewrite E, E. reflexivity.
Qed.

Lemma hack_ext numpy D D' t c : get t D = get t D' -> get t (hack numpy D t c) = get t (hack numpy D' t c).
Proof.
  intros E. unfold hack, has. rewrite E. destruct (numpy && _); [|exact E].
  destruct (ndarraysubclassinstance c); [rewrite !get_set_same; reflexivity|].
  destruct (numpydtype c); [rewrite !get_set_same; reflexivity|].
  destruct (numpyufunc c); [rewrite !get_set_same; reflexivity|]. exact E.
Qed.

(** ** which function *)
(** an array whose class leaves pickling to numpy is saved by dill's array function *)
Theorem C95_array s t c :
  get t (classes s) = Some c -> get t (dispatch s) = None -> array_class c ->
  used true s [] t = Some SArray.
Proof.
  intros C G (A & R & X & T). unfold used. cbn [run step]. rewrite C.
  apply has_class_spec in A. unfold save, hack, has. rewrite G, T. cbn [orb negb andb].
  unfold ndarraysubclassinstance. rewrite A, R, X. cbn [negb orb snd]. unfold lookup. rewrite get_set_same. reflexivity.
Qed.

(** a ufunc by name *)
Theorem C95_ufunc s t c :
  get t (classes s) = Some c -> get t (dispatch s) = None -> is_type c = false ->
  In ("numpy", "ufunc") (mro c) -> ~ In ("numpy", "dtype") (mro c) -> ~ In ("numpy", "ndarray") (mro c) ->
  used true s [] t = Some SUfunc.
Proof.
  intros C G T U D A. unfold used. cbn [run step]. rewrite C.
  apply has_class_spec in U. apply has_class_not in D. apply has_class_not in A.
  unfold save, hack, has. rewrite G, T. cbn [orb negb andb].
  unfold ndarraysubclassinstance, numpydtype, numpyufunc. rewrite A, D, U. cbn [negb snd]. unfold lookup. rewrite get_set_same. reflexivity.
Qed.

(** an object that has nothing to do with numpy, or any object without numpy: nothing is registered *)
Theorem C95_others numpy s t c :
  get t (classes s) = Some c ->
  numpy = false \/ (~ In ("numpy", "ufunc") (mro c) /\ ~ In ("numpy", "dtype") (mro c) /\ ~ In ("numpy", "ndarray") (mro c)) ->
  fst (step numpy s (Dump t)) = s.
Proof.
  intros C H. cbn [step]. rewrite C. unfold save. cbn [fst].
  assert (E : hack numpy (dispatch s) t c = dispatch s).
  { unfold hack. destruct H as [->|(U & D & A)]; [reflexivity|].
    apply has_class_not in U, D, A. unfold ndarraysubclassinstance, numpydtype, numpyufunc. rewrite U, D, A. cbn [negb].
    destruct (numpy && _); reflexivity. }
  rewrite E. destruct s; reflexivity.
Qed.

(** a class with its own __reduce__ or __reduce_ex__ keeps it, or the function in copyreg's table *)
Theorem C95_own_reduce_partial numpy s t c :
  get t (classes s) = Some c -> get t (dispatch s) = None -> own_pickling c ->
  used numpy s [] t = Some (match get t (copyregs s) with Some n => SCopyreg n | None => SReduce end).
Proof.
  intros C G (R & M & U & D). unfold used. cbn [run step]. rewrite C. unfold save.
  assert (E : hack numpy (dispatch s) t c = dispatch s).
  { unfold hack. apply has_class_not in U, D. unfold ndarraysubclassinstance, numpydtype, numpyufunc. rewrite U, D. cbn [negb].
    assert (X : own_reduce_ex c || own_reduce c = true) by (destruct R as [->| ->]; [apply orb_true_r|reflexivity]).
    rewrite X. destruct (negb (has_class ("numpy", "ndarray") c)); destruct (numpy && _); reflexivity. }
  rewrite E. cbn [snd]. unfold lookup. rewrite G, M. reflexivity.
Qed.

Lemma run_leaves numpy t : forall l s, (forall e, In e l -> leaves t e) ->
  get t (classes (run numpy s l)) = get t (classes s)
  /\ get t (copyregs (run numpy s l)) = get t (copyregs s)
  /\ (get t (dispatch (run numpy s l)) = get t (dispatch s)
      \/ exists c, get t (classes s) = Some c /\ get t (dispatch (run numpy s l)) = get t (hack numpy (dispatch s) t c)).
Proof.
  induction l as [|e l IH]; intros s H; [cbn [run]; auto|]. cbn [run].
  destruct (IH (fst (step numpy s e)) (fun e' I => H e' (or_intror I))) as (A & B & C). clear IH.
  pose proof (H e (or_introl eq_refl)) as L. rewrite A, B in *. destruct e as [u n|u n|u c'|u]; cbn [step fst classes copyregs dispatch] in *.
  - split; [reflexivity|]. split; [reflexivity|]. cbn [leaves] in L. rewrite get_set_other in C by congruence.
    destruct C as [C|(c & E & C)]; [left; exact C|]. right. exists c. split; [exact E|].
    rewrite C. apply hack_ext. apply get_set_other; congruence.
  - split; [reflexivity|]. cbn [leaves] in L. rewrite get_set_other by congruence. split; [reflexivity|exact C].
  - cbn [leaves] in L. rewrite get_set_other by congruence. split; [reflexivity|]. split; [reflexivity|].
    rewrite get_set_other in C by congruence. exact C.
  - destruct (get u (classes s)) as [c'|] eqn:Eu; [|auto].
    unfold save in *. cbn [fst classes copyregs dispatch] in *. split; [reflexivity|]. split; [reflexivity|].
    destruct (Nat.eq_dec u t) as [->|N].
    + right. exists c'. split; [exact Eu|]. destruct C as [C|(c & E & C)]; [exact C|].
      assert (c = c') by congruence. subst c. rewrite hack_idem in C. exact C.
    + rewrite hack_other in C by congruence. destruct C as [C|(c & E & C)]; [left; exact C|].
      right. exists c. split; [exact E|]. rewrite C. apply hack_ext. apply hack_other; congruence.
Qed.

(** what was dumped, registered or changed before does not matter, as long as it did not concern the class *)
Theorem C95_history_partial numpy s l t :
  (forall e, In e l -> leaves t e) -> used numpy s l t = used numpy s [] t.
Proof.
  intros H. destruct (run_leaves numpy t l s H) as (A & B & C). unfold used. cbn [run step]. rewrite A.
  destruct (get t (classes s)) as [c|] eqn:Ec; [|reflexivity]. unfold save. cbn [snd]. f_equal.
  unfold lookup. rewrite B.
  assert (E : get t (hack numpy (dispatch (run numpy s l)) t c) = get t (hack numpy (dispatch s) t c)).
  { destruct C as [C|(c' & E & C)]; [apply hack_ext; exact C|].
    assert (c' = c) by congruence. subst c'.
    rewrite (hack_ext _ _ _ _ _ C). rewrite hack_idem. reflexivity. }
  rewrite E. reflexivity.
Qed.

(** a function registered with dill.register or dill.pickle is used from then on, whatever else happens *)
Theorem C95_registered numpy s l t n c :
  (forall e, In e l -> match e with Register u _ => u <> t | _ => True end) ->
  get t (classes (run numpy s (Register t n :: l))) = Some c ->
  used numpy s (Register t n :: l) t = Some (SUser n).
Proof.
  intros H Ec. cbn [run step fst] in Ec.
  assert (G : get t (dispatch (run numpy s (Register t n :: l))) = Some (SUser n)).
  { cbn [run step fst].
    assert (Z : forall l s, (forall e, In e l -> match e with Register u _ => u <> t | _ => True end) ->
      get t (dispatch s) = Some (SUser n) -> get t (dispatch (run numpy s l)) = Some (SUser n)).
    { clear. induction l as [|e l IH]; intros s H G; [exact G|]. cbn [run]. apply IH; [intros e' I; apply H; right; exact I|].
      pose proof (H e (or_introl eq_refl)) as L. destruct e as [u m|u m|u c|u]; cbn [step fst dispatch]; try exact G.
      - rewrite get_set_other by congruence. exact G.
      - destruct (get u (classes s)) as [c|]; [|exact G]. unfold save. cbn [fst dispatch].
        destruct (Nat.eq_dec u t) as [->|N]; [rewrite (hack_in _ _ _ _ _ G); exact G|].
        rewrite hack_other by congruence. exact G. }
    apply Z; [exact H|]. cbn [dispatch]. apply get_set_same. }
  unfold used. cbn [step]. cbn [run step fst] in *. rewrite Ec. unfold save. rewrite (hack_in _ _ _ _ _ G). cbn [snd].
  unfold lookup. rewrite G. reflexivity.
Qed.

(** ** contents *)
(** class and data are the same; every attribute in __dict__ comes back with its value *)
Theorem C95_contents finalize a :
  (forall d, a_dict a = Some d -> wf d) ->
  let b := create_array finalize (save_array a) in
  a_class b = a_class a /\ a_data b = a_data a
  /\ forall d, a_dict a = Some d -> exists d', a_dict b = Some d' /\ forall k v, get k d = Some v -> get k d' = Some v.
Proof.
  intros W. destruct a as [t x [d|]]; cbn in *.
  - split; [reflexivity|]. split; [reflexivity|]. intros d0 E. inversion E; subst d0.
    destruct (finalize t) as [own|]; eexists; (split; [reflexivity|]); intros k v G; [|exact G].
    rewrite get_update by (apply W; reflexivity). rewrite G. reflexivity.
  - split; [reflexivity|]. split; [reflexivity|]. intros d E. discriminate.
Qed.
(** and no others, if every attribute that __array_finalize__ sets is among them *)
Theorem C95_attributes_partial finalize a d :
  a_dict a = Some d -> wf d ->
  (forall own k v, finalize (a_class a) = Some own -> get k own = Some v -> exists w, get k d = Some w) ->
  exists d', a_dict (create_array finalize (save_array a)) = Some d' /\ forall k, get k d' = get k d.
Proof.
  intros E W H. destruct a as [t x o]. cbn in E. subst o. cbn. cbn in H.
  destruct (finalize t) as [own|] eqn:F; eexists; (split; [reflexivity|]); intros k; [|reflexivity].
  rewrite get_update by exact W. destruct (get k d) as [v|] eqn:G; [reflexivity|].
  destruct (get k own) as [v|] eqn:O; [|reflexivity]. destruct (H own k v eq_refl O) as (w & X). congruence.
Qed.

(** ** what goes wrong *)
Definition plain : cls := Cls [("mod", "A"); ("numpy", "ndarray"); ("builtins", "object")] false false false false false.
Definition with_reduce : cls := Cls [("mod", "A"); ("numpy", "ndarray"); ("builtins", "object")] true false false false false.
Definition start (c : cls) : state := State [] [] [(0, c)].

(** REFUTED: a class that gets its own __reduce__ after one of its arrays has been dumped is still saved without it; the
    same program without the first dump uses it *)
Theorem C95_late_override_refuted :
  used true (start plain) [Dump 0; Change 0 with_reduce] 0 = Some SArray
  /\ used true (start plain) [Change 0 with_reduce] 0 = Some SReduce.
Proof. split; reflexivity. Qed.

(** REFUTED: a function in copyreg's table is ignored for array classes *)
Theorem C95_copyreg_refuted :
  used true (start plain) [Copyreg 0 5] 0 = Some SArray /\ used false (start plain) [Copyreg 0 5] 0 = Some (SCopyreg 5).
Proof. split; reflexivity. Qed.

(** REFUTED: an attribute that __array_finalize__ sets and that was deleted afterwards is there again *)
Theorem C95_deleted_attribute_refuted : exists finalize a d d',
  a_dict a = Some d /\ get "info" d = None /\ a_dict (create_array finalize (save_array a)) = Some d' /\ get "info" d' = Some 0.
Proof.
  exists (fun _ => Some [("info", 0)]), (Array 0 7 (Some [("name", 1)])), [("name", 1)], [("info", 0); ("name", 1)].
  split; [reflexivity|]. split; [reflexivity|]. split; reflexivity.
Qed.

(** the function for dtypes is not used for the class of numpy.dtype, whose method resolution order (numpy 1.20 and
    later) does not have numpy.dtype in it: classes are saved by save_type *)
Theorem C95_dtype_class s t c :
  get t (classes s) = Some c -> get t (dispatch s) = None ->
  mro c = [("numpy", "_DTypeMeta"); ("builtins", "type"); ("builtins", "object")] -> metaclass c = true ->
  used true s [] t = Some SType.
Proof.
  intros C G M T. unfold used. cbn [run step]. rewrite C. unfold save, hack, ndarraysubclassinstance, numpydtype, numpyufunc, has_class.
  rewrite M. cbn [snd existsb]. unfold lookup.
  assert (E : forall (x : bool) (D : table), (if x then D else D) = D) by (intros []; reflexivity).
  cbn. rewrite E, G, T. reflexivity.
Qed.

(** ** cases *)
Theorem C95_case :
  used true (start plain) [Dump 3; Register 4 1; Copyreg 5 2; Dump 0; Dump 0] 0 = Some SArray
  /\ used true (start with_reduce) [Dump 0; Register 4 1] 0 = Some SReduce
  /\ used true (start plain) [Dump 0; Register 0 9; Copyreg 0 1; Change 0 with_reduce; Dump 0] 0 = Some (SUser 9).
Proof.
  split; [|split].
  - rewrite C95_history_partial.
    + apply (C95_array (start plain) 0 plain); [reflexivity|reflexivity|]. repeat split. right. left. reflexivity.
    + intros e I. repeat (destruct I as [<-|I]; [cbn; try discriminate; exact Logic.I|]). destruct I.
  - rewrite C95_history_partial.
    + apply (C95_own_reduce_partial true (start with_reduce) 0 with_reduce); [reflexivity|reflexivity|].
      split; [left; reflexivity|]. split; [reflexivity|]. split; intros I; repeat (destruct I as [I|I]; [discriminate|]); exact I.
    + intros e I. repeat (destruct I as [<-|I]; [cbn; try discriminate; exact Logic.I|]). destruct I.
  - change (used true (fst (step true (start plain) (Dump 0))) [Register 0 9; Copyreg 0 1; Change 0 with_reduce; Dump 0] 0 = Some (SUser 9)).
    apply (C95_registered true _ [Copyreg 0 1; Change 0 with_reduce; Dump 0] 0 9 with_reduce); [|reflexivity].
    intros e I. repeat (destruct I as [<-|I]; [exact Logic.I|]). destruct I.
Qed.
