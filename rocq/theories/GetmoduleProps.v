(** C106: the module of an object, isfrommain, isdynamic. *)
From Coq Require Import String Ascii List Bool Arith.
From Verif Require Import PyDict GetmoduleModel.
Import ListNotations.
Local Open Scope string_scope.

(** ** Specification *)
(** [o] is not a module and says it is of the module [m] (functions, methods, classes, instances of classes) *)
Definition says (W : world) (o : nat) (m : string) : Prop := kind W o <> KModule /\ module_attr W o = Some (Some m).
(** [o] runs the code of the file [f], or is it, and does not say its module (code objects, frames, tracebacks) *)
Definition runs (W : world) (o : nat) (f : string) : Prop :=
  module_attr W o = None /\
  (kind W o = KCode f \/
   (exists c, kind W o = KFrame c /\ kind W c = KCode f) \/
   (exists r c, kind W o = KTraceback r /\ kind W r = KFrame c /\ kind W c = KCode f)).
(** a function or method whose code is of the file [f] *)
Definition of_file (W : world) (o : nat) (f : string) : Prop :=
  (exists c, kind W o = KFunction c /\ kind W c = KCode f) \/ (exists g c, kind W o = KMethod g /\ kind W g = KFunction c /\ kind W c = KCode f).
(** a number, a string, a list: nothing of the kind *)
Definition plain_value (W : world) (o : nat) : Prop := module_attr W o = None /\ kind W o = KOther.

Definition is_mod (W : world) (x : nat) (f : string) : Prop := kind W x = KModule /\ mfile W x = Some f.
Definition paths (W : world) (f p : string) : Prop := p = absfile W f \/ p = realfile W (absfile W f).
(** no two modules come from one file *)
Definition unshared (W : world) : Prop := forall x y f g p, is_mod W x f -> is_mod W y g -> paths W f p -> paths W g p -> x = y.
(** every module is imported under its own name, once *)
Fixpoint tidy (W : world) (known : list string) (es : list event) : Prop :=
  match es with
  | [] => True
  | Import n x :: es => n = mname W x /\ ~ In n known /\ tidy W (n :: known) es
  | Ask _ :: es => tidy W known es
  end.

(** ** Objects that say their module *)
Theorem C106_says : forall W mods C o m force, says W o m -> getmod W mods C o = (get m mods, C) /\
  (forall x, get m mods = Some x -> fst (getmodule W mods C force o) = Some x).
Proof.
  intros W mods C o m force [K M]. assert (E : getmod W mods C o = (get m mods, C)).
  { unfold getmod. destruct (kind W o); try (rewrite M; reflexivity). contradiction. }
  split; [exact E|]. intros x G. unfold getmodule. rewrite E, G. reflexivity.
Qed.
(** isfrommain: exactly if the module under that name calls itself __main__, whatever was asked before *)
Theorem C106_frommain : forall W mods C o m, says W o m ->
  (isfrommain W mods C o = true <-> exists x, get m mods = Some x /\ mname W x = "__main__").
Proof.
  intros W mods C o m S. unfold isfrommain. rewrite (proj1 (C106_says W mods C o m false S)). cbn [fst].
  destruct (get m mods) as [x|].
  - split; [intros H; apply String.eqb_eq in H; eauto|intros (y & H & N); injection H as ->; rewrite N; reflexivity].
  - split; [discriminate|intros (y & H & _); discriminate].
Qed.
(** ... of a module: exactly if it calls itself so; of a value: never *)
Theorem C106_frommain_module : forall W mods C o, kind W o = KModule -> (isfrommain W mods C o = true <-> mname W o = "__main__").
Proof. intros W mods C o K. unfold isfrommain, getmod. rewrite K. apply String.eqb_eq. Qed.
Theorem C106_value : forall W mods C o, plain_value W o -> getmod W mods C o = (None, C) /\ isfrommain W mods C o = false /\ isdynamic W mods C o = inl false /\
  (forall x, fst (getmodule W mods C true o) = Some x <-> x = builtins W /\ exists y, get (shown W o) (mdict W (builtins W)) = Some y) /\
  fst (getmodule W mods C false o) = None.
Proof.
  intros W mods C o [M K].
  assert (F : getfile W mods o = inr TypeError) by (unfold getfile, unwrapped; rewrite !K; reflexivity).
  assert (E : getmod W mods C o = (None, C)) by (unfold getmod; rewrite K, M, F; reflexivity).
  split; [exact E|]. split; [unfold isfrommain; rewrite E; reflexivity|]. split; [unfold isdynamic; rewrite F; reflexivity|].
  unfold getmodule. rewrite E. cbn [negb fst]. split; [|reflexivity]. intros x. unfold has. destruct (get (shown W o) (mdict W (builtins W))) as [y|].
  - split; [intros H; injection H as <-; eauto|intros [-> _]; reflexivity].
  - split; [discriminate|intros [_ [y H]]; discriminate].
Qed.

(** ** Code objects, frames, tracebacks: by their file *)
Lemma runs_file W mods o f : runs W o f -> kind W o <> KModule /\ module_attr W o = None /\ getfile W mods o = inl f.
Proof.
  intros [M [K|[(c & K & K1)|(r & c & K & K1 & K2)]]]; unfold getfile, unwrapped.
  - rewrite !K. split; [discriminate|]. auto.
  - rewrite !K, !K1. split; [discriminate|]. auto.
  - rewrite !K, !K1, !K2. split; [discriminate|]. auto.
Qed.
(** an object that is no module and whose __module__ is None has no module and is not from main; with force, builtins if it is shown by a name of builtins *)
Theorem C106_none : forall W mods C o, kind W o <> KModule -> module_attr W o = Some None ->
  getmod W mods C o = (None, C) /\ isfrommain W mods C o = false /\
  fst (getmodule W mods C false o) = None /\
  (forall x, fst (getmodule W mods C true o) = Some x <-> x = builtins W /\ exists y, get (shown W o) (mdict W (builtins W)) = Some y).
Proof.
  intros W mods C o K M.
  assert (G : getmod W mods C o = (None, C)).
  { unfold getmod. rewrite M. destruct (kind W o); try reflexivity. contradiction. }
  unfold isfrommain, getmodule. rewrite G. cbn [fst negb].
  repeat split; try reflexivity; unfold has in *; destruct (get (shown W o) (mdict W (builtins W))) eqn:E.
  - injection H as <-. reflexivity.
  - discriminate.
  - eexists; reflexivity.
  - discriminate.
  - intros [-> _]. reflexivity.
  - intros [_ [y Y]]. discriminate.
Qed.

(** the caches only hold what is imported; what has been entered is found *)
Definition good (W : world) (mods : registry) (C : caches) : Prop :=
  (forall p n, get p (byfile C) = Some n -> exists x f, get n mods = Some x /\ mname W x = n /\ is_mod W x f /\ paths W f p) /\
  (forall k f, get k (byname C) = Some f -> exists x, get k mods = Some x /\ is_mod W x f /\ forall p, paths W f p -> get p (byfile C) = Some (mname W x)).
Definition own_names (W : world) (mods : registry) : Prop := wf mods /\ forall k x, get k mods = Some x -> mname W x = k.

Lemma step_good W mods C k x : unshared W -> own_names W mods -> good W mods C -> get k mods = Some x -> good W mods (scan_step W C (k, x)) /\
  (forall p n, get p (byfile C) = Some n -> get p (byfile (scan_step W C (k, x))) = Some n) /\
  (forall f, is_mod W x f -> get (absfile W f) (byfile (scan_step W C (k, x))) = Some (mname W x)).
Proof.
  intros U [Wf Own] [G1 G2] Gk. unfold scan_step. cbn [fst snd].
  destruct (kind W x) eqn:K; try (split; [split; assumption|split; [auto|intros ? [Q _]; congruence]]).
  destruct (mfile W x) as [f|] eqn:F; [|split; [split; assumption|split; [auto|intros f [_ Q]; congruence]]].
  assert (IM : is_mod W x f) by (split; assumption).
  destruct (get k (byname C)) as [f'|] eqn:B.
  2:{ cbn iota. assert (HF : forall p, get p (set (realfile W (absfile W f)) (mname W x) (set (absfile W f) (mname W x) (byfile C))) =
        if String.eqb p (realfile W (absfile W f)) then Some (mname W x) else if String.eqb p (absfile W f) then Some (mname W x) else get p (byfile C)).
      { intros p. destruct (String.eqb_spec p (realfile W (absfile W f))) as [->|N1]; [apply get_set_same|].
        rewrite get_set_other by auto. destruct (String.eqb_spec p (absfile W f)) as [->|N2]; [apply get_set_same|]. now rewrite get_set_other by auto. }
      cbn [byfile byname].
      assert (Keep : forall p n, get p (byfile C) = Some n -> get p (set (realfile W (absfile W f)) (mname W x) (set (absfile W f) (mname W x) (byfile C))) = Some n).
      { intros p n H. rewrite HF. destruct (G1 p n H) as (y & g & Y1 & Y2 & Y3 & Y4).
        destruct (String.eqb_spec p (realfile W (absfile W f))) as [->|N1].
        - rewrite (U x y f g (realfile W (absfile W f)) IM Y3 (or_intror eq_refl) Y4). congruence.
        - destruct (String.eqb_spec p (absfile W f)) as [->|N2]; [|exact H].
          rewrite (U x y f g (absfile W f) IM Y3 (or_introl eq_refl) Y4). congruence. }
      split; [|split; [exact Keep|]].
      - split.
        + cbn [byfile]. intros p n. rewrite HF. intros H.
          assert (P : paths W f p /\ n = mname W x \/ get p (byfile C) = Some n).
          { destruct (String.eqb_spec p (realfile W (absfile W f))) as [->|N1]; [left; split; [right; reflexivity|congruence]|].
            destruct (String.eqb_spec p (absfile W f)) as [->|N2]; [left; split; [left; reflexivity|congruence]|right; exact H]. }
          destruct P as [[P ->]|P]; [|exact (G1 p n P)]. exists x, f. rewrite (Own k x Gk). auto.
        + cbn [byname]. intros k' g H. destruct (string_dec k' k) as [->|Nk].
          * rewrite get_set_same in H. injection H as <-. exists x. split; [exact Gk|]. split; [exact IM|]. intros p [-> | ->]; cbn [byfile]; rewrite HF, ?String.eqb_refl; [|reflexivity].
            destruct (String.eqb (absfile W f) (realfile W (absfile W f))); reflexivity.
          * rewrite get_set_other in H by auto. destruct (G2 k' g H) as (y & Y1 & Y2 & Y3). exists y. split; [exact Y1|]. split; [exact Y2|]. intros p P. cbn [byfile]. apply Keep, Y3, P.
      - intros g [_ Q]. rewrite F in Q. injection Q as <-. rewrite HF, String.eqb_refl. destruct (String.eqb _ _); reflexivity. }
  destruct (G2 k f' B) as (y & Y1 & Y2 & Y3). assert (y = x) by congruence. subst y. destruct Y2 as [_ Y2].
  assert (f' = f) by congruence. subst f'. rewrite String.eqb_refl. split; [split; assumption|]. split; [auto|].
  intros g [_ Q]. rewrite F in Q. injection Q as <-. apply Y3. left. reflexivity.
Qed.
Lemma scan_good W mods : unshared W -> own_names W mods -> forall l C, (forall k x, In (k, x) l -> get k mods = Some x) -> good W mods C ->
  good W mods (fold_left (scan_step W) l C) /\
  (forall p n, get p (byfile C) = Some n -> get p (byfile (fold_left (scan_step W) l C)) = Some n) /\
  (forall k x f, In (k, x) l -> is_mod W x f -> get (absfile W f) (byfile (fold_left (scan_step W) l C)) = Some (mname W x)).
Proof.
  intros U Own. induction l as [|[k x] l IH]; intros C Hl G; cbn [fold_left].
  - split; [exact G|]. split; [auto|intros k x f []].
  - destruct (step_good W mods C k x U Own G) as (G' & Keep & New); [apply Hl; left; reflexivity|].
    destruct (IH (scan_step W C (k, x))) as (G2 & Keep2 & New2); [intros; apply Hl; right; assumption|exact G'|].
    split; [exact G2|]. split; [auto|]. intros k' x' f [Q|Q] IM; [injection Q as -> ->; apply Keep2, New, IM|eapply New2; eauto].
Qed.
Lemma getmod_good W mods C o : unshared W -> own_names W mods -> good W mods C -> good W mods (snd (getmod W mods C o)).
Proof.
  intros U Own G. unfold getmod. destruct (kind W o); try exact G;
  (destruct (module_attr W o); [exact G|]; destruct (getfile W mods o) as [f0|]; [|exact G]; cbv zeta; destruct (get (absfile W f0) (byfile C)); [exact G|];
   destruct (scan_good W mods U Own mods C) as (G' & _); [intros k x I; apply In_get; [apply Own|exact I]|exact G|];
   destruct (get (absfile W f0) (byfile (fold_left (scan_step W) mods C))); exact G').
Qed.
Lemma good_import W mods C n x : n = mname W x -> get n mods = None -> own_names W mods -> good W mods C -> own_names W (set n x mods) /\ good W (set n x mods) C.
Proof.
  intros N Fr [Wf Own] [G1 G2]. split.
  - split; [apply wf_set; exact Wf|]. intros k y H. destruct (string_dec k n) as [->|Nk]; [rewrite get_set_same in H; congruence|].
    rewrite get_set_other in H by auto. auto.
  - split.
    + intros p m H. destruct (G1 p m H) as (y & f & A & B). exists y, f. split; [|exact B]. rewrite get_set_other; [exact A|]. intros Q. congruence.
    + intros k f H. destruct (G2 k f H) as (y & A & B). exists y. split; [|exact B]. rewrite get_set_other; [exact A|]. intros Q. congruence.
Qed.
Lemma history_good W : unshared W -> forall es known mods C, tidy W known es -> (forall k, In k (keys mods) -> In k known) -> own_names W mods -> good W mods C ->
  let s := fold_left (after W) es (mods, C) in own_names W (fst s) /\ good W (fst s) (snd s).
Proof.
  intros U. induction es as [|e es IH]; intros known mods C T Hk Own G; cbn [fold_left]; [split; assumption|].
  destruct e as [n x|o]; cbn [after fst snd] in *.
  - destruct T as (N & Fr & T). destruct (good_import W mods C n x N) as [Own' G']; [|exact Own|exact G|].
    + apply get_None_iff. intros Q. apply Fr, Hk, Q.
    + apply (IH (n :: known)); auto. intros k Q. destruct (string_dec k n) as [->|Nk]; [left; reflexivity|right]. apply Hk.
      destruct (get k mods) as [v|] eqn:E; [destruct (memb_spec k (keys mods)) as [Hm|Hm]; [exact Hm|apply get_None_iff in Hm; congruence]|].
      exfalso. apply (proj1 (get_None_iff k (set n x mods))) in Q; [exact Q|]. rewrite get_set_other by auto. exact E.
  - apply (IH known); auto. apply getmod_good; assumption.
Qed.

(** After any history of imports and questions, if no two modules come from one file and each has its own name: the module of a code object,
    a frame or a traceback is the module from its file *)
Theorem C106_code : forall W es mods C o f x g, unshared W -> tidy W [] es -> history W es = (mods, C) -> runs W o f ->
  get (mname W x) mods = Some x -> is_mod W x g -> absfile W g = absfile W f -> fst (getmod W mods C o) = Some x.
Proof.
  intros W es mods C o f x g U T H R Gx IM Ab.
  destruct (history_good W U es [] [] (Caches [] []) T) as [Own G]; [intros k []|split; [apply wf_nil|discriminate]|split; discriminate|].
  cbv zeta in Own, G. change (fold_left (after W) es ([], Caches [] [])) with (history W es) in Own, G. rewrite H in Own, G. cbn [fst snd] in Own, G.
  destruct (runs_file W mods o f R) as (K & M & F). unfold getmod. rewrite M, F. cbv zeta.
  assert (L : forall C', good W mods C' -> forall n, get (absfile W f) (byfile C') = Some n -> get n mods = Some x).
  { intros C' [G1 _] n E. destruct (G1 _ _ E) as (y & g' & Y1 & Y2 & Y3 & Y4).
    rewrite (U x y g g' (absfile W f) IM Y3 (or_introl (eq_sym Ab)) Y4). exact Y1. }
  destruct (scan_good W mods U Own mods C) as (G' & _ & New); [intros k y I; apply In_get; [apply Own|exact I]|exact G|].
  assert (Q : get (absfile W f) (byfile (fold_left (scan_step W) mods C)) = Some (mname W x)).
  { rewrite <- Ab. apply (New (mname W x) x g); [apply get_In, Gx|exact IM]. }
  destruct (kind W o); try contradiction; (destruct (get (absfile W f) (byfile C)) as [n|] eqn:E; [cbn [fst]; exact (L C G n E)|rewrite Q; cbn [fst]; exact Gx]).
Qed.
(** ... and if no module is from its file, none, unless __main__ or builtins has it under its name *)
Theorem C106_code_none : forall W es mods C o f, unshared W -> tidy W [] es -> history W es = (mods, C) -> runs W o f -> name_attr W o = None ->
  (forall k x g, get k mods = Some x -> is_mod W x g -> ~ paths W g (absfile W f)) -> fst (getmod W mods C o) = None /\ isfrommain W mods C o = false.
Proof.
  intros W es mods C o f U T H R Na No.
  assert (X : fst (getmod W mods C o) = None).
  { destruct (history_good W U es [] [] (Caches [] []) T) as [Own G]; [intros k []|split; [apply wf_nil|discriminate]|split; discriminate|].
    cbv zeta in Own, G. change (fold_left (after W) es ([], Caches [] [])) with (history W es) in Own, G. rewrite H in Own, G. cbn [fst snd] in Own, G.
    destruct (runs_file W mods o f R) as (K & M & F). unfold getmod. rewrite M, F. cbv zeta.
    assert (L : forall C', good W mods C' -> get (absfile W f) (byfile C') = None).
    { intros C' [G1 _]. destruct (get (absfile W f) (byfile C')) as [n|] eqn:E; [|reflexivity]. destruct (G1 _ _ E) as (y & g' & Y1 & Y2 & Y3 & Y4).
      exfalso. exact (No n y g' Y1 Y3 Y4). }
    destruct (scan_good W mods U Own mods C) as (G' & _ & _); [intros k y I; apply In_get; [apply Own|exact I]|exact G|].
    rewrite (L C G), (L _ G'). unfold by_name. rewrite Na. destruct (kind W o); try contradiction; reflexivity. }
  split; [exact X|]. unfold isfrommain. rewrite X. reflexivity.
Qed.

(** ... if it has a name, __main__ if that has it under this name, else builtins if that has it so *)
Theorem C106_code_named : forall W es mods C o f n, unshared W -> tidy W [] es -> history W es = (mods, C) -> runs W o f -> name_attr W o = Some n ->
  (forall k x g, get k mods = Some x -> is_mod W x g -> ~ paths W g (absfile W f)) ->
  forall x, fst (getmod W mods C o) = Some x <->
    get "__main__" mods = Some x /\ get n (mdict W x) = Some o \/
    (forall y, get "__main__" mods = Some y -> get n (mdict W y) <> Some o) /\ get "builtins" mods = Some x /\ get n (mdict W x) = Some o.
Proof.
  intros W es mods C o f n U T H R Na No.
  assert (X : fst (getmod W mods C o) = by_name W mods o).
  { destruct (history_good W U es [] [] (Caches [] []) T) as [Own G]; [intros k []|split; [apply wf_nil|discriminate]|split; discriminate|].
    cbv zeta in Own, G. change (fold_left (after W) es ([], Caches [] [])) with (history W es) in Own, G. rewrite H in Own, G. cbn [fst snd] in Own, G.
    destruct (runs_file W mods o f R) as (K & M & F). unfold getmod. rewrite M, F. cbv zeta.
    assert (L : forall C', good W mods C' -> get (absfile W f) (byfile C') = None).
    { intros C' [G1 _]. destruct (get (absfile W f) (byfile C')) as [n'|] eqn:E; [|reflexivity]. destruct (G1 _ _ E) as (y & g' & Y1 & Y2 & Y3 & Y4).
      exfalso. exact (No n' y g' Y1 Y3 Y4). }
    destruct (scan_good W mods U Own mods C) as (G' & _ & _); [intros k y I; apply In_get; [apply Own|exact I]|exact G|].
    rewrite (L C G), (L _ G'). destruct (kind W o); try contradiction; reflexivity. }
  intros x. rewrite X. unfold by_name. rewrite Na.
  assert (B : forall m, match get m mods with Some x => match get n (mdict W x) with Some y => Nat.eqb y o | None => false end | None => false end = true <->
            exists x, get m mods = Some x /\ get n (mdict W x) = Some o).
  { intros m. destruct (get m mods) as [y|]; [|split; [discriminate|intros (? & Q & _); discriminate]].
    destruct (get n (mdict W y)) as [z|] eqn:E.
    - rewrite Nat.eqb_eq. split; [intros ->; eauto|intros (? & Q & Q'); congruence].
    - split; [discriminate|intros (? & Q & Q'); congruence]. }
  pose proof (B "__main__") as Bm. pose proof (B "builtins") as Bb. cbv zeta.
  destruct (match get "__main__" mods with Some _ => _ | None => _ end).
  - destruct (proj1 Bm eq_refl) as (y & Y1 & Y2). rewrite Y1. split.
    + intros Q. injection Q as <-. left. auto.
    + intros [[Q _]|[Q _]]; [exact Q|exfalso; exact (Q y eq_refl Y2)].
  - assert (N : forall y, get "__main__" mods = Some y -> get n (mdict W y) <> Some o).
    { intros y Y1 Y2. assert (false = true) by (apply Bm; eauto). discriminate. }
    destruct (match get "builtins" mods with Some _ => _ | None => _ end).
    + destruct (proj1 Bb eq_refl) as (y & Y1 & Y2). rewrite Y1. split.
      * intros Q. injection Q as <-. right. auto.
      * intros [[Q Q']|[_ [Q _]]]; [exfalso; exact (N x Q Q')|exact Q].
    + split; [discriminate|]. intros [[Q Q']|[_ [Q Q']]]; [exfalso; exact (N x Q Q')|].
      assert (false = true) by (apply Bb; eauto). discriminate.
Qed.

(** ** isdynamic *)
(** a function or method that says its module: exactly if its code was typed and its module is __main__ *)
Theorem C106_dynamic : forall W mods C o f m, says W o m -> of_file W o f ->
  exists b, isdynamic W mods C o = inl b /\ (b = true <-> f = "<stdin>" /\ exists x, get m mods = Some x /\ mname W x = "__main__").
Proof.
  intros W mods C o f m S O. assert (F : getfile W mods o = inl f).
  { unfold getfile, unwrapped. destruct O as [(c & K & K1)|(g & c & K & K1 & K2)]; [rewrite !K, !K1; reflexivity|rewrite !K, !K1, !K2; reflexivity]. }
  unfold isdynamic. rewrite F. eexists. split; [reflexivity|]. destruct (String.eqb_spec f "<stdin>") as [->|N].
  - rewrite (C106_frommain W mods C o m S). tauto.
  - split; [discriminate|intros [Q _]; contradiction].
Qed.
(** a class never: but for a class of a __main__ without a file, as one typed at the prompt, OSError is raised instead of an answer *)
Theorem C106_class_refuted : forall W mods C o m, kind W o = KClass -> module_attr W o = Some (Some m) -> (forall x, get m mods = Some x -> mfile W x <> Some "<stdin>") ->
  isdynamic W mods C o = if String.eqb m "__main__" && match get m mods with Some x => match mfile W x with Some _ => false | None => true end | None => true end then inr OSError else inl false.
Proof.
  intros W mods C o m K M Ns. unfold isdynamic, getfile. rewrite K, M. destruct (get m mods) as [x|] eqn:G.
  - destruct (mfile W x) as [f|] eqn:F.
    + destruct (String.eqb_spec f "<stdin>") as [->|N]; [exfalso; exact (Ns x eq_refl F)|]. now rewrite andb_false_r.
    + rewrite andb_true_r. destruct (String.eqb m "__main__"); reflexivity.
  - rewrite andb_true_r. destruct (String.eqb m "__main__"); reflexivity.
Qed.

(** a class whose __module__ is None or missing never *)
Theorem C106_class_none : forall W mods C o, kind W o = KClass -> module_attr W o = Some None \/ module_attr W o = None -> isdynamic W mods C o = inl false.
Proof. intros W mods C o K [M|M]; unfold isdynamic, getfile; rewrite K, M; reflexivity. Qed.

(** ** A concrete world: a script /w/tool.py (module 1), also importable as tool (module 2), with lib (module 3) and builtins (module 4) *)
Definition W0 : world :=
  World (fun o => match o with 1 | 2 | 3 | 4 => KModule | 10 => KFunction 11 | 11 => KCode "/w/tool.py" | 12 => KClass | 13 => KFrame 14 | 14 => KCode "/w/lib.py"
                  | 15 => KFunction 16 | 16 => KCode "<stdin>" | 17 => KTraceback 13 | _ => KOther end)
        (fun o => match o with 10 | 12 | 15 => Some (Some "__main__") | _ => None end) (fun o => match o with 10 => Some "f" | 12 => Some "C" | _ => None end)
        (fun o => match o with 1 => "__main__" | 2 => "tool" | 3 => "lib" | 4 => "builtins" | _ => "" end)
        (fun o => match o with 1 | 2 => Some "/w/tool.py" | 3 => Some "/w/lib.py" | _ => None end)
        (fun o => match o with 4 => [("True", 20); ("len", 21)] | 1 => [("f", 10); ("C", 12)] | _ => [] end)
        (fun o => match o with 20 => "True" | 30 => "[1, 2]" | _ => "" end) (fun f => f) (fun f => f) 4.
(** REFUTED for code objects if the script was also imported under its own name: the code of __main__ is not from main, unless this was asked before *)
Theorem C106_script_refuted :
  let h1 := [Import "__main__" 1; Import "builtins" 4; Import "tool" 2] in
  let h2 := [Import "__main__" 1; Import "builtins" 4; Ask 11; Import "tool" 2] in
  let s1 := history W0 h1 in let s2 := history W0 h2 in
  fst s1 = fst s2 /\ tidy W0 [] h1 /\ tidy W0 [] h2 /\ runs W0 11 "/w/tool.py" /\
  isfrommain W0 (fst s1) (snd s1) 11 = false /\ isfrommain W0 (fst s2) (snd s2) 11 = true /\ isfrommain W0 (fst s1) (snd s1) 10 = true.
Proof.
  cbv zeta. split; [reflexivity|]. split; [cbn; intuition discriminate|]. split; [cbn; intuition discriminate|].
  split; [split; [reflexivity|left; reflexivity]|]. repeat split.
Qed.
Theorem C106_prompt_refuted : let mods := [("__main__", 5); ("builtins", 4)] in
  isdynamic W0 mods (Caches [] []) 12 = inr OSError /\ isdynamic W0 [("__main__", 1)] (Caches [] []) 15 = inl true /\ isdynamic W0 [("__main__", 1)] (Caches [] []) 12 = inl false.
Proof. repeat split. Qed.
(** without the second module the hypotheses of C106_code are met *)
Definition W1 : world :=
  World (fun o => match o with 2 => KOther | _ => kind W0 o end) (module_attr W0) (name_attr W0) (mname W0) (mfile W0) (mdict W0) (shown W0) (absfile W0) (realfile W0) 4.
Theorem C106_case : unshared W1 /\ tidy W1 [] [Import "__main__" 1; Ask 11; Import "lib" 3; Ask 17] /\ runs W1 17 "/w/lib.py" /\
  (let s := history W1 [Import "__main__" 1; Ask 11; Import "lib" 3; Ask 17] in fst (getmod W1 (fst s) (snd s) 17) = Some 3 /\ fst (getmod W1 (fst s) (snd s) 11) = Some 1) /\
  plain_value W1 20 /\ fst (getmodule W1 [] (Caches [] []) true 20) = Some 4 /\ fst (getmodule W1 [] (Caches [] []) true 30) = None.
Proof.
  split; [|split; [cbn; intuition discriminate|split; [|split; [split; reflexivity|split; [split; reflexivity|split; reflexivity]]]]].
  - assert (M : forall x f, is_mod W1 x f -> x = 1 /\ f = "/w/tool.py" \/ x = 3 /\ f = "/w/lib.py").
    { intros x f [K F]. do 18 (destruct x as [|x]; [cbn in K, F; try discriminate; injection F as <-; auto|]). cbn in K. discriminate. }
    intros x y f g p A B [-> | ->] [P|P]; destruct (M x f A) as [[-> ->]|[-> ->]], (M y g B) as [[-> ->]|[-> ->]]; cbn in P; try discriminate P; reflexivity.
  - split; [reflexivity|]. right. right. exists 13, 14. repeat split.
Qed.
Print Assumptions C106_code.
Print Assumptions C106_dynamic.
