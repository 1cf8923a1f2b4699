(** C109: a pickle tells the object graph and nothing else: not where its objects are. *)
From Coq Require Import String List Bool Arith NArith ZArith Lia.
From Verif Require Import PyDict CoreModel CoreSpec CoreProps CoreExamples BytesModel BytesProps.
Import ListNotations.
Local Open Scope string_scope.
Local Open Scope list_scope.

(** ** Specification: two graphs that differ only in where their objects are *)
Section Twins.
  (** which object corresponds to which; which of the equal strings, bytes, globals corresponds to which *)
  Variable R : oid -> oid -> Prop.
  Variable A : atom -> nat -> nat -> Prop.
  Definition v_twin (v w : val) : Prop :=
    match v, w with
    | VA a i, VA b j => a = b /\ (memoized a = true -> A a i j)
    | VR o, VR o' => R o o'
    | _, _ => False
    end.
  Definition i_twin (p q : val * val) : Prop := v_twin (fst p) (fst q) /\ v_twin (snd p) (snd q).
  Definition s_twin (s s' : state) : Prop :=
    match s, s' with
    | SNone, SNone => True
    | SVal v, SVal v' => v_twin v v'
    | SAttrs d None, SAttrs d' None => Forall2 i_twin d d'
    | SAttrs d (Some s), SAttrs d' (Some s') => Forall2 i_twin d d' /\ Forall2 i_twin s s'
    | _, _ => False
    end.
  Definition g_twin (g g' : globals) : Prop :=
    match g, g' with
    | GRef a, GRef b => a = b
    | GCopy g m, GCopy g' m' => R g g' /\ v_twin m m'
    | _, _ => False
    end.
  Definition o_twin (b b' : obj) : Prop :=
    match b, b' with
    | OTup vs, OTup vs' => Forall2 v_twin vs vs'
    | OList vs, OList vs' => Forall2 v_twin vs vs'
    | ODict d, ODict d' => Forall2 i_twin d d'
    | OSet f vs, OSet f' vs' => f = f' /\ Forall2 v_twin vs vs'
    | ORed nb c args li di st, ORed nb' c' args' li' di' st' =>
        nb = nb' /\ v_twin c c' /\ Forall2 v_twin args args' /\ Forall2 v_twin li li' /\ Forall2 i_twin di di' /\ s_twin st st'
    | OFun co gl n de cl st, OFun co' gl' n' de' cl' st' =>
        v_twin co co' /\ g_twin gl gl' /\ v_twin n n' /\ v_twin de de' /\ v_twin cl cl' /\ s_twin st st'
    | OType mt n bs d q, OType mt' n' bs' d' q' =>
        v_twin mt mt' /\ v_twin n n' /\ v_twin bs bs' /\ Forall2 i_twin d d' /\ v_twin q q'
    | OCell (Some v), OCell (Some v') => v_twin v v'
    | OCell None, OCell None => True
    | _, _ => False
    end.
End Twins.
Definition one_to_one {X Y} (R : X -> Y -> Prop) : Prop := (forall x y y', R x y -> R x y' -> y = y') /\ (forall x x' y, R x y -> R x' y -> x = x').
(** number 0 is the interned string, the object a name leads to; setattr (number 1 of its name) is one of dill's own callables *)
Definition twins (H : oid -> option obj) (v : val) (H' : oid -> option obj) (v' : val) : Prop :=
  exists R A, v_twin R A v v' /\ one_to_one R /\ (forall a, one_to_one (A a)) /\ (forall a, A a 0 0) /\ A (AGlob GSetattr) 1 1 /\
    (forall o o', R o o' -> exists b b', H o = Some b /\ H' o' = Some b' /\ o_twin R A b b').

(** ** Proof: the two runs go side by side *)
Section Run.
  Variable R : oid -> oid -> Prop.
  Variable A : atom -> nat -> nat -> Prop.
  Variables H H' : oid -> option obj.
  Hypothesis R1 : one_to_one R.
  Hypothesis A1 : forall a, one_to_one (A a).
  Hypothesis A0 : forall a, A a 0 0.
  Hypothesis AS : A (AGlob GSetattr) 1 1.
  Hypothesis HO : forall o o', R o o' -> exists b b', H o = Some b /\ H' o' = Some b' /\ o_twin R A b b'.
  Notation vt := (v_twin R A).
  Notation it := (i_twin R A).

  Definition k_twin (k k' : key) : Prop :=
    match k, k' with
    | KObj o, KObj o' => R o o'
    | KAtom a i, KAtom b j => a = b /\ A a i j
    | KGlob f, KGlob f' => R f f'
    | KAnon, KAnon => True
    | _, _ => False
    end.
  Definition pp_twin (p p' : pp) : Prop :=
    match p, p' with
    | PSetCell c, PSetCell c' | PSetItems c, PSetItems c' | PSetQual c, PSetQual c' => R c c'
    | _, _ => False
    end.
  Definition po_twin (x y : oid * list pp) : Prop := R (fst x) (fst y) /\ Forall2 pp_twin (snd x) (snd y).
  Definition st_twin (s s' : pst) : Prop := Forall2 k_twin (memo s) (memo s') /\ Forall2 po_twin (post s) (post s').
  Definition r_twin (r r' : res (list op * pst)) : Prop :=
    match r, r' with
    | Ok (l, s), Ok (l', s') => l = l' /\ st_twin s s'
    | Fail e s, Fail e' s' => e = e' /\ st_twin s s'
    | _, _ => False
    end.
  Definition act_twin (a a' : act) : Prop := forall s s', st_twin s s' -> r_twin (a s) (a' s').

  Lemma emit_t l : act_twin (emit l) (emit l).
  Proof. intros s s' S. split; auto. Qed.
  Lemma fail_t e : act_twin (fail e) (fail e).
  Proof. intros s s' S. split; auto. Qed.
  Lemma seq_t a a' b b' : act_twin a a' -> act_twin b b' -> act_twin (a ;; b) (a' ;; b').
  Proof.
    intros Ea Eb s s' S. specialize (Ea _ _ S). unfold CoreModel.seq. destruct (a s) as [[l s1]|e s1], (a' s') as [[l' s1']|e' s1']; cbn in Ea; try contradiction; auto.
    destruct Ea as [-> S1]. specialize (Eb _ _ S1). destruct (b s1) as [[m s2]|e s2], (b' s1') as [[m' s2']|e' s2']; cbn in Eb |- *; try contradiction; auto.
    destruct Eb as [-> S2]. auto.
  Qed.
  Ltac kinds b b' B := destruct b, b'; cbn [o_twin] in B; try contradiction; try (match type of B with context [match ?c with Some _ => False | None => False end] => destruct c; contradiction end).
  Ltac sq := match goal with |- act_twin (CoreModel.seq _ _) (CoreModel.seq _ _) => apply seq_t; sq | _ => idtac end.
  Lemma seqs_t {X Y} (T : X -> Y -> Prop) f f' : (forall x y, T x y -> act_twin (f x) (f' y)) -> forall l l', Forall2 T l l' -> act_twin (seqs f l) (seqs f' l').
  Proof. intros F l l' E. induction E; cbn; [apply emit_t|apply seq_t; auto]. Qed.

  Lemma k_eq k k' j j' : k_twin k k' -> k_twin j j' -> (k = j <-> k' = j').
  Proof.
    destruct R1 as [Rf Ri]. destruct k, k'; cbn; try contradiction; intros K; destruct j, j'; cbn; try contradiction; intros J; try (split; discriminate); try (split; reflexivity).
    - split; intros [= ->]; f_equal; eauto.
    - destruct K as [<- K], J as [<- J]. split; intros [= <- <-]; f_equal; match goal with X : A ?x _ _ |- _ => destruct (A1 x) as [Af Ai] end; eauto.
    - split; intros [= ->]; f_equal; eauto.
  Qed.
  Lemma find_t k k' : k_twin k k' -> forall l l', Forall2 k_twin l l' -> forall n, find_key k l n = find_key k' l' n.
  Proof.
    intros K l l' F. induction F as [|x y l l' X F IH]; intros n; cbn; auto. pose proof (k_eq _ _ _ _ K X) as Q.
    destruct (key_eq_dec k x), (key_eq_dec k' y); auto; tauto.
  Qed.
  Lemma get_t k k' s s' : k_twin k k' -> st_twin s s' -> memo_get k s = memo_get k' s'.
  Proof. intros K [M _]. unfold memo_get. destruct k, k'; cbn in K; try contradiction; auto; apply find_t; auto. Qed.
  Lemma memoize_t p k k' : k_twin k k' -> act_twin (memoize p k) (memoize p k').
  Proof.
    intros K s s' [M P]. unfold memoize. split.
    - assert (L : length (memo s) = length (memo s')) by (clear -M; induction M; cbn; congruence). rewrite L. reflexivity.
    - split; cbn; auto. apply Forall2_app; auto.
  Qed.
  Lemma if_get_t k k' (f f' : nat -> pst -> res (list op * pst)) (g g' : act) : k_twin k k' -> (forall i, act_twin (f i) (f' i)) -> act_twin g g' ->
    act_twin (fun s => match memo_get k s with Some i => f i s | None => g s end) (fun s => match memo_get k' s with Some i => f' i s | None => g' s end).
  Proof. intros K F G s s' S. rewrite (get_t _ _ _ _ K S). destruct (memo_get k' s'); [apply F|apply G]; auto. Qed.

  (** lists *)
  Lemma f2_len {X Y} (T : X -> Y -> Prop) l l' : Forall2 T l l' -> length l = length l'.
  Proof. intros F; induction F; cbn; congruence. Qed.
  Lemma f2_first {X Y} (T : X -> Y -> Prop) n : forall l l', Forall2 T l l' -> Forall2 T (firstn n l) (firstn n l').
  Proof. induction n; intros l l' F; cbn; auto. destruct F; cbn; auto. Qed.
  Lemma f2_skip {X Y} (T : X -> Y -> Prop) n : forall l l', Forall2 T l l' -> Forall2 T (skipn n l) (skipn n l').
  Proof. induction n; intros l l' F; cbn; auto. destruct F; cbn; auto. Qed.
  Lemma f2_map {X Y Z W} (T : X -> Y -> Prop) (U : Z -> W -> Prop) f g : (forall x y, T x y -> U (f x) (g y)) -> forall l l', Forall2 T l l' -> Forall2 U (map f l) (map g l').
  Proof. intros E l l' F; induction F; cbn; auto. Qed.
  Lemma f2_rev {X Y} (T : X -> Y -> Prop) l l' : Forall2 T l l' -> Forall2 T (rev l) (rev l').
  Proof. intros F; induction F; cbn; auto. apply Forall2_app; auto. Qed.

  Variable p : nat.

  Section Save.
    Variables sv sv' : val -> act.
    Hypothesis SV : forall v v', vt v v' -> act_twin (sv v) (sv' v').

    Lemma batches_t {X Y} (T : X -> Y -> Prop) one one' many many' : (forall x y, T x y -> act_twin (one x) (one' y)) ->
      (forall l l', Forall2 T l l' -> act_twin (many l) (many' l')) -> forall n l l', Forall2 T l l' -> act_twin (batches one many n l) (batches one' many' n l').
    Proof.
      intros O M n. induction n as [|n IH]; intros l l' F; cbn [batches]; [apply emit_t|].
      pose proof (f2_first T BATCHSIZE l l' F) as FF. pose proof (f2_skip T BATCHSIZE l l' F) as FS. rewrite (f2_len T _ _ FF).
      apply seq_t.
      - revert FF. generalize (firstn BATCHSIZE l), (firstn BATCHSIZE l'). intros t t' FF. destruct FF as [|x y l1 l1' X1 F1]; [apply emit_t|].
        destruct F1 as [|x2 y2 l2 l2' X2 F2]; [apply O; auto|]. apply M. constructor; auto.
      - destruct (Nat.ltb _ _); [apply emit_t|apply IH; auto].
    Qed.
    Lemma appends_t l l' : Forall2 vt l l' -> act_twin (batch_appends p sv l) (batch_appends p sv' l').
    Proof.
      intros F. unfold batch_appends. destruct (bin p).
      - rewrite (f2_len _ _ _ F). apply (batches_t vt); auto; intros; sq; auto using emit_t. apply (seqs_t vt); auto.
      - apply (seqs_t vt); auto. intros. apply seq_t; auto using emit_t.
    Qed.
    Lemma kv_t x y : it x y -> act_twin (save_kv sv x) (save_kv sv' y).
    Proof. intros [? ?]. apply seq_t; auto. Qed.
    Lemma setitems_t l l' : Forall2 it l l' -> act_twin (batch_setitems p sv l) (batch_setitems p sv' l').
    Proof.
      intros F. unfold batch_setitems. destruct (bin p).
      - rewrite (f2_len _ _ _ F). apply (batches_t it); auto; intros; sq; auto using emit_t, kv_t. apply (seqs_t it); auto using kv_t.
      - apply (seqs_t it); auto. intros. apply seq_t; auto using emit_t, kv_t.
    Qed.
    Lemma dict_t k k' l l' : k_twin k k' -> Forall2 it l l' -> act_twin (save_dict p sv k l) (save_dict p sv' k' l').
    Proof. intros. unfold save_dict. sq; auto using emit_t, memoize_t, setitems_t. Qed.
    Lemma list_t k k' l l' : k_twin k k' -> Forall2 vt l l' -> act_twin (save_list p sv k l) (save_list p sv' k' l').
    Proof. intros. unfold save_list. sq; auto using emit_t, memoize_t, appends_t. Qed.
    Definition arg_twin (x y : arg) : Prop :=
      match x, y with AV v, AV v' => vt v v' | AD k d, AD k' d' => k_twin k k' /\ Forall2 it d d' | AL l, AL l' => Forall2 vt l l' | _, _ => False end.
    Lemma arg_t x y : arg_twin x y -> act_twin (save_arg p sv x) (save_arg p sv' y).
    Proof. destruct x, y; cbn; try contradiction; intros; [auto|apply dict_t; tauto|apply list_t; cbn; auto]. Qed.
    Lemma tuple_t k k' l l' : k_twin k k' -> Forall2 arg_twin l l' -> act_twin (save_tuple p sv k l) (save_tuple p sv' k' l').
    Proof.
      intros K F. unfold save_tuple. pose proof (f2_len _ _ _ F) as L. pose proof (seqs_t arg_twin _ _ arg_t _ _ F) as Q.
      destruct F as [|x y l l' X F]; [apply emit_t|]. rewrite L. destruct (_ && _); sq; auto using emit_t.
      - apply if_get_t; auto; [intros i; apply emit_t|apply seq_t; auto using emit_t, memoize_t].
      - apply if_get_t; auto; [intros i; apply emit_t|apply seq_t; auto using emit_t, memoize_t].
    Qed.
    Lemma state_t s s' : s_twin R A s s' -> act_twin (save_state p sv s) (save_state p sv' s').
    Proof.
      destruct s as [|v|d [sl|]], s' as [|v'|d' [sl'|]]; cbn [s_twin]; try contradiction; intros S; unfold save_state; sq; auto using emit_t.
      - apply tuple_t; [exact I|]. destruct S. repeat constructor; auto.
      - apply dict_t; [exact I|auto].
    Qed.
    Lemma g_t g : vt (g_ g) (g_ g).
    Proof. split; auto. Qed.
    Lemma call_t nb c c' l l' : vt c c' -> Forall2 arg_twin l l' -> act_twin (red_call p sv nb c l) (red_call p sv' nb c' l').
    Proof.
      intros C F. unfold red_call. destruct nb; [destruct (Nat.leb 2 p)|]; sq; auto using emit_t, g_t; apply tuple_t; cbn; auto.
    Qed.
    Definition ok_twin (k k' : option key) : Prop := match k, k' with Some k, Some k' => k_twin k k' | None, None => True | _, _ => False end.
    Lemma rmemo_t k k' : ok_twin k k' -> act_twin (red_memo p k) (red_memo p k').
    Proof. destruct k, k'; cbn; try contradiction; intros K; [|apply emit_t]. apply if_get_t; auto; [intros i; apply emit_t|apply memoize_t; auto]. Qed.
    Lemma reduce_t nb c c' l l' s s' k k' : vt c c' -> Forall2 arg_twin l l' -> s_twin R A s s' -> ok_twin k k' -> act_twin (save_reduce p sv nb c l s k) (save_reduce p sv' nb c' l' s' k').
    Proof. intros. unfold save_reduce. sq; auto using call_t, rmemo_t, state_t. Qed.
    Lemma instance_t nb c c' l l' li li' di di' s s' k k' : vt c c' -> Forall2 arg_twin l l' -> Forall2 vt li li' -> Forall2 it di di' -> s_twin R A s s' -> k_twin k k' ->
      act_twin (save_instance p sv nb c l li di s k) (save_instance p sv' nb c' l' li' di' s' k').
    Proof. intros. unfold save_instance. sq; auto using call_t, rmemo_t, state_t, appends_t, setitems_t. Qed.
    Lemma set_t k k' f l l' : k_twin k k' -> Forall2 vt l l' -> act_twin (save_set p sv k f l) (save_set p sv' k' f l').
    Proof.
      intros K F. unfold save_set. destruct (Nat.leb 4 p); [destruct f|].
      - sq; auto using emit_t; [apply (seqs_t vt); auto|]. apply if_get_t; auto; [intros i; apply emit_t|apply seq_t; auto using emit_t, memoize_t].
      - rewrite (f2_len _ _ _ F). sq; auto using emit_t, memoize_t.
        assert (B : forall m m', Forall2 vt m m' -> act_twin (add_batch sv m) (add_batch sv' m')).
        { intros. unfold add_batch. sq; auto using emit_t. apply (seqs_t vt); auto. }
        apply (batches_t vt); auto.
      - apply reduce_t; cbn; auto using g_t.
    Qed.

    (** the deferred updates *)
    Lemma glob_t f f' : R f f' -> match glob_items H f, glob_items H' f' with Some d, Some d' => Forall2 it d d' | None, None => True | _, _ => False end.
    Proof.
      intros F. unfold glob_items. destruct (HO _ _ F) as (b & b' & -> & -> & B). kinds b b' B; auto.
      destruct B as (_ & G & _). destruct gl, gl0; cbn in G; try contradiction; auto. destruct G as [G _]. destruct (HO _ _ G) as (b & b' & -> & -> & B).
      kinds b b' B; auto.
    Qed.
    Lemma exec_t q q' : pp_twin q q' -> act_twin (exec_pp p H sv q) (exec_pp p H' sv' q').
    Proof.
      destruct q, q'; cbn [pp_twin]; try contradiction; intros Q; unfold exec_pp.
      - destruct (HO _ _ Q) as (b & b' & -> & -> & B). kinds b b' B; auto using fail_t.
        destruct contents, contents0; try contradiction; auto using fail_t. apply seq_t; auto using emit_t. apply reduce_t; cbn; auto using g_t. repeat constructor; cbn; auto.
      - pose proof (glob_t _ _ Q) as G. destruct (glob_items H f) as [d|], (glob_items H' f0) as [d'|]; try contradiction; auto using fail_t.
        pose proof G as G0. destruct G0; auto using emit_t. intros s s' S. rewrite (get_t (KGlob f) (KGlob f0) _ _ Q S). destruct (memo_get (KGlob f0) s'); [|split; auto].
        apply (fun x => seq_t _ _ _ _ (emit_t _) x s s' S). apply seq_t; auto using emit_t, setitems_t.
      - destruct (HO _ _ Q) as (b & b' & -> & -> & B). kinds b b' B; auto using fail_t.
        apply seq_t; auto using emit_t. apply reduce_t; cbn; auto. repeat constructor; cbn; tauto || auto.
    Qed.
    Lemma eqb_t o o' e e' : R o o' -> R e e' -> Nat.eqb o e = Nat.eqb o' e'.
    Proof.
      destruct R1 as [Rf Ri]. intros E F. destruct (Nat.eqb_spec o e) as [->|N], (Nat.eqb_spec o' e') as [->|N']; auto; exfalso; [apply N'|apply N]; eauto.
    Qed.
    Lemma memb_t o o' l l' : R o o' -> Forall2 po_twin l l' -> memb o (map fst l) = memb o' (map fst l').
    Proof. intros E F. induction F as [|x y l l' [X _] F IH]; cbn [map memb]; auto. cbn [eqb EqB_nat]. rewrite (eqb_t _ _ _ _ E X), IH. reflexivity. Qed.
    Lemma pget_t o o' l l' : R o o' -> Forall2 po_twin l l' -> match get o l, get o' l' with Some q, Some q' => Forall2 pp_twin q q' | None, None => True | _, _ => False end.
    Proof.
      intros E F. induction F as [|[x q] [y q'] l l' [X Q] F IH]; cbn [get]; auto. cbn [eqb EqB_nat]. cbn in X. rewrite (eqb_t _ _ _ _ E X). destruct (Nat.eqb o' y); auto.
    Qed.
    Lemma pdel_t o o' l l' : R o o' -> Forall2 po_twin l l' -> Forall2 po_twin (del o l) (del o' l').
    Proof.
      intros E F. unfold del. induction F as [|[x q] [y q'] l l' [X Q] F IH]; cbn [filter]; auto. cbn [fst eqb EqB_nat]. cbn [fst] in X. rewrite (eqb_t _ _ _ _ E X).
      destruct (Nat.eqb o' y); cbn [negb]; auto. constructor; auto. split; auto.
    Qed.
    Lemma papp_t o o' q q' l l' : R o o' -> pp_twin q q' -> Forall2 po_twin l l' -> Forall2 po_twin (append_pp o q l) (append_pp o' q' l').
    Proof.
      intros E P F. induction F as [|[x r] [y r'] l l' [X Q] F IH]; cbn [append_pp]; auto. cbn in X. rewrite (eqb_t _ _ _ _ E X).
      destruct (Nat.eqb o' y); constructor; auto; split; cbn; auto. apply Forall2_app; auto.
    Qed.
    Lemma add_t o o' q q' : R o o' -> pp_twin q q' -> act_twin (add_pp o q) (add_pp o' q').
    Proof. intros E Q s s' [M P]. split; auto. split; cbn; auto using papp_t. Qed.
    Lemma postproc_t o o' q q' r r' : R o o' -> Forall2 pp_twin q q' -> act_twin r r' -> act_twin (save_with_postproc p H sv o q r) (save_with_postproc p H' sv' o' q' r').
    Proof.
      intros E Q Er s s' S. unfold save_with_postproc. rewrite (memb_t _ _ _ _ E (proj2 S)). destruct (memb o' _); [split; auto|].
      apply (fun x y => seq_t _ _ _ _ x y s s' S).
      - intros t t' [M P]. split; auto. split; cbn; auto. apply Forall2_app; auto. constructor; auto. split; auto.
      - apply seq_t; auto. intros t t' T. unfold pop_run. pose proof (pget_t _ _ _ _ E (proj2 T)) as G. destruct (get o (post t)), (get o' (post t')); try contradiction; [|split; auto].
        apply (seqs_t pp_twin _ _ exec_t _ _ (f2_rev _ _ _ G)). split; cbn; [apply (proj1 T)|apply pdel_t; auto; apply (proj2 T)].
    Qed.
    Definition oo_twin (x y : option oid) : Prop := match x, y with Some o, Some o' => R o o' | None, None => True | _, _ => False end.
    Lemma cell_t o o' c c' : R o o' -> o_twin R A (OCell c) (OCell c') -> act_twin (save_cell p sv o c) (save_cell p sv' o' c').
    Proof.
      intros E C s s' S. unfold save_cell. destruct c as [v|], c' as [v'|]; cbn [o_twin] in C; try contradiction.
      - assert (F : oo_twin (match post s with [] => None | (e, _) :: _ => Some e end) (match post s' with [] => None | (e, _) :: _ => Some e end)).
        { destruct S as [_ P]. destruct P as [|[x q] [y q'] l l' [X _] P]; cbn; auto. }
        match goal with |- r_twin (match ?d with _ => _ end) (match ?d' with _ => _ end) => set (dest := d); set (dest' := d') end.
        assert (D : oo_twin dest dest').
        { unfold dest, dest'. destruct v as [a i|f], v' as [a' i'|f']; cbn [v_twin] in C; try contradiction; auto. rewrite (memb_t _ _ _ _ C (proj2 S)). destruct (memb f' _); auto. }
        clearbody dest dest'. destruct dest as [e|], dest' as [e'|]; cbn in D; try contradiction.
        + apply (fun x y => seq_t _ _ _ _ x y s s' S); [|apply add_t; auto]. apply reduce_t; cbn; auto using g_t. repeat constructor; cbn; discriminate || auto.
        + clear F. revert s s' S. apply reduce_t; cbn; auto using g_t.
      - revert s s' S. apply seq_t; [|apply seq_t; auto using emit_t]; apply reduce_t; cbn; auto using g_t; repeat constructor; cbn; auto.
    Qed.
    Lemma first_t vs vs' l l' : Forall2 vt vs vs' -> Forall2 po_twin l l' -> oo_twin (first_in vs l) (first_in vs' l').
    Proof.
      intros V F. unfold first_in. induction F as [|[x q] [y q'] l l' [X Q] F IH]; cbn [find]; [exact I|]. cbn in X.
      assert (E : existsb (fun v => match v with VR o => Nat.eqb o (fst (x, q)) | _ => false end) vs = existsb (fun v => match v with VR o => Nat.eqb o (fst (y, q')) | _ => false end) vs').
      { clear -V X R1. induction V as [|v v' vs vs' T V IH]; cbn [existsb]; auto. rewrite IH. f_equal. destruct v, v'; cbn in T |- *; try contradiction; auto using eqb_t. }
      rewrite E. destruct (existsb _ vs'); auto.
    Qed.
    Lemma function_t o o' co gl n de cl st co' gl' n' de' cl' st' : R o o' -> o_twin R A (OFun co gl n de cl st) (OFun co' gl' n' de' cl' st') ->
      act_twin (save_function p H sv o co gl n de cl st) (save_function p H' sv' o' co' gl' n' de' cl' st').
    Proof.
      intros E (C & G & N & D & L & S). unfold save_function. destruct gl as [a|g m], gl' as [a'|g' m']; cbn [g_twin] in G; try contradiction.
      - subst a'. apply postproc_t; auto. apply reduce_t; cbn; auto using g_t. repeat constructor; cbn; auto.
      - destruct G as [G M]. destruct (HO _ _ G) as (b & b' & -> & -> & B). kinds b b' B; auto using fail_t.
        intros s s' T.
        assert (F : oo_twin (first_in (map snd kvs) (post s)) (first_in (map snd kvs0) (post s'))).
        { apply first_t; [|apply (proj2 T)]. apply (f2_map it); auto. intros x y [_ ?]; auto. }
        apply (fun x y => seq_t _ _ _ _ x y s s' T).
        + destruct (first_in _ _), (first_in _ _); cbn in F; try contradiction; auto using emit_t. apply add_t; auto.
        + apply postproc_t; auto.
          * destruct (first_in _ _), (first_in _ _); cbn in F; try contradiction; auto; try (constructor; cbn; auto).
          * apply reduce_t; cbn; auto using g_t. repeat constructor; cbn; auto.
    Qed.
    Lemma obj_t o o' b b' : R o o' -> o_twin R A b b' -> act_twin (save_obj p H sv o b) (save_obj p H' sv' o' b').
    Proof.
      intros E B. assert (AV_ : forall l l', Forall2 vt l l' -> Forall2 arg_twin (map AV l) (map AV l')) by (apply f2_map; auto).
      kinds b b' B; cbn [save_obj].
      - apply tuple_t; auto.
      - apply list_t; auto.
      - apply dict_t; auto.
      - destruct B as (-> & C & Ar & L & Di & S). apply instance_t; auto.
      - apply function_t; auto.
      - destruct B as (M & N & Ba & D & Q). unfold save_type. apply postproc_t; auto. apply reduce_t; cbn; auto using g_t. repeat constructor; cbn; auto.
      - apply cell_t; auto.
      - destruct B as [-> B]. apply set_t; auto.
    Qed.
    Lemma atom_t a i j : (memoized a = true -> A a i j) -> act_twin (save_atom p a i) (save_atom p a j).
    Proof.
      intros K s s' S. unfold save_atom. destruct a; cbn [memoized] in *; try (apply emit_t; auto); try (split; auto; fail).
      all: revert s s' S; apply if_get_t; [split; auto|intros n; apply emit_t|apply seq_t; [apply emit_t|apply memoize_t; split; auto]].
    Qed.
    Lemma val_t v v' : vt v v' -> act_twin (save_val p H sv v) (save_val p H' sv' v').
    Proof.
      intros V s s' S. unfold save_val. destruct v as [a i|o], v' as [b j|o']; cbn [v_twin] in V; try contradiction.
      - destruct V as [<- V]. apply atom_t; auto.
      - rewrite (get_t (KObj o) (KObj o') _ _ V S). destruct (memo_get _ s'); [split; auto|]. destruct (HO _ _ V) as (b & b' & -> & -> & B). apply obj_t; auto.
    Qed.
  End Save.
  Lemma save_t n : forall v v', vt v v' -> act_twin (save p H n v) (save p H' n v').
  Proof. induction n as [|n IH]; intros v v' V; cbn [save]; [apply fail_t|apply val_t; auto]. Qed.
  Lemma dump_t n v v' s s' : vt v v' -> st_twin s s' -> r_twin (dump p H n v s) (dump p H' n v' s').
  Proof.
    intros V S. unfold dump. pose proof (save_t n v v' V s s' S) as Q. destruct (save p H n v s) as [[l t]|e t], (save p H' n v' s') as [[l' t']|e' t']; cbn in Q; try contradiction; auto.
    destruct Q as [-> Q]. split; auto.
  Qed.
End Run.

(** ** C109 *)
(** two graphs that differ only in where their objects are: the same pickle, at every protocol, or the same exception *)
Theorem C109_same_pickle : forall p H v H' v' fuel, twins H v H' v' ->
  (forall ops, dumps p H fuel v = Ok ops <-> dumps p H' fuel v' = Ok ops) /\ (forall e, failed (dumps p H fuel v) e <-> failed (dumps p H' fuel v') e).
Proof.
  intros p H v H' v' fuel (R & A & V & R1 & A1 & A0 & AS & HO).
  pose proof (dump_t R A H H' R1 A1 A0 AS HO p fuel v v' {| memo := []; post := [] |} {| memo := []; post := [] |} V (conj (Forall2_nil _) (Forall2_nil _))) as Q.
  unfold dumps, failed. destruct (dump p H fuel v _) as [[l t]|e t], (dump p H' fuel v' _) as [[l' t']|e' t']; cbn in Q; try contradiction; destruct Q as [-> _].
  - split; [tauto|]. intros e; split; intros [s Q]; discriminate.
  - split; [split; discriminate|]. intros e; split; intros [s [= -> _]]; eauto.
Qed.
(** and in bytes *)
Theorem C109_same_bytes : forall p naming H v H' v' fuel b, twins H v H' v' -> dumps_bytes p naming H fuel v b <-> dumps_bytes p naming H' fuel v' b.
Proof.
  intros p naming H v H' v' fuel b T. destruct (C109_same_pickle p H v H' v' fuel T) as [E _].
  split; intros (ops & reuse & rops & D & W); exists ops, reuse, rops; (split; [apply E; exact D|exact W]).
Qed.

(** ** the other way: equal pickles, the same graph *)
(** both graphs are isomorphic to the one the pickle gives *)
Theorem C109_equal_pickles : forall p H v fuel H' v' fuel' ops, p <= 5 -> heap_wf H -> heap_wf H' -> dumps p H fuel v = Ok ops -> dumps p H' fuel' v' = Ok ops ->
  exists w m, loads ops = Some (w, m, []) /\ iso H v (heap m) w /\ iso H' v' (heap m) w.
Proof.
  intros p H v fuel H' v' fuel' ops Hp W W' D D'. destruct (C01_roundtrip p H fuel v ops W Hp D) as (w & m & L & J).
  destruct (C01_roundtrip p H' fuel' v' ops W' Hp D') as (w' & m' & L' & J'). rewrite L in L'. injection L' as <- <-. eauto.
Qed.
(** so what is at the end of a path is the same constant, and two paths lead to one object in both or in neither *)
Theorem C109_equal_paths : forall p H v fuel H' v' fuel' ops, p <= 5 -> heap_wf H -> heap_wf H' -> dumps p H fuel v = Ok ops -> dumps p H' fuel' v' = Ok ops ->
  forall q x x', follow H v q = Some x -> follow H' v' q = Some x' ->
  (forall a i, x = VA a i -> exists j, x' = VA a j) /\ (forall o, x = VR o -> exists o', x' = VR o') /\
  (forall r y y' o1 o2 o1' o2', follow H v r = Some y -> follow H' v' r = Some y' -> x = VR o1 -> y = VR o2 -> x' = VR o1' -> y' = VR o2' -> (o1 = o2 <-> o1' = o2')).
Proof.
  intros p H v fuel H' v' fuel' ops Hp W W' D D' q x x' Fx Fx'. destruct (C109_equal_pickles p H v fuel H' v' fuel' ops Hp W W' D D') as (w & m & L & J & J').
  destruct (C02_paths H v (heap m) w W J q x Fx) as (z & Z & Za & Zs). destruct (C02_paths H' v' (heap m) w W' J' q x' Fx') as (z' & Z' & Za' & Zs').
  rewrite Z in Z'. injection Z' as <-. split; [|split].
  - intros a i ->. rewrite (Za a i eq_refl) in *. destruct x' as [b j|o].
    + pose proof (Za' b j eq_refl) as [= ->]. eauto.
    + destruct (Zs' q _ Fx') as (u & _ & S). destruct (S o o eq_refl eq_refl) as (b & b' & [=] & _).
  - intros o ->. destruct x' as [b j|o']; eauto. destruct (Zs q _ Fx) as (u & _ & S). destruct (S o o eq_refl eq_refl) as (c & c' & E & _). rewrite (Za' b j eq_refl) in E. discriminate.
  - intros r y y' o1 o2 o1' o2' Fy Fy' -> -> -> ->. destruct (Zs r _ Fy) as (u & U & S). destruct (Zs' r _ Fy') as (u' & U' & S'). rewrite U in U'. injection U' as <-.
    destruct (S o1 o2 eq_refl eq_refl) as (b & b' & E1 & E2 & E). destruct (S' o1' o2' eq_refl eq_refl) as (c & c' & E1' & E2' & E').
    rewrite E1 in E1'. injection E1' as <-. rewrite E2 in E2'. injection E2' as <-. rewrite <- E, <- E'. reflexivity.
Qed.

(** ** moving everything elsewhere *)
Section Move.
  Variable f : oid -> oid.
  Definition mv_v (v : val) : val := match v with VR o => VR (f o) | x => x end.
  Definition mv_i (q : val * val) : val * val := (mv_v (fst q), mv_v (snd q)).
  Definition mv_s (s : state) : state :=
    match s with SNone => SNone | SVal v => SVal (mv_v v) | SAttrs d sl => SAttrs (map mv_i d) (option_map (map mv_i) sl) end.
  Definition mv (b : obj) : obj :=
    match b with
    | OTup vs => OTup (map mv_v vs) | OList vs => OList (map mv_v vs) | ODict d => ODict (map mv_i d) | OSet z vs => OSet z (map mv_v vs)
    | ORed nb c args li di st => ORed nb (mv_v c) (map mv_v args) (map mv_v li) (map mv_i di) (mv_s st)
    | OFun co gl n de cl st => OFun (mv_v co) (match gl with GCopy g m => GCopy (f g) (mv_v m) | x => x end) (mv_v n) (mv_v de) (mv_v cl) (mv_s st)
    | OType mt n bs d q => OType (mv_v mt) (mv_v n) (mv_v bs) (map mv_i d) (mv_v q)
    | OCell c => OCell (option_map mv_v c)
    end.
End Move.
(** the objects of [D], with all they refer to, moved to other places: the same pickle *)
Theorem C109_moved : forall p H H' f D v fuel ops, closed H D -> vD D v -> (forall o, In o D -> H o <> None) -> (forall o o', In o D -> In o' D -> f o = f o' -> o = o') ->
  (forall o b, In o D -> H o = Some b -> H' (f o) = Some (mv f b)) ->
  (dumps p H fuel v = Ok ops <-> dumps p H' fuel (mv_v f v) = Ok ops).
Proof.
  intros p H H' f D v fuel ops CL VD PR INJ MV. apply C109_same_pickle. exists (fun o o' => In o D /\ o' = f o), (fun _ i j => i = j).
  set (RR := fun o o' => In o D /\ o' = f o). set (AA := fun (_ : atom) i j => i = j :> nat).
  assert (TV : forall w, vD D w -> v_twin RR AA w (mv_v f w)).
  { intros [a i|o] Hw; cbn; auto. split; auto. reflexivity. split; auto. }
  assert (TVs : forall l, (forall w, In w l -> vD D w) -> Forall2 (v_twin RR AA) l (map (mv_v f) l)).
  { induction l as [|w l IH]; intros E; cbn; auto. constructor; [apply TV, E; left; auto|apply IH; intros; apply E; right; auto]. }
  assert (TIs : forall d, (forall w, In w (flat d) -> vD D w) -> Forall2 (i_twin RR AA) d (map (mv_i f) d)).
  { induction d as [|[k w] d IH]; intros E; cbn; auto. constructor; [split; apply TV, E; cbn; auto|apply IH; intros; apply E; cbn; auto]. }
  assert (TS : forall s, (forall w, In w (state_vals s) -> vD D w) -> s_twin RR AA s (mv_s f s)).
  { intros [|w|d [sl|]] E; cbn in *; auto. split; apply TIs; intros; apply E, in_or_app; auto. }
  split; [apply TV; auto|]. split; [|split; [|split; [|split]]].
  - split; [intros o x y [_ ->] [_ ->]; auto|intros o o' y [I1 ->] [I2 E]; auto].
  - intros a. split; congruence.
  - reflexivity.
  - reflexivity.
  - intros o o' [Io ->]. destruct (H o) as [b|] eqn:E; [|destruct (PR o Io E)]. exists b, (mv f b). split; [reflexivity|split; [apply MV; auto|]].
    assert (K : forall w, In w (refs b) -> vD D w) by (intros w Hw; eapply CL; eauto).
    clear E. destruct b as [vs|vs|d|nb c args li di st|co gl n de cl st|mt n bs d q|[c|]|z vs]; cbn [mv o_twin refs option_map] in *; auto.
    + repeat split; auto; try (apply TVs); try (apply TIs); try (apply TS); try (apply TV); intros; apply K; rewrite ?in_app_iff; cbn; rewrite ?in_app_iff; auto 8.
    + assert (GT : g_twin RR AA gl (match gl with GCopy g m => GCopy (f g) (mv_v f m) | x => x end)).
      { destruct gl as [a|g m]; cbn; auto. split; [split; auto; apply (K (VR g)); cbn; auto 8|apply TV, K; cbn; auto 8]. }
      repeat split; auto; try (apply TS); try (apply TV); intros; apply K; cbn; rewrite ?in_app_iff; auto 8.
    + repeat split; try (apply TIs); try (apply TV); intros; apply K; cbn; auto 8.
    + apply TV, K; cbn; auto.
Qed.

(** ** the pickle of the copy *)
(** equal strings (bytes, globals) are one object: the interned one; functions have a module's globals *)
Definition interned (v : val) : Prop := match v with VA a i => memoized a = true -> i = 0 | VR _ => True end.
Definition settled (H : oid -> option obj) (v : val) : Prop :=
  interned v /\ forall o b, reach H v o -> H o = Some b -> (forall w, In w (refs b) -> interned w) /\ match b with OFun _ (GCopy _ _) _ _ _ _ => False | _ => True end.
(** what is loaded has the same pickle as what was dumped *)
Theorem C109_copy_partial : forall p H v fuel ops w m, p <= 5 -> heap_wf H -> settled H v -> dumps p H fuel v = Ok ops -> loads ops = Some (w, m, []) ->
  dumps p (nth_error (heap m)) fuel w = Ok ops.
Proof.
  intros p H v fuel ops w m Hp W [SV S] D L. destruct (C01_roundtrip p H fuel v ops W Hp D) as (w' & m' & L' & J). rewrite L in L'. injection L' as <- <-.
  destruct J as (R & G & V & RF & RI & _ & _ & _ & RO). apply (C109_same_pickle p H v (nth_error (heap m)) w fuel); auto.
  set (RR := fun o a => R o a /\ reach H v o). set (AA := fun (_ : atom) i j => i = 0 /\ j = 0 \/ (i = j /\ i <> 0)).
  exists RR, AA.
  assert (TV : forall x x', interned x -> (forall o, x = VR o -> reach H v o) -> val_rel R x x' -> v_twin RR AA x x').
  { intros [a i|o] [b j|o'] Hi Hr; cbn; auto; intros Q; [|split; auto]. destruct Q as [-> ->]. split; auto. intros M. left; auto. }
  split; [apply TV; auto; intros o ->; constructor|]. split; [|split; [|split; [|split]]].
  - split; [intros o x y [? _] [? _]; eauto|intros o o' y [? _] [? _]; eauto].
  - intros a. split; unfold AA; intros; lia.
  - intros a. left. auto.
  - right. auto.
  - intros o a [Ro Rc]. destruct (RO o a Ro) as (b & b' & E & E' & B). exists b, b'. split; [auto|split; [auto|]].
    destruct (S o b Rc E) as [SI SG].
    assert (ST : forall x, In x (refs b) -> forall o', x = VR o' -> reach H v o').
    { intros x Hx o' ->. clear -Rc E Hx. induction Rc as [o|o b0 v0 o1 E0 I0 Rc IH]; [eapply r_step; eauto; constructor|eapply r_step; eauto]. }
    assert (T : forall x x', In x (refs b) -> val_rel R x x' -> v_twin RR AA x x') by (intros; apply TV; eauto).
    assert (TVs : forall l l', (forall x, In x l -> In x (refs b)) -> Forall2 (val_rel R) l l' -> Forall2 (v_twin RR AA) l l').
    { intros l l' K F. induction F as [|x y l l' X F IH]; constructor; [apply T; auto; apply K; left; auto|apply IH; intros; apply K; right; auto]. }
    assert (TIs : forall d d', (forall x, In x (flat d) -> In x (refs b)) -> Forall2 (item_rel R) d d' -> Forall2 (i_twin RR AA) d d').
    { intros d d' K F. induction F as [|[k x] [k' x'] l l' [X1 X2] F IH]; constructor; [split; apply T; auto; apply K; cbn; auto|apply IH; intros; apply K; cbn; auto]. }
    assert (TS : forall s s', (forall x, In x (state_vals s) -> In x (refs b)) -> state_rel R s s' -> s_twin RR AA s s').
    { intros [|x|d [sl|]] [|x'|d' [sl'|]] K F; cbn in *; auto; try contradiction. destruct F. split; apply TIs; auto; intros; apply K, in_or_app; auto. }
    clear E E' SI ST.
    destruct b as [vs|vs|d|nb c args li di st|co gl n de cl st|mt n bs d q|c|z vs], b' as [vs'|vs'|d'|nb' c' args' li' di' st'|co' gl' n' de' cl' st'|mt' n' bs' d' q'|c'|z' vs']; cbn [obj_rel o_twin refs] in *; try contradiction; auto;
      try (destruct c; contradiction).
    + destruct B as (-> & B1 & B2 & B3 & B4 & B5).
      repeat split; auto; try (apply TVs; auto); try (apply TIs; auto); try (apply TS; auto); try (apply T; auto); intros; cbn; rewrite ?in_app_iff; auto 8.
    + destruct B as (B1 & B2 & B3 & B4 & B5 & B6). assert (GT : g_twin RR AA gl gl') by (destruct gl, gl'; cbn in *; try contradiction; auto).
      repeat split; auto; try (apply TS; auto); try (apply T; auto); intros; cbn; rewrite ?in_app_iff; auto 8.
    + destruct B as (B1 & B2 & B3 & B4 & B5). repeat split; auto; try (apply TIs; auto); try (apply T; auto); intros; cbn; auto 8.
    + destruct c, c'; try contradiction; auto. apply T; cbn; auto.
    + destruct B as [-> B]. auto.
Qed.

(** ** cases *)
(** the graph of CoreExamples, turned round *)
Definition far (o : oid) : oid := 100 - o.
Definition ex_far (a : oid) : option obj := if Nat.leb a 100 then option_map (mv far) (ex_heap (100 - a)) else None.
Definition ex_dom : list oid := [0; 1; 2; 3; 4; 5; 6; 7; 8; 9; 10; 11; 12; 13; 14; 15].
Theorem C109_case : closed ex_heap ex_dom /\ vD ex_dom (VR 5) /\ (forall o, In o ex_dom -> ex_heap o <> None) /\ (forall o o', In o ex_dom -> In o' ex_dom -> far o = far o' -> o = o') /\
  (forall o b, In o ex_dom -> ex_heap o = Some b -> ex_far (far o) = Some (mv far b)) /\
  (forall p, p <= 5 -> exists ops, dumps p ex_heap 40 (VR 5) = Ok ops /\ dumps p ex_far 40 (VR 95) = Ok ops).
Proof.
  assert (DOM : forall o, In o ex_dom -> o <= 15) by (intros o; unfold ex_dom; cbn; lia).
  assert (ODM : forall o, o <= 15 -> In o ex_dom).
  { intros o Ho. unfold ex_dom. do 16 (destruct o as [|o]; [cbn; tauto|]). lia. }
  assert (C1 : closed ex_heap ex_dom).
  { intros o b v Io E. assert (F : forallb (fun v => match v with VR o => Nat.leb o 15 | _ => true end) (refs b) = true).
    { apply DOM in Io. do 16 (destruct o as [|o]; [injection E as <-; reflexivity|]). lia. }
    rewrite forallb_forall in F. intros Hv. specialize (F v Hv). destruct v; cbn; auto. apply ODM, Nat.leb_le, F. }
  assert (C2 : forall o, In o ex_dom -> ex_heap o <> None).
  { intros o Io. apply DOM in Io. apply nth_error_Some. change (length ex_objs) with 16. lia. }
  assert (C3 : forall o o', In o ex_dom -> In o' ex_dom -> far o = far o' -> o = o').
  { intros o o' A B. apply DOM in A. apply DOM in B. unfold far. lia. }
  assert (C4 : forall o b, In o ex_dom -> ex_heap o = Some b -> ex_far (far o) = Some (mv far b)).
  { intros o b A E. apply DOM in A. unfold ex_far. replace (Nat.leb (far o) 100) with true by (symmetry; apply Nat.leb_le; unfold far; lia). replace (100 - far o) with o by (unfold far; lia). rewrite E. reflexivity. }
  split; [exact C1|split; [apply ODM; lia|split; [exact C2|split; [exact C3|split; [exact C4|]]]]].
  intros p Hp. destruct (ex_dumps p Hp) as (ops & E). exists ops. split; auto.
  apply (C109_moved p ex_heap ex_far far ex_dom (VR 5) 40 ops C1 (ODM 5 ltac:(lia)) C2 C3 C4). exact E.
Qed.
(** a list with itself, a class whose method refers to it through its closure, an instance: dumped, loaded, dumped again *)
Definition st_objs : list obj := [
  OList [VR 0; VR 1; VR 5; str "x"; VA (AScalar 3) 7; str "x"];
  OType (VA (AGlob (GUser "type")) 0) (str "C") (VA AEmptyTuple 0) [(str "meth", VR 2)] (str "outer.C");
  OFun (VA (AGlob (GUser "code_m")) 0) (GRef (AModDict "__main__")) (str "meth") vNone (VR 3) (SAttrs [] (Some []));
  OTup [VR 4]; OCell (Some (VR 1));
  ORed true (VR 1) [] [] [] (SAttrs [(str "self", VR 5); (str "l", VR 0)] None)].
Definition st_heap (o : oid) : option obj := nth_error st_objs o.
Theorem C109_copy_case : heap_wf st_heap /\ settled st_heap (VR 0) /\
  forall p, p <= 5 -> exists ops w m, dumps p st_heap 30 (VR 0) = Ok ops /\ loads ops = Some (w, m, []) /\ dumps p (nth_error (heap m)) 30 w = Ok ops /\ heap m <> st_objs.
Proof.
  assert (W : heap_wf st_heap).
  { assert (F : Forall (obj_wf st_heap) st_objs).
    { unfold st_objs. repeat (apply Forall_cons; [unfold obj_wf, state_wf|]); try apply Forall_nil; kd; try (eexists; reflexivity); discriminate. }
    intros o b E. split; [rewrite Forall_forall in F; apply F; eapply nth_error_In; exact E|].
    do 6 (destruct o as [|o]; [injection E as <-; exact I|]). destruct o; discriminate. }
  assert (S : settled st_heap (VR 0)).
  { split; [exact I|]. intros o b _ E. assert (Q : forallb (fun v => match v with VA a i => negb (memoized a) || Nat.eqb i 0 | _ => true end) (refs b) = true /\ match b with OFun _ (GCopy _ _) _ _ _ _ => False | _ => True end).
    { do 6 (destruct o as [|o]; [injection E as <-; split; [reflexivity|exact I]|]). destruct o; discriminate. }
    destruct Q as [F Q]. split; auto. intros w Hw. rewrite forallb_forall in F. specialize (F w Hw). destruct w as [a i|]; cbn; auto. intros M. rewrite M in F. apply Nat.eqb_eq. exact F. }
  split; [exact W|split; [exact S|]]. intros p Hp.
  assert (p = 0 \/ p = 1 \/ p = 2 \/ p = 3 \/ p = 4 \/ p = 5) as C by lia.
  assert (E : exists ops, dumps p st_heap 30 (VR 0) = Ok ops) by (destruct C as [->|[->|[->|[->|[->| ->]]]]]; eexists; vm_compute; reflexivity).
  destruct E as (ops & E). destruct (C01_roundtrip p st_heap 30 (VR 0) ops W Hp E) as (w & m & L & _). exists ops, w, m. split; auto. split; auto.
  split; [eapply C109_copy_partial; eauto|]. intros Q.
  destruct C as [->|[->|[->|[->|[->| ->]]]]]; vm_compute in E; injection E as <-; vm_compute in L; injection L as _ <-; discriminate.
Qed.
(** REFUTED: equal objects have equal pickles. Two lists of equal strings: one string twice, or two equal strings *)
Theorem C109_equal_objects_refuted : forall p, p <= 5 ->
  let H1 (o : oid) := match o with 0 => Some (OList [VA (AStr "ab") 1; VA (AStr "ab") 1]) | _ => None end in
  let H2 (o : oid) := match o with 0 => Some (OList [VA (AStr "ab") 1; VA (AStr "ab") 2]) | _ => None end in
  exists ops1 ops2, dumps p H1 5 (VR 0) = Ok ops1 /\ dumps p H2 5 (VR 0) = Ok ops2 /\ ops1 <> ops2 /\
    exists w m1 m2, loads ops1 = Some (w, m1, []) /\ loads ops2 = Some (w, m2, []) /\ heap m1 = heap m2.
Proof.
  intros p Hp H1 H2. assert (p = 0 \/ p = 1 \/ p = 2 \/ p = 3 \/ p = 4 \/ p = 5) as C by lia.
  destruct C as [->|[->|[->|[->|[->| ->]]]]]; (eexists; eexists; split; [vm_compute; reflexivity|split; [vm_compute; reflexivity|split; [discriminate|]]]); eexists; eexists; eexists; (split; [vm_compute; reflexivity|split; vm_compute; reflexivity]).
Qed.
(** REFUTED: the copy has the pickle of the original. A function with globals of its own: the copy's have '__builtins__' *)
Definition gl_objs : list obj := [OFun (VA (AGlob (GUser "code_f")) 0) (GCopy 1 (str "m")) (str "f") vNone vNone (SAttrs [] (Some [])); ODict [(str "__name__", str "m"); (str "x", VA (AScalar 3) 0)]].
Theorem C109_copy_refuted : heap_wf (nth_error gl_objs) /\ forall p, p <= 5 ->
  exists ops w m ops', dumps p (nth_error gl_objs) 20 (VR 0) = Ok ops /\ loads ops = Some (w, m, []) /\ dumps p (nth_error (heap m)) 20 w = Ok ops' /\ ops' <> ops /\
    ~ In (CONST (AStr "__builtins__")) ops /\ In (CONST (AStr "__builtins__")) ops'.
Proof.
  split.
  - assert (F : Forall (obj_wf (nth_error gl_objs)) gl_objs).
    { unfold gl_objs. repeat (apply Forall_cons; [unfold obj_wf, state_wf|]); try apply Forall_nil; kd; try (eexists; reflexivity); discriminate. }
    intros o b E. split; [rewrite Forall_forall in F; apply F; eapply nth_error_In; exact E|]. do 2 (destruct o as [|o]; [injection E as <-; exact I|]). destruct o; discriminate.
  - intros p Hp. assert (p = 0 \/ p = 1 \/ p = 2 \/ p = 3 \/ p = 4 \/ p = 5) as C by lia.
    destruct C as [->|[->|[->|[->|[->| ->]]]]]; (eexists; eexists; eexists; eexists; split; [vm_compute; reflexivity|split; [vm_compute; reflexivity|split; [vm_compute; reflexivity|split; [discriminate|]]]]);
      (split; [intros Q; repeat (destruct Q as [Q|Q]; [discriminate|]); exact Q|repeat (first [left; reflexivity|right])]).
Qed.
