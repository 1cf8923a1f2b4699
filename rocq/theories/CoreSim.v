(** The simulation between the pickler and the unpickler: definitions and general lemmas. *)
From Coq Require Import String List Bool Arith ZArith Lia.
From Verif Require Import PyDict CoreModel CoreSpec.
Import ListNotations.
Local Open Scope string_scope.
Local Open Scope list_scope.

(** ** running opcodes *)
Fixpoint run (ops : list op) (m : vm) : option vm :=
  match ops with [] => Some m | o :: ops => match step o m with Some m' => run ops m' | None => None end end.
Lemma run_app a b m m' : run a m = Some m' -> run (a ++ b) m = run b m'.
Proof.
  revert m. induction a as [|o a IH]; simpl; intros m E; [congruence|].
  destruct (step o m); [auto|discriminate].
Qed.

(** ** lists *)
Lemma upd_length {A} (l : list A) n x : length (upd l n x) = length l.
Proof. revert n. induction l; destruct n; simpl; auto. Qed.
Lemma nth_upd_same {A} (l : list A) n x : n < length l -> nth_error (upd l n x) n = Some x.
Proof. revert n. induction l; destruct n; simpl; intros; try lia; auto. apply IHl. lia. Qed.
Lemma nth_upd_other {A} (l : list A) n k x : k <> n -> nth_error (upd l n x) k = nth_error l k.
Proof. revert n k. induction l; destruct n, k; simpl; intros; auto; try congruence. Qed.
Lemma nth_lt {A} (l : list A) n x : nth_error l n = Some x -> n < length l.
Proof. intros E. apply nth_error_Some. congruence. Qed.
Lemma nth_app_l {A} (l l' : list A) n : n < length l -> nth_error (l ++ l') n = nth_error l n.
Proof. intros. now apply nth_error_app1. Qed.
Lemma nth_snoc {A} (l : list A) x : nth_error (l ++ [x]) (length l) = Some x.
Proof. rewrite nth_error_app2 by lia. now rewrite Nat.sub_diag. Qed.

(** ** the unpickler's memo as a list *)
Fixpoint index (n : nat) (l : list val) : dict nat val :=
  match l with [] => [] | v :: l' => (n, v) :: index (S n) l' end.
Lemma index_length n l : length (index n l) = length l.
Proof. revert n. induction l; simpl; auto. Qed.
Lemma index_get l : forall n i, get (n + i) (index n l) = nth_error l i.
Proof.
  induction l as [|v l IH]; intros n i; simpl.
  - destruct i; auto.
  - destruct i.
    + rewrite Nat.add_0_r. now rewrite Nat.eqb_refl.
    + rewrite (proj2 (Nat.eqb_neq _ _)) by lia.
      replace (n + S i) with (S n + i) by lia. apply IH.
Qed.
Lemma index_set l : forall n v, set (n + length l) v (index n l) = index n (l ++ [v]).
Proof.
  induction l as [|w l IH]; intros n v; simpl.
  - now rewrite Nat.add_0_r.
  - rewrite (proj2 (Nat.eqb_neq _ _)) by lia.
    f_equal. replace (n + S (length l)) with (S n + length l) by lia. apply IH.
Qed.

(** ** relations are monotone *)
Section Mono.
  Variables (R R' : oid -> nat -> Prop) (HR : forall o a, R o a -> R' o a).
  Lemma val_rel_mono v v' : val_rel R v v' -> val_rel R' v v'.
  Proof. destruct v, v'; simpl; auto. Qed.
  Lemma item_rel_mono p p' : item_rel R p p' -> item_rel R' p p'.
  Proof. intros [A B]; split; now apply val_rel_mono. Qed.
  Lemma Forall2_mono {A B} (P Q : A -> B -> Prop) l l' :
    (forall x y, P x y -> Q x y) -> Forall2 P l l' -> Forall2 Q l l'.
  Proof. intros HI F. induction F; constructor; auto. Qed.
  Lemma vals_mono l l' : Forall2 (val_rel R) l l' -> Forall2 (val_rel R') l l'.
  Proof. apply Forall2_mono. apply val_rel_mono. Qed.
  Lemma items_mono l l' : Forall2 (item_rel R) l l' -> Forall2 (item_rel R') l l'.
  Proof. apply Forall2_mono. apply item_rel_mono. Qed.
  Lemma state_rel_mono s s' : state_rel R s s' -> state_rel R' s s'.
  Proof.
    destruct s as [|v|d [sl|]], s' as [|v'|d' [sl'|]]; simpl; auto; try tauto.
    - apply val_rel_mono.
    - intros [A B]; split; now apply items_mono.
    - apply items_mono.
  Qed.
  Lemma globals_rel_mono H (G G' : nat -> Prop) (hp hp' : nat -> obj -> Prop) gl gl' :
    (forall g, G g -> G' g) -> (forall a b, G a -> hp a b -> hp' a b) ->
    globals_rel R H G hp gl gl' -> globals_rel R' H G' hp' gl gl'.
  Proof.
    intros HG Hh. destruct gl, gl'; simpl; auto.
    intros (A & B & kvs & d & C & D & E). split; [now apply val_rel_mono|]. split; auto.
    exists kvs, d. repeat split; auto. now apply items_mono.
  Qed.
  Lemma obj_rel_mono H (G G' : nat -> Prop) (hp hp' : nat -> obj -> Prop) b b' :
    (forall g, G g -> G' g) -> (forall a b, G a -> hp a b -> hp' a b) ->
    obj_rel R H G hp b b' -> obj_rel R' H G' hp' b b'.
  Proof.
    intros HG Hh.
    destruct b, b'; simpl; try tauto; try (destruct contents; tauto);
      try apply vals_mono; try apply items_mono.
    - intros (A & B & C & D & E & F). repeat split; auto; [now apply val_rel_mono|now apply vals_mono|now apply vals_mono|now apply items_mono|now apply state_rel_mono].
    - intros (A & B & C & D & E & F). repeat split; try (now apply val_rel_mono); [|now apply state_rel_mono].
      eapply globals_rel_mono; eauto.
    - intros (A & B & C & D & E). repeat split; try (now apply val_rel_mono). now apply items_mono.
    - destruct contents, contents0; try tauto. apply val_rel_mono.
    - intros [A B]. split; auto. now apply vals_mono.
  Qed.
End Mono.

(** ** setitem and injective relations *)
Section Items.
  Variable R : oid -> nat -> Prop.
  Hypothesis Rfun : forall o a a', R o a -> R o a' -> a = a'.
  Hypothesis Rinj : forall o o' a, R o a -> R o' a -> o = o'.

  Lemma keyeq_rel x x' y y' : val_rel R x x' -> val_rel R y y' -> keyeq x y = keyeq x' y'.
  Proof.
    destruct x as [a i|o], x' as [a' i'|o']; simpl; try tauto;
    destruct y as [b j|p], y' as [b' j'|p']; simpl; try tauto.
    - intros [-> _] [-> _]. auto.
    - intros A B. destruct (Nat.eqb_spec o p) as [->|Hn].
      + rewrite (Rfun _ _ _ A B). symmetry. apply Nat.eqb_refl.
      + destruct (Nat.eqb_spec o' p') as [->|]; auto. exfalso. apply Hn. eauto.
  Qed.
  Lemma setitem_rel d d' k v k' v' : Forall2 (item_rel R) d d' -> val_rel R k k' -> val_rel R v v' ->
    Forall2 (item_rel R) (setitem d k v) (setitem d' k' v').
  Proof.
    intros F Hk Hv. induction F as [|[k1 v1] [k2 v2] d d' [A B] F IH]; simpl.
    - constructor; auto. split; auto.
    - rewrite (keyeq_rel k k' k1 k2) by auto. destruct (keyeq k' k2); constructor; auto; split; auto.
  Qed.
  Lemma setitems_rel kvs kvs' : Forall2 (item_rel R) kvs kvs' -> forall d d', Forall2 (item_rel R) d d' ->
    Forall2 (item_rel R) (setitems d kvs) (setitems d' kvs').
  Proof.
    induction 1 as [|[k v] [k' v'] kvs kvs' [A B] F IH]; intros d d' Fd; cbn; auto.
    apply IH. now apply setitem_rel.
  Qed.
End Items.

Lemma keyeq_refl v : keyeq v v = true.
Proof. destruct v; simpl; [destruct (atom_eq_dec a a); congruence | apply Nat.eqb_refl]. Qed.
Lemma keyeq_sym a b : keyeq a b = keyeq b a.
Proof.
  destruct a, b; simpl; auto.
  - destruct (atom_eq_dec a a0), (atom_eq_dec a0 a); congruence.
  - apply Nat.eqb_sym.
Qed.
Lemma setitem_new d k v : (forall k' v', In (k', v') d -> keyeq k k' = false) -> setitem d k v = d ++ [(k, v)].
Proof.
  induction d as [|[k' v'] d IH]; simpl; auto. intros F.
  rewrite (F k' v') by auto. f_equal. apply IH. intros; apply (F k'0 v'0); auto.
Qed.
Lemma setitems_new kvs : forall d, keys_distinct kvs ->
  (forall k v k' v', In (k, v) kvs -> In (k', v') d -> keyeq k k' = false) -> setitems d kvs = d ++ kvs.
Proof.
  induction kvs as [|[k v] kvs IH]; intros d; simpl.
  - now rewrite app_nil_r.
  - intros [A B] F. unfold setitems in *. simpl. rewrite setitem_new by (intros; eapply F; eauto).
    rewrite IH; auto.
    + now rewrite <- app_assoc.
    + intros k1 v1 k2 v2 Hi Hj. apply in_app_iff in Hj as [Hj|[Hj|[]]].
      * eapply F; eauto.
      * inversion Hj; subst. rewrite keyeq_sym. eapply A; eauto.
Qed.
Lemma setitems_nil kvs : keys_distinct kvs -> setitems [] kvs = kvs.
Proof. intros. now rewrite setitems_new. Qed.

(** ** setting the same items again changes nothing *)
Lemma keyeq_trans a b c : keyeq a b = true -> keyeq b c = keyeq a c.
Proof.
  destruct a, b; simpl; try discriminate.
  - destruct (atom_eq_dec a a0); [subst|discriminate]. intros _. destruct c; auto.
  - intros E. apply Nat.eqb_eq in E. subst. destruct c; auto.
Qed.
Lemma setitem_swap d k v k' v' : keyeq k k' = false ->
  getitem d k <> None -> setitem (setitem d k' v') k v = setitem (setitem d k v) k' v'.
Proof.
  intros Hk. induction d as [|[k1 v1] d IH]; simpl; [congruence|].
  destruct (keyeq k k1) eqn:E1; destruct (keyeq k' k1) eqn:E2; simpl; rewrite ?E1, ?E2; auto.
  - exfalso. assert (Hk' : keyeq k k' = true).
    { rewrite keyeq_sym in E1. rewrite (keyeq_trans k1 k k' E1). rewrite keyeq_sym. exact E2. }
    congruence.
  - intros Hg. f_equal. auto.
Qed.
Lemma getitem_setitem_same d k v : getitem (setitem d k v) k = Some v.
Proof.
  induction d as [|[k1 v1] d IH]; simpl.
  - now rewrite keyeq_refl.
  - destruct (keyeq k k1) eqn:E; simpl; rewrite E; auto.
Qed.
Lemma setitem_same_twice d k v : setitem (setitem d k v) k v = setitem d k v.
Proof.
  induction d as [|[k1 v1] d IH]; simpl.
  - now rewrite keyeq_refl.
  - destruct (keyeq k k1) eqn:E; simpl; rewrite E; auto. now rewrite IH.
Qed.
Lemma getitem_setitem_keep d k k' v' : getitem d k <> None -> getitem (setitem d k' v') k <> None.
Proof.
  induction d as [|[k1 v1] d IH]; simpl; [congruence|].
  destruct (keyeq k' k1) eqn:E1; simpl; destruct (keyeq k k1); auto; congruence.
Qed.
Lemma setitems_setitem kvs : forall d k v, (forall k' v', In (k', v') kvs -> keyeq k k' = false) ->
  getitem d k <> None -> setitem (setitems d kvs) k v = setitems (setitem d k v) kvs.
Proof.
  induction kvs as [|[k1 v1] kvs IH]; intros d k v F Hg; [reflexivity|].
  change (setitems d ((k1, v1) :: kvs)) with (setitems (setitem d k1 v1) kvs).
  change (setitems (setitem d k v) ((k1, v1) :: kvs)) with (setitems (setitem (setitem d k v) k1 v1) kvs).
  rewrite IH.
  - rewrite setitem_swap; auto. eapply F; left; eauto.
  - intros; eapply F; right; eauto.
  - now apply getitem_setitem_keep.
Qed.
Lemma setitems_twice kvs : keys_distinct kvs -> forall d, setitems (setitems d kvs) kvs = setitems d kvs.
Proof.
  induction kvs as [|[k v] kvs IH]; intros Hd d; [reflexivity|]. destruct Hd as [A B].
  change (setitems d ((k, v) :: kvs)) with (setitems (setitem d k v) kvs).
  change (setitems (setitems (setitem d k v) kvs) ((k, v) :: kvs)) with (setitems (setitem (setitems (setitem d k v) kvs) k v) kvs).
  rewrite (setitems_setitem kvs (setitem d k v) k v); auto.
  - rewrite setitem_same_twice. now apply IH.
  - rewrite getitem_setitem_same. congruence.
Qed.

(** ** environments: the pickler's memo with what the unpickler's memo holds *)
Notation env := (list (key * val)).
Definition Renv (e : env) (o : oid) (a : nat) : Prop := In (KObj o, VR a) e.
Definition Genv (e : env) (f : oid) (g : nat) : Prop := In (KGlob f, VR g) e.

(** the kind of an object *)
Definition kind (b : obj) : nat :=
  match b with OTup _ => 0 | OList _ => 1 | ODict _ => 2 | ORed _ _ _ _ _ _ => 3 | OSet _ _ => 4 | OFun _ _ _ _ _ _ => 5
  | OType _ _ _ _ _ => 6 | OCell _ => 7 end.

Section Sim.
  Variable H : oid -> option obj.
Record env_ok (e : env) (h : list obj) (P : list (oid * list pp)) : Prop := {
  ek_fun : forall k v v', k <> KAnon -> In (k, v) e -> In (k, v') e -> v = v';
  ek_inj : forall k k' a, In (k, VR a) e -> In (k', VR a) e -> k = k';
  ek_dom : forall k a, In (k, VR a) e -> a < length h;
  ek_obj : forall o v, In (KObj o, v) e -> exists a, v = VR a;
  ek_glb : forall f v, In (KGlob f, v) e -> exists a, v = VR a;
  ek_atm : forall a i v, In (KAtom a i, v) e -> v = VA a 0;
  ek_gk : forall f v, In (KGlob f, v) e -> (exists a, Renv e f a) \/ In f (map fst P);
  ek_kind : forall o a, Renv e o a -> exists b b', H o = Some b /\ nth_error h a = Some b' /\ kind b' = kind b }.

Record sync (s : pst) (e : env) (m : vm) : Prop := {
  sy_memo : memo s = map fst e;
  sy_mem : mem m = index 0 (map snd e);
  sy_env : env_ok e (heap m) (post s) }.

Lemma find_key_spec k (e : env) : forall i n, find_key k (map fst e) i = Some n ->
  exists j v, n = i + j /\ nth_error (map snd e) j = Some v /\ In (k, v) e.
Proof.
  induction e as [|[k' v'] e IH]; simpl; intros i n E; [discriminate|].
  destruct (key_eq_dec k k') as [->|Hn].
  - inversion E; subst. exists 0, v'. repeat split; auto.
  - destruct (IH _ _ E) as (j & v & -> & N & Hi). exists (S j), v. repeat split; auto. lia.
Qed.
Lemma find_key_none k (e : env) : forall i, find_key k (map fst e) i = None -> forall v, ~ In (k, v) e.
Proof.
  induction e as [|[k' v'] e IH]; simpl; intros i E v; [tauto|].
  destruct (key_eq_dec k k'); [discriminate|]. intros [F|F]; [congruence|]. eapply IH; eauto.
Qed.
Lemma memo_get_some s e m k i : sync s e m -> memo_get k s = Some i ->
  exists v, In (k, v) e /\ get i (mem m) = Some v /\ k <> KAnon.
Proof.
  intros S E. assert (Hk : k <> KAnon) by (intros ->; discriminate).
  assert (E' : find_key k (memo s) 0 = Some i) by (destruct k; auto; congruence).
  rewrite (sy_memo _ _ _ S) in E'. apply find_key_spec in E' as (j & v & -> & N & Hi).
  exists v. split; auto. split; auto. rewrite (sy_mem _ _ _ S). rewrite (index_get (map snd e) 0 j). auto.
Qed.
Lemma memo_get_none s e m k : sync s e m -> memo_get k s = None -> k <> KAnon -> forall v, ~ In (k, v) e.
Proof.
  intros S E Hk. assert (E' : find_key k (memo s) 0 = None) by (destruct k; auto; congruence).
  rewrite (sy_memo _ _ _ S) in E'. eapply find_key_none; eauto.
Qed.


  (** objects at addresses from [n] on and not under construction *)
  Definition hidn (X : nat -> Prop) (n : nat) (h : list obj) (a : nat) (b : obj) : Prop :=
    nth_error h a = Some b /\ ~ X a /\ n <= a.

  Definition complete (e : env) (hp : nat -> obj -> Prop) (o : oid) (a : nat) : Prop :=
    exists b b', H o = Some b /\ hp a b' /\ obj_rel (Renv e) H (Genv e o) hp b b'.

  Definition tgt (p : pp) : oid := match p with PSetCell c => c | PSetItems f => f | PSetQual t => t end.
  Definition kind_ok (p : pp) : Prop :=
    match p with
    | PSetCell c => exists v, H c = Some (OCell (Some v))
    | PSetItems f => exists co g m n de cl st kvs,
        H f = Some (OFun co (GCopy g m) n de cl st) /\ H g = Some (ODict kvs)
    | PSetQual t => exists mt n bs d q, H t = Some (OType mt n bs d q)
    end.
  (** a deferred update can be run, and completes its target *)
  Definition ready (e : env) (hp : nat -> obj -> Prop) (p : pp) : Prop :=
    match p with
    | PSetCell c => exists a v w, Renv e c a /\ H c = Some (OCell (Some v)) /\ hp a (OCell w)
    | PSetItems f => exists a g co g0 m n de cl st kvs co' m' n' de' cl' st' d,
        Renv e f a /\ Genv e f g /\
        H f = Some (OFun co (GCopy g0 m) n de cl st) /\ H g0 = Some (ODict kvs) /\
        hp a (OFun co' (GCopy g m') n' de' cl' st') /\ hp g (ODict d) /\
        val_rel (Renv e) co co' /\ val_rel (Renv e) m m' /\ val_rel (Renv e) n n' /\
        val_rel (Renv e) de de' /\ val_rel (Renv e) cl cl' /\ state_rel (Renv e) st st' /\
        (Forall2 (item_rel (Renv e)) [(sNAME, m); (sBUILTINS, vBUILTINS)] d \/
         Forall2 (item_rel (Renv e)) (globals_copy m kvs) d)
    | PSetQual t => exists a mt n bs d q mt' n' bs' d' q',
        Renv e t a /\ H t = Some (OType mt n bs d q) /\ hp a (OType mt' n' bs' d' q') /\
        val_rel (Renv e) mt mt' /\ val_rel (Renv e) n n' /\ val_rel (Renv e) bs bs' /\
        Forall2 (item_rel (Renv e)) d d'
    end.
  (** ... or its target is under construction *)
  Definition readyX (X : nat -> Prop) (n : nat) (e : env) (h : list obj) (p : pp) : Prop :=
    (kind_ok p /\ exists a, X a /\ Renv e (tgt p) a) \/ ready e (hidn X n h) p.

  Definition is_proc (o : oid) : Prop :=
    match H o with Some (OFun _ _ _ _ _ _) | Some (OType _ _ _ _ _) => True | _ => False end.

  Record Sim (X : nat -> Prop) (I : key -> Prop) (L : list pp) (e : env) (h : list obj) (P : list (oid * list pp))
             (e' : env) (h' : list obj) (P' : list (oid * list pp)) : Prop := {
    s_env : forall x, In x e -> In x e';
    s_heap : forall a b, nth_error h a = Some b -> ~ X a -> nth_error h' a = Some b;
    s_len : length h <= length h';
    s_post : Forall2 (fun p p' => fst p = fst p' /\ exists n, snd p' = snd p ++ n /\
                                  Forall (readyX X (length h) e' h') n) P P';
    s_extra : Forall (readyX X (length h) e' h') L;
    s_cov : forall o a, Renv e' o a -> Renv e o a \/ X a \/ complete e' (hidn X (length h) h') o a \/
              exists p, (In p L \/ exists x, In x P' /\ In p (snd x)) /\ tgt p = o /\ readyX X (length h) e' h' p;
    s_kind : forall o a, Renv e' o a -> Renv e o a \/ ~ is_proc o \/ ~ I (KObj o);
    s_gkind : forall f g, Genv e' f g -> Genv e f g \/ ~ I (KGlob f);
    s_fresh : forall k a, In (k, VR a) e' -> In (k, VR a) e \/ length h <= a }.
  Arguments s_env {X I L e h P e' h' P'} _.
  Arguments s_heap {X I L e h P e' h' P'} _.
  Arguments s_len {X I L e h P e' h' P'} _.
  Arguments s_post {X I L e h P e' h' P'} _.
  Arguments s_extra {X I L e h P e' h' P'} _.
  Arguments s_cov {X I L e h P e' h' P'} _.
  Arguments s_kind {X I L e h P e' h' P'} _.
  Arguments s_gkind {X I L e h P e' h' P'} _.
  Arguments s_fresh {X I L e h P e' h' P'} _.

  Lemma complete_mono e e' (hp hp' : nat -> obj -> Prop) o a :
    (forall x, In x e -> In x e') -> (forall a b, hp a b -> hp' a b) ->
    complete e hp o a -> complete e' hp' o a.
  Proof.
    intros He Hh (b & b' & A & B & C). exists b, b'. repeat split; auto.
    eapply obj_rel_mono; [| | |exact C]; unfold Renv, Genv; auto.
  Qed.
  Lemma ready_mono e e' (hp hp' : nat -> obj -> Prop) p :
    (forall x, In x e -> In x e') -> (forall a b, hp a b -> hp' a b) ->
    ready e hp p -> ready e' hp' p.
  Proof.
    intros He Hh.
    assert (HR : forall o a, Renv e o a -> Renv e' o a) by (unfold Renv; auto).
    destruct p; cbn.
    - intros (a & v & w & A & B & C). exists a, v, w. auto.
    - intros (a & g & co & g0 & m & n & de & cl & st & kvs & co' & m' & n' & de' & cl' & st' & d & A).
      exists a, g, co, g0, m, n, de, cl, st, kvs, co', m', n', de', cl', st', d.
      unfold Genv in *. decompose [and] A. repeat split; auto; try (eapply val_rel_mono; eauto; fail).
      + eapply state_rel_mono; eauto.
      + match goal with HH : _ \/ _ |- _ => destruct HH; [left|right]; eapply items_mono; eauto end.
    - intros (a & mt & n & bs & d & q & mt' & n' & bs' & d' & q' & A).
      exists a, mt, n, bs, d, q, mt', n', bs', d', q'.
      decompose [and] A. repeat split; auto; try (eapply val_rel_mono; eauto; fail). eapply items_mono; eauto.
  Qed.
  Lemma ready_kind e hp p : ready e hp p -> kind_ok p.
  Proof.
    destruct p; cbn.
    - intros (a & v & w & A & B & C). eauto.
    - intros (a & g & co & g0 & m & n & de & cl & st & kvs & co' & m' & n' & de' & cl' & st' & d & A).
      decompose [and] A. do 8 eexists. split; eauto.
    - intros (a & mt & n & bs & d & q & mt' & n' & bs' & d' & q' & A). decompose [and] A. do 5 eexists. eauto.
  Qed.

  Lemma readyX_mono X n n2 e e2 h h2 p :
    (forall x, In x e -> In x e2) -> n <= n2 ->
    (forall a b, nth_error h a = Some b -> ~ X a -> nth_error h2 a = Some b) ->
    readyX X n2 e h p -> readyX X n e2 h2 p.
  Proof.
    intros He Hn Hh [(K & a & Xa & A)|B].
    - left. split; auto. exists a. split; auto. unfold Renv in *; auto.
    - right. eapply ready_mono; [exact He| |exact B]. unfold hidn. intros a b (A1 & A2 & A3). repeat split; auto. lia.
  Qed.
  Lemma hidn_mono X n n2 h h2 a b : n <= n2 ->
    (forall a b, nth_error h a = Some b -> ~ X a -> nth_error h2 a = Some b) ->
    hidn X n2 h a b -> hidn X n h2 a b.
  Proof. unfold hidn. intros Hn Hh (A & B & C). repeat split; auto. lia. Qed.

  Lemma Sim_refl X I e h P : Sim X I [] e h P e h P.
  Proof.
    constructor; auto.
    induction P as [|[o l] P IH]; constructor; auto. split; auto. exists []. rewrite app_nil_r. auto.
  Qed.

  Lemma Sim_trans X I L e0 h0 P0 e1 h1 P1 e2 h2 P2 :
    Sim X I L e0 h0 P0 e1 h1 P1 -> Sim X I [] e1 h1 P1 e2 h2 P2 -> Sim X I L e0 h0 P0 e2 h2 P2.
  Proof.
    intros S1 S2.
    pose proof (s_len S1) as L1. pose proof (s_len S2) as L2.
    assert (RX1 : forall p, readyX X (length h0) e1 h1 p -> readyX X (length h0) e2 h2 p).
    { intros p. apply readyX_mono; auto. apply (s_env S2). apply (s_heap S2). }
    assert (RX2 : forall p, readyX X (length h1) e2 h2 p -> readyX X (length h0) e2 h2 p).
    { intros p. apply readyX_mono; auto. }
    assert (PP : Forall2 (fun p p' => fst p = fst p' /\ exists n, snd p' = snd p ++ n /\ Forall (readyX X (length h0) e2 h2) n) P0 P2).
    { pose proof (s_post S1) as F1. pose proof (s_post S2) as F2.
      clear - F1 F2 RX1 RX2. revert P2 F2. induction F1 as [|x y P P' [A (n & B & C)] F IH]; intros P2 F2; inversion F2; subst; constructor; auto.
      destruct H2 as [A' (n' & B' & C')]. split; [congruence|]. exists (n ++ n').
      rewrite B', B, app_assoc. split; auto. apply Forall_app. split.
      - eapply Forall_impl; [|exact C]. auto.
      - eapply Forall_impl; [|exact C']. auto. }
    constructor.
    - intros x Hx. apply (s_env S2). now apply (s_env S1).
    - intros a b Ha Hx. apply (s_heap S2); auto. now apply (s_heap S1).
    - lia.
    - exact PP.
    - eapply Forall_impl; [|apply (s_extra S1)]. auto.
    - intros o a Ho.
      destruct (s_cov S2 o a Ho) as [Ho'|[Hx|[Hc|(p & [[]|Hp] & Ht & Hr)]]].
      + destruct (s_cov S1 o a Ho') as [Ho2|[Hx|[Hc|(p & Hp & Ht & Hr)]]]; auto.
        * right; right; left. eapply complete_mono; [| |exact Hc].
          -- apply (s_env S2).
          -- intros a' b'. apply hidn_mono; auto. apply (s_heap S2).
        * right; right; right. exists p. repeat split; auto. destruct Hp as [Hp|(x & Hx & Hp)]; auto. right.
          pose proof (s_post S2) as F2. clear - F2 Hx Hp.
          induction F2 as [|y z P P' [A (n & B & C)] F IH]; [destruct Hx|]. destruct Hx as [->|Hx].
          -- exists z. split; [left; auto|]. rewrite B. apply in_app_iff. auto.
          -- destruct (IH Hx) as (x' & Hx' & Hp'). exists x'. split; [right|]; auto.
      + auto.
      + right; right; left. eapply complete_mono; [| |exact Hc]; auto. intros a' b'. apply hidn_mono; auto.
      + right; right; right. exists p. repeat split; auto.
    - intros o a Ho. destruct (s_kind S2 o a Ho) as [Ho'|Hk]; auto. apply (s_kind S1). auto.
    - intros f g Ho. destruct (s_gkind S2 f g Ho) as [Ho'|Hk]; auto. apply (s_gkind S1). auto.
    - intros k a Hk. destruct (s_fresh S2 k a Hk) as [Hk'|Hl]; [|right; lia].
      destruct (s_fresh S1 k a Hk'); auto.
  Qed.

  Lemma Sim_ids X I L e h P e' h' P' : Sim X I L e h P e' h' P' -> map fst P' = map fst P.
  Proof.
    intros S. pose proof (s_post S) as F. clear - F.
    induction F as [|y z P P' [A _] F IH]; simpl; congruence.
  Qed.

  Definition X0 (a : nat) : Prop := False.

  Lemma readyX0 n e h p : readyX X0 n e h p <-> ready e (hidn X0 n h) p.
  Proof. split; [intros [(_ & a & [] & _)|]; auto | right; auto]. Qed.

  (** a step seen from inside a larger construction *)
  Lemma Sim_weaken (Y X : nat -> Prop) I L e h P e' h' P' : (forall a, X a -> a < length h) -> (forall a, Y a -> X a) ->
    Sim Y I L e h P e' h' P' -> Sim X I L e h P e' h' P'.
  Proof.
    intros HX HY S.
    assert (HH : forall a b, hidn Y (length h) h' a b -> hidn X (length h) h' a b).
    { unfold hidn. intros a b (A & B & C). repeat split; auto. intros Hx. apply HX in Hx. lia. }
    assert (RX : forall p, readyX Y (length h) e' h' p -> readyX X (length h) e' h' p).
    { intros p [(K & a & Ya & Hp)|Hp]; [left; split; eauto|]. right. eapply ready_mono; [| |exact Hp]; auto. }
    constructor.
    - apply (s_env S).
    - intros. eapply s_heap; eauto.
    - apply (s_len S).
    - eapply Forall2_mono; [|apply (s_post S)]. intros x y (A & n & B & C). split; auto. exists n.
      split; auto. eapply Forall_impl; [|exact C]. auto.
    - eapply Forall_impl; [|apply (s_extra S)]. auto.
    - intros o a Ho. destruct (s_cov S o a Ho) as [?|[Ya|[Hc|(p & Hp & Ht & Hr)]]]; auto.
      + right; right; left. eapply complete_mono; [| |exact Hc]; auto.
      + right; right; right. exists p. auto.
    - apply (s_kind S).
    - apply (s_gkind S).
    - apply (s_fresh S).
  Qed.

  (** heap changes to what is under construction, and new temporaries *)
  Lemma Sim_mut (X : nat -> Prop) (I : key -> Prop) e h P h' : length h <= length h' ->
    (forall a b, nth_error h a = Some b -> ~ X a -> nth_error h' a = Some b) -> Sim X I [] e h P e h' P.
  Proof.
    intros Hl Hh. constructor; auto.
    induction P as [|[o l] P IH]; constructor; auto. split; auto. exists []. rewrite app_nil_r. auto.
  Qed.

  (** a new object *)
  Lemma Sim_new (X : nat -> Prop) (I : key -> Prop) e h P h' k v : length h <= length h' ->
    (forall a b, nth_error h a = Some b -> ~ X a -> nth_error h' a = Some b) ->
    (forall o a, k = KObj o -> v = VR a -> X a \/ complete (e ++ [(k, v)]) (hidn X (length h) h') o a \/
       exists p x, In x P /\ In p (snd x) /\ tgt p = o /\ readyX X (length h) (e ++ [(k, v)]) h' p) ->
    (forall o, k = KObj o -> ~ is_proc o \/ ~ I (KObj o)) ->
    (forall f, k = KGlob f -> ~ I (KGlob f)) ->
    (forall a, v = VR a -> length h <= a) ->
    Sim X I [] e h P (e ++ [(k, v)]) h' P.
  Proof.
    intros Hl Hh Hc Hk Hg Hf. constructor; auto.
    - intros; apply in_app_iff; auto.
    - clear. induction P as [|[o l] P IH]; constructor; auto.
      split; auto. exists []. rewrite app_nil_r. auto.
    - unfold Renv. intros o a Ho. apply in_app_iff in Ho as [Ho|[Ho|[]]]; auto. inversion Ho; subst.
      right. destruct (Hc o a) as [?|[?|(p & x & A & B & C & D)]]; auto. right; right. exists p. split; [right; exists x; auto|auto].
    - unfold Renv. intros o a Ho. apply in_app_iff in Ho as [Ho|[Ho|[]]]; auto. inversion Ho; subst. auto.
    - unfold Genv. intros f a Ho. apply in_app_iff in Ho as [Ho|[Ho|[]]]; auto. inversion Ho; subst. auto.
    - intros k' a Ho. apply in_app_iff in Ho as [Ho|[Ho|[]]]; auto. inversion Ho; subst. auto.
  Qed.

  (** taking an object [f] (and its globals dictionary) under construction *)
  Lemma Sim_exempt (X : nat -> Prop) I L e0 h0 P0 e h P f :
    (forall a o, X a -> Renv e o a -> o = f) -> (forall a o, X a -> Genv e o a -> o = f) ->
    (forall a, Renv e f a -> X a) -> (forall a, X a -> length h0 <= a) ->
    Sim X0 I L e0 h0 P0 e h P -> Sim X I L e0 h0 P0 e h P.
  Proof.
    intros XR XG XF XL S.
    assert (RX : forall p, readyX X0 (length h0) e h p -> readyX X (length h0) e h p).
    { intros p Hp. apply readyX0 in Hp. pose proof (ready_kind _ _ _ Hp) as K.
      destruct (Nat.eq_dec (tgt p) f) as [Ef|Ef].
      - left. split; auto. destruct p; cbn in *.
        + destruct Hp as (a & v & w & A & _). exists a. subst. auto.
        + destruct Hp as (a & g & co & g0 & m & n & de & cl & st & kvs & co' & m' & n' & de' & cl' & st' & d & A & _). exists a. subst; auto.
        + destruct Hp as (a & mt & n & bs & d & q & mt' & n' & bs' & d' & q' & A & _). exists a. subst; auto.
      - right. destruct p; cbn in *.
        + destruct Hp as (a & v & w & A & B & (C1 & C2 & C3)). exists a, v, w. repeat split; auto. intros Xa. apply Ef. eauto.
        + destruct Hp as (a & g & co & g0 & m & n & de & cl & st & kvs & co' & m' & n' & de' & cl' & st' & d & A).
          exists a, g, co, g0, m, n, de, cl, st, kvs, co', m', n', de', cl', st', d.
          decompose [and] A. repeat match goal with HH : hidn _ _ _ _ _ |- _ => destruct HH as (? & ? & ?) end.
          repeat split; auto; intros Xa; apply Ef; eauto.
        + destruct Hp as (a & mt & n & bs & d & q & mt' & n' & bs' & d' & q' & A).
          exists a, mt, n, bs, d, q, mt', n', bs', d', q'.
          decompose [and] A. repeat match goal with HH : hidn _ _ _ _ _ |- _ => destruct HH as (? & ? & ?) end.
          repeat split; auto; intros Xa; apply Ef; eauto. }
    constructor.
    - apply (s_env S).
    - intros. eapply s_heap; eauto.
    - apply (s_len S).
    - eapply Forall2_mono; [|apply (s_post S)]. intros x y (A & n & B & C). split; auto. exists n.
      split; auto. eapply Forall_impl; [|exact C]. auto.
    - eapply Forall_impl; [|apply (s_extra S)]. auto.
    - intros o a Ho. destruct (s_cov S o a Ho) as [?|[[]|[Hc|(p & Hp & Ht & Hr)]]]; auto.
      + destruct (Nat.eq_dec o f) as [->|Ef]; [right; left; auto|].
        right; right; left. destruct Hc as (b & b' & A & (B1 & B2 & B3) & C). exists b, b'. split; auto. split.
        * repeat split; auto. intros Xa. apply Ef. eauto.
        * eapply obj_rel_mono; [| | |exact C]; auto. intros a' b0 Gg (D1 & D2 & D3). repeat split; auto. intros Xa. apply Ef. eauto.
      + right; right; right. exists p. auto.
    - apply (s_kind S).
    - apply (s_gkind S).
    - apply (s_fresh S).
  Qed.

  (** the end of a construction: what was under construction is complete or has a deferred update *)
  Lemma Sim_finish (X : nat -> Prop) I L L' e0 h0 P0 e h P :
    (forall a, X a -> length h0 <= a) -> (forall p, In p L' -> In p L) ->
    (forall o a, X a -> Renv e o a ->
       Renv e0 o a \/ complete e (hidn X0 (length h0) h) o a \/
       exists p, (In p L' \/ exists x, In x P /\ In p (snd x)) /\ tgt p = o /\ ready e (hidn X0 (length h0) h) p) ->
    (forall o a p, X a -> Renv e o a -> tgt p = o -> kind_ok p -> ready e (hidn X0 (length h0) h) p) ->
    (forall p o a, In p L -> ~ In p L' -> tgt p = o -> Renv e o a -> complete e (hidn X0 (length h0) h) o a) ->
    Sim X I L e0 h0 P0 e h P -> Sim X0 I L' e0 h0 P0 e h P.
  Proof.
    intros XL HL HC HR HD S.
    assert (RX : forall p, readyX X (length h0) e h p -> readyX X0 (length h0) e h p).
    { intros p [(K & a & Xa & Ra)|Hp]; apply readyX0.
      - eapply HR; eauto.
      - eapply ready_mono; [| |exact Hp]; auto. intros a b (A & B & C). repeat split; auto. }
    constructor.
    - apply (s_env S).
    - intros a b Ha _. eapply s_heap; eauto. intros Xa. apply XL in Xa. apply nth_lt in Ha. lia.
    - apply (s_len S).
    - eapply Forall2_mono; [|apply (s_post S)]. intros x y (A & n & B & C). split; auto. exists n.
      split; auto. eapply Forall_impl; [|exact C]. auto.
    - pose proof (s_extra S) as F. rewrite Forall_forall in F |- *. intros p Hp. apply RX. apply F. auto.
    - intros o a Ho. destruct (s_cov S o a Ho) as [?|[Xa|[Hc|(p & Hp & Ht & Hr)]]]; auto.
      + destruct (HC o a Xa Ho) as [?|[Hc|(p & Hp & Ht & Hr)]]; auto.
        right; right; right. exists p. repeat split; auto. now apply readyX0.
      + right; right; left. eapply complete_mono; [| |exact Hc]; auto. intros a' b (A & B & C). repeat split; auto.
      + destruct Hp as [Hp|Hp].
        * assert (D : {In p L'} + {~ In p L'}).
          { apply in_dec. decide equality; apply Nat.eq_dec. }
          destruct D as [D|D].
          -- right; right; right. exists p. repeat split; auto.
          -- right; right; left. eapply HD; eauto.
        * right; right; right. exists p. repeat split; auto.
    - apply (s_kind S).
    - apply (s_gkind S).
    - apply (s_fresh S).
  Qed.

  Lemma Sim_I X (I I' : key -> Prop) L e h P e' h' P' : (forall k, I' k -> I k) ->
    Sim X I L e h P e' h' P' -> Sim X I' L e h P e' h' P'.
  Proof.
    intros HI S. constructor; try (apply S).
    - intros o a Ho. destruct (s_kind S o a Ho) as [A|[A|A]]; [left; exact A|right; left; exact A|].
      right; right. intros Hi. apply A. now apply HI.
    - intros o a Ho. destruct (s_gkind S o a Ho) as [A|A]; [left; exact A|].
      right. intros Hi. apply A. now apply HI.
  Qed.
End Sim.
Arguments s_env {H X I L e h P e' h' P'} _.
Arguments s_heap {H X I L e h P e' h' P'} _.
Arguments s_len {H X I L e h P e' h' P'} _.
Arguments s_post {H X I L e h P e' h' P'} _.
Arguments s_extra {H X I L e h P e' h' P'} _.
Arguments s_cov {H X I L e h P e' h' P'} _.
Arguments s_kind {H X I L e h P e' h' P'} _.
Arguments s_gkind {H X I L e h P e' h' P'} _.
Arguments s_fresh {H X I L e h P e' h' P'} _.
