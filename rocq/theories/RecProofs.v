(** What the pickler of RecModel writes: the state of its memo, the stack of the unpickler, and the objects saved by name. *)
From Coq Require Import String List Bool Arith Lia.
From Verif Require Import PyDict CoreModel RecModel RecSpec.
Import ListNotations.
Local Open Scope list_scope.

Section Proofs.
  Variable proto : nat.
  Variable H : nat -> option obj.
  Variable names : nat -> option string.
  Variable defined : string -> bool.

  Notation step' := (step_r defined).
  Fixpoint run (ops : list op) (m : vm) : option vm :=
    match ops with [] => Some m | o :: ops => match step' o m with Some m' => run ops m' | None => None end end.
  Lemma run_app a b m : run (a ++ b) m = match run a m with Some m' => run b m' | None => None end.
  Proof. revert m. induction a as [|o a IH]; intros m; [reflexivity|]. cbn [run app]. destruct (step' o m); [apply IH|reflexivity]. Qed.

  Definition inm (o : nat) (s : pst) : Prop := In (KObj o) (memo s).
  Definition done (v : val) (s : pst) : Prop := match v with VA _ _ => True | VR o => inm o s \/ H o = Some (OTup []) end.
  Definition dom (s : pst) : list nat := map fst (post s).
  Definition domok (s : pst) : Prop := forall o, In o (dom s) -> exists b, H o = Some b /\ match b with OFun _ _ _ _ _ _ | OType _ _ _ _ _ => True | _ => False end.
  Definition byname (o : nat) (v : val) : Prop := exists n, names o = Some n /\ defined n = true /\ v = VA (AGlob (GUser n)) 0.

  (** from s to s': the memo grows; new objects have their components in the memo, or are still being saved (then they have a name), or are in E *)
  Record ext (E : nat -> Prop) (s s' : pst) : Prop := {
    x_memo : exists ks, memo s' = memo s ++ ks;
    x_dom : dom s' = dom s;
    x_new : forall x b, inm x s' -> ~ inm x s -> H x = Some b -> E x \/ (In x (dom s) /\ names x <> None) \/ forall v, In v (succs b) -> done v s';
    x_nm : forall x, inm x s' -> ~ inm x s -> In x (dom s) -> ~ E x -> names x <> None }.

  Definition msync (s : pst) (m : vm) : Prop := keys (mem m) = List.seq 0 (length (memo s)).
  Definition st2 (m : vm) := (stk m, meta m).
  Notation rel := ((list val * list (list val)) -> (list val * list (list val)) -> Prop).

  Definition Jat (E : nat -> Prop) (A : act) (T : rel) (dn : list val) (s : pst) : Prop :=
    forall ops s', domok s -> A s = Ok (ops, s') ->
      ext E s s' /\ ~ In STOP ops /\ (forall v, In v dn -> done v s') /\
      forall m m', msync s m -> run ops m = Some m' ->
        msync s' m' /\ (forall i, i < length (memo s) -> get i (mem m') = get i (mem m)) /\ T (st2 m) (st2 m') /\
        forall o i, In o (dom s) -> ~ E o -> ~ inm o s -> memo_get (KObj o) s' = Some i -> exists v, get i (mem m') = Some v /\ byname o v.

  Definition J (E : nat -> Prop) (A : act) (T : rel) (dn : list val) : Prop := forall s, Jat E A T dn s.

  Definition Tpush (n : nat) : rel := fun x y => exists vs, length vs = n /\ fst y = vs ++ fst x /\ snd y = snd x.
  Definition Tid : rel := fun x y => y = x.
  Definition comp (T U : rel) : rel := fun x z => exists y, T x y /\ U y z.

  Lemma done_mono v s s' : (exists ks, memo s' = memo s ++ ks) -> done v s -> done v s'.
  Proof. intros (ks & E). destruct v; [auto|]. unfold done, inm. rewrite E, in_app_iff. intuition. Qed.
  Lemma inm_dec o s : {inm o s} + {~ inm o s}.
  Proof. apply in_dec. apply key_eq_dec. Qed.
  Lemma find_key_app k l1 l2 : forall i j, find_key k l1 i = Some j -> find_key k (l1 ++ l2) i = Some j.
  Proof. induction l1 as [|x l1 IH]; intros i j; [discriminate|]. cbn [find_key app]. destruct (key_eq_dec k x); [auto|apply IH]. Qed.
  Lemma find_key_lt k l : forall i j, find_key k l i = Some j -> i <= j < i + length l.
  Proof.
    induction l as [|x l IH]; intros i j; [discriminate|]. cbn [find_key length]. destruct (key_eq_dec k x).
    - intros E. injection E as <-. lia.
    - intros E. apply IH in E. lia.
  Qed.
  Lemma find_key_some k l : In k l -> forall i, exists j, find_key k l i = Some j.
  Proof.
    induction l as [|x l IH]; intros I i; [destruct I|]. cbn [find_key]. destruct (key_eq_dec k x); [eauto|]. apply IH. destruct I; [congruence|assumption].
  Qed.
  Lemma find_key_in k l : forall i j, find_key k l i = Some j -> In k l.
  Proof. induction l as [|x l IH]; intros i j; [discriminate|]. cbn [find_key]. destruct (key_eq_dec k x) as [->|]; [left; reflexivity|intros E; right; eapply IH; exact E]. Qed.
  Lemma find_key_last k l : ~ In k l -> forall i, find_key k (l ++ [k]) i = Some (i + length l).
  Proof.
    induction l as [|x l IH]; intros N i; cbn [find_key app length].
    - destruct (key_eq_dec k k); [f_equal; lia|congruence].
    - destruct (key_eq_dec k x) as [->|]; [exfalso; apply N; left; reflexivity|]. rewrite IH by (intros I; apply N; right; exact I). f_equal. lia.
  Qed.

  Lemma ext_refl E s : ext E s s.
  Proof. constructor; [exists []; symmetry; apply app_nil_r|reflexivity| |]; intros; contradiction. Qed.
  Lemma ext_trans E s s1 s2 : ext E s s1 -> ext E s1 s2 -> ext E s s2.
  Proof.
    intros [(k1 & A1) B1 C1 F1] [(k2 & A2) B2 C2 F2]. constructor.
    - exists (k1 ++ k2). rewrite A2, A1, app_assoc. reflexivity.
    - congruence.
    - intros x b I N Hx. destruct (inm_dec x s1) as [I1|N1].
      + destruct (C1 x b I1 N Hx) as [D|[D|D]]; auto. right. right. intros v Hv. eapply done_mono; [exists k2; exact A2|auto].
      + destruct (C2 x b I N1 Hx) as [D|[D|D]]; auto. right. left. rewrite <- B1. exact D.
    - intros x I N Ix NE. destruct (inm_dec x s1) as [I1|N1]; [apply F1; auto|apply F2; auto]. rewrite B1. exact Ix.
  Qed.
  Lemma ext_domok E s s' : ext E s s' -> domok s -> domok s'.
  Proof. intros X D o I. apply D. rewrite <- (x_dom _ _ _ X). exact I. Qed.
  Lemma ext_len E s s' : ext E s s' -> length (memo s) <= length (memo s').
  Proof. intros [(k & A) _ _ _]. rewrite A, app_length. lia. Qed.

  Lemma J_weak (E E' : nat -> Prop) A (T T' : rel) dn dn' : J E A T dn -> (forall x, E x -> E' x) -> (forall x y, T x y -> T' x y) -> incl dn' dn -> J E' A T' dn'.
  Proof.
    intros HJ HE HT HD s ops s' D EQ. destruct (HJ s ops s' D EQ) as (X & NS & DN & R). split; [|split; [exact NS|split; [auto|]]].
    - destruct X as [A1 B C F]. constructor; auto. intros x b I N Hx. destruct (C x b I N Hx) as [?|[?|?]]; auto.
    - intros m m' S Rn. destruct (R m m' S Rn) as (R1 & R2 & R3 & R4). repeat split; auto.
  Qed.
  Lemma Jat_seq (E : nat -> Prop) A B (T U : rel) a b s : Jat E A T a s -> (forall s1, dom s1 = dom s -> (exists ks, memo s1 = memo s ++ ks) -> Jat E B U b s1) -> Jat E (A ;; B) (comp T U) (a ++ b) s.
  Proof.
    intros HA HB ops s' D EQ. unfold seq in EQ. destruct (A s) as [[l s1]|] eqn:EA; [|discriminate]. destruct (B s1) as [[l' s2]|] eqn:EB; [|discriminate].
    injection EQ as <- <-. destruct (HA _ _ D EA) as (X1 & NS1 & D1 & R1). destruct (HB s1 (x_dom _ _ _ X1) (x_memo _ _ _ X1) _ _ (ext_domok _ _ _ X1 D) EB) as (X2 & NS2 & D2 & R2).
    split; [eapply ext_trans; eassumption|]. split; [rewrite in_app_iff; tauto|]. split.
    - intros v I. apply in_app_iff in I as [I|I]; [|auto]. eapply done_mono; [exact (x_memo _ _ _ X2)|auto].
    - intros m m' S Rn. rewrite run_app in Rn. destruct (run l m) as [m1|] eqn:E1; [|discriminate].
      destruct (R1 m m1 S E1) as (S1 & K1 & T1 & N1). destruct (R2 m1 m' S1 Rn) as (S2 & K2 & T2 & N2). pose proof (ext_len _ _ _ X1) as L1.
      split; [exact S2|]. split; [intros i I; rewrite K2 by lia; apply K1; exact I|]. split; [exists (st2 m1); split; assumption|].
      intros o i Io NE NI G. destruct (inm_dec o s1) as [I1|I1].
      + destruct (find_key_some _ _ I1 0) as (j & Fj). destruct (x_memo _ _ _ X2) as (k2 & M2). assert (i = j) as ->.
        { unfold memo_get in G. rewrite M2 in G. rewrite (find_key_app _ _ k2 _ _ Fj) in G. injection G as <-. reflexivity. }
        destruct (N1 o j Io NE NI Fj) as (v & V1 & V2). exists v. split; [|exact V2]. rewrite K2; [exact V1|]. apply find_key_lt in Fj. lia.
      + apply (N2 o i); [rewrite (x_dom _ _ _ X1); exact Io|exact NE|exact I1|exact G].
  Qed.
  Lemma J_seq (E : nat -> Prop) A B (T U : rel) a b : J E A T a -> J E B U b -> J E (A ;; B) (comp T U) (a ++ b).
  Proof. intros HA HB s. apply Jat_seq; [apply HA|intros s1 _ _; apply HB]. Qed.
  (** with the postcondition wanted *)
  Lemma J_seq' (E : nat -> Prop) A B (T U V : rel) a b c : J E A T a -> J E B U b -> (forall x y z, T x y -> U y z -> V x z) -> incl c (a ++ b) -> J E (A ;; B) V c.
  Proof. intros HA HB HT HI. eapply J_weak; [eapply J_seq; eassumption|auto| |exact HI]. intros x z (y & X & Y). eapply HT; eassumption. Qed.

  Lemma J_emit E l (T : rel) : ~ In STOP l -> (forall m m', run l m = Some m' -> mem m' = mem m /\ T (st2 m) (st2 m')) -> J E (emit l) T [].
  Proof.
    intros NS R s ops s' D EQ. injection EQ as <- <-. split; [apply ext_refl|]. split; [exact NS|]. split; [intros v []|]. intros m m' S Rn. destruct (R m m' Rn) as (A & B).
    split; [unfold msync; rewrite A; exact S|]. split; [intros i _; rewrite A; reflexivity|]. split; [exact B|]. intros o i _ _ NI G. exfalso. apply NI. eapply find_key_in; exact G.
  Qed.
  Lemma J_fail E e T dn : J E (fail e) T dn.
  Proof. intros s ops s' D EQ. discriminate. Qed.

  Lemma keys_set (i : nat) (v : val) (d : dict nat val) : ~ In i (keys d) -> keys (set i v d) = keys d ++ [i].
  Proof.
    induction d as [|[k w] d IH]; intros N; [reflexivity|]. cbn [set]. destruct (eqb_spec i k) as [->|]; [exfalso; apply N; left; reflexivity|].
    cbn [keys map fst app]. unfold keys in *. f_equal. apply IH. intros I. apply N. right. exact I.
  Qed.
  Lemma put_mem i (v : val) d n : keys d = List.seq 0 n -> i = n -> keys (set i v d) = List.seq 0 (S n) /\ (forall j, j < n -> get j (set i v d) = get j d) /\ get n (set i v d) = Some v.
  Proof.
    intros K ->. split; [|split].
    - rewrite keys_set, K by (rewrite K, in_seq; lia). rewrite (seq_S n 0). reflexivity.
    - intros j L. apply get_set_other. lia.
    - apply get_set_same.
  Qed.
  Definition kE (E : nat -> Prop) (k : key) : Prop := match k with KObj o => E o | _ => True end.
  Definition kdone (k : key) : list val := match k with KObj o => [VR o] | _ => [] end.
  Lemma memoize_inv k s ops s' : memoize proto k s = Ok (ops, s') ->
    (ops = [MEMOIZE] /\ Nat.leb 4 proto = true \/ ops = [PUT (length (memo s))] /\ Nat.leb 4 proto = false) /\ s' = {| memo := memo s ++ [k]; post := post s |}.
  Proof. unfold memoize. destruct (Nat.leb 4 proto); intros E; injection E as <- <-; split; auto. Qed.
  (** the step of memoize *)
  Lemma memoize_run k s ops s' m m' : memoize proto k s = Ok (ops, s') -> msync s m -> run ops m = Some m' ->
    msync s' m' /\ (forall i, i < length (memo s) -> get i (mem m') = get i (mem m)) /\ st2 m' = st2 m /\ exists v st, stk m = v :: st /\ get (length (memo s)) (mem m') = Some v.
  Proof.
    intros EQ S Rn. apply memoize_inv in EQ as (Q & ->). unfold msync in *. cbn [memo post]. rewrite app_length, Nat.add_1_r.
    assert (length (mem m) = length (memo s)) as L by (rewrite <- (map_length fst (mem m)); unfold keys in S; rewrite S, seq_length; reflexivity).
    destruct Q as [(-> & _)|(-> & _)]; cbn [run step_r step] in Rn; destruct (stk m) as [|v st] eqn:Es; try discriminate; injection Rn as <-; cbn [mem stk meta]; unfold st2; cbn [stk meta]; rewrite Es.
    - destruct (put_mem (length (mem m)) v (mem m) (length (memo s)) S L) as (A & B & C). repeat split; auto. exists v, st. rewrite L in *. auto.
    - destruct (put_mem (length (memo s)) v (mem m) (length (memo s)) S eq_refl) as (A & B & C). repeat split; auto. exists v, st. auto.
  Qed.
  Lemma memoize_ext E k s ops s' : memoize proto k s = Ok (ops, s') -> kE E k -> ext E s s'.
  Proof.
    intros EQ KE. apply memoize_inv in EQ as (_ & ->). assert (forall x, In (KObj x) (memo s ++ [k]) -> ~ inm x s -> E x) as Q.
    { intros x I N. apply in_app_iff in I as [I|[->|[]]]; [contradiction|exact KE]. }
    constructor; [eexists; reflexivity|reflexivity| |]; unfold inm; cbn [memo].
    - intros x b I N Hx. left. apply Q; assumption.
    - intros x I N _ NE. exfalso. apply NE. apply Q; assumption.
  Qed.
  Lemma memoize_nostop k s ops s' : memoize proto k s = Ok (ops, s') -> ~ In STOP ops.
  Proof. intros EQ. apply memoize_inv in EQ as ([(-> & _)|(-> & _)] & _); intros [|[]]; discriminate. Qed.
  Lemma memoize_done k s ops s' v : memoize proto k s = Ok (ops, s') -> In v (kdone k) -> done v s'.
  Proof. intros EQ. apply memoize_inv in EQ as (_ & ->). destruct k; cbn [kdone In]; try contradiction. intros [<-|[]]. unfold done, inm. cbn [memo]. rewrite in_app_iff. left. right. left. reflexivity. Qed.
  Lemma J_memoize E k : kE E k -> J E (memoize proto k) Tid (kdone k).
  Proof.
    intros KE s ops s' D EQ. split; [eapply memoize_ext; eassumption|]. split; [eapply memoize_nostop; eassumption|]. split; [intros v; eapply memoize_done; eassumption|].
    intros m m' S Rn. destruct (memoize_run _ _ _ _ _ _ EQ S Rn) as (A & B & C & _). split; [exact A|]. split; [exact B|]. split; [exact C|].
    intros o i Io NE NI G. exfalso. apply memoize_inv in EQ as (_ & ->). apply find_key_in in G. cbn [memo] in G. apply in_app_iff in G as [G|[G|[]]]; [exact (NI G)|].
    subst k. exact (NE KE).
  Qed.

  (** ** single opcodes *)
  Ltac stop := let X := fresh in intros X; cbn [In] in X; repeat destruct X as [X|X]; try discriminate X; try contradiction.
  Lemma comp_push a b x y z : Tpush a x y -> Tpush b y z -> Tpush (b + a) x z.
  Proof.
    intros (v & A & B & C) (w & A' & B' & C'). exists (w ++ v). rewrite app_length, B', B, <- app_assoc. repeat split; [lia|]. congruence.
  Qed.

  Section Save.
    Variable sv : val -> act.
    Hypothesis SV : forall E v, J E (sv v) (Tpush 1) [v].

    Lemma J_seqs {A} E (f : A -> act) n (g : A -> list val) l : (forall x, In x l -> J E (f x) (Tpush n) (g x)) -> J E (seqs f l) (Tpush (length l * n)) (flat_map g l).
    Proof.
      induction l as [|x l IH]; intros Hf; cbn [seqs flat_map length].
      - apply J_emit; [stop|]. intros m m' Q. injection Q as <-. split; [reflexivity|]. exists []. repeat split.
      - eapply J_seq'; [apply Hf; left; reflexivity|apply IH; intros y Y; apply Hf; right; exact Y| |apply incl_refl].
        intros a b c X Y. pose proof (comp_push _ _ _ _ _ X Y) as P. replace (S (length l) * n) with (length l * n + n) by lia. exact P.
    Qed.
    Lemma J_seqs0 {A} E (f : A -> act) (g : A -> list val) l : (forall x, In x l -> J E (f x) Tid (g x)) -> J E (seqs f l) Tid (flat_map g l).
    Proof.
      induction l as [|x l IH]; intros Hf; cbn [seqs flat_map].
      - apply J_emit; [stop|]. intros m m' Q. injection Q as <-. split; reflexivity.
      - eapply J_seq'; [apply Hf; left; reflexivity|apply IH; intros y Y; apply Hf; right; exact Y| |apply incl_refl].
        intros a b c -> ->. reflexivity.
    Qed.
    Lemma flat_single (l : list val) : flat_map (fun v => [v]) l = l.
    Proof. induction l; [reflexivity|]. cbn. congruence. Qed.
    Lemma J_kv E p : J E (save_kv sv p) (Tpush 2) [fst p; snd p].
    Proof. unfold save_kv. eapply J_seq'; [apply SV|apply SV| |apply incl_refl]. intros x y z A B. exact (comp_push _ _ _ _ _ A B). Qed.

    Lemma J_batches {A} E (one : A -> act) (many : list A -> act) (g : A -> list val) :
      (forall x, J E (one x) Tid (g x)) -> (forall l, J E (many l) Tid (flat_map g l)) ->
      forall fuel l, length l < fuel -> J E (batches one many fuel l) Tid (flat_map g l).
    Proof.
      intros H1 H2. induction fuel as [|fuel IH]; intros l L; [lia|]. unfold batches; fold (@batches A). remember (firstn BATCHSIZE l) as tmp eqn:Et.
      assert (J E (match tmp with [] => emit [] | [x] => one x | _ => many tmp end) Tid (flat_map g tmp)) as J1.
      { destruct tmp as [|x [|y t]].
        - apply J_emit; [stop|]. intros m m' Q. injection Q as <-. split; reflexivity.
        - eapply J_weak; [apply H1|auto|auto|]. cbn. rewrite app_nil_r. apply incl_refl.
        - apply H2. }
      eapply J_seq'; [exact J1| | |].
      - assert (J E (if Nat.ltb (length tmp) BATCHSIZE then emit [] else batches one many fuel (skipn BATCHSIZE l)) Tid (if Nat.ltb (length tmp) BATCHSIZE then [] else flat_map g (skipn BATCHSIZE l))) as J2.
        { destruct (Nat.ltb (length tmp) BATCHSIZE) eqn:B.
          - apply J_emit; [stop|]. intros m m' Q. injection Q as <-. split; reflexivity.
          - apply IH. apply Nat.ltb_ge in B. rewrite skipn_length. subst tmp. rewrite firstn_length in B. unfold BATCHSIZE in *. lia. }
        exact J2.
      - intros x y z -> ->. reflexivity.
      - destruct (Nat.ltb (length tmp) BATCHSIZE) eqn:B.
        + rewrite app_nil_r. apply Nat.ltb_lt in B. subst tmp. rewrite firstn_length in B. rewrite firstn_all2 by lia. apply incl_refl.
        + rewrite <- flat_map_app. subst tmp. rewrite firstn_skipn. apply incl_refl.
    Qed.

    Ltac inv_run R := cbn [run step_r step] in R.
    Lemma run1 o m m' : run [o] m = Some m' -> step' o m = Some m'.
    Proof. cbn [run]. destruct (step' o m); auto. Qed.
    Lemma J_append E v : J E (sv v ;; emit [APPEND]) Tid [v].
    Proof.
      intros s ops s' D EQ. unfold seq in EQ. destruct (sv v s) as [[l s1]|] eqn:E1; [|discriminate]. cbn [emit] in EQ. injection EQ as <- <-.
      destruct (SV E v _ _ _ D E1) as (X & NS & DN & R). split; [exact X|]. split; [rewrite in_app_iff; intros [I|[I|[]]]; [auto|discriminate]|]. split; [exact DN|].
      intros m m' S Rn. rewrite run_app in Rn. destruct (run l m) as [m1|] eqn:R1; [|discriminate]. destruct (R m m1 S R1) as (S1 & K1 & (vs & L & T1 & T2) & N1).
      apply run1 in Rn. cbn [step_r step] in Rn. destruct vs as [|w [|? ?]]; try discriminate L. cbn [st2 fst snd app] in T1, T2.
      destruct (stk m1) as [|w' [|[|a] st]] eqn:Es; try discriminate. destruct (extend (nth_error (heap m1) a) [w']); [|discriminate]. injection Rn as <-.
      injection T1 as -> T1. split; [exact S1|]. split; [exact K1|]. split; [|exact N1]. unfold Tid, st2. cbn [set_heap set_stk stk meta]. rewrite T1, T2. reflexivity.
    Qed.
    Lemma step_plain o m m' : (match o with PUT _ | MEMOIZE | CONST _ | REDUCE | BUILD | NEWOBJ => False | _ => True end) -> step' o m = Some m' -> step o m = Some m'.
    Proof. destruct o; cbn [step_r]; try contradiction; auto. Qed.
    Lemma mark_run m m' : run [MARK] m = Some m' -> stk m' = [] /\ meta m' = stk m :: meta m /\ mem m' = mem m.
    Proof. intros R. apply run1 in R. cbn in R. injection R as <-. auto. Qed.
    Lemma J_mark E : J E (emit [MARK]) (fun x y => fst y = [] /\ snd y = fst x :: snd x) [].
    Proof. apply J_emit; [stop|]. intros m m' R. apply mark_run in R as (A & B & C). split; [exact C|]. split; assumption. Qed.

    Lemma J_many {A} E (f : A -> act) n g l fin : (forall x, J E (f x) (Tpush n) (g x)) ->
      (fin = APPENDS \/ fin = SETITEMS \/ fin = ADDITEMS) -> J E (emit [MARK] ;; seqs f l ;; emit [fin]) Tid (flat_map g l).
    Proof.
      intros Hf Hfin. eapply J_seq'; [apply J_mark| | |].
      - eapply J_seq; [apply (J_seqs E f n g); auto|apply (J_emit E [fin] (fun x y => exists s ms, snd x = s :: ms /\ y = (s, ms)))].
        + destruct Hfin as [-> | [-> | ->]]; stop.
        + intros m m' R. apply run1 in R. destruct Hfin as [-> | [-> | ->]]; cbn [step_r step] in R; unfold pop_mark in R; destruct (meta m) as [|ss ms] eqn:Em; try discriminate; cbn [stk heap] in R.
          * destruct ss as [|[|a] ss]; try discriminate. destruct (extend _ _); [|discriminate]. injection R as <-. cbn [mem set_heap]. split; [reflexivity|].
            exists (VR a :: ss), ms. unfold st2. cbn [fst snd stk meta set_heap]. auto.
          * destruct ss as [|[|a] ss]; try discriminate. destruct (pairs _); [|discriminate]. destruct (set_all _ _); [|discriminate]. injection R as <-. cbn [mem set_heap]. split; [reflexivity|].
            exists (VR a :: ss), ms. unfold st2. cbn [fst snd stk meta set_heap]. auto.
          * destruct ss as [|[|a] ss]; try discriminate. destruct (nth_error (heap m) a) as [[| | | | | | |[] vs0]|]; try discriminate. injection R as <-. cbn [mem set_heap]. split; [reflexivity|].
            exists (VR a :: ss), ms. unfold st2. cbn [fst snd stk meta set_heap]. auto.
      - intros x y z (A1 & A2) (w & (vs & L & B1 & B2) & ss & ms & C1 & C2). rewrite B2, A2 in C1. injection C1 as <- <-. unfold Tid. rewrite C2. symmetry. apply surjective_pairing.
      - cbn [app]. rewrite app_nil_r. apply incl_refl.
    Qed.
    Lemma J_setitem E p : J E (save_kv sv p ;; emit [SETITEM]) Tid [fst p; snd p].
    Proof.
      intros s ops s' D EQ. unfold seq in EQ at 1. destruct (save_kv sv p s) as [[l s1]|] eqn:E1; [|discriminate]. cbn [emit] in EQ. injection EQ as <- <-.
      destruct (J_kv E p _ _ _ D E1) as (X & NS & DN & R). split; [exact X|]. split; [rewrite in_app_iff; intros [I|[I|[]]]; [auto|discriminate]|]. split; [exact DN|].
      intros m m' S Rn. rewrite run_app in Rn. destruct (run l m) as [m1|] eqn:R1; [|discriminate]. destruct (R m m1 S R1) as (S1 & K1 & (vs & L & T1 & T2) & N1).
      apply run1 in Rn. cbn [step_r step] in Rn. destruct vs as [|w [|w2 [|? ?]]]; try discriminate L. cbn [st2 fst snd app] in T1, T2.
      destruct (stk m1) as [|w' [|w2' [|[|a] st]]] eqn:Es; try discriminate. destruct (set_all (nth_error (heap m1) a) _); [|discriminate]. injection Rn as <-.
      injection T1 as -> -> T1. split; [exact S1|]. split; [exact K1|]. split; [|exact N1]. unfold Tid, st2. cbn [set_heap set_stk stk meta]. rewrite T1, T2. reflexivity.
    Qed.
    Lemma J_batch_appends E vs : J E (batch_appends proto sv vs) Tid vs.
    Proof.
      assert (J E (batch_appends proto sv vs) Tid (flat_map (fun v => [v]) vs)) as R; [|rewrite flat_single in R; exact R]. unfold batch_appends.
      destruct (bin proto).
      - apply J_batches; [intros x; apply J_append| |lia]. intros l. apply (J_many E sv 1); auto.
      - apply J_seqs0. intros x _. apply J_append.
    Qed.
    Lemma J_batch_setitems E kvs : J E (batch_setitems proto sv kvs) Tid (kv_vals kvs).
    Proof.
      unfold batch_setitems, kv_vals. destruct (bin proto).
      - apply J_batches; [intros x; apply J_setitem| |lia]. intros l. apply (J_many E (save_kv sv) 2); auto. intros x. apply J_kv.
      - apply J_seqs0. intros x _. apply J_setitem.
    Qed.

    (** ** composite acts *)
    Lemma J_seq0 (E : nat -> Prop) A B (T U V : rel) b : J E A T [] -> J E B U b -> (forall x y z, T x y -> U y z -> V x z) -> J E (A ;; B) V b.
    Proof. intros HA HB HT. eapply J_seq'; [exact HA|exact HB|exact HT|apply incl_refl]. Qed.
    Lemma J_push E l : (forall m m', run l m = Some m' -> mem m' = mem m /\ exists v, stk m' = v :: stk m /\ meta m' = meta m) -> ~ In STOP l -> J E (emit l) (Tpush 1) [].
    Proof. intros R NS. apply J_emit; [exact NS|]. intros m m' Rn. destruct (R m m' Rn) as (A & v & B & C). split; [exact A|]. exists [v]. unfold st2. cbn [fst snd app length]. auto. Qed.
    Lemma run2 a b m m' : run [a; b] m = Some m' -> exists m1, step' a m = Some m1 /\ step' b m1 = Some m'.
    Proof. cbn [run]. destruct (step' a m) as [m1|]; [|discriminate]. destruct (step' b m1) as [m2|] eqn:E; [|discriminate]. intros Q. injection Q as <-. eauto. Qed.
    Lemma J_new_dict E : J E (emit (if bin proto then [EMPTY_DICT] else [MARK; DICT])) (Tpush 1) [].
    Proof.
      apply J_push; [|destruct (bin proto); stop]. intros m m' R. destruct (bin proto).
      - apply run1 in R. cbn in R. injection R as <-. cbn. split; [reflexivity|]. eexists; split; reflexivity.
      - apply run2 in R as (m1 & R1 & R2). cbn in R1. injection R1 as <-. cbn in R2. injection R2 as <-. cbn. split; [reflexivity|]. eexists; split; reflexivity.
    Qed.
    Lemma J_new_list E : J E (emit (if bin proto then [EMPTY_LIST] else [MARK; LIST])) (Tpush 1) [].
    Proof.
      apply J_push; [|destruct (bin proto); stop]. intros m m' R. destruct (bin proto).
      - apply run1 in R. cbn in R. injection R as <-. cbn. split; [reflexivity|]. eexists; split; reflexivity.
      - apply run2 in R as (m1 & R1 & R2). cbn in R1. injection R1 as <-. cbn in R2. injection R2 as <-. cbn. split; [reflexivity|]. eexists; split; reflexivity.
    Qed.
    Lemma J_empty_tuple E : J E (empty_tuple proto) (Tpush 1) [].
    Proof.
      unfold empty_tuple. apply J_push; [|destruct (bin proto); stop]. intros m m' R. destruct (bin proto).
      - apply run1 in R. cbn in R. injection R as <-. cbn. split; [reflexivity|]. eexists; split; reflexivity.
      - apply run2 in R as (m1 & R1 & R2). cbn in R1. injection R1 as <-. cbn in R2. injection R2 as <-. cbn. split; [reflexivity|]. eexists; split; reflexivity.
    Qed.
    Lemma push_id n x y z : Tpush n x y -> Tid y z -> Tpush n x z.
    Proof. intros P ->. exact P. Qed.
    Lemma id_push n x y z : Tid x y -> Tpush n y z -> Tpush n x z.
    Proof. intros -> P. exact P. Qed.
    Lemma id_id x y z : Tid x y -> Tid y z -> Tid x z.
    Proof. intros -> ->. reflexivity. Qed.

    Lemma J_dict E k kvs : kE E k -> J E (save_dict proto sv k kvs) (Tpush 1) (kdone k ++ kv_vals kvs).
    Proof.
      intros K. unfold save_dict. eapply J_seq'; [apply J_new_dict|eapply J_seq'; [apply J_memoize; exact K|apply J_batch_setitems|apply id_id|apply incl_refl]|apply push_id|].
      cbn [app]. apply incl_refl.
    Qed.
    Lemma J_list E k vs : kE E k -> J E (save_list proto sv k vs) (Tpush 1) (kdone k ++ vs).
    Proof.
      intros K. unfold save_list. eapply J_seq'; [apply J_new_list|eapply J_seq'; [apply J_memoize; exact K|apply J_batch_appends|apply id_id|apply incl_refl]|apply push_id|].
      cbn [app]. apply incl_refl.
    Qed.
    Definition aE (E : nat -> Prop) (x : arg) : Prop := match x with AV _ | AL _ => True | AD k _ => kE E k end.
    Definition a_vals (x : arg) : list val := match x with AV v => [v] | AD _ kvs => kv_vals kvs | AL vs => vs end.
    Lemma J_arg E x : aE E x -> J E (save_arg proto sv x) (Tpush 1) (a_vals x).
    Proof. 
      destruct x as [v|k kvs|vs]; intros K; cbn [save_arg a_vals]; [apply SV| |].
      - eapply J_weak; [apply J_dict; exact K|auto|auto|apply incl_appr, incl_refl].
      - eapply J_weak; [apply (J_list E KAnon); exact I|auto|auto|apply incl_refl].
    Qed.
    Lemma J_args E xs : (forall x, In x xs -> aE E x) -> J E (seqs (save_arg proto sv) xs) (Tpush (length xs)) (flat_map a_vals xs).
    Proof. intros K. rewrite <- (Nat.mul_1_r (length xs)). apply J_seqs. intros x I. apply J_arg. auto. Qed.

    Lemma run_pops n : forall m m', run (repeat POP n) m = Some m' -> n <= length (stk m) -> mem m' = mem m /\ stk m' = skipn n (stk m) /\ meta m' = meta m /\ heap m' = heap m.
    Proof.
      induction n as [|n IH]; intros m m' R L; [injection R as <-; auto|]. cbn [repeat run step_r step] in R. destruct (stk m) as [|v st] eqn:Es; [cbn in L; lia|].
      destruct (IH _ _ R) as (A & B & C & D); [cbn [set_stk stk]; cbn [length] in L; lia|]. cbn [set_stk mem stk meta heap] in A, B, C, D. cbn [skipn]. auto.
    Qed.
    Lemma get_step i m m' : run [GET i] m = Some m' -> mem m' = mem m /\ meta m' = meta m /\ exists v, get i (mem m) = Some v /\ stk m' = v :: stk m.
    Proof. intros R. apply run1 in R. cbn [step_r step] in R. destruct (get i (mem m)) as [v|] eqn:G; [|discriminate]. injection R as <-. cbn. eauto. Qed.
    (** the acts that look in the memo *)
    Lemma J_memo_get E k (l : list op) (A : nat -> list op) B (T : rel) :
      (forall i, J E (emit (A i)) T []) -> J E B T (kdone k) ->
      J E (fun s => match memo_get k s with Some i => Ok (A i, s) | None => B s end) T (kdone k).
    Proof.
      intros HA HB s ops s' D EQ. destruct (memo_get k s) as [i|] eqn:G; [|exact (HB s ops s' D EQ)]. destruct (HA i s ops s' D EQ) as (X & NS & DN & R).
      split; [exact X|]. split; [exact NS|]. split; [|exact R]. intros v I. injection EQ as <- <-. destruct k; cbn [kdone In] in I; try contradiction. destruct I as [<-|[]].
      left. eapply find_key_in. exact G.
    Qed.
    Lemma J_tuple E k xs : kE E k -> (forall x, In x xs -> aE E x) -> xs <> [] -> J E (save_tuple proto sv k xs) (Tpush 1) (kdone k ++ flat_map a_vals xs).
    Proof.
      intros K AK NE. unfold save_tuple. destruct xs as [|x0 xs0] eqn:EX; [congruence|]. rewrite <- EX in *. clear EX x0 xs0 NE. cbv zeta. set (n := length xs).
      destruct (Nat.leb n 3 && Nat.leb 2 proto).
      - eapply J_seq'; [apply J_args; exact AK| | |apply incl_app; [apply incl_appr, incl_refl|apply incl_appl, incl_refl]].
        + apply (J_memo_get E k [] (fun i => repeat POP n ++ [GET i])); [|eapply J_seq0; [|apply J_memoize; exact K|]].
          * intros i. apply (J_emit E _ (fun x y => n <= length (fst x) -> exists v, y = (v :: skipn n (fst x), snd x))).
            { rewrite in_app_iff. intros [I|[I|[]]]; [|discriminate]. apply repeat_spec in I. discriminate. }
            intros m m' R. rewrite run_app in R. destruct (run (repeat POP n) m) as [m1|] eqn:R1; [|discriminate].
            assert (mem m1 = mem m) as M1.
            { clear R. revert m m1 R1. clearbody n. induction n as [|n' IH]; intros m m1 R1; [injection R1 as <-; reflexivity|]. cbn [repeat run] in R1.
              destruct (step' POP m) as [m2|] eqn:S2; [|discriminate]. rewrite (IH _ _ R1). cbn [step_r step] in S2. destruct (stk m); [unfold pop_mark in S2; destruct (meta m); [discriminate|]|]; injection S2 as <-; reflexivity. }
            apply get_step in R as (A & B & v & C & D). split; [congruence|]. intros L. destruct (run_pops n m m1 R1 L) as (_ & B1 & C1 & _). exists v. unfold st2. cbn [fst snd].
            rewrite D, B, B1, C1. reflexivity.
          * apply (J_emit E [TUPLEN n] (fun x y => n <= length (fst x) -> exists v, y = (v :: skipn n (fst x), snd x))); [stop|]. intros m m' R. apply run1 in R. cbn [step_r step] in R.
            destruct (Nat.leb n (length (stk m))); [|discriminate]. injection R as <-. unfold make_tuple, push, alloc, set_stk, st2. destruct (rev (firstn n (stk m))); cbn [mem stk meta]; (split; [reflexivity|]); intros _; eexists; reflexivity.
          * intros x y z P ->. exact P.
        + intros x y z (vs & L & A & B) C. rewrite A, app_length, L in C. destruct C as (v & ->); [fold n; lia|]. exists [v]. cbn [fst snd length app]. split; [reflexivity|]. split; [|exact B].
          f_equal. fold n in L. rewrite <- L, skipn_app, skipn_all, Nat.sub_diag. reflexivity.
      - eapply J_seq'; [apply J_mark| | |cbn [app]; apply incl_refl].
        + eapply J_seq'; [apply J_args; exact AK| | |apply incl_app; [apply incl_appr, incl_refl|apply incl_appl, incl_refl]].
          * apply (J_memo_get E k [] (fun i => (if bin proto then [POP_MARK] else repeat POP (S n)) ++ [GET i])); [|eapply J_seq0; [|apply J_memoize; exact K|]].
            -- intros i. apply (J_emit E _ (fun x y => length (fst x) = n -> exists v s ms, snd x = s :: ms /\ y = (v :: s, ms))).
               { rewrite in_app_iff. intros [I|[I|[]]]; [|discriminate]. destruct (bin proto); [destruct I as [I|[]]; discriminate|]. apply repeat_spec in I. discriminate. }
               intros m m' R. rewrite run_app in R. destruct (run (if bin proto then [POP_MARK] else repeat POP (S n)) m) as [m1|] eqn:R1; [|discriminate].
               apply get_step in R as (A & B & v & C & D).
               assert (mem m1 = mem m /\ (length (stk m) = n -> exists s ms, meta m = s :: ms /\ stk m1 = s /\ meta m1 = ms)) as (M1 & Q).
               { destruct (bin proto).
                 - apply run1 in R1. cbn [step_r step] in R1. unfold pop_mark in R1. destruct (meta m) as [|s ms]; [discriminate|]. injection R1 as <-. cbn. split; [reflexivity|]. eauto.
                 - clear - R1. revert m m1 R1. clearbody n. induction n as [|n' IH]; intros m m1 R1.
                   + cbn [repeat run step_r step] in R1. destruct (stk m) as [|v st] eqn:Es.
                     * unfold pop_mark in R1. destruct (meta m) as [|s ms]; [discriminate|]. injection R1 as <-. cbn. split; [reflexivity|]. eauto.
                     * injection R1 as <-. cbn. split; [reflexivity|]. intros Q. discriminate.
                   + change (repeat POP (S (S n'))) with (POP :: repeat POP (S n')) in R1. cbn [run] in R1. destruct (step' POP m) as [m2|] eqn:S2; [|discriminate].
                     destruct (IH _ _ R1) as (I1 & I2). cbn [step_r step] in S2. destruct (stk m) as [|v st] eqn:Es.
                     * unfold pop_mark in S2. destruct (meta m); [discriminate|]. injection S2 as <-. split; [exact I1|]. intros Q. discriminate.
                     * injection S2 as <-. split; [exact I1|]. intros Q. apply I2. cbn [length] in Q. cbn [set_stk stk]. lia. }
               split; [congruence|]. intros L. destruct (Q L) as (s & ms & Q1 & Q2 & Q3). exists v, s, ms. unfold st2. cbn [fst snd]. rewrite D, B, Q2, Q3. auto.
            -- apply (J_emit E [TUPLE] (fun x y => length (fst x) = n -> exists v s ms, snd x = s :: ms /\ y = (v :: s, ms))); [stop|]. intros m m' R. apply run1 in R. cbn [step_r step] in R.
               unfold pop_mark in R. destruct (meta m) as [|s ms] eqn:Em; [discriminate|]. injection R as <-. unfold make_tuple, push, alloc, st2. cbn [fst snd]. rewrite Em.
               destruct (rev (stk m)); cbn [mem stk meta]; (split; [reflexivity|]); intros _; do 3 eexists; split; reflexivity.
            -- intros x y z P ->. exact P.
          * instantiate (1 := fun x y => fst x = [] -> exists v s ms, snd x = s :: ms /\ y = (v :: s, ms)). intros x y z (vs & L & A & B) C Q. rewrite Q, app_nil_r in A. rewrite A in C.
            destruct (C L) as (v & s & ms & C1 & C2). exists v, s, ms. rewrite <- B. auto.
        + intros x y z (A & B) C. destruct (C A) as (v & s & ms & C1 & ->). rewrite B in C1. injection C1 as <- <-. exists [v]. cbn [fst snd length app]. auto.
    Qed.
    Lemma J_tuple0 E k xs : kE E k -> (forall x, In x xs -> aE E x) -> J E (save_tuple proto sv k xs) (Tpush 1) (flat_map a_vals xs).
    Proof.
      intros K AK. destruct xs as [|x xs]; [apply J_empty_tuple|]. eapply J_weak; [apply J_tuple; [exact K|exact AK|discriminate]|auto|auto|apply incl_appr, incl_refl].
    Qed.

    Lemma J_build E : J E (emit [BUILD]) (fun x y => exists v w s, fst x = v :: w :: s /\ y = (w :: s, snd x)) [].
    Proof.
      apply J_emit; [stop|]. intros m m' R. apply run1 in R. unfold st2. cbn [fst snd]. cbn [step_r] in R. destruct (stk m) as [|v [|w s]] eqn:Es.
      - cbn [step] in R. rewrite Es in R. discriminate.
      - cbn [step] in R. rewrite Es in R. discriminate.
      - assert (mem m' = mem m /\ stk m' = w :: s /\ meta m' = meta m) as (A & B & C).
        { destruct w as [a i|a].
          - destruct a as [| | | | |g| | | |]; try (cbn [step] in R; rewrite Es in R; discriminate). destruct g; try (cbn [step] in R; rewrite Es in R; discriminate). injection R as <-. auto.
          - cbn [step] in R. rewrite Es in R. destruct (nth_error (heap m) a) as [[]|]; try discriminate; injection R as <-; auto. }
        split; [exact A|]. exists v, w, s. rewrite B, C. auto.
    Qed.
    Lemma J_state E st : J E (save_state proto sv st) Tid (st_vals st).
    Proof.
      destruct st as [|v|d [sl|]]; cbn [save_state st_vals].
      - apply J_emit; [stop|]. intros m m' Q. injection Q as <-. split; reflexivity.
      - eapply J_seq'; [apply SV|apply J_build| |apply incl_appl, incl_refl]. intros x y z (vs & L & A & B) (v' & w & s & C & ->).
        destruct vs as [|? [|? ?]]; try discriminate L. rewrite A in C. injection C as -> C. rewrite B. unfold Tid. rewrite <- C. symmetry. apply surjective_pairing.
      - eapply J_seq'; [apply J_tuple0; [exact I|intros x [<-|[<-|[]]]; exact I]|apply J_build| |apply incl_appl; cbn [flat_map a_vals]; rewrite app_nil_r; apply incl_refl].
        intros x y z (vs & L & A & B) (v' & w & s & C & ->). destruct vs as [|? [|? ?]]; try discriminate L. rewrite A in C. injection C as -> C. rewrite B. unfold Tid. rewrite <- C. symmetry. apply surjective_pairing.
      - eapply J_seq'; [apply (J_dict E KAnon); exact I|apply J_build| |apply incl_appl, incl_refl].
        intros x y z (vs & L & A & B) (v' & w & s & C & ->). destruct vs as [|? [|? ?]]; try discriminate L. rewrite A in C. injection C as -> C. rewrite B. unfold Tid. rewrite <- C. symmetry. apply surjective_pairing.
    Qed.

    Lemma call_shape f vs m m' : call f vs m = Some m' -> mem m' = mem m /\ meta m' = meta m /\ exists v, stk m' = v :: stk m.
    Proof.
      intros C. unfold call in C.
      repeat match goal with
      | Q : Some _ = Some _ |- _ => injection Q as <-; cbn; eauto
      | Q : None = Some _ |- _ => discriminate Q
      | Q : match ?x with _ => _ end = Some _ |- _ => destruct x
      end.
    Qed.
    Lemma J_reduce E : J E (emit [REDUCE]) (fun x y => exists a f s r, fst x = a :: f :: s /\ y = (r :: s, snd x)) [].
    Proof.
      apply J_emit; [stop|]. intros m m' R. apply run1 in R. unfold st2. cbn [fst snd].
      assert (exists a f s r, stk m = a :: f :: s /\ mem m' = mem m /\ stk m' = r :: s /\ meta m' = meta m) as (a & f & s & r & A & B & C & D).
      { assert (step REDUCE m = Some m' -> exists a f s r, stk m = a :: f :: s /\ mem m' = mem m /\ stk m' = r :: s /\ meta m' = meta m) as ST.
        { intros Q. cbn [step] in Q. destruct (stk m) as [|a [|f s]]; try discriminate. destruct (tuple_items (heap m) a) as [vs|]; [|discriminate]. apply call_shape in Q as (Q1 & Q2 & v & Q3).
          exists a, f, s, v. cbn in Q1, Q2, Q3. auto. }
        cbn [step_r] in R. destruct (stk m) as [|a [|[[| | | | |g| | | |] i|] s]] eqn:Es; try exact (ST R). destruct g; try exact (ST R).
        destruct (tuple_items (heap m) a) as [[|[[| | | | |g| | | |] j|] l]|]; try exact (ST R). destruct g; try exact (ST R). injection R as <-. exists a, (VA (AGlob GSetattr) i), s, vNone. auto. }
      split; [exact B|]. exists a, f, s, r. rewrite C, D. auto.
    Qed.
    Lemma J_newobj E : J E (emit [NEWOBJ]) (fun x y => exists a f s r, fst x = a :: f :: s /\ y = (r :: s, snd x)) [].
    Proof.
      apply J_emit; [stop|]. intros m m' R. apply run1 in R. unfold st2. cbn [fst snd step_r step] in *. destruct (stk m) as [|a [|f s]]; try discriminate. destruct (tuple_items (heap m) a) as [vs|]; [|discriminate].
      injection R as <-. cbn. split; [reflexivity|]. do 4 eexists. split; reflexivity.
    Qed.
    Lemma J_red_call E nb c args : (forall x, In x args -> aE E x) -> J E (red_call proto sv nb c args) (Tpush 1) (c :: flat_map a_vals args).
    Proof.
      intros AK.
      assert (forall f xs fin, (forall x, In x xs -> aE E x) -> (fin = REDUCE \/ fin = NEWOBJ) -> J E (sv f ;; save_tuple proto sv KAnon xs ;; emit [fin]) (Tpush 1) (f :: flat_map a_vals xs)) as R.
      { intros f xs fin AK' F. eapply J_seq'; [apply SV| | |].
        - eapply J_seq; [apply (J_tuple0 E KAnon xs I AK')|]. instantiate (2 := (fun x y => exists a f s r, fst x = a :: f :: s /\ y = (r :: s, snd x))). destruct F as [-> | ->]; [apply J_reduce|apply J_newobj].
        - intros x y z (vs & L & A & B) (w & (vs' & L' & A' & B') & a & f' & s & r & C & ->). destruct vs as [|? [|? ?]]; try discriminate L. destruct vs' as [|? [|? ?]]; try discriminate L'.
          rewrite A', A in C. injection C as -> -> C. exists [r]. cbn [fst snd app length]. rewrite C, B', B. auto.
        - cbn [app]. rewrite app_nil_r. apply incl_refl. }
      unfold red_call. destruct nb; [|apply R; auto]. destruct (Nat.leb 2 proto); [apply R; auto|]. eapply J_weak; [apply R; [intros x [<-|Ix]; [exact I|auto]|auto]|auto|auto|].
      cbn [flat_map a_vals app]. apply incl_tl, incl_refl.
    Qed.
    Lemma J_red_memo E k : kE E k -> J E (red_memo proto (Some k)) (fun x y => forall v s, fst x = v :: s -> exists w, y = (w :: s, snd x)) (kdone k).
    Proof.
      intros K. unfold red_memo. apply (J_memo_get E k [] (fun i => [POP; GET i])).
      - intros i. apply J_emit; [stop|]. intros m m' R. apply run2 in R as (m1 & R1 & R2). assert (run [GET i] m1 = Some m') as G by (cbn [run]; rewrite R2; reflexivity).
        apply get_step in G as (A & B & v & C & D). cbn [step_r step] in R1. unfold st2. cbn [fst snd]. destruct (stk m) as [|x s] eqn:Es.
        + unfold pop_mark in R1. destruct (meta m); [discriminate|]. injection R1 as <-. cbn in *. split; [exact A|]. intros v' s' Q. discriminate.
        + injection R1 as <-. cbn in *. split; [exact A|]. intros v' s' Q. injection Q as <- <-. exists v. rewrite D, B. reflexivity.
      - eapply J_weak; [apply J_memoize; exact K|auto| |apply incl_refl]. intros x y -> v s Q. exists v. rewrite <- Q. apply surjective_pairing.
    Qed.
    Definition odone (k : option key) : list val := match k with Some k => kdone k | None => [] end.
    Definition oE (E : nat -> Prop) (k : option key) : Prop := match k with Some k => kE E k | None => True end.
    Lemma J_red_memo' E k : oE E k -> J E (red_memo proto k) (fun x y => forall v s, fst x = v :: s -> exists w, y = (w :: s, snd x)) (odone k).
    Proof.
      destruct k as [k|]; intros K; [apply J_red_memo; exact K|]. apply J_emit; [stop|]. intros m m' Q. injection Q as <-. split; [reflexivity|]. intros v s Q. exists v. rewrite <- Q. apply surjective_pairing.
    Qed.
    Lemma push_top x y z : Tpush 1 x y -> (forall v s, fst y = v :: s -> exists w, z = (w :: s, snd y)) -> Tpush 1 x z.
    Proof. intros (vs & L & A & B) C. destruct vs as [|v [|? ?]]; try discriminate L. destruct (C v (fst x) A) as (w & ->). exists [w]. cbn. auto. Qed.
    Lemma J_save_reduce E nb c args st k : (forall x, In x args -> aE E x) -> oE E k ->
      J E (save_reduce proto sv nb c args st k) (Tpush 1) (odone k ++ (c :: flat_map a_vals args) ++ st_vals st).
    Proof.
      intros AK K. unfold save_reduce. eapply J_seq'; [apply J_red_call; exact AK| | |].
      - eapply J_seq'; [apply J_red_memo'; exact K|apply J_state| |apply incl_refl]. intros x y z P ->. exact P.
      - intros x y z P Q. eapply push_top; [exact P|exact Q].
      - apply incl_app; [apply incl_appr, incl_appl, incl_refl|]. apply incl_app; [apply incl_appl, incl_refl|apply incl_appr, incl_appr, incl_refl].
    Qed.
    Lemma J_instance E nb c args li di st k : (forall x, In x args -> aE E x) -> kE E k ->
      J E (save_instance proto sv nb c args li di st k) (Tpush 1) (kdone k ++ (c :: flat_map a_vals args) ++ li ++ kv_vals di ++ st_vals st).
    Proof.
      intros AK K. unfold save_instance. eapply J_seq'; [apply J_red_call; exact AK| | |].
      - eapply J_seq'; [apply J_red_memo; exact K| | |apply incl_refl].
        + eapply J_seq'; [apply J_batch_appends| |apply id_id|apply incl_refl]. eapply J_seq'; [apply J_batch_setitems|apply J_state|apply id_id|apply incl_refl].
        + intros x y z P ->. exact P.
      - intros x y z P Q. eapply push_top; [exact P|exact Q].
      - apply incl_app; [apply incl_appr, incl_appl, incl_refl|]. apply incl_app; [apply incl_appl, incl_refl|apply incl_appr, incl_appr, incl_refl].
    Qed.
    Lemma J_pop E : J E (emit [POP]) (fun x y => forall v s, fst x = v :: s -> y = (s, snd x)) [].
    Proof.
      apply J_emit; [stop|]. intros m m' R. apply run1 in R. cbn [step_r step] in R. unfold st2. cbn [fst snd]. destruct (stk m) as [|x s] eqn:Es.
      - unfold pop_mark in R. destruct (meta m); [discriminate|]. injection R as <-. split; [reflexivity|]. intros v s Q. discriminate.
      - injection R as <-. split; [reflexivity|]. intros v s' Q. injection Q as <- <-. reflexivity.
    Qed.
    Lemma push_pop x y z : Tpush 1 x y -> (forall v s, fst y = v :: s -> z = (s, snd y)) -> Tid x z.
    Proof. intros (vs & L & A & B) C. destruct vs as [|v [|? ?]]; try discriminate L. rewrite (C v (fst x) A), B. symmetry. apply surjective_pairing. Qed.
    Lemma J_get E i : J E (emit [GET i]) (Tpush 1) [].
    Proof. apply J_push; [|stop]. intros m m' R. apply get_step in R as (A & B & v & C & D). eauto. Qed.
    Lemma J_exec E p : J E (exec_pp proto H sv p) Tid [].
    Proof.
      destruct p as [c|f|t]; cbn [exec_pp].
      - destruct (H c) as [[| | | | | |[v|]|]|]; try apply J_fail. eapply J_seq'; [apply J_save_reduce; [intros x [<-|[<-|[<-|[]]]]; exact I|exact I]|apply J_pop|apply push_pop|apply incl_nil_l].
      - destruct (glob_items H f) as [[|kv kvs]|]; [| |apply J_fail].
        + apply J_emit; [stop|]. intros m m' Q. injection Q as <-. split; reflexivity.
        + intros s ops s' D EQ. destruct (memo_get (KGlob f) s) as [i|]; [|discriminate]. revert s ops s' D EQ. change (J E (emit [GET i] ;; batch_setitems proto sv (kv :: kvs) ;; emit [POP]) Tid []).
          eapply J_seq'; [apply J_get|eapply J_seq'; [apply J_batch_setitems|apply J_pop| |apply incl_refl]|apply push_pop|apply incl_nil_l]. intros x y z -> Q. exact Q.
      - destruct (H t) as [[]|]; try apply J_fail. eapply J_seq'; [apply J_save_reduce; [intros x [<-|[<-|[<-|[]]]]; exact I|exact I]|apply J_pop|apply push_pop|apply incl_nil_l].
    Qed.
    Lemma J_execs E l : J E (seqs (exec_pp proto H sv) l) Tid [].
    Proof. eapply J_weak; [apply (J_seqs0 E (exec_pp proto H sv) (fun _ => [])); intros x _; apply J_exec|auto|auto|apply incl_nil_l]. Qed.
    Lemma append_dom e p l : map fst (append_pp e p l) = map fst l.
    Proof. induction l as [|[e' ps] l IH]; [reflexivity|]. cbn [append_pp]. destruct (Nat.eqb e e'); cbn [map fst]; congruence. Qed.
    Lemma J_add_pp E e p : J E (add_pp e p) Tid [].
    Proof.
      intros s ops s' D EQ. injection EQ as <- <-. split; [|split; [intros []|split; [intros v []|]]].
      - constructor; [exists []; symmetry; apply app_nil_r|apply append_dom| |]; intros; contradiction.
      - intros m m' S R. injection R as <-. split; [exact S|]. split; [reflexivity|]. split; [reflexivity|]. intros o i _ _ NI G. exfalso. apply NI. eapply find_key_in; exact G.
    Qed.
    (** an object that is no function or class: after saving, it and its components are in the memo *)
    Lemma J_close E o b A T dn : H o = Some b -> match b with OFun _ _ _ _ _ _ | OType _ _ _ _ _ => False | _ => True end -> incl (succs b) dn ->
      J (fun x => E x \/ x = o) A T dn -> J E A T dn.
    Proof.
      intros Ho NP SU HJ s ops s' D EQ. destruct (HJ s ops s' D EQ) as (X & NS & DN & R). split; [|split; [exact NS|split; [exact DN|]]].
      - destruct X as [X1 X2 X3 X4]. constructor; [exact X1|exact X2| |].
        + intros x b' I N Hx. destruct (X3 x b' I N Hx) as [[Ex| ->]|[?|?]]; auto. right. right. intros v Iv. apply DN. apply SU.
          rewrite Ho in Hx. injection Hx as <-. exact Iv.
        + intros x I N Ix NE. apply X4; auto. intros [Ex| ->]; [exact (NE Ex)|]. destruct (D o Ix) as (b' & Hb & P). rewrite Ho in Hb. injection Hb as <-. destruct b; contradiction.
      - intros m m' S Rn. destruct (R m m' S Rn) as (R1 & R2 & R3 & R4). repeat split; auto. intros x i Ix NE NI G. apply (R4 x i Ix); auto. intros [Ex| ->]; [exact (NE Ex)|].
        destruct (D o Ix) as (b' & Hb & P). rewrite Ho in Hb. injection Hb as <-. destruct b; contradiction.
    Qed.
    Lemma J_cell E o c : J (fun x => E x \/ x = o) (save_cell proto sv o c) (Tpush 1) [VR o].
    Proof.
      destruct c as [v|].
      - assert (forall w, J (fun x => E x \/ x = o) (save_reduce proto sv false (g_ GCreateCell) [AV w] SNone (Some (KObj o))) (Tpush 1) [VR o]) as C1.
        { intros w. eapply (J_weak (fun x => E x \/ x = o)); [apply J_save_reduce; [intros x [<-|[]]; exact I|right; reflexivity]|auto|auto|]. apply incl_appl, incl_refl. }
        intros s ops s' D EQ. unfold save_cell in EQ.
        destruct (match v with VR f => if memb f (map fst (post s)) then Some f else match post s with [] => None | (e, _) :: _ => Some e end | _ => match post s with [] => None | (e, _) :: _ => Some e end end) as [e|].
        + revert s ops s' D EQ.
          change (J (fun x => E x \/ x = o) (save_reduce proto sv false (g_ GCreateCell) [AV vNone] SNone (Some (KObj o)) ;; add_pp e (PSetCell o)) (Tpush 1) [VR o]).
          eapply J_seq'; [apply C1|apply J_add_pp|apply push_id|apply incl_refl].
        + exact (C1 v s ops s' D EQ).
      - change (J (fun x => E x \/ x = o) (save_reduce proto sv false (g_ GCreateCell) [AV (VA ACellEmpty 0)] SNone (Some (KObj o)) ;;
          save_reduce proto sv false (g_ GDelattr) [AV (VR o); AV sCONTENTS] SNone None ;; emit [POP]) (Tpush 1) [VR o]).
        eapply J_seq'; [apply J_save_reduce; [intros x [<-|[]]; exact I|right; reflexivity]| | |].
        + eapply J_seq'; [apply J_save_reduce; [intros x [<-|[<-|[]]]; exact I|exact I]|apply J_pop|apply push_pop|apply incl_nil_l].
        + apply push_id.
        + apply incl_appl, incl_appl, incl_refl.
    Qed.
    Lemma J_atom E a i : J E (save_atom proto a i) (Tpush 1) [].
    Proof.
      assert (forall b, J E (emit [CONST b]) (Tpush 1) []) as C.
      { intros b. apply J_push; [|stop]. intros m m' R. apply run1 in R. cbn [step_r] in R. assert (step (CONST b) m = Some m') as R'.
        { destruct b as [| | | | |g| | | |]; auto. destruct g; auto. destruct (defined name); [exact R|discriminate]. }
        cbn in R'. injection R' as <-. cbn. split; [reflexivity|]. eexists; split; reflexivity. }
      assert (forall b, J E (fun s => match memo_get (KAtom b i) s with Some n => Ok ([GET n], s) | None => (emit [CONST b] ;; memoize proto (KAtom b i)) s end) (Tpush 1) []) as M.
      { intros b. apply (J_memo_get E (KAtom b i) [] (fun n => [GET n])); [intros n; apply J_get|]. eapply J_seq0; [apply C|apply (J_memoize E (KAtom b i)); exact I|apply push_id]. }
      unfold save_atom. destruct a; cbn [memoized]; try apply M; try (intros s; exact (C _ s)). apply J_empty_tuple.
    Qed.

    (** ** functions and classes *)
    Lemma memb_dom o s : memb o (map fst (post s)) = true <-> In o (dom s).
    Proof. unfold dom. apply memb_In. Qed.
    Lemma J_global E o s ops s' : domok s -> In o (dom s) -> ~ inm o s -> save_global proto names o s = Ok (ops, s') ->
      ext E s s' /\ ~ In STOP ops /\ done (VR o) s' /\
      forall m m', msync s m -> run ops m = Some m' ->
        msync s' m' /\ (forall i, i < length (memo s) -> get i (mem m') = get i (mem m)) /\ Tpush 1 (st2 m) (st2 m') /\
        forall x i, In x (dom s) -> ~ E x -> ~ inm x s -> memo_get (KObj x) s' = Some i -> exists v, get i (mem m') = Some v /\ byname x v.
    Proof.
      intros D Io NI EQ. unfold save_global in EQ. destruct (names o) as [n|] eqn:En; [|discriminate]. unfold seq in EQ. cbn [emit] in EQ.
      destruct (memoize proto (KObj o) s) as [[l s1]|] eqn:M; [|discriminate]. injection EQ as <- <-. pose proof (memoize_inv _ _ _ _ M) as (_ & ES).
      split; [|split; [|split]].
      - destruct (memoize_ext (fun x => x = o) _ _ _ _ M eq_refl) as [X1 X2 X3 X4].
        assert (forall x, inm x s1 -> ~ inm x s -> x = o) as Q. { intros x I N. subst s1. unfold inm in I. cbn [memo] in I. apply in_app_iff in I as [I|[I|[]]]; [contradiction|]. injection I as <-. reflexivity. }
        constructor; [exact X1|exact X2| |].
        + intros x b I N Hx. rewrite (Q x I N). right. left. split; [exact Io|congruence].
        + intros x I N _ _. rewrite (Q x I N). congruence.
      - intros [I|I]; [discriminate|]. exact (memoize_nostop _ _ _ _ M I).
      - eapply memoize_done; [exact M|left; reflexivity].
      - intros m m' S R. change (run ([CONST (AGlob (GUser n))] ++ l) m = Some m') in R. rewrite run_app in R. destruct (run [CONST (AGlob (GUser n))] m) as [m1|] eqn:R1; [|discriminate].
        apply run1 in R1. cbn [step_r] in R1. destruct (defined n) eqn:Dn; [|discriminate]. cbn in R1. injection R1 as <-.
        destruct (memoize_run _ _ _ _ _ _ M (S : msync s (push (VA (AGlob (GUser n)) 0) m)) R) as (A & B & C & v & st & Q & G). cbn [push stk mem] in Q, B. injection Q as <- <-.
        split; [exact A|]. split; [exact B|]. split; [exists [VA (AGlob (GUser n)) 0]; rewrite C; unfold st2; cbn; auto|].
        intros x i Ix _ NIx G'. subst s1. unfold memo_get in G'. cbn [memo] in G'. pose proof (find_key_in _ _ _ _ G') as Ik. apply in_app_iff in Ik as [Ik|[Ik|[]]]; [contradiction|]. injection Ik as <-.
        rewrite find_key_last in G' by exact NI. injection G' as <-. exists (VA (AGlob (GUser n)) 0). split; [exact G|]. exists n. auto.
    Qed.

    Lemma del_dom o (P : list (nat * list pp)) d : map fst P = d ++ [o] -> ~ In o d -> map fst (del o P) = d.
    Proof.
      revert d. induction P as [|[k l] P IH]; intros d E N; [destruct d; discriminate|]. cbn [map fst] in E. unfold del in *. cbn [filter fst]. destruct d as [|x d].
      - injection E as -> E. apply map_eq_nil in E. subst P. rewrite eqb_refl. reflexivity.
      - injection E as -> E. rewrite eqb_neq by (intros ->; apply N; left; reflexivity). cbn [negb map fst]. f_equal. apply IH; [exact E|]. intros I. apply N. right. exact I.
    Qed.
    Lemma J_postproc E o b own c args st s : H o = Some b -> match b with OFun _ _ _ _ _ _ | OType _ _ _ _ _ => True | _ => False end ->
      ~ In o (dom s) -> (forall x, In x args -> aE (fun x => E x \/ x = o) x) -> incl (succs b) ((c :: flat_map a_vals args) ++ st_vals st) ->
      Jat E (save_with_postproc proto H sv o own (save_reduce proto sv false c args st (Some (KObj o)))) (Tpush 1) [VR o] s.
    Proof.
      intros Ho PR NI AK SU ops s' D EQ. unfold save_with_postproc in EQ. replace (memb o (map fst (post s))) with false in EQ by (symmetry; apply memb_nIn; exact NI).
      unfold seq in EQ at 1. cbn [push_post] in EQ. set (s1 := {| memo := memo s; post := post s ++ [(o, own)] |}) in EQ.
      assert (dom s1 = dom s ++ [o]) as D1 by (unfold dom, s1; cbn [post]; rewrite map_app; reflexivity).
      assert (domok s1) as OK1. { intros x I. rewrite D1 in I. apply in_app_iff in I as [I|[<-|[]]]; [apply D; exact I|eauto]. }
      unfold seq in EQ at 1. destruct (save_reduce proto sv false c args st (Some (KObj o)) s1) as [[l2 s2]|] eqn:E2; [|discriminate].
      destruct (J_save_reduce (fun x => E x \/ x = o) false c args st (Some (KObj o)) AK (or_intror eq_refl) s1 l2 s2 OK1 E2) as ([(k2 & M2) B2 C2 F2] & NS2 & DN2 & R2).
      unfold pop_run in EQ. destruct (get o (post s2)) as [lp|]; [|discriminate]. set (s3 := {| memo := memo s2; post := del o (post s2) |}) in EQ.
      destruct (seqs (exec_pp proto H sv) (rev lp) s3) as [[l3 s4]|] eqn:E3; [|discriminate]. injection EQ as <- <-. cbn [app].
      assert (dom s3 = dom s) as D3. { unfold dom at 1, s3. cbn [post]. apply (del_dom o); [|exact NI]. fold (dom s2). rewrite B2. exact D1. }
      assert (domok s3) as OK3. { intros x I. rewrite D3 in I. apply D. exact I. }
      destruct (J_execs E (rev lp) s3 l3 s4 OK3 E3) as ([(k3 & M3) B3 C3 F3] & NS3 & _ & R3). change (memo s1) with (memo s) in *. change (memo s3) with (memo s2) in *.
      assert (forall v, In v (succs b) -> done v s4) as SD.
      { intros v I. eapply done_mono; [exists k3; exact M3|]. apply DN2. apply in_or_app. right. apply SU. exact I. }
      split; [|split; [|split]].
      - constructor.
        + exists (k2 ++ k3). rewrite M3, M2, app_assoc. reflexivity.
        + rewrite B3. exact D3.
        + intros x bx I N Hx. destruct (inm_dec x s2) as [I2|N2].
          * destruct (C2 x bx I2 N Hx) as [[?| ->]|[[Id Nx]|Q]]; [auto|rewrite Ho in Hx; injection Hx as <-; auto| |].
            -- rewrite D1 in Id. apply in_app_iff in Id as [Id|[<-|[]]]; [auto|rewrite Ho in Hx; injection Hx as <-; auto].
            -- right. right. intros v Iv. eapply done_mono; [exists k3; exact M3|auto].
          * destruct (C3 x bx I N2 Hx) as [?|[[Id Nx]|Q]]; auto. right. left. rewrite D3 in Id. auto.
        + intros x I N Ix NE. destruct (inm_dec x s2) as [I2|N2].
          * apply F2; [exact I2|exact N|rewrite D1; apply in_or_app; left; exact Ix|]. intros [?| ->]; contradiction.
          * apply F3; [exact I|exact N2|rewrite D3; exact Ix|exact NE].
      - rewrite in_app_iff. tauto.
      - intros v [<-|[]]. eapply done_mono; [exists k3; exact M3|]. apply DN2. left. reflexivity.
      - intros m m' S R. rewrite run_app in R. destruct (run l2 m) as [m2|] eqn:Q2; [|discriminate]. destruct (R2 m m2 S Q2) as (S2 & K2 & T2 & N2).
        destruct (R3 m2 m' S2 R) as (S4 & K4 & T4 & N4). assert (length (memo s) <= length (memo s2)) as LE by (rewrite M2, app_length; lia).
        split; [exact S4|]. split; [intros i I; rewrite K4 by lia; apply K2; exact I|]. split; [rewrite T4; exact T2|].
        intros x i Ix NE NIx G. assert (x <> o) as Nx by (intros ->; contradiction). destruct (inm_dec x s2) as [I2|I2].
        + destruct (find_key_some _ _ I2 0) as (j & Fj). assert (i = j) as ->. { unfold memo_get in G. rewrite M3 in G. rewrite (find_key_app _ _ k3 _ _ Fj) in G. injection G as <-. reflexivity. }
          destruct (N2 x j) as (v & V1 & V2); [rewrite D1; apply in_or_app; left; exact Ix|intros [?| ->]; contradiction|exact NIx|exact Fj|].
          exists v. split; [|exact V2]. rewrite K4; [exact V1|]. apply find_key_lt in Fj. lia.
        + apply (N4 x i); [rewrite D3; exact Ix|exact NE|exact I2|exact G].
    Qed.
    Lemma flat_AV vs : flat_map a_vals (map AV vs) = vs.
    Proof. induction vs as [|v vs IH]; [reflexivity|]. cbn. rewrite IH. reflexivity. Qed.
    Lemma J_type E o mt nm bs d q s : H o = Some (OType mt nm bs d q) -> ~ inm o s -> Jat E (save_type_r proto H names sv o mt nm bs d) (Tpush 1) [VR o] s.
    Proof.
      intros Ho NI ops s' D EQ. unfold save_type_r in EQ. destruct (memb o (map fst (post s))) eqn:Mb.
      - apply memb_dom in Mb. destruct (J_global E o s ops s' D Mb NI EQ) as (A & B & C & R). split; [exact A|]. split; [exact B|]. split; [intros v [<-|[]]; exact C|exact R].
      - apply memb_nIn in Mb. eapply J_postproc; [exact Ho|exact I|exact Mb| | |exact D|exact EQ].
        + intros x [<-|[<-|[<-|[<-|[]]]]]; exact I.
        + cbn [succs flat_map a_vals app]. rewrite ?app_nil_r. apply incl_tl. repeat (apply incl_cons; [cbn [In]; auto 6|]). repeat apply incl_tl. apply incl_refl.
    Qed.
    Lemma J_function E o co gl nm de cl st s : H o = Some (OFun co gl nm de cl st) -> ~ inm o s -> Jat E (save_function_r proto H names sv o co gl nm de cl st) (Tpush 1) [VR o] s.
    Proof.
      intros Ho NI ops s' D EQ. unfold save_function_r in EQ. destruct (memb o (map fst (post s))) eqn:Mb.
      - apply memb_dom in Mb. assert (save_global proto names o s = Ok (ops, s')) as EQ'.
        { destruct gl as [a|g mo]; [exact EQ|]. destruct (H g) as [[]|]; try discriminate. destruct (first_in _ _); [discriminate|exact EQ]. }
        destruct (J_global E o s ops s' D Mb NI EQ') as (A & B & C & R). split; [exact A|]. split; [exact B|]. split; [intros v [<-|[]]; exact C|exact R].
      - apply memb_nIn in Mb. unfold save_function in EQ. destruct gl as [a|g mo].
        + eapply J_postproc; [exact Ho|exact I|exact Mb| | |exact D|exact EQ].
          * intros x [<-|[<-|[<-|[<-|[<-|[]]]]]]; exact I.
          * cbn [succs flat_map a_vals app]. repeat (apply incl_cons; [cbn [In]; auto 9|]). repeat apply incl_tl. apply incl_refl.
        + destruct (H g) as [[| |kvs| | | | |]|] eqn:Hg; try discriminate. revert ops s' D EQ.
          set (dest := first_in (map snd kvs) (post s)).
          assert (forall s1, dom s1 = dom s -> Jat E (save_with_postproc proto H sv o (match dest with Some _ => [] | None => [PSetItems o] end)
             (save_reduce proto sv false (g_ GCreateFunction) [AV co; AD (KGlob o) [(sNAME, mo)]; AV nm; AV de; AV cl] st (Some (KObj o)))) (Tpush 1) [VR o] s1) as P.
          { intros s1 D1. eapply J_postproc; [exact Ho|exact I|rewrite D1; exact Mb| |].
            - intros x [<-|[<-|[<-|[<-|[<-|[]]]]]]; exact I.
            - cbn [succs flat_map a_vals kv_vals app fst snd]. repeat (apply incl_cons; [cbn [In]; auto 9|]). repeat apply incl_tl. apply incl_refl. }
          change (Jat E ((match dest with Some e => add_pp e (PSetItems o) | None => emit [] end) ;;
            save_with_postproc proto H sv o (match dest with Some _ => [] | None => [PSetItems o] end)
             (save_reduce proto sv false (g_ GCreateFunction) [AV co; AD (KGlob o) [(sNAME, mo)]; AV nm; AV de; AV cl] st (Some (KObj o)))) (Tpush 1) [VR o] s).
          assert (J E (match dest with Some e => add_pp e (PSetItems o) | None => emit [] end) Tid []) as A1.
          { destruct dest; [apply J_add_pp|]. apply J_emit; [stop|]. intros m m' Q. injection Q as <-. split; reflexivity. }
          intros ops s' D EQ. destruct (Jat_seq E _ _ Tid (Tpush 1) [] [VR o] s (A1 s) (fun s1 D1 _ => P s1 D1) ops s' D EQ) as (X & NS & DN & R).
          split; [exact X|]. split; [exact NS|]. split; [exact DN|]. intros m m' S Rn. destruct (R m m' S Rn) as (Q1 & Q2 & (y & -> & Q3) & Q4). auto.
    Qed.
    Lemma J_set (E : nat -> Prop) o (fz : bool) vs : E o -> J E (save_set proto sv (KObj o) fz vs) (Tpush 1) ([VR o] ++ vs).
    Proof.
      intros K. unfold save_set. destruct (Nat.leb 4 proto); [destruct fz|].
      - eapply J_seq'; [apply J_mark| | |cbn [app]; apply incl_refl].
        + eapply J_seq'; [apply (J_seqs E sv 1 (fun v => [v])); auto| | |].
          * apply (J_memo_get E (KObj o) [] (fun i => [POP_MARK; GET i])); [|eapply J_seq0; [|apply J_memoize; exact K|]].
            -- intros i. apply (J_emit E _ (fun x y => exists v s ms, snd x = s :: ms /\ y = (v :: s, ms))); [stop|].
               intros m m' R. apply run2 in R as (m1 & R1 & R2). assert (run [GET i] m1 = Some m') as G by (cbn [run]; rewrite R2; reflexivity).
               apply get_step in G as (A & B & v & C & D). cbn [step_r step] in R1. unfold pop_mark in R1. destruct (meta m) as [|s ms] eqn:Em; [discriminate|]. injection R1 as <-. cbn in A, B, C, D.
               split; [exact A|]. exists v, s, ms. unfold st2. cbn [fst snd]. rewrite D, B. auto.
            -- apply (J_emit E [FROZENSET] (fun x y => exists v s ms, snd x = s :: ms /\ y = (v :: s, ms))); [stop|]. intros m m' R. apply run1 in R. cbn [step_r step] in R.
               unfold pop_mark in R. destruct (meta m) as [|s ms] eqn:Em; [discriminate|]. injection R as <-. unfold st2, alloc. cbn [mem stk meta fst snd]. split; [reflexivity|]. rewrite Em. do 3 eexists; split; reflexivity.
            -- intros x y z P ->. exact P.
          * instantiate (1 := fun x y => fst x = [] -> exists v s ms, snd x = s :: ms /\ y = (v :: s, ms)). intros x y z (ws & L & A & B) C Q. rewrite <- B. exact C.
          * rewrite flat_single. apply incl_cons; [apply in_app_iff; right; left; reflexivity|apply incl_appl, incl_refl].
        + intros x y z (A & B) C. destruct (C A) as (v & s & ms & C1 & ->). rewrite B in C1. injection C1 as <- <-. exists [v]. cbn [fst snd length app]. auto.
      - eapply J_seq'; [|eapply J_seq'; [apply (J_memoize E (KObj o)); exact K| |apply id_id|apply incl_refl]|apply push_id|].
        + apply J_push; [|stop]. intros m m' R. apply run1 in R. cbn in R. injection R as <-. cbn. split; [reflexivity|]. eexists; split; reflexivity.
        + apply (J_batches E _ _ (fun v => [v])); [intros x; apply (J_many E sv 1 (fun v => [v]) [x]); auto|intros l; apply (J_many E sv 1 (fun v => [v])); auto|lia].
        + cbn [app kdone]. rewrite flat_single. apply incl_refl.
      - eapply J_weak; [apply (J_save_reduce E false _ [AL vs] SNone (Some (KObj o))); [intros x [<-|[]]; exact I|exact K]|auto|auto|].
        cbn [odone kdone flat_map a_vals st_vals app]. rewrite !app_nil_r. apply incl_cons; [left; reflexivity|]. do 2 apply incl_tl. apply incl_refl.
    Qed.
    Lemma J_obj E o b s : H o = Some b -> ~ inm o s -> Jat E (save_obj_r proto H names sv o b) (Tpush 1) [VR o] s.
    Proof.
      intros Ho NI. destruct b as [vs|vs|kvs|nb c args li di st|co gl nm de cl st|mt nm bs d q|c|fz vs]; cbn [save_obj_r save_obj].
      - destruct vs as [|v vs].
        + intros ops s' D EQ. destruct (J_empty_tuple E s ops s' D EQ) as (A & B & _ & R). split; [exact A|]. split; [exact B|]. split; [|exact R]. intros v [<-|[]]. right. exact Ho.
        + assert (J E (save_tuple proto sv (KObj o) (map AV (v :: vs))) (Tpush 1) ([VR o] ++ (v :: vs))) as R.
          { eapply J_close; [exact Ho|exact I|apply incl_appr, incl_refl|]. rewrite <- (flat_AV (v :: vs)) at 2. apply (J_tuple _ (KObj o)); [right; reflexivity| |discriminate].
            intros x Ix. apply in_map_iff in Ix as (w & <- & _). exact I. }
          eapply J_weak; [exact R|auto|auto|apply incl_appl, incl_refl].
      - assert (J E (save_list proto sv (KObj o) vs) (Tpush 1) ([VR o] ++ vs)) as R.
        { eapply J_close; [exact Ho|exact I|apply incl_appr, incl_refl|]. apply (J_list _ (KObj o)). right. reflexivity. }
        eapply J_weak; [exact R|auto|auto|apply incl_appl, incl_refl].
      - assert (J E (save_dict proto sv (KObj o) kvs) (Tpush 1) ([VR o] ++ kv_vals kvs)) as R.
        { eapply J_close; [exact Ho|exact I|apply incl_appr, incl_refl|]. apply (J_dict _ (KObj o)). right. reflexivity. }
        eapply J_weak; [exact R|auto|auto|apply incl_appl, incl_refl].
      - assert (J E (save_instance proto sv nb c (map AV args) li di st (KObj o)) (Tpush 1) ([VR o] ++ (c :: args) ++ li ++ kv_vals di ++ st_vals st)) as R.
        { eapply J_close; [exact Ho|exact I|apply incl_appr; cbn [succs app]; apply incl_refl|]. rewrite <- (flat_AV args) at 2. apply (J_instance _ _ _ _ _ _ _ (KObj o)); [|right; reflexivity].
          intros x Ix. apply in_map_iff in Ix as (w & <- & _). exact I. }
        eapply J_weak; [exact R|auto|auto|apply incl_appl, incl_refl].
      - eapply J_function; eassumption.
      - eapply J_type; eassumption.
      - assert (J E (save_cell proto sv o c) (Tpush 1) [VR o]) as R; [|exact (R s)]. eapply J_close; [exact Ho|exact I|apply incl_nil_l|apply J_cell].
      - assert (J E (save_set proto sv (KObj o) fz vs) (Tpush 1) ([VR o] ++ vs)) as R.
        { eapply J_close; [exact Ho|exact I|apply incl_appr, incl_refl|]. apply J_set. right. reflexivity. }
        eapply J_weak; [exact R|auto|auto|apply incl_appl, incl_refl].
    Qed.
    Lemma J_val E v : J E (save_val_r proto H names sv v) (Tpush 1) [v].
    Proof.
      intros s ops s' D EQ. unfold save_val_r in EQ. destruct v as [a i|o].
      - destruct (J_atom E a i s ops s' D EQ) as (A & B & _ & R). split; [exact A|]. split; [exact B|]. split; [intros v [<-|[]]; exact I|exact R].
      - destruct (memo_get (KObj o) s) as [n|] eqn:G.
        + destruct (J_get E n s ops s' D EQ) as (A & B & _ & R). split; [exact A|]. split; [exact B|]. split; [|exact R]. intros v [<-|[]]. injection EQ as _ <-. left. eapply find_key_in. exact G.
        + destruct (H o) as [b|] eqn:Ho; [|discriminate]. apply (J_obj E o b s Ho); [|exact D|exact EQ]. intros I. destruct (find_key_some _ _ I 0) as (j & F). unfold memo_get in G. congruence.
    Qed.
  End Save.
  Theorem J_save : forall fuel E v, J E (save_r proto H names fuel v) (Tpush 1) [v].
  Proof. induction fuel as [|fuel IH]; intros E v; [apply J_fail|]. apply J_val. exact IH. Qed.
End Proofs.
