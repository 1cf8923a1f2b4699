(** C115: from protocol 4 on, every list and every set is written once, however often it is referred to; and loading creates no other lists. *)
From Coq Require Import String List Bool Arith NArith ZArith Lia.
From Verif Require Import PyDict CoreModel CoreSpec CoreSim CoreReach CoreMain CoreProps.
Import ListNotations.

(** ** Specification *)
Definition count {A} (p : A -> bool) (l : list A) : nat := List.length (filter p l).
Definition a_list (b : obj) : bool := match b with OList _ => true | _ => false end.
Definition a_set (b : obj) : bool := match b with OSet false _ => true | _ => false end.
(** the opcodes that create an empty list, an empty set *)
Definition is_empty_list (o : op) : bool := match o with EMPTY_LIST => true | _ => false end.
Definition is_empty_set (o : op) : bool := match o with EMPTY_SET => true | _ => false end.
(** an instance made by cls.__new__(cls, ...), as are all with the default __reduce_ex__; the opcode that makes one *)
Definition a_new (b : obj) : bool := match b with ORed true _ _ _ _ _ => true | _ => false end.
Definition is_newobj (o : op) : bool := match o with NEWOBJ => true | _ => false end.
(** no such instance is reached from its class or the arguments for its creation *)
Definition made_before (H : oid -> option obj) : Prop :=
  forall o c args li di st, H o = Some (ORed true c args li di st) -> forall v, In v (c :: args) -> ~ reach H v o.
(** [D]: the objects of a kind reached from [v], each once *)
Definition all_of (p : obj -> bool) (H : oid -> option obj) (v : val) (D : list oid) : Prop :=
  NoDup D /\ forall o, In o D <-> reach H v o /\ exists b, H o = Some b /\ p b = true.

(** ** Proof *)
Definition objs (m : list key) : list oid := flat_map (fun k => match k with KObj o => [o] | _ => [] end) m.
Lemma count_app {A} (p : A -> bool) a b : count p (a ++ b) = count p a + count p b.
Proof. unfold count. rewrite filter_app, app_length. reflexivity. Qed.
Lemma objs_app a b : objs (a ++ b) = (objs a ++ objs b)%list.
Proof. apply flat_map_app. Qed.
Lemma find_none k l : forall i, find_key k l i = None -> ~ In k l.
Proof. induction l as [|k' l IH]; intros i; cbn; [auto|]. destruct (key_eq_dec k k'); [discriminate|]. intros E [->|J]; [congruence|exact (IH _ E J)]. Qed.
Lemma find_in k l : forall i n, find_key k l i = Some n -> In k l.
Proof. induction l as [|k' l IH]; intros i n; cbn [find_key]; [discriminate|]. destruct (key_eq_dec k k') as [<-|]; [intros _; now left|]. intros E. right. eapply IH; eauto. Qed.
Lemma in_objs o m : In o (objs m) <-> In (KObj o) m.
Proof.
  unfold objs. rewrite in_flat_map. split.
  - intros (k & J & E). destruct k; cbn in E; try contradiction. destruct E as [->|[]]. exact J.
  - intros J. exists (KObj o). split; [exact J|now left].
Qed.
Lemma unmemoed o s : memo_get (KObj o) s = None -> ~ In o (objs (memo s)).
Proof. unfold memo_get. intros E J. apply in_objs in J. exact (find_none _ _ _ E J). Qed.

Section Once.
  Variable proto : nat.
  Variable H : oid -> option obj.
  Hypothesis P4 : 4 <= proto.
  Variable mk : op -> bool.
  Variable sel : obj -> bool.
  (** the kind is that of lists, of sets, or of instances *)
  Hypothesis kind : (mk = is_empty_list /\ sel = a_list) \/ (mk = is_empty_set /\ sel = a_set) \/ (mk = is_newobj /\ sel = a_new /\ made_before H).

  Definition sel_oid (o : oid) : bool := match H o with Some b => sel b | None => false end.
  Definition L (m : list key) : nat := count sel_oid (objs m).
  Definition is_LIST (o : op) : bool := match o with LIST => true | _ => false end.
  (** an action writes as many creations as it memoizes objects of the kind, and no object twice *)
  Definition T (a : act) : Prop := forall s l s', a s = Ok (l, s') -> NoDup (objs (memo s)) ->
    NoDup (objs (memo s')) /\ count mk l + L (memo s) = L (memo s') /\ count is_LIST l = 0.

  Lemma b4 : Nat.leb 4 proto = true. Proof. apply Nat.leb_le. lia. Qed.
  Lemma b2 : Nat.leb 2 proto = true. Proof. apply Nat.leb_le. lia. Qed.
  Lemma b1 : bin proto = true. Proof. apply Nat.leb_le. lia. Qed.
  Lemma T_emit l : count mk l = 0 -> count is_LIST l = 0 -> T (emit l).
  Proof. intros A B s x s' [= <- <-] N. rewrite A. auto. Qed.
  Lemma T_fail e : T (fail e).
  Proof. intros s x s'. discriminate. Qed.
  Lemma T_seq a b : T a -> T b -> T (seq a b).
  Proof.
    intros A B s l s' E N. unfold seq in E. destruct (a s) as [[l1 s1]|] eqn:E1; [|discriminate]. destruct (b s1) as [[l2 s2]|] eqn:E2; [|discriminate].
    injection E as <- <-. destruct (A _ _ _ E1 N) as (N1 & C1 & Z1). destruct (B _ _ _ E2 N1) as (N2 & C2 & Z2). rewrite !count_app. repeat split; auto; lia.
  Qed.
  Lemma T_seqs {A} (f : A -> act) l : (forall x, T (f x)) -> T (seqs f l).
  Proof. intros F. induction l as [|x l IH]; cbn [seqs]; [apply T_emit; reflexivity|]. apply T_seq; auto. Qed.
  Lemma T_batches {A} (one : A -> act) many : (forall x, T (one x)) -> (forall l, T (many l)) -> forall n l, T (batches one many n l).
  Proof.
    intros O M. induction n as [|n IH]; intros l; [apply T_emit; reflexivity|]. unfold batches; fold (@batches A one many). apply T_seq.
    - destruct (firstn BATCHSIZE l) as [|x [|y r]]; [apply T_emit; reflexivity|apply O|apply M].
    - destruct (Nat.ltb _ _); [apply T_emit; reflexivity|apply IH].
  Qed.
  Lemma mk0 : mk MEMOIZE = false /\ (forall n, mk (GET n) = false) /\ mk POP = false /\ mk POP_MARK = false /\ mk MARK = false /\ mk TUPLE = false /\ (forall n, mk (TUPLEN n) = false) /\ mk FROZENSET = false /\
    mk EMPTY_DICT = false /\ mk EMPTY_TUPLE = false /\ mk APPEND = false /\ mk APPENDS = false /\ mk SETITEM = false /\ mk SETITEMS = false /\ mk REDUCE = false /\ mk BUILD = false /\ mk ADDITEMS = false /\ (forall a, mk (CONST a) = false).
  Proof. destruct kind as [[-> _]|[[-> _]|[-> _]]]; repeat split. Qed.
  Ltac z := unfold count; cbn [filter app]; destruct mk0 as (? & ? & ? & ? & ? & ? & ? & ? & ? & ? & ? & ? & ? & ? & ? & ? & ? & ?);
            repeat match goal with X : _ = false |- _ => rewrite !X | X : forall _, _ = false |- _ => rewrite !X end; reflexivity.
  Ltac te := apply T_emit; z.
  Lemma T_memo k : (forall o, k <> KObj o) -> T (memoize proto k).
  Proof.
    intros K s l s' E N. unfold memoize in E. rewrite b4 in E. injection E as <- <-. cbn [memo]. unfold L. rewrite objs_app.
    assert (X : objs [k] = []) by (destruct k; try reflexivity; exfalso; eapply K; reflexivity). rewrite X, app_nil_r. split; [exact N|]. split; z.
  Qed.
  (** an object of another kind is memoized when it is not in the memo *)
  Lemma memo_other o s l s' : ~ In o (objs (memo s)) -> sel_oid o = false -> memoize proto (KObj o) s = Ok (l, s') -> NoDup (objs (memo s)) ->
    NoDup (objs (memo s')) /\ count mk l + L (memo s) = L (memo s') /\ count is_LIST l = 0.
  Proof.
    intros I0 F E N. unfold memoize in E. rewrite b4 in E. injection E as <- <-. cbn [memo]. unfold L. rewrite objs_app, count_app. cbn [objs flat_map app]. split.
    - apply NoDup_snoc; auto.
    - split; [|z]. unfold count at 4. cbn [filter]. rewrite F. cbn [List.length]. rewrite Nat.add_0_r. replace (count mk [MEMOIZE]) with 0 by (symmetry; z). reflexivity.
  Qed.
  (** keys that are not those of an object of the kind *)
  Definition plain (k : key) : Prop := forall o, k = KObj o -> sel_oid o = false.
  Lemma memo_new k s l s' : plain k -> memo_get k s = None -> memoize proto k s = Ok (l, s') -> NoDup (objs (memo s)) ->
    NoDup (objs (memo s')) /\ count mk l + L (memo s) = L (memo s') /\ count is_LIST l = 0.
  Proof.
    intros K G E N. destruct k as [o|a i|f|].
    - eapply memo_other; eauto. now apply unmemoed.
    - eapply T_memo; eauto. discriminate.
    - eapply T_memo; eauto. discriminate.
    - eapply T_memo; eauto. discriminate.
  Qed.
  Lemma T_checked k pre (found : nat -> list op) : plain k -> count mk pre = 0 -> count is_LIST pre = 0 -> (forall i, count mk (found i) = 0 /\ count is_LIST (found i) = 0) ->
    T (fun s => match memo_get k s with Some i => Ok (found i, s) | None => (emit pre ;; memoize proto k) s end).
  Proof.
    intros K Z1 Z2 F s l s' E N. destruct (memo_get k s) as [i|] eqn:G.
    - injection E as <- <-. destruct (F i) as [-> ->]. auto.
    - unfold seq, emit in E. destruct (memoize proto k s) as [[l2 s2]|] eqn:E2; [|discriminate]. injection E as <- <-.
      destruct (memo_new k s l2 s2 K G E2 N) as (N' & C & Z). rewrite !count_app, Z1, Z2. auto.
  Qed.

  Section Sv.
    Variable sv : val -> act.
    Hypothesis SV : forall v, T (sv v).
    Hypothesis SN : sv_new H sv.
    Lemma T_kv p : T (save_kv sv p).
    Proof. apply T_seq; apply SV. Qed.
    Lemma T_setitems kvs : T (batch_setitems proto sv kvs).
    Proof.
      unfold batch_setitems. rewrite b1. apply T_batches.
      - intros x. apply T_seq; [apply T_kv|te].
      - intros l. apply T_seq; [te|]. apply T_seq; [apply T_seqs, T_kv|te].
    Qed.
    Lemma T_appends vs : T (batch_appends proto sv vs).
    Proof.
      unfold batch_appends. rewrite b1. apply T_batches.
      - intros x. apply T_seq; [apply SV|te].
      - intros l. apply T_seq; [te|]. apply T_seq; [apply T_seqs, SV|te].
    Qed.
    (** a dictionary; its key is not in the memo *)
    Lemma T_dict_key k kvs s l s' : plain k -> memo_get k s = None -> save_dict proto sv k kvs s = Ok (l, s') -> NoDup (objs (memo s)) ->
      NoDup (objs (memo s')) /\ count mk l + L (memo s) = L (memo s') /\ count is_LIST l = 0.
    Proof.
      intros K G E N. unfold save_dict in E. rewrite b1 in E. unfold seq at 1, emit at 1 in E. unfold seq at 1 in E.
      destruct (memoize proto k s) as [[l1 s1]|] eqn:E1; [|discriminate]. destruct (batch_setitems proto sv kvs s1) as [[l2 s2]|] eqn:E2; [|discriminate]. injection E as <- <-.
      destruct (memo_new k s l1 s1 K G E1 N) as (N1 & C1 & Z1). destruct (T_setitems kvs s1 l2 s2 E2 N1) as (N2 & C2 & Z2).
      change (EMPTY_DICT :: l1 ++ l2) with ([EMPTY_DICT] ++ l1 ++ l2). rewrite !count_app. replace (count mk [EMPTY_DICT]) with 0 by (symmetry; z). replace (count is_LIST [EMPTY_DICT]) with 0 by reflexivity.
      split; [exact N2|]. split; lia.
    Qed.
    Lemma T_dict k kvs : (forall o, k <> KObj o) -> T (save_dict proto sv k kvs).
    Proof.
      intros K. unfold save_dict. apply T_seq; [rewrite b1; te|]. apply T_seq; [apply T_memo, K|apply T_setitems].
    Qed.
    (** the temporaries that are arguments *)
    Definition Targ (x : arg) : Prop := match x with AV _ => True | AD k _ => forall o, k <> KObj o | AL _ => False end.
    Lemma T_arg x : Targ x -> T (save_arg proto sv x).
    Proof. destruct x; cbn; [intros _; apply SV|apply T_dict|intros []]. Qed.
    Lemma T_args xs : (forall x, In x xs -> Targ x) -> T (seqs (save_arg proto sv) xs).
    Proof.
      induction xs as [|x xs IH]; intros A; cbn [seqs]; [te|]. apply T_seq; [apply T_arg, A; now left|apply IH; intros; apply A; now right].
    Qed.
    Lemma pops n : count mk (repeat POP n) = 0 /\ count is_LIST (repeat POP n) = 0.
    Proof.
      assert (X : mk POP = false) by apply mk0. induction n as [|n [A B]]; [auto|]. cbn [repeat]. unfold count in *. cbn [filter]. rewrite X. auto.
    Qed.
    Lemma T_tuple k xs : plain k -> (forall x, In x xs -> Targ x) -> T (save_tuple proto sv k xs).
    Proof.
      intros K A. unfold save_tuple. destruct xs as [|x xs]; [unfold empty_tuple; rewrite b1; te|]. cbv zeta.
      destruct (Nat.leb (List.length (x :: xs)) 3 && Nat.leb 2 proto).
      - apply T_seq; [apply T_args, A|]. apply (T_checked k [TUPLEN (List.length (x :: xs))] (fun i => repeat POP (List.length (x :: xs)) ++ [GET i])); [exact K|z|z|].
        intros i. rewrite !count_app. destruct (pops (List.length (x :: xs))) as [-> ->]. split; z.
      - apply T_seq; [te|]. apply T_seq; [apply T_args, A|].
        apply (T_checked k [TUPLE] (fun i => (if bin proto then [POP_MARK] else repeat POP (S (List.length (x :: xs)))) ++ [GET i])); [exact K|z|z|]. rewrite b1. intros i. split; z.
    Qed.
    Lemma anon : plain KAnon. Proof. intros o. discriminate. Qed.
    Lemma T_state st : T (save_state proto sv st).
    Proof.
      destruct st as [|v|d [sl|]]; unfold save_state; [te| | |].
      - apply T_seq; [apply SV|te].
      - apply T_seq; [|te]. apply T_tuple; [apply anon|]. intros x [<-|[<-|[]]]; cbn; discriminate.
      - apply T_seq; [|te]. apply T_dict. discriminate.
    Qed.
    Lemma T_call c xs : (forall x, In x xs -> Targ x) -> T (red_call proto sv false c xs).
    Proof.
      intros A. unfold red_call. (apply T_seq; [apply SV|]; apply T_seq; [apply T_tuple; [apply anon|exact A]|te]).
    Qed.
    Lemma T_redmemo k : plain k -> T (red_memo proto (Some k)).
    Proof.
      intros K s l s' E N. unfold red_memo in E. destruct (memo_get k s) as [i|] eqn:G.
      - injection E as <- <-. split; [exact N|]. split; z.
      - eapply memo_new; eauto.
    Qed.
    Lemma T_reduce c xs st ok : (forall x, In x xs -> Targ x) -> (forall k, ok = Some k -> plain k) -> T (save_reduce proto sv false c xs st ok).
    Proof.
      intros A K. unfold save_reduce. apply T_seq; [apply T_call, A|]. apply T_seq; [|apply T_state]. destruct ok as [k|]; [apply T_redmemo, K; reflexivity|te].
    Qed.
    Lemma T_exec p : T (exec_pp proto H sv p).
    Proof.
      destruct p as [c|f|t]; unfold exec_pp.
      - destruct (H c) as [[]|]; try apply T_fail. destruct contents as [v|]; [|apply T_fail]. apply T_seq; [|te]. apply T_reduce; [|discriminate]. intros x [<-|[<-|[<-|[]]]]; exact I.
      - destruct (glob_items H f) as [[|p ps]|]; [te| |apply T_fail]. intros s l s' E N. destruct (memo_get (KGlob f) s); [|discriminate].
        revert E N. apply T_seq; [te|]. apply T_seq; [apply T_setitems|te].
      - destruct (H t) as [[]|]; try apply T_fail. apply T_seq; [|te]. apply T_reduce; [|discriminate]. intros x [<-|[<-|[<-|[]]]]; exact I.
    Qed.
    Lemma T_post o own red : T red -> T (save_with_postproc proto H sv o own red).
    Proof.
      intros R s l s' E N. unfold save_with_postproc in E. destruct (memb o (map fst (post s))); [discriminate|]. revert s l s' E N. apply T_seq.
      - intros s l s' [= <- <-] N. cbn [memo]. auto.
      - apply T_seq; [exact R|]. intros s l s' E N. unfold pop_run in E. destruct (get o (post s)) as [ps|]; [|discriminate].
        exact (T_seqs (exec_pp proto H sv) (rev ps) T_exec _ _ _ E N).
    Qed.
    Lemma T_addpp e p : T (add_pp e p).
    Proof. intros s l s' [= <- <-] N. cbn [memo]. auto. Qed.

    Lemma sel_other o b : H o = Some b -> a_list b = false -> a_set b = false -> a_new b = false -> plain (KObj o).
    Proof. intros Ho A B C x [= <-]. unfold sel_oid. rewrite Ho. destruct kind as [[_ ->]|[[_ ->]|[_ [-> _]]]]; auto. Qed.
    (** a list or set: created, memoized at once, filled *)
    Lemma T_first o b c a s l s' : H o = Some b -> ~ In o (objs (memo s)) -> is_empty_list c = a_list b /\ is_empty_set c = a_set b /\ is_newobj c = a_new b /\ is_LIST c = false -> T a ->
      (emit [c] ;; memoize proto (KObj o) ;; a) s = Ok (l, s') -> NoDup (objs (memo s)) ->
      NoDup (objs (memo s')) /\ count mk l + L (memo s) = L (memo s') /\ count is_LIST l = 0.
    Proof.
      intros Ho U (K1 & K2 & K4 & K3) A E N. unfold seq at 1, emit at 1 in E. unfold seq at 1, memoize at 1 in E. rewrite b4 in E.
      destruct (a _) as [[l2 s2]|] eqn:E2; [|discriminate]. injection E as <- <-. assert (M : mk c = sel_oid o).
      { unfold sel_oid. rewrite Ho. destruct kind as [[-> ->]|[[-> ->]|[-> [-> _]]]]; auto. }
      destruct (A _ _ _ E2) as (N2 & C2 & Z2); cbn [memo] in *.
      - rewrite objs_app. cbn [objs flat_map app]. apply NoDup_snoc; auto.
      - unfold L at 1 in C2. rewrite objs_app, count_app in C2. cbn [objs flat_map app] in C2. unfold count at 3 in C2. cbn [filter] in C2.
        change (c :: MEMOIZE :: l2) with ([c] ++ [MEMOIZE] ++ l2). rewrite !count_app, Z2. replace (count mk [MEMOIZE]) with 0 by (symmetry; z). replace (count is_LIST [MEMOIZE]) with 0 by reflexivity.
        replace (count is_LIST [c]) with 0 by (unfold count; cbn [filter]; rewrite K3; reflexivity). replace (count mk [c]) with (List.length (if sel_oid o then [o] else [])) by (unfold count; cbn [filter]; rewrite M; destruct (sel_oid o); reflexivity). split; [exact N2|]. split; [|reflexivity]. unfold L. destruct (sel_oid o); cbn [List.length] in *; unfold L in *; lia.
    Qed.
    (** an instance: created after its class and arguments are saved *)
    Lemma T_new o c args li di st s l s' : H o = Some (ORed true c args li di st) -> ~ In o (objs (memo s)) ->
      save_instance proto sv true c (map AV args) li di st (KObj o) s = Ok (l, s') -> NoDup (objs (memo s)) ->
      NoDup (objs (memo s')) /\ count mk l + L (memo s) = L (memo s') /\ count is_LIST l = 0.
    Proof.
      intros Ho U E N. set (pre := sv c ;; save_tuple proto sv KAnon (map AV args)).
      set (fin := batch_appends proto sv li ;; batch_setitems proto sv di ;; save_state proto sv st).
      assert (Tp : T pre) by (apply T_seq; [apply SV|apply T_tuple; [apply anon|intros x J; apply in_map_iff in J as (v & <- & _); exact I]]).
      assert (Tf : T fin) by (apply T_seq; [apply T_appends|apply T_seq; [apply T_setitems|apply T_state]]).
      assert (E' : exists l1 s1 l3 s3 l4, pre s = Ok (l1, s1) /\ red_memo proto (Some (KObj o)) s1 = Ok (l3, s3) /\ fin s3 = Ok (l4, s') /\ l = (l1 ++ [NEWOBJ] ++ l3 ++ l4)%list).
      { unfold save_instance, red_call in E. rewrite b2 in E. unfold pre, fin. revert E. unfold seq at 1 2 3, emit. unfold seq at 4.
        destruct (sv c s) as [[x1 y1]|]; [|discriminate]. destruct (save_tuple proto sv KAnon (map AV args) y1) as [[x2 y2]|]; [|discriminate].
        unfold seq at 1. destruct (red_memo proto (Some (KObj o)) y2) as [[x3 y3]|] eqn:R; [|discriminate].
        destruct ((batch_appends proto sv li;; batch_setitems proto sv di;; save_state proto sv st) y3) as [[x4 y4]|] eqn:F; [|discriminate].
        intros [= <- <-]. exists (x1 ++ x2)%list, y2, x3, y3, x4. repeat split; auto. rewrite <- !app_assoc. reflexivity. }
      clear E. destruct E' as (l1 & s1 & l3 & s3 & l4 & E1 & E3 & E4 & ->). destruct (Tp _ _ _ E1 N) as (N1 & C1 & Z1).
      assert (M : NoDup (objs (memo s3)) /\ count mk ([NEWOBJ] ++ l3) + L (memo s1) = L (memo s3) /\ count is_LIST l3 = 0).
      { destruct kind as [[Em Es]|[[Em Es]|(Em & Es & Mb)]].
        - assert (K : plain (KObj o)) by (intros x [= <-]; unfold sel_oid; rewrite Ho, Es; reflexivity). destruct (T_redmemo (KObj o) K _ _ _ E3 N1) as (A & B & C).
          split; [exact A|]. split; [|exact C]. rewrite count_app, <- B, Em. reflexivity.
        - assert (K : plain (KObj o)) by (intros x [= <-]; unfold sel_oid; rewrite Ho, Es; reflexivity). destruct (T_redmemo (KObj o) K _ _ _ E3 N1) as (A & B & C).
          split; [exact A|]. split; [|exact C]. rewrite count_app, <- B, Em. reflexivity.
        - assert (Nw : ~ In o (objs (memo s1))).
          { set (V := fun o' => exists v, In v (c :: args) /\ reach H v o').
            assert (SVV : forall w, In w (c :: args) -> nw V (sv w)).
            { intros w Hw. eapply nw_mono; [|apply SN]. intros o' Ro. exists w. auto. }
            assert (Np : nw V (sv c ;; save_tuple proto sv KAnon (map AV args) ;; emit [NEWOBJ])).
            { assert (X : nw V (red_call proto sv true c (map AV args))); [|unfold red_call in X; rewrite b2 in X; exact X].
              assert (SV2 : forall w, VV V w -> nw V (sv w)).
              { intros w Hw. eapply nw_mono; [|apply SN]. intros o' Ro. destruct w as [|o1]; [inversion Ro|]. destruct Hw as (v & Hv & Rv). exists v. split; auto. eapply reach_trans; eauto. }
              assert (HV : forall w, In w (c :: args) -> VV V w).
              { intros [a0 i0|o1] Hw; cbn; auto. exists (VR o1). split; auto. constructor. }
              apply nw_call; [exact SV2|apply HV; left; auto|]. intros x Hx. apply in_map_iff in Hx as (w & <- & Hw). cbn. apply HV. right; auto. }
            assert (E1' : (sv c ;; save_tuple proto sv KAnon (map AV args) ;; emit [NEWOBJ]) s = Ok ((l1 ++ [NEWOBJ])%list, s1)).
            { unfold pre in E1. revert E1. unfold seq, emit. destruct (sv c s) as [[x1 y1]|]; [|discriminate]. destruct (save_tuple proto sv KAnon (map AV args) y1) as [[x2 y2]|]; [|discriminate].
              intros [= <- <-]. rewrite app_assoc. reflexivity. }
            destruct (Np _ _ _ E1') as (Gm & _). intros J. apply in_objs in J. destruct (Gm _ J) as [J0|(v & Hv & Rv)].
            - apply U, in_objs, J0.
            - exact (Mb o c args li di st Ho v Hv Rv). }
          unfold red_memo in E3. destruct (memo_get (KObj o) s1) as [i|] eqn:G.
          + exfalso. apply Nw, in_objs. exact (find_in _ _ _ _ G).
          + unfold memoize in E3. rewrite b4 in E3. injection E3 as <- <-. cbn [memo]. split; [|split; [|reflexivity]].
            * rewrite objs_app. cbn [objs flat_map app]. apply NoDup_snoc; auto.
            * unfold L. rewrite objs_app, (count_app sel_oid). cbn [objs flat_map app]. replace (count sel_oid [o]) with 1 by (unfold count; cbn [filter]; unfold sel_oid; rewrite Ho, Es; reflexivity).
              rewrite Em. unfold count at 1. cbn [filter is_newobj List.length]. lia. }
      destruct M as (N3 & C3 & Z3). destruct (Tf _ _ _ E4 N3) as (N4 & C4 & Z4). split; [exact N4|]. rewrite !count_app in *. rewrite Z1, Z3, Z4. split; [lia|reflexivity].
    Qed.
    Lemma T_obj o b s l s' : H o = Some b -> memo_get (KObj o) s = None -> save_obj proto H sv o b s = Ok (l, s') -> NoDup (objs (memo s)) ->
      NoDup (objs (memo s')) /\ count mk l + L (memo s) = L (memo s') /\ count is_LIST l = 0.
    Proof.
      intros Ho G. assert (U := unmemoed o s G). destruct b as [vs|vs|kvs|nb c args li di st|co gl nm de cl st|mt nm bs d q|ct|fz vs]; cbn [save_obj].
      - assert (K := sel_other o _ Ho eq_refl eq_refl eq_refl). revert s l s' G U. intros s l s' _ _. revert s l s'. apply T_tuple; [exact K|]. intros x J. apply in_map_iff in J as (v & <- & _). exact I.
      - intros E N. unfold save_list in E. rewrite b1 in E. exact (T_first o _ EMPTY_LIST _ _ _ _ Ho U (conj eq_refl (conj eq_refl (conj eq_refl eq_refl))) (T_appends vs) E N).
      - assert (K := sel_other o _ Ho eq_refl eq_refl eq_refl). intros E N. eapply T_dict_key; eauto.
      - destruct nb; [intros E N; exact (T_new o c args li di st s l s' Ho U E N)|].
        assert (K := sel_other o _ Ho eq_refl eq_refl eq_refl). revert s l s' G U. intros s l s' _ _. revert s l s'. unfold save_instance.
        apply T_seq; [apply T_call; intros x J; apply in_map_iff in J as (v & <- & _); exact I|]. apply T_seq; [apply T_redmemo, K|]. apply T_seq; [apply T_appends|]. apply T_seq; [apply T_setitems|apply T_state].
      - assert (K := sel_other o _ Ho eq_refl eq_refl eq_refl). clear G U. revert s l s'. unfold save_function. destruct gl as [a|g m].
        + apply T_post, T_reduce; [|intros k [= <-]; exact K]. intros x [<-|[<-|[<-|[<-|[<-|[]]]]]]; exact I.
        + destruct (H g) as [[]|]; try apply T_fail. intros s l s'. revert s l s'. intros s. generalize (first_in (map snd kvs) (post s)). intros dest. revert s. apply T_seq.
          * destruct dest; [apply T_addpp|te].
          * apply T_post, T_reduce; [|intros k [= <-]; exact K]. intros x [<-|[<-|[<-|[<-|[<-|[]]]]]]; try exact I. cbn. discriminate.
      - assert (K := sel_other o _ Ho eq_refl eq_refl eq_refl). clear G U. revert s l s'. unfold save_type. apply T_post, T_reduce; [|intros k [= <-]; exact K].
        intros x [<-|[<-|[<-|[<-|[]]]]]; try exact I. cbn. discriminate.
      - assert (K := sel_other o _ Ho eq_refl eq_refl eq_refl). clear G U. intros E. unfold save_cell in E. destruct ct as [v|].
        + cbv zeta in E. match type of E with (match ?D with Some _ => _ | None => _ end) = _ => destruct D as [e|] end.
          * revert E. apply T_seq; [|apply T_addpp]. apply T_reduce; [|intros k [= <-]; exact K]. intros x [<-|[]]; exact I.
          * revert E. apply T_reduce; [|intros k [= <-]; exact K]. intros x [<-|[]]; exact I.
        + revert E. apply T_seq; [apply T_reduce; [|intros k [= <-]; exact K]; intros x [<-|[]]; exact I|]. apply T_seq; [|te]. apply T_reduce; [|discriminate]. intros x [<-|[<-|[]]]; exact I.
      - intros E N. unfold save_set in E. rewrite b4 in E. destruct fz.
        + assert (K := sel_other o _ Ho eq_refl eq_refl eq_refl). revert E N. apply T_seq; [te|]. apply T_seq; [apply T_seqs, SV|].
          apply (T_checked (KObj o) [FROZENSET] (fun i => [POP_MARK; GET i])); [exact K|z|z|]. intros i. split; z.
        + refine (T_first o _ EMPTY_SET _ _ _ _ Ho U (conj eq_refl (conj eq_refl (conj eq_refl eq_refl))) (T_batches _ _ _ _ _ _) E N).
          * intros v. apply T_seq; [te|]. apply T_seq; [apply T_seqs, SV|te].
          * intros v. apply T_seq; [te|]. apply T_seq; [apply T_seqs, SV|te].
    Qed.
    Lemma T_val v : T (save_val proto H sv v).
    Proof.
      intros s l s' E N. destruct v as [a i|o]; cbn [save_val] in E.
      - assert (A : T (save_atom proto a i)); [|exact (A _ _ _ E N)]. clear E N s l s'. unfold save_atom. intros s l s' E N.
        assert (B : (if memoized a then match memo_get (KAtom a i) s with Some n => Ok ([GET n], s) | None => (emit [CONST a] ;; memoize proto (KAtom a i)) s end else Ok ([CONST a], s)) = Ok (l, s') ->
                    NoDup (objs (memo s')) /\ count mk l + L (memo s) = L (memo s') /\ count is_LIST l = 0).
        { destruct (memoized a).
          - intros E'. revert E' N. apply (T_checked (KAtom a i) [CONST a] (fun n => [GET n])); [intros o; discriminate|z|z|]. intros n. split; z.
          - intros [= <- <-]. split; [exact N|]. split; z. }
        destruct a; try (apply B; exact E). revert E N. unfold empty_tuple. rewrite b1. te.
      - destruct (memo_get (KObj o) s) as [n|] eqn:G.
        + injection E as <- <-. split; [exact N|]. split; z.
        + destruct (H o) as [b|] eqn:Ho; [|discriminate]. exact (T_obj o b s l s' Ho G E N).
    Qed.
  End Sv.
  Lemma T_save n : forall v, T (save proto H n v).
  Proof. induction n as [|n IH]; intros v; cbn [save]; [apply T_fail|]. apply T_val; [exact IH|apply save_new]. Qed.
  (** what dumps writes *)
  Lemma dumps_counts fuel v ops D : dumps proto H fuel v = Ok ops -> all_of sel H v D -> count mk ops <= List.length D /\ count is_LIST ops = 0.
  Proof.
    intros E [ND A]. unfold dumps, dump in E. rewrite b2 in E. destruct (save proto H fuel v {| memo := []; post := [] |}) as [[l s']|] eqn:E1; [|discriminate]. injection E as <-.
    destruct (T_save fuel v _ _ _ E1) as (N & C & Z); [constructor|]. cbn [memo L objs flat_map] in C.
    assert (X : L [] = 0) by reflexivity. rewrite X, Nat.add_0_r in C. change (PROTO proto :: l ++ [STOP]) with ([PROTO proto] ++ l ++ [STOP]). rewrite !count_app, Z, C.
    assert (Y : count mk [PROTO proto] = 0 /\ count mk [STOP] = 0) by (destruct kind as [[-> _]|[[-> _]|[-> _]]]; split; reflexivity). destruct Y as [-> ->].
    split; [|reflexivity]. cbn [Nat.add]. rewrite Nat.add_0_r. unfold L, count. apply NoDup_incl_length; [apply NoDup_filter, N|].
    intros o J. apply filter_In in J as [J0 J]. apply A. split.
    { destruct (save_new proto H fuel v _ _ _ E1) as (Gm & _). apply in_objs in J0. destruct (Gm _ J0) as [[]|Rc]. exact Rc. }
    unfold sel_oid in J. destruct (H o) as [b|]; [eauto|discriminate].
  Qed.
End Once.

Lemma count_upd p h : forall a b0 (b : obj), nth_error h a = Some b0 -> p b = p b0 -> count p (upd h a b) = count p h.
Proof.
  unfold count. induction h as [|x h IH]; intros [|a] b0 b E S; cbn in E; try discriminate; cbn [upd filter].
  - injection E as ->. rewrite S. destruct (p b0); reflexivity.
  - specialize (IH a b0 b E S). destruct (p x); cbn [List.length]; congruence.
Qed.
Lemma count_alloc h (b : obj) : count a_list (h ++ [b]) = count a_list h + if a_list b then 1 else 0.
Proof. rewrite count_app. unfold count at 2. cbn [filter]. destruct (a_list b); reflexivity. Qed.
Lemma pop_heap m vs m' : pop_mark m = Some (vs, m') -> heap m' = heap m.
Proof. unfold pop_mark. destruct (meta m); [discriminate|]. intros [= <- <-]. reflexivity. Qed.
Lemma tuple_heap vs m : count a_list (heap (make_tuple vs m)) = count a_list (heap m).
Proof. unfold make_tuple. destruct vs; [reflexivity|]. cbn [alloc heap]. rewrite count_alloc. cbn [a_list]. lia. Qed.
Lemma extend_kind b vs b' : extend (Some b) vs = Some b' -> a_list b' = a_list b.
Proof. destruct b; try discriminate; intros [= <-]; reflexivity. Qed.
Lemma setall_kind b vs b' : set_all (Some b) vs = Some b' -> a_list b' = a_list b.
Proof. destruct b; try discriminate; intros [= <-]; reflexivity. Qed.
Lemma call_heap f args m m' : call f args m = Some m' -> count a_list (heap m') = count a_list (heap m).
Proof.
  intros E. unfold call in E.
  repeat match type of E with
  | context [match ?x with _ => _ end] => destruct x eqn:?; try discriminate
  end; injection E as <-; cbn [alloc push set_heap heap]; rewrite ?count_alloc; cbn [a_list]; rewrite ?Nat.add_0_r; try reflexivity;
  try (eapply count_upd; [eassumption|reflexivity]).
Qed.
Lemma extend_heap h a vs b : extend (nth_error h a) vs = Some b -> count a_list (upd h a b) = count a_list h.
Proof. destruct (nth_error h a) as [b0|] eqn:E; [|discriminate]. intros X. eapply count_upd; [exact E|]. eapply extend_kind; eauto. Qed.
Lemma setall_heap h a vs b : set_all (nth_error h a) vs = Some b -> count a_list (upd h a b) = count a_list h.
Proof. destruct (nth_error h a) as [b0|] eqn:E; [|discriminate]. intros X. eapply count_upd; [exact E|]. eapply setall_kind; eauto. Qed.
Lemma step_heap o m m' : step o m = Some m' -> count a_list (heap m') = count a_list (heap m) + if is_empty_list o || is_LIST o then 1 else 0.
Proof.
  intros E. destruct o; cbn [step is_empty_list is_LIST orb] in *; rewrite ?Nat.add_0_r;
  repeat match type of E with
  | context [match pop_mark ?x with _ => _ end] => let Q := fresh "Q" in destruct (pop_mark x) as [[? ?]|] eqn:Q; [apply pop_heap in Q; rewrite <- ?Q|discriminate]
  | context [match ?x with _ => _ end] => destruct x eqn:?; try discriminate
  end;
  try (apply call_heap in E; exact E); try discriminate E;
  try (injection E as <-); cbn [alloc push set_heap set_stk heap]; rewrite ?count_alloc, ?tuple_heap; cbn [a_list set_stk heap]; rewrite ?Nat.add_0_r; try reflexivity;
  try (eapply extend_heap; eassumption); try (eapply setall_heap; eassumption); (eapply count_upd; [eassumption|reflexivity]).
Qed.
Lemma load_heap ops : forall m v m' rest, load ops m = Some (v, m', rest) ->
  count a_list (heap m') + (count is_empty_list rest + count is_LIST rest) = count a_list (heap m) + (count is_empty_list ops + count is_LIST ops).
Proof.
  induction ops as [|o ops IH]; intros m v m' rest E; [discriminate|].
  assert (S : (o = STOP /\ m' = m /\ rest = ops) \/ exists m1, step o m = Some m1 /\ load ops m1 = Some (v, m', rest)).
  { destruct o; cbn [load] in E; try (match type of E with match ?x with _ => _ end = _ => destruct x eqn:S; [|discriminate] end; right; eauto; fail).
    left. destruct (stk m); [discriminate|]. injection E as _ <- <-. auto. }
  unfold count in *. destruct S as [(-> & -> & ->)|(m1 & S & E')]; [reflexivity|]. specialize (IH _ _ _ _ E'). apply step_heap in S. unfold count in S. cbn [filter].
  destruct (is_empty_list o) eqn:E1, (is_LIST o) eqn:E2; cbn [orb List.length] in *; try lia. destruct o; discriminate.
Qed.

(** ** exactly once *)
Definition related (R : oid -> nat -> Prop) (v : val) : Prop := exists v', val_rel R v v'.
Lemma f2_related R vs vs' v : Forall2 (val_rel R) vs vs' -> In v vs -> related R v.
Proof. induction 1 as [|x y l l' A F IH]; intros J; [destruct J|]. destruct J as [<-|J]; [now exists y|auto]. Qed.
Lemma items_related R d d' v : Forall2 (item_rel R) d d' -> In v (flat d) -> related R v.
Proof.
  induction 1 as [|[x1 x2] [y1 y2] l l' [A1 A2] F IH]; intros J; [destruct J|]. destruct J as [<-|[<-|J]]; [now exists y1|now exists y2|auto].
Qed.
Lemma state_related R st st' v : state_rel R st st' -> In v (state_vals st) -> related R v.
Proof.
  destruct st as [|x|d [s|]], st' as [|x'|d' [s'|]]; cbn [state_rel state_vals]; try contradiction.
  - intros A J. destruct J as [<-|J]; [now exists x'|destruct J].
  - intros [A B] J. apply in_app_or in J as [J|J]; [exact (items_related R _ _ v A J)|exact (items_related R _ _ v B J)].
  - intros A J. eapply items_related; eauto.
Qed.
Lemma getitem_own d : forall k v, keys_distinct d -> In (k, v) d -> getitem d k = Some v.
Proof.
  induction d as [|[k1 v1] d IH]; intros k v D J; [destruct J|]. destruct D as [D1 D2]. cbn [getitem]. destruct J as [E|J].
  - injection E as -> ->. now rewrite keyeq_refl.
  - rewrite keyeq_sym, (D1 _ _ J). auto.
Qed.
(** the items of a dictionary are items of the globals copied from it *)
Lemma copied_related R m kvs d v : keys_distinct kvs -> Forall2 (item_rel R) (globals_copy m kvs) d -> In v (flat kvs) -> related R v.
Proof.
  intros D F J. unfold flat in J. apply in_flat_map in J as ([k x] & J & Jv). pose proof (getitem_own _ _ _ D J) as E.
  pose proof (getitem_setitems kvs [(VA (AStr "__name__") 0, m); (VA (AStr "__builtins__") 0, VA (AModDict "builtins") 0)] _ _ D E) as E2. fold (globals_copy m kvs) in E2.
  destruct (getitem_in _ _ _ E2) as (k' & Jk & Kk). destruct Jv as [<-|[<-|[]]]; cbn [fst snd].
  - destruct k as [a i|o]; [exists (VA a 0); cbn; auto|]. destruct k' as [|o']; [discriminate|]. cbn in Kk. apply Nat.eqb_eq in Kk. subst o'.
    eapply items_related; [exact F|]. unfold flat. apply in_flat_map. exists (VR o, x). split; [exact Jk|now left].
  - eapply items_related; [exact F|]. unfold flat. apply in_flat_map. exists (k', x). split; [exact Jk|right; now left].
Qed.
(** a dictionary whose items were copied *)
Definition copied (R : oid -> nat -> Prop) (H : oid -> option obj) (v : val) : Prop := exists g kvs, v = VR g /\ H g = Some (ODict kvs) /\ forall w, In w (flat kvs) -> related R w.
Lemma refs_related R H G h b b' v : heap_wf H -> obj_rel R H G (fun a b => nth_error h a = Some b) b b' -> In v (refs b) -> related R v \/ copied R H v.
Proof.
  intros W. destruct b as [vs|vs|kvs|nb c args li di st|co gl nm de cl st|mt nm bs d q|[ct|]|fz vs], b' as [vs'|vs'|kvs'|nb' c' args' li' di' st'|co' gl' nm' de' cl' st'|mt' nm' bs' d' q'|[ct'|]|fz' vs'];
    cbn [obj_rel refs]; try contradiction; intros A J.
  - left. eapply f2_related; eauto.
  - left. eapply f2_related; eauto.
  - left. eapply items_related; eauto.
  - destruct A as (_ & A1 & A2 & A3 & A4 & A5). left. destruct J as [<-|J]; [now exists c'|]. apply in_app_or in J as [J|J]; [exact (f2_related R _ _ v A2 J)|].
    apply in_app_or in J as [J|J]; [exact (f2_related R _ _ v A3 J)|]. apply in_app_or in J as [J|J]; [exact (items_related R _ _ v A4 J)|exact (state_related R _ _ v A5 J)].
  - destruct A as (A1 & A2 & A3 & A4 & A5 & A6). destruct J as [<-|[<-|[<-|[<-|J]]]]; [left; eexists; eassumption..|]. cbn [app] in J. apply in_app_or in J as [J|J]; [|left; eapply state_related; eauto].
    destruct gl as [a|g m], gl' as [a'|g' m']; cbn [globals_rel] in A2; try contradiction. destruct A2 as (B1 & _ & kvs & d & B2 & B3 & B4).
    destruct J as [<-|[<-|[]]]; [|left; now exists m']. right. exists g, kvs. split; [reflexivity|]. split; [exact B2|]. intros w Jw. destruct (W _ _ B2) as [Wd _]. cbn [obj_wf] in Wd. eapply copied_related; eauto.
  - destruct A as (A1 & A2 & A3 & A4 & A5). left. destruct J as [<-|[<-|[<-|[<-|J]]]]; [eexists; eassumption..|]. eapply items_related; eauto.
  - destruct J as [<-|[]]. left. now exists ct'.
  - destruct A as [_ A]. left. eapply f2_related; eauto.
Qed.
(** everything reached but (some) dictionaries has a counterpart *)
Lemma reach_related (R G : oid -> nat -> Prop) H (h : list obj) : heap_wf H -> (forall o a, R o a -> exists b b', H o = Some b /\ nth_error h a = Some b' /\ obj_rel R H (G o) (fun a b => nth_error h a = Some b) b b') ->
  forall v o, reach H v o -> related R v \/ copied R H v -> (exists a, R o a) \/ exists kvs, H o = Some (ODict kvs).
Proof.
  intros W K. induction 1 as [o|o b v o' Ho J Rc IH]; intros [(v' & A)|(g & kvs & E & Hg & A)].
  - destruct v' as [|a]; [destruct A|]. left. now exists a.
  - injection E as <-. right. now exists kvs.
  - destruct v' as [|a]; [destruct A|]. cbn in A. destruct (K _ _ A) as (b1 & b' & B1 & _ & B3). rewrite Ho in B1. injection B1 as <-. apply IH. eapply refs_related; eauto.
  - injection E as <-. rewrite Ho in Hg. injection Hg as ->. apply IH. left. apply A, J.
Qed.
(** distinct addresses that hold objects of a kind: no more than there are such objects *)
Lemma addresses p h L0 : NoDup L0 -> (forall a, In a L0 -> exists b : obj, nth_error h a = Some b /\ p b = true) -> List.length L0 <= count p h.
Proof.
  intros N A. set (f := fun a => match nth_error h a with Some b => p b | None => false end).
  assert (X : count p h = List.length (filter f (List.seq 0 (List.length h)))).
  { clear - f. unfold count. assert (Y : forall pre, List.length (filter p h) = List.length (filter (fun a => match nth_error (pre ++ h) a with Some b => p b | None => false end) (List.seq (List.length pre) (List.length h)))).
    - induction h as [|b h IH]; intros pre; [reflexivity|]. cbn [List.length List.seq filter]. rewrite nth_error_app2, Nat.sub_diag by lia. cbn [nth_error].
      specialize (IH (pre ++ [b])). rewrite <- app_assoc in IH. cbn [app] in IH. rewrite app_length, Nat.add_1_r in IH. destruct (p b); cbn [List.length]; rewrite IH; reflexivity.
    - exact (Y []). }
  rewrite X. apply NoDup_incl_length; [exact N|]. intros a J. destruct (A a J) as (b & B & P). apply filter_In. split.
  - apply in_seq. split; [lia|]. apply nth_error_Some. congruence.
  - unfold f. now rewrite B.
Qed.
Lemma pick {A B} (P : A -> B -> Prop) l : (forall x, In x l -> exists y, P x y) -> exists l', Forall2 P l l'.
Proof.
  induction l as [|x l IH]; intros A0; [exists []; constructor|]. destruct (A0 x (or_introl eq_refl)) as [y Y]. destruct IH as [l' F]; [intros; apply A0; now right|]. exists (y :: l'). now constructor.
Qed.
Lemma f2_nodup {A B} (P : A -> B -> Prop) l l' : (forall x x' y, P x y -> P x' y -> x = x') -> Forall2 P l l' -> NoDup l -> NoDup l'.
Proof.
  intros I0. induction 1 as [|x y l l' A0 F IH]; intros N; [constructor|]. inversion N as [|? ? N1 N2]; subst. constructor; [|auto]. intros J. apply N1.
  clear - I0 A0 F J. induction F as [|x1 y1 l l' B0 F IH]; [destruct J|]. destruct J as [<-|J]; [left; eapply I0; eauto|right; auto].
Qed.
Lemma f2_in_r {A B} (P : A -> B -> Prop) l l' y : Forall2 P l l' -> In y l' -> exists x, In x l /\ P x y.
Proof. induction 1 as [|x y1 l l' A0 F IH]; intros J; [destruct J|]. destruct J as [<-|J]; [exists x; split; [now left|auto]|]. destruct (IH J) as (x1 & A1 & B1). exists x1. split; [now right|auto]. Qed.
(** the loaded heap has a copy of every object of the kind *)
Lemma iso_count p H v h v' D : heap_wf H -> (forall R H0 G0 hp b b', obj_rel R H0 G0 hp b b' -> p b = true -> p b' = true) -> (forall kvs, p (ODict kvs) = false) ->
  iso H v h v' -> all_of p H v D -> List.length D <= count p h.
Proof.
  intros W Pp Pd (R & G & Rv & _ & Rf & _ & _ & _ & K) [ND A].
  destruct (pick (fun o a => R o a /\ exists b, nth_error h a = Some b /\ p b = true) D) as [L0 F].
  { intros o J. apply A in J as (Rc & b & Ho & Pb). destruct (reach_related R G H h W K v o Rc) as [[a Ra]|[kvs Hk]]; [left; now exists v'| |].
    - exists a. split; [exact Ra|]. destruct (K _ _ Ra) as (b1 & b' & B1 & B2 & B3). rewrite Ho in B1. injection B1 as <-. exists b'. split; [exact B2|]. eapply Pp; eauto.
    - rewrite Ho in Hk. injection Hk as ->. rewrite Pd in Pb. discriminate. }
  assert (E : List.length D = List.length L0) by (clear - F; induction F; cbn [List.length]; congruence). rewrite E. apply addresses.
  - eapply f2_nodup; [|exact F|exact ND]. intros x x' y [B _] [C _]. eapply Rf; eauto.
  - intros a J. destruct (f2_in_r _ _ _ _ F J) as (o & _ & _ & B). exact B.
Qed.

(** everything reached but (some) dictionaries is in the memo at the end *)
Lemma all_memoed proto H fuel v l s' o : heap_wf H -> proto <= 5 -> save proto H fuel v pst0 = Ok (l, s') -> reach H v o -> In o (objs (memo s')) \/ exists kvs, H o = Some (ODict kvs).
Proof.
  intros W P5 Es Rc. destruct (save_ok proto H W fuel v pst0 [] vm0 (sync0 H) _ _ Es) as (e' & m' & R & S & Si & v' & A & B & C).
  assert (EP : post s' = []) by (pose proof (s_post Si) as F; inversion F; auto).
  destruct (reach_related (Renv e') (Genv e') H (heap m') W) with (v := v) (o := o) as [[a Ra]|K]; auto.
  - intros o1 a Ho. destruct (s_cov Si o1 a Ho) as [[]|[[]|[C1|(p & [[]|(x & Hx & _)] & _)]]]; [|rewrite EP in Hx; destruct Hx].
    destruct C1 as (b & b' & A1 & (B1 & _) & D). exists b, b'. split; auto. split; auto.
    eapply obj_rel_mono; [| | |exact D]; auto. intros x y _ [Hx _]. exact Hx.
  - left. now exists v'.
  - left. apply in_objs. rewrite (sy_memo _ _ _ _ S). apply in_map_iff. exists (KObj o, VR a). auto.
Qed.
Lemma dumps_exact proto H mk sel fuel v ops D : 4 <= proto -> proto <= 5 -> heap_wf H ->
  (mk = is_empty_list /\ sel = a_list) \/ (mk = is_empty_set /\ sel = a_set) \/ (mk = is_newobj /\ sel = a_new /\ made_before H) ->
  dumps proto H fuel v = Ok ops -> all_of sel H v D -> count mk ops = List.length D.
Proof.
  intros P P5 W Kd E A. destruct (dumps_counts proto H P mk sel Kd fuel v ops D E A) as [Up _]. apply Nat.le_antisymm; [exact Up|].
  destruct A as [ND A]. destruct (dumps_shape _ _ _ _ _ E) as (l & s' & -> & Es & _).
  destruct (T_save proto H P mk sel Kd fuel v _ _ _ Es) as (N & C & _); [constructor|].
  cbn in C. rewrite Nat.add_0_r in C.
  rewrite !count_app. enough (List.length D <= count mk l) by lia. rewrite C. unfold L, count. apply NoDup_incl_length; [exact ND|]. intros o J. apply filter_In.
  apply A in J as (Rc & b & Ho & Sb). unfold sel_oid. rewrite Ho. split; [|exact Sb].
  destruct (all_memoed proto H fuel v l s' o W P5 Es Rc) as [M|[kvs K]]; [exact M|]. exfalso. rewrite Ho in K. injection K as ->. destruct Kd as [[_ ->]|[[_ ->]|[_ [-> _]]]]; discriminate.
Qed.

(** ** C115 *)
(** every list is written once: no more lists are created than are reached from the object *)
Theorem C115_lists : forall proto H fuel v ops D, 4 <= proto -> dumps proto H fuel v = Ok ops -> all_of a_list H v D ->
  count is_empty_list ops <= List.length D.
Proof. intros proto H fuel v ops D P E A. apply (dumps_counts proto H P is_empty_list a_list (or_introl (conj eq_refl eq_refl)) fuel v ops D E A). Qed.
Theorem C115_sets : forall proto H fuel v ops D, 4 <= proto -> dumps proto H fuel v = Ok ops -> all_of a_set H v D ->
  count is_empty_set ops <= List.length D.
Proof. intros proto H fuel v ops D P E A. apply (dumps_counts proto H P is_empty_set a_set (or_intror (or_introl (conj eq_refl eq_refl))) fuel v ops D E A). Qed.
(** and the class of every instance is called (cls.__new__) at most once for it, if no instance is reached from its own class and arguments *)
Theorem C115_instances_partial : forall proto H fuel v ops D, 4 <= proto -> made_before H -> dumps proto H fuel v = Ok ops -> all_of a_new H v D ->
  count is_newobj ops <= List.length D.
Proof. intros proto H fuel v ops D P M E A. apply (dumps_counts proto H P is_newobj a_new (or_intror (or_intror (conj eq_refl (conj eq_refl M)))) fuel v ops D E A). Qed.
(** and loading creates no more lists than there were, not even temporary ones, whatever other objects it creates *)
Theorem C115_loaded : forall proto H fuel v ops D v' m rest, 4 <= proto -> dumps proto H fuel v = Ok ops -> all_of a_list H v D -> loads ops = Some (v', m, rest) ->
  count a_list (heap m) <= List.length D.
Proof.
  intros proto H fuel v ops D v' m rest P E A Q. destruct (dumps_counts proto H P is_empty_list a_list (or_introl (conj eq_refl eq_refl)) fuel v ops D E A) as [B Z].
  apply load_heap in Q. cbn [heap] in Q. unfold count in *. cbn [filter List.length] in Q. lia.
Qed.
(** exactly: if the objects are well-formed, as many sets are created as are reached; and as many instances, if none is reached from its own class and arguments *)
Theorem C115_sets_exactly : forall proto H fuel v ops D, 4 <= proto -> proto <= 5 -> heap_wf H -> dumps proto H fuel v = Ok ops -> all_of a_set H v D ->
  count is_empty_set ops = List.length D.
Proof. intros proto H fuel v ops D P P5 W E A. exact (dumps_exact proto H _ _ fuel v ops D P P5 W (or_intror (or_introl (conj eq_refl eq_refl))) E A). Qed.
Theorem C115_instances_exactly_partial : forall proto H fuel v ops D, 4 <= proto -> proto <= 5 -> heap_wf H -> made_before H -> dumps proto H fuel v = Ok ops -> all_of a_new H v D ->
  count is_newobj ops = List.length D.
Proof. intros proto H fuel v ops D P P5 W M E A. exact (dumps_exact proto H _ _ fuel v ops D P P5 W (or_intror (or_intror (conj eq_refl (conj eq_refl M)))) E A). Qed.
(** exactly: if there are well-formed objects only, as many lists are created as are reached: none is lost and none doubled *)
Theorem C115_exactly : forall proto H fuel v ops D, 4 <= proto -> proto <= 5 -> heap_wf H -> dumps proto H fuel v = Ok ops -> all_of a_list H v D ->
  count is_empty_list ops = List.length D /\ exists v' m, loads ops = Some (v', m, []) /\ count a_list (heap m) = List.length D.
Proof.
  intros proto H fuel v ops D P P5 W E A. destruct (dumps_counts proto H P is_empty_list a_list (or_introl (conj eq_refl eq_refl)) fuel v ops D E A) as [B Z].
  destruct (C01_roundtrip proto H fuel v ops W P5 E) as (v' & m & Q & Is). pose proof (load_heap _ _ _ _ _ Q) as C. cbn [heap] in C. unfold count in C at 2 3 4. cbn [filter List.length] in C.
  assert (Lo : List.length D <= count a_list (heap m)).
  { eapply iso_count; eauto. intros R H0 G0 hp b b' O. destruct b, b'; cbn [obj_rel] in O; try contradiction; cbn; auto. }
  split; [lia|]. exists v', m. split; [exact Q|lia].
Qed.
(** and of every set and instance there is a copy *)
Theorem C115_no_fewer : forall proto H fuel v ops D E, 4 <= proto -> proto <= 5 -> heap_wf H -> dumps proto H fuel v = Ok ops -> all_of a_set H v D -> all_of a_new H v E ->
  exists v' m, loads ops = Some (v', m, []) /\ List.length D <= count a_set (heap m) /\ List.length E <= count a_new (heap m).
Proof.
  intros proto H fuel v ops D E P P5 W Ed AD AE. destruct (C01_roundtrip proto H fuel v ops W P5 Ed) as (v' & m & Q & Is). exists v', m. split; [exact Q|]. split; (eapply iso_count; [exact W| | |exact Is|eassumption]; [|reflexivity]).
  - intros R H0 G0 hp b b' O. destruct b, b'; cbn [obj_rel] in O; try contradiction; cbn; auto; try discriminate. destruct O as [-> _]. auto.
  - intros R H0 G0 hp b b' O. destruct b, b'; cbn [obj_rel] in O; try contradiction; cbn; auto; try discriminate. destruct O as [-> _]. auto.
Qed.
(** a case: the tuple 0 is (L, L, M), L = [0, L], M = [L, S, S, x, x], S = {1}, x = C.__new__(C, S): two lists, a set and an instance, each written once though referred to several times *)
Definition shared (o : oid) : option obj :=
  match o with
  | 0 => Some (OTup [VR 1; VR 1; VR 2])
  | 1 => Some (OList [VR 0; VR 1])
  | 2 => Some (OList [VR 1; VR 3; VR 3; VR 4; VR 4])
  | 3 => Some (OSet false [VA (AScalar 1) 0])
  | 4 => Some (ORed true (VA (AGlob (GUser "C")) 0) [VR 3] [] [] SNone)
  | _ => None
  end.
Lemma shared_reach o : o <= 4 -> reach shared (VR 0) o.
Proof.
  intros L0. assert (R2 : reach shared (VR 0) 2) by (apply (r_step shared 0 _ (VR 2) 2 eq_refl); [cbn; auto|apply r_here]).
  assert (X : forall o', In (VR o') [VR 1; VR 3; VR 3; VR 4; VR 4] -> reach shared (VR 0) o').
  { intros o' J. apply (r_step shared 0 _ (VR 2) o' eq_refl); [cbn; auto|]. apply (r_step shared 2 _ (VR o') o' eq_refl); [exact J|apply r_here]. }
  destruct o as [|[|[|[|[|o]]]]]; [apply r_here|apply X; cbn; auto|exact R2|apply X; cbn; auto|apply X; cbn; auto 6|lia].
Qed.
Lemma shared_all p D : NoDup D -> (forall o, In o D <-> o <= 4 /\ exists b, shared o = Some b /\ p b = true) -> all_of p shared (VR 0) D.
Proof.
  intros N A. split; [exact N|]. intros o. rewrite A. split; intros [B C]; split; auto.
  - apply shared_reach, B.
  - destruct C as (b & C & _). do 5 (destruct o as [|o]; [lia|]). discriminate.
Qed.
Lemma shared_wf : heap_wf shared.
Proof.
  intros o b Ho. do 5 (destruct o as [|o]; [injection Ho as <-; cbn; auto 6; try (split; [discriminate|exact I]); repeat split; intros; contradiction|]). discriminate.
Qed.
Theorem C115_case : heap_wf shared /\ exists ops v m, dumps 4 shared 50 (VR 0) = Ok ops /\ loads ops = Some (v, m, []) /\
  all_of a_list shared (VR 0) [1; 2] /\ all_of a_set shared (VR 0) [3] /\ all_of a_new shared (VR 0) [4] /\ made_before shared /\
  count is_empty_list ops = 2 /\ count is_empty_set ops = 1 /\ count is_newobj ops = 1 /\ count a_list (heap m) = 2.
Proof.
  split; [exact shared_wf|].
  assert (A : all_of a_list shared (VR 0) [1; 2] /\ all_of a_set shared (VR 0) [3] /\ all_of a_new shared (VR 0) [4] /\ made_before shared).
  { split; [|split; [|split]]; [apply shared_all; [repeat constructor; cbn; intuition discriminate|]..|];
    try (intros o; split; [cbn; intros J; repeat destruct J as [<-|J]; try contradiction; (split; [lia|]); eexists; split; reflexivity|
         intros (_ & b & B & K); do 5 (destruct o as [|o]; [cbn in B; injection B as <-; try discriminate K; cbn; auto|]); discriminate B]).
    intros o c args li di st Ho v Hv R. do 4 (destruct o as [|o]; [discriminate|]). destruct o as [|o]; [|discriminate]. injection Ho as <- <- <- <- <-.
    destruct Hv as [<-|[<-|[]]]; [inversion R|]. inversion R as [|? b w ? Hb Hw R']; subst. injection Hb as <-. cbn in Hw. destruct Hw as [<-|[]]. inversion R'. }
  destruct A as (A1 & A2 & A3 & A4).
  destruct (dumps 4 shared 50 (VR 0)) as [ops|] eqn:E; [|vm_compute in E; discriminate]. destruct (loads ops) as [[[v m] rest]|] eqn:Q.
  - exists ops, v, m. vm_compute in E. injection E as <-. vm_compute in Q. injection Q as <- <- <-. do 2 (split; [reflexivity|]). do 4 (split; [assumption|]). repeat split; reflexivity.
  - vm_compute in E. injection E as <-. vm_compute in Q. discriminate.
Qed.
(** REFUTED for the creation of instances: the constructor of one that is reached from its own arguments is called twice (one result is dropped) *)
Definition knot (o : oid) : option obj :=
  match o with 0 => Some (ORed true (VA (AGlob (GUser "C")) 0) [VR 1] [] [] SNone) | 1 => Some (OList [VR 0]) | _ => None end.
Theorem C115_instances_refuted : exists ops v m, dumps 4 knot 50 (VR 0) = Ok ops /\ loads ops = Some (v, m, []) /\ count is_newobj ops = 2 /\
  count a_new (heap m) = 2 /\ count a_list (heap m) = 1.
Proof.
  destruct (dumps 4 knot 50 (VR 0)) as [ops|] eqn:E; [|vm_compute in E; discriminate]. destruct (loads ops) as [[[v m] rest]|] eqn:Q.
  - exists ops, v, m. vm_compute in E. injection E as <-. vm_compute in Q. injection Q as <- <- <-. repeat split; reflexivity.
  - vm_compute in E. injection E as <-. vm_compute in Q. discriminate.
Qed.
(** before protocol 4 a list is made for every set on the way: a set alone loads with one list *)
Definition lone (o : oid) : option obj := match o with 0 => Some (OSet false [VA (AScalar 1) 0]) | _ => None end.
Theorem C115_old_refuted : exists ops v m, dumps 3 lone 50 (VR 0) = Ok ops /\ loads ops = Some (v, m, []) /\ all_of a_list lone (VR 0) [] /\ count a_list (heap m) = 1.
Proof.
  destruct (dumps 3 lone 50 (VR 0)) as [ops|] eqn:E; [|vm_compute in E; discriminate]. destruct (loads ops) as [[[v m] rest]|] eqn:Q.
  - exists ops, v, m. vm_compute in E. injection E as <-. vm_compute in Q. injection Q as <- <- <-. split; [reflexivity|]. split; [reflexivity|]. split; [|reflexivity].
    split; [constructor|]. intros o. split; [intros []|]. intros (_ & b & B & K). destruct o; cbn in B; try discriminate B. injection B as <-. discriminate K.
  - vm_compute in E. injection E as <-. vm_compute in Q. discriminate.
Qed.
