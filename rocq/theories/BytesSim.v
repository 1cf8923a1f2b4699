(** The bytes of a pickle drive the loader as the opcodes of CoreModel drive its machine. *)
From Coq Require Import String Ascii List Bool Arith NArith ZArith Lia.
From Verif Require Import PyDict CoreModel CoreSpec CoreSim BytesModel BytesProofs.
Import ListNotations.

Section Sim.
  Variable proto : nat.
  Variable naming : atom -> string * string.
  Variable reuse : nat -> option nat.
  Variable find : string -> string -> option atom.
  (** the loader finds each object under the name written for it *)
  Definition found (o : op) : Prop :=
    match o with CONST (AGlob _ as a) | CONST (AModDict _ as a) | CONST (ACellEmpty as a) => find (fst (naming a)) (snd (naming a)) = Some a | _ => True end.

  Definition set_mem (d : dict nat val) (m : vm) : vm := {| stk := stk m; meta := meta m; mem := d; heap := heap m |}.
  Fixpoint rrun (l : list rop) (m : vm) : option vm :=
    match l with [] => Some m | r :: l => match rstep find r m with Some m' => rrun l m' | None => None end end.
  Lemma rrun_app l l' m : rrun (l ++ l') m = match rrun l m with Some m' => rrun l' m' | None => None end.
  Proof. revert m. induction l as [|r l IH]; intros m; cbn [app rrun]; auto. destruct (rstep find r m); auto. Qed.

  (** an opcode that does not use the memo runs the same whatever is in it *)
  Definition memo_free (o : op) : bool := match o with GET _ | PUT _ | MEMOIZE => false | _ => true end.
  Ltac crush := repeat (reflexivity || (cbn [option_map nth_error set_mem stk meta mem heap push alloc set_heap set_stk] in *; match goal with
    | |- context [match ?x with _ => _ end] => match x with context [match _ with _ => _ end] => fail 1 | _ => destruct x eqn:? end
    end)).
  Lemma call_mem f args m d : call f args (set_mem d m) = option_map (set_mem d) (call f args m) /\ (forall m1, call f args m = Some m1 -> mem m1 = mem m).
  Proof.
    destruct m as [s mt me h]. split.
    - unfold call, set_mem, push, alloc, set_heap. cbn [stk meta mem heap]. crush.
    - intros m1. unfold call, push, alloc, set_heap. cbn [stk meta mem heap]. intros E.
      repeat match type of E with
             | Some _ = Some _ => injection E as <-; reflexivity
             | (match ?x with _ => _ end) = Some _ => destruct x eqn:?; try discriminate
             end.
  Qed.
  Lemma step_mem o m d : memo_free o = true -> step o (set_mem d m) = option_map (set_mem d) (step o m) /\ (forall m1, step o m = Some m1 -> mem m1 = mem m).
  Proof.
    intros Hf. destruct m as [s mt me h].
    assert (CM : forall f args m, call f args (set_mem d m) = option_map (set_mem d) (call f args m)) by (intros; apply call_mem).
    assert (CM2 : forall f args m m1, call f args m = Some m1 -> mem m1 = mem m) by (intros f args m m1; apply (call_mem f args m d)).
    destruct o; try discriminate; (split; [|intros m1 E]).
    all: try (unfold step, pop_mark, make_tuple, set_mem, push, alloc, set_heap, set_stk in *; cbn [stk meta mem heap option_map] in *; crush; fail).
    all: try discriminate.
    all: try (unfold step, pop_mark, make_tuple, push, alloc, set_heap, set_stk in E; cbn [stk meta mem heap] in E;
      repeat match type of E with
             | Some _ = Some _ => injection E as <-; repeat match goal with X : Some (_, _) = Some (_, _) |- _ => injection X; clear X; intros; subst end; cbn [mem]; first [reflexivity|match goal with |- context [match ?x with [] => _ | _ => _ end] => destruct x; reflexivity end]
             | call _ _ _ = Some _ => apply CM2 in E; exact E
             | (let _ := _ in _) = Some _ => cbv zeta in E
             | (match (match ?x with _ => _ end) with _ => _ end) = Some _ => destruct x eqn:?; try discriminate
             | (match ?x with _ => _ end) = Some _ => destruct x eqn:?; try discriminate
             end; fail).
    unfold step, set_mem, set_stk. cbn [stk meta mem heap]. destruct s as [|a [|f s]]; auto. destruct (tuple_items h a); [|reflexivity].
    apply (CM f l {| stk := s; meta := mt; mem := me; heap := h |}).
  Qed.

  (** the two machines: same stack, marks and heap; the loader's memo has, where the writer says, what CoreModel's memo has *)
  Definition mem_rel (me me' : dict nat val) (st : wst) : Prop :=
    if (4 <=? proto)%nat then
      (forall i v, get i me = Some v -> exists j, nth_error (where_ st) i = Some j /\ get j me' = Some v) /\
      (forall j s, nth_error (strs st) j = Some (Some s) -> get j me' = Some (VA (AStr s) 0)) /\
      length me = length (where_ st) /\ length me' = length (strs st) /\
      (forall i, length me <= i -> get i me = None) /\ (forall i, length me' <= i -> get i me' = None)
    else me' = me.
  Definition sim (m m' : vm) (st : wst) : Prop :=
    exists me', m' = set_mem me' m /\ mem_rel (mem m) me' st /\ (forall s, top st = Some s -> exists tl, stk m = VA (AStr s) 0 :: tl).
  Lemma w_get_step i m : rstep find (w_get proto i) m = step (GET i) m.
  Proof. unfold w_get. destruct (1 <=? proto)%nat; [destruct (N.of_nat i <? 256)%N|]; cbn [rstep]; rewrite Nat2N.id; reflexivity. Qed.
  Lemma w_put_step i m : rstep find (w_put proto i) m = step (PUT i) m.
  Proof. unfold w_put. destruct (1 <=? proto)%nat; [destruct (N.of_nat i <? 256)%N|]; cbn [rstep]; rewrite Nat2N.id; reflexivity. Qed.
  Lemma w_str_step s m : rstep find (w_str proto s) m = Some (push (VA (AStr s) 0) m).
  Proof. unfold w_str. destruct (1 <=? proto)%nat; [|reflexivity]. destruct (_ && _); [reflexivity|]. destruct (_ && _); reflexivity. Qed.
  Lemma w_int_step z m : rstep find (w_int proto z) m = Some (push (VA (AScalar z) 0) m).
  Proof.
    unfold w_int. destruct ((1 <=? proto)%nat && ((0 <=? z)%Z && (z <=? 255)%Z)) eqn:E1.
    { apply andb_true_iff in E1 as [_ E1]. apply andb_true_iff in E1 as [E1 _]. apply Z.leb_le in E1. cbn [rstep step]. rewrite Z2N.id by lia. reflexivity. }
    destruct ((1 <=? proto)%nat && ((0 <=? z)%Z && (z <=? 65535)%Z)) eqn:E2.
    { apply andb_true_iff in E2 as [_ E2]. apply andb_true_iff in E2 as [E2 _]. apply Z.leb_le in E2. cbn [rstep step]. rewrite Z2N.id by lia. reflexivity. }
    destruct ((1 <=? proto)%nat && ((-2147483648 <=? z)%Z && (z <=? 2147483647)%Z)); [reflexivity|]. destruct (2 <=? proto)%nat; [destruct (length (encode_long z) <? 256)%nat; reflexivity|].
    destruct ((-2147483648 <=? z)%Z && (z <=? 2147483647)%Z); reflexivity.
  Qed.
  Lemma w_bool_step b m : rstep find (w_bool proto b) m = Some (push (VA (ABool b) 0) m).
  Proof. unfold w_bool. destruct (2 <=? proto)%nat; reflexivity. Qed.
  Lemma w_float_step n r m : w_float proto n = Some r -> rstep find r m = Some (push (VA (AFloat n) 0) m).
  Proof. unfold w_float. destruct (1 <=? proto)%nat; intros X; inversion X; reflexivity. Qed.
  Lemma w_bytes_step s r m : w_bytes proto s = Some r -> rstep find r m = Some (push (VA (ABytes s) 0) m).
  Proof. unfold w_bytes. destruct (3 <=? proto)%nat; intros X; inversion X. destruct (_ <=? _)%N; [reflexivity|]. destruct (_ && _); reflexivity. Qed.
  Lemma nth_snoc {A} (l : list A) i (x y : A) : nth_error l i = Some x -> nth_error (l ++ [y]) i = Some x.
  Proof. intros E. rewrite nth_error_app1; auto. apply nth_error_Some. congruence. Qed.
  Lemma nth_snoc_inv {A} (l : list A) i (x y : A) : nth_error (l ++ [y]) i = Some x -> nth_error l i = Some x \/ (i = length l /\ x = y).
  Proof.
    intros E. destruct (Nat.lt_ge_cases i (length l)) as [L|L].
    - rewrite nth_error_app1 in E by auto. auto.
    - rewrite nth_error_app2 in E by auto. destruct (i - length l) as [|k] eqn:K; cbn in E; [|destruct k; discriminate].
      inversion E; subst. right. split; [lia|auto].
  Qed.
  Lemma set_fresh_length (d : dict nat val) n v : get n d = None -> length (set n v d) = S (length d).
  Proof.
    induction d as [|[k w] d IH]; cbn [get set length]; auto. destruct (eqb n k); [discriminate|]. intros E. cbn [length]. rewrite IH; auto.
  Qed.

  (** a name: pushes the string; the memo may get it *)
  Lemma w_name_ok s m m' st l st1 : (4 <=? proto)%nat = true -> sim m m' st -> w_name proto reuse s st = (l, st1) ->
    exists m1', rrun l m' = Some m1' /\ sim (push (VA (AStr s) 0) m) m1' st1.
  Proof.
    intros P (me' & -> & R & T) E. unfold w_name in E.
    assert (Fresh : (l, st1) = ([w_str proto s; ROp MEMOIZE], W (where_ st) (strs st ++ [Some s]) (Some s) (S (names st))) ->
      exists m1', rrun l (set_mem me' m) = Some m1' /\ sim (push (VA (AStr s) 0) m) m1' st1).
    { intros X. inversion X; subst. cbn [rrun]. rewrite w_str_step. cbn [rstep step push set_mem stk meta mem heap]. eexists. split; [reflexivity|].
      exists (set (length me') (VA (AStr s) 0) me'). split; [reflexivity|]. split; [|intros ? X1; injection X1 as <-; cbn [push stk]; eauto].
      unfold mem_rel in *. rewrite P in *. cbn [mem push where_ strs]. destruct R as (R1 & R2 & R3 & R4 & R5 & R6).
      assert (F0 : get (length me') me' = None) by (apply R6; lia).
      split; [|split; [|split; [|split; [|split]]]]; auto.
      - intros i v Hi. destruct (R1 i v Hi) as (j & J1 & J2). exists j. split; auto. rewrite get_set_other; auto. intros ->. congruence.
      - intros j s' Hj. apply nth_snoc_inv in Hj as [Hj|[-> Hj]].
        + specialize (R2 j s' Hj). rewrite get_set_other; auto. intros ->. congruence.
        + injection Hj as ->. rewrite <- R4. apply get_set_same.
      - rewrite set_fresh_length, app_length, R4 by auto. cbn. lia.
      - intros i Hi. rewrite set_fresh_length in Hi by auto. rewrite get_set_other by lia. apply R6. lia. }
    destruct (reuse (names st)) as [j|]; [|apply Fresh; auto].
    destruct (nth_error (strs st) j) as [[s'|]|] eqn:Ej; try (apply Fresh; auto; fail).
    destruct (string_dec s s') as [->|]; [|apply Fresh; auto]. inversion E; subst. cbn [rrun]. rewrite w_get_step.
    unfold mem_rel in R. rewrite P in R. pose proof R as (R1 & R2 & R3 & R4 & R5 & R6). cbn [step set_mem mem]. rewrite (R2 j s' Ej). eexists. split; [reflexivity|].
    exists me'. split; [reflexivity|]. split; [unfold mem_rel; rewrite P; exact R|]. intros ? X1; injection X1 as <-. cbn [push stk]. eauto.
  Qed.

  Lemma sim_quiet m m' st : sim m m' st -> sim m m' (W (where_ st) (strs st) None (names st)).
  Proof. intros (me' & -> & R & T). exists me'. split; [reflexivity|]. split; [exact R|]. intros s X. discriminate X. Qed.
  (** one opcode *)
  Lemma w_op_ok o m m1 m' st rs st1 : found o -> sim m m' st -> step o m = Some m1 -> w_op proto naming reuse o st = Some (rs, st1) ->
    exists m1', rrun rs m' = Some m1' /\ sim m1 m1' st1.
  Proof.
    intros finds S0 E EW.
    (* opcodes that are written as they are *)
    assert (Plain : memo_free o = true -> Some (rs, st1) = Some ([ROp o], W (where_ st) (strs st) None (names st)) -> exists m1', rrun rs m' = Some m1' /\ sim m1 m1' st1).
    { intros F X. injection X as -> ->. destruct S0 as (me' & -> & R & T). destruct (step_mem o m me' F) as [E1 E2].
      cbn [rrun rstep]. rewrite E1, E. eexists. split; [reflexivity|]. exists me'. split; [reflexivity|]. split.
      - rewrite (E2 _ E). exact R.
      - intros s X. discriminate X. }
    (* opcodes that push a constant *)
    assert (Push : forall a r t, o = CONST a -> (forall m, rstep find r m = Some (push (VA a 0) m)) ->
      (forall s, t = Some s -> a = AStr s) -> rs = [r] -> st1 = W (where_ st) (strs st) t (names st) -> exists m1', rrun rs m' = Some m1' /\ sim m1 m1' st1).
    { intros a r t -> Hr Ht -> ->. destruct S0 as (me' & -> & R & T). cbn [step] in E. injection E as <-. cbn [rrun]. rewrite Hr.
      eexists. split; [reflexivity|]. exists me'. split; [reflexivity|]. split; [exact R|]. intros s X. cbn [top] in X. rewrite (Ht s X). cbn [push stk]. eauto. }
    destruct o; try (apply Plain; [reflexivity|symmetry; exact EW]).
    - (* CONST *)
      assert (G : forall b, a = b -> match b with AGlob _ | ACellEmpty => True | _ => False end ->
        (if (4 <=? proto)%nat then
          let (mm, n) := naming b in
          let (l1, st) := w_name proto reuse mm st in
          let (l2, st) := w_name proto reuse n st in
          Some ((l1 ++ l2 ++ [STACK_GLOBAL])%list, W (where_ st) (strs st) None (names st))
        else match w_global proto naming b with Some r => Some ([r], W (where_ st) (strs st) None (names st)) | None => None end) = Some (rs, st1) ->
        exists m1', rrun rs m' = Some m1' /\ sim m1 m1' st1).
      { intros b Eb Hb X. assert (Fb : find (fst (naming b)) (snd (naming b)) = Some b) by (subst a; destruct b; (contradiction || exact finds)). destruct (4 <=? proto)%nat eqn:P.
        - destruct (naming b) as [mm n]. cbn [fst snd] in Fb.
          destruct (w_name proto reuse mm st) as [l1 s1] eqn:N1. destruct (w_name proto reuse n s1) as [l2 s2] eqn:N2. injection X as <- <-.
          destruct (w_name_ok mm m m' st l1 s1 P S0 N1) as (m2 & R1 & S1). destruct (w_name_ok n _ m2 s1 l2 s2 P S1 N2) as (m3 & R2 & S2).
          rewrite rrun_app, R1, rrun_app, R2. cbn [rrun]. destruct S2 as (me3 & -> & R3 & _). cbn [rstep set_mem push stk set_stk].
          unfold find_push. replace (find mm n) with (Some b) by (destruct b; (contradiction || auto)). cbn [option_map]. eexists. split; [reflexivity|].
          rewrite Eb in E. cbn [step] in E. injection E as <-. exists me3. split; [destruct m; reflexivity|]. split; [exact R3|]. intros s Y. discriminate Y.
        - unfold w_global in X. destruct (naming b) as [mm n]. cbn [fst snd] in Fb. destruct ((3 <=? proto)%nat || (ascii_only mm && ascii_only n)); [|discriminate].
          injection X as X1 X2. eapply (Push b (GLOBAL mm n) None); [rewrite Eb; auto| |intros ? Z; discriminate Z|auto|auto]. intros m0; cbn [rstep]; unfold find_push.
          replace (find mm n) with (Some b) by (destruct b; (contradiction || auto)). reflexivity. }
      unfold w_op in EW. destruct a.
      + apply Plain; [reflexivity|symmetry; exact EW].
      + discriminate EW.
      + injection EW as <- <-. eapply (Push (AScalar z) (w_int proto z) None); [reflexivity| |intros s X; discriminate X|reflexivity|reflexivity]. intros; apply w_int_step.
      + injection EW as <- <-. eapply (Push (AStr s) (w_str proto s) (Some s)); [reflexivity| | |reflexivity|reflexivity]. intros; apply w_str_step. intros s' X; injection X as <-; reflexivity.
      + eapply G; [reflexivity|exact I|exact EW].
      + eapply G; [reflexivity|exact I|exact EW].
      + injection EW as <- <-. eapply (Push (AModDict _) _ None); [reflexivity| |intros s X; discriminate X|reflexivity|reflexivity]. intros mq. cbn [rstep]. unfold find_push.
        cbn [found] in finds. rewrite finds. reflexivity.
      + injection EW as <- <-. eapply (Push (ABool b) (w_bool proto b) None); [reflexivity| |intros s X; discriminate X|reflexivity|reflexivity]. intros; apply w_bool_step.
      + destruct (w_float proto bits) as [r|] eqn:Er; [|discriminate]. injection EW as <- <-. eapply (Push (AFloat bits) r None); [reflexivity| |intros s X; discriminate X|reflexivity|reflexivity]. intros; apply w_float_step; auto.
      + destruct (w_bytes proto s) as [r|] eqn:Er; [|discriminate]. injection EW as <- <-. eapply (Push (ABytes s) r None); [reflexivity| |intros s' X; discriminate X|reflexivity|reflexivity]. intros; apply w_bytes_step; auto.
    - (* GET *)
      cbn [w_op] in EW. cbn [step] in E. destruct (get i (mem m)) as [v|] eqn:Ei; [|discriminate]. injection E as <-.
      destruct S0 as (me' & -> & R & T). pose proof R as R'. unfold mem_rel in R. destruct (4 <=? proto)%nat eqn:P.
      + destruct R as (R1 & _). destruct (R1 i v Ei) as (j & J1 & J2). rewrite J1 in EW. injection EW as <- <-. cbn [rrun]. rewrite w_get_step. cbn [step set_mem mem]. rewrite J2.
        eexists. split; [reflexivity|]. exists me'. split; [reflexivity|]. split; [exact R'|]. intros s X. discriminate X.
      + subst me'. injection EW as <- <-. cbn [rrun]. rewrite w_get_step. cbn [step set_mem mem]. rewrite Ei.
        eexists. split; [reflexivity|]. exists (mem m). split; [reflexivity|]. split; [exact R'|]. intros s X. discriminate X.
    - (* PUT *)
      cbn [w_op] in EW. destruct (4 <=? proto)%nat eqn:P; [discriminate|]. injection EW as <- <-. destruct S0 as (me' & -> & R & T). unfold mem_rel in R. rewrite P in R. subst me'.
      cbn [rrun]. rewrite w_put_step. cbn [step set_mem stk mem meta heap] in *. destruct (stk m) as [|v s]; [discriminate|]. injection E as <-.
      eexists. split; [reflexivity|]. exists (set i v (mem m)). split; [reflexivity|]. split; [unfold mem_rel; rewrite P; reflexivity|]. intros s0 X. discriminate X.
    - (* MEMOIZE *)
      cbn [w_op] in EW. destruct (4 <=? proto)%nat eqn:P; [|discriminate]. injection EW as <- <-. destruct S0 as (me' & -> & R & T). unfold mem_rel in R. rewrite P in R.
      cbn [rrun rstep step set_mem stk mem meta heap] in *. destruct (stk m) as [|v s] eqn:Es; [discriminate|]. injection E as <-.
      eexists. split; [reflexivity|]. exists (set (length me') v me'). split; [reflexivity|]. split; [|intros s0 X; cbn [top stk] in *; destruct (T s0 X) as (tl & Y); eauto].
      unfold mem_rel. rewrite P. cbn [mem where_ strs]. destruct R as (R1 & R2 & R3 & R4 & R5 & R6).
      assert (F0 : get (length me') me' = None) by (apply R6; lia). assert (F1 : get (length (mem m)) (mem m) = None) by (apply R5; lia).
      split; [|split; [|split; [|split; [|split]]]].
      + intros i w Hi. destruct (Nat.eq_dec i (length (mem m))) as [->|N].
        * rewrite get_set_same in Hi. injection Hi as <-. exists (length (strs st)). rewrite R3. split; [|rewrite <- R4; apply get_set_same].
          rewrite nth_error_app2 by lia. rewrite Nat.sub_diag. reflexivity.
        * rewrite get_set_other in Hi by auto. destruct (R1 i w Hi) as (j & J1 & J2). exists j. split; [apply nth_snoc; auto|]. rewrite get_set_other; auto. intros ->. congruence.
      + intros j s' Hj. apply nth_snoc_inv in Hj as [Hj|[-> Hj]].
        * specialize (R2 j s' Hj). rewrite get_set_other; auto. intros ->. congruence.
        * destruct (T s' (eq_sym Hj)) as (tl & Y). injection Y as -> _. rewrite <- R4. apply get_set_same.
      + rewrite set_fresh_length, app_length, R3 by auto. cbn. lia.
      + rewrite set_fresh_length, app_length, R4 by auto. cbn. lia.
      + intros i Hi. rewrite set_fresh_length in Hi by auto. rewrite get_set_other by lia. apply R5. lia.
      + intros i Hi. rewrite set_fresh_length in Hi by auto. rewrite get_set_other by lia. apply R6. lia.
  Qed.

  Lemma w_ops_ok ops : forall m m1 m' st rs st1, Forall found ops -> sim m m' st -> run ops m = Some m1 -> w_ops proto naming reuse ops st = Some (rs, st1) ->
    exists m1', rrun rs m' = Some m1' /\ sim m1 m1' st1.
  Proof.
    induction ops as [|o ops IH]; intros m m1 m' st rs st1 Fo S0 R E; cbn [run w_ops] in *.
    - injection R as <-. injection E as <- <-. exists m'. split; [reflexivity|exact S0].
    - inversion Fo as [|? ? Fo1 Fo2]; subst. destruct (step o m) as [m2|] eqn:E1; [|discriminate]. destruct (w_op proto naming reuse o st) as [[r s2]|] eqn:E2; [|discriminate].
      destruct (w_ops proto naming reuse ops s2) as [[r' s3]|] eqn:E3; [|discriminate]. injection E as <- <-.
      destruct (w_op_ok o m m2 m' st r s2 Fo1 S0 E1 E2) as (m2' & R2 & S2). destruct (IH m2 m1 m2' s2 r' s3 Fo2 S2 R E3) as (m1' & R1 & S1).
      exists m1'. split; [|exact S1]. rewrite rrun_app, R2. exact R1.
  Qed.

  (** ** the stream of bytes *)
  Lemma bload_fuel k : forall n l m r, bload find n l m = Some r -> bload find (n + k) l m = Some r.
  Proof.
    induction n as [|n IH]; intros l m r E; [discriminate|]. cbn [bload plus] in *. destruct (lex l) as [[o rest]|]; [|discriminate].
    destruct o as [o| | | | | | | | | | | | | | | | | | | | | | | | |]; try destruct o; try exact E;
      match goal with |- (match ?x with _ => _ end) = _ => destruct x; [|discriminate] end; apply IH; exact E.
  Qed.
  Lemma bload_more q : forall n l m v m1 rest, bload find n l m = Some (v, m1, rest) -> bload find n (l ++ q) m = Some (v, m1, rest ++ q).
  Proof.
    induction n as [|n IH]; intros l m v m1 rest E; [discriminate|]. cbn [bload] in *. destruct (lex l) as [[o r]|] eqn:L; [|discriminate].
    rewrite (lex_more l o r q L).
    destruct o as [o| | | | | | | | | | | | | | | | | | | | | | | | |]; try destruct o;
      try (match goal with |- (match ?x with Some _ => _ | None => _ end) = _ => destruct x; [|discriminate] end; apply IH; exact E).
    destruct (stk m); [discriminate|]. injection E as <- <- <-. reflexivity.
  Qed.
  Lemma loadb_more l q v m rest : loadb find l = Some (v, m, rest) -> loadb find (l ++ q) = Some (v, m, rest ++ q).
  Proof. unfold loadb. intros E. rewrite app_length. apply bload_fuel. apply bload_more. exact E. Qed.
  Definition lb (x : list N) (m : vm) (r : val * vm * list N) : Prop := bload find (length x) x m = Some r.
  Lemma enc_pos r b : enc r = Some b -> (1 <= length b)%nat.
  Proof.
    intros E. assert (IF : forall (c : bool) x, (if c then Some x else None) = Some b -> b = x) by (intros [|] x X; inversion X; auto).
    destruct r as [o|n|n|z|z|z|z|z|s|s|s|s|m n| |i|i|i|i|i|i|n|bo|bi|s|s|s]; cbn [enc] in E; try (apply IF in E; subst b; cbn [length]; lia);
      try (injection E as <-; cbn [length]; lia).
    destruct o; try (destruct (plain _); [injection E as <-; cbn; lia|discriminate]). apply IF in E; subst b; cbn; lia.
  Qed.
  Lemma lb_step r b rest m m1 res : r <> ROp STOP -> enc r = Some b -> (forall n, r = FRAME n -> (N.to_nat n <= length rest)%nat) ->
    rstep find r m = Some m1 -> lb rest m1 res -> lb (b ++ rest) m res.
  Proof.
    unfold lb. intros Hs E HF R L. pose proof (enc_pos _ _ E) as P. rewrite app_length.
    replace (length b + length rest)%nat with (S (length rest + (length b - 1)))%nat by lia. cbn [bload]. rewrite (lex_enc r b rest E HF).
    assert (bload find (length rest + (length b - 1)) rest m1 = Some res) as B by (apply bload_fuel; exact L).
    destruct r as [o| | | | | | | | | | | | | | | | | | | | | | | | |]; try (rewrite R; exact B). destruct o; try (rewrite R; exact B). congruence.
  Qed.
  Lemma lb_stop v m s rest : stk m = v :: s -> lb (46%N :: rest) m (v, m, rest).
  Proof. unfold lb. intros E. cbn [length bload lex]. rewrite E. reflexivity. Qed.

  Definition ordinary (r : rop) : Prop := r <> ROp STOP /\ forall n, r <> FRAME n.
  Lemma lb_piece l : forall b rest m m1 res, Forall ordinary l -> enc_all l = Some b -> rrun l m = Some m1 -> lb rest m1 res -> lb (b ++ rest) m res.
  Proof.
    induction l as [|r l IH]; intros b rest m m1 res F E R L; cbn [enc_all rrun] in *.
    - injection E as <-. injection R as <-. exact L.
    - inversion F as [|? ? [F1 F2] F3]; subst. destruct (enc r) as [a|] eqn:Ea; [|discriminate]. destruct (enc_all l) as [c|] eqn:Ec; [|discriminate]. injection E as <-.
      destruct (rstep find r m) as [m2|] eqn:E2; [|discriminate]. rewrite <- app_assoc.
      eapply lb_step; [exact F1|exact Ea|intros n X; destruct (F2 n X)|exact E2|]. eapply IH; eauto.
  Qed.
  Lemma enc_all_app l l' b : enc_all (l ++ l') = Some b -> exists c c', enc_all l = Some c /\ enc_all l' = Some c' /\ b = c ++ c'.
  Proof.
    revert b. induction l as [|r l IH]; intros b E; cbn [app enc_all] in *.
    - exists [], b. auto.
    - destruct (enc r) as [a|]; [|discriminate]. destruct (enc_all (l ++ l')) as [d|]; [|discriminate]. injection E as <-.
      destruct (IH d eq_refl) as (c & c' & -> & -> & ->). exists (a ++ c), c'. rewrite app_assoc. auto.
  Qed.
  Lemma lb_last l b rest m m1 v s : Forall ordinary l -> enc_all (l ++ [ROp STOP]) = Some b -> rrun l m = Some m1 -> stk m1 = v :: s ->
    lb (b ++ rest) m (v, m1, rest).
  Proof.
    intros F E R T. destruct (enc_all_app _ _ _ E) as (c & c' & E1 & E2 & ->). cbn in E2. injection E2 as <-. rewrite <- app_assoc.
    eapply lb_piece; [exact F|exact E1|exact R|]. cbn [app]. eapply lb_stop; eauto.
  Qed.
  Lemma framed_nil b : framed [] b -> b = [].
  Proof.
    intros F. remember [] as l eqn:El. induction F as [|l b b' l' f N E Ef F IH|l b b' l' E F IH]; auto.
    - destruct l; [congruence|discriminate].
    - destruct l; [|discriminate]. cbn in El. cbn in E. injection E as <-. auto.
  Qed.
  Lemma lb_framed l b : framed l b -> forall l0 rest m m1 v s, l = l0 ++ [ROp STOP] -> Forall ordinary l0 -> rrun l0 m = Some m1 -> stk m1 = v :: s ->
    lb (b ++ rest) m (v, m1, rest).
  Proof.
    assert (Fr : forall n f rest m res, enc (FRAME n) = Some f -> (N.to_nat n <= length rest)%nat -> lb rest m res -> lb (f ++ rest) m res).
    { intros n f rest m res E Hn L. apply (lb_step (FRAME n) f rest m m res); [discriminate|exact E|intros n' X; injection X as <-; exact Hn|reflexivity|exact L]. }
    assert (Piece : forall l1 b1 l' b' l0 rest m m1 v s, enc_all l1 = Some b1 -> framed l' b' ->
      (forall l0 rest m m1 v s, l' = l0 ++ [ROp STOP] -> Forall ordinary l0 -> rrun l0 m = Some m1 -> stk m1 = v :: s -> lb (b' ++ rest) m (v, m1, rest)) ->
      l1 ++ l' = l0 ++ [ROp STOP] -> Forall ordinary l0 -> rrun l0 m = Some m1 -> stk m1 = v :: s -> lb (b1 ++ b' ++ rest) m (v, m1, rest)).
    { intros l1 b1 l' b' l0 rest m m1 v s E F IH El Fo R T. destruct l' as [|x l''].
      - apply framed_nil in F. subst b'. rewrite app_nil_r in El. subst l1. cbn [app]. eapply lb_last; eauto.
      - destruct (@exists_last _ (x :: l'')) as (l2 & y & E2); [discriminate|]. rewrite E2 in *. rewrite app_assoc in El. apply app_inj_tail in El as [<- ->].
        apply Forall_app in Fo as [Fo1 Fo2]. rewrite rrun_app in R. destruct (rrun l1 m) as [m2|] eqn:R1; [|discriminate].
        eapply lb_piece; [exact Fo1|exact E|exact R1|]. eapply IH; eauto. }
    intros F. induction F as [|l b b' l' f N E Ef F IH|l b b' l' E F IH]; intros l0 rest m m1 v s El Fo R T.
    - destruct l0; discriminate.
    - rewrite <- !app_assoc. eapply Fr; [exact Ef|rewrite Nat2N.id, !app_length; lia|]. eapply Piece; eauto.
    - rewrite <- !app_assoc. eapply Piece; eauto.
  Qed.
  (** a pickle of opcodes that run *)
  Lemma lb_pickled l b l0 rest m m1 v s : pickled proto l b -> l = l0 ++ [ROp STOP] -> Forall ordinary l0 -> rrun l0 m = Some m1 -> stk m1 = v :: s ->
    lb (b ++ rest) m (v, m1, rest).
  Proof.
    intros P El Fo R T. destruct P as [l b Hp E|p0 l b b' Hp E F].
    - subst l. eapply lb_last; eauto.
    - destruct l0 as [|r l0]; [discriminate|]. injection El as Er El. subst r. inversion Fo; subst. cbn [rrun] in R.
      destruct (rstep find (ROp (PROTO p0)) m) as [m2|] eqn:E2; [|discriminate]. rewrite <- app_assoc.
      eapply (lb_step (ROp (PROTO p0))); [discriminate|exact E|intros ? X; discriminate X|exact E2|]. eapply lb_framed; eauto.
  Qed.

  (** what is written contains no STOP but the last, and no FRAME *)
  Lemma w_str_ordinary s : ordinary (w_str proto s).
  Proof. unfold w_str. destruct (1 <=? proto)%nat; [destruct (_ && _); [|destruct (_ && _)]|]; (split; [|intros ?]; discriminate). Qed.
  Lemma w_get_ordinary i : ordinary (w_get proto i).
  Proof. unfold w_get. destruct (1 <=? proto)%nat; [destruct (_ <? _)%N|]; (split; [|intros ?]; discriminate). Qed.
  Lemma w_put_ordinary i : ordinary (w_put proto i).
  Proof. unfold w_put. destruct (1 <=? proto)%nat; [destruct (_ <? _)%N|]; (split; [|intros ?]; discriminate). Qed.
  Lemma w_int_ordinary z : ordinary (w_int proto z).
  Proof.
    unfold w_int. destruct ((1 <=? proto)%nat && ((0 <=? z)%Z && (z <=? 255)%Z)); [(split; [|intros ?]; discriminate)|].
    destruct ((1 <=? proto)%nat && ((0 <=? z)%Z && (z <=? 65535)%Z)); [(split; [|intros ?]; discriminate)|].
    destruct ((1 <=? proto)%nat && ((-2147483648 <=? z)%Z && (z <=? 2147483647)%Z)); [(split; [|intros ?]; discriminate)|].
    destruct (2 <=? proto)%nat; [destruct (length (encode_long z) <? 256)%nat; (split; [|intros ?]; discriminate)|].
    destruct ((-2147483648 <=? z)%Z && (z <=? 2147483647)%Z); (split; [|intros ?]; discriminate).
  Qed.
  Lemma w_name_ordinary s st l st1 : w_name proto reuse s st = (l, st1) -> Forall ordinary l.
  Proof.
    assert (A : Forall ordinary [w_str proto s; ROp MEMOIZE]) by (constructor; [apply w_str_ordinary|constructor; [(split; [|intros ?]; discriminate)|constructor]]).
    unfold w_name. destruct (reuse (names st)) as [j|]; [|intros X; injection X as <- _; exact A].
    destruct (nth_error (strs st) j) as [[s'|]|]; try (intros X; injection X as <- _; exact A).
    destruct (string_dec s s'); intros X; injection X as <- _; [|exact A]. constructor; [apply w_get_ordinary|constructor].
  Qed.
  Lemma w_bool_ordinary b : ordinary (w_bool proto b).
  Proof. unfold w_bool. destruct (2 <=? proto)%nat; (split; [|intros ?]; discriminate). Qed.
  Lemma w_float_ordinary n r : w_float proto n = Some r -> ordinary r.
  Proof. unfold w_float. destruct (1 <=? proto)%nat; intros X; inversion X; (split; [|intros ?]; discriminate). Qed.
  Lemma w_bytes_ordinary s r : w_bytes proto s = Some r -> ordinary r.
  Proof. unfold w_bytes. destruct (3 <=? proto)%nat; intros X; inversion X. destruct (_ <=? _)%N; [|destruct (_ && _)]; (split; [|intros ?]; discriminate). Qed.
  Lemma w_op_ordinary o st rs st1 : o <> STOP -> w_op proto naming reuse o st = Some (rs, st1) -> Forall ordinary rs.
  Proof.
    intros N E. assert (One : forall r, ordinary r -> rs = [r] -> Forall ordinary rs) by (intros r H ->; constructor; auto).
    assert (G : forall b, (if (4 <=? proto)%nat then
          let (mm, n) := naming b in
          let (l1, st) := w_name proto reuse mm st in
          let (l2, st) := w_name proto reuse n st in
          Some ((l1 ++ l2 ++ [STACK_GLOBAL])%list, W (where_ st) (strs st) None (names st))
        else match w_global proto naming b with Some r => Some ([r], W (where_ st) (strs st) None (names st)) | None => None end) = Some (rs, st1) -> Forall ordinary rs).
    { intros b X. destruct (4 <=? proto)%nat.
      - destruct (naming b) as [mm n]. destruct (w_name proto reuse mm st) as [l1 s1] eqn:N1. destruct (w_name proto reuse n s1) as [l2 s2] eqn:N2. injection X as <- _.
        apply Forall_app. split; [eapply w_name_ordinary; eauto|]. apply Forall_app. split; [eapply w_name_ordinary; eauto|]. constructor; [(split; [|intros ?]; discriminate)|constructor].
      - unfold w_global in X. destruct (naming b) as [mm n]. destruct ((3 <=? proto)%nat || _); [|discriminate]. injection X as X _. eapply One; [|symmetry; exact X]. (split; [|intros ?]; discriminate). }
    destruct o; try congruence; unfold w_op in E; try (injection E as E _; eapply One; [|symmetry; exact E]; (split; [|intros ?]; discriminate)).
    - destruct a; try (eapply G; exact E); try discriminate E; try (destruct (w_float proto bits) as [r|] eqn:Er; [|discriminate]); try (destruct (w_bytes proto s) as [r|] eqn:Er; [|discriminate]); injection E as E _; (eapply One; [|symmetry; exact E]); try ((split; [|intros ?]; discriminate)); [apply w_int_ordinary|apply w_str_ordinary|apply w_bool_ordinary|eapply w_float_ordinary; eauto|eapply w_bytes_ordinary; eauto].
    - destruct (4 <=? proto)%nat; [destruct (nth_error (where_ st) i); [|discriminate]|]; injection E as E _; (eapply One; [|symmetry; exact E]); apply w_get_ordinary.
    - destruct (4 <=? proto)%nat; [discriminate|]; injection E as E _; (eapply One; [|symmetry; exact E]); apply w_put_ordinary.
    - destruct (4 <=? proto)%nat; [|discriminate]; injection E as E _; (eapply One; [|symmetry; exact E]); (split; [|intros ?]; discriminate).
  Qed.
  Lemma w_ops_ordinary ops : forall st rs st1, ~ In STOP ops -> w_ops proto naming reuse ops st = Some (rs, st1) -> Forall ordinary rs.
  Proof.
    induction ops as [|o ops IH]; intros st rs st1 N E; cbn [w_ops] in E.
    - injection E as <- _. constructor.
    - destruct (w_op proto naming reuse o st) as [[r s2]|] eqn:E2; [|discriminate]. destruct (w_ops proto naming reuse ops s2) as [[r' s3]|] eqn:E3; [|discriminate]. injection E as <- _.
      apply Forall_app. split; [|eapply IH; [|exact E3]; intros X; apply N; right; exact X]. eapply w_op_ordinary; [|exact E2]. intros ->. apply N. left. reflexivity.
  Qed.
  Lemma w_ops_app l l' : forall st, w_ops proto naming reuse (l ++ l') st =
    match w_ops proto naming reuse l st with
    | Some (r, st1) => match w_ops proto naming reuse l' st1 with Some (r', st2) => Some ((r ++ r')%list, st2) | None => None end
    | None => None end.
  Proof.
    induction l as [|o l IH]; intros st; cbn [app w_ops].
    - destruct (w_ops proto naming reuse l' st) as [[? ?]|]; reflexivity.
    - destruct (w_op proto naming reuse o st) as [[r s2]|]; [|reflexivity]. rewrite IH. destruct (w_ops proto naming reuse l s2) as [[r' s3]|]; [|reflexivity].
      destruct (w_ops proto naming reuse l' s3) as [[r2 s4]|]; [|reflexivity]. rewrite app_assoc. reflexivity.
  Qed.
End Sim.
