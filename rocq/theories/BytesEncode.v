(** Every dump whose constants are within the limits of the format has bytes. *)
From Coq Require Import String Ascii List Bool Arith NArith ZArith Lia.
From Verif Require Import PyDict CoreModel CoreSpec CoreSim CoreProps BytesModel BytesProofs BytesSim BytesProps BytesTotal BytesExamples.
From Verif Require CoreExamples.
Import ListNotations.
Local Open Scope nat_scope.

(** memo numbers: at most as many as opcodes *)
Definition put_below (n : nat) (o : op) : Prop := match o with PUT i => i < n | _ => True end.
Definition no_put (o : op) : Prop := match o with PUT _ | MEMOIZE => False | _ => True end.
Section Bound.
  Variable proto : nat.
  Variable H : oid -> option obj.
  Definition bounded (A : act) : Prop := forall s ops s', A s = Ok (ops, s') ->
    length (memo s) <= length (memo s') /\ length (memo s') <= length (memo s) + length ops /\ Forall (put_below (length (memo s'))) ops.
  Lemma bd_more n n' l : n <= n' -> Forall (put_below n) l -> Forall (put_below n') l.
  Proof. intros L F. eapply Forall_impl; [|exact F]. intros [] X; cbn in *; auto. lia. Qed.
  Lemma bd_seq A B : bounded A -> bounded B -> bounded (A ;; B).
  Proof.
    intros HA HB s ops s' E. unfold seq in E. destruct (A s) as [[l s1]|] eqn:EA; [|discriminate].
    destruct (B s1) as [[l' s2]|] eqn:EB; [|discriminate]. inversion E; subst. apply HA in EA as (A1 & A2 & A3). apply HB in EB as (B1 & B2 & B3).
    rewrite app_length. split; [lia|]. split; [lia|]. apply Forall_app. split; auto. eapply bd_more; [|exact A3]. lia.
  Qed.
  Lemma bd_emit l : Forall no_put l -> bounded (emit l).
  Proof. intros Hl s ops s' E. inversion E; subst. split; [lia|]. split; [lia|]. eapply Forall_impl; [|exact Hl]. intros [] X; cbn in *; tauto. Qed.
  Lemma bd_ok l (s : pst) ops s' : Ok (l, s) = Ok (ops, s') -> Forall no_put l -> length (memo s) <= length (memo s') /\ length (memo s') <= length (memo s) + length ops /\ Forall (put_below (length (memo s'))) ops.
  Proof. intros E Hl. exact (bd_emit l Hl s ops s' E). Qed.
  Lemma Ok_inj (l l' : list op) (s s' : pst) : Ok (l, s) = Ok (l', s') -> l = l' /\ s = s'.
  Proof. intros E. inversion E. auto. Qed.
  Lemma bd_memoize k : bounded (memoize proto k).
  Proof. unfold memoize. intros s ops s' E. apply Ok_inj in E as [<- <-]. cbn [memo length]. rewrite app_length. cbn [length]. split; [lia|]. split; [lia|]. constructor; [|constructor]. destruct (Nat.leb 4 proto); cbn [put_below]; auto; lia. Qed.
  Lemma bd_seqs {A} (f : A -> act) l : (forall x, bounded (f x)) -> bounded (seqs f l).
  Proof. intros Hf. induction l; cbn [seqs]; [apply bd_emit; constructor|apply bd_seq; auto]. Qed.
  Lemma bd_fail e : bounded (fail e).
  Proof. intros s ops s' E. discriminate. Qed.
  Ltac nst := repeat constructor.
  Section Sv.
  Variable sv : val -> act.
  Hypothesis SV : forall v, bounded (sv v).
  Lemma bd_batches {A} (one : A -> act) many : (forall x, bounded (one x)) -> (forall l, bounded (many l)) ->
    forall n l, bounded (batches one many n l).
  Proof.
    intros H1 H2. induction n; intros l; cbn [batches]; [apply bd_emit; nst|]. apply bd_seq.
    - destruct (firstn BATCHSIZE l) as [|x [|y r]]; auto. apply bd_emit; nst.
    - destruct (Nat.ltb _ _); [apply bd_emit; nst|auto].
  Qed.
  Lemma bd_kv p : bounded (save_kv sv p).
  Proof. apply bd_seq; auto. Qed.
  Lemma bd_setitems kvs : bounded (batch_setitems proto sv kvs).
  Proof.
    unfold batch_setitems. destruct (bin proto).
    - apply bd_batches; intros.
      + apply bd_seq; [apply bd_kv|apply bd_emit; nst].
      + apply bd_seq; [apply bd_emit; nst|]. apply bd_seq; [apply bd_seqs, bd_kv|apply bd_emit; nst].
    - apply bd_seqs. intros. apply bd_seq; [apply bd_kv|apply bd_emit; nst].
  Qed.
  Lemma bd_dict k kvs : bounded (save_dict proto sv k kvs).
  Proof. repeat apply bd_seq; [apply bd_emit; destruct (bin proto); nst|apply bd_memoize|apply bd_setitems]. Qed.
  Lemma bd_appends vs : bounded (batch_appends proto sv vs).
  Proof.
    unfold batch_appends. destruct (bin proto).
    - apply bd_batches; intros; repeat apply bd_seq; auto; try (apply bd_emit; nst). apply bd_seqs; auto.
    - apply bd_seqs. intros; apply bd_seq; auto; apply bd_emit; nst.
  Qed.
  Lemma bd_list k vs : bounded (save_list proto sv k vs).
  Proof. repeat apply bd_seq; [apply bd_emit; destruct (bin proto); nst|apply bd_memoize|apply bd_appends]. Qed.
  Lemma bd_arg x : bounded (save_arg proto sv x).
  Proof. destruct x; cbn; [apply SV|apply bd_dict|apply bd_list]. Qed.
  Lemma bd_repeat n i : Forall no_put (repeat POP n ++ [GET i]).
  Proof. apply Forall_app. split; [|repeat constructor]. apply Forall_forall. intros x Hi. apply repeat_spec in Hi. subst x. exact I. Qed.
  Lemma bd_tuple k xs : bounded (save_tuple proto sv k xs).
  Proof.
    unfold save_tuple. destruct xs as [|x xs]; [apply bd_emit; destruct (bin proto); nst|].
    destruct (Nat.leb (length (x :: xs)) 3 && Nat.leb 2 proto) eqn:E3.
    - apply bd_seq; [apply bd_seqs, bd_arg|]. intros s ops s' E. destruct (memo_get k s).
      + apply (bd_ok _ _ _ _ E), (bd_repeat (Datatypes.S (length xs))).
      + revert E. apply bd_seq; [apply bd_emit; nst|apply bd_memoize].
    - apply bd_seq; [apply bd_emit; nst|]. apply bd_seq; [apply bd_seqs, bd_arg|]. intros s ops s' E. destruct (memo_get k s).
      + destruct (bin proto); apply (bd_ok _ _ _ _ E); [nst|apply (bd_repeat (Datatypes.S (length (x :: xs))))].
      + revert E. apply bd_seq; [apply bd_emit; nst|apply bd_memoize].
  Qed.
  Lemma bd_state st : bounded (save_state proto sv st).
  Proof. destruct st as [|v|d [sl|]]; cbn [save_state]; [apply bd_emit; nst| | |]; (apply bd_seq; [|apply bd_emit; nst]); [apply SV|apply bd_tuple|apply bd_dict]. Qed.
  Lemma bd_call nb c args : bounded (red_call proto sv nb c args).
  Proof. unfold red_call. destruct nb; [destruct (Nat.leb 2 proto)|]; (apply bd_seq; [apply SV|]; apply bd_seq; [apply bd_tuple|apply bd_emit; nst]). Qed.
  Lemma bd_memo k : bounded (red_memo proto k).
  Proof.
    unfold red_memo. destruct k; [|apply bd_emit; nst]. intros s ops s' E. destruct (memo_get k s).
    - apply (bd_ok _ _ _ _ E); nst.
    - eapply bd_memoize; eauto.
  Qed.
  Lemma bd_reduce nb c args st k : bounded (save_reduce proto sv nb c args st k).
  Proof. unfold save_reduce. apply bd_seq; [apply bd_call|apply bd_seq; [apply bd_memo|apply bd_state]]. Qed.
  Lemma bd_set k fz vs : bounded (save_set proto sv k fz vs).
  Proof.
    assert (AB : forall l, bounded (add_batch sv l)) by (intros l; repeat apply bd_seq; try (apply bd_emit; nst); apply bd_seqs; auto).
    unfold save_set. destruct (Nat.leb 4 proto); [destruct fz|apply bd_reduce].
    - apply bd_seq; [apply bd_emit; nst|]. apply bd_seq; [apply bd_seqs; auto|]. intros s ops s' E. destruct (memo_get k s).
      + apply (bd_ok _ _ _ _ E); nst.
      + revert E. apply bd_seq; [apply bd_emit; nst|apply bd_memoize].
    - apply bd_seq; [apply bd_emit; nst|]. apply bd_seq; [apply bd_memoize|]. apply bd_batches; auto.
  Qed.
  Lemma bd_instance nb c args li di st k : bounded (save_instance proto sv nb c args li di st k).
  Proof. unfold save_instance. repeat apply bd_seq; [apply bd_call|apply bd_memo|apply bd_appends|apply bd_setitems|apply bd_state]. Qed.
  Lemma bd_pp p : bounded (exec_pp proto H sv p).
  Proof.
    destruct p; cbn [exec_pp].
    - destruct (H c) as [[| | | | | |[|]|]|]; try apply bd_fail. apply bd_seq; [apply bd_reduce|apply bd_emit; nst].
    - destruct (glob_items H f) as [[|kv kvs]|]; [apply bd_emit; nst| |apply bd_fail].
      intros s ops s' E. destruct (memo_get (KGlob f) s); [|discriminate]. revert E.
      apply bd_seq; [apply bd_emit; nst|]. apply bd_seq; [apply bd_setitems|apply bd_emit; nst].
    - destruct (H t) as [[]|]; try apply bd_fail. apply bd_seq; [apply bd_reduce|apply bd_emit; nst].
  Qed.
  Lemma bd_postproc o own red : bounded red -> bounded (save_with_postproc proto H sv o own red).
  Proof.
    intros HR s ops s' E. unfold save_with_postproc in E. destruct (memb _ _); [discriminate|]. revert E.
    apply bd_seq; [intros ? ? ? E; apply (bd_ok _ _ _ _ E); nst|]. apply bd_seq; auto.
    intros s1 ops1 s1' E. unfold pop_run in E. destruct (get o (post s1)) as [l|]; [|discriminate]. exact (bd_seqs _ (rev l) bd_pp _ ops1 s1' E).
  Qed.
  Lemma bd_addpp x p : bounded (add_pp x p).
  Proof. intros s ops s' E. apply (bd_ok _ _ _ _ E); nst. Qed.
  Lemma bd_val v : bounded (save_val proto H sv v).
  Proof.
    intros s ops s' E. unfold save_val in E. destruct v as [a i|o].
    - unfold save_atom in E. assert (En : bounded (empty_tuple proto)) by (apply bd_emit; destruct (bin proto); nst).
      assert (G : forall a', bounded (fun s => if memoized a' then match memo_get (KAtom a' i) s with
                 | Some n => Ok ([GET n], s) | None => (emit [CONST a'] ;; memoize proto (KAtom a' i)) s end else Ok ([CONST a'], s))).
      { intros a' s0 ops0 s0' E'. destruct (memoized a'); [destruct (memo_get (KAtom a' i) s0)|]; [apply (bd_ok _ _ _ _ E'); nst| |apply (bd_ok _ _ _ _ E'); nst].
        revert E'. apply bd_seq; [apply bd_emit; nst|apply bd_memoize]. }
      destruct a; try (match type of E with (if memoized ?a then _ else _) = _ => exact (G a s ops s' E) end). exact (En _ _ _ E).
    - destruct (memo_get (KObj o) s); [apply (bd_ok _ _ _ _ E); nst|]. destruct (H o) as [b|]; [|discriminate]. revert E.
      destruct b; cbn [save_obj].
      + apply bd_tuple.
      + apply bd_list.
      + apply bd_dict.
      + apply bd_instance.
      + unfold save_function. destruct gl; [apply bd_postproc, bd_reduce|]. destruct (H g) as [[]|]; try apply bd_fail.
        cbv zeta. destruct (first_in _ _); (apply bd_seq; [|apply bd_postproc, bd_reduce]); [apply bd_addpp|apply bd_emit; nst].
      + apply bd_postproc, bd_reduce.
      + unfold save_cell. destruct contents as [v|].
        * cbv zeta. match goal with |- context [match ?d with Some _ => _ | None => _ end] => destruct d end; [apply bd_seq; [apply bd_reduce|apply bd_addpp]|apply bd_reduce].
        * apply bd_seq; [apply bd_reduce|]. apply bd_seq; [apply bd_reduce|apply bd_emit; nst].
      + apply bd_set.
  Qed.
  End Sv.
  Lemma bd_save fuel v : bounded (save proto H fuel v).
  Proof. revert v. induction fuel as [|n IH]; intros v; [apply bd_fail|]. apply bd_val; auto. Qed.
End Bound.

(** ** the limits of the format
    what the opcodes can express: lengths of 4 bytes (8 from protocol 4 on, for text and bytes), integers of fewer than 2^31 bytes,
    floats of 64 bits, names without a newline where they are written as lines *)
Definition long_enough (proto : nat) (n : N) : Prop := (n < 2 ^ 32)%N \/ (4 <= proto /\ (n < 2 ^ 64)%N).
Definition within_limits (proto : nat) (naming : atom -> string * string) (a : atom) : Prop :=
  match a with
  | AScalar z => (N.size (Z.abs_N z) < 8 * (2 ^ 31 - 1))%N
  | AStr s => proto = 0 \/ long_enough proto (N.of_nat (List.length (utf8 (text_of s))))
  | ABytes s => long_enough proto (N.of_nat (String.length s))
  | AFloat bits => (bits < 2 ^ 64)%N
  | AGlob _ | ACellEmpty =>
    if 4 <=? proto then (ulen (fst (naming a)) < 2 ^ 64)%N /\ (ulen (snd (naming a)) < 2 ^ 64)%N
    else no_nl (fst (naming a)) = true /\ no_nl (snd (naming a)) = true
  | AModDict _ => no_nl (fst (naming a)) = true /\ no_nl (snd (naming a)) = true
  | _ => True
  end.
Lemma blen_length s : blen s = N.of_nat (String.length s).
Proof. unfold blen. f_equal. induction s; cbn; auto. Qed.
Lemma removelast_le {A} (l : list A) : length (removelast l) <= length l.
Proof. induction l as [|x l IH]; [auto|]. cbn [removelast]. destruct l; cbn [length] in *; lia. Qed.
Lemma encode_long_length z : length (encode_long z) <= S (bit_length z / 8).
Proof.
  unfold encode_long. destruct (z =? 0)%Z; [cbn; lia|]. set (k := S (bit_length z / 8)). pose proof (tobytes_length k z) as L.
  match goal with |- context [if ?c then _ else _] => destruct c end; [pose proof (removelast_le (tobytes k z)); lia|lia].
Qed.
Section Enc.
  Variable proto : nat.
  Variable naming : atom -> string * string.
  Variable reuse : nat -> option nat.
  Definition ok (r : rop) : Prop := exists b, enc r = Some b.
  Lemma ok_all l : Forall ok l -> exists b, enc_all l = Some b.
  Proof. induction 1 as [|r l (b & E) _ (b' & E')]; cbn [enc_all]; [eauto|]. rewrite E, E'. eauto. Qed.
  Lemma ok_get j : (N.of_nat j < 2 ^ 32)%N -> ok (w_get proto j).
  Proof.
    intros L. unfold w_get, ok. change (2 ^ 32)%N with 4294967296%N in L. destruct (1 <=? proto); [|eexists; reflexivity].
    destruct (N.of_nat j <? 256)%N eqn:E; cbn [enc]; [rewrite E|rewrite (proj2 (N.ltb_lt _ _) L)]; eauto.
  Qed.
  Lemma ok_put j : (N.of_nat j < 2 ^ 32)%N -> ok (w_put proto j).
  Proof.
    intros L. unfold w_put, ok. change (2 ^ 32)%N with 4294967296%N in L. destruct (1 <=? proto); [|eexists; reflexivity].
    destruct (N.of_nat j <? 256)%N eqn:E; cbn [enc]; [rewrite E|rewrite (proj2 (N.ltb_lt _ _) L)]; eauto.
  Qed.
  Lemma ok_str s : proto = 0 \/ long_enough proto (ulen s) -> ok (w_str proto s).
  Proof.
    intros L. unfold w_str, ok. destruct (Nat.leb_spec 1 proto) as [P|P]; [|eexists; reflexivity]. destruct L as [L|L]; [lia|]. unfold long_enough in L. change (2 ^ 32)%N with 4294967296%N in L.
    destruct (ulen s <=? 255)%N eqn:E1, (4 <=? proto) eqn:E4; cbn [andb].
    - apply N.leb_le in E1. cbn [enc]. rewrite (proj2 (N.ltb_lt _ 256%N)) by lia. eauto.
    - apply Nat.leb_gt in E4. apply N.leb_le in E1. rewrite andb_false_r. cbn [enc]. rewrite (proj2 (N.ltb_lt _ 4294967296%N)) by lia. eauto.
    - rewrite andb_true_r. destruct (4294967295 <? ulen s)%N eqn:E5.
      + cbn [enc]. rewrite (proj2 (N.ltb_lt _ (2 ^ 64)%N)); eauto. destruct L as [L|[_ L]]; [|exact L]. eapply N.lt_trans; [exact L|reflexivity].
      + apply N.ltb_ge in E5. cbn [enc]. rewrite (proj2 (N.ltb_lt _ 4294967296%N)) by lia. eauto.
    - apply Nat.leb_gt in E4. rewrite andb_false_r. cbn [enc]. rewrite (proj2 (N.ltb_lt _ 4294967296%N)) by lia. eauto.
  Qed.
  Lemma ok_bytes s r : long_enough proto (blen s) -> w_bytes proto s = Some r -> ok r.
  Proof.
    intros L. unfold w_bytes, ok. destruct (3 <=? proto); [|discriminate]. intros Q. assert (X : forall a b : rop, Some a = Some b -> a = b) by congruence. apply X in Q. subst r. clear X. unfold long_enough in L. change (2 ^ 32)%N with 4294967296%N in L.
    destruct (blen s <=? 255)%N eqn:E1.
    - apply N.leb_le in E1. cbn [enc]. rewrite (proj2 (N.ltb_lt _ 256%N)) by lia. eauto.
    - destruct (4 <=? proto) eqn:E4; [rewrite andb_true_r|rewrite andb_false_r].
      + destruct (4294967295 <? blen s)%N eqn:E5; cbn [enc].
        * rewrite (proj2 (N.ltb_lt _ (2 ^ 64)%N)); eauto. destruct L as [L|[_ L]]; [|exact L]. eapply N.lt_trans; [exact L|reflexivity].
        * apply N.ltb_ge in E5. rewrite (proj2 (N.ltb_lt _ 4294967296%N)) by lia. eauto.
      + apply Nat.leb_gt in E4. cbn [enc]. rewrite (proj2 (N.ltb_lt _ 4294967296%N)) by lia. eauto.
  Qed.
  Lemma ok_float n r : (n < 2 ^ 64)%N -> w_float proto n = Some r -> ok r.
  Proof. intros L. unfold w_float, ok. destruct (1 <=? proto); [|discriminate]. intros Q. injection Q as <-. cbn [enc]. rewrite (proj2 (N.ltb_lt _ _) L). eauto. Qed.
  Lemma ok_bool b : ok (w_bool proto b).
  Proof. unfold w_bool, ok. destruct (2 <=? proto), b; cbn; eauto. Qed.
  Lemma ok_int z : (N.size (Z.abs_N z) < 8 * (2 ^ 31 - 1))%N -> ok (w_int proto z).
  Proof.
    intros L. unfold w_int, ok.
    destruct ((1 <=? proto) && ((0 <=? z)%Z && (z <=? 255)%Z)) eqn:E1.
    { apply andb_true_iff in E1 as [_ E1]. apply andb_true_iff in E1 as [A B]. apply Z.leb_le in A, B. cbn [enc]. rewrite (proj2 (N.ltb_lt _ 256%N)) by lia. eauto. }
    destruct ((1 <=? proto) && ((0 <=? z)%Z && (z <=? 65535)%Z)) eqn:E2.
    { apply andb_true_iff in E2 as [_ E2]. apply andb_true_iff in E2 as [A B]. apply Z.leb_le in A, B. cbn [enc]. rewrite (proj2 (N.ltb_lt _ 65536%N)) by lia. eauto. }
    destruct ((1 <=? proto) && ((-2147483648 <=? z)%Z && (z <=? 2147483647)%Z)) eqn:E3.
    { apply andb_true_iff in E3 as [_ E3]. cbn [enc]. rewrite E3. eauto. }
    destruct (2 <=? proto).
    - destruct (Nat.ltb_spec (length (encode_long z)) 256) as [P|P]; cbn [enc].
      + rewrite (proj2 (N.ltb_lt _ 256%N)) by lia. eauto.
      + pose proof (encode_long_length z) as M. rewrite (proj2 (N.ltb_lt _ 2147483648%N)); [eauto|].
        unfold bit_length in M. change (8 * (2 ^ 31 - 1))%N with 17179869176%N in L. set (k := N.size (Z.abs_N z)) in *. clearbody k.
        assert (N.to_nat k / 8 = N.to_nat (k / 8)) as Q by (rewrite N2Nat.inj_div; reflexivity). rewrite Q in M.
        assert (k / 8 < 2147483647)%N by (apply N.div_lt_upper_bound; lia). lia.
    - destruct ((-2147483648 <=? z)%Z && (z <=? 2147483647)%Z); cbn; eauto.
  Qed.
  Lemma ok_name s st l st1 : (4 <=? proto) = true -> (ulen s < 2 ^ 64)%N -> (N.of_nat (length (strs st)) < 2 ^ 32)%N -> w_name proto reuse s st = (l, st1) ->
    Forall ok l /\ where_ st1 = where_ st /\ length (strs st) <= length (strs st1) /\ length (strs st1) <= S (length (strs st)).
  Proof.
    intros P L B E. unfold w_name in E.
    assert (F : ([w_str proto s; ROp MEMOIZE], W (where_ st) (strs st ++ [Some s]) (Some s) (S (names st))) = (l, st1) ->
      Forall ok l /\ where_ st1 = where_ st /\ length (strs st) <= length (strs st1) /\ length (strs st1) <= S (length (strs st))).
    { intros Q. injection Q as <- <-. cbn [where_ strs]. rewrite app_length. cbn [length]. split; [|repeat split; lia].
      constructor; [|constructor; [eexists; reflexivity|constructor]]. apply ok_str. right. right. split; [apply Nat.leb_le; exact P|exact L]. }
    destruct (reuse (names st)) as [j|]; [|exact (F E)]. destruct (nth_error (strs st) j) as [[s'|]|] eqn:Ej; try exact (F E).
    destruct (string_dec s s'); [|exact (F E)]. injection E as <- <-. cbn [where_ strs]. split; [|repeat split; lia]. constructor; [|constructor].
    assert (j < length (strs st)) by (apply nth_error_Some; rewrite Ej; discriminate). apply ok_get. lia.
  Qed.
  Definition memo_below (n : nat) (o : op) : Prop := match o with PUT i | GET i => i < n | _ => True end.
  Definition const_ok (o : op) : Prop := match o with CONST a => within_limits proto naming a | _ => True end.
  Definition wst_ok (st : wst) : Prop := Forall (fun j => j < length (strs st)) (where_ st).
  Lemma where_more (l : list nat) n n' : n <= n' -> Forall (fun j => j < n) l -> Forall (fun j => j < n') l.
  Proof. intros L F. eapply Forall_impl; [|exact F]. cbn. intros; lia. Qed.
  Lemma ok_op o st rs st1 : fits proto o -> const_ok o -> (4 <=? proto = false -> exists n, (N.of_nat n <= 2 ^ 32)%N /\ memo_below n o) -> wst_ok st ->
    (N.of_nat (length (strs st) + 2) < 2 ^ 32)%N -> w_op proto naming reuse o st = Some (rs, st1) ->
    Forall ok rs /\ wst_ok st1 /\ length (strs st1) <= length (strs st) + 2.
  Proof.
    intros F C G I0 B E.
    assert (Qt : forall l, Forall ok l -> Some (l, W (where_ st) (strs st) None (names st)) = Some (rs, st1) -> Forall ok rs /\ wst_ok st1 /\ length (strs st1) <= length (strs st) + 2).
    { intros l Hl Q. injection Q as <- <-. split; [exact Hl|]. split; [exact I0|cbn [strs]; lia]. }
    assert (One : forall r, ok r -> Forall ok [r]) by (intros; repeat constructor; auto).
    assert (Pl : forall o', (exists b, enc (ROp o') = Some b) -> Some ([ROp o'], W (where_ st) (strs st) None (names st)) = Some (rs, st1) -> Forall ok rs /\ wst_ok st1 /\ length (strs st1) <= length (strs st) + 2).
    { intros o' Ho. apply Qt, One. exact Ho. }
    destruct o; try (cbn [fits] in F; contradiction F); cbn [w_op] in E; try (refine (Pl _ _ E); eexists; reflexivity).
    - (* CONST *)
      assert (Gl : forall a', within_limits proto naming a' -> (a' = ACellEmpty \/ exists g, a' = AGlob g) -> (if 4 <=? proto then
          let (mm, n) := naming a' in
          let (l1, st) := w_name proto reuse mm st in
          let (l2, st) := w_name proto reuse n st in
          Some ((l1 ++ l2 ++ [STACK_GLOBAL])%list, W (where_ st) (strs st) None (names st))
        else match w_global proto naming a' with Some r => Some ([r], W (where_ st) (strs st) None (names st)) | None => None end) = Some (rs, st1) ->
        Forall ok rs /\ wst_ok st1 /\ length (strs st1) <= length (strs st) + 2).
      { intros a' W Ha E'. assert (W' : if 4 <=? proto then (ulen (fst (naming a')) < 2 ^ 64)%N /\ (ulen (snd (naming a')) < 2 ^ 64)%N else no_nl (fst (naming a')) = true /\ no_nl (snd (naming a')) = true) by (destruct Ha as [-> |(g & ->)]; exact W).
        clear W. rename W' into W. destruct (4 <=? proto) eqn:P.
        - destruct (naming a') as [mm n]. cbn [fst snd] in W. destruct W as [W1 W2]. destruct (w_name proto reuse mm st) as [l1 s1] eqn:E1. destruct (w_name proto reuse n s1) as [l2 s2] eqn:E2.
          destruct (ok_name mm st l1 s1 P W1) as (A1 & A2 & A3 & A4); [lia|exact E1|]. destruct (ok_name n s1 l2 s2 P W2) as (B1 & B2 & B3 & B4); [lia|exact E2|].
          injection E' as <- <-. split; [apply Forall_app; split; auto; apply Forall_app; split; auto; apply One; eexists; reflexivity|].
          split; [|cbn [strs]; lia]. unfold wst_ok in *. cbn [where_ strs]. rewrite B2, A2. eapply where_more; [|exact I0]. lia.
        - unfold w_global in E'. destruct (naming a') as [mm n]. cbn [fst snd] in W. destruct W as [W1 W2]. destruct ((3 <=? proto) || (ascii_only mm && ascii_only n)); [|discriminate].
          apply (Qt _ (One (GLOBAL mm n) ltac:(unfold ok, enc; rewrite W1, W2; eexists; reflexivity)) E'). }
      destruct a; try (cbn [fits] in F; contradiction F); cbn [const_ok within_limits] in C.
      + (refine (Pl _ _ E); eexists; reflexivity).
      + apply (Qt _ (One _ (ok_int z C)) E).
      + injection E as <- <-. split; [apply One, ok_str; exact C|]. split; [exact I0|cbn [strs]; lia].
      + apply (Gl ACellEmpty); auto.
      + apply (Gl (AGlob g)); eauto.
      + destruct C as [C1 C2]. refine (Qt _ (One _ _) E). unfold ok, enc. rewrite C1, C2. eexists; reflexivity.
      + apply (Qt _ (One _ (ok_bool b)) E).
      + destruct (w_float proto bits) as [r|] eqn:Er; [|discriminate]. apply (Qt _ (One _ (ok_float bits r C Er)) E).
      + destruct (w_bytes proto s) as [r|] eqn:Er; [|discriminate]. rewrite <- blen_length in C. apply (Qt _ (One _ (ok_bytes s r C Er)) E).
    - (* TUPLEN *) destruct F as [-> |[-> | ->]]; (refine (Pl _ _ E); eexists; reflexivity).
    - (* GET *)
      destruct (4 <=? proto) eqn:P.
      + destruct (nth_error (where_ st) i) as [j|] eqn:Ej; [|discriminate]. apply nth_error_In in Ej. unfold wst_ok in I0. rewrite Forall_forall in I0. apply I0 in Ej.
        apply (Qt _ (One _ (ok_get j ltac:(lia))) E).
      + destruct (G eq_refl) as (n & L & M). cbn [memo_below] in M. apply (Qt _ (One _ (ok_get i ltac:(lia))) E).
    - (* PUT *) cbn [fits] in F. rewrite F in E. destruct (G F) as (n & L & M). cbn [memo_below] in M. apply (Qt _ (One _ (ok_put i ltac:(lia))) E).
    - (* MEMOIZE *) cbn [fits] in F. rewrite F in E. injection E as <- <-. split; [apply One; eexists; reflexivity|]. unfold wst_ok in *. cbn [strs where_]. rewrite app_length. cbn [length].
      split; [|lia]. apply Forall_app. split; [eapply where_more; [|exact I0]; lia|]. constructor; [lia|constructor].
  Qed.
  Lemma ok_ops ops : forall st rs st1, Forall (fits proto) ops -> Forall const_ok ops ->
    (4 <=? proto = false -> exists n, (N.of_nat n <= 2 ^ 32)%N /\ Forall (memo_below n) ops) -> wst_ok st ->
    (N.of_nat (length (strs st) + 2 * length ops) < 2 ^ 32)%N -> w_ops proto naming reuse ops st = Some (rs, st1) -> Forall ok rs.
  Proof.
    induction ops as [|o ops IH]; intros st rs st1 F C G I0 B E; cbn [w_ops] in E; [injection E as <- _; constructor|].
    inversion F; inversion C; subst. destruct (w_op proto naming reuse o st) as [[r s1]|] eqn:Eo; [|discriminate].
    destruct (w_ops proto naming reuse ops s1) as [[r' s2]|] eqn:Er; [|discriminate]. injection E as <- <-. cbn [length] in B.
    destruct (ok_op o st r s1) as (A1 & A2 & A3); auto; [|lia|].
    { intros P. destruct (G P) as (n & L & M). inversion M; subst. eauto. }
    apply Forall_app. split; [exact A1|]. eapply IH; [| | |exact A2| |exact Er]; auto; [|lia].
    intros P. destruct (G P) as (n & L & M). inversion M; subst. eauto.
  Qed.
End Enc.
Lemma gets_below proto n ops : 4 <=? proto = false -> forall m m1, run ops m = Some m1 -> Forall (fits proto) ops -> Forall (put_below n) ops ->
  (forall i v, get i (mem m) = Some v -> i < n) -> Forall (memo_below n) ops.
Proof.
  intros P. induction ops as [|o ops IH]; intros m m1 R F B M; [constructor|]. cbn [run] in R. destruct (step o m) as [m2|] eqn:E; [|discriminate].
  inversion F as [|? ? F1 F2]; inversion B as [|? ? B1 B2]; subst.
  assert (memo_below n o /\ forall i v, get i (mem m2) = Some v -> i < n) as [A1 A2].
  { destruct (memo_free o) eqn:Mf.
    - destruct (step_mem o m (mem m) Mf) as [_ S]. rewrite (S m2 E). split; [|exact M]. destruct o; try exact I; discriminate.
    - destruct o; try discriminate Mf.
      + cbn [step] in E. destruct (get i (mem m)) as [v|] eqn:Ei; [|discriminate]. injection E as <-. split; [exact (M _ _ Ei)|]. exact M.
      + cbn [put_below] in B1. split; [exact B1|]. cbn [step] in E. destruct (stk m) as [|v s]; [discriminate|]. injection E as <-. cbn [mem]. intros j w. rewrite get_set.
        destruct (eqb j i) eqn:Q; [apply eqb_true in Q; subst; auto|apply M].
      + cbn [fits] in F1. congruence. }
  constructor; [exact A1|]. eapply IH; eauto.
Qed.

(** every dump within the limits of the format has bytes: fewer than 2^31 opcodes, and constants the opcodes can hold *)
Theorem C01_encoded : forall proto naming find H fuel v ops,
  heap_wf H -> proto <= 5 -> importable proto naming find H fuel v -> dumps proto H fuel v = Ok ops ->
  (forall a, In (CONST a) ops -> named_ascii proto naming (CONST a) /\ within_limits proto naming a) ->
  (N.of_nat (length ops) < 2 ^ 31)%N ->
  forall reuse, exists rops b, written proto naming reuse ops = Some rops /\ enc_all rops = Some b /\ dumps_bytes proto naming H fuel v b.
Proof.
  intros proto naming find H fuel v ops HW Hp Fi E Na B reuse.
  destruct (C01_written proto naming find reuse H fuel v ops HW Hp Fi E) as (rops & Ew); [intros a Ha; apply Na; exact Ha|].
  assert (OK : Forall ok rops /\ (4 <=? proto = true -> exists l, rops = ROp (PROTO proto) :: l)).
  { destruct (dumps_shape _ _ _ _ _ E) as (l & s' & Eo & Es & Hn). pose proof (ft_save proto H fuel v _ _ _ Es) as Fl. pose proof (bd_save proto H fuel v _ _ _ Es) as (_ & L2 & Pb).
    cbn [memo pst0 length plus] in L2.
    destruct (C01_roundtrip proto H fuel v ops HW Hp E) as (v' & m & L & _).
    assert (R : exists m1, run l vm0 = Some m1).
    { subst ops. unfold loads in L. fold vm0 in L. assert (L3 : load (l ++ [STOP]) vm0 = Some (v', m, [])).
      { destruct (Nat.leb 2 proto); [|exact L]. cbn [app load step] in L. destruct (Nat.leb proto 5); [exact L|discriminate]. }
      assert (N2 : ~ In STOP l) by (intros X; apply Hn; apply in_or_app; right; exact X). clear - L3 N2. revert L3 N2. generalize vm0. induction l as [|o l0 IH]; intros m0 L Hn.
      - exists m0. reflexivity.
      - assert (o <> STOP) by (intros ->; apply Hn; left; auto). assert (~ In STOP l0) by (intros X; apply Hn; right; auto).
        cbn [app load] in L. cbn [run]. destruct o; try congruence; (destruct (step _ m0) as [m1|]; [|discriminate]); apply IH; auto. }
    destruct R as (m1 & R). subst ops. rewrite !app_length in B. cbn [length] in B.
    assert (Cs : Forall (const_ok proto naming) l).
    { apply Forall_forall. intros o Ho. destruct o; try exact I. apply Na. apply in_or_app. right. apply in_or_app. left. exact Ho. }
    assert (Gb : 4 <=? proto = false -> exists n, (N.of_nat n <= 2 ^ 32)%N /\ Forall (memo_below n) l).
    { intros P. exists (length (memo s')). split; [change (2 ^ 31)%N with 2147483648%N in B; change (2 ^ 32)%N with 4294967296%N; lia|]. eapply gets_below; eauto. intros i x X. discriminate X. }
    unfold written in Ew. rewrite w_ops_app in Ew.
    assert (St : forall st, wst_ok st -> strs st = [] -> forall rs st1, w_ops proto naming reuse (l ++ [STOP]) st = Some (rs, st1) -> Forall ok rs).
    { intros st I0 Z rs st1 X. rewrite w_ops_app in X. destruct (w_ops proto naming reuse l st) as [[r1 s1]|] eqn:X1; [|discriminate]. cbn [w_ops w_op] in X. injection X as <- <-.
      apply Forall_app. split; [|constructor; [eexists; reflexivity|constructor]]. eapply ok_ops; [exact Fl|exact Cs|exact Gb|exact I0| |exact X1]. rewrite Z. cbn [length plus].
      change (2 ^ 31)%N with 2147483648%N in B; change (2 ^ 32)%N with 4294967296%N. lia. }
    destruct (2 <=? proto) eqn:P2.
    - cbn [w_ops w_op app where_ strs names] in Ew. destruct (w_ops proto naming reuse (l ++ [STOP]) (W [] [] None 0)) as [[r1 s1]|] eqn:X1; [|discriminate]. injection Ew as <-.
      split; [|intros _; eexists; reflexivity]. constructor; [|apply (St (W [] [] None 0) ltac:(constructor) eq_refl _ _ X1)].
      exists [128%N; N.of_nat proto]. unfold enc. rewrite (proj2 (Nat.ltb_lt proto 256)) by lia. reflexivity.
    - cbn [w_ops app] in Ew. destruct (w_ops proto naming reuse (l ++ [STOP]) (W [] [] None 0)) as [[r1 s1]|] eqn:X1; [|discriminate]. injection Ew as <-.
      split; [apply (St (W [] [] None 0) ltac:(constructor) eq_refl _ _ X1)|]. intros P4. apply Nat.leb_le in P4. apply Nat.leb_gt in P2. lia. }
  destruct OK as [OK Hd]. destruct (ok_all rops OK) as (b & Eb). exists rops, b. split; [exact Ew|]. split; [exact Eb|].
  exists ops, reuse, rops. split; [exact E|]. split; [exact Ew|]. destruct (4 <=? proto) eqn:P4.
  - destruct (Hd eq_refl) as (l & ->). apply Nat.leb_le in P4. cbn [enc_all] in Eb. destruct (enc (ROp (PROTO proto))) as [c|] eqn:Ec; [|discriminate].
    destruct (enc_all l) as [c'|] eqn:El; [|discriminate]. injection Eb as <-. apply pk_framed; auto. rewrite <- (app_nil_r l), <- (app_nil_r c'). apply fr_raw; [exact El|constructor].
  - apply Nat.leb_gt in P4. apply pk_plain; auto.
Qed.

(** the dump of CoreExamples' graph of functions, classes and cells is within the limits *)
Example C01_encoded_ex : forall reuse, exists ops rops b, dumps 4 CoreExamples.ex_heap 40 (VR 5) = Ok ops /\ written 4 ex_naming reuse ops = Some rops /\ enc_all rops = Some b.
Proof.
  intros reuse. destruct (dumps 4 CoreExamples.ex_heap 40 (VR 5)) as [ops|] eqn:E; [|vm_compute in E; discriminate E]. exists ops.
  destruct (C01_encoded 4 ex_naming ex_find CoreExamples.ex_heap 40 (VR 5) ops CoreExamples.ex_wf ltac:(lia) (ex_importable _ _ _) E) with (reuse := reuse) as (rops & b & A & B & _).
  - vm_compute in E. injection E as <-. intros a Ha.
    assert (F : Forall (fun o => match o with CONST a => named_ascii 4 ex_naming (CONST a) /\ within_limits 4 ex_naming a | _ => True end) [CONST a]); [|inversion F; assumption].
    revert Ha. generalize (CONST a). intros o Ho. repeat constructor. revert o Ho. apply Forall_forall.
    repeat (apply Forall_cons; [first [exact Logic.I|split; [first [exact Logic.I|left; lia|cbn; lia]|first [exact Logic.I|split; reflexivity|right; left; reflexivity|reflexivity]]]|]). apply Forall_nil.
  - vm_compute in E. injection E as <-. vm_compute. reflexivity.
  - exists rops, b. auto.
Qed.
