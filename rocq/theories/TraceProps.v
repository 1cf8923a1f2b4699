(** C48, C49, C50 on the model of dill/logger.py in TraceModel. *)
From Coq Require Import String Ascii List Bool Arith ZArith Lia Permutation.
From Verif Require Import TraceModel.
Import ListNotations.
Local Open Scope Z_scope.

(** * C48 *)
(** ** Specification *)
Fixpoint bytes (es : list event) : Z := match es with [] => 0 | EBytes n :: es => n + bytes es | ELog _ :: es => bytes es end.
(** entries and exits nest like brackets; both show the depth of the pair; the exit shows the bytes written in between *)
Inductive nested (sizes : bool) : Z -> list event -> Prop :=
| nested_nil d : nested sizes d []
| nested_bytes d n es : nested sizes d es -> nested sizes d (EBytes n :: es)
| nested_pair d tag text inner rest :
    nested sizes (d + 1) inner -> nested sizes d rest ->
    nested sizes d (ELog (Rec (tag ++ ": " ++ text) d None) :: inner ++
                    ELog (Rec ("# " ++ tag) d (if sizes then Some (bytes inner) else None)) :: rest).
(** no save function's tag begins with '#' *)
Fixpoint tags_ok (p : prog) : Prop :=
  match p with
  | Done | Raise => True
  | Write _ k | Large _ k | Commit k => tags_ok k
  | Save tag _ body k => starts_hash tag = false /\ tags_ok body /\ tags_ok k
  end.
(** does the program return, tracing aside *)
Fixpoint returns (p : prog) : bool :=
  match p with Done => true | Raise => false | Write _ k | Large _ k | Commit k => returns k | Save _ _ body k => returns body && returns k end.
Definition total (s : pstate) : Z := file s + match frame s with Some f => f | None => 0 end.

Lemma bytes_app a b : bytes (a ++ b) = bytes a + bytes b.
Proof. induction a as [|[n|r] a IH]; cbn [app bytes]; auto. rewrite IH. lia. Qed.
Lemma nested_app sizes d a b : nested sizes d a -> nested sizes d b -> nested sizes d (a ++ b).
Proof.
  intros Ha Hb. induction Ha as [d|d n es H IH|d tag text inner rest H1 IH1 H2 IH2]; auto.
  - cbn [app]. constructor. auto.
  - cbn [app]. rewrite <- app_assoc. cbn [app]. constructor; auto.
Qed.
Lemma commit_spec force s s' e : commit_frame force s = (s', e) ->
  (forall sizes d, nested sizes d e) /\ total s' = total s + bytes e /\ tdepth s' = tdepth s /\ sstack s' = sstack s.
Proof.
  unfold commit_frame, total. destruct (frame s) as [f|] eqn:Ef; [destruct ((65536 <=? f) || force)|]; intros E; injection E as <- <-; cbn [bytes file frame tdepth sstack].
  - split; [intros; repeat constructor|]. split; [lia|auto].
  - rewrite Ef. split; [intros; constructor|]. split; [lia|auto].
  - rewrite Ef. split; [intros; constructor|]. split; [lia|auto].
Qed.
Lemma entry_no_hash tag text : starts_hash tag = false -> starts_hash (entry_msg tag text) = false.
Proof. destruct tag as [|c tag]; auto. Qed.

Definition tellable (tk : tell_kind) : bool := match tk with Tellable => true | _ => false end.
Lemma trace_in tk tag text s d : tk <> TellRaises -> tdepth s = Some d -> starts_hash tag = false -> trace tk true (entry_msg tag text) s =
  Some (PS (file s) (frame s) (Some (d + 1)) (if tellable tk then total s :: sstack s else sstack s), [ELog (Rec (entry_msg tag text) d None)]).
Proof. intros Htk Hd Ht. unfold trace. rewrite Hd, (entry_no_hash _ _ Ht). destruct tk; try congruence; reflexivity. Qed.
Lemma trace_out tk tag s d t0 st : tk <> TellRaises -> tdepth s = Some (d + 1) -> sstack s = (if tellable tk then t0 :: st else st) -> trace tk true (exit_msg tag) s =
  Some (PS (file s) (frame s) (Some d) st, [ELog (Rec (exit_msg tag) d (if tellable tk then Some (total s - t0) else None))]).
Proof.
  intros Htk Hd Hs. unfold trace. rewrite Hd. cbn [starts_hash exit_msg]. replace (d + 1 - 1) with d by lia.
  destruct tk; try congruence; cbn [tellable] in *; rewrite Hs; reflexivity.
Qed.
Lemma run_spec tk (Htk : tk <> TellRaises) : forall p s d s' e b, tags_ok p -> tdepth s = Some d -> run tk true p s = (s', e, b) ->
  b = returns p /\ total s' = total s + bytes e /\
  (b = true -> nested (tellable tk) d e /\ tdepth s' = Some d /\ sstack s' = sstack s) /\
  (b = false -> exists fill, nested (tellable tk) d (e ++ fill)).
Proof.
  induction p as [|n k IH|n k IH|k IH|tag text body IHb k IHk|]; intros s d s' e b Ht Hd E; cbn [run tags_ok returns] in *.
  - injection E as <- <- <-. split; auto. split; [cbn; lia|]. split; [|discriminate]. intros _. split; [constructor|auto].
  - destruct (run tk true k _) as [[s1 e1] b1] eqn:E1. injection E as <- <- <-.
    apply IH with (d := d) in E1 as [H1 [H2 [H3 H4]]]; auto; [|unfold add_bytes; destruct (frame s); auto].
    split; auto. split.
    + rewrite H2. cbn [bytes]. unfold total, add_bytes. destruct (frame s); cbn [file frame]; lia.
    + split.
      * intros Hb. destruct (H3 Hb) as [A1 [A2 A3]]. split; [constructor; auto|]. split; auto. rewrite A3. unfold add_bytes. destruct (frame s); auto.
      * intros Hb. destruct (H4 Hb) as [fill Hf]. exists fill. cbn [app]. constructor. auto.
  - destruct (commit_frame true s) as [s0 e0] eqn:E0. destruct (run tk true k _) as [[s1 e1] b1] eqn:E1. injection E as <- <- <-.
    destruct (commit_spec _ _ _ _ E0) as [C1 [C2 [C3 C4]]].
    apply IH with (d := d) in E1 as [H1 [H2 [H3 H4]]]; auto; [|cbn [tdepth]; congruence]. cbn [sstack] in H3.
    split; auto. split.
    + rewrite H2, bytes_app. cbn [bytes]. unfold total in *. cbn [file frame]. lia.
    + split.
      * intros Hb. destruct (H3 Hb) as [A1 [A2 A3]]. split; [apply nested_app; [auto|constructor; auto]|]. split; auto. congruence.
      * intros Hb. destruct (H4 Hb) as [fill Hf]. exists fill. rewrite <- app_assoc. apply nested_app; auto. cbn [app]. constructor. auto.
  - destruct (commit_frame false s) as [s0 e0] eqn:E0. destruct (run tk true k _) as [[s1 e1] b1] eqn:E1. injection E as <- <- <-.
    destruct (commit_spec _ _ _ _ E0) as [C1 [C2 [C3 C4]]].
    apply IH with (d := d) in E1 as [H1 [H2 [H3 H4]]]; auto; [|congruence].
    split; auto. split; [rewrite H2, bytes_app; lia|]. split.
    + intros Hb. destruct (H3 Hb) as [A1 [A2 A3]]. split; [apply nested_app; auto|]. split; auto. congruence.
    + intros Hb. destruct (H4 Hb) as [fill Hf]. exists fill. rewrite <- app_assoc. apply nested_app; auto.
  - destruct Ht as [Ht1 [Ht2 Ht3]].
    assert (Ein := trace_in tk tag text s d Htk Hd Ht1).
    rewrite Ein in E. destruct (run tk true body _) as [[s1 e1] b1] eqn:E1.
    apply IHb with (d := d + 1) in E1 as [H1 [H2 [H3 H4]]]; auto. cbn [sstack] in H3.
    destruct b1.
    2:{ injection E as <- <- <-. rewrite <- H1. split; auto. split; [rewrite H2; unfold total; cbn; lia|]. split; [discriminate|]. intros _.
        destruct (H4 eq_refl) as [fill Hf].
        exists (fill ++ [ELog (Rec ("# " ++ tag) d (if tellable tk then Some (bytes (e1 ++ fill)) else None))]). cbn [app].
        rewrite app_assoc. apply nested_pair; [auto|constructor]. }
    destruct (H3 eq_refl) as [N1 [D1 S1]].
    assert (Eout := trace_out tk tag s1 d (total s) (sstack s) Htk D1 S1).
    assert (Hsz : total s1 - total s = bytes e1) by (rewrite H2; unfold total; cbn [file frame]; lia). rewrite Hsz in Eout.
    rewrite Eout in E. destruct (run tk true k _) as [[s2 e2] b2] eqn:E2. injection E as <- <- <-.
    apply IHk with (d := d) in E2 as [G1 [G2 [G3 G4]]]; auto. cbn [sstack] in G3.
    rewrite <- H1. cbn [andb]. split; auto. split.
    { rewrite G2. cbn [app bytes]. rewrite !bytes_app. cbn [bytes]. unfold total in *. cbn [file frame] in *. lia. }
    cbn [app]. split.
    + intros Hb. destruct (G3 Hb) as [A1 [A2 A3]]. split; [apply nested_pair; auto|auto].
    + intros Hb. destruct (G4 Hb) as [fill Hf]. exists fill. cbn [app]. rewrite <- app_assoc. cbn [app]. apply nested_pair; auto.
  - injection E as <- <- <-. split; auto. split; [cbn; lia|]. split; [discriminate|]. intros _. exists []. constructor.
Qed.

(** C48.  For every dump with tracing on, into any file that can tell its position or has no such method, whatever was left in
    the pickler by earlier (also failed) dumps: tracing does not make the dump fail; if the dump returns, its records nest, with
    equal depths and exact sizes, and the depth is back at 1; if it raises, its records are the beginning of such a nesting *)
Theorem C48_nested tk p s s' e b : tk <> TellRaises -> tags_ok p -> dump tk true p s = (s', e, b) ->
  b = returns p /\ (b = true -> nested (tellable tk) 1 e /\ tdepth s' = Some 1 /\ sstack s' = []) /\
  (b = false -> exists rest, nested (tellable tk) 1 (e ++ rest)).
Proof.
  intros Htk Ht E. unfold dump in E. destruct (run_spec tk Htk p (trace_setup true s) 1 s' e b Ht eq_refl E) as [H1 [_ [H2 H3]]]. auto.
Qed.
(** a size never counts bytes that were not added to the stream: file position and unfinished frame together grow by exactly the events' bytes *)
Theorem C48_bytes tk p s s' e b : tk <> TellRaises -> tags_ok p -> dump tk true p s = (s', e, b) -> total s' = total s + bytes e.
Proof. intros Htk Ht E. unfold dump in E. destruct (run_spec tk Htk p (trace_setup true s) 1 s' e b Ht eq_refl E) as [_ [H _]]. rewrite H. reflexivity. Qed.

(** with tracing off there are no records and the file gets the same bytes *)
Definition no_logs (es : list event) : list event := filter (fun e => match e with EBytes _ => true | ELog _ => false end) es.
Lemma run_off tk (Htk : tk <> TellRaises) : forall p s0 s1 d s0' e0 b0 s1' e1 b1, tags_ok p -> tdepth s0 = None -> tdepth s1 = Some d ->
  file s0 = file s1 -> frame s0 = frame s1 ->
  run tk false p s0 = (s0', e0, b0) -> run tk true p s1 = (s1', e1, b1) ->
  b0 = b1 /\ e0 = no_logs e1 /\ file s0' = file s1' /\ frame s0' = frame s1' /\ tdepth s0' = None.
Proof.
  assert (Hcm : forall f a b a' ea b' eb, commit_frame f a = (a', ea) -> commit_frame f b = (b', eb) -> file a = file b -> frame a = frame b ->
     ea = eb /\ no_logs eb = eb /\ file a' = file b' /\ frame a' = frame b' /\ tdepth a' = tdepth a /\ tdepth b' = tdepth b).
  { intros f a b a' ea b' eb Ea Eb Hf Hfr. unfold commit_frame in *. rewrite Hf, Hfr in Ea. destruct (frame b) as [fr|] eqn:Efb; [destruct ((65536 <=? fr) || f)|];
      injection Ea as <- <-; injection Eb as <- <-; cbn [file frame tdepth no_logs filter]; repeat (split; [congruence|]); congruence. }
  assert (Hnl : forall a b, no_logs (a ++ b) = no_logs a ++ no_logs b) by (intros; unfold no_logs; apply filter_app).
  induction p as [|n k IH|n k IH|k IH|tag text body IHb k IHk|]; intros s0 s1 d s0' e0 b0 s1' e1 b1 Ht H0 H1 Hf Hfr E0 E1; cbn [run tags_ok] in *.
  - injection E0 as <- <- <-. injection E1 as <- <- <-. auto.
  - destruct (run tk false k _) as [[a0 x0] y0] eqn:R0. destruct (run tk true k _) as [[a1 x1] y1] eqn:R1. injection E0 as <- <- <-. injection E1 as <- <- <-.
    assert (Ha : forall s, tdepth (add_bytes (Z.of_nat n) s) = tdepth s) by (intros s; unfold add_bytes; destruct (frame s); auto).
    assert (Hb : file (add_bytes (Z.of_nat n) s0) = file (add_bytes (Z.of_nat n) s1) /\ frame (add_bytes (Z.of_nat n) s0) = frame (add_bytes (Z.of_nat n) s1))
      by (unfold add_bytes; rewrite Hfr; destruct (frame s1); cbn [file frame]; split; congruence).
    destruct Hb as [Hb1 Hb2]. specialize (IH _ _ d _ _ _ _ _ _ Ht (eq_trans (Ha s0) H0) (eq_trans (Ha s1) H1) Hb1 Hb2 R0 R1). destruct IH as [A1 [A2 A3]].
    cbn [no_logs filter]. fold (no_logs x1). subst; auto.
  - destruct (commit_frame true s0) as [c0 f0] eqn:C0. destruct (commit_frame true s1) as [c1 f1] eqn:C1.
    destruct (Hcm _ _ _ _ _ _ _ C0 C1 Hf Hfr) as [K1 [K2 [K3 [K4 [K5 K6]]]]].
    destruct (run tk false k _) as [[a0 x0] y0] eqn:R0. destruct (run tk true k _) as [[a1 x1] y1] eqn:R1. injection E0 as <- <- <-. injection E1 as <- <- <-.
    specialize (fun X1 X2 X3 X4 => IH _ _ d _ _ _ _ _ _ Ht X1 X2 X3 X4 R0 R1). cbn [tdepth file frame] in IH. destruct IH as [A1 [A2 A3]]; try congruence.
    rewrite Hnl, K2. cbn [no_logs filter]. fold (no_logs x1). subst; auto.
  - destruct (commit_frame false s0) as [c0 f0] eqn:C0. destruct (commit_frame false s1) as [c1 f1] eqn:C1.
    destruct (Hcm _ _ _ _ _ _ _ C0 C1 Hf Hfr) as [K1 [K2 [K3 [K4 [K5 K6]]]]].
    destruct (run tk false k _) as [[a0 x0] y0] eqn:R0. destruct (run tk true k _) as [[a1 x1] y1] eqn:R1. injection E0 as <- <- <-. injection E1 as <- <- <-.
    specialize (fun X1 X2 X3 X4 => IH _ _ d _ _ _ _ _ _ Ht X1 X2 X3 X4 R0 R1). destruct IH as [A1 [A2 A3]]; try congruence.
    rewrite Hnl, K2. subst; auto.
  - destruct Ht as [Ht1 [Ht2 Ht3]].
    assert (Toff : forall m s, tdepth s = None -> trace tk false m s = Some (s, [])) by (intros m s Hs; unfold trace; rewrite Hs; auto).
    rewrite (Toff _ _ H0) in E0.
    rewrite (trace_in tk tag text s1 d Htk H1 Ht1) in E1.
    destruct (run tk false body s0) as [[a0 x0] y0] eqn:R0. destruct (run tk true body _) as [[a1 x1] y1] eqn:R1.
    match type of R1 with run _ _ _ ?st = _ => destruct (IHb s0 st (d + 1) _ _ _ _ _ _ Ht2 H0 eq_refl Hf Hfr R0 R1) as [A1 [A2 [A3 [A4 A5]]]] end. subst y0.
    destruct y1.
    2:{ injection E0 as <- <- <-. injection E1 as <- <- <-. cbn [no_logs filter app]. fold (no_logs x1). auto. }
    rewrite (Toff _ _ A5) in E0.
    match type of R1 with run _ _ _ ?st = _ => destruct (run_spec tk Htk body st (d + 1) _ _ _ Ht2 eq_refl R1) as [_ [_ [Z1 _]]] end. destruct (Z1 eq_refl) as [_ [Z2 Z3]]. cbn [sstack] in Z3.
    rewrite (trace_out tk tag a1 d (total s1) (sstack s1) Htk Z2 Z3) in E1.
    destruct (run tk false k a0) as [[k0 x3] y3] eqn:R3. destruct (run tk true k _) as [[k1 x4] y4] eqn:R4. injection E0 as <- <- <-. injection E1 as <- <- <-.
    match type of R4 with run _ _ _ ?st = _ => destruct (IHk a0 st d _ _ _ _ _ _ Ht3 A5 eq_refl A3 A4 R3 R4) as [G1 [G2 G3]] end.
    cbn [app no_logs filter]. fold (no_logs (x1 ++ ELog (Rec (exit_msg tag) d (if tellable tk then Some (total a1 - total s1) else None)) :: x4)).
    rewrite !Hnl. cbn [no_logs filter app]. fold (no_logs x4). subst; auto.
  - injection E0 as <- <- <-. injection E1 as <- <- <-. auto.
Qed.

(** C48: tracing changes nothing but the log: the same bytes in the same order, the same file and frame, the same outcome *)
Theorem C48_transparent tk p s s0 e0 b0 s1 e1 b1 : tk <> TellRaises -> tags_ok p ->
  dump tk false p s = (s0, e0, b0) -> dump tk true p s = (s1, e1, b1) ->
  b0 = b1 /\ e0 = no_logs e1 /\ file s0 = file s1 /\ frame s0 = frame s1.
Proof.
  intros Htk Ht E0 E1. unfold dump in *.
  destruct (run_off tk Htk p (trace_setup false s) (trace_setup true s) 1 _ _ _ _ _ _ Ht eq_refl eq_refl eq_refl eq_refl E0 E1) as [A1 [A2 [A3 [A4 _]]]]. auto.
Qed.
(** "Streams are not required to be tellable" fails for a stream whose tell raises OSError (a pipe): the dump itself fails *)
Theorem C48_pipe_refuted : exists p s, tags_ok p /\ returns p = true /\ snd (dump TellRaises false p s) = true /\ snd (dump TellRaises true p s) = false.
Proof. exists (Save "D2" "<dict>" (Write 3 Done) Done), (PS 0 None None []). repeat split; auto. Qed.

(** C48: in the printed tree, the corner of an exit is in the same column as the branch of its entry *)
Theorem C48_columns tag text d : 1 <= d -> starts_hash tag = false ->
  exists l r, prefix (tag ++ ": " ++ text) d = l ++ [Down] /\ prefix ("# " ++ tag) d = r ++ [Corner] /\ length l = length r /\ length l = Z.to_nat (d - 1) /\ Forall (eq Bar) r.
Proof.
  intros Hd Ht. unfold prefix. replace (0 <? d) with true by (symmetry; apply Z.ltb_lt; lia).
  assert (Hh := entry_no_hash tag text Ht). unfold entry_msg in Hh. rewrite Hh. cbn [append starts_hash].
  assert (HF : forall k, Forall (eq Bar) (repeat Bar k)) by (induction k; cbn; constructor; auto).
  destruct (Z.eqb_spec d 1) as [->|Hne].
  - exists [], []. auto.
  - exists (repeat Bar (Z.to_nat (d - 2)) ++ [Tee]), (repeat Bar (Z.to_nat (d - 1))).
    rewrite <- app_assoc, app_length, !repeat_length. cbn [length app].
    split; [auto|]. split; [auto|]. split; [lia|]. split; [lia|]. auto.
Qed.

Example C48_case :
  dump Tellable true (Save "D2" "x" (Write 3 (Save "T4" "y" (Write 5 Done) (Large 700 (Write 1 Done)))) Done) (PS 100 (Some 20) (Some 7) [4; 5])
  = (PS 837 (Some 1) (Some 1) [],
     [ELog (Rec "D2: x" 1 None); EBytes 3; ELog (Rec "T4: y" 2 None); EBytes 5; ELog (Rec "# T4" 2 (Some 5)); EBytes 9; EBytes 700; EBytes 1; ELog (Rec "# D2" 1 (Some 718))], true).
Proof. vm_compute. reflexivity. Qed.

(** * C50 *)
(** what a number with a unit means: the k-th of the binary prefixes K, M, G, T, P stands for 1024^k *)
Definition unit_value (u : unit_shown) : Z :=
  match u with
  | Plain => 1
  | Prefixed c => match index 0 (String c "") "KMGTP" with Some i => 1024 ^ (Z.of_nat i + 1) | None => 0 end
  end.
Definition denotes (v : Z * unit_shown) (n : Z) : Prop := fst v * unit_value (snd v) <= n < (fst v + 1) * unit_value (snd v).

(** C50 holds below 1024 bytes *)
Theorem C50_small_partial n : 1 <= n < 1024 -> suffix (Some n) = Some (Some (n, Plain)) /\ denotes (n, Plain) n.
Proof.
  intros Hn. unfold suffix. replace (1 <=? n) with true by (symmetry; apply Z.leb_le; lia).
  assert (Hl : Z.log2 n / 10 = 0).
  { apply Z.div_small. split; [apply Z.log2_nonneg|]. apply Z.log2_lt_pow2; lia. }
  rewrite Hl. cbn [Z.eqb Z.mul]. rewrite Z.shiftr_0_r. split; auto. unfold denotes. cbn [fst snd unit_value]. lia.
Qed.
(** the right number, with the unit one too large *)
Lemma suffix_shape n p : 0 <= p -> 2 ^ (10 * p) <= n < 2 ^ (10 * (p + 1)) ->
  Z.log2 n / 10 = p /\ Z.shiftr n (p * 10) * 2 ^ (10 * p) <= n < (Z.shiftr n (p * 10) + 1) * 2 ^ (10 * p) /\ 1 <= Z.shiftr n (p * 10).
Proof.
  intros Hp Hn. assert (Hpos : 0 < 2 ^ (10 * p)) by (apply Z.pow_pos_nonneg; lia). split.
  - assert (H1 : 10 * p <= Z.log2 n) by (apply Z.log2_le_pow2; lia). assert (H2 : Z.log2 n < 10 * (p + 1)) by (apply Z.log2_lt_pow2; lia).
    symmetry. apply (Z.div_unique (Z.log2 n) 10 p (Z.log2 n - 10 * p)); lia.
  - rewrite Z.shiftr_div_pow2 by lia. replace (p * 10) with (10 * p) by lia. assert (Hm := Z.mod_pos_bound n (2 ^ (10 * p)) Hpos).
    assert (Hdm := Z.div_mod n (2 ^ (10 * p))). assert (1 <= n / 2 ^ (10 * p)) by (apply Z.div_le_lower_bound; lia). nia.
Qed.
(** C50 is false for every size of 1 KiB up to 1 PiB: the unit shown is 1024 times the right one *)
Theorem C50_unit_refuted n : 1024 <= n < 2 ^ 50 -> exists v c, suffix (Some n) = Some (Some (v, Prefixed c)) /\
  v * unit_value (Prefixed c) <= 1024 * n < (v + 1) * unit_value (Prefixed c) /\ ~ denotes (v, Prefixed c) n.
Proof.
  intros Hn.
  assert (Hp : exists p, 1 <= p <= 4 /\ 2 ^ (10 * p) <= n < 2 ^ (10 * (p + 1))).
  { destruct (Z.lt_ge_cases n (2 ^ 20)); [exists 1; split; [lia|]; change (10 * 1) with 10; change (10 * (1 + 1)) with 20; lia|].
    destruct (Z.lt_ge_cases n (2 ^ 30)); [exists 2; split; [lia|]; change (10 * 2) with 20; change (10 * (2 + 1)) with 30; lia|].
    destruct (Z.lt_ge_cases n (2 ^ 40)); [exists 3; split; [lia|]; change (10 * 3) with 30; change (10 * (3 + 1)) with 40; lia|].
    exists 4; split; [lia|]; change (10 * 4) with 40; change (10 * (4 + 1)) with 50; lia. }
  destruct Hp as [p [Hp1 Hp2]]. destruct (suffix_shape n p ltac:(lia) Hp2) as [Hl [Hs Hs1]].
  assert (Hg : exists c, String.get (Z.to_nat p) "KMGTP" = Some c /\ unit_value (Prefixed c) = 1024 * 2 ^ (10 * p)).
  { assert (p = 1 \/ p = 2 \/ p = 3 \/ p = 4) as [->|[->|[->| ->]]] by lia; eexists; split; reflexivity. }
  destruct Hg as [c [Hc Hu]]. exists (Z.shiftr n (p * 10)), c. unfold suffix.
  replace (1 <=? n) with true by (symmetry; apply Z.leb_le; lia). rewrite Hl. replace (p =? 0) with false by (symmetry; apply Z.eqb_neq; lia). rewrite Hc.
  split; [auto|]. rewrite Hu. split; [lia|]. unfold denotes. cbn [fst snd]. rewrite Hu. nia.
Qed.
(** and from 1 PiB on formatting the record raises IndexError *)
Theorem C50_huge_refuted n : 2 ^ 50 <= n -> suffix (Some n) = None.
Proof.
  intros Hn. unfold suffix. replace (1 <=? n) with true by (symmetry; apply Z.leb_le; lia).
  assert (Hl : 50 <= Z.log2 n) by (apply Z.log2_le_pow2; lia). assert (H5 : 5 <= Z.log2 n / 10) by (apply Z.div_le_lower_bound; lia).
  replace (Z.log2 n / 10 =? 0) with false by (symmetry; apply Z.eqb_neq; lia).
  assert (Hk : exists k, Z.to_nat (Z.log2 n / 10) = (5 + k)%nat) by (exists (Z.to_nat (Z.log2 n / 10) - 5)%nat; lia).
  destruct Hk as [k ->]. reflexivity.
Qed.
Example C50_case : suffix (Some 1023) = Some (Some (1023, Plain)) /\ suffix (Some 1024) = Some (Some (1, Prefixed "M")) /\ suffix None = Some None /\ suffix (Some (2 ^ 50)) = None.
Proof. repeat split; vm_compute; reflexivity. Qed.

(** * C49 *)
Local Open Scope nat_scope.
Definition same_set (a b : list nat) : Prop := forall h, In h a <-> In h b.
(** handlers already made are below nexth, so that a new handler is new *)
Definition lwf (s : lstate) : Prop := NoDup (handlers s) /\ forall h, In h (handlers s) -> h < nexth s.

Lemma in_remove h x l : In x (remove_handler h l) <-> In x l /\ x <> h.
Proof. unfold remove_handler. rewrite filter_In. rewrite negb_true_iff, Nat.eqb_neq. tauto. Qed.
Lemma in_add h x l : In x (add_handler h l) <-> x = h \/ In x l.
Proof.
  unfold add_handler. destruct (existsb (Nat.eqb h) l) eqn:E.
  - apply existsb_exists in E as [y [Hy E]]. apply Nat.eqb_eq in E. subst. split; [auto|]. intros [->|]; auto.
  - rewrite in_app_iff. cbn. intuition.
Qed.
Lemma nodup_remove h l : NoDup l -> NoDup (remove_handler h l). Proof. apply NoDup_filter. Qed.
Lemma nodup_add h l : NoDup l -> NoDup (add_handler h l).
Proof.
  intros Hn. unfold add_handler. destruct (existsb (Nat.eqb h) l) eqn:E; auto.
  eapply Permutation_NoDup; [apply Permutation_cons_append|]. constructor; auto. intros Hi.
  assert (existsb (Nat.eqb h) l = true) by (apply existsb_exists; exists h; rewrite Nat.eqb_refl; auto). congruence.
Qed.

Lemma trun_ok : forall p s s' b, lwf s -> 0 < nexth s -> trun p s = (s', b) ->
  lwf s' /\ nexth s <= nexth s' /\ root s' = root s /\
  (forall h, h <> 0 -> In h (handlers s') <-> In h (handlers s)) /\ (In 0 (handlers s) -> In 0 (handlers s')).
Proof.
  induction p as [|m|t| |p IHp q IHq|p IHp|r o body IH]; intros s s' b Hw Hpos E; cbn [trun] in E.
  - injection E as <- <-. repeat split; auto; try apply Hw; tauto.
  - injection E as <- <-. unfold log. destruct (effective s <=? INFO); cbn [handlers nexth root]; repeat split; auto; try apply Hw; tauto.
  - injection E as <- <-. cbn [set_level handlers nexth root]. repeat split; auto; try apply Hw; tauto.
  - injection E as <- <-. repeat split; auto; try apply Hw; tauto.
  - destruct (trun p s) as [s1 b1] eqn:E1. destruct (IHp _ _ _ Hw Hpos E1) as [A1 [A2 [A3 [A4 A5]]]]. destruct b1.
    + destruct (IHq _ _ _ A1 ltac:(lia) E) as [B1 [B2 [B3 [B4 B5]]]].
      split; [auto|]. split; [lia|]. split; [congruence|]. split; [|auto]. intros h Hh. rewrite B4, A4; tauto.
    + injection E as <- <-. auto.
  - injection E as <- <-. destruct (trun p s) as [s1 b1] eqn:E1. exact (IHp _ _ _ Hw Hpos E1).
  - destruct (enter r o s) as [[[s0 h] old]|] eqn:En; [|injection E as <- <-; repeat split; auto; try apply Hw; tauto].
    destruct (trun body s0) as [s1 b1] eqn:E1. injection E as <- <-. unfold enter in En. destruct Hw as [Hw1 Hw2].
    destruct r.
    + destruct o; [|discriminate]. injection En as <- <- <-.
      assert (W0 : lwf (set_level INFO (LS (level s) (add_handler (nexth s) (remove_handler 0 (handlers s))) (S (nexth s)) (root s) (out s)))).
      { split; cbn [set_level handlers nexth]; [apply nodup_add, nodup_remove; auto|]. intros h Hh. apply in_add in Hh as [->|Hh]; [lia|]. apply in_remove in Hh as [Hh _]. specialize (Hw2 h Hh). lia. }
      destruct (IH _ _ _ W0 (Nat.lt_0_succ _) E1) as [A1 [A2 [A3 [A4 A5]]]].
      cbn [set_level handlers nexth root level] in *. unfold exit, set_level, set_handlers, lwf. cbn [handlers nexth root].
      destruct A1 as [D1 D2]. split; [|split; [lia|split; [congruence|split]]].
      * split; [apply nodup_add, nodup_remove; auto|]. intros h Hh. apply in_add in Hh as [->|Hh]; [lia|]. apply in_remove in Hh as [Hh _]. auto.
      * intros h Hh. rewrite in_add, in_remove, A4, in_add, in_remove; auto. split.
        -- intros [?|[[?|[? ?]] ?]]; tauto.
        -- intros Hi. right. split; [right; auto|]. specialize (Hw2 h Hi). lia.
      * intros _. apply in_add. auto.
    + injection En as <- <- <-.
      destruct (IH _ _ _ (conj Hw1 Hw2 : lwf (set_level INFO s)) Hpos E1) as [A1 [A2 [A3 [A4 A5]]]].
      unfold exit. destruct A1 as [D1 D2]. cbn [set_level handlers nexth root] in *. split; [split; auto|]. auto.
Qed.

(** C49.  After any program of nested trace contexts, blocks that raise included (and files that cannot be opened), the set of
    handlers is what it was, if stderr's handler was there *)
Theorem C49_handlers_partial p s s' b : lwf s -> 0 < nexth s -> In 0 (handlers s) -> trun p s = (s', b) -> same_set (handlers s') (handlers s).
Proof.
  intros Hw Hp H0 E. destruct (trun_ok p s s' b Hw Hp E) as [_ [_ [_ [A B]]]]. intros [|h]; [tauto|]. apply A. lia.
Qed.

Lemma trun_root p : forall s, root (fst (trun p s)) = root s.
Proof.
  induction p as [|m|t| |p IHp q IHq|p IHp|r o body IH]; intros s; cbn [trun]; auto.
  - unfold log. cbn [fst]. destruct (effective s <=? INFO); auto.
  - specialize (IHp s). destruct (trun p s) as [s1 []] eqn:E1; cbn [fst] in *; auto. rewrite IHq. auto.
  - apply IHp.
  - destruct (enter r o s) as [[[s0 h] old]|] eqn:En; auto. specialize (IH s0). destruct (trun body s0) as [s1 b1]. cbn [fst] in *.
    assert (root s0 = root s) by (unfold enter in En; destruct r; [destruct o; [|discriminate]|]; injection En as <- _ _; reflexivity).
    unfold exit. destruct h; cbn; congruence.
Qed.
(** C49: every trace context restores the effective level, whatever its block does (trace(True) and trace(False) included),
    the root logger's level being 1 or more as by default *)
Theorem C49_level_partial r o body s s' b : root s <> 0 -> trun (TWith r o body) s = (s', b) -> effective s' = effective s.
Proof.
  intros Hr E. cbn [trun] in E. destruct (enter r o s) as [[[s0 h] old]|] eqn:En; [|injection E as <- <-; auto].
  destruct (trun body s0) as [s1 b1] eqn:E1. injection E as <- <-.
  assert (Ho : old = effective s) by (unfold enter in En; destruct r; [destruct o; [|discriminate]|]; injection En as _ _ <-; reflexivity).
  subst old. unfold exit, effective in *. destruct h; cbn [set_handlers set_level level root]; destruct (level s) as [|l]; auto;
  destruct (root s) eqn:Er; congruence.
Qed.
(** programs without bare trace(True) / trace(False) *)
Fixpoint no_bare (p : tprog) : Prop := match p with TTrace _ => False | TSeq p q => no_bare p /\ no_bare q | TTry p => no_bare p | TWith _ _ _ => True | _ => True end.
Theorem C49_level_program p s s' b : root s <> 0 -> no_bare p -> trun p s = (s', b) -> effective s' = effective s.
Proof.
  revert s s' b. induction p as [|m|t| |p IHp q IHq|p IHp|r o body IH]; intros s s' b Hr Hn E; cbn [no_bare] in Hn.
  - injection E as <- <-. auto.
  - injection E as <- <-. unfold log. destruct (effective s <=? INFO); auto.
  - destruct Hn.
  - injection E as <- <-. auto.
  - cbn [trun] in E. destruct Hn as [Hp Hq]. destruct (trun p s) as [s1 b1] eqn:E1. assert (Hr1 := trun_root p s). rewrite E1 in Hr1. cbn [fst] in Hr1.
    specialize (IHp _ _ _ Hr Hp E1). destruct b1; [|injection E as <- <-; auto]. assert (Hr2 : root s1 <> 0) by (rewrite Hr1; auto). rewrite (IHq _ _ _ Hr2 Hq E). auto.
  - cbn [trun] in E. injection E as <- <-. destruct (trun p s) as [s1 b1] eqn:E1. cbn [fst]. eauto.
  - eapply C49_level_partial; eauto.
Qed.
(** inside a redirected block without nested redirection, nothing is printed on stderr *)
Fixpoint no_redirect (p : tprog) : Prop := match p with TSeq p q => no_redirect p /\ no_redirect q | TTry p => no_redirect p | TWith r _ body => r = false /\ no_redirect body | _ => True end.
Lemma trun_out p : no_redirect p -> forall s s' b, trun p s = (s', b) -> handlers s' = handlers s /\
  exists new, out s' = out s ++ new /\ Forall (fun x => In (fst x) (handlers s)) new.
Proof.
  induction p as [|m|t| |p IHp q IHq|p IHp|r o body IH]; intros Hn s s' b E; cbn [no_redirect trun] in *.
  - injection E as <- <-. split; auto. exists []. rewrite app_nil_r. auto.
  - injection E as <- <-. unfold log. destruct (effective s <=? INFO); cbn [handlers out]; split; auto.
    + exists (map (fun h => (h, m)) (handlers s)). split; auto. apply Forall_forall. intros x Hx. apply in_map_iff in Hx as [h [<- Hh]]. auto.
    + exists []. rewrite app_nil_r. auto.
  - injection E as <- <-. split; auto. exists []. rewrite app_nil_r. auto.
  - injection E as <- <-. split; auto. exists []. rewrite app_nil_r. auto.
  - destruct Hn as [Hp Hq]. destruct (trun p s) as [s1 b1] eqn:E1. destruct (IHp Hp _ _ _ E1) as [A1 [n1 [A2 A3]]]. destruct b1.
    + destruct (IHq Hq _ _ _ E) as [B1 [n2 [B2 B3]]]. split; [congruence|]. exists (n1 ++ n2). rewrite B2, A2, app_assoc. split; auto.
      apply Forall_app. split; auto. rewrite A1 in B3. auto.
    + injection E as <- <-. eauto.
  - injection E as <- <-. destruct (trun p s) as [s1 b1] eqn:E1. apply (IHp Hn _ _ _ E1).
  - destruct Hn as [-> Hn]. cbn [enter] in E. destruct (trun body (set_level INFO s)) as [s1 b1] eqn:E1. injection E as <- <-.
    apply (IH Hn _ _ _ E1).
Qed.
Theorem C49_redirect body s s' b : 0 < nexth s -> no_redirect body -> trun (TWith true true body) s = (s', b) ->
  exists new, out s' = out s ++ new /\ Forall (fun x => fst x <> 0) new.
Proof.
  intros Hp Hn E. cbn [trun enter] in E. destruct (trun body _) as [s1 b1] eqn:E1. injection E as <- <-.
  destruct (trun_out body Hn _ _ _ E1) as [_ [new [A B]]]. exists new. split; [exact A|].
  eapply Forall_impl; [|exact B]. intros [h m] Hi. cbn [set_level handlers fst] in *. apply in_add in Hi as [->|Hi]; [lia|]. apply in_remove in Hi. tauto.
Qed.
(** *** Exactly what a block prints.  For programs without redirection and without trace(False): [logged] is what they log, in
    order, and whether they return *)
Fixpoint logged (p : tprog) : list string * bool :=
  match p with
  | TSkip | TTrace _ => ([], true)
  | TLog m => ([m], true)
  | TRaise => ([], false)
  | TSeq p q => let (l, b) := logged p in if b then let (l', b') := logged q in (l ++ l', b') else (l, false)
  | TTry p => (fst (logged p), true)
  | TWith _ _ body => logged body
  end.
Fixpoint only_on (p : tprog) : Prop := match p with TTrace b => b = true | TSeq p q => only_on p /\ only_on q | TTry p => only_on p | TWith r _ body => r = false /\ only_on body | _ => True end.
Lemma trun_logged p : only_on p -> forall s s' b, level s = INFO -> trun p s = (s', b) ->
  level s' = INFO /\ handlers s' = handlers s /\ b = snd (logged p) /\
  out s' = out s ++ flat_map (fun m => map (fun h => (h, m)) (handlers s)) (fst (logged p)).
Proof.
  induction p as [|m|t| |p IHp q IHq|p IHp|r o body IH]; intros Hn s s' b Hl E; cbn [only_on trun logged] in *.
  - injection E as <- <-. rewrite app_nil_r. auto.
  - injection E as <- <-. unfold log, effective. rewrite Hl. cbn [INFO Nat.leb level handlers out fst flat_map]. rewrite app_nil_r. auto.
  - injection E as <- <-. subst t. cbn. rewrite app_nil_r. auto.
  - injection E as <- <-. rewrite app_nil_r. auto.
  - destruct Hn as [Hp Hq]. destruct (trun p s) as [s1 b1] eqn:E1. destruct (IHp Hp _ _ _ Hl E1) as (A1 & A2 & A3 & A4).
    destruct (logged p) as [l bl]. cbn [fst snd] in *. subst bl. destruct b1.
    + destruct (IHq Hq _ _ _ A1 E) as (B1 & B2 & B3 & B4). destruct (logged q) as [l' bl']. cbn [fst snd] in *.
      split; [auto|]. split; [congruence|]. split; [auto|]. rewrite B4, A4, A2, flat_map_app, app_assoc. auto.
    + injection E as <- <-. auto.
  - injection E as <- <-. destruct (trun p s) as [s1 b1] eqn:E1. destruct (IHp Hn _ _ _ Hl E1) as (A1 & A2 & A3 & A4). cbn [fst snd]. auto.
  - destruct Hn as [-> Hn]. cbn [enter] in E. destruct (trun body (set_level INFO s)) as [s1 b1] eqn:E1. injection E as <- <-.
    destruct (IH Hn (set_level INFO s) _ _ eq_refl E1) as (A1 & A2 & A3 & A4). cbn [exit]. unfold effective. rewrite Hl. cbn [INFO set_level level handlers out] in *. auto.
Qed.
(** C49: in a redirected block every message, in order, up to where the block ends, goes to the new file's handler and to the handlers that were
    there, but not to stderr's *)
Theorem C49_redirect_exact body s s' b : lwf s -> 0 < nexth s -> only_on body -> trun (TWith true true body) s = (s', b) ->
  b = snd (logged body) /\
  out s' = out s ++ flat_map (fun m => map (fun h => (h, m)) (filter (fun h => negb (Nat.eqb h 0)) (handlers s) ++ [nexth s])) (fst (logged body)).
Proof.
  intros [_ Hw] Hp Hn E. cbn [trun enter] in E.
  assert (Ha : add_handler (nexth s) (remove_handler 0 (handlers s)) = filter (fun h => negb (Nat.eqb h 0)) (handlers s) ++ [nexth s]).
  { unfold add_handler. destruct (existsb _ _) eqn:Ex; [|reflexivity]. apply existsb_exists in Ex as [y [Hy Ey]]. apply Nat.eqb_eq in Ey. subst y.
    apply in_remove in Hy as [Hy _]. apply Hw in Hy. lia. }
  rewrite Ha in E. destruct (trun body _) as [s1 b1] eqn:E1. injection E as <- <-.
  destruct (trun_logged body Hn _ _ _ (eq_refl : level (set_level INFO _) = INFO) E1) as (_ & _ & A3 & A4). split; [auto|exact A4].
Qed.
(** C49: a context without redirection prints on the handlers that are there *)
Theorem C49_context_exact body s s' b : only_on body -> trun (TWith false true body) s = (s', b) ->
  b = snd (logged body) /\ out s' = out s ++ flat_map (fun m => map (fun h => (h, m)) (handlers s)) (fst (logged body)).
Proof.
  intros Hn E. cbn [trun enter] in E. destruct (trun body _) as [s1 b1] eqn:E1. injection E as <- <-.
  destruct (trun_logged body Hn _ _ _ (eq_refl : level (set_level INFO _) = INFO) E1) as (_ & _ & A3 & A4). split; [auto|exact A4].
Qed.
(** C49: trace(True) makes what follows print, trace(False) makes it silent *)
Theorem C49_switch body s s' b t : only_on body -> trun (TSeq (TTrace t) body) s = (s', b) ->
  (t = true -> out s' = out s ++ flat_map (fun m => map (fun h => (h, m)) (handlers s)) (fst (logged body))) /\
  (forall m, t = false -> body = TLog m -> out s' = out s).
Proof.
  intros Hn E. split.
  - intros ->. cbn [trun] in E. destruct (trun_logged body Hn _ _ _ (eq_refl : level (set_level INFO _) = INFO) E) as (_ & _ & A3 & A4). exact A4.
  - intros m -> ->. cbn [trun] in E. injection E as <- <-. reflexivity.
Qed.
(** the block's messages do reach the new handler *)
Theorem C49_redirect_reaches m s s' b : trun (TWith true true (TLog m)) s = (s', b) -> In (nexth s, m) (out s').
Proof.
  intros E. cbn [trun enter] in E. injection E as <- <-. unfold exit, log, effective. cbn [set_handlers set_level level out handlers].
  cbn [INFO Nat.leb out]. apply in_app_iff. right. apply in_map_iff. exists (nexth s). split; auto. apply in_add. auto.
Qed.

Definition fresh : lstate := LS 0 [0] 1 WARNING [].
Example C49_case : lwf fresh /\ 0 < nexth fresh /\ In 0 (handlers fresh) /\ root fresh <> 0 /\
  trun (TTry (TWith true true (TSeq (TLog "a") (TSeq (TWith false true (TLog "b")) TRaise)))) fresh = (LS 30 [0] 2 30 [(1, "a"%string); (1, "b"%string)], true).
Proof.
  split; [split; [repeat constructor; intros []|]|]; [intros h [<-|[]]; cbn; lia|]. split; [cbn; lia|]. split; [cbn; auto|]. split; [discriminate|]. vm_compute. reflexivity.
Qed.

(** C49 is false inside an enclosing redirection: after an inner redirected block, the rest of the outer block is also printed on stderr *)
Theorem C49_nested_refuted : exists s', trun (TWith true true (TSeq (TWith true true TSkip) (TLog "x"))) fresh = (s', true) /\ In (0, "x"%string) (out s').
Proof. eexists. split; [vm_compute; reflexivity|]. cbn. auto. Qed.
(** the logger's own level, NOTSET at first, is not restored but replaced by the level that was effective; from then on it no
    longer follows the root logger *)
Theorem C49_notset_refuted : exists s', trun (TWith false true TSkip) fresh = (s', true) /\ level fresh = 0 /\ level s' = WARNING.
Proof. eexists. split; [vm_compute; reflexivity|auto]. Qed.
(** without stderr's handler, a redirected block installs it *)
Theorem C49_no_stderr_refuted : exists s', trun (TWith true true TSkip) (LS 30 [] 1 30 []) = (s', true) /\ handlers s' = [0].
Proof. eexists. split; vm_compute; reflexivity. Qed.
(** one manager entered twice (with m: with m: ...) forgets its first handler and level: both stay *)
Theorem C49_reentered_refuted : exists s1 h1 old1 s2 h2 old2, enter true true fresh = Some (s1, Some h1, old1) /\ enter true true s1 = Some (s2, Some h2, old2) /\
  handlers (exit (Some h2) old2 (exit (Some h2) old2 s2)) = [h1; 0] /\ effective (exit (Some h2) old2 (exit (Some h2) old2 s2)) = INFO.
Proof. do 6 eexists. split; [vm_compute; reflexivity|]. split; [vm_compute; reflexivity|]. split; vm_compute; reflexivity. Qed.
