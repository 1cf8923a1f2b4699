(** Lemmas for the bytes of pickles: every opcode written is read back, reading does not depend on what follows. *)
From Coq Require Import String Ascii List Bool Arith NArith ZArith DecimalN Lia.
From Verif Require Import PyDict CoreModel BytesModel.
From Verif Require IdentifyModel IdentifyProofs.
Import ListNotations.
Local Open Scope N_scope.

(** ** decimal numbers *)
Lemma undigits_digits u : undigits (digits u) = Some u.
Proof. induction u; cbn [digits undigits]; auto; rewrite IHu; reflexivity. Qed.
Lemma digits_range u : Forall (fun c => 48 <= c /\ c <= 57) (digits u).
Proof. induction u; cbn [digits]; constructor; auto; lia. Qed.
Lemma dec_nonempty n : dec n <> [].
Proof.
  unfold dec. destruct n as [|p]; [discriminate|]. pose proof (DecimalN.Unsigned.of_to (Npos p)) as E.
  destruct (N.to_uint (Npos p)); cbn [digits]; try discriminate. 
Qed.
Lemma undec_dec n : undec (dec n) = Some n.
Proof.
  unfold undec. pose proof (dec_nonempty n) as Hn. destruct (dec n) as [|c l] eqn:E; [contradiction|]. rewrite <- E. unfold dec.
  rewrite undigits_digits. cbn [option_map]. rewrite DecimalN.Unsigned.of_to. reflexivity.
Qed.
Lemma dec_range n : Forall (fun c => 48 <= c /\ c <= 57) (dec n).
Proof. apply digits_range. Qed.
Lemma undecz_decz z : undecz (decz z) = Some z.
Proof.
  unfold undecz, decz. destruct z as [|p|p].
  - reflexivity.
  - pose proof (dec_range (Z.to_N (Zpos p))) as R. pose proof (undec_dec (Z.to_N (Zpos p))) as D.
    destruct (dec (Z.to_N (Zpos p))) as [|c l]; [discriminate D|]. inversion R; subst. rewrite (proj2 (N.eqb_neq c 45)) by lia. rewrite D. reflexivity.
  - cbn [N.eqb Pos.eqb]. rewrite undec_dec. reflexivity.
Qed.
Lemma decz_range z : Forall (fun c => c = 45 \/ 48 <= c /\ c <= 57) (decz z).
Proof.
  assert (G : forall n, Forall (fun c => c = 45 \/ 48 <= c /\ c <= 57) (dec n)).
  { intros n. eapply Forall_impl; [|apply dec_range]. cbn. auto. }
  destruct z; cbn [decz]; auto.
Qed.
Lemma not_in_range (P : N -> Prop) x l : Forall P l -> ~ P x -> ~ In x l.
Proof. intros F N1 Hi. rewrite Forall_forall in F. auto. Qed.
Lemma dec_no_nl n : ~ In 10 (dec n).
Proof. eapply not_in_range; [apply dec_range|]. cbn. lia. Qed.
Lemma decz_no_nl z : ~ In 10 (decz z).
Proof. eapply not_in_range; [apply decz_range|]. cbn. lia. Qed.

(** ** two's complement *)
Lemma unle_bound l : Forall (fun b => b < 256) l -> unle l < 256 ^ N.of_nat (length l).
Proof.
  induction 1 as [|b l Hb _ IH]; [cbn; lia|]. cbn [unle length]. rewrite Nat2N.inj_succ, N.pow_succ_r'. lia.
Qed.
Lemma le_bytes k : forall n, Forall (fun b => b < 256) (le k n).
Proof. induction k; intros n; cbn [le]; constructor; auto. apply N.mod_lt. lia. Qed.
Lemma unle_app l b : unle (l ++ [b]) = unle l + 256 ^ N.of_nat (length l) * b.
Proof.
  induction l as [|c l IH]; [cbn [app unle length N.of_nat]; rewrite N.pow_0_r; lia|].
  cbn [app unle length]. rewrite IH, Nat2N.inj_succ, N.pow_succ_r'. lia.
Qed.
(** [frombytes] is the number in range that is congruent to the unsigned one *)
Lemma frombytes_spec l z : l <> [] -> Forall (fun b => b < 256) l ->
  (- (128 * 256 ^ Z.of_nat (length l - 1)) <= z < 128 * 256 ^ Z.of_nat (length l - 1))%Z ->
  (z mod 256 ^ Z.of_nat (length l))%Z = Z.of_N (unle l) -> frombytes l = z.
Proof.
  intros Hn Hb Hz E. destruct (exists_last Hn) as (l0 & b & ->). rewrite app_length in *. cbn [length] in *.
  replace (length l0 + 1 - 1)%nat with (length l0) in Hz by lia.
  replace (Z.of_nat (length l0 + 1)) with (Z.succ (Z.of_nat (length l0))) in E by lia. rewrite Z.pow_succ_r in E by lia.
  apply Forall_app in Hb as [Hb0 Hb1]. inversion Hb1 as [|? ? Hb2 _]; subst. pose proof (unle_bound _ Hb0) as U.
  assert (F : frombytes (l0 ++ [b]) = if b <? 128 then Z.of_N (unle (l0 ++ [b])) else (Z.of_N (unle (l0 ++ [b])) - 256 ^ Z.of_nat (length (l0 ++ [b])))%Z).
  { unfold frombytes. rewrite last_last. destruct l0; reflexivity. }
  rewrite F. rewrite app_length. cbn [length]. replace (Z.of_nat (length l0 + 1)) with (Z.succ (Z.of_nat (length l0))) by lia. rewrite Z.pow_succ_r by lia.
  rewrite unle_app in *. set (P := (256 ^ Z.of_nat (length l0))%Z) in *.
  assert (EP : Z.of_N (256 ^ N.of_nat (length l0)) = P). { unfold P. rewrite N2Z.inj_pow. rewrite nat_N_Z. reflexivity. }
  rewrite N2Z.inj_add, N2Z.inj_mul, EP in *. assert (0 < P)%Z by (apply Z.pow_pos_nonneg; lia).
  assert (Z.of_N (unle l0) < P)%Z by lia. assert (0 <= Z.of_N (unle l0))%Z by lia.
  destruct (b <? 128) eqn:Eb.
  - apply N.ltb_lt in Eb. rewrite <- E. destruct (Z.neg_nonneg_cases z).
    + exfalso. assert (z mod (256 * P) = z + 256 * P)%Z by (symmetry; apply Z.mod_unique with (q := (-1)%Z); lia). nia.
    + rewrite Z.mod_small by lia. lia.
  - apply N.ltb_ge in Eb. destruct (Z.neg_nonneg_cases z).
    + assert (z mod (256 * P) = z + 256 * P)%Z by (symmetry; apply Z.mod_unique with (q := (-1)%Z); lia). lia.
    + exfalso. rewrite Z.mod_small in E by lia. nia.
Qed.
Lemma tobytes_length n z : length (tobytes n z) = n.
Proof. apply IdentifyProofs.le_length. Qed.
Lemma tobytes_unle n z : Z.of_N (unle (tobytes n z)) = (z mod 256 ^ Z.of_nat n)%Z.
Proof.
  unfold tobytes. pose proof (Z.mod_pos_bound z (256 ^ Z.of_nat n) ltac:(apply Z.pow_pos_nonneg; lia)) as B.
  rewrite IdentifyProofs.unle_le; [apply Z2N.id; lia|]. apply N2Z.inj_lt. rewrite N2Z.inj_pow, nat_N_Z, Z2N.id by lia. exact (proj2 B).
Qed.
Lemma frombytes_tobytes n z : (- (128 * 256 ^ Z.of_nat n) <= z < 128 * 256 ^ Z.of_nat n)%Z -> frombytes (tobytes (S n) z) = z.
Proof.
  intros Hz. apply frombytes_spec.
  - intros X. pose proof (tobytes_length (S n) z) as L. rewrite X in L. discriminate.
  - apply le_bytes.
  - rewrite tobytes_length. replace (S n - 1)%nat with n by lia. exact Hz.
  - rewrite tobytes_length. symmetry. apply tobytes_unle.
Qed.
Lemma frombytes_encode z : frombytes (encode_long z) = z.
Proof.
  unfold encode_long. destruct (z =? 0)%Z eqn:E0; [apply Z.eqb_eq in E0; subst; reflexivity|].
  set (n := (bit_length z / 8)%nat).
  assert (R : (- (128 * 256 ^ Z.of_nat n) <= z < 128 * 256 ^ Z.of_nat n)%Z).
  { pose proof (N.size_gt (Z.abs_N z)) as G. assert (Z.abs z < 2 ^ Z.of_nat (bit_length z))%Z as A.
    { unfold bit_length. rewrite N_nat_Z. rewrite <- N2Z.inj_abs_N. apply N2Z.inj_lt in G. rewrite N2Z.inj_pow in G. exact G. }
    pose proof (Nat.div_mod (bit_length z) 8 ltac:(lia)) as D. pose proof (Nat.mod_upper_bound (bit_length z) 8 ltac:(lia)) as M. fold n in D.
    assert (2 ^ Z.of_nat (bit_length z) <= 2 ^ (8 * Z.of_nat n + 7))%Z as B by (apply Z.pow_le_mono_r; lia).
    rewrite Z.pow_add_r, Z.pow_mul_r in B by lia. change (2 ^ 8)%Z with 256%Z in B. change (2 ^ 7)%Z with 128%Z in B. lia. }
  pose proof (frombytes_tobytes n z R) as F. change (S (bit_length z / 8)) with (S n).
  cbv zeta. set (l := tobytes (S n) z) in *. destruct ((z <? 0)%Z && (1 <? S n)%nat && (last l 0 =? 255) && (128 <=? last (removelast l) 0)) eqn:E; [|exact F].
  apply andb_true_iff in E as [E E4]. apply andb_true_iff in E as [E E3]. apply andb_true_iff in E as [_ E2].
  apply N.eqb_eq in E3. apply N.leb_le in E4. apply Nat.ltb_lt in E2.
  assert (Ln : length l = S n) by apply tobytes_length. clearbody l. assert (Hn : l <> []) by (intros X; rewrite X in Ln; discriminate).
  pose proof (app_removelast_last 0 Hn) as EL. rewrite E3 in EL. set (k := removelast l) in *. clearbody k.
  assert (Lk : length k = n) by (rewrite EL, app_length in Ln; cbn [length] in Ln; lia).
  assert (Fk : frombytes k = (Z.of_N (unle k) - 256 ^ Z.of_nat n)%Z).
  { unfold frombytes. rewrite (proj2 (N.ltb_ge _ _) E4), Lk. destruct k; [exfalso; cbn [length] in Lk; clearbody n; lia|reflexivity]. }
  assert (Fl : frombytes l = (Z.of_N (unle l) - 256 ^ Z.of_nat (S n))%Z).
  { unfold frombytes. rewrite E3, Ln. destruct l; [contradiction|reflexivity]. }
  rewrite Fk. rewrite <- F, Fl, EL, unle_app, Lk, N2Z.inj_add, N2Z.inj_mul, N2Z.inj_pow, nat_N_Z. rewrite Nat2Z.inj_succ, Z.pow_succ_r by lia.
  change (Z.of_N 256) with 256%Z. change (Z.of_N 255) with 255%Z. lia.
Qed.

(** ** text *)
Lemma str_of_text s : str_of (text_of s) = Some s.
Proof.
  unfold IdentifyModel.text_of. induction s as [|c s IH]; [reflexivity|]. cbn [list_ascii_of_string map str_of].
  pose proof (N_ascii_bounded c) as B. rewrite (proj2 (N.ltb_lt _ _) B), IH. cbn [option_map]. rewrite ascii_N_embedding. reflexivity.
Qed.
Lemma text_utf8 s : text (utf8 (text_of s)) = Some s.
Proof. unfold text. rewrite IdentifyProofs.utf8_roundtrip by apply IdentifyProofs.text_of_point. cbn [bind]. apply str_of_text. Qed.
Lemma utf8_no_nl s : no_nl s = true -> ~ In 10 (utf8 (text_of s)).
Proof.
  unfold no_nl. intros F Hi. apply in_flat_map in Hi as (c & Hc & Hi). rewrite forallb_forall in F. specialize (F c Hc).
  apply negb_true_iff, N.eqb_neq in F. unfold IdentifyModel.utf8_char in Hi.
  pose proof (N.mod_lt c 64 ltac:(lia)). 
  destruct (c <? 128) eqn:E1; [destruct Hi as [Hi|[]]; congruence|].
  destruct (c <? 2048) eqn:E2; [clear - Hi; generalize dependent (c / 64); generalize dependent (c mod 64); intros x y Hi; cbn [In] in Hi; lia|].
  assert (G : forall k x, 10 <= k -> k + x = 10 -> k = 10 /\ x = 0) by (intros; lia).
  destruct (c <? 65536) eqn:E3; cbn [In] in Hi; repeat (destruct Hi as [Hi|Hi]; [apply G in Hi as [Hi _]; [discriminate|discriminate]|]); exact Hi.
Qed.
Lemma strip_L_app x : strip_L (x ++ [76]) = x.
Proof. unfold strip_L. rewrite rev_app_distr. cbn [rev app]. apply rev_involutive. Qed.

(** ** the opcode written is read *)
Lemma counted_app {A} n (f : list N -> option A) a r y : length a = n -> f a = Some y -> counted n (a ++ r) f = Some (y, r).
Proof. intros L E. unfold counted. rewrite (IdentifyProofs.take_app' n a r L). cbn [bind]. rewrite E. reflexivity. Qed.
Lemma counted2_app {A} k (f : list N -> option A) a r y : N.of_nat (length a) < 256 ^ N.of_nat k -> f a = Some y ->
  counted2 k (le k (N.of_nat (length a)) ++ a ++ r) f = Some (y, r).
Proof.
  intros L E. unfold counted2. rewrite (IdentifyProofs.take_app' k) by apply IdentifyProofs.le_length. cbn [bind].
  rewrite IdentifyProofs.unle_le by exact L. rewrite Nat2N.id. apply counted_app; auto.
Qed.
Lemma line_app {A} (f : list N -> option A) a r y : ~ In 10 a -> f a = Some y -> line (a ++ [10] ++ r) f = Some (y, r).
Proof. intros L E. unfold line. rewrite IdentifyProofs.readline_ok by exact L. cbn [bind]. rewrite E. reflexivity. Qed.
Lemma counted_byte {A} (f : list N -> option A) n r y : f [n] = Some y -> counted 1 (n :: r) f = Some (y, r).
Proof. apply (counted_app 1 f [n] r y). reflexivity. Qed.
Lemma le1 n : n < 256 -> le 1 n = [n].
Proof. intros L. cbn [IdentifyModel.le]. rewrite N.mod_small by lia. reflexivity. Qed.
Lemma unle1 n : unle [n] = n.
Proof. cbn [IdentifyModel.unle]. lia. Qed.
Lemma pow4 : 256 ^ N.of_nat 4 = 4294967296. Proof. reflexivity. Qed.

(** an int is never written as pickle's booleans *)
Lemma int_decz z : int_or_bool (decz z) = Some (INT z).
Proof.
  assert (D : decz z <> [48; 48] /\ decz z <> [48; 49]).
  { split; intros X; pose proof (undecz_decz z) as Y; rewrite X in Y; vm_compute in Y; injection Y as <-; vm_compute in X; discriminate. }
  destruct D as [D0 D1]. unfold int_or_bool. rewrite undecz_decz. destruct (decz z) as [|c [|d [|e l]]]; try reflexivity.
  all: repeat (match goal with |- (match ?c with _ => _ end = _) => destruct c end; try reflexivity; try congruence).
Qed.
Lemma lex_enc r b rest : enc r = Some b -> (forall n, r = FRAME n -> (N.to_nat n <= length rest)%nat) -> lex (b ++ rest) = Some (r, rest).
Proof.
  intros E HF.
  assert (IF : forall (c : bool) x, (if c then Some x else None) = Some b -> c = true /\ b = x) by (intros [|] x X; inversion X; auto).
  destruct r as [o|n|n|z|z|z|z|z|s|s|s|s|m n| |i|i|i|i|i|i|n|bo|bi|s|s|s]; cbn [enc] in E.
  - destruct o as [p| | | | |a| | |n| | | | | | | | |i|i| | | | | | |]; try (cbn [plain] in E; inversion E; subst; reflexivity).
    + apply IF in E as [E ->]. cbn [app]. cbv beta iota delta [lex]. apply Nat.ltb_lt in E.
      apply (counted_byte _ _ rest). rewrite unle1, Nat2N.id. reflexivity.
    + destruct a; cbn [plain] in E; try (inversion E; subst; reflexivity). destruct b0; inversion E; subst; reflexivity.
    + destruct n as [|[|[|[|n]]]]; cbn [plain] in E; inversion E; subst; reflexivity.
  - apply IF in E as [E ->]. apply (counted_byte _ _ rest). rewrite unle1. reflexivity.
  - apply IF in E as [E ->]. apply N.ltb_lt in E. apply (counted_app 2 _ (le 2 n) rest); [apply IdentifyProofs.le_length|].
    rewrite IdentifyProofs.unle_le; auto.
  - apply IF in E as [E ->]. apply andb_true_iff in E as [E1 E2]. apply Z.leb_le in E1, E2.
    apply (counted_app 4 _ (tobytes 4 z) rest); [apply tobytes_length|]. rewrite (frombytes_tobytes 3); [reflexivity|]. change (128 * 256 ^ Z.of_nat 3)%Z with 2147483648%Z. lia.
  - cbv zeta in E. apply IF in E as [E ->]. apply N.ltb_lt in E. cbn [app]. cbv beta iota delta [lex].
    rewrite <- (le1 _ E) at 1 || idtac.
    change (N.of_nat (length (encode_long z)) :: encode_long z ++ rest) with ([N.of_nat (length (encode_long z))] ++ encode_long z ++ rest).
    rewrite <- (le1 _ E). apply counted2_app; [exact E|]. rewrite frombytes_encode. reflexivity.
  - cbv zeta in E. apply IF in E as [E ->]. apply N.ltb_lt in E. cbn [app]. cbv beta iota delta [lex]. rewrite <- app_assoc.
    apply counted2_app; [rewrite pow4; lia|]. rewrite frombytes_encode. reflexivity.
  - inversion E; subst. cbn [app]. cbv beta iota delta [lex]. rewrite <- app_assoc. apply line_app; [apply decz_no_nl|]. apply int_decz.
  - inversion E; subst. cbn [app]. cbv beta iota delta [lex].
    replace ((decz z ++ [76; 10]) ++ rest) with ((decz z ++ [76]) ++ [10] ++ rest) by (rewrite <- !app_assoc; reflexivity).
    apply line_app; [|rewrite strip_L_app, undecz_decz; reflexivity]. rewrite in_app_iff. intros [X|[X|[]]]; [eapply decz_no_nl; eauto|discriminate].
  - apply IF in E as [E ->]. apply N.ltb_lt in E. cbn [app]. cbv beta iota delta [lex].
    change (ulen s :: utf8 (text_of s) ++ rest) with ([ulen s] ++ utf8 (text_of s) ++ rest). rewrite <- (le1 _ E). apply counted2_app; [exact E|].
    rewrite text_utf8. reflexivity.
  - apply IF in E as [E ->]. apply N.ltb_lt in E. cbn [app]. cbv beta iota delta [lex]. rewrite <- app_assoc. apply counted2_app; [exact E|].
    rewrite text_utf8. reflexivity.
  - apply IF in E as [E ->]. apply N.ltb_lt in E. cbn [app]. cbv beta iota delta [lex]. rewrite <- app_assoc. apply counted2_app; [exact E|].
    rewrite text_utf8. reflexivity.
  - inversion E; subst. cbn [app]. cbv beta iota delta [lex]. rewrite <- app_assoc. apply line_app; [apply IdentifyProofs.rue_no_nl|].
    rewrite IdentifyProofs.rue_roundtrip by apply IdentifyProofs.text_of_point. cbn [bind]. rewrite str_of_text. reflexivity.
  - apply IF in E as [E ->]. apply andb_true_iff in E as [E1 E2]. cbn [app]. cbv beta iota delta [lex].
    replace ((utf8 (text_of m) ++ 10 :: utf8 (text_of n) ++ [10]) ++ rest) with (utf8 (text_of m) ++ [10] ++ utf8 (text_of n) ++ [10] ++ rest)
      by (cbn [app]; rewrite <- app_assoc; cbn [app]; rewrite <- app_assoc; reflexivity). rewrite IdentifyProofs.readline_ok by (apply utf8_no_nl; auto). cbn [bind].
    apply line_app; [apply utf8_no_nl; auto|]. rewrite !text_utf8. reflexivity.
  - inversion E; subst. reflexivity.
  - apply IF in E as [E ->]. apply (counted_byte _ _ rest). rewrite unle1. reflexivity.
  - apply IF in E as [E ->]. apply N.ltb_lt in E. apply (counted_app 4 _ (le 4 i) rest); [apply IdentifyProofs.le_length|]. rewrite IdentifyProofs.unle_le; auto.
  - inversion E; subst. cbn [app]. cbv beta iota delta [lex]. rewrite <- app_assoc. apply line_app; [apply dec_no_nl|]. rewrite undec_dec. reflexivity.
  - apply IF in E as [E ->]. apply (counted_byte _ _ rest). rewrite unle1. reflexivity.
  - apply IF in E as [E ->]. apply N.ltb_lt in E. apply (counted_app 4 _ (le 4 i) rest); [apply IdentifyProofs.le_length|]. rewrite IdentifyProofs.unle_le; auto.
  - inversion E; subst. cbn [app]. cbv beta iota delta [lex]. rewrite <- app_assoc. apply line_app; [apply dec_no_nl|]. rewrite undec_dec. reflexivity.
  - apply IF in E as [E ->]. apply N.ltb_lt in E. cbn [app]. cbv beta iota delta [lex].
    rewrite (IdentifyProofs.take_app' 8 (le 8 n) rest) by apply IdentifyProofs.le_length. cbn [bind]. rewrite IdentifyProofs.unle_le by exact E.
    rewrite (proj2 (Nat.ltb_ge _ _) (HF n eq_refl)). reflexivity.
  - inversion E; subst. destruct bo; reflexivity.
  - apply IF in E as [E ->]. apply N.ltb_lt in E. cbn [app]. cbv beta iota delta [lex].
    apply (counted_app 8 _ (rev (le 8 bi)) rest); [rewrite rev_length; apply IdentifyProofs.le_length|]. rewrite rev_involutive, IdentifyProofs.unle_le by exact E. reflexivity.
  - apply IF in E as [E ->]. apply N.ltb_lt in E. cbn [app]. cbv beta iota delta [lex].
    change (blen s :: text_of s ++ rest) with ([blen s] ++ text_of s ++ rest). rewrite <- (le1 _ E). apply counted2_app; [exact E|]. rewrite str_of_text. reflexivity.
  - apply IF in E as [E ->]. apply N.ltb_lt in E. cbn [app]. cbv beta iota delta [lex]. rewrite <- app_assoc. apply counted2_app; [exact E|]. rewrite str_of_text. reflexivity.
  - apply IF in E as [E ->]. apply N.ltb_lt in E. cbn [app]. cbv beta iota delta [lex]. rewrite <- app_assoc. apply counted2_app; [exact E|]. rewrite str_of_text. reflexivity.
Qed.

(** ** reading does not depend on what follows *)
Lemma readline_more l x r q : readline l = Some (x, r) -> readline (l ++ q) = Some (x, r ++ q).
Proof.
  revert x r. induction l as [|b l IH]; intros x r E; cbn [IdentifyModel.readline app] in *; [discriminate|].
  destruct (b =? 10); [inversion E; subst; reflexivity|]. destruct (readline l) as [[y s]|]; [|discriminate]. inversion E; subst. rewrite (IH y r eq_refl). reflexivity.
Qed.
Lemma take_more k l x r q : take k l = Some (x, r) -> take k (l ++ q) = Some (x, r ++ q).
Proof.
  unfold IdentifyModel.take. destruct (Nat.ltb_spec (length l) k) as [L|L]; [discriminate|]. intros E. inversion E; subst.
  rewrite (proj2 (Nat.ltb_ge _ _)) by (rewrite app_length; lia). rewrite firstn_app, skipn_app.
  replace (k - length l)%nat with 0%nat by lia. rewrite firstn_O, skipn_O, app_nil_r. reflexivity.
Qed.
Lemma counted_more {A} k l (f : list N -> option A) y r q : counted k l f = Some (y, r) -> counted k (l ++ q) f = Some (y, r ++ q).
Proof.
  unfold counted. destruct (take k l) as [[x s]|] eqn:E; [|discriminate]. rewrite (take_more _ _ _ _ q E). cbn [bind].
  destruct (f x); [|discriminate]. cbn [option_map]. intros X. inversion X; subst. reflexivity.
Qed.
Lemma counted2_more {A} k l (f : list N -> option A) y r q : counted2 k l f = Some (y, r) -> counted2 k (l ++ q) f = Some (y, r ++ q).
Proof.
  unfold counted2. destruct (take k l) as [[x s]|] eqn:E; [|discriminate]. rewrite (take_more _ _ _ _ q E). cbn [bind]. apply counted_more.
Qed.
Lemma line_more {A} l (f : list N -> option A) y r q : line l f = Some (y, r) -> line (l ++ q) f = Some (y, r ++ q).
Proof.
  unfold line. destruct (readline l) as [[x s]|] eqn:E; [|discriminate]. rewrite (readline_more _ _ _ q E). cbn [bind].
  destruct (f x); [|discriminate]. cbn [option_map]. intros X. inversion X; subst. reflexivity.
Qed.
Lemma lex_more l o r q : lex l = Some (o, r) -> lex (l ++ q) = Some (o, r ++ q).
Proof.
  destruct l as [|c l]; [discriminate|]. cbn [app].
  assert (GC : forall k f, counted k l f = Some (o, r) -> counted k (l ++ q) f = Some (o, r ++ q)) by (intros; apply counted_more; auto).
  assert (G2 : forall k f, counted2 k l f = Some (o, r) -> counted2 k (l ++ q) f = Some (o, r ++ q)) by (intros; apply counted2_more; auto).
  assert (GL : forall f, line l f = Some (o, r) -> line (l ++ q) f = Some (o, r ++ q)) by (intros; apply line_more; auto).
  assert (GO : forall o', Some (o', l) = Some (o, r) -> Some (o', l ++ q) = Some (o, r ++ q)) by (intros o' X; inversion X; subst; reflexivity).
  assert (GG : bind (readline l) (fun '(x, r) => line r (fun y => bind (text x) (fun m => option_map (GLOBAL m) (text y)))) = Some (o, r) ->
               bind (readline (l ++ q)) (fun '(x, r) => line r (fun y => bind (text x) (fun m => option_map (GLOBAL m) (text y)))) = Some (o, r ++ q)).
  { destruct (readline l) as [[x s]|] eqn:E; [|discriminate]. rewrite (readline_more _ _ _ q E). cbn [bind]. apply line_more. }
  assert (GF : bind (take 8 l) (fun '(x, r) => if (length r <? N.to_nat (unle x))%nat then None else Some (FRAME (unle x), r)) = Some (o, r) ->
               bind (take 8 (l ++ q)) (fun '(x, r) => if (length r <? N.to_nat (unle x))%nat then None else Some (FRAME (unle x), r)) = Some (o, r ++ q)).
  { destruct (take 8 l) as [[x s]|] eqn:E; [|discriminate]. rewrite (take_more _ _ _ _ q E). cbn [bind].
    destruct (Nat.ltb_spec (length s) (N.to_nat (unle x))) as [L|L]; [discriminate|]. intros X. inversion X; subst.
    rewrite (proj2 (Nat.ltb_ge _ _)) by (rewrite app_length; lia). reflexivity. }
  unfold lex. 
  repeat (match goal with |- (match ?c with _ => _ end = _ -> _) => destruct c end; try discriminate; try apply GC; try apply G2; try apply GL; try apply GO; try apply GG; try apply GF).
Qed.
