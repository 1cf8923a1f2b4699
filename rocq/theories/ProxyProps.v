(** C55 on ProxyModel. *)
From Coq Require Import String Ascii List Bool Arith NArith ZArith Lia.
From Verif Require Import ProxyModel.
Import ListNotations.
Local Open Scope string_scope.

Lemma sapp_assoc (a b c : string) : (a ++ b) ++ c = a ++ (b ++ c).
Proof. induction a as [|x a IH]; cbn [append]; [reflexivity|]. now rewrite IH. Qed.
Lemma sapp_nil (a : string) : a ++ "" = a.
Proof. induction a as [|x a IH]; cbn [append]; [reflexivity|]. now rewrite IH. Qed.

(** every character of a string *)
Fixpoint all (P : ascii -> bool) (s : string) : bool := match s with "" => true | String c r => P c && all P r end.
Lemma all_app P a b : all P (a ++ b) = all P a && all P b.
Proof. induction a as [|x a IH]; cbn [append all]; [reflexivity|]. rewrite IH. apply andb_assoc. Qed.

Lemma rstrip_one s : all (fun c => negb (Ascii.eqb c ">")) s = true -> rstrip_gt (s ++ ">") = s.
Proof.
  induction s as [|c s IH]; intros Hs; [reflexivity|]. cbn [all] in Hs. apply andb_true_iff in Hs as [Hc Hs]. cbn [append rstrip_gt].
  rewrite IH by auto. apply negb_true_iff in Hc. rewrite Hc. reflexivity.
Qed.
(** only the end matters *)
Lemma rstrip_app p s : s <> "" -> rstrip_gt s = s -> rstrip_gt (p ++ s) = p ++ s.
Proof.
  intros Hn Hs. induction p as [|c p IH]; [exact Hs|]. cbn [append rstrip_gt]. rewrite IH.
  destruct (String.eqb (p ++ s) "") eqn:E; [|rewrite andb_false_r; reflexivity].
  apply String.eqb_eq in E. destruct p; cbn in E; congruence.
Qed.
Lemma rstrip_tail p s : s <> "" -> all (fun c => negb (Ascii.eqb c ">")) s = true -> rstrip_gt (p ++ s ++ ">") = p ++ s.
Proof.
  intros Hn Hs. induction p as [|c p IH]; [apply rstrip_one; auto|]. cbn [append rstrip_gt]. rewrite IH.
  destruct (String.eqb (p ++ s) "") eqn:E; [|rewrite andb_false_r; reflexivity].
  apply String.eqb_eq in E. destruct p; cbn in E; congruence.
Qed.

Lemma prefix_nospace s : all (fun c => negb (Ascii.eqb c " ")) s = true -> prefix at_sep s = false.
Proof.
  destruct s as [|c s]; [reflexivity|]. cbn [all]. intros Hs. apply andb_true_iff in Hs as [Hc _]. apply negb_true_iff in Hc.
  unfold at_sep. cbn [prefix]. destruct (ascii_dec " " c) as [<-|]; [discriminate Hc|reflexivity].
Qed.
Lemma last_nospace s : forall st, all (fun c => negb (Ascii.eqb c " ")) s = true -> last_piece st 0 s = st.
Proof.
  induction s as [|c s IH]; intros st Hs; [reflexivity|]. pose proof (prefix_nospace _ Hs) as Hp.
  cbn [last_piece]. rewrite Hp. cbn [all] in Hs. apply andb_true_iff in Hs as [_ Hs]. auto.
Qed.
Lemma prefix_at_inv s : prefix at_sep s = true -> exists r, s = " at " ++ r.
Proof.
  unfold at_sep. intros Hp.
  destruct s as [|c0 s]; [discriminate|]. cbn [prefix] in Hp. destruct (ascii_dec " " c0) as [<-|]; [|discriminate].
  destruct s as [|c1 s]; [discriminate|]. cbn [prefix] in Hp. destruct (ascii_dec "a" c1) as [<-|]; [|discriminate].
  destruct s as [|c2 s]; [discriminate|]. cbn [prefix] in Hp. destruct (ascii_dec "t" c2) as [<-|]; [|discriminate].
  destruct s as [|c3 s]; [discriminate|]. cbn [prefix] in Hp. destruct (ascii_dec " " c3) as [<-|]; [|discriminate].
  exists s. reflexivity.
Qed.
(** the last separator is found unless it overlaps an earlier one *)
Lemma last_piece_at t : (forall st, last_piece st 0 t = st) ->
  forall p st k, (forall q, p <> q ++ " at") -> k <= String.length p -> last_piece st k (p ++ " at " ++ t) = t.
Proof.
  intros Ht. induction p as [|c p IH]; intros st k Hq Hk.
  - cbn in Hk. assert (k = 0) by lia. subst k. change ("" ++ " at " ++ t) with (String " " (String "a" (String "t" (String " " t)))).
    assert (P0 : prefix at_sep (String " " (String "a" (String "t" (String " " t)))) = true) by (destruct t; reflexivity).
    set (u := String "a" (String "t" (String " " t))) in *. cbn [last_piece]. rewrite P0. subst u. cbn [drop last_piece]. apply Ht.
  - assert (Hq' : forall q, p <> q ++ " at") by (intros q E; apply (Hq (String c q)); cbn [append]; congruence).
    cbn [String.length] in Hk. change (String c p ++ " at " ++ t) with (String c (p ++ " at " ++ t)). set (u := p ++ " at " ++ t) in *.
    destruct k as [|k]; cbn [last_piece]; [|apply IH; auto; lia].
    destruct (prefix at_sep (String c u)) eqn:E; [|apply IH; auto; lia]. subst u.
    apply IH; auto. apply prefix_at_inv in E as [r E].
    destruct p as [|c1 p]; [cbn in E; injection E; intros; discriminate|].
    destruct p as [|c2 p]; [cbn in E; injection E; intros; discriminate|].
    destruct p as [|c3 p]; [cbn in E; injection E; intros; subst; exfalso; apply (Hq ""); reflexivity|]. cbn [String.length]. lia.
Qed.
Lemma split_last_at p t : all (fun c => negb (Ascii.eqb c " ")) t = true -> (forall q, p <> q ++ " at") -> split_last (p ++ " at " ++ t) = t.
Proof. intros Ht Hp. unfold split_last. apply last_piece_at; auto; [|lia]. intros st. apply last_nospace. exact Ht. Qed.

(** a written address reads back *)
Lemma digit_hex n : (n < 16)%N -> digit (hexdigit n) = Some (Z.of_N n).
Proof.
  intros Hn. assert (n = 0 \/ n = 1 \/ n = 2 \/ n = 3 \/ n = 4 \/ n = 5 \/ n = 6 \/ n = 7 \/ n = 8 \/ n = 9 \/ n = 10 \/ n = 11 \/ n = 12 \/ n = 13 \/ n = 14 \/ n = 15)%N as C by lia.
  repeat (destruct C as [->|C]; [reflexivity|]). subst. reflexivity.
Qed.
Lemma hexdigit_plain n : (n < 16)%N -> Ascii.eqb (hexdigit n) ">" = false /\ Ascii.eqb (hexdigit n) " " = false.
Proof.
  intros Hn. assert (n = 0 \/ n = 1 \/ n = 2 \/ n = 3 \/ n = 4 \/ n = 5 \/ n = 6 \/ n = 7 \/ n = 8 \/ n = 9 \/ n = 10 \/ n = 11 \/ n = 12 \/ n = 13 \/ n = 14 \/ n = 15)%N as C by lia.
  repeat (destruct C as [->|C]; [split; reflexivity|]). subst. split; reflexivity.
Qed.
Lemma hex_aux_all P f : (forall n, (n < 16)%N -> P (hexdigit n) = true) -> forall n acc, all P acc = true -> all P (hex_aux f n acc) = true.
Proof.
  intros HP. assert (G : forall n, P (hexdigit (n mod 16)%N) = true) by (intros n; apply HP; apply N.mod_lt; discriminate).
  induction f as [|f IH]; intros n acc Ha; cbn [hex_aux]; [cbn [all]; rewrite G; auto|].
  destruct (n <? 16)%N; [cbn [all]; rewrite G; auto|]. apply IH. cbn [all]. rewrite G. auto.
Qed.
Fixpoint zlen (s : string) : Z := match s with "" => 0 | String _ r => Z.succ (zlen r) end.
(** a string is a numeral if reading it, wherever one is, multiplies and adds; reading it always succeeds *)
Definition numeral (s : string) (w : Z) (n : Z) : Prop := forall acc ok r, digits acc ok (s ++ r) = digits (w * acc + n)%Z (match s with "" => ok | _ => true end) r.
Lemma numeral_nil : numeral "" 1 0.
Proof. intros acc ok r. cbn [append]. f_equal. lia. Qed.
Lemma numeral_cons n s w m : (n < 16)%N -> numeral s w m -> numeral (String (hexdigit n) s) (16 * w) (w * Z.of_N n + m).
Proof.
  intros Hn Hs acc ok r. cbn [append digits]. rewrite digit_hex by auto. rewrite Hs. f_equal; [|destruct s; reflexivity]. ring.
Qed.
Lemma size_bound f n : N.size_nat n <= f -> (n < 16 ^ N.of_nat (S f))%N.
Proof.
  intros Hf. assert (G : (n < 2 ^ N.of_nat (N.size_nat n))%N).
  { pose proof (N.size_gt n). assert (E : N.of_nat (N.size_nat n) = N.size n) by (clear; destruct n as [|p]; [reflexivity|]; cbn [N.size_nat N.size]; induction p; cbn [Pos.size_nat Pos.size]; [rewrite Nat2N.inj_succ, IHp; reflexivity|rewrite Nat2N.inj_succ, IHp; reflexivity|reflexivity]). rewrite E. auto. }
  eapply N.lt_le_trans; [exact G|]. transitivity (16 ^ N.of_nat (N.size_nat n))%N.
  - apply N.pow_le_mono_l. lia.
  - apply N.pow_le_mono_r; lia.
Qed.
Lemma numeral_hex f : forall n acc w m, (n < 16 ^ N.of_nat (S f))%N -> numeral acc w m ->
  exists w', numeral (hex_aux f n acc) w' (w * Z.of_N n + m) /\ hex_aux f n acc <> "".
Proof.
  induction f as [|f IH]; intros n acc w m Hn Ha; cbn [hex_aux].
  - cbn in Hn. assert (Hm : (n mod 16 = n)%N) by (apply N.mod_small; lia). rewrite Hm. exists (16 * w)%Z. split; [|discriminate]. apply numeral_cons; auto.
  - destruct (N.ltb_spec n 16) as [Hl|Hl].
    + assert (Hm : (n mod 16 = n)%N) by (apply N.mod_small; lia). rewrite Hm. exists (16 * w)%Z. split; [|discriminate]. apply numeral_cons; auto.
    + assert (Hd : (n / 16 < 16 ^ N.of_nat (S f))%N).
      { apply N.div_lt_upper_bound; [discriminate|]. rewrite <- N.pow_succ_r'. rewrite <- Nat2N.inj_succ. exact Hn. }
      assert (Hr : (n mod 16 < 16)%N) by (apply N.mod_lt; discriminate).
      destruct (IH (n / 16)%N _ _ _ Hd (numeral_cons _ _ _ _ Hr Ha)) as (w' & Hw & Hne). exists w'. split; auto.
      replace (w * Z.of_N n + m)%Z with (16 * w * Z.of_N (n / 16) + (w * Z.of_N (n mod 16) + m))%Z; auto.
      assert (E : Z.of_N n = (16 * Z.of_N (n / 16) + Z.of_N (n mod 16))%Z).
      { rewrite <- (N2Z.inj_mul 16), <- N2Z.inj_add. f_equal. apply N.div_mod'. }
      rewrite E. ring.
Qed.
Lemma int16_hex n : int16 (hex n) = Some (Z.of_N n).
Proof.
  unfold hex. destruct (numeral_hex (N.size_nat n) n "" 1 0 (size_bound _ _ (le_n _)) numeral_nil) as (w & Hw & Hne).
  set (h := hex_aux _ _ _) in *. change ("0x" ++ h) with (String "0" (String "x" h)).
  assert (HA : all (fun c => negb (Ascii.eqb c "_")) h = true).
  { unfold h. apply hex_aux_all; [|reflexivity]. intros k Hk.
    assert (k = 0 \/ k = 1 \/ k = 2 \/ k = 3 \/ k = 4 \/ k = 5 \/ k = 6 \/ k = 7 \/ k = 8 \/ k = 9 \/ k = 10 \/ k = 11 \/ k = 12 \/ k = 13 \/ k = 14 \/ k = 15)%N as C by lia.
    repeat (destruct C as [->|C]; [reflexivity|]). subst. reflexivity. }
  unfold int16. cbn [lstrip]. change (space "0") with false. cbv iota. change (Ascii.eqb "0" "-") with false. change (Ascii.eqb "0" "+") with false. cbv iota.
  unfold unsigned. change (Ascii.eqb "0" "0" && (Ascii.eqb "x" "x" || Ascii.eqb "x" "X")) with true. cbv iota.
  specialize (Hw 0%Z false ""). rewrite sapp_nil in Hw. destruct h as [|c h]; [congruence|]. cbn [all] in HA. apply andb_true_iff in HA as [HA _].
  apply negb_true_iff in HA. rewrite HA. rewrite Hw. cbn [digits]. f_equal. lia.
Qed.
Lemma hex_plain n : all (fun c => negb (Ascii.eqb c ">")) (hex n) = true /\ all (fun c => negb (Ascii.eqb c " ")) (hex n) = true.
Proof.
  unfold hex. rewrite !all_app. split; apply andb_true_iff; (split; [reflexivity|]); apply hex_aux_all; try reflexivity; intros k Hk; destruct (hexdigit_plain k Hk) as [A B]; [rewrite A|rewrite B]; reflexivity.
Qed.

Lemma helper_tail p a : (forall q, p <> q ++ " at") -> int16 (split_last (rstrip_gt (p ++ " at " ++ hex a ++ ">"))) = Some (Z.of_N a).
Proof.
  intros Hp. destruct (hex_plain a) as [A B]. rewrite <- (sapp_assoc p " at " (hex a ++ ">")). rewrite rstrip_tail; auto; [|unfold hex; discriminate].
  rewrite sapp_assoc. rewrite split_last_at; auto. apply int16_hex.
Qed.

Lemma at_suffix p s : all (fun c => negb (Ascii.eqb c " ")) s = true -> s <> "at" -> forall q, p ++ " " ++ s <> q ++ " at".
Proof.
  intros Hs Hn. induction p as [|c x IH]; intros y E.
  - cbn [append] in E. destruct y as [|d y]; cbn [append] in E.
    + injection E as ->. apply Hn. reflexivity.
    + injection E as <- ->. rewrite all_app in Hs. apply andb_true_iff in Hs as [_ Hs]. discriminate.
  - destruct y as [|d y]; cbn [append] in E.
    + injection E as -> E. destruct x as [|c1 x]; cbn in E; [discriminate|]. injection E as -> E.
      destruct x as [|c2 x]; cbn in E; [discriminate|]. injection E as -> E. destruct x; discriminate.
    + injection E as <- E. eapply IH; eauto.
Qed.
Lemma repr_target p cls a : all (fun c => negb (Ascii.eqb c " ")) cls = true -> cls <> "at" ->
  int16 (split_last (rstrip_gt (weakproxy_repr p cls a))) = Some (Z.of_N a).
Proof.
  intros Hc Hn. unfold weakproxy_repr.
  replace ("<weakproxy at " ++ hex p ++ " to " ++ cls ++ " at " ++ hex a ++ ">") with (("<weakproxy at " ++ hex p ++ " to" ++ " " ++ cls) ++ " at " ++ hex a ++ ">").
  - apply helper_tail. intros q. replace ("<weakproxy at " ++ hex p ++ " to" ++ " " ++ cls) with (("<weakproxy at " ++ hex p ++ " to") ++ " " ++ cls) by (rewrite !sapp_assoc; reflexivity).
    apply at_suffix; auto.
  - rewrite !sapp_assoc. reflexivity.
Qed.
Lemma locate_in special gc a : In a (special ++ gc)%list -> locate_object special gc a = Some a.
Proof.
  unfold locate_object. intros Hi. destruct (find (Z.eqb a) (special ++ gc)%list) as [x|] eqn:E.
  - apply find_some in E as [_ E]. apply Z.eqb_eq in E. congruence.
  - exfalso. pose proof (find_none _ _ E a Hi) as F. cbn beta in F. rewrite Z.eqb_refl in F. discriminate.
Qed.

(** C55, for the objects and classes it is true of: a live proxy at [p] of an object at [a], tracked by the collector, of a class whose name is
    not "at" and whose str() does not itself end in a number of base 16: the object saved is the target *)
Theorem C55_target_partial p cls a s idn idt idf ido gc :
  all (fun c => negb (Ascii.eqb c " ")) cls = true -> cls <> "at" ->
  s <> weakproxy_repr p cls a -> int16 (split_last (rstrip_gt s)) = None ->
  In (Z.of_N a) gc -> save_target idn idt idf ido gc (weakproxy_repr p cls a) (Some s) = Some (Z.of_N a).
Proof.
  intros Hc Hn Hs Hi Hg. unfold save_target, proxy_helper. apply String.eqb_neq in Hs. rewrite Hs, Hi, repr_target by auto.
  apply locate_in. apply in_app_iff. right; auto.
Qed.
(** ** a condition on the text alone: what an ordinary repr ends with *)
(** the last character is [c] *)
Definition ends (c : ascii) (s : string) : Prop := exists u, s = u ++ String c "".
(** a character with which a number of base 16 can end: a digit, a letter from a to f, white space; or > *)
Definition number_end (c : ascii) : Prop := In c (list_ascii_of_string "0123456789abcdefABCDEF >") \/ In (nat_of_ascii c) [9; 10; 11; 12; 13]%nat.

Lemma ends_tail c x s : ends c (String x s) -> s <> "" -> ends c s.
Proof. intros [u E] N. destruct u as [|y u]; cbn in E; [injection E as _ ->; congruence|]. injection E as _ ->. exists u. reflexivity. Qed.
Lemma ends_not_nil c s : ends c s -> s <> "".
Proof. intros [u ->]. destruct u; discriminate. Qed.
Lemma number_end_dec c : ~ number_end c -> digit c = None /\ space c = false /\ Ascii.eqb c ">" = false.
Proof.
  intros N. assert (D : forall x, In x (list_ascii_of_string "0123456789abcdefABCDEF >") \/ In (nat_of_ascii x) [9; 10; 11; 12; 13]%nat \/ (digit x = None /\ space x = false /\ Ascii.eqb x ">" = false)).
  { clear. intros [[] [] [] [] [] [] [] []]; first [solve [right; right; repeat split; reflexivity]|solve [left; cbn; tauto]|solve [right; left; cbn; tauto]]. }
  destruct (D c) as [H|[H|H]]; [destruct N; left; exact H|destruct N; right; exact H|exact H].
Qed.
Lemma rstrip_ends c s : Ascii.eqb c ">" = false -> ends c s -> rstrip_gt s = s.
Proof.
  intros Hc. induction s as [|x s IH]; intros E; [reflexivity|]. cbn [rstrip_gt]. destruct s as [|y s].
  - destruct E as [u E]. destruct u as [|z u]; [|destruct u; discriminate]. cbn in E. injection E as ->. cbn. rewrite Hc. reflexivity.
  - rewrite IH by (eapply ends_tail; [exact E|discriminate]). cbn [String.eqb]. rewrite andb_false_r. reflexivity.
Qed.
Lemma last_piece_ends c : space c = false -> forall s start k, ends c start -> (s = "" \/ ends c s) -> ends c (last_piece start k s).
Proof.
  intros Hc. induction s as [|x s IH]; intros start k Hst Hs; [exact Hst|]. cbn [last_piece].
  destruct Hs as [Hs|Hs]; [discriminate|].
  assert (T : s = "" \/ ends c s) by (destruct s; [left; reflexivity|right; eapply ends_tail; [exact Hs|discriminate]]).
  destruct k as [|k]; [|apply IH; auto].
  destruct (prefix at_sep (String x s)) eqn:P; [|apply IH; auto].
  apply IH; [|exact T]. apply prefix_correct in P. cbn [at_sep String.length] in P.
  destruct s as [|x1 [|x2 [|x3 s]]]; try discriminate. cbn in P.
  destruct s as [|x4 s].
  - cbn in P. injection P as -> -> -> ->. destruct Hs as [u E]. exfalso.
    do 4 (destruct u as [|? u]; [injection E; intros; subst; discriminate|injection E as _ E]). destruct u; discriminate.
  - cbn [drop]. do 4 (eapply ends_tail; [|discriminate]). exact Hs.
Qed.
Lemma spaces_ends c s : space c = false -> ends c s -> spaces s = false.
Proof. intros Hc [u ->]. induction u as [|x u IH]; cbn; [rewrite Hc; reflexivity|]. rewrite IH. apply andb_false_r. Qed.
Lemma digits_ends c : digit c = None -> space c = false -> forall s acc ok, ends c s -> digits acc ok s = None.
Proof.
  intros Hd Hc. induction s as [|x s IH]; intros acc ok E; [destruct (ends_not_nil _ _ E); reflexivity|].
  cbn [digits]. destruct s as [|y s].
  - destruct E as [u E]. destruct u as [|z u]; [|destruct u; discriminate]. cbn in E. injection E as ->. rewrite Hd.
    destruct (Ascii.eqb c "_"); [destruct ok; reflexivity|]. cbn [spaces]. rewrite Hc. destruct ok; reflexivity.
  - assert (E' : ends c (String y s)) by (eapply ends_tail; [exact E|discriminate]).
    rewrite (spaces_ends c _ Hc E). rewrite andb_false_r.
    destruct (digit x); [apply IH; exact E'|]. destruct (Ascii.eqb x "_"); [|reflexivity]. destruct ok; [apply IH; exact E'|reflexivity].
Qed.
Lemma unsigned_ends c s : digit c = None -> space c = false -> s = "" \/ ends c s -> unsigned s = None.
Proof.
  intros Hd Hc [->|E]; [reflexivity|]. unfold unsigned. destruct s as [|c0 [|c1 r]]; try (apply (digits_ends c); assumption).
  destruct (_ && _); [|apply (digits_ends c); assumption].
  assert (T : r = "" \/ ends c r).
  { destruct r; [left; reflexivity|right]. do 2 (eapply ends_tail; [|discriminate]). exact E. }
  destruct r as [|c2 r']; [reflexivity|]. destruct T as [T|T]; [discriminate|].
  destruct (Ascii.eqb c2 "_"); [|apply (digits_ends c); assumption].
  destruct r' as [|c3 r']; [reflexivity|]. apply (digits_ends c); auto. eapply ends_tail; [exact T|discriminate].
Qed.
Lemma int16_ends c s : digit c = None -> space c = false -> ends c s -> int16 s = None.
Proof.
  intros Hd Hc E.
  assert (L : forall t, ends c t -> ends c (lstrip t)).
  { induction t as [|x s' IH]; intros E'; [exact E'|]. cbn [lstrip]. destruct (space x) eqn:Sx; [|exact E'].
    destruct s' as [|y s']; [|apply IH; eapply ends_tail; [exact E'|discriminate]].
    destruct E' as [u E']. destruct u as [|z u]; [|destruct u; discriminate]. cbn in E'. injection E' as ->. congruence. }
  unfold int16. specialize (L s E). destruct (lstrip s) as [|x r]; [reflexivity|].
  assert (T : r = "" \/ ends c r) by (destruct r; [left; reflexivity|right; eapply ends_tail; [exact L|discriminate]]).
  destruct (Ascii.eqb x "-"); [rewrite (unsigned_ends c r); auto|]. destruct (Ascii.eqb x "+"); [apply (unsigned_ends c); auto|].
  apply (unsigned_ends c); auto.
Qed.
(** A target whose str() ends in any character a number cannot end in - a quote, a bracket, a letter after f, a full
    stop ... - is found, whatever the rest of the text. *)
Theorem C55_ordinary_str p cls a u c idn idt idf ido gc :
  all (fun c => negb (Ascii.eqb c " ")) cls = true -> cls <> "at" -> ~ number_end c ->
  In (Z.of_N a) gc -> save_target idn idt idf ido gc (weakproxy_repr p cls a) (Some (u ++ String c "")) = Some (Z.of_N a).
Proof.
  intros Hc Hn N Hg. destruct (number_end_dec c N) as (D & S & G).
  assert (E : ends c (u ++ String c "")) by (exists u; reflexivity).
  apply C55_target_partial; auto.
  - intros Q. assert (E' : ends ">" (weakproxy_repr p cls a)).
    { unfold weakproxy_repr. exists ("<weakproxy at " ++ hex p ++ " to " ++ cls ++ " at " ++ hex a). rewrite !sapp_assoc. reflexivity. }
    rewrite <- Q in E'. destruct E' as [v E']. apply Ascii.eqb_neq in G. apply G.
    assert (K : forall a b x y, a ++ String x "" = b ++ String y "" -> x = y).
    { clear. induction a as [|z a IH]; intros [|w b] x y E; cbn in E.
      - injection E as ->. reflexivity.
      - injection E as -> E. destruct b; discriminate.
      - injection E as -> E. destruct a; discriminate.
      - injection E as -> E. eapply IH; eauto. }
    eapply K; eauto.
  - rewrite (rstrip_ends c) by auto. apply (int16_ends c); auto. unfold split_last. apply last_piece_ends; auto.
Qed.
(** the same for the str() every class inherits from object, whatever its name *)
Theorem C55_default_str p cls qual a idn idt idf ido gc :
  all (fun c => negb (Ascii.eqb c " ")) qual = true ->
  In (Z.of_N a) gc -> save_target idn idt idf ido gc (weakproxy_repr p cls a) (Some (object_repr qual a)) = Some (Z.of_N a).
Proof.
  intros Hq Hg. unfold save_target, proxy_helper.
  assert (E : object_repr qual a <> weakproxy_repr p cls a).
  { unfold object_repr, weakproxy_repr. intros E. cbn [append] in E. injection E as E.
    assert (K : forall u x y, all (fun c => negb (Ascii.eqb c " ")) u = true -> forall w, all (fun c => negb (Ascii.eqb c " ")) w = true -> u ++ String " " x = w ++ String " " y -> x = y).
    { clear. induction u as [|c u IH]; intros x y Hu [|d w] Hw E; cbn [append all] in *.
      - injection E as ->. reflexivity.
      - exfalso. injection E as <- _. discriminate Hw.
      - exfalso. injection E as -> _. discriminate Hu.
      - injection E as <- E. apply andb_true_iff in Hu as [_ Hu]. apply andb_true_iff in Hw as [_ Hw]. eapply IH; eauto. }
    pose proof (K qual _ _ Hq "weakproxy" eq_refl E) as X. discriminate X. }
  apply String.eqb_neq in E. rewrite E.
  assert (T : int16 (split_last (rstrip_gt (object_repr qual a))) = Some (Z.of_N a)).
  { unfold object_repr. replace ("<" ++ qual ++ " object at " ++ hex a ++ ">") with ((("<" ++ qual) ++ " " ++ "object") ++ " at " ++ hex a ++ ">") by (rewrite !sapp_assoc; reflexivity).
    apply helper_tail. apply at_suffix; [reflexivity|discriminate]. }
  rewrite T. apply locate_in. apply in_app_iff. right; auto.
Qed.
(** a dead proxy is saved as one of None: it loads dead *)
Theorem C55_dead idn idt idf ido gc r : save_target idn idt idf ido gc r None = Some idn.
Proof. unfold save_target, proxy_helper. apply locate_in. left; auto. Qed.

(** str() equal to repr(): not a proxy; the object itself, if the collector tracks it *)
Theorem C55_not_proxy r idn idt idf ido gc : In ido gc -> save_target idn idt idf ido gc r (Some r) = Some ido.
Proof. intros H. unfold save_target, proxy_helper. rewrite String.eqb_refl. apply locate_in. apply in_app_iff. right; exact H. Qed.

(** but: if str() of the target ends in a number of base 16, the number is taken for the address, and another object is saved, or none *)
Theorem C55_str_refuted p cls a s n idn idt idf ido gc :
  s <> weakproxy_repr p cls a -> int16 (split_last (rstrip_gt s)) = Some n -> n <> Z.of_N a ->
  save_target idn idt idf ido gc (weakproxy_repr p cls a) (Some s) = (if existsb (Z.eqb n) ([idn; idt; idf] ++ gc) then Some n else None).
Proof.
  intros Hs Hn Ha. unfold save_target, proxy_helper. apply String.eqb_neq in Hs. rewrite Hs, Hn. unfold locate_object.
  destruct (existsb (Z.eqb n) ([idn; idt; idf] ++ gc)) eqn:E.
  - apply existsb_exists in E as (x & Hx & Ex). apply Z.eqb_eq in Ex. subst x. apply locate_in. auto.
  - destruct (find (Z.eqb n) ([idn; idt; idf] ++ gc)%list) as [x|] eqn:F; auto. apply find_some in F as [F1 F2]. exfalso.
    assert (existsb (Z.eqb n) ([idn; idt; idf] ++ gc) = true) by (apply existsb_exists; eauto). congruence.
Qed.
(** a target that the collector does not track (a code object) is not found *)
Theorem C55_untracked_refuted p cls a s idn idt idf ido gc :
  all (fun c => negb (Ascii.eqb c " ")) cls = true -> cls <> "at" -> s <> weakproxy_repr p cls a -> int16 (split_last (rstrip_gt s)) = None ->
  ~ In (Z.of_N a) ([idn; idt; idf] ++ gc)%list -> save_target idn idt idf ido gc (weakproxy_repr p cls a) (Some s) = None.
Proof.
  intros Hc Hn Hs Hi Hg. unfold save_target, proxy_helper. apply String.eqb_neq in Hs. rewrite Hs, Hi, repr_target by auto. unfold locate_object.
  destruct (find _ _) as [x|] eqn:F; auto. apply find_some in F as [F1 F2]. apply Z.eqb_eq in F2. subst. contradiction.
Qed.
(** and the address of an instance of a class named "at" cannot be read: ValueError *)
Theorem C55_class_at_refuted p a s idn ido : s <> weakproxy_repr p "at" a -> int16 (split_last (rstrip_gt s)) = None ->
  proxy_helper idn ido (weakproxy_repr p "at" a) (Some s) = None.
Proof.
  intros Hs Hi. unfold proxy_helper. apply String.eqb_neq in Hs. rewrite Hs, Hi. unfold weakproxy_repr. destruct (hex_plain a) as [A B].
  replace ("<weakproxy at " ++ hex p ++ " to " ++ "at" ++ " at " ++ hex a ++ ">") with (("<weakproxy at " ++ hex p ++ " " ++ "to") ++ " at " ++ ("at " ++ hex a) ++ ">") by (rewrite !sapp_assoc; reflexivity).
  rewrite <- (sapp_assoc _ " at " (("at " ++ hex a) ++ ">")).
  rewrite rstrip_tail; [|discriminate|rewrite all_app, A; reflexivity]. rewrite sapp_assoc. unfold split_last.
  rewrite last_piece_at.
  - reflexivity.
  - intros st. change ("at " ++ hex a) with (String "a" (String "t" (String " " (hex a)))). unfold hex in *. cbn [last_piece prefix at_sep append].
    repeat (destruct (ascii_dec _ _) as [X|_]; [discriminate X|]). cbn [last_piece prefix at_sep append].
    change (prefix at_sep (String " " (String "0" (String "x" (hex_aux (N.size_nat a) a ""))))) with false. cbv iota. apply last_nospace. exact B.
  - intros q. replace ("<weakproxy at " ++ hex p ++ " " ++ "to") with (("<weakproxy at " ++ hex p) ++ " " ++ "to") by (rewrite !sapp_assoc; reflexivity). apply at_suffix; [reflexivity|discriminate].
  - lia.
Qed.

(** concrete cases: the default str(), a str() of no number, "cafe", a code object *)
Example ex_reprs : weakproxy_repr 48879 "Foo" 51966 = "<weakproxy at 0xbeef to Foo at 0xcafe>" /\ object_repr "__main__.Foo" 51966 = "<__main__.Foo object at 0xcafe>".
Proof. vm_compute. auto. Qed.
Example ex_default : save_target 1 2 3 48879 [4; 51966; 48879]%Z "<weakproxy at 0xbeef to Foo at 0xcafe>" (Some "<__main__.Foo object at 0xcafe>") = Some 51966%Z.
Proof. vm_compute. reflexivity. Qed.
Example ex_other : save_target 1 2 3 48879 [4; 51966; 48879]%Z "<weakproxy at 0xbeef to Foo at 0xcafe>" (Some "[1, 2]") = Some 51966%Z /\ int16 (split_last (rstrip_gt "[1, 2]")) = None.
Proof. vm_compute. auto. Qed.
Example ex_hex : int16 (split_last (rstrip_gt "dead")) = Some 57005%Z /\
  save_target 1 2 3 48879 [4; 51966; 48879]%Z "<weakproxy at 0xbeef to Foo at 0xcafe>" (Some "dead") = None /\
  save_target 1 2 3 48879 [4; 51966; 48879]%Z "<weakproxy at 0xbeef to Foo at 0xcafe>" (Some "4") = Some 4%Z.
Proof. vm_compute. auto. Qed.
Example ex_int16 : map int16 ["0x1f"; "0X1F"; " 1f "; "+1f"; "-1f"; "0x_1f"; "1_f"; "1__f"; "_1f"; "1f_"; "0x"; ""; "0x0x1"; "1 f"] =
  [Some 31; Some 31; Some 31; Some 31; Some (-31); Some 31; Some 31; None; None; None; None; None; None; None]%Z.
Proof. vm_compute. reflexivity. Qed.
(** a list: "[1, 2]" ends in a bracket; but "dead" ends in a digit of base 16 *)
Theorem C55_ordinary_case : ~ number_end "]" /\ number_end "d" /\
  save_target 1 2 3 48879 [4; 51966; 48879]%Z (weakproxy_repr 48879 "Foo" 51966) (Some "[1, 2]") = Some 51966%Z.
Proof.
  split; [|split].
  - intros [H|H]; cbn in H; intuition discriminate.
  - left. cbn. tauto.
  - reflexivity.
Qed.
