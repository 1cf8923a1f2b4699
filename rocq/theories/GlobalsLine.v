(** C33/C35: reading the names of globals off the text of dis.dis (detect.py:152-160). *)
From Coq Require Import String Ascii List Bool Arith Lia.
From Verif Require Import PyDict GlobalsModel.
Import ListNotations.
Local Open Scope string_scope.

Lemma after_last_none ch : forall s, has_char ch s = false -> after_last ch s = s.
Proof. destruct s as [|a r]; intros Hs; [reflexivity|]. cbn [has_char after_last] in *. rewrite Hs. reflexivity. Qed.
Lemma has_char_app ch : forall s t, has_char ch (s ++ t) = has_char ch s || has_char ch t.
Proof. induction s as [|a s IH]; intros t; [reflexivity|]. cbn [append has_char]. rewrite IH, orb_assoc. reflexivity. Qed.
Lemma after_last_app ch : forall pre s, has_char ch s = false -> after_last ch (pre ++ String ch s) = s.
Proof.
  induction pre as [|a pre IH]; intros s Hs.
  - cbn [append after_last]. rewrite Ascii.eqb_refl. apply after_last_none; auto.
  - cbn [append after_last]. rewrite IH by auto. rewrite has_char_app. cbn [has_char]. rewrite Ascii.eqb_refl, !orb_true_r. reflexivity.
Qed.
Lemma before_first_app ch : forall s t, has_char ch s = false -> before_first ch (s ++ String ch t) = s.
Proof.
  induction s as [|a s IH]; intros t Hs; cbn [append before_first].
  - rewrite Ascii.eqb_refl. reflexivity.
  - cbn [has_char] in Hs. apply orb_false_iff in Hs as [-> Hs]. rewrite IH; auto.
Qed.
Lemma strip_prefix_spec : forall p s r, strip_prefix p s = Some r -> s = p ++ r.
Proof.
  induction p as [|a p IH]; intros s r E; cbn [strip_prefix append] in *; [congruence|].
  destruct s as [|b s]; [discriminate|]. destruct (Ascii.eqb_spec a b) as [->|]; [|discriminate]. f_equal. auto.
Qed.
Lemma strip_prefix_app : forall p s, strip_prefix p (p ++ s) = Some s.
Proof. induction p as [|a p IH]; intros s; [destruct s; reflexivity|]. cbn [append strip_prefix]. rewrite Ascii.eqb_refl. apply IH. Qed.
Lemma string_app_nil : forall s, s ++ "" = s.
Proof. induction s as [|a s IH]; cbn [append]; congruence. Qed.

(** nothing is removed from a string without a space: both patterns contain one *)
Lemma remove_all_none ch p : has_char ch p = true -> forall n s, has_char ch s = false -> remove_all n p s = s.
Proof.
  intros Hp. induction n as [|n IH]; intros s Hs; [reflexivity|]. cbn [remove_all].
  destruct (strip_prefix p s) as [r|] eqn:E.
  - apply strip_prefix_spec in E. rewrite E, has_char_app, Hp in Hs. discriminate.
  - destruct s as [|a s]; [reflexivity|]. rewrite IH; auto. cbn [has_char] in Hs. apply orb_false_iff in Hs as [_ Hs]; auto.
Qed.
Lemma replace_none ch p s : has_char ch p = true -> has_char ch s = false -> replace p s = s.
Proof. intros Hp Hs. apply (remove_all_none ch p Hp _ _ Hs). Qed.

Lemma replace_null_prefix : forall name, has_char " " name = false -> replace "NULL + " ("NULL + " ++ name) = name.
Proof.
  intros name Hn. unfold replace. cbn [remove_all]. rewrite strip_prefix_app. apply (remove_all_none " "); auto.
Qed.
(** name ++ " + NULL": if the name itself ends in NULL the first replacement takes "NULL + " out, and the
    name is completed by the NULL that follows *)
Lemma remove_null_plus : forall n name, has_char " " name = false -> String.length (name ++ " + NULL") < n ->
  remove_all n "NULL + " (name ++ " + NULL") = name ++ " + NULL" \/ remove_all n "NULL + " (name ++ " + NULL") = name.
Proof.
  induction n as [|n IH]; intros name Hn Hl; [inversion Hl|]. cbn [remove_all].
  destruct (strip_prefix "NULL + " (name ++ " + NULL")) as [r|] eqn:E.
  - right. apply strip_prefix_spec in E.
    assert (Hc : name = "NULL").
    { assert (Hg : forall c s x y, has_char " " (String c s) = false -> String c s ++ x = String " " y -> False).
      { intros c s x y Hh He. cbn [append] in He. injection He as -> _. cbn in Hh. discriminate. }
      destruct name as [|c1 [|c2 [|c3 [|c4 [|c5 name]]]]]; try discriminate E; cbn [append] in E;
        try (injection E; intros; discriminate).
      - injection E. intros _ -> -> -> ->. reflexivity.
      - injection E. intros _ -> _ _ _ _. cbn in Hn. rewrite !orb_true_r in Hn. discriminate. }
    subst name. cbn [append] in E. injection E as <-. apply (remove_all_none " "); auto.
  - destruct name as [|a name].
    + left. cbn [append] in Hl. cbn [String.length] in Hl. do 7 (destruct n as [|n]; [cbn in Hl; lia|]). reflexivity.
    + cbn [append]. cbn [has_char] in Hn. apply orb_false_iff in Hn as [_ Hn]. cbn [append String.length] in Hl.
      destruct (IH name Hn ltac:(lia)) as [-> | ->]; auto.
Qed.
Lemma remove_plus_null : forall n name, has_char " " name = false -> String.length name < n ->
  remove_all n " + NULL" (name ++ " + NULL") = name.
Proof.
  induction n as [|n IH]; intros name Hn Hl; [inversion Hl|]. destruct name as [|a name]; cbn [remove_all].
  - cbn [append]. replace (strip_prefix " + NULL" " + NULL") with (Some "") by reflexivity. apply (remove_all_none " "); reflexivity.
  - cbn [append has_char] in *. apply orb_false_iff in Hn as [Ha Hn].
    cbn [strip_prefix]. rewrite Ascii.eqb_sym, Ha. cbn [String.length] in Hl. f_equal. apply IH; auto. lia.
Qed.
Lemma replace_null_suffix : forall name, has_char " " name = false ->
  replace " + NULL" (replace "NULL + " (name ++ " + NULL")) = name.
Proof.
  intros name Hn. unfold replace at 2.
  destruct (remove_null_plus (S (String.length (name ++ " + NULL"))) name Hn (le_n _)) as [-> | ->].
  - unfold replace. apply remove_plus_null; auto. cut (String.length name <= String.length (name ++ " + NULL")); [lia|].
    clear. induction name as [|a name IH]; cbn [append String.length]; lia.
  - apply (replace_none " "); auto.
Qed.

(** an identifier has no space and no parenthesis *)
Definition identifier (s : string) : Prop := has_char " " s = false /\ has_char "(" s = false /\ has_char ")" s = false.

(** C33.  In each of the forms in which dis.dis shows the operand of a _GLOBAL instruction, the name read off
    the line is the name of the global, whatever precedes the parenthesis and whatever the name is (also one that
    contains NULL) *)
Theorem C33_names_read : forall pre name, identifier name ->
  parse_line false (pre ++ "(" ++ name ++ ")") = name /\
  parse_line true (pre ++ "(" ++ name ++ ")") = name /\
  parse_line true (pre ++ "(NULL + " ++ name ++ ")") = name /\
  parse_line true (pre ++ "(" ++ name ++ " + NULL)") = name.
Proof.
  intros pre name [H1 [H2 H3]].
  assert (E0 : before_first ")" (after_last "(" (pre ++ "(" ++ name ++ ")")) = name).
  { change ("(" ++ name ++ ")") with (String "(" (name ++ ")")).
    rewrite after_last_app by (rewrite has_char_app, H2; reflexivity). apply before_first_app; auto. }
  unfold parse_line. rewrite E0. split; [reflexivity|]. split.
  { rewrite (replace_none " " "NULL + ") by auto. apply (replace_none " "); auto. }
  split.
  - change ("(NULL + " ++ name ++ ")") with (String "(" (("NULL + " ++ name) ++ ")")).
    rewrite after_last_app by (rewrite !has_char_app, H2; reflexivity). rewrite before_first_app by (rewrite has_char_app, H3; reflexivity).
    rewrite replace_null_prefix by auto. apply (replace_none " "); auto.
  - assert (Ea : (name ++ " + NULL)") = ((name ++ " + NULL") ++ ")")).
    { clear. induction name as [|a name IH]; [reflexivity|]. cbn [append]. f_equal. exact IH. }
    rewrite Ea. change ("(" ++ (name ++ " + NULL") ++ ")") with (String "(" ((name ++ " + NULL") ++ ")")).
    rewrite after_last_app by (rewrite !has_char_app, H2; reflexivity). rewrite before_first_app by (rewrite has_char_app, H3; reflexivity).
    apply replace_null_suffix; auto.
Qed.
Example ex_C33_names_read : parse_line true "  2 LOAD_GLOBAL 1 (NULL + fooNULL)" = "fooNULL" /\ parse_line true "LOAD_GLOBAL 1 (fooNULL + NULL)" = "fooNULL".
Proof. split; reflexivity. Qed.
Print Assumptions C33_names_read.
