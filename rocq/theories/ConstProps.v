(** C101: getimport(value, alias), and so importable(value, alias), of a value of a builtin class: a text that gives the value *)
From Coq Require Import String Ascii List Bool Arith Lia.
From Verif Require Import PyDict NamesModel NamesProofs DescrModel DescrProps CheckModel ImportModel ImportProps DumpsourceProps NamespaceModel NamespaceProps InstanceModel InstanceProps ConstModel.
Import ListNotations.
Local Open Scope string_scope.

(** ** the specification *)
(** a value of the builtin class [k]: it is in no module *)
Definition value_of (k : string) (o : thing) : Prop :=
  is_ident k = true /\ special o = false /\ in_module o = None /\ scalar o = None /\ type_module o = Some "builtins" /\ class_module o = Some "builtins" /\ class_str o = "<class '" ++ k ++ "'>".
(** no infinity, no nan *)
Definition finite (o : thing) : Prop := ~ In (str_ o) ["inf"; "nan"; "Inf"; "NaN"].
(** the module types has this name *)
Definition in_types (E : env) (n : string) : Prop := exists m, get "types" (modules E) = Some m /\ In n (keys (attr E m)).
(** the line that evaluates [r], and binds it to the alias if there is one *)
Definition line_for (alias r : string) : string := (if String.eqb alias "" || String.eqb alias r then "" else alias ++ " = ") ++ r ++ eol.
(** [r], under the alias, in an import statement *)
Definition under (alias r : string) : string := if String.eqb alias "" || String.eqb alias r then r else r ++ " as " ++ alias.
(** a list of names as import statements have it:  a, b as c  or  (a, b as c)  or  (a, b as c,) *)
Fixpoint spaces (n : nat) : string := match n with 0 => "" | Datatypes.S n => String " " (spaces n) end.
Definition named (s : string) : Prop := is_ident s = true /\ ~ In s keywords.
Definition piece (s : string) : Prop := exists n t, named t /\ (s = spaces n ++ t \/ exists b, named b /\ s = spaces n ++ t ++ " as " ++ b).
Definition import_list (s : string) : Prop := exists l, l <> [] /\ Forall piece l /\
  (s = String.concat "," l \/ s = "(" ++ String.concat "," l ++ ")" \/ s = "(" ++ String.concat "," l ++ ",)").
(** what [r] begins with: after a bracket, up to a space or comma *)
Fixpoint first_word (s : string) : string := match s with EmptyString => "" | String c r => if Ascii.eqb c " " || Ascii.eqb c "," then "" else String c (first_word r) end.
Definition opening (s : string) : string := match s with String "(" r => first_word r | _ => first_word s end.

(** ** reading lists of names *)
Lemma concat_cons1 c x l : l <> [] -> String.concat c (x :: l) = x ++ c ++ String.concat c l.
Proof. destruct l; [congruence|reflexivity]. Qed.
Lemma split_aux_ne c s : forall cur, split_aux c cur s <> [].
Proof. induction s as [|a s IH]; intros cur; cbn [split_aux]; [discriminate|]. destruct (Ascii.eqb a c); [discriminate|apply IH]. Qed.
Lemma concat_split_aux c s : forall cur, String.concat (String c "") (split_aux c cur s) = cur ++ s.
Proof.
  induction s as [|a s IH]; intros cur; cbn [split_aux].
  - rewrite app_nil_s. reflexivity.
  - destruct (Ascii.eqb_spec a c) as [->|].
    + rewrite concat_cons1 by apply split_aux_ne. rewrite IH. reflexivity.
    + rewrite IH, app_assoc_s. reflexivity.
Qed.
Lemma concat_split c s : String.concat (String c "") (split c s) = s.
Proof. apply (concat_split_aux c s ""). Qed.
Lemma split_concat c l : l <> [] -> Forall (without c) l -> split c (String.concat (String c "") l) = l.
Proof.
  intros N F. induction F as [|x l X F IH]; [congruence|]. destruct l as [|y l].
  - cbn [String.concat]. unfold split. rewrite split_aux_line by exact X. reflexivity.
  - rewrite concat_cons1 by discriminate. change (x ++ String c "" ++ String.concat (String c "") (y :: l)) with (x ++ String c (String.concat (String c "") (y :: l))).
    rewrite split_one by exact X. rewrite IH by discriminate. reflexivity.
Qed.
Lemma skip_spec s : exists n, s = spaces n ++ skip s.
Proof.
  induction s as [|c s [n IH]]; [exists 0; reflexivity|]. destruct (Ascii.eqb_spec c " ") as [->|N].
  - exists (Datatypes.S n). cbn [skip spaces append]. f_equal. exact IH.
  - exists 0. assert (skip (String c s) = String c s) as ->; [|reflexivity]. cbn [skip]. destruct c as [[] [] [] [] [] [] [] []]; try reflexivity. congruence.
Qed.
Lemma skip_app n s : (exists c r, s = String c r /\ c <> " "%char) -> skip (spaces n ++ s) = s.
Proof.
  intros (c & r & -> & N). induction n as [|n IH]; [|exact IH]. cbn [spaces append skip]. destruct c as [[] [] [] [] [] [] [] []]; try reflexivity. congruence.
Qed.
Lemma is_nm_spec s : is_nm s = true <-> named s.
Proof.
  unfold is_nm, named. rewrite andb_true_iff, negb_true_iff. split; intros [A B]; (split; [exact A|]); [apply memb_nIn, B|apply memb_nIn; exact B].
Qed.
Lemma named_head s : named s -> exists c r, s = String c r /\ is_start c = true.
Proof. intros [H _]. destruct s as [|c r]; [discriminate|]. cbn [is_ident] in H. apply andb_prop in H as [A _]. exists c, r. auto. Qed.
Lemma start_not c : is_start c = true -> c <> " "%char /\ c <> "("%char /\ c <> ","%char.
Proof. intros H. repeat split; intros ->; discriminate H. Qed.
Lemma clause_spec s : (exists x, clause s = Some x) <-> piece s.
Proof.
  split.
  - intros [x H]. unfold clause in H. destruct (skip_spec s) as [n Q]. pose proof (concat_split " " (skip s)) as C.
    destruct (split " " (skip s)) as [|t [|a [|b [|z l]]]] eqn:W; try discriminate H.
    + destruct (is_nm t) eqn:T; [|discriminate H]. exists n, t. split; [apply is_nm_spec, T|]. left. cbn [String.concat] in C. rewrite C. exact Q.
    + destruct (is_nm t && String.eqb a "as" && is_nm b) eqn:T; [|discriminate H]. apply andb_prop in T as [T B]. apply andb_prop in T as [T A]. apply String.eqb_eq in A. subst a.
      exists n, t. split; [apply is_nm_spec, T|]. right. exists b. split; [apply is_nm_spec, B|]. rewrite Q at 1. f_equal. rewrite <- C. cbn [String.concat]. reflexivity.
  - intros (n & t & T & H). destruct (named_head t T) as (c & r & Et & C). apply start_not in C as (C & _).
    assert (Wt : without " " t) by (apply ident_without; [reflexivity|apply T]). pose proof (proj2 (is_nm_spec t) T) as Nt. unfold clause. destruct H as [->|(b & B & ->)].
    + rewrite skip_app by (exists c, r; auto). unfold split. rewrite split_aux_line by exact Wt. cbn [append]. rewrite Nt. eexists. reflexivity.
    + rewrite skip_app by (exists c, (r ++ " as " ++ b); rewrite Et; auto).
      change (t ++ " as " ++ b) with (t ++ String " " ("as" ++ String " " b)). rewrite split_one by exact Wt. rewrite split_one by reflexivity.
      assert (Wb : without " " b) by (apply ident_without; [reflexivity|apply B]). unfold split. rewrite split_aux_line by exact Wb. cbn [append].
      rewrite Nt, (proj2 (is_nm_spec b) B). eexists. reflexivity.
Qed.
Lemma all_some_spec {A} (l : list (option A)) : (exists r, all_some l = Some r) <-> Forall (fun x => exists y, x = Some y) l.
Proof.
  induction l as [|[x|] l IH]; cbn [all_some].
  - split; [constructor|eexists; reflexivity].
  - split.
    + intros [r H]. constructor; [eexists; reflexivity|]. apply IH. destruct (all_some l); [eexists; reflexivity|discriminate].
    + intros H. inversion H as [|? ? _ F]; subst. apply IH in F as [r ->]. eexists. reflexivity.
  - split; [intros [r H]; discriminate|]. intros H. inversion H as [|? ? [y Y] _]; subst. discriminate.
Qed.
Lemma all_clauses l : (exists r, all_some (map clause l) = Some r) <-> Forall piece l.
Proof. rewrite all_some_spec, Forall_map. split; apply Forall_impl; intros a; apply clause_spec. Qed.
Lemma ending_spec c s r : ending c s = Some r <-> s = r ++ String c "".
Proof.
  revert r. induction s as [|a s IH]; intros r.
  - split; [discriminate|]. destruct r; discriminate.
  - destruct s as [|b s].
    + cbn [ending]. destruct (Ascii.eqb_spec a c) as [->|N]; split.
      * intros [= <-]. reflexivity.
      * destruct r as [|x [|y r]]; cbn [append]; [reflexivity| |]; intros H; discriminate H.
      * discriminate.
      * destruct r as [|x [|y r]]; cbn [append]; intros H; [congruence|discriminate H|discriminate H].
    + change (ending c (String a (String b s))) with (match ending c (String b s) with Some r => Some (String a r) | None => None end).
      destruct (ending c (String b s)) as [t|]; split.
      * intros [= <-]. cbn [append]. f_equal. apply IH. reflexivity.
      * destruct r as [|x r]; cbn [append]; [discriminate|]. intros [= -> H]. apply IH in H. congruence.
      * discriminate.
      * destruct r as [|x r]; cbn [append]; [discriminate|]. intros [= -> H]. apply IH in H. discriminate H.
Qed.
Lemma piece_without s : piece s -> without "," s.
Proof.
  assert (Sp : forall n, without "," (spaces n)) by (induction n as [|n IH]; [reflexivity|exact IH]).
  intros (n & t & T & [->|(b & B & ->)]); repeat apply without_app; try apply Sp; try reflexivity; apply ident_without; try reflexivity; (apply T || apply B).
Qed.
Lemma piece_head s : piece s -> exists c r, s = String c r /\ c <> "("%char /\ c <> ","%char.
Proof.
  intros (n & t & T & H). destruct (named_head t T) as (c & r & Et & C). apply start_not in C as (_ & C & D). destruct n as [|n].
  - destruct H as [->|(b & B & ->)]; rewrite Et; cbn [spaces append]; eauto.
  - destruct H as [->|(b & B & ->)]; cbn [spaces append]; eexists; eexists; (split; [reflexivity|split; intros X; discriminate X]).
Qed.
Lemma snoc_last a b x y : a ++ String x "" = b ++ String y "" -> a = b /\ x = y.
Proof.
  revert b. induction a as [|c a IH]; intros [|d b]; cbn [append]; intros H.
  - split; congruence.
  - exfalso. injection H as _ H. destruct b; discriminate H.
  - exfalso. injection H as _ H. destruct a; discriminate H.
  - injection H as -> H. apply IH in H as [-> ->]. split; reflexivity.
Qed.
Lemma concat_last l : l <> [] -> Forall piece l -> forall r, String.concat "," l <> r ++ ",".
Proof.
  intros N F r H. assert (L : exists l0 z, l = (l0 ++ [z])%list) by (destruct (exists_last N) as (l0 & z & Z); eauto). destruct L as (l0 & z & ->).
  apply Forall_app in F as [_ F]. inversion F as [|? ? P _]; subst.
  assert (Q : forall l0, exists y, String.concat "," (l0 ++ [z])%list = y ++ z).
  { induction l1 as [|x l1 [y IH]]; [exists ""; reflexivity|]. cbn [app]. rewrite concat_cons1 by (destruct l1; discriminate). rewrite IH. exists (x ++ "," ++ y).
    rewrite !app_assoc_s. reflexivity. }
  destruct (Q l0) as [y Y]. rewrite Y in H. pose proof (piece_without z P) as W. destruct (piece_head z P) as (c & t & -> & _).
  clear - H W. assert (G : forall z y, z <> "" -> without "," z -> y ++ z <> r ++ ",").
  { clear. intros z y Nz W H. revert y r H. induction z as [|a z IH]; [congruence|]. intros y r H. unfold without in W. cbn [all_chars] in W. apply andb_prop in W as [A W].
    destruct z as [|b z].
    - apply snoc_last in H as [_ ->]. discriminate A.
    - apply (IH ltac:(discriminate) W (y ++ String a "") r). rewrite app_assoc_s. exact H. }
  exact (G (String c t) y ltac:(discriminate) W H).
Qed.
Lemma clauses_spec s : (exists l, clauses s = Some l) <-> import_list s.
Proof.
  assert (Pl : forall b, (exists l, all_some (map clause (split "," b)) = Some l) -> exists l, l <> [] /\ Forall piece l /\ b = String.concat "," l).
  { intros b H. apply all_clauses in H. exists (split "," b). split; [apply split_aux_ne|]. split; [exact H|]. symmetry. apply concat_split. }
  assert (Ps : forall l, l <> [] -> Forall piece l -> exists r, all_some (map clause (split "," (String.concat "," l))) = Some r).
  { intros l N F. rewrite split_concat; [|exact N|]; [apply all_clauses, F|]. eapply Forall_impl; [|exact F]. exact piece_without. }
  split.
  - intros H. unfold clauses in H.
    assert (D : (exists r, s = String "(" r) \/ (exists l, all_some (map clause (split "," s)) = Some l)).
    { destruct s as [|c r]; [right; exact H|]. destruct (Ascii.eqb_spec c "(") as [->|N]; [left; eauto|right]. destruct c as [[] [] [] [] [] [] [] []]; try exact H. congruence. }
    destruct D as [[r ->]|D].
    + destruct (ending ")" r) as [t|] eqn:Et; [|destruct H as [l H]; discriminate H]. apply ending_spec in Et. subst r.
      destruct (ending "," t) as [u|] eqn:Eu.
      * apply ending_spec in Eu. subst t. destruct (Pl u H) as (l & N & F & ->). exists l. split; [exact N|]. split; [exact F|]. right. right. rewrite app_assoc_s. reflexivity.
      * destruct (Pl t H) as (l & N & F & ->). exists l. auto.
    + destruct (Pl s D) as (l & N & F & ->). exists l. auto.
  - intros (l & N & F & H). unfold clauses. destruct H as [->|[H|H]]; [|rewrite H; clear H|rewrite H; clear H].
    + destruct (Ps l N F) as [r R]. assert (Hd : exists c t, String.concat "," l = String c t /\ c <> "("%char).
      { destruct l as [|x l]; [congruence|]. inversion F as [|? ? P _]; subst. destruct (piece_head x P) as (c & t & -> & C & _). destruct l; cbn [String.concat append]; eauto. }
      destruct Hd as (c & t & Q & C). rewrite Q in *. destruct c as [[] [] [] [] [] [] [] []]; try (exists r; exact R). congruence.
    + cbn [append]. rewrite (proj2 (ending_spec ")" _ _) eq_refl). destruct (ending "," (String.concat "," l)) as [u|] eqn:Eu; [|apply Ps; assumption].
      apply ending_spec in Eu. exfalso. exact (concat_last l N F u Eu).
    + cbn [append]. assert (String.concat "," l ++ ",)" = (String.concat "," l ++ ",") ++ ")") as -> by (rewrite app_assoc_s; reflexivity).
      rewrite (proj2 (ending_spec ")" _ _) eq_refl). rewrite (proj2 (ending_spec "," _ _) eq_refl). apply Ps; assumption.
Qed.

(** ** the text *)
Lemma intypes_spec E n : n <> "ellipsis" -> intypes E n = false <-> ~ in_types E n.
Proof.
  intros N. unfold intypes, in_types. rewrite (proj2 (String.eqb_neq _ _) N). destruct (get "types" (modules E)) as [m|].
  - rewrite <- not_true_iff_false, has_keys. split; intros H X; apply H; [destruct X as (m' & [= <-] & X); exact X|exists m; auto].
  - split; [intros _ (m & X & _); discriminate X|reflexivity].
Qed.
Lemma namespace_value E k o : value_of k o -> finite o -> k <> "ellipsis" -> namespace_of E o = [if intypes E k then "types" else "builtins"; k].
Proof.
  intros (K & Sp & M & Sc & Tm & Cm & Cs) F N. unfold namespace_of. rewrite M. unfold by_class. rewrite (proj2 (memb_nIn _ _) F), Cm. change (is_builtins "builtins") with true. cbv iota.
  assert (class_path (class_str o) = [k]) as -> by (rewrite Cs; apply (class_path_ok [] k); [constructor|exact K]). cbn [last with_last removelast app].
  rewrite (proj2 (String.eqb_neq _ _) N). reflexivity.
Qed.
Lemma exec_error E h r g : is_nm h = true -> has_dot h = false -> (exists l, clauses r = Some l /\ exec_from E h r g = bring E h l g) \/ (clauses r = None /\ exec_from E h r g = Err SyntaxError).
Proof.
  intros H D. unfold exec_from. assert (split_dot h = [h]) as -> by (change h with (join_dot [h]) at 1; apply split_join; [discriminate|repeat constructor; exact D]).
  cbn [forallb]. rewrite H. cbn [andb]. destruct (clauses r) as [l|]; [left; eauto|right; auto].
Qed.
Lemma bring_error E h l : forall g e, bring E h l g = Err e -> e = ImportError.
Proof.
  induction l as [|[t a] l IH]; intros g e H; cbn [bring] in H; [discriminate|]. destruct (from_import E h t) as [x|e'] eqn:Fi; [exact (IH _ _ H)|].
  unfold from_import, import_ in Fi. destruct (get h (modules E)); [|congruence]. destruct (get t (attr E n)); [discriminate|]. destruct (get (h ++ "." ++ t) (modules E)); congruence.
Qed.
Section Text.
  Variables (E : env) (o : thing) (k : string).
  Hypotheses (V : value_of k o) (F : finite o) (Nk : k <> "ellipsis") (Tk : ~ in_types E k).
  Lemma namespace_plain : namespace_of E o = ["builtins"; k].
  Proof. rewrite (namespace_value E k o V F Nk), (proj2 (intypes_spec E k Nk) Tk). reflexivity. Qed.

  (** C101: without builtin=True: the repr *)
  Theorem C101_plain : forall alias verify, ~ angled (repr_ o) -> ~ In (repr_ o) [""; "ellipsis"] -> ~ in_types E (repr_ o) ->
    getimport_value E o alias verify false = Some (Ok (line_for alias (repr_ o))).
  Proof.
    intros alias verify An Nr Tr. assert (N1 : repr_ o <> "") by (intros Q; apply Nr; rewrite Q; left; reflexivity). assert (N2 : repr_ o <> "ellipsis") by (intros Q; apply Nr; rewrite Q; right; left; reflexivity).
    unfold getimport_value. rewrite namespace_plain. destruct (styled (repr_ o)) eqn:St; [exfalso; apply An, styled_angled, St|]. change (is_builtins "builtins") with true. cbv iota.
    assert (match repr_ o with "" => None | _ => Some (repr_ o) end = Some (repr_ o)) as -> by (destruct (repr_ o); [congruence|reflexivity]).
    unfold getimport2, getimport1. change (String.eqb "builtins" "types") with false. cbn [andb]. change (is_builtins "builtins") with true. cbn [andb].
    rewrite (proj2 (String.eqb_neq _ _) N2), (proj2 (intypes_spec E _ N2) Tr). reflexivity.
  Qed.
  (** C101: with builtin=True: the repr, exactly if it is no list of names that an import statement can have *)
  Theorem C101_builtin : forall alias, ~ angled (repr_ o) -> ~ In (repr_ o) [""; "ellipsis"] -> ~ in_types E (repr_ o) ->
    getimport_value E o alias true true = Some (Ok (line_for alias (repr_ o))) <-> ~ import_list (under alias (repr_ o)).
  Proof.
    intros alias An Nr Tr. assert (N1 : repr_ o <> "") by (intros Q; apply Nr; rewrite Q; left; reflexivity). assert (N2 : repr_ o <> "ellipsis") by (intros Q; apply Nr; rewrite Q; right; left; reflexivity).
    unfold getimport_value. rewrite namespace_plain. destruct (styled (repr_ o)) eqn:St; [exfalso; apply An, styled_angled, St|]. change (is_builtins "builtins") with true. cbv iota.
    assert (match repr_ o with "" => None | _ => Some (repr_ o) end = Some (repr_ o)) as -> by (destruct (repr_ o); [congruence|reflexivity]).
    unfold getimport2, getimport1. change (String.eqb "builtins" "types") with false. cbn [andb]. change (is_builtins "builtins") with true. cbn [andb negb].
    rewrite (proj2 (String.eqb_neq _ _) N2), (proj2 (intypes_spec E _ N2) Tr). cbn [negb andb]. change (startswith "dill." "builtins") with false. cbn [negb].
    change (imported (repr_ o) alias) with (under alias (repr_ o)).
    assert (Ne : forall A : Prop, Some (Ok ("from " ++ "builtins" ++ " import " ++ under alias (repr_ o) ++ nl)) = Some (Ok (line_for alias (repr_ o))) -> A).
    { intros A Q. exfalso. injection Q as Q. apply (f_equal String.length) in Q. revert Q. unfold under, line_for, nl, eol.
      destruct (String.eqb alias "" || String.eqb alias (repr_ o)); cbn [append String.length]; rewrite ?length_app_s; cbn [append String.length]; rewrite ?length_app_s; cbn [append String.length];
        rewrite ?length_app_s; cbn [String.length]; lia. }
    destruct (exec_error E "builtins" (under alias (repr_ o)) [] eq_refl eq_refl) as [(l & C & ->)|[C ->]].
    - split; [|intros X; exfalso; apply X, clauses_spec; eauto]. destruct (bring E "builtins" l []) as [g|e] eqn:B; [apply Ne|]. apply bring_error in B. subst e. apply Ne.
    - split; [|reflexivity]. intros _ X. apply clauses_spec in X as [l X]. congruence.
  Qed.
End Text.

(** ** what is no list of names *)
Lemma first_word_ident s r : is_ident s = true -> first_word (s ++ r) = s ++ first_word r.
Proof.
  intros H. assert (W1 : without " " s) by (apply ident_without; [reflexivity|exact H]). assert (W2 : without "," s) by (apply ident_without; [reflexivity|exact H]). clear H.
  unfold without in *. induction s as [|c s IH]; [reflexivity|]. cbn [append first_word all_chars] in *. apply andb_prop in W1 as [A1 B1]. apply andb_prop in W2 as [A2 B2].
  apply negb_true_iff in A1, A2. rewrite A1, A2. cbn [orb]. rewrite (IH B1 B2). reflexivity.
Qed.
Lemma concat_head l : l <> [] -> Forall piece l -> exists t rest n, named t /\ String.concat "," l = spaces n ++ t ++ rest /\ (rest = "" \/ exists c x, rest = String c x /\ (c = " " \/ c = ",")%char).
Proof.
  intros N F. destruct l as [|p l]; [congruence|]. inversion F as [|? ? (n & t & T & P) _]; subst.
  assert (Q : exists q, String.concat "," (p :: l) = p ++ q /\ (q = "" \/ exists x, q = String "," x)).
  { destruct l as [|y l]; [exists ""; cbn [String.concat]; rewrite app_nil_s; auto|]. exists ("," ++ String.concat "," (y :: l)). split; [reflexivity|]. right. eexists. reflexivity. }
  destruct Q as (q & -> & Q). exists t. destruct P as [->|(b & B & ->)].
  - exists q, n. rewrite app_assoc_s. split; [exact T|]. split; [reflexivity|]. destruct Q as [->|[x ->]]; [auto|]. right. eauto 6.
  - exists (" as " ++ b ++ q), n. rewrite !app_assoc_s. split; [exact T|]. split; [reflexivity|]. right. cbn [append]. eauto 6.
Qed.
Lemma opening_list u : import_list u -> startswith " " u = false -> startswith "( " u = false -> exists t, named t /\ (opening u = t \/ opening u = t ++ ")").
Proof.
  intros (l & N & F & H) S1 S2. destruct (concat_head l N F) as (t & rest & n & T & C & R). rewrite C in H. exists t. split; [exact T|].
  destruct (named_head t T) as (c & r & Et & Cs). apply start_not in Cs as (_ & Cp & _).
  assert (Op : forall x, opening (t ++ x) = first_word (t ++ x)).
  { intros x. rewrite Et. cbn [append]. unfold opening. destruct c as [[] [] [] [] [] [] [] []]; try reflexivity. congruence. }
  destruct n as [|n].
  - cbn [spaces append] in H. destruct H as [H|[H|H]]; rewrite H; cbn [append].
    + left. rewrite Op, first_word_ident by apply T. destruct R as [->|(d & x & -> & [->| ->])]; cbn [first_word]; change ((" " =? " ")%char || (" " =? ",")%char) with true || idtac; rewrite app_nil_s; reflexivity.
    + unfold opening. rewrite app_assoc_s, first_word_ident by apply T. destruct R as [->|(d & x & -> & [->| ->])].
      * right. reflexivity.
      * left. apply app_nil_s.
      * left. apply app_nil_s.
    + unfold opening. rewrite app_assoc_s, first_word_ident by apply T. left. destruct R as [->|(d & x & -> & [->| ->])]; apply app_nil_s.
  - exfalso. cbn [spaces append] in H. destruct H as [H|[H|H]]; rewrite H in *; [discriminate S1|discriminate S2|discriminate S2].
Qed.
(** C101: a text that does not begin with a name is none: numbers, strings, lists, dicts, sets, calls *)
Theorem C101_literals : forall alias r, r <> "" -> r <> "(" -> startswith " " r = false -> startswith "( " r = false ->
  (forall t, opening r = t \/ opening r = t ++ ")" -> ~ named t) -> ~ import_list (under alias r).
Proof.
  intros alias r N1 N2 S1 S2 H I.
  assert (U : exists x, under alias r = r ++ x /\ (x = "" \/ exists y, x = String " " y)).
  { unfold under. destruct (_ || _); [exists ""; rewrite app_nil_s; auto|]. exists (" as " ++ alias). split; [reflexivity|]. right. eexists. reflexivity. }
  destruct U as (x & U & X). rewrite U in I.
  assert (Fw : forall s, first_word (s ++ x) = first_word s).
  { destruct X as [->|[y ->]]; [intros s; rewrite app_nil_s; reflexivity|]. induction s as [|c s IH]; [reflexivity|]. cbn [append first_word]. rewrite IH. reflexivity. }
  assert (O : opening (r ++ x) = opening r).
  { destruct r as [|c r]; [congruence|]. unfold opening. cbn [append]. destruct c as [[] [] [] [] [] [] [] []]; try apply (Fw (String _ r)); apply Fw. }
  assert (T1 : startswith " " (r ++ x) = false) by (destruct r as [|c r]; [congruence|exact S1]).
  assert (T2 : startswith "( " (r ++ x) = false).
  { destruct r as [|c [|d r]]; [congruence| |exact S2]. cbn [append startswith]. destruct (Ascii.eqb_spec "(" c) as [<-|Nc]; [congruence|]. reflexivity. }
  destruct (opening_list _ I T1 T2) as (t & T & Q). rewrite O in Q. exact (H t Q T).
Qed.

(** ** the exceptions *)
(** C101: a value whose repr has < and > in it is taken for an object with no repr of its own, and its class is given in its place *)
Theorem C101_angled : forall E o k alias verify, value_of k o -> finite o -> k <> "ellipsis" -> ~ in_types E k -> angled (repr_ o) ->
  getimport_value E o alias verify false = Some (Ok (line_for alias k)).
Proof.
  intros E o k alias verify V F Nk Tk An. unfold getimport_value. rewrite (namespace_plain E o k V F Nk Tk), (proj2 (styled_angled _) An).
  unfold getimport2, getimport1. change (String.eqb "builtins" "types") with false. cbn [andb]. change (is_builtins "builtins") with true. cbn [andb].
  rewrite (proj2 (String.eqb_neq _ _) Nk), (proj2 (intypes_spec E _ Nk) Tk). reflexivity.
Qed.
Definition a_value (repr k : string) : thing := Thing false None "None" "" None None repr repr (Some "builtins") (Some "builtins") k ("<class '" ++ k ++ "'>").
Definition tag : thing := a_value "'<b>'" "str".
(** x = '<b>' becomes x = str: the value is lost, without an error *)
Theorem C101_string_refuted : forall E verify, ~ in_types E "str" -> value_of "str" tag /\ finite tag /\
  getimport_value E tag "x" verify false = Some (Ok ("x = str" ++ eol)).
Proof.
  intros E verify T. assert (V : value_of "str" tag) by (repeat split). assert (F : finite tag) by (intros H; cbn in H; intuition discriminate).
  split; [exact V|]. split; [exact F|]. rewrite (C101_angled E tag "str" "x" verify V F ltac:(discriminate) T); [reflexivity|]. exists "'", "b", "'". reflexivity.
Qed.
(** inf and nan are imported from numpy, whether there is a numpy or not *)
Theorem C101_inf_refuted : forall E alias builtin o, value_of "float" o -> In (str_ o) ["inf"; "nan"] -> repr_ o = str_ o -> alias = "" \/ named alias ->
  getimport_value E o alias true builtin = Some (Ok ("from numpy import " ++ under alias (str_ o) ++ eol)).
Proof.
  intros E alias builtin o (K & Sp & M & Sc & Tm & Cm & Cs) S R A.
  assert (Ns : namespace_of E o = ["numpy"; str_ o]).
  { unfold namespace_of. rewrite M. unfold by_class. assert (memb (str_ o) ["inf"; "nan"; "Inf"; "NaN"] = true) as ->; [|reflexivity]. apply memb_In. destruct S as [<-|[<-|[]]]; cbn; auto. }
  assert (I : isinstance_ o = Some false). { unfold isinstance_. rewrite Sp, M, Tm. change (String.eqb "builtins" "numpy") with false. cbv iota. destruct (negb _); reflexivity. }
  unfold getimport_value. rewrite Ns, R, I. change (is_builtins "numpy") with false. cbv iota.
  assert (Q : forall s, In s ["inf"; "nan"] -> styled s = false /\ before_paren s = s /\ s <> "" /\ named s /\ s <> "None" /\ memb s ["Ellipsis"; "NotImplemented"] = false).
  { intros s [<-|[<-|[]]]; repeat split; try discriminate; cbn; intuition discriminate. }
  destruct (Q _ S) as (Q1 & Q2 & Q3 & Q4 & Q5 & Q6). rewrite Q1, Q2. assert (match str_ o with "" => None | _ => Some (str_ o) end = Some (str_ o)) as -> by (destruct (str_ o); [congruence|reflexivity]).
  unfold getimport2, getimport1. change (String.eqb "numpy" "types") with false. cbn [andb]. change (is_builtins "numpy") with false. cbn [andb]. change (startswith "dill." "numpy") with false. cbn [negb].
  change (imported (str_ o) alias) with (under alias (str_ o)).
  assert (L : import_list (under alias (str_ o))).
  { exists [under alias (str_ o)]. split; [discriminate|]. split; [|left; reflexivity]. repeat constructor. exists 0, (str_ o). split; [exact Q4|]. unfold under.
    destruct (String.eqb_spec alias "") as [->|Na]; [left; reflexivity|]. destruct (String.eqb alias (str_ o)); [left; reflexivity|]. right. exists alias. split; [destruct A; [congruence|assumption]|reflexivity]. }
  apply clauses_spec in L as [l L]. destruct (exec_error E "numpy" (under alias (str_ o)) [] eq_refl eq_refl) as [(l' & C & ->)|[C _]]; [|congruence].
  destruct (bring E "numpy" l' []) as [g|e] eqn:B; [reflexivity|]. apply bring_error in B. subst e. reflexivity.
Qed.
(** C101: None, Ellipsis and NotImplemented, whose classes the module types has *)
Theorem C101_none : forall E o alias verify builtin, value_of "NoneType" o -> finite o -> in_types E "NoneType" -> repr_ o = "None" ->
  getimport_value E o alias verify builtin = Some (Ok (line_for alias "None")).
Proof.
  intros E o alias verify builtin V F T R. assert (I : intypes E "NoneType" = true) by (destruct (intypes E "NoneType") eqn:I; [reflexivity|]; apply intypes_spec in I; [contradiction|discriminate]).
  unfold getimport_value. rewrite (namespace_value E "NoneType" o V F ltac:(discriminate)), I, R. destruct V as (K & Sp & M & Sc & Tm & Cm & Cs).
  assert (isinstance_ o = Some false) as ->. { unfold isinstance_. rewrite Sp, M, Tm. change (String.eqb "builtins" "numpy") with false. cbv iota. destruct (negb _); reflexivity. }
  reflexivity.
Qed.
Theorem C101_ellipsis : forall E o n k alias verify, In (n, k) [("Ellipsis", "ellipsis"); ("NotImplemented", "NotImplementedType")] -> value_of k o -> repr_ o = n -> finite o ->
  in_types E "EllipsisType" -> in_types E "NotImplementedType" -> ~ in_types E n -> alias = "" \/ named alias ->
  getimport_value E o alias verify false = Some (Ok (line_for alias n)) /\
  getimport_value E o alias verify true = Some (Ok ("from builtins import " ++ under alias n ++ eol)).
Proof.
  intros E o n k alias verify H V R F T1 T2 Tn A.
  assert (I : forall k, k <> "ellipsis" -> in_types E k -> intypes E k = true) by (intros k' N T; destruct (intypes E k') eqn:I; [reflexivity|]; apply intypes_spec in I; [contradiction|exact N]).
  assert (Ns : exists k', namespace_of E o = ["types"; k']).
  { destruct H as [[= <- <-]|[[= <- <-]|[]]].
    - exists "EllipsisType". destruct V as (K & Sp & M & Sc & Tm & Cm & Cs). unfold namespace_of. rewrite M. unfold by_class. rewrite (proj2 (memb_nIn _ _) F), Cm, Cs. change (is_builtins "builtins") with true. cbv iota.
      change (class_path ("<class '" ++ "ellipsis" ++ "'>")) with ["ellipsis"]. cbn [last]. change (String.eqb "ellipsis" "ellipsis") with true. cbv iota. cbn [with_last removelast app last].
      rewrite I by (discriminate || exact T1). reflexivity.
    - exists "NotImplementedType". rewrite (namespace_value E _ o V F ltac:(discriminate)), I by (discriminate || exact T2). reflexivity. }
  destruct Ns as [k' Ns]. assert (Is : isinstance_ o = Some false).
  { destruct V as (K & Sp & M & Sc & Tm & Cm & Cs). unfold isinstance_. rewrite Sp, M, Tm. change (String.eqb "builtins" "numpy") with false. cbv iota. destruct (negb _); reflexivity. }
  assert (Q : styled n = false /\ before_paren n = n /\ n <> "" /\ named n /\ n <> "None" /\ n <> "ellipsis" /\ memb n ["Ellipsis"; "NotImplemented"] = true).
  { destruct H as [[= <- <-]|[[= <- <-]|[]]]; repeat split; try discriminate; cbn; intuition discriminate. }
  destruct Q as (Q1 & Q2 & Q3 & Q4 & Q5 & Q6 & Q7).
  unfold getimport_value. rewrite Ns, R, Is. change (is_builtins "types") with false. cbv iota. rewrite Q1, Q2. assert (match n with "" => None | _ => Some n end = Some n) as -> by (destruct n; [congruence|reflexivity]).
  unfold getimport2, getimport1. change (String.eqb "types" "types") with true. cbn [andb]. rewrite (proj2 (String.eqb_neq _ _) Q5), Q7. change (is_builtins "builtins") with true. cbn [andb negb].
  rewrite (proj2 (String.eqb_neq _ _) Q6), (proj2 (intypes_spec E _ Q6) Tn). cbn [andb negb]. split; [reflexivity|]. change (startswith "dill." "builtins") with false. cbn [negb].
  change (imported n alias) with (under alias n). destruct verify; [|reflexivity]. cbn [andb].
  assert (L : import_list (under alias n)).
  { exists [under alias n]. split; [discriminate|]. split; [|left; reflexivity]. repeat constructor. exists 0, n. split; [exact Q4|]. unfold under.
    destruct (String.eqb_spec alias "") as [->|Na]; [left; reflexivity|]. destruct (String.eqb alias n); [left; reflexivity|]. right. exists alias. split; [destruct A; [congruence|assumption]|reflexivity]. }
  apply clauses_spec in L as [l L]. destruct (exec_error E "builtins" (under alias n) [] eq_refl eq_refl) as [(l' & C & ->)|[C _]]; [|congruence].
  destruct (bring E "builtins" l' []) as [g|e] eqn:B; [reflexivity|]. apply bring_error in B. subst e. reflexivity.
Qed.
(** a process with builtins and types *)
Definition E3 : env := Env [("builtins", 1); ("types", 2)]
  (fun m => match m with 1 => [("str", 11); ("tuple", 12); ("Ellipsis", 13); ("True", 14); ("NotImplemented", 15)] | 2 => [("EllipsisType", 21); ("NoneType", 22); ("NotImplementedType", 23)] | _ => [] end)
  (fun _ => true) 0 0 [] [] [] [].
(** with builtin=True, which importable has: a tuple of names is an import statement, which binds the names and makes no tuple *)
Theorem C101_names_refuted : getimport_value E3 (a_value "(Ellipsis, NotImplemented)" "tuple") "" true true = Some (Ok ("from builtins import (Ellipsis, NotImplemented)" ++ eol)) /\
  exec_from E3 "builtins" "(Ellipsis, NotImplemented)" [] = Ok [("Ellipsis", 13); ("NotImplemented", 15)].
Proof. split; vm_compute; reflexivity. Qed.
(** with builtin=True, verify=False: no Python *)
Theorem C101_unverified_refuted : getimport_value E3 (a_value "100" "int") "x" false true = Some (Ok ("from builtins import 100 as x" ++ eol)) /\
  forall E g, exec_from E "builtins" "100 as x" g = Err SyntaxError.
Proof. split; [vm_compute; reflexivity|]. intros E g. vm_compute. reflexivity. Qed.
Theorem C101_case : forall alias, In alias [""; "x"] ->
  Forall (fun p => value_of (snd p) (a_value (fst p) (snd p)) /\ finite (a_value (fst p) (snd p)) /\ ~ angled (fst p) /\ ~ in_types E3 (snd p) /\ ~ in_types E3 (fst p) /\
    getimport_value E3 (a_value (fst p) (snd p)) alias true true = Some (Ok (line_for alias (fst p))))
    [("100", "int"); ("'a, b'", "str"); ("[1, 2]", "list"); ("(1, 2)", "tuple"); ("()", "tuple"); ("{'a': 1}", "dict"); ("range(0, 3)", "range"); ("True", "bool"); ("(1+2j)", "complex"); ("frozenset({1, 2})", "frozenset")].
Proof.
  intros alias A. repeat constructor; cbn [fst snd a_value class_str];
    try (intros H; cbn in H; intuition discriminate);
    try (intros X; apply styled_angled in X; vm_compute in X; discriminate X);
    try (intros (m & M & X); vm_compute in M; injection M as <-; vm_compute in X; intuition discriminate);
    try (destruct A as [<-|[<-|[]]]; vm_compute; reflexivity).
Qed.
Theorem C101_literal_case : (forall t, opening "range(0, 3)" = t \/ opening "range(0, 3)" = t ++ ")" -> ~ named t) /\ import_list "(Ellipsis, NotImplemented)" /\ ~ import_list (under "x" "range(0, 3)").
Proof.
  assert (A : forall t, opening "range(0, 3)" = t \/ opening "range(0, 3)" = t ++ ")" -> ~ named t).
  { intros t [<-|H] [N _]; [discriminate N|]. change (opening "range(0, 3)") with ("range(" ++ "0") in H. apply (snoc_last "range(" t "0" ")") in H as [_ H]. discriminate H. }
  split; [exact A|]. split; [|apply C101_literals; try discriminate; try reflexivity; exact A].
  apply clauses_spec. exists [("Ellipsis", "Ellipsis"); ("NotImplemented", "NotImplemented")]. vm_compute. reflexivity.
Qed.
(** C101: a value whose repr begins with no name, and has no < ... > in it, is given as  alias = repr  *)
Theorem C101_constant_partial : forall E o k alias builtin, value_of k o -> finite o -> k <> "ellipsis" -> ~ in_types E k -> ~ in_types E (repr_ o) -> ~ angled (repr_ o) ->
  ~ In (repr_ o) [""; "("; "ellipsis"] -> startswith " " (repr_ o) = false -> startswith "( " (repr_ o) = false ->
  (forall t, opening (repr_ o) = t \/ opening (repr_ o) = t ++ ")" -> ~ named t) ->
  importable_value E o alias builtin = Some (Ok (line_for alias (repr_ o))).
Proof.
  intros E o k alias builtin V F Nk Tk Tr An Nr S1 S2 O. assert (N : ~ In (repr_ o) [""; "ellipsis"]) by (cbn in *; intuition). unfold importable_value. destruct builtin.
  - apply (C101_builtin E o k V F Nk Tk alias An N Tr). apply C101_literals; try assumption; intros Q; apply Nr; rewrite Q; cbn; auto.
  - apply (C101_plain E o k V F Nk Tk); assumption.
Qed.
