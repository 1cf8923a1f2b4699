(** C85: getimport of a function, class or lambda of an importable module gives a text that binds it. *)
From Coq Require Import String Ascii List Bool Arith Lia.
From Verif Require Import PyDict NamesModel NamesProofs DescrModel CheckModel ImportModel DumpsourceModel AliasModel NamespaceModel DescrProps FindProps ImportProps DumpsourceProps AliasProps.
Import ListNotations.
Local Open Scope string_scope.
Local Notation nl := ImportModel.nl.
Local Notation alias_ok := ImportProps.alias_ok.

(** ** specification *)
(** str(module), for a module called [m]:  <module 'm' from '...'>,  <module 'm' (built-in)>,  <module 'm'>  *)
Definition module_repr (m : string) (r : string) : Prop := exists rest, r = "<module '" ++ m ++ "'" ++ rest /\ (rest = ">" \/ exists x, rest = " " ++ x).
(** a repr such as  <function f at 0x7f>,  <class 'm.C'>  *)
Definition angled (r : string) : Prop := exists a b c, r = a ++ "<" ++ b ++ ">" ++ c.

Lemma after_spec c s r : after c s = Some r -> exists a, s = a ++ String c r.
Proof.
  revert r. induction s as [|x s IH]; intros r H; [discriminate|]. cbn [after] in H. destruct (Ascii.eqb_spec x c) as [->|].
  - exists "". cbn [append]. congruence.
  - destruct (IH _ H) as (a & ->). exists (String x a). reflexivity.
Qed.
Lemma after_some c a r : exists t, after c (a ++ String c r) = Some t /\ exists y, t = y ++ r.
Proof.
  induction a as [|x a IH]; cbn [append after].
  - rewrite Ascii.eqb_refl. exists r. split; [reflexivity|exists ""; reflexivity].
  - destruct (Ascii.eqb x c); [exists (a ++ String c r); split; [reflexivity|exists (a ++ String c ""); rewrite app_assoc_s; reflexivity]|exact IH].
Qed.
Lemma styled_angled r : styled r = true <-> angled r.
Proof.
  unfold styled, angled. split.
  - destruct (after "<" r) as [t|] eqn:A; [|discriminate]. destruct (after ">" t) as [u|] eqn:B; [|discriminate]. intros _.
    apply after_spec in A as (a & ->). apply after_spec in B as (b & ->). exists a, b, u. reflexivity.
  - intros (a & b & c & ->). change ("<" ++ b ++ ">" ++ c) with (String "<" (b ++ ">" ++ c)). destruct (after_some "<" a (b ++ ">" ++ c)) as (t & -> & y & ->).
    replace (y ++ b ++ ">" ++ c) with ((y ++ b) ++ String ">" c) by (rewrite app_assoc_s; reflexivity). destruct (after_some ">" (y ++ b) c) as (t & -> & _). reflexivity.
Qed.
Lemma word_app a c r : all_chars (fun x => negb (is_space x)) a = true -> is_space c = true -> word (a ++ String c r) = (a, String c r).
Proof.
  intros A C. induction a as [|x a IH]; cbn [append word all_chars] in *; [rewrite C; reflexivity|]. apply andb_prop in A as [X Y]. apply negb_true_iff in X. rewrite X, (IH Y). reflexivity.
Qed.
Lemma word_all a : all_chars (fun x => negb (is_space x)) a = true -> word a = (a, "").
Proof. intros A. induction a as [|x a IH]; [reflexivity|]. cbn [word all_chars] in *. apply andb_prop in A as [X Y]. apply negb_true_iff in X. rewrite X, (IH Y). reflexivity. Qed.
Lemma split_ws_word n a c r : a <> "" -> all_chars (fun x => negb (is_space x)) a = true -> is_space c = true -> split_ws (S n) (a ++ String c r) = a :: split_ws n (String c r).
Proof.
  intros N A C. pose proof (word_app a c r A C) as W. destruct a as [|x a]; [congruence|]. cbn [append split_ws] in *. cbn [all_chars] in A. apply andb_prop in A as [X _]. apply negb_true_iff in X.
  cbn [lstrip]. rewrite X, W. reflexivity.
Qed.
Lemma split_ws_last n a : a <> "" -> all_chars (fun x => negb (is_space x)) a = true -> split_ws (S n) a = [a].
Proof.
  intros N A. pose proof (word_all a A) as W. destruct a as [|x a]; [congruence|]. cbn [split_ws] in *. cbn [all_chars] in A. apply andb_prop in A as [X _]. apply negb_true_iff in X.
  cbn [lstrip]. rewrite X, W. destruct n; reflexivity.
Qed.
Lemma split_ws_space n c r : is_space c = true -> split_ws n (String c r) = split_ws n r.
Proof. intros C. destruct n; cbn [split_ws]; cbn [lstrip]; rewrite C; reflexivity. Qed.
Definition without (c : ascii) (s : string) : Prop := all_chars (fun x => negb (Ascii.eqb x c)) s = true.
Lemma lstrip_without c s : without c s -> lstrip_char c s = s.
Proof. destruct s as [|x s]; [reflexivity|]. unfold without. cbn [all_chars lstrip_char]. intros H. apply andb_prop in H as [X _]. apply negb_true_iff in X. rewrite X. reflexivity. Qed.
Lemma rstrip_without c s : without c s -> rstrip_char c s = s.
Proof.
  induction s as [|x s IH]; [reflexivity|]. unfold without in *. cbn [all_chars rstrip_char]. intros H. apply andb_prop in H as [X Y]. apply negb_true_iff in X. rewrite (IH Y), X. destruct s; reflexivity.
Qed.
Lemma rstrip_end c s : without c s -> rstrip_char c (s ++ String c "") = s.
Proof.
  induction s as [|x s IH]; cbn [append rstrip_char]; [intros _; rewrite Ascii.eqb_refl; reflexivity|]. unfold without in *. cbn [all_chars]. intros H. apply andb_prop in H as [X Y]. apply negb_true_iff in X.
  rewrite (IH Y), X. destruct s; reflexivity.
Qed.
Lemma without_app c a b : without c a -> without c b -> without c (a ++ b).
Proof. unfold without. rewrite all_chars_app. intros -> ->. reflexivity. Qed.
Definition path (l : list string) : Prop := l <> [] /\ Forall (fun x => is_ident x = true) l.
Lemma path_chars (f : ascii -> bool) l : (forall c, is_name_char c = true -> f c = true) -> f "."%char = true -> Forall (fun x => is_ident x = true) l -> all_chars f (join_dot l) = true.
Proof.
  intros N D H. induction H as [|x l X H IH]; [reflexivity|]. assert (all_chars f x = true) as A by (apply (all_chars_imp is_name_char); [exact N|apply ident_chars, X]).
  destruct l as [|y l]; [exact A|]. change (join_dot (x :: y :: l)) with (x ++ "." ++ join_dot (y :: l)). rewrite !all_chars_app, A, IH. cbn [all_chars]. rewrite D. reflexivity.
Qed.
(** the module's name is read from its repr *)
Lemma module_name_repr l r : path l -> module_repr (join_dot l) r -> module_name r = Some (join_dot l).
Proof.
  intros (_ & F) (rest & -> & R). set (m := join_dot l).
  assert (forall c, without c "." -> (forall x, is_name_char x = true -> Ascii.eqb x c = false) -> without c m) as Wm.
  { intros c D N. apply path_chars; [intros x X; rewrite (N _ X); reflexivity| |exact F]. unfold without in D. cbn [all_chars] in D. rewrite andb_true_r in D. exact D. }
  assert (all_chars (fun x => negb (is_space x)) m = true) as Sp by (apply path_chars; [intros x X; rewrite (name_not_space _ X); reflexivity|reflexivity|exact F]).
  assert (without ">" m) as W1 by (apply Wm; [reflexivity|chars]). assert (without dquote m) as W2 by (apply Wm; [reflexivity|chars]). assert (without apos m) as W3 by (apply Wm; [reflexivity|chars]).
  set (w := "'" ++ m ++ "'").
  assert (all_chars (fun x => negb (is_space x)) w = true) as Sw by (unfold w; rewrite !all_chars_app, Sp; reflexivity).
  assert (strip_char apos (strip_char dquote (strip_char ">" w)) = m /\ strip_char apos (strip_char dquote (strip_char ">" (w ++ ">"))) = m) as [S1 S2].
  { assert (without ">" w) as A1 by (apply without_app; [reflexivity|apply without_app; [exact W1|reflexivity]]). assert (without dquote w) as A2 by (apply without_app; [reflexivity|apply without_app; [exact W2|reflexivity]]).
    assert (strip_char apos (strip_char dquote w) = m) as X.
    { unfold strip_char at 2. rewrite (lstrip_without _ _ A2), (rstrip_without _ _ A2). unfold strip_char, w. change ("'" ++ m ++ "'") with (String apos (m ++ String apos "")). cbn [lstrip_char]. rewrite Ascii.eqb_refl.
      clearbody m. clear - W3. destruct m as [|x m]; [vm_compute; reflexivity|]. cbn [append lstrip_char]. assert (Ascii.eqb x apos = false) as Nx by (unfold without in W3; cbn [all_chars] in W3; apply andb_prop in W3 as [Y _]; apply negb_true_iff in Y; exact Y).
      rewrite Nx. change (String x (m ++ String apos "")) with (String x m ++ String apos ""). apply rstrip_end. exact W3. }
    split.
    - unfold strip_char at 3. rewrite (lstrip_without _ _ A1), (rstrip_without _ _ A1). exact X.
    - unfold strip_char at 3. assert (lstrip_char ">" (w ++ ">") = w ++ ">") as -> by reflexivity. change (w ++ ">") with (w ++ String ">" ""). rewrite (rstrip_end _ _ A1). exact X. }
  unfold module_name.
  replace ("<module '" ++ m ++ "'" ++ rest) with ("<module" ++ String " " (w ++ rest)) by (unfold w; rewrite !app_assoc_s; reflexivity).
  rewrite split_ws_word; [|discriminate|reflexivity|reflexivity]. rewrite split_ws_space by reflexivity.
  assert (exists y t, w = String y t) as (y & t & Ew) by (eexists; eexists; reflexivity).
  destruct R as [-> | (x & ->)].
  - rewrite split_ws_last; [rewrite S2; reflexivity|rewrite Ew; discriminate|rewrite all_chars_app, Sw; reflexivity].
  - change (w ++ " " ++ x) with (w ++ String " " x). rewrite split_ws_word; [rewrite S1; reflexivity|rewrite Ew; discriminate|exact Sw|reflexivity].
Qed.
Lemma path_split l : path l -> split_dot (join_dot l) = l.
Proof. intros (N & F). apply split_join; [exact N|]. eapply Forall_impl; [|exact F]. intros x X. apply ident_nodot, X. Qed.

(** C85: _namespace: the parts of the module's name and the name; of a module, its parts *)
Theorem C85_namespace : forall E l r n, path l -> module_repr (join_dot l) r -> ~ In (join_dot l) ["builtins"; "__builtin__"] ->
  _namespace E r (Some n) = Some (l ++ [n])%list /\ _namespace E r None = Some l.
Proof.
  intros E l r n L R B. unfold _namespace. rewrite (module_name_repr l r L R), (path_split l L). split; [|reflexivity].
  unfold is_builtins. rewrite (proj2 (memb_nIn (join_dot l) _) B). reflexivity.
Qed.
Lemma ordinary_path l : ordinary l -> path l /\ ~ In (join_dot l) ["builtins"; "__builtin__"].
Proof.
  intros (F & H). destruct l as [|x l]; [contradiction|]. split; [split; [discriminate|exact F]|]. intros I.
  assert (split_dot (join_dot (x :: l)) = x :: l) as S by (apply path_split; split; [discriminate|exact F]).
  destruct I as [I|[I|[]]]; rewrite <- I in S; vm_compute in S; injection S as S1 S2; apply H; rewrite <- S1; cbn; auto.
Qed.
(** C85: getimport of an object that its module has under its name: the text binds that name, or the alias, to the object *)
Theorem C85_import_partial : forall E bi l mrepr repr n a builtin o, ordinary l -> module_repr (join_dot l) mrepr -> angled repr -> is_ident n = true -> alias_ok a ->
  provides E l n o ->
  exists text, getimport_of E bi mrepr (Some n) repr a true builtin = Some (Ok text) /\ text = statement l n a /\ binds E bi text (target a n) o.
Proof.
  intros E bi l mrepr repr n a builtin o L M R N A O. destruct (ordinary_path l L) as [Pl B]. unfold getimport_of. rewrite (proj1 (C85_namespace E l mrepr n Pl M B)).
  unfold repr_name. rewrite (proj2 (styled_angled repr) R).
  destruct (C66_longest E bi l n a builtin L N A) as (text & pre & G & T & [(x & suf & Pn & Hl & P1 & P2 & P3)|(_ & P & _)]).
  - rewrite G. exists text. split; [reflexivity|]. destruct suf as [|y suf].
    + rewrite app_nil_r in Hl. subst pre. split; [exact T|]. assert (x = o) as <-; [|exact P2].
      destruct O as (m & M1 & [O|[O1 O2]]), P1 as (m' & M2 & [P1|[P11 P12]]); assert (m' = m) by congruence; subst m'; congruence.
    + exfalso. apply (P3 (y :: suf) [] ltac:(rewrite app_nil_r; reflexivity) ltac:(discriminate) o). rewrite <- Hl. exact O.
  - exfalso. apply (P l [] ltac:(rewrite app_nil_r; reflexivity) (proj1 Pl) o O).
Qed.
(** C85: a lambda that is assigned to a variable of a module is imported by that name *)
Theorem C85_lambda_partial : forall P E bi l mrepr repr lines s t ts e g a builtin o,
  ordinary l -> module_repr (join_dot l) mrepr -> angled repr -> alias_ok a ->
  outdent lines = lines_of s -> nth 0 lines "" = nth 0 (lines_of s) "" -> assigns e (t :: ts) s -> lambda_or_bracket e -> joined 0 (split lf s) -> provides E l t o ->
  exists name text g1, getname "<lambda>" lines = Some name /\ exec P (String.concat "" lines) g = Some g1 /\ get name g1 = Some (P [rstrip e]) /\
    getimport_of E bi mrepr (Some name) repr a true builtin = Some (Ok text) /\ binds E bi text (target a name) o.
Proof.
  intros P E bi l mrepr repr lines s t ts e g a builtin o L M R A O F As Lb J Pr.
  assert (is_name t = true) as T by (inversion As; assumption).
  assert (outdent lines = lines) as Od.
  { unfold outdent. assert (BlocksModel.indentsize (nth 0 lines "") = 0) as ->.
    - rewrite F. destruct (split_first s) as (l0 & rest & S). unfold lines_of. rewrite S. cbn [map nth]. destruct (first_line _ _ _ _ _ _ As S) as (w1 & r & _ & W1 & ->). rewrite app_assoc_s.
      destruct (name_cons _ T) as (c & y & -> & C). pose proof (name_not_space _ (start_char _ C)) as Sp. unfold BlocksModel.indentsize. cbn [append BlocksModel.indent_from]. rewrite Sp.
      destruct (Ascii.eqb_spec c (ascii_of_nat 9)) as [->|]; [discriminate C|reflexivity].
    - transitivity (map (fun l => l) lines); [|apply map_id]. apply map_ext. intros x. destruct (Nat.ltb_spec (BlocksModel.indentsize x) 0); [lia|]. destruct x; reflexivity. }
  destruct (C84_getname_partial P lines "" s t ts e g eq_refl O F As Lb J) as (G & g1 & E1 & E2). rewrite Od in E1.
  destruct (C85_import_partial E bi l mrepr repr t a builtin o L M R (name_ident _ T) A Pr) as (text & G2 & _ & B).
  exists t, text, g1. split; [exact G|]. split; [exact E1|]. split; [exact E2|]. split; [exact G2|exact B].
Qed.
(** C85: a type of builtins that the module types has (NoneType, ...) is imported from there *)
Theorem C85_types : forall E bi mrepr repr n a builtin m o, module_repr "builtins" mrepr -> angled repr -> is_ident n = true -> n <> "ellipsis" ->
  ~ In n ["None"; "Ellipsis"; "NotImplemented"] -> alias_ok a -> get "types" (modules E) = Some m -> get n (attr E m) = Some o ->
  exists text, getimport_of E bi mrepr (Some n) repr a true builtin = Some (Ok text) /\ text = statement ["types"] n a /\ binds E bi text (target a n) o.
Proof.
  intros E bi mrepr repr n a builtin m o M R N Ne Nn A T O. exists (statement ["types"] n a).
  assert (intypes E n = true) as Ty by (unfold intypes; rewrite (proj2 (String.eqb_neq n "ellipsis") Ne); rewrite T; unfold has; rewrite O; reflexivity).
  assert (ImportModel.exec E bi (statement ["types"] n a) = Ok [(target a n, o)]) as X.
  { rewrite exec_statement; [|discriminate|repeat constructor|exact N|exact A]. unfold from_import. cbn [join_dot]. unfold import_. rewrite T, O. reflexivity. }
  split; [|split; [reflexivity|exact X]]. unfold getimport_of, _namespace. rewrite (module_name_repr ["builtins"] mrepr ltac:(split; [discriminate|repeat constructor]) M). change (join_dot ["builtins"]) with "builtins".
  change (is_builtins "builtins") with true. cbn [andb]. rewrite Ty. unfold repr_name. rewrite (proj2 (styled_angled repr) R).
  unfold getimport. cbn [removelast last]. unfold _getimport. cbn [getimport_ join_dot List.length]. change (String.eqb "types" "types") with true. cbn [andb].
  destruct (String.eqb_spec n "None") as [->|N1]; [exfalso; apply Nn; left; reflexivity|].
  assert (memb n ["Ellipsis"; "NotImplemented"] = false) as -> by (apply memb_nIn; intros Z; apply Nn; right; exact Z). cbn [join_dot].
  change (is_builtins "types") with false. cbn [andb negb]. change (startswith "dill." (join_dot ["types"])) with false. cbn [negb andb]. rewrite X. reflexivity.
Qed.
(** C85: the repr decides, if it is a call of something the module has: that is imported, not the object's own name *)
Theorem C85_repr_decides : forall E bi l mrepr k x n a builtin o, ordinary l -> module_repr (join_dot l) mrepr -> is_ident k = true -> without "<" x -> alias_ok a -> provides E l k o ->
  exists text, getimport_of E bi mrepr (Some n) (k ++ "(" ++ x) a true builtin = Some (Ok text) /\ text = statement l k a /\ binds E bi text (target a k) o.
Proof.
  intros E bi l mrepr k x n a builtin o L M K Wx A O. destruct (ordinary_path l L) as [Pl B]. unfold getimport_of. rewrite (proj1 (C85_namespace E l mrepr n Pl M B)).
  assert (after "<" (k ++ "(" ++ x) = None) as S.
  { assert (forall s, all_chars (fun y => negb (Ascii.eqb y "<")) s = true -> after "<" s = None) as Q.
    { induction s as [|c s IH]; intros H; [reflexivity|]. cbn [all_chars] in H. apply andb_true_iff in H. destruct H as [H1 H2]. cbn [after]. apply negb_true_iff in H1. rewrite H1. apply IH, H2. }
    apply Q. rewrite all_chars_app. apply andb_true_iff. split; [apply (all_chars_imp is_name_char); [chars|apply ident_chars, K]|]. cbn [append all_chars]. apply andb_true_iff. split; [reflexivity|exact Wx]. }
  assert (before_paren (k ++ "(" ++ x) = k) as Bp.
  { pose proof (ident_chars k K) as C. revert C. clear. induction k as [|c k IH]; intros C; [reflexivity|]. cbn [all_chars] in C. apply andb_true_iff in C. destruct C as [C1 C2].
    cbn [append before_paren]. assert (Ascii.eqb c "(" = false) as -> by (revert C1; revert c; chars). f_equal. apply IH, C2. }
  assert (is_builtins (join_dot (removelast (l ++ [n]))) = false) as Nb.
  { rewrite removelast_last. unfold is_builtins. apply memb_nIn. exact B. }
  unfold repr_name, styled. rewrite S, Nb, Bp. assert (String.eqb k "" = false) as -> by (destruct k; [discriminate K|reflexivity]).
  assert (removelast (l ++ [n]) = l) as Rl by apply removelast_last.
  destruct (C66_longest E bi l k a builtin L K A) as (text & pre & G & T & H).
  assert (_getimport E bi l k a true builtin = Ok text) as G2.
  { unfold getimport in G. rewrite removelast_last, last_last in G. assert (is_builtins (join_dot l) = false) as Nb2 by (rewrite <- Rl; exact Nb). rewrite Nb2 in G.
    destruct (_getimport E bi l k a true builtin) as [t|e]; [exact G|]. exfalso. destruct e as [| | | | |e]; try discriminate G. destruct e as [|[|e]]; discriminate G. }
  exists text. unfold getimport. rewrite Rl, G2. split; [reflexivity|].
  destruct H as [(y & suf & Pn & Hl & P1 & P2 & P3)|(_ & P & _)].
  - destruct suf as [|z suf].
    + rewrite app_nil_r in Hl. subst pre. split; [exact T|]. assert (y = o) as <-; [|exact P2].
      destruct O as (m & M1 & [O|[O1 O2]]), P1 as (m' & M2 & [P1|[P11 P12]]); assert (m' = m) by congruence; subst m'; congruence.
    + exfalso. apply (P3 (z :: suf) [] ltac:(rewrite app_nil_r; reflexivity) ltac:(discriminate) o). rewrite <- Hl. exact O.
  - exfalso. apply (P l [] ltac:(rewrite app_nil_r; reflexivity) (proj1 Pl) o O).
Qed.
(** C85: an object of builtins that is shown without angle brackets is given as it is shown *)
Theorem C85_builtins_repr : forall E bi mrepr repr n a verify, module_repr "builtins" mrepr -> ~ angled repr -> repr <> "" -> repr <> "ellipsis" -> intypes E n = false -> intypes E repr = false ->
  getimport_of E bi mrepr (Some n) repr a verify false = Some (Ok (assign a repr)).
Proof.
  intros E bi mrepr repr n a verify M R Ne Nel Tn Tr. unfold getimport_of, _namespace. rewrite (module_name_repr ["builtins"] mrepr ltac:(split; [discriminate|repeat constructor]) M). change (join_dot ["builtins"]) with "builtins".
  change (is_builtins "builtins") with true. cbn [andb]. rewrite Tn. unfold repr_name. destruct (styled repr) eqn:S; [exfalso; apply R, styled_angled, S|].
  change (split_dot "builtins") with ["builtins"]. cbn [app removelast join_dot]. change (is_builtins "builtins") with true. cbv iota. rewrite (proj2 (String.eqb_neq repr "") Ne).
  unfold getimport. cbn [removelast last]. unfold _getimport. cbn [getimport_ join_dot List.length]. change (String.eqb "builtins" "types") with false. cbn [andb].
  change (is_builtins (join_dot ["builtins"])) with true. cbn [join_dot]. change (is_builtins "builtins") with true. cbn [andb]. rewrite (proj2 (String.eqb_neq repr "ellipsis") Nel), Tr. reflexivity.
Qed.
(** C85: a repr that begins with a bracket gives no name *)
Theorem C85_bracket_repr : forall E bi l mrepr x n a builtin, ordinary l -> module_repr (join_dot l) mrepr -> without "<" x ->
  getimport_of E bi mrepr (Some n) ("(" ++ x) a false builtin = Some (Ok (statement l n a)).
Proof.
  intros E bi l mrepr x n a builtin L M Wx. destruct (ordinary_path l L) as [Pl B]. unfold getimport_of. rewrite (proj1 (C85_namespace E l mrepr n Pl M B)).
  assert (after "<" ("(" ++ x) = None) as S.
  { assert (forall s, all_chars (fun y => negb (Ascii.eqb y "<")) s = true -> after "<" s = None) as Q.
    { induction s as [|c s IH]; intros H; [reflexivity|]. cbn [all_chars] in H. apply andb_true_iff in H. destruct H as [H1 H2]. cbn [after]. apply negb_true_iff in H1. rewrite H1. apply IH, H2. }
    apply Q. cbn [append all_chars]. apply andb_true_iff. split; [reflexivity|exact Wx]. }
  assert (is_builtins (join_dot (removelast (l ++ [n]))) = false) as Nb.
  { rewrite removelast_last. unfold is_builtins. apply memb_nIn. exact B. }
  unfold repr_name, styled. rewrite S, Nb. change (before_paren ("(" ++ x)) with "". change (String.eqb "" "") with true. cbv iota.
  unfold getimport. rewrite removelast_last, last_last. rewrite removelast_last in Nb.
  pose proof (ordinary_join l "types" L) as T. assert (String.eqb (join_dot l) "types" = false) as Tl by (apply T; cbn; auto).
  unfold _getimport. cbn [getimport_]. rewrite Tl. cbn [andb]. rewrite !Nb. cbn [andb]. reflexivity.
Qed.
(** C85: a method is looked for in the module, not in its class: the text may bind another object *)
Theorem C85_method_refuted : exists E bi mrepr text, getimport_of E bi mrepr (Some "f") "<function C.f at 0x7f01>" "" true false = Some (Ok text) /\
  text = "from pkg import f" ++ nl /\ binds E bi text "f" 11.
Proof. exists E1, BI, "<module 'pkg' from '/usr/lib/pkg/__init__.py'>", ("from pkg import f" ++ nl). split; [vm_compute; reflexivity|]. split; [reflexivity|vm_compute; reflexivity]. Qed.
(** C85: a module whose repr is not in the usual form: the name is lost *)
Theorem C85_repr_refuted : forall E, _namespace E "<lazy module 'pkg.sub'>" (Some "f") = Some ["module"; "f"].
Proof. intros E. vm_compute. reflexivity. Qed.
Theorem C85_case : exists text, getimport_of E1 BI "<module 'pkg.sub' from '/usr/lib/pkg/sub.py'>" (Some "g") "<function g at 0x7f01>" "h" true false = Some (Ok text) /\
  text = "from pkg.sub import g as h" ++ nl /\ binds E1 BI text "h" 12.
Proof.
  destruct (C85_import_partial E1 BI ["pkg"; "sub"] "<module 'pkg.sub' from '/usr/lib/pkg/sub.py'>" "<function g at 0x7f01>" "g" "h" false 12) as (text & A & B & C).
  - split; [repeat constructor|]. intros [H|[H|[H|[H|[]]]]]; discriminate H.
  - exists " from '/usr/lib/pkg/sub.py'>". split; [reflexivity|]. right. exists "from '/usr/lib/pkg/sub.py'>". reflexivity.
  - exists "", "function g at 0x7f01", "". reflexivity.
  - reflexivity.
  - right. reflexivity.
  - exists 2. split; [reflexivity|]. left. reflexivity.
  - exists text. split; [exact A|]. split; [rewrite B; vm_compute; reflexivity|exact C].
Qed.
Theorem C85_lambda_case : forall P, exists name text g1, getname "<lambda>" (lines_of "g = lambda x: x") = Some name /\ exec P (String.concat "" (lines_of "g = lambda x: x")) [] = Some g1 /\
  get name g1 = Some (P ["lambda x: x"]) /\
  getimport_of E1 BI "<module 'pkg.sub' from '/usr/lib/pkg/sub.py'>" (Some name) "<function <lambda> at 0x7f01>" "" true false = Some (Ok text) /\ binds E1 BI text name 12.
Proof.
  intros P. apply (C85_lambda_partial P E1 BI ["pkg"; "sub"] "<module 'pkg.sub' from '/usr/lib/pkg/sub.py'>" "<function <lambda> at 0x7f01>" (lines_of "g = lambda x: x") "g = lambda x: x" "g" [] "lambda x: x" [] "" false 12).
  - split; [repeat constructor|]. intros [H|[H|[H|[H|[]]]]]; discriminate H.
  - exists " from '/usr/lib/pkg/sub.py'>". split; [reflexivity|]. right. exists "from '/usr/lib/pkg/sub.py'>". reflexivity.
  - exists "", "function <lambda", " at 0x7f01>". reflexivity.
  - left. reflexivity.
  - vm_compute. reflexivity.
  - reflexivity.
  - apply (tgt _ "g" [] " " " " "lambda x: x"); [reflexivity..|]. constructor.
  - left. exists "x"%char, ": x". split; reflexivity.
  - vm_compute. reflexivity.
  - exists 2. split; [reflexivity|]. left. reflexivity.
Qed.
