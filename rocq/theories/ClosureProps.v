(** C86, C87: the outermost function of a closure, and the import of a function made by another. *)
From Coq Require Import String Ascii List Bool Arith Lia.
From Verif Require Import PyDict NamesModel NamesProofs DescrModel CheckModel ImportModel FindModel DumpsourceModel AliasModel ImportableModel ClosureModel
  CheckProps DescrProps FindProps ImportProps DumpsourceProps AliasProps NamespaceProps.
Import ListNotations.
Local Open Scope string_scope.
Local Notation alias_ok := ImportProps.alias_ok.
Local Notation exec := ImportModel.exec.
Local Notation nl := ImportModel.nl.

(** * outermost *)
(** the object is a global of the function, named in the enclosing source, and its own source is the enclosing source of the function *)
Definition encloses (W : objects) (f o : nat) (name : string) : Prop :=
  exists g lines lnum, global_names W f = Some g /\ In (name, o) g /\ block_of W f true = Some (lines, lnum) /\ block_of W o false = Some (lines, lnum) /\
    exists a b, String.concat "" lines = a ++ name ++ b.

Lemma outer_test W lines lnum p :
  (contains (fst p) (String.concat "" lines) &&
   match block_of W (snd p) false with Some (l, n) => (if list_eq_dec string_dec l lines then true else false) && Nat.eqb n lnum | None => false end = true) <->
  (exists a b, String.concat "" lines = a ++ fst p ++ b) /\ block_of W (snd p) false = Some (lines, lnum).
Proof.
  rewrite andb_true_iff, contains_spec. split; intros [A B]; (split; [exact A|]).
  - destruct (block_of W (snd p) false) as [[l n]|]; [|discriminate]. apply andb_prop in B as [B C]. destruct (list_eq_dec string_dec l lines); [|discriminate]. apply Nat.eqb_eq in C. congruence.
  - rewrite B. destruct (list_eq_dec string_dec lines lines); [|congruence]. apply Nat.eqb_refl.
Qed.
(** what is given does enclose the function *)
Theorem C86_sound : forall W f o, outermost W f = Some o -> exists name, encloses W f o name.
Proof.
  intros W f o H. unfold outermost in H. destruct (global_names W f) as [g|] eqn:G; [|discriminate]. destruct (block_of W f true) as [[lines lnum]|] eqn:L; [|discriminate].
  destruct (find _ g) as [[name x]|] eqn:F; [|discriminate]. injection H as <-. apply find_some in F as [I T]. apply outer_test in T as [A B].
  exists name, g, lines, lnum. repeat split; assumption.
Qed.
(** and nothing is given only if nothing does *)
Theorem C86_complete : forall W f, outermost W f = None <-> forall o name, ~ encloses W f o name.
Proof.
  intros W f. split.
  - intros H o name (g & lines & lnum & G & I & L & Lo & C). unfold outermost in H. rewrite G, L in H.
    destruct (find _ g) as [p|] eqn:F; [destruct p; discriminate|]. pose proof (find_none _ _ F _ I) as N. pose proof (proj2 (outer_test W lines lnum (name, o)) (conj C Lo)) as T. cbv beta in N. rewrite T in N. discriminate N.
  - intros H. destruct (outermost W f) as [o|] eqn:O; [|reflexivity]. destruct (C86_sound _ _ _ O) as [name E]. exfalso. exact (H _ _ E).
Qed.
(** so the function that encloses it is given, if no other global has the same source *)
Theorem C86_unique_partial : forall W f o name, encloses W f o name -> (forall o' n', encloses W f o' n' -> o' = o) -> outermost W f = Some o.
Proof.
  intros W f o name E U. destruct (outermost W f) as [o'|] eqn:O.
  - destruct (C86_sound _ _ _ O) as [n' E']. f_equal. exact (U _ _ E').
  - exfalso. exact (proj1 (C86_complete W f) O _ _ E).
Qed.

(** * the line a function was made in *)
(** the line has "= f(..." somewhere, after a space or a word *)
Definition has_call (p line : string) : Prop :=
  exists a c w r, line = a ++ String c (String "=" (w ++ p ++ r)) /\ (is_name_char c = true \/ is_space c = true) /\ ~ In (ascii_of_nat 10) (list_ascii_of_string (a ++ String c "")) /\ white w.
(** the line is "v = f(...", perhaps after other words that have no equals sign, as in "if debug: v = f(..." *)
Definition before_name (pre : string) : Prop := (pre = "" \/ exists q c, pre = q ++ String c "" /\ is_space c = true) /\
  ~ In "="%char (list_ascii_of_string pre) /\ ~ In (ascii_of_nat 10) (list_ascii_of_string pre).
Definition makes (v p line : string) : Prop := exists pre w1 w2 r, line = pre ++ v ++ w1 ++ "=" ++ w2 ++ p ++ r /\ before_name pre /\ white w1 /\ white w2 /\ ~ In (ascii_of_nat 10) (list_ascii_of_string w1).

Lemma concat_string a b c : (a ++ String c "") ++ b = a ++ String c b.
Proof. rewrite app_assoc_s. reflexivity. Qed.
Lemma list_app_s a b : list_ascii_of_string (a ++ b) = (list_ascii_of_string a ++ list_ascii_of_string b)%list.
Proof. induction a as [|c a IH]; cbn; [reflexivity|]. now rewrite IH. Qed.
Lemma wos c : word_or_space c = true <-> is_name_char c = true \/ is_space c = true.
Proof. apply orb_true_iff. Qed.
Definition word_start (p : string) : Prop := match p with EmptyString => False | String c _ => is_space c = false end.
Lemma assigned_from_spec p s : word_start p -> forall d, m_assigned_from (word_or_space d) p s = true <->
  exists a w r, s = a ++ String "=" (w ++ p ++ r) /\ ~ In (ascii_of_nat 10) (list_ascii_of_string a) /\ word_or_space (last (list_ascii_of_string a) d) = true /\ white w.
Proof.
  intros P. induction s as [|x s IH]; intros d.
  - cbn [m_assigned_from]. split; [discriminate|]. intros ([|y a] & w & r & X & _); discriminate X.
  - cbn [m_assigned_from]. rewrite orb_true_iff. split.
    + intros [H|H].
      * apply andb_prop in H as [H D]. apply andb_prop in H as [Q C]. apply Ascii.eqb_eq in C. subst x. destruct (drop_prefix p (lstrip s)) as [r|] eqn:Dr; [|discriminate].
        apply drop_inv in Dr. rewrite lstrip_lead in Dr. destruct (lead s) as [w t] eqn:L. apply lead_inv in L as (-> & W & _). cbn [snd] in Dr. subst t.
        exists "", w, r. split; [reflexivity|]. split; [intros []|]. split; [exact Q|exact W].
      * destruct (Ascii.eqb_spec x (ascii_of_nat 10)) as [|N]; [discriminate|]. apply IH in H as (a & w & r & -> & L & Q & W).
        exists (String x a), w, r. split; [reflexivity|]. change (list_ascii_of_string (String x a)) with (x :: list_ascii_of_string a). rewrite last_shift. split; [|split; assumption].
        intros [Z|Z]; [now apply N|contradiction].
    + intros (a & w & r & X & L & Q & W). destruct a as [|y a].
      * left. change (String x s = String "=" (w ++ p ++ r)) in X. inversion X as [[X1 X2]]. subst x s. cbn [list_ascii_of_string last] in Q. rewrite Q.
        change (Ascii.eqb "=" "=") with true. cbn [andb]. rewrite lstrip_lead, (lead_app w _ W); [|destruct p; [destruct P|exact P]].
        cbn [snd]. rewrite CheckProps.drop_prefix_app. reflexivity.
      * right. change (String x s = String y (a ++ String "=" (w ++ p ++ r))) in X. inversion X as [[X1 X2]]. subst x. change (s = a ++ String "=" (w ++ p ++ r)) in X2. subst s.
        change (list_ascii_of_string (String y a)) with (y :: list_ascii_of_string a) in *. rewrite last_shift in Q. cbn [In] in L.
        destruct (Ascii.eqb_spec y (ascii_of_nat 10)) as [Ey|]; [exfalso; apply L; left; congruence|]. apply IH. exists a, w, r. split; [reflexivity|]. split; [tauto|]. split; assumption.
Qed.
Lemma snoc_s (a : string) : a = "" \/ exists b c, a = b ++ String c "".
Proof.
  induction a as [|x a IH]; [now left|]. right. destruct IH as [->|(b & c & ->)]; [now exists "", x|]. now exists (String x b), c.
Qed.
Lemma assigned_spec p s : word_start p -> (m_assigned p s = true <-> has_call p s).
Proof.
  intros P. unfold m_assigned. change false with (word_or_space "="). rewrite (assigned_from_spec p s P "="). unfold has_call. split.
  - intros (a & w & r & -> & L & Q & W). destruct (snoc_s a) as [->|(b & c & ->)]; [discriminate Q|].
    exists b, c, w, r. rewrite concat_string. split; [reflexivity|]. split; [|split; assumption]. apply wos.
    rewrite list_app_s in Q. cbn [list_ascii_of_string] in Q. rewrite last_last in Q. exact Q.
  - intros (a & c & w & r & -> & C & L & W). exists (a ++ String c ""), w, r. rewrite concat_string. split; [reflexivity|]. split; [exact L|]. split; [|exact W].
    rewrite list_app_s. cbn [list_ascii_of_string]. rewrite last_last. now apply wos.
Qed.
Lemma name_char_not c d : is_name_char c = true -> is_name_char d = false -> c <> d.
Proof. intros A B ->. congruence. Qed.
Lemma ident_not_in v c : is_ident v = true -> is_name_char c = false -> ~ In c (list_ascii_of_string v).
Proof.
  intros V C. assert (all_chars is_name_char v = true) as A.
  { destruct v as [|x v]; [discriminate|]. cbn [is_ident] in V. apply andb_prop in V as [V1 V2]. cbn [all_chars]. rewrite V2. unfold is_name_char. rewrite V1. reflexivity. }
  clear V. induction v as [|x v IH]; [intros []|]. cbn [all_chars] in A. apply andb_prop in A as [A B]. intros [->|I]; [congruence|exact (IH B I)].
Qed.
Lemma ident_all v : is_ident v = true -> all_chars is_name_char v = true.
Proof. destruct v as [|x v]; [discriminate|]. cbn [is_ident all_chars]. intros V. apply andb_prop in V as [V1 V2]. rewrite V2. unfold is_name_char. rewrite V1. reflexivity. Qed.
Lemma ident_last v d : is_ident v = true -> is_name_char (last (list_ascii_of_string v) d) = true.
Proof.
  intros V. pose proof (ident_all v V) as A. destruct (snoc_s v) as [->|(b & c & ->)]; [discriminate|]. rewrite list_app_s. cbn [list_ascii_of_string]. rewrite last_last.
  rewrite all_chars_app in A. apply andb_prop in A as [_ A]. cbn [all_chars] in A. now apply andb_prop in A.
Qed.
Lemma white_last w d : white w -> (w = "" \/ is_space (last (list_ascii_of_string w) d) = true).
Proof.
  intros A. destruct (snoc_s w) as [->|(b & c & ->)]; [now left|]. right. rewrite list_app_s. cbn [list_ascii_of_string]. rewrite last_last. unfold white in A.
  rewrite all_chars_app in A. apply andb_prop in A as [_ A]. cbn [all_chars] in A. now apply andb_prop in A.
Qed.
(** a line that makes v is one that has the call *)
Lemma makes_has_call v p line : is_ident v = true -> makes v p line -> has_call p line.
Proof.
  intros V (pre & w1 & w2 & r & -> & Pre & A & B & N).
  destruct (snoc_s (v ++ w1)) as [X|(b & c & X)]; [destruct v; [discriminate V|discriminate X]|].
  exists (pre ++ b), c, w2, r. split; [rewrite app_assoc_s; f_equal; rewrite <- app_assoc_s, X, app_assoc_s; reflexivity|]. split; [|split; [|exact B]].
  - destruct (snoc_s w1) as [->|(b' & c' & ->)].
    + left. rewrite app_nil_s in X. subst v. pose proof (ident_last _ " " V) as L. rewrite list_app_s in L. cbn [list_ascii_of_string] in L. now rewrite last_last in L.
    + right. assert (last (list_ascii_of_string (v ++ b' ++ String c' "")) " "%char = last (list_ascii_of_string (b ++ String c "")) " "%char) as E by now rewrite X.
      rewrite !list_app_s in E. cbn [list_ascii_of_string] in E. rewrite app_assoc, !last_last in E. subst c'. unfold white in A. rewrite all_chars_app in A. apply andb_prop in A as [_ A]. cbn [all_chars] in A. now apply andb_prop in A.
  - rewrite app_assoc_s, <- X, !list_app_s. intros I. apply in_app_iff in I as [I|I]; [apply Pre in I; exact I|]. apply in_app_iff in I as [I|I]; [|contradiction]. revert I. apply ident_not_in; [exact V|reflexivity].
Qed.
Lemma space_not_eq : forall c, is_space c = true -> Ascii.eqb c "=" = false.
Proof. chars. Qed.
Lemma name_not_space : forall c, is_name_char c = true -> is_space c = false.
Proof. chars. Qed.
Lemma name_not_eq : forall c, is_name_char c = true -> Ascii.eqb c "=" = false.
Proof. chars. Qed.
Lemma split_ws_white n w : white w -> split_ws n w = [].
Proof. induction w as [|c w IH]; intros H; [destruct n; reflexivity|]. unfold white in H. cbn [all_chars] in H. apply andb_prop in H as [A B]. rewrite split_ws_space by exact A. apply IH, B. Qed.
Lemma not_in_all x s : ~ In x (list_ascii_of_string s) -> all_chars (fun c => negb (Ascii.eqb c x)) s = true.
Proof.
  induction s as [|c s IH]; intros H; [reflexivity|]. cbn [all_chars list_ascii_of_string In] in *. rewrite IH by tauto. destruct (Ascii.eqb_spec c x); [exfalso; tauto|reflexivity].
Qed.
(** the first word of a text that goes on after a space *)
Lemma word_inside d s c t : is_space d = false -> is_space c = true ->
  exists w s', w <> "" /\ String d s = w ++ s' /\ word (String d s ++ String c t) = (w, s' ++ String c t).
Proof.
  intros D C. revert d D. induction s as [|e s IH]; intros d D.
  - exists (String d ""), "". split; [discriminate|]. split; [reflexivity|]. cbn [append word]. rewrite D, C. reflexivity.
  - destruct (is_space e) eqn:E.
    + exists (String d ""), (String e s). split; [discriminate|]. split; [reflexivity|]. cbn [append word]. rewrite D, E. reflexivity.
    + destruct (IH e E) as (w & s' & _ & X & Y). exists (String d w), s'. split; [discriminate|]. split; [cbn [append]; now rewrite X|].
      change (String d (String e s) ++ String c t) with (String d (String e s ++ String c t)). cbn [word]. rewrite D, Y. reflexivity.
Qed.
Lemma last_word c v w1 : is_space c = true -> v <> "" -> all_chars (fun x => negb (is_space x)) v = true -> white w1 ->
  forall k q n, String.length q <= k -> String.length q < n -> exists l, split_ws n (q ++ String c (v ++ w1)) = (l ++ [v])%list.
Proof.
  intros C NV SV A. induction k as [|k IH]; intros q n L Ln.
  - destruct q; [|cbn in L; lia]. cbn [append]. rewrite split_ws_space by exact C. exists []. destruct n as [|n]; [cbn in Ln; lia|].
    destruct w1 as [|x w1].
    + rewrite app_nil_s. now rewrite split_ws_last.
    + unfold white in A. cbn [all_chars] in A. pose proof A as A'. apply andb_prop in A as [A1 A2]. rewrite split_ws_word by assumption. rewrite (split_ws_white n (String x w1)); [reflexivity|exact A'].
  - destruct q as [|d q]; [apply IH; cbn in *; lia|]. destruct (is_space d) eqn:D.
    + cbn [append]. rewrite split_ws_space by exact D. apply IH; cbn in *; lia.
    + destruct n as [|n]; [lia|]. destruct (word_inside d q c (v ++ w1) D C) as (w & s' & NW & X & Y).
      assert (split_ws (S n) (String d q ++ String c (v ++ w1)) = w :: split_ws n (s' ++ String c (v ++ w1))) as ->.
      { cbn [append split_ws] in *. cbn [lstrip]. rewrite D. rewrite Y. reflexivity. }
      assert (String.length s' < String.length (String d q)) as Ls.
      { rewrite X, length_app. destruct w; [congruence|]. cbn [String.length]. lia. }
      destruct (IH s' n) as [l ->]; [lia|lia|]. exists (w :: l). reflexivity.
Qed.
(** and v is what is taken from it *)
Lemma makes_name v p line : is_ident v = true -> makes v p line -> assigned_name line = Some v.
Proof.
  intros V (pre & w1 & w2 & r & -> & (Pre & PE & _) & A & B & N). unfold assigned_name.
  assert (before_eq (pre ++ v ++ w1 ++ "=" ++ w2 ++ p ++ r) = pre ++ v ++ w1) as ->.
  { rewrite before_eq_prefix by (apply not_in_all, PE). f_equal.
    rewrite before_eq_prefix by (apply (all_chars_imp is_name_char); [intros c C; rewrite (name_not_eq _ C); reflexivity|apply ident_all, V]). f_equal.
    apply (before_eq_app w1). apply (all_chars_imp is_space); [intros c C; rewrite (space_not_eq _ C); reflexivity|exact A]. }
  assert (v <> "") as NV by (destruct v; [discriminate|discriminate]).
  assert (all_chars (fun x => negb (is_space x)) v = true) as SV by (apply (all_chars_imp is_name_char); [intros c C; rewrite (name_not_space _ C); reflexivity|apply ident_all, V]).
  cbv zeta. destruct Pre as [->|(q & c & -> & C)].
  - change ("" ++ v ++ w1) with (v ++ w1). destruct (String.length (v ++ w1)) as [|k] eqn:K; [destruct v; [congruence|discriminate K]|].
    destruct w1 as [|c w1].
    + rewrite app_nil_s. rewrite split_ws_last by assumption. reflexivity.
    + unfold white in A. cbn [all_chars] in A. apply andb_prop in A as [A1 A2]. rewrite split_ws_word by assumption. rewrite (split_ws_white k (String c w1)); [reflexivity|]. unfold white. cbn [all_chars]. now rewrite A1.
  - rewrite concat_string. destruct (last_word c v w1 C NV SV A (String.length q) q (String.length (q ++ String c (v ++ w1)))) as [l ->]; [lia|rewrite length_app; cbn; lia|].
    destruct (l ++ [v])%list eqn:X; [destruct l; discriminate X|]. rewrite <- X, last_last. reflexivity.
Qed.
Lemma candidate_last n p lines l1 line l2 : lines = (l1 ++ line :: l2)%list -> contains n line = true -> m_assigned p line = true ->
  (forall l, In l l2 -> contains n l && m_assigned p l = false) -> candidate n p lines = Some line.
Proof.
  intros -> C M N. unfold candidate. rewrite filter_app. cbn [filter]. rewrite C, M. cbn [andb].
  assert (filter (fun l => contains n l && m_assigned p l) l2 = []) as ->.
  { clear - N. induction l2 as [|x l2 IH]; [reflexivity|]. cbn [filter]. rewrite (N x) by now left. apply IH. intros l I. apply N. now right. }
  destruct (filter _ l1 ++ [line])%list eqn:X; [destruct (filter _ l1); discriminate X|]. rewrite <- X, last_last. reflexivity.
Qed.
Lemma candidate_none n p lines : (forall l, In l lines -> contains n l && m_assigned p l = false) -> candidate n p lines = None.
Proof.
  intros N. unfold candidate. assert (filter (fun l => contains n l && m_assigned p l) lines = []) as ->; [|reflexivity].
  induction lines as [|x l IH]; [reflexivity|]. cbn [filter]. rewrite (N x) by now left. apply IH. intros y I. apply N. now right.
Qed.

(** a verified import of an attribute of an ordinary module *)
Lemma import_name_ok E bi head v a builtin m o : ordinary head -> is_ident v = true -> alias_ok a ->
  get (join_dot head) (modules E) = Some m -> get v (attr E m) = Some o ->
  exists text, import_name E bi (Some (join_dot head)) v a builtin = Some text /\ text = statement head v a /\ binds E bi text (target a v) o.
Proof.
  intros O V A M G. pose proof O as [F O2]. assert (head <> []) as NE by (destruct head; [destruct O2|discriminate]).
  unfold import_name. rewrite split_join; [|exact NE|eapply Forall_impl; [|exact F]; intros x; apply ident_nodot]. unfold _getimport. rewrite getimport_step by assumption.
  assert (from_import E (join_dot head) v = Ok o) as X by (unfold from_import, import_; rewrite M, G; reflexivity). rewrite X. cbn iota.
  eexists. split; [reflexivity|]. split; [reflexivity|]. unfold binds. rewrite exec_statement by assumption. rewrite X. reflexivity.
Qed.
Lemma ident_word_start n r : is_ident n = true -> word_start (n ++ r).
Proof. intros N. destruct n as [|c n]; [discriminate|]. cbn [append word_start]. apply start_not_space. cbn [is_ident] in N. now apply andb_prop in N. Qed.
Lemma has_call_contains n r line : has_call (n ++ r) line -> contains n line = true.
Proof.
  intros (a & c & w & t & -> & _). apply contains_spec. exists (a ++ String c (String "=" w)), (r ++ t).
  rewrite !app_assoc_s. cbn [append]. rewrite ?app_assoc_s. reflexivity.
Qed.
Lemma not_called n r line : is_ident n = true -> ~ has_call (n ++ r) line -> contains n line && m_assigned (n ++ r) line = false.
Proof.
  intros N H. destruct (m_assigned (n ++ r) line) eqn:M; [|apply andb_false_r]. exfalso. apply H. apply assigned_spec; [apply ident_word_start, N|exact M].
Qed.

Definition no_functions (W : objects) (f : nat) : Prop := forall n o, In (n, o) (free W f) -> is_function W o = false.
Lemma no_functions_vars E bi W func a b vars acc : (forall n o, In (n, o) vars -> is_function W o = false) -> function_vars E bi W func a b vars acc = Some acc.
Proof.
  induction vars as [|[n o] vars IH]; intros H; [reflexivity|]. cbn [function_vars]. rewrite (H n o) by now left. apply IH. intros. eapply H. right. eassumption.
Qed.

(** * C87 *)
(** a function made by calling another, "v = outer(...)", that refers to no function of the outer one: if no later line of the file has "= outer(", the
    text imports v from the module of outer, and binds v, or the alias, to the function, if that is what the module has under v *)
Theorem C87_closure_partial : forall E bi W f o n v head lines l1 line l2 m a builtin, no_functions W f ->
  outermost W f = Some o -> o <> f -> name_of W o = Some n -> is_ident n = true -> module_of W o = Some (join_dot head) -> ordinary head ->
  file_of W o = Some lines -> lines = (l1 ++ line :: l2)%list -> is_ident v = true -> makes v (n ++ "(") line -> (forall l, In l l2 -> ~ has_call (n ++ "(") l) ->
  alias_ok a -> get (join_dot head) (modules E) = Some m -> get v (attr E m) = Some f ->
  exists text, closuredimport E bi W f a builtin = Some [(v, text)] /\ text = statement head v a /\ binds E bi text (target a v) f.
Proof.
  intros E bi W f o n v head lines l1 line l2 m a builtin NF O D Nm N Md H Fl Ls V Mk La A M G.
  destruct (import_name_ok E bi head v a builtin m f H V A M G) as (text & X & Y & Z). exists text. split; [|split; assumption].
  unfold closuredimport. rewrite no_functions_vars by exact NF. rewrite O, Md. destruct (Nat.eqb_spec o f); [contradiction|]. rewrite Fl, Nm.
  pose proof (makes_has_call _ _ _ V Mk) as HC.
  rewrite (candidate_last n (n ++ "(") lines l1 line l2 Ls).
  - unfold import_candidate. rewrite (makes_name _ _ _ V Mk), X. reflexivity.
  - apply (has_call_contains n "("), HC.
  - apply assigned_spec; [apply ident_word_start, N|exact HC].
  - intros l I. apply not_called; [exact N|apply La, I].
Qed.

(** a function made by calling another with a function, "v = outer(inner...": the same, with the lines that have "= outer(inner" *)
Theorem C87_wrapper_partial : forall E bi W f x fo src o n fn v head lines l1 line l2 m a builtin,
  filter (fun p => is_function W (snd p)) (free W f) = [(x, fo)] -> source_of W fo = Some src -> startswith "@" (lstrip src) = false ->
  outermost W f = Some o -> name_of W o = Some n -> is_ident n = true -> name_of W fo = Some fn -> module_of W o = Some (join_dot head) -> ordinary head ->
  file_of W o = Some lines -> lines = (l1 ++ line :: l2)%list -> is_ident v = true -> makes v (n ++ "(" ++ fn) line -> (forall l, In l l2 -> ~ has_call (n ++ "(" ++ fn) l) ->
  alias_ok a -> get (join_dot head) (modules E) = Some m -> get v (attr E m) = Some f ->
  exists text, closuredimport E bi W f a builtin = Some [(v, text)] /\ text = statement head v a /\ binds E bi text (target a v) f.
Proof.
  intros E bi W f x fo src o n fn v head lines l1 line l2 m a builtin FV S At O Nm N Fn Md H Fl Ls V Mk La A M G.
  destruct (import_name_ok E bi head v a builtin m f H V A M G) as (text & X & Y & Z). exists text. split; [|split; assumption].
  pose proof (makes_has_call _ _ _ V Mk) as HC.
  assert (function_var E bi W f a builtin x fo = Some (v, text)) as FF.
  { unfold function_var. rewrite S, At, O, Nm, Fn, Fl. cbv zeta. rewrite (candidate_last n (n ++ "(" ++ fn) lines l1 line l2 Ls).
    - unfold import_candidate. rewrite (makes_name _ _ _ V Mk), Md, X. reflexivity.
    - apply (has_call_contains n ("(" ++ fn)), HC.
    - apply assigned_spec; [apply ident_word_start, N|exact HC].
    - intros l I. apply not_called; [exact N|apply La, I]. }
  unfold closuredimport.
  assert (forall vars acc, filter (fun p => is_function W (snd p)) vars = [(x, fo)] -> function_vars E bi W f a builtin vars acc = Some (set v text acc)) as L.
  { induction vars as [|[k y] vars IH]; intros acc Hf; [discriminate|]. cbn [filter snd] in Hf. cbn [function_vars]. destruct (is_function W y) eqn:I.
    - assert (k = x /\ y = fo /\ filter (fun p => is_function W (snd p)) vars = []) as (-> & -> & R) by (split; [|split]; congruence).
      rewrite FF. apply no_functions_vars. intros n0 o0 I0. destruct (is_function W o0) eqn:Q; [|reflexivity].
      assert (In (n0, o0) (filter (fun p => is_function W (snd p)) vars)) as Z0 by (apply filter_In; split; assumption). rewrite R in Z0. destruct Z0.
    - apply IH, Hf. }
  rewrite (L _ _ FV). reflexivity.
Qed.

(** ... and if no line of the outer function's file has "= outer(inner", the lines of the inner one's file count, and its module *)
Theorem C87_wrapper_elsewhere_partial : forall E bi W f x fo src o n fn v head olines lines l1 line l2 m a builtin,
  filter (fun p => is_function W (snd p)) (free W f) = [(x, fo)] -> source_of W fo = Some src -> startswith "@" (lstrip src) = false ->
  outermost W f = Some o -> name_of W o = Some n -> is_ident n = true -> name_of W fo = Some fn -> module_of W fo = Some (join_dot head) -> ordinary head ->
  file_of W o = Some olines -> (forall l, In l olines -> ~ has_call (n ++ "(" ++ fn) l) ->
  file_of W fo = Some lines -> lines = (l1 ++ line :: l2)%list -> is_ident v = true -> makes v (n ++ "(" ++ fn) line -> (forall l, In l l2 -> ~ has_call (n ++ "(" ++ fn) l) ->
  alias_ok a -> get (join_dot head) (modules E) = Some m -> get v (attr E m) = Some f ->
  exists text, closuredimport E bi W f a builtin = Some [(v, text)] /\ text = statement head v a /\ binds E bi text (target a v) f.
Proof.
  intros E bi W f x fo src o n fn v head olines lines l1 line l2 m a builtin FV S At O Nm N Fn Md H Flo No Fl Ls V Mk La A M G.
  destruct (import_name_ok E bi head v a builtin m f H V A M G) as (text & X & Y & Z). exists text. split; [|split; assumption].
  pose proof (makes_has_call _ _ _ V Mk) as HC.
  assert (function_var E bi W f a builtin x fo = Some (v, text)) as FF.
  { unfold function_var. rewrite S, At, O, Nm, Fn, Flo. cbv zeta. rewrite candidate_none by (intros l I; apply not_called; [exact N|apply No, I]).
    rewrite Fl, (candidate_last fn (n ++ "(" ++ fn) lines l1 line l2 Ls).
    - unfold import_candidate. rewrite (makes_name _ _ _ V Mk), Md, X. reflexivity.
    - destruct HC as (a0 & c & w & t & -> & _). apply contains_spec. exists (a0 ++ String c (String "=" (w ++ n ++ "("))), t.
      rewrite !app_assoc_s. cbn [append]. rewrite ?app_assoc_s. reflexivity.
    - apply assigned_spec; [apply ident_word_start, N|exact HC].
    - intros l I. pose proof (not_called n ("(" ++ fn) l N (La l I)) as Q. apply andb_false_iff in Q as [Q|Q].
      + destruct (m_assigned (n ++ "(" ++ fn) l) eqn:Ma; [|apply andb_false_r].
        exfalso. apply (La l I). apply assigned_spec; [apply ident_word_start, N|exact Ma].
      + rewrite Q. apply andb_false_r. }
  unfold closuredimport.
  assert (forall vars acc, filter (fun p => is_function W (snd p)) vars = [(x, fo)] -> function_vars E bi W f a builtin vars acc = Some (set v text acc)) as L.
  { induction vars as [|[k y] vars IH]; intros acc Hf; [discriminate|]. cbn [filter snd] in Hf. cbn [function_vars]. destruct (is_function W y) eqn:I.
    - assert (k = x /\ y = fo /\ filter (fun p => is_function W (snd p)) vars = []) as (-> & -> & R) by (split; [|split]; congruence).
      rewrite FF. apply no_functions_vars. intros n0 o0 I0. destruct (is_function W o0) eqn:Q; [|reflexivity].
      assert (In (n0, o0) (filter (fun p => is_function W (snd p)) vars)) as Z0 by (apply filter_In; split; assumption). rewrite R in Z0. destruct Z0.
    - apply IH, Hf. }
  rewrite (L _ _ FV). reflexivity.
Qed.
(** ... and if neither file has such a line there is no import, whatever the module has *)
Theorem C87_wrapper_unassigned : forall E bi W f x fo src o n fn olines lines a builtin,
  In (x, fo) (free W f) -> is_function W fo = true -> source_of W fo = Some src -> startswith "@" (lstrip src) = false ->
  outermost W f = Some o -> name_of W o = Some n -> is_ident n = true -> name_of W fo = Some fn ->
  file_of W o = Some olines -> (forall l, In l olines -> ~ has_call (n ++ "(" ++ fn) l) ->
  file_of W fo = Some lines -> (forall l, In l lines -> ~ has_call (n ++ "(" ++ fn) l) ->
  closuredimport E bi W f a builtin = None.
Proof.
  intros E bi W f x fo src o n fn olines lines a builtin Iv Fo S At O Nm N Fn Flo No Fl Nl.
  assert (function_var E bi W f a builtin x fo = None) as FF.
  { unfold function_var. rewrite S, At, O, Nm, Fn, Flo. cbv zeta. rewrite candidate_none by (intros l I; apply not_called; [exact N|apply No, I]).
    rewrite Fl, candidate_none; [reflexivity|]. intros l I.
    destruct (m_assigned (n ++ "(" ++ fn) l) eqn:Ma; [|apply andb_false_r].
    exfalso. apply (Nl l I). apply assigned_spec; [apply ident_word_start, N|exact Ma]. }
  unfold closuredimport.
  assert (forall vars acc, In (x, fo) vars -> function_vars E bi W f a builtin vars acc = None) as L.
  { induction vars as [|[k y] vars IH]; intros acc Hi; [destruct Hi|]. cbn [function_vars]. destruct Hi as [Hi|Hi].
    - injection Hi as -> ->. rewrite Fo, FF. reflexivity.
    - destruct (is_function W y); [|apply IH, Hi]. destruct (function_var E bi W f a builtin k y) as [[k' t]|]; [apply IH, Hi|reflexivity]. }
  rewrite (L _ _ Iv). reflexivity.
Qed.

(** a decorated function, whose wrapper refers to it: the import of its name *)
Theorem C87_decorated_partial : forall E bi W f x fo src t a builtin,
  filter (fun p => is_function W (snd p)) (free W f) = [(x, fo)] -> source_of W fo = Some src -> startswith "@" (lstrip src) = true -> import_of W fo = Some t ->
  closuredimport E bi W f a builtin = Some [(x, t)].
Proof.
  intros E bi W f x fo src t a builtin FV S At I.
  assert (forall vars acc, filter (fun p => is_function W (snd p)) vars = [(x, fo)] -> function_vars E bi W f a builtin vars acc = Some (set x t acc)) as L.
  { induction vars as [|[k y] vars IH]; intros acc Hf; [discriminate|]. cbn [filter snd] in Hf. cbn [function_vars]. destruct (is_function W y) eqn:Iy.
    - assert (k = x /\ y = fo /\ filter (fun p => is_function W (snd p)) vars = []) as (-> & -> & R) by (split; [|split]; congruence).
      unfold function_var. rewrite S, At, I. apply no_functions_vars. intros n0 o0 I0. destruct (is_function W o0) eqn:Q; [|reflexivity].
      assert (In (n0, o0) (filter (fun p => is_function W (snd p)) vars)) as Z0 by (apply filter_In; split; assumption). rewrite R in Z0. destruct Z0.
    - apply IH, Hf. }
  unfold closuredimport. rewrite (L _ _ FV). reflexivity.
Qed.

(** a function that nothing encloses but itself is imported as getimport says *)
Theorem C87_own : forall E bi W f a builtin, no_functions W f -> outermost W f = None \/ outermost W f = Some f ->
  closuredimport E bi W f a builtin = match import_of W f with Some t => Some [(called W f, t)] | None => None end.
Proof.
  intros E bi W f a builtin NF O. unfold closuredimport. rewrite no_functions_vars by exact NF. destruct O as [->| ->]; [reflexivity|].
  destruct (module_of W f); [|reflexivity]. now rewrite Nat.eqb_refl.
Qed.

(** nothing in the file makes it: no import *)
Theorem C87_unassigned : forall E bi W f o n m lines a builtin, no_functions W f -> outermost W f = Some o -> o <> f -> name_of W o = Some n -> is_ident n = true ->
  module_of W o = Some m -> file_of W o = Some lines -> (forall l, In l lines -> ~ has_call (n ++ "(") l) -> closuredimport E bi W f a builtin = None.
Proof.
  intros E bi W f o n m lines a builtin NF O D Nm N Md Fl La. unfold closuredimport. rewrite no_functions_vars by exact NF. rewrite O, Md. destruct (Nat.eqb_spec o f); [contradiction|]. rewrite Fl, Nm.
  rewrite candidate_none; [reflexivity|]. intros l I. apply not_called; [exact N|apply La, I].
Qed.

(** importable(f, source=False) gives that text *)
Theorem C87_importable : forall E bi W f a builtin rest v text fuel, isinst rest (Obj f) = false -> closuredimport E bi W f a builtin = Some [(v, text)] ->
  importable (S fuel) (importing E bi W a builtin rest) f (Some false) builtin = Text text.
Proof.
  intros E bi W f a builtin rest v text fuel I C. unfold importable. replace (if builtin && isbuiltin_ (importing E bi W a builtin rest) (Obj f) then false else false) with false by now destruct (builtin && _).
  cbn [attempts]. unfold by_import. cbn [importing isinst closure_imports]. rewrite I, C. reflexivity.
Qed.
