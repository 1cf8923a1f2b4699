(** C100: importable(obj, alias, source=False) of an instance: import its class, then evaluate its repr *)
From Coq Require Import String Ascii List Bool Arith Lia.
From Verif Require Import PyDict NamesModel NamesProofs DescrModel DescrProps CheckModel ImportModel ImportProps DumpsourceProps NamespaceModel NamespaceProps InstanceModel.
Import ListNotations.
Local Open Scope string_scope.

(** ** the specification *)
Definition lf : ascii := ascii_of_nat 10.
Definition eol : string := String lf EmptyString.
Definition alias_ok (a : string) : Prop := a = "" \/ (is_ident a = true /\ ~ In a ["from"; "import"]).
(** an instance of the class [k] of the module with the path [l]: no function, class, ...; it has no __name__ *)
Definition instance_of (l : list string) (k : string) (o : thing) : Prop :=
  ordinary l /\ is_ident k = true /\ special o = false /\ in_module o = Some (join_dot l) /\ module_attr o = join_dot l /\ name_attr o = None /\
  class_module o = Some (join_dot l) /\ class_str o = "<class '" ++ join_dot (l ++ [k]) ++ "'>" /\ ~ In (str_ o) ["inf"; "nan"; "Inf"; "NaN"].
(** it is shown as a call of [c] with the arguments [x] *)
Definition shown_as (o : thing) (c x : string) : Prop := is_ident c = true /\ without "<" x /\ without lf x /\ repr_ o = c ++ "(" ++ x ++ ")".

(** ** texts *)
Lemma substring_app a b : substring 0 (String.length a) (a ++ b) = a.
Proof. induction a as [|c a IH]; [destruct b; reflexivity|]. cbn [String.length append substring]. rewrite IH. reflexivity. Qed.
Lemma length_app_s a b : String.length (a ++ b) = String.length a + String.length b.
Proof. induction a as [|c a IH]; cbn [append String.length Nat.add]; [reflexivity|rewrite IH; reflexivity]. Qed.
Lemma ident_without c s : is_name_char c = false -> is_ident s = true -> without c s.
Proof.
  intros Hc H. unfold without. destruct s as [|a s]; [reflexivity|]. cbn [is_ident] in H. apply andb_prop in H as [A B].
  assert (D : forall x, is_name_char x = true -> negb (Ascii.eqb x c) = true).
  { intros x X. destruct (Ascii.eqb_spec x c); [congruence|reflexivity]. }
  cbn [all_chars]. rewrite (D a).
  - cbn [andb]. clear A. revert B. induction s as [|b s IH]; intros B; [reflexivity|]. cbn [all_chars] in *. apply andb_prop in B as [B1 B2]. rewrite (D b B1), (IH B2). reflexivity.
  - unfold is_name_char. rewrite A. reflexivity.
Qed.
Lemma without_app c a b : without c a -> without c b -> without c (a ++ b).
Proof. unfold without. intros A B. rewrite all_chars_app, A, B. reflexivity. Qed.
Lemma after_none c s : without c s -> after c s = None.
Proof.
  unfold without. induction s as [|a s IH]; intros H; [reflexivity|]. cbn [all_chars after] in *. apply andb_prop in H as [A B]. apply negb_true_iff in A. rewrite A. apply IH, B.
Qed.
Lemma after_app c a r : without c a -> after c (a ++ String c r) = Some r.
Proof.
  unfold without. induction a as [|b a IH]; intros H; cbn [append after]; [rewrite Ascii.eqb_refl; reflexivity|].
  cbn [all_chars] in H. apply andb_prop in H as [A B]. apply negb_true_iff in A. rewrite A. apply IH, B.
Qed.
Lemma before_paren_app a r : without "(" a -> before_paren (a ++ String "(" r) = a.
Proof.
  unfold without. induction a as [|b a IH]; intros H; cbn [append before_paren]; [reflexivity|].
  cbn [all_chars] in H. apply andb_prop in H as [A B]. apply negb_true_iff in A. rewrite A, (IH B). reflexivity.
Qed.
Lemma without_one_line s : without lf s -> one_line s.
Proof. exact (fun H => H). Qed.
Lemma chomp_line s : without lf s -> chomp s = s.
Proof.
  unfold without, lf. induction s as [|a s IH]; intros H; [reflexivity|]. cbn [all_chars] in H. apply andb_prop in H as [A B]. apply negb_true_iff in A.
  cbn [chomp]. destruct s; [rewrite A; reflexivity|]. rewrite (IH B). reflexivity.
Qed.
Lemma idents_nodot l : Forall (fun x => is_ident x = true) l -> Forall (fun x => has_dot x = false) l.
Proof. induction 1 as [|x l X _ IH]; constructor; [apply ident_nodot, X|exact IH]. Qed.
Lemma class_path_ok l k : Forall (fun x => is_ident x = true) l -> is_ident k = true -> class_path ("<class '" ++ join_dot (l ++ [k]) ++ "'>") = (l ++ [k])%list.
Proof.
  intros F K. unfold class_path. change ("<class '" ++ join_dot (l ++ [k]) ++ "'>") with ("<class " ++ String apos (join_dot (l ++ [k]) ++ "'>")).
  rewrite after_app by reflexivity. unfold but_two. rewrite length_app_s. cbn [String.length]. replace (_ + 2 - 2) with (String.length (join_dot (l ++ [k]))) by lia.
  rewrite substring_app. apply split_join; [destruct l; discriminate|]. apply idents_nodot, Forall_app. split; [exact F|constructor; [exact K|constructor]].
Qed.
Lemma builtins_ordinary l : ordinary l -> is_builtins (join_dot l) = false.
Proof. intros H. unfold is_builtins. apply memb_nIn. apply (ordinary_path l H). Qed.

Lemma paren_without c x : is_ident c = true -> without "<" x -> without "<" (c ++ "(" ++ x ++ ")").
Proof.
  intros I X. apply without_app; [apply ident_without; [reflexivity|exact I]|]. apply without_app; [reflexivity|]. apply without_app; [exact X|reflexivity].
Qed.
Lemma first_not_angle s : without "<" s -> startswith "<" s = false.
Proof.
  unfold without. destruct s as [|c s]; [reflexivity|]. cbn [all_chars startswith]. intros H. apply andb_prop in H as [A _]. apply negb_true_iff in A.
  rewrite Ascii.eqb_sym, A. reflexivity.
Qed.
Section Instances.
  Variables (E : env) (bi : dict string nat).
  Lemma namespace_instance l k o : instance_of l k o -> namespace_of E o = (l ++ [k])%list.
  Proof.
    intros (O & K & Sp & M & Ma & Na & Cm & Cs & St). unfold namespace_of. rewrite M. unfold getname. rewrite M, Na. unfold by_class.
    rewrite (proj2 (memb_nIn _ _) St), Cm, (builtins_ordinary l O), Cs. apply class_path_ok; [apply O|exact K].
  Qed.
  Lemma is_instance l k o : instance_of l k o -> repr_ o <> "array" -> isinstance_ o = Some true.
  Proof.
    intros (O & K & Sp & M & Ma & Na & Cm & Cs & St) R. unfold isinstance_, getname. rewrite Sp, M, Na, Cs, Ma, (builtins_ordinary l O).
    change (startswith "<class " ("<class '" ++ join_dot (l ++ [k]) ++ "'>")) with true. cbn [orb negb andb].
    destruct (startswith "<" (repr_ o)); [reflexivity|]. rewrite (proj2 (String.eqb_neq _ _) R). reflexivity.
  Qed.
  Lemma getimport_unverified l k c builtin : ordinary l -> getimport E bi (l ++ [k]) (Some c) "" false builtin = Ok (statement l c "").
  Proof.
    intros O. unfold getimport. rewrite removelast_last. unfold _getimport. cbn [getimport_]. rewrite (ordinary_join l "types" O) by (cbn; tauto).
    cbn [andb]. rewrite (builtins_ordinary l O). cbn [andb]. reflexivity.
  Qed.

  (** the text: the import of what the repr calls from the class's module, then the repr, under the alias *)
  Theorem C100_text : forall o l k c x alias src builtin, instance_of l k o -> shown_as o c x ->
    _importable E bi o src alias false true builtin =
      Ok ("from " ++ join_dot l ++ " import " ++ c ++ eol ++ (if String.eqb alias "" || String.eqb alias (repr_ o) then "" else alias ++ " = ") ++ repr_ o ++ eol).
  Proof.
    intros o l k c x alias src builtin H (I & X & _ & R). assert (W : without "<" (repr_ o)) by (rewrite R; apply paren_without; assumption).
    assert (Na : repr_ o <> "array").
    { intros Q. rewrite Q in R. assert (B : before_paren "array" = c) by (rewrite R; apply before_paren_app, ident_without; [reflexivity|exact I]). cbn in B. subst c.
      destruct x; discriminate R. }
    assert (Ne : String.eqb (repr_ o) "" = false) by (rewrite R; destruct c; reflexivity).
    unfold _importable, import_text. rewrite (is_instance l k o H Na). unfold getimport_thing. rewrite (namespace_instance l k o H), removelast_last.
    unfold styled. rewrite (after_none "<" _ W). destruct H as (O & K & Sp & M & Ma & N & Cm & Cs & St).
    rewrite (builtins_ordinary l O), (is_instance l k o) by (try exact Na; repeat split; assumption || apply O).
    assert (G : getname o true = Some (repr_ o)) by (unfold getname; rewrite M, N, (first_not_angle _ W); reflexivity).
    rewrite G, Ne. assert (B : before_paren (repr_ o) = c) by (rewrite R; apply before_paren_app, ident_without; [reflexivity|exact I]).
    rewrite B. assert (Nc : String.eqb c "" = false) by (destruct c; [discriminate I|reflexivity]). rewrite Nc.
    cbn [negb]. rewrite (getimport_unverified l k c builtin O). unfold statement, assign. cbn [String.eqb orb].
    destruct l as [|p l]; [destruct O as [_ []]|]. rewrite !app_assoc_s. reflexivity.
  Qed.
End Instances.

(** ** running the text *)
Section Running.
  Variables (call : nat -> string -> option nat) (literal : string -> option nat).
  Notation run := (run call literal).
  Lemma run_two E bi g a b : without lf a -> without lf b ->
    run E bi g (a ++ eol ++ b ++ eol) = match line call literal E bi g a with Some g => line call literal E bi g b | None => None end.
  Proof.
    intros A B. unfold InstanceModel.run. replace (a ++ eol ++ b ++ eol) with ((a ++ String lf b) ++ nl) by (rewrite app_assoc_s; reflexivity).
    rewrite chomp_nl. change (ascii_of_nat 10) with lf. rewrite split_app. change lf with DumpsourceModel.lf. rewrite (split_line a A), (split_line b B).
    cbn [List.app lines]. destruct (line call literal E bi g a); [|reflexivity]. destruct (line call literal E bi d b); reflexivity.
  Qed.
  Lemma join_line l : Forall (fun x => is_ident x = true) l -> without lf (join_dot l).
  Proof.
    induction 1 as [|x l X F IH]; [reflexivity|]. assert (Q : without lf x) by (apply ident_without; [reflexivity|exact X]).
    destruct l as [|y l]; [exact Q|]. change (join_dot (x :: y :: l)) with (x ++ "." ++ join_dot (y :: l)). apply without_app; [exact Q|]. apply without_app; [reflexivity|exact IH].
  Qed.
  Lemma line_import E bi g l c : ordinary l -> is_ident c = true ->
    line call literal E bi g ("from " ++ join_dot l ++ " import " ++ c) = match from_import E (join_dot l) c with Ok o => Some (set c o g) | Err _ => None end.
  Proof.
    intros O I. unfold line. change (startswith "from " ("from " ++ join_dot l ++ " import " ++ c)) with true. cbn [orb].
    assert (L : without lf ("from " ++ join_dot l ++ " import " ++ c)).
    { apply without_app; [reflexivity|]. apply without_app; [apply join_line, O|]. apply without_app; [reflexivity|]. apply ident_without; [reflexivity|exact I]. }
    assert (Q : exec E bi ("from " ++ join_dot l ++ " import " ++ c) = exec E bi (statement l c "")).
    { unfold exec, statement. destruct l as [|p l]; [destruct O as [_ []]|]. cbn [String.eqb orb]. rewrite chomp_nl, (chomp_line _ L). reflexivity. }
    rewrite Q, exec_statement; [|destruct l; [destruct O as [_ []]|discriminate]|apply O|exact I|left; reflexivity].
    destruct (from_import E (join_dot l) c); reflexivity.
  Qed.
  (** a line that is a call, or an assignment to a name that is no keyword, is no import *)
  Lemma startswith_inv p : forall s, startswith p s = true -> exists r, s = p ++ r.
  Proof.
    induction p as [|a p IH]; intros s H; [exists s; reflexivity|]. destruct s as [|b s]; [discriminate|]. cbn [startswith] in H. apply andb_prop in H as [A B].
    apply Ascii.eqb_eq in A. subst b. destruct (IH s B) as [r ->]. exists r. reflexivity.
  Qed.
  Lemma cut_same c : forall a b x y, without c a -> without c b -> a ++ String c x = b ++ String c y -> a = b.
  Proof.
    unfold without. induction a as [|p a IH]; intros [|q b] x y A B H; cbn [append all_chars] in *; [reflexivity| | |].
    - injection H as -> _. rewrite Ascii.eqb_refl in B. discriminate.
    - injection H as -> _. rewrite Ascii.eqb_refl in A. discriminate.
    - injection H as -> H. apply andb_prop in A as [_ A]. apply andb_prop in B as [_ B]. rewrite (IH b x y A B H). reflexivity.
  Qed.
  Lemma call_no_import c r p : is_ident c = true -> without "(" p -> startswith (p ++ " ") (c ++ String "(" r) = false.
  Proof.
    intros I P. destruct (startswith (p ++ " ") (c ++ String "(" r)) eqn:Q; [exfalso|reflexivity].
    apply startswith_inv in Q as [z Q]. assert (B : before_paren (c ++ String "(" r) = c) by (apply before_paren_app, ident_without; [reflexivity|exact I]).
    rewrite Q in B. assert (exists y, c = p ++ " " ++ y) as [y ->].
    { rewrite <- B. clear - P. rewrite app_assoc_s. exists (before_paren z). unfold without in P. induction p as [|a p IH]; [reflexivity|].
      cbn [append before_paren all_chars] in *. apply andb_prop in P as [A P]. apply negb_true_iff in A. rewrite A, (IH P). reflexivity. }
    apply ident_nospace in I. rewrite !all_chars_app in I. apply andb_prop in I as [_ I]. discriminate I.
  Qed.
  Lemma assign_no_import a r p : is_ident a = true -> without " " p -> a <> p -> startswith (p ++ " ") (a ++ " = " ++ r) = false.
  Proof.
    intros I P N. destruct (startswith (p ++ " ") (a ++ " = " ++ r)) eqn:Q; [exfalso|reflexivity].
    apply startswith_inv in Q as [z Q]. rewrite app_assoc_s in Q. apply N. apply (cut_same " " a p ("= " ++ r) z); [|exact P|exact Q]. apply ident_without; [reflexivity|exact I].
  Qed.
  Lemma assignment_call c x : is_ident c = true -> assignment (c ++ "(" ++ x ++ ")") = None.
  Proof.
    intros I. unfold assignment. destruct (after "=" _) as [[|d r]|]; try reflexivity. destruct (Ascii.eqb_spec d " ") as [->|N].
    2: { destruct d as [[] [] [] [] [] [] [] []]; try reflexivity. exfalso; apply N; reflexivity. }
    set (s := substring 0 _ _). clearbody s. destruct (is_ident s) eqn:Is; [|reflexivity]. cbn [andb].
    destruct (String.eqb_spec (c ++ "(" ++ x ++ ")") (s ++ " = " ++ r)) as [Q|]; [exfalso|reflexivity].
    assert (B : before_paren (c ++ "(" ++ x ++ ")") = c) by (apply before_paren_app, ident_without; [reflexivity|exact I]).
    rewrite Q in B. assert (Ws : without "(" s) by (apply ident_without; [reflexivity|exact Is]).
    assert (exists y, c = s ++ " = " ++ y) as [y ->].
    { rewrite <- B. exists (before_paren r). clear - Ws. unfold without in Ws. induction s as [|a s IH]; [reflexivity|].
      cbn [append before_paren all_chars] in *. apply andb_prop in Ws as [A P]. apply negb_true_iff in A. rewrite A, (IH P). reflexivity. }
    apply ident_nospace in I. rewrite !all_chars_app in I. apply andb_prop in I as [_ I]. discriminate I.
  Qed.
  Lemma assignment_ok a e : is_ident a = true -> assignment (a ++ " = " ++ e) = Some (a, e).
  Proof.
    intros I. unfold assignment. replace (a ++ " = " ++ e) with ((a ++ " ") ++ String "=" (String " " e)) by (rewrite app_assoc_s; reflexivity).
    rewrite after_app by (apply without_app; [apply ident_without; [reflexivity|exact I]|reflexivity]).
    assert (L : String.length ((a ++ " ") ++ String "=" (String " " e)) - String.length e - 3 = String.length a) by (rewrite !length_app_s; cbn [String.length]; lia).
    rewrite L, app_assoc_s, substring_app, I, <- app_assoc_s. cbn [andb]. rewrite app_assoc_s. cbn [append]. rewrite String.eqb_refl. reflexivity.
  Qed.
  Lemma eval_call E bi g c x f : is_ident c = true -> get c g = Some f -> eval call literal E bi g (c ++ "(" ++ x ++ ")") = call f x.
  Proof.
    intros I G. unfold eval. assert (W : without "(" c) by (apply ident_without; [reflexivity|exact I]).
    assert (B : before_paren (c ++ "(" ++ x ++ ")") = c) by (apply before_paren_app, W). rewrite B.
    assert (D : split_dot c = [c]) by (apply (split_join [c]); [discriminate|constructor; [apply ident_nodot, I|constructor]]).
    rewrite D. cbn [forallb]. rewrite I. cbn [andb]. rewrite (after_app "(" c (x ++ ")") W : after "(" (c ++ "(" ++ x ++ ")") = _). unfold dotted. rewrite D, G. cbn [walk].
    rewrite length_app_s. cbn [String.length]. replace (_ + 1 - 1) with (String.length x) by lia. rewrite substring_app. reflexivity.
  Qed.
  (** the whole text: what it binds, and exactly when it runs *)
  Lemma run_text E bi o l k c x alias src builtin g : instance_of l k o -> shown_as o c x -> alias_ok alias ->
    exists text, _importable E bi o src alias false true builtin = Ok text /\
      run E bi g text = match from_import E (join_dot l) c with
                        | Ok f => match call f x with Some v => Some (if String.eqb alias "" then set c f g else set alias v (set c f g)) | None => None end
                        | Err _ => None
                        end.
  Proof.
    intros H S A. pose proof (C100_text E bi o l k c x alias src builtin H S) as T. eexists. split; [exact T|].
    destruct S as (I & X & Xl & R). destruct H as (O & _). rewrite R.
    assert (Wr : without lf (c ++ "(" ++ x ++ ")")).
    { apply without_app; [apply ident_without; [reflexivity|exact I]|]. apply without_app; [reflexivity|]. apply without_app; [exact Xl|reflexivity]. }
    assert (Wi : without lf ("from " ++ join_dot l ++ " import " ++ c)).
    { apply without_app; [reflexivity|]. apply without_app; [apply join_line, O|]. apply without_app; [reflexivity|]. apply ident_without; [reflexivity|exact I]. }
    destruct A as [->|[Ia Ka]].
    - cbn [String.eqb orb]. replace ("from " ++ join_dot l ++ " import " ++ c ++ eol ++ "" ++ (c ++ "(" ++ x ++ ")") ++ eol)
        with (("from " ++ join_dot l ++ " import " ++ c) ++ eol ++ (c ++ "(" ++ x ++ ")") ++ eol) by (rewrite !app_assoc_s; reflexivity).
      rewrite (run_two E bi g _ _ Wi Wr), (line_import E bi g l c O I). destruct (from_import E (join_dot l) c) as [f|e]; [|reflexivity].
      unfold line. rewrite (call_no_import c (x ++ ")") "from" I eq_refl : startswith "from " (c ++ "(" ++ x ++ ")") = _), (call_no_import c (x ++ ")") "import" I eq_refl : startswith "import " (c ++ "(" ++ x ++ ")") = _).
      cbn [orb]. rewrite (assignment_call c x I), (eval_call E bi (set c f g) c x f I (get_set_same _ _ _)). destruct (call f x); reflexivity.
    - assert (Ea : String.eqb alias "" = false) by (destruct alias; [discriminate|reflexivity]). rewrite Ea. cbn [orb].
      assert (Er : String.eqb alias (c ++ "(" ++ x ++ ")") = false).
      { apply String.eqb_neq. intros Q. assert (W : without "(" alias) by (apply ident_without; [reflexivity|exact Ia]). unfold without in W. rewrite Q, !all_chars_app in W.
        apply andb_prop in W as [_ W]. discriminate W. }
      rewrite Er. replace ("from " ++ join_dot l ++ " import " ++ c ++ eol ++ (alias ++ " = ") ++ (c ++ "(" ++ x ++ ")") ++ eol)
        with (("from " ++ join_dot l ++ " import " ++ c) ++ eol ++ (alias ++ " = " ++ (c ++ "(" ++ x ++ ")")) ++ eol) by (rewrite !app_assoc_s; reflexivity).
      rewrite (run_two E bi g _ _ Wi), (line_import E bi g l c O I).
      2: { apply without_app; [apply ident_without; [reflexivity|exact Ia]|]. apply without_app; [reflexivity|exact Wr]. }
      destruct (from_import E (join_dot l) c) as [f|e]; [|reflexivity]. unfold line.
      assert (N1 : alias <> "from") by (intros ->; apply Ka; cbn; tauto). assert (N2 : alias <> "import") by (intros ->; apply Ka; cbn; tauto).
      pose proof (assign_no_import alias (c ++ "(" ++ x ++ ")") "from" Ia eq_refl N1) as Z1. pose proof (assign_no_import alias (c ++ "(" ++ x ++ ")") "import" Ia eq_refl N2) as Z2.
      change ("from" ++ " ") with "from " in Z1. change ("import" ++ " ") with "import " in Z2. rewrite Z1, Z2.
      cbn [orb]. rewrite (assignment_ok alias _ Ia), (eval_call E bi (set c f g) c x f I (get_set_same _ _ _)). destruct (call f x); reflexivity.
  Qed.

  (** C100: the text runs wherever the module provides what the repr calls; the alias is then bound to the result of that call *)
  Theorem C100_instance_partial : forall E bi o l k c x alias src builtin g f v, instance_of l k o -> shown_as o c x -> alias_ok alias ->
    provides E l c f -> call f x = Some v ->
    exists text g', _importable E bi o src alias false true builtin = Ok text /\ run E bi g text = Some g' /\
      (alias <> "" -> get alias g' = Some v) /\ (alias <> c -> get c g' = Some f) /\ forall n, n <> alias -> n <> c -> get n g' = get n g.
  Proof.
    intros E bi o l k c x alias src builtin g f v H S A P C. destruct (run_text E bi o l k c x alias src builtin g H S A) as (text & T & R).
    rewrite (proj2 (from_import_provides E l c f) P), C in R. exists text. eexists. split; [exact T|]. split; [exact R|].
    destruct (String.eqb_spec alias "") as [->|N]; (split; [|split]).
    - congruence.
    - intros _. apply get_set_same.
    - intros n _ Nc. apply get_set_other; congruence.
    - intros _. apply get_set_same.
    - intros Nc. rewrite get_set_other by congruence. apply get_set_same.
    - intros n Na Nc. rewrite !get_set_other by congruence. reflexivity.
  Qed.
  (** C100: and otherwise it does not run *)
  Theorem C100_iff : forall E bi o l k c x alias src builtin g, instance_of l k o -> shown_as o c x -> alias_ok alias ->
    exists text, _importable E bi o src alias false true builtin = Ok text /\
      ((exists g', run E bi g text = Some g') <-> exists f v, provides E l c f /\ call f x = Some v).
  Proof.
    intros E bi o l k c x alias src builtin g H S A. destruct (run_text E bi o l k c x alias src builtin g H S A) as (text & T & R).
    exists text. split; [exact T|]. rewrite R. split.
    - intros [g' Q]. destruct (from_import E (join_dot l) c) as [f|e] eqn:F; [|discriminate]. destruct (call f x) as [v|] eqn:C; [|discriminate].
      exists f, v. split; [apply from_import_provides, F|exact C].
    - intros (f & v & P & C). rewrite (proj2 (from_import_provides E l c f) P), C. eexists. reflexivity.
  Qed.
End Running.

(** a function or class [n] of the module with the path [l] *)
Definition named_in (l : list string) (n : string) (o : thing) : Prop :=
  ordinary l /\ is_ident n = true /\ special o = true /\ in_module o = Some (join_dot l) /\ module_repr (join_dot l) (module_str o) /\ name_attr o = Some n /\ angled (repr_ o).
Lemma getimport_named E bi o l n alias verify builtin : named_in l n o ->
  getimport_thing E bi o alias verify builtin = match getimport_of E bi (module_str o) (Some n) (repr_ o) alias verify builtin with Some r => r | None => Err NoName end.
Proof.
  intros (O & N & Sp & M & R & Na & An). unfold getimport_thing, namespace_of, getimport_of. rewrite M. unfold getname. rewrite M, Na, (builtins_ordinary l O). cbn [andb].
  destruct (ordinary_path l O) as [Pl B]. rewrite (proj1 (C85_namespace E l (module_str o) n Pl R B)). unfold repr_name. rewrite (proj2 (styled_angled _) An). reflexivity.
Qed.
(** C100: a function or class is imported under the alias, and nothing is evaluated; with force, untested; without force, the import has been run and binds the object *)
Theorem C100_named : forall E bi o l n src alias builtin, named_in l n o ->
  _importable E bi o src alias false true builtin = Ok ("from " ++ join_dot l ++ " import " ++ n ++ (if String.eqb alias "" || String.eqb alias n then "" else " as " ++ alias) ++ eol).
Proof.
  intros E bi o l n src alias builtin H. unfold _importable, import_text. assert (isinstance_ o = Some false) as -> by (destruct H as (_ & _ & Sp & _); unfold isinstance_; rewrite Sp; reflexivity).
  rewrite (getimport_named E bi o l n alias _ builtin H). destruct H as (O & N & Sp & M & R & Na & An). destruct (ordinary_path l O) as [Pl B]. unfold getimport_of. rewrite (proj1 (C85_namespace E l (module_str o) n Pl R B)).
  unfold repr_name. rewrite (proj2 (styled_angled _) An). unfold getimport. rewrite removelast_last, last_last. unfold _getimport. cbn [getimport_ negb]. rewrite (ordinary_join l "types" O) by (cbn; tauto).
  cbn [andb]. rewrite (builtins_ordinary l O). cbn [andb]. unfold statement. destruct l as [|x l]; [destruct O as [_ []]|]. rewrite !app_assoc_s. destruct (_ || _); reflexivity.
Qed.
Theorem C100_named_verified : forall E bi o l n src alias builtin x, named_in l n o -> ImportProps.alias_ok alias -> provides E l n x ->
  exists text, _importable E bi o src alias false false builtin = Ok text /\ binds E bi text (target alias n) x.
Proof.
  intros E bi o l n src alias builtin x H A P. unfold _importable, import_text. assert (isinstance_ o = Some false) as -> by (destruct H as (_ & _ & Sp & _); unfold isinstance_; rewrite Sp; reflexivity).
  rewrite (getimport_named E bi o l n alias _ builtin H). cbn [negb]. destruct H as (O & N & Sp & M & R & Na & An).
  destruct (C85_import_partial E bi l (module_str o) (repr_ o) n alias builtin x O R An N A P) as (text & -> & _ & B). exists text. auto.
Qed.
(** without force, a class that its module does not have is looked for in the packages around it: the text is not that of the untested import *)
Definition moved : thing := Thing true (Some "pkg.sub") "<module 'pkg.sub' from '/usr/lib/pkg/sub.py'>" "pkg.sub" (Some "K") None "<class 'pkg.sub.K'>" "<class 'pkg.sub.K'>" (Some "builtins") (Some "builtins") "type" "<class 'type'>".
Definition E4 : env := Env [("pkg", 1); ("pkg.sub", 2)] (fun m => match m with 1 => [("K", 11); ("sub", 2)] | _ => [] end) (fun _ => true) 0 0 [] [] [] [].
Theorem C100_named_case : named_in ["pkg"; "sub"] "K" moved /\
  _importable E4 [] moved None "" false true true = Ok ("from pkg.sub import K" ++ eol) /\ _importable E4 [] moved None "" false false true = Ok ("from pkg import K" ++ eol).
Proof.
  split; [|split; vm_compute; reflexivity]. split; [|split; [reflexivity|split; [reflexivity|split; [reflexivity|split; [|split; [reflexivity|]]]]]].
  - split; [repeat constructor|]. cbn. intuition discriminate.
  - exists " from '/usr/lib/pkg/sub.py'>". split; [reflexivity|]. right. eexists. reflexivity.
  - exists "", "class 'pkg.sub.K'", "". reflexivity.
Qed.
(** the hypotheses of C100_fallback are met by a class whose name is no identifier: the text is not Python for it, either *)
Definition odd_name : thing := Thing true (Some "pkg.sub") "<module 'pkg.sub' from '/usr/lib/pkg/sub.py'>" "pkg.sub" (Some "A-B") None "<class 'pkg.sub.A-B'>" "<class 'pkg.sub.A-B'>" (Some "builtins") (Some "builtins") "type" "<class 'type'>".
Theorem C100_fallback_case : let E := Env [] (fun _ => []) (fun _ => true) 0 0 [] [] [] [] in
  (forall t, import_text E [] odd_name "a" false true <> Ok t) /\ getname odd_name false = Some "A-B" /\ _importable E [] odd_name None "a" false false true = Ok ("a = A-B" ++ eol).
Proof. cbv zeta. split; [|split; reflexivity]. intros t. vm_compute. discriminate. Qed.

(** C100: an instance without such a repr (<pkg.P object at 0x7f01>) is given by its source, if that is found; it is never named by the angle brackets *)
Theorem C100_opaque : forall E bi o l k src alias source builtin, instance_of l k o -> startswith "<" (repr_ o) = true ->
  _importable E bi o src alias source true builtin = match src with Some t => Ok t | None => Err NoName end.
Proof.
  intros E bi o l k src alias source builtin H R.
  assert (Na : repr_ o <> "array") by (intros Q; rewrite Q in R; discriminate R).
  assert (G : getname o true = None) by (destruct H as (O & K & Sp & M & Ma & N & Cm & Cs & St); unfold getname; rewrite M, N, R; reflexivity).
  assert (T : exists e, import_text E bi o alias true builtin = Err e).
  { unfold import_text. rewrite (is_instance l k o H Na), G. destruct (getimport_thing E bi o "" (negb true) builtin); eexists; reflexivity. }
  destruct T as [e T]. unfold _importable. rewrite T, G. destruct source, src; reflexivity.
Qed.
(** C100: a text is asked for from the source first, or else after the import; it fails exactly if there is no source, no import, and no name that is not empty or in angle brackets *)
Theorem C100_source : forall E bi o t alias source force builtin, source = true \/ (forall t', import_text E bi o alias force builtin <> Ok t') ->
  _importable E bi o (Some t) alias source force builtin = Ok t.
Proof.
  intros E bi o t alias source force builtin [->|N]; [reflexivity|]. unfold _importable. destruct source; [reflexivity|].
  destruct (import_text E bi o alias force builtin) as [t'|e]; [destruct (N t' eq_refl)|reflexivity].
Qed.
Theorem C100_fails_iff : forall E bi o src alias source force builtin,
  (forall t, _importable E bi o src alias source force builtin <> Ok t) <->
  src = None /\ (forall t, import_text E bi o alias force builtin <> Ok t) /\ forall n, getname o force = Some n -> n = "" \/ startswith "<" n = true.
Proof.
  intros E bi o src alias source force builtin. unfold _importable. split.
  - intros H. destruct src as [t|].
    + exfalso. destruct source; [exact (H t eq_refl)|]. destruct (import_text E bi o alias force builtin) as [t'|e]; [exact (H t' eq_refl)|exact (H t eq_refl)].
    + split; [reflexivity|]. destruct (import_text E bi o alias force builtin) as [t'|e].
      * exfalso. destruct source; exact (H t' eq_refl).
      * split; [discriminate|]. intros n Hn. rewrite Hn in H. destruct (String.eqb_spec n "") as [Z|Ne]; [left; exact Z|].
        right. destruct (startswith "<" n) eqn:S; [reflexivity|]. exfalso. apply String.eqb_neq in Ne. destruct source; exact (H _ eq_refl).
  - intros (-> & N & G) t. destruct (import_text E bi o alias force builtin) as [t'|e]; [destruct (N t' eq_refl)|].
    destruct source; (destruct (getname o force) as [n|]; [|discriminate]; destruct (G n eq_refl) as [->|S]; [discriminate|rewrite S, orb_true_r; discriminate]).
Qed.

(** C100: without source and import, the text is the name, or the repr, under the alias *)
Theorem C100_fallback : forall E bi o alias source force builtin n, (forall t, import_text E bi o alias force builtin <> Ok t) ->
  getname o force = Some n -> n <> "" -> startswith "<" n = false ->
  _importable E bi o None alias source force builtin = Ok ((if String.eqb alias "" || String.eqb alias n then "" else alias ++ " = ") ++ n ++ eol).
Proof.
  intros E bi o alias source force builtin n N G Ne A. unfold _importable.
  destruct (import_text E bi o alias force builtin) as [t|e]; [destruct (N t eq_refl)|]. apply String.eqb_neq in Ne.
  destruct source; rewrite G, Ne, A; reflexivity.
Qed.

(** ** examples and refutations *)
(** fractions.Fraction(1, 2) *)
Definition a_thing (module repr cls : string) : thing :=
  Thing false (Some module) ("<module '" ++ module ++ "' from '/usr/lib/x.py'>") module None None repr repr (Some module) (Some module) (last (class_path cls) "") cls.
Definition half : thing := a_thing "fractions" "Fraction(1, 2)" "<class 'fractions.Fraction'>".
Definition E2 : env := Env [("fractions", 1); ("re", 2); ("pkg", 3); ("numpy", 4)]
  (fun m => match m with 1 => [("Fraction", 11)] | 2 => [("compile", 12); ("Pattern", 13)] | 3 => [("T", 14); ("Outer", 15)] | 4 => [("ndarray", 16); ("array", 17)] | 15 => [("Inner", 18)] | _ => [] end)
  (fun _ => true) 0 0 [] [] [] [].
Definition calls (f : nat) (x : string) : option nat := Some (100 + f).
Theorem C100_case : instance_of ["fractions"] "Fraction" half /\ shown_as half "Fraction" "1, 2" /\ alias_ok "h" /\ provides E2 ["fractions"] "Fraction" 11 /\
  _importable E2 [] half None "h" false true true = Ok ("from fractions import Fraction" ++ eol ++ "h = Fraction(1, 2)" ++ eol) /\
  run calls (fun _ => None) E2 [] [] ("from fractions import Fraction" ++ eol ++ "h = Fraction(1, 2)" ++ eol) = Some [("Fraction", 11); ("h", 111)].
Proof.
  split; [|split; [|split; [|split; [|split]]]].
  - split; [split; [repeat constructor|cbn; intuition discriminate]|]. repeat split. cbn. intuition discriminate.
  - repeat split.
  - right. split; [reflexivity|cbn; intuition discriminate].
  - exists 1. split; [reflexivity|left; reflexivity].
  - vm_compute. reflexivity.
  - vm_compute. reflexivity.
Qed.
(** re.compile('a'): the repr has the module's name in it; the text is no Python *)
Theorem C100_qualified_refuted : exists text, _importable E2 [] (a_thing "re" "re.compile('a')" "<class 're.Pattern'>") None "p" false true true = Ok text /\
  text = "from re import re.compile" ++ eol ++ "p = re.compile('a')" ++ eol /\ exec E2 [] ("from re import re.compile") = Err SyntaxError /\
  forall call literal g, run call literal E2 [] g text = None.
Proof. eexists. split; [vm_compute; reflexivity|]. split; [reflexivity|]. split; [vm_compute; reflexivity|]. intros. reflexivity. Qed.
(** an instance of a class in a class *)
Theorem C100_nested_refuted : exists text, _importable E2 [] (a_thing "pkg" "Outer.Inner(x=1)" "<class 'pkg.Outer.Inner'>") None "p" false true true = Ok text /\
  text = "from pkg.Outer import Outer.Inner" ++ eol ++ "p = Outer.Inner(x=1)" ++ eol /\ forall call literal g, run call literal E2 [] g text = None.
Proof. eexists. split; [vm_compute; reflexivity|]. split; [reflexivity|]. intros. reflexivity. Qed.
(** class T(tuple): pass; T((1, 2)) is shown as a tuple, and the text makes a tuple *)
Theorem C100_subclass_refuted : exists text, _importable E2 [] (a_thing "pkg" "(1, 2)" "<class 'pkg.T'>") None "p" false true true = Ok text /\
  forall call literal v g, literal "(1, 2)" = Some v -> exists g', run call literal E2 [] g text = Some g' /\ get "p" g' = Some v.
Proof.
  eexists. split; [vm_compute; reflexivity|]. intros call literal v g L. exists (set "p" v (set "T" 14 g)). split; [|apply get_set_same].
  change (lines call literal E2 [] g ["from pkg import T"; "p = (1, 2)"] = Some (set "p" v (set "T" 14 g))).
  cbn [lines]. assert (L1 : line call literal E2 [] g "from pkg import T" = Some (set "T" 14 g)) by (unfold line; vm_compute; reflexivity).
  rewrite L1. assert (L2 : line call literal E2 [] (set "T" 14 g) "p = (1, 2)" = match literal "(1, 2)" with Some w => Some (set "p" w (set "T" 14 g)) | None => None end)
    by (vm_compute; reflexivity).
  rewrite L2, L. reflexivity.
Qed.
(** numpy.array(5), an array without dimensions: the text calls the class ndarray with the number, which is the shape of a new array *)
Definition zero_d : thing := Thing false None "None" "" None (Some "5") "array(5)" "5" (Some "numpy") (Some "numpy") "ndarray" "<class 'numpy.ndarray'>".
Theorem C100_scalar_refuted : forall src, _importable E2 [] zero_d src "a" false true true = Ok ("from numpy import ndarray" ++ eol ++ "a = ndarray(5)" ++ eol).
Proof. intros [t|]; vm_compute; reflexivity. Qed.
(** an array with dimensions is made by array *)
Theorem C100_array_case : _importable E2 [] (Thing false None "None" "" None None "array([1, 2])" "[1 2]" (Some "numpy") (Some "numpy") "ndarray" "<class 'numpy.ndarray'>") None "a" false true true
  = Ok ("from numpy import array" ++ eol ++ "a = array([1, 2])" ++ eol).
Proof. vm_compute. reflexivity. Qed.
(** Decimal('NaN') is taken for numpy's nan because of its str(): the class is imported from numpy, and the text does not run, whatever is verified *)
Definition not_a_number : thing :=
  Thing false (Some "decimal") "<module 'decimal' from '/usr/lib/decimal.py'>" "decimal" None None "Decimal('NaN')" "NaN" (Some "decimal") (Some "decimal") "Decimal" "<class 'decimal.Decimal'>".
Definition E5 : env := Env [("decimal", 1); ("numpy", 4)] (fun m => match m with 1 => [("Decimal", 11)] | 4 => [("nan", 16); ("array", 17)] | _ => [] end) (fun _ => true) 0 0 [] [] [] [].
Theorem C100_nan_refuted : shown_as not_a_number "Decimal" "'NaN'" /\ provides E5 ["decimal"] "Decimal" 11 /\
  exists text, _importable E5 [] not_a_number None "d" false true true = Ok text /\ _importable E5 [] not_a_number None "d" false false true = Ok text /\
  text = "from numpy import Decimal" ++ eol ++ "d = Decimal('NaN')" ++ eol /\ forall call literal g, run call literal E5 [] g text = None.
Proof.
  split; [repeat split|]. split; [exists 1; split; [reflexivity|left; reflexivity]|].
  exists ("from numpy import Decimal" ++ eol ++ "d = Decimal('NaN')" ++ eol). split; [vm_compute; reflexivity|]. split; [vm_compute; reflexivity|]. split; [reflexivity|]. intros. reflexivity.
Qed.
(** an instance with an empty repr has no text, unless its source is found *)
Theorem C100_empty : forall E bi o l k alias source force builtin, instance_of l k o -> repr_ o = "" -> forall t, _importable E bi o None alias source force builtin <> Ok t.
Proof.
  intros E bi o l k alias source force builtin H R. apply C100_fails_iff. split; [reflexivity|]. split.
  - intros t. unfold import_text. rewrite (is_instance l k o H) by (rewrite R; discriminate).
    destruct (getimport_thing E bi o "" (negb force) builtin) as [imp|e]; [|discriminate].
    destruct H as (O & K & Sp & M & Ma & Na & _). unfold getname. rewrite M, Na, R. cbn. discriminate.
  - intros n. destruct H as (O & K & Sp & M & Ma & Na & _). unfold getname. rewrite M, Na, R. destruct force; cbn; intros Q; [injection Q as <-; auto|discriminate].
Qed.
