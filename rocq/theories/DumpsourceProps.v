(** C67: the text dumpsource gives, when it is run. *)
From Coq Require Import String Ascii List Bool Arith NArith Lia.
From Verif Require Import PyDict NamesModel NamesProofs DescrModel DescrProps CheckModel CheckProps DumpsourceModel.
Import ListNotations.
Local Open Scope string_scope.

(** ** specification *)
(** the global names after running a text are those before it, but for the given changes *)
Definition changed (g g' : dict string value) (ch : list (string * option value)) : Prop :=
  forall x, get x g' = match get x ch with Some v => v | None => get x g end.
Definition alias_ok (a : string) : Prop := a = "" \/ (is_name a = true /\ a <> fn).
Definition bound (a : string) (o : nat) : list (string * option value) := if String.eqb a "" then [] else [(a, Some (VObj o))].

(** [b'] is [b] with every occurrence of [m], from the left and not overlapping, replaced by [n] *)
Inductive replaced (m n : string) : string -> string -> Prop :=
  | rp_end : replaced m n "" ""
  | rp_hit r r' : replaced m n r r' -> replaced m n (m ++ r) (n ++ r')
  | rp_miss c b b' : (forall r, String c b <> m ++ r) -> replaced m n b b' -> replaced m n (String c b) (String c b').

(** ** lemmas: lines *)
Definition one_line (s : string) : Prop := all_chars (fun x => negb (Ascii.eqb x lf)) s = true.
Lemma one_line_app a b : one_line a -> one_line b -> one_line (a ++ b).
Proof. unfold one_line. intros A B. rewrite all_chars_app, A, B. reflexivity. Qed.
Lemma split_aux_app c a : forall cur r, split_aux c cur (a ++ String c r) = (split_aux c cur a ++ split c r)%list.
Proof.
  induction a as [|x a IH]; intros cur r; cbn [append split_aux].
  - rewrite Ascii.eqb_refl. reflexivity.
  - destruct (Ascii.eqb x c); rewrite IH; reflexivity.
Qed.
Lemma split_app c a r : split c (a ++ String c r) = (split c a ++ split c r)%list.
Proof. apply split_aux_app. Qed.
Lemma split_aux_line c s : forall cur, all_chars (fun x => negb (Ascii.eqb x c)) s = true -> split_aux c cur s = [cur ++ s].
Proof.
  induction s as [|a s IH]; intros cur H; cbn [split_aux all_chars] in *; [rewrite app_nil_s; reflexivity|].
  apply andb_prop in H as [A B]. apply negb_true_iff in A. rewrite A, (IH _ B), app_assoc_s. reflexivity.
Qed.
Lemma split_line s : one_line s -> split lf s = [s].
Proof. intros H. unfold split. rewrite (split_aux_line lf s "" H). reflexivity. Qed.
Lemma split_ne c s : split c s <> [].
Proof. unfold split. generalize "" at 1. induction s as [|a s IH]; intros cur; cbn [split_aux]; [discriminate|]. destruct (Ascii.eqb a c); [discriminate|apply IH]. Qed.
Lemma split_unlines l : l <> [] -> Forall one_line l -> split lf (unlines l) = l.
Proof.
  intros N F. induction F as [|x l X F IH]; [congruence|]. destruct l as [|y l]; [apply split_line; exact X|].
  change (unlines (x :: y :: l)) with (x ++ String lf (unlines (y :: l))). rewrite split_app, (split_line x X), IH by discriminate. reflexivity.
Qed.
Lemma unlines_end l : l <> [] -> unlines (l ++ [""])%list = unlines l ++ nl.
Proof.
  induction l as [|x l IH]; intros N; [congruence|]. destruct l as [|y l]; [reflexivity|].
  change (unlines ((x :: y :: l) ++ [""])%list) with (x ++ nl ++ unlines ((y :: l) ++ [""])%list). rewrite IH by discriminate.
  change (unlines (x :: y :: l)) with (x ++ nl ++ unlines (y :: l)). rewrite !app_assoc_s. reflexivity.
Qed.
Lemma indent_end s : indent4 (s ++ nl) = unlines (map (fun l => "    " ++ l) (split lf s)) ++ nl.
Proof.
  unfold indent4, nl at 1 2 3. rewrite split_app. change (split lf "") with [""]. rewrite map_app. cbn [map]. rewrite last_last.
  change (all_space ("    " ++ "")) with true. cbn iota. rewrite removelast_last. apply unlines_end.
  intros E. apply map_eq_nil in E. exact (split_ne _ _ E).
Qed.
Lemma name_line s : is_ident s = true -> one_line s.
Proof.
  unfold one_line. destruct s as [|c s]; [discriminate|]. cbn [is_ident all_chars]. intros H. apply andb_prop in H as [A B].
  assert (forall x, is_name_char x = true -> negb (Ascii.eqb x lf) = true) as D.
  { intros x X. destruct (Ascii.eqb_spec x lf); [|reflexivity]. subst x. vm_compute in X. discriminate. }
  rewrite (D c) by (unfold is_name_char; rewrite A; reflexivity). cbn [andb]. induction s as [|a s IH]; [reflexivity|].
  cbn [all_chars] in *. apply andb_prop in B as [X Y]. rewrite (D _ X), (IH Y). reflexivity.
Qed.
Lemma escape_line q c : q = apos \/ q = dquote -> one_line (escape q c).
Proof. intros [-> | ->]; destruct c as [[] [] [] [] [] [] [] []]; vm_compute; reflexivity. Qed.
Lemma repr_line b : one_line (bytes_repr b).
Proof.
  unfold bytes_repr. pose proof (quote_for_cases b) as Q. apply one_line_app; [reflexivity|]. generalize (quote_for b) Q. clear Q. intros q Q.
  change (String q (escapes q b ++ String q "")) with (String q "" ++ escapes q b ++ String q "").
  assert (one_line (String q "")) as L by (destruct Q as [-> | ->]; reflexivity).
  apply one_line_app; [exact L|]. apply one_line_app; [|exact L]. induction b as [|c b IH]; [reflexivity|]. cbn [escapes]. apply one_line_app; [apply escape_line; exact Q|exact IH].
Qed.

(** ** lemmas: parsing *)
Definition stops (t : string) : Prop := match t with EmptyString => True | String c _ => is_name_char c = false end.
Lemma span_chars s t : all_chars is_name_char s = true -> stops t -> span (s ++ t) = (s, t).
Proof.
  intros A T. induction s as [|c s IH].
  - destruct t as [|c t]; [reflexivity|]. cbn in *. rewrite T. reflexivity.
  - cbn [append span all_chars] in *. apply andb_prop in A as [X Y]. rewrite X, (IH Y). reflexivity.
Qed.
Lemma ident_chars s : is_ident s = true -> all_chars is_name_char s = true.
Proof.
  destruct s as [|c s]; [discriminate|]. cbn [is_ident all_chars]. intros H. apply andb_prop in H as [A B]. rewrite B. unfold is_name_char. rewrite A. reflexivity.
Qed.
Lemma name_ident s : is_name s = true -> is_ident s = true.
Proof. unfold is_name. intros H. apply andb_prop in H. apply H. Qed.
Lemma span_name s t : is_name s = true -> stops t -> span (s ++ t) = (s, t).
Proof. intros H. apply span_chars, ident_chars, name_ident, H. Qed.
Lemma name_not s k : is_name s = true -> In k keywords -> String.eqb s k = false.
Proof.
  intros H I. destruct (String.eqb_spec s k) as [->|]; [|reflexivity]. unfold is_name in H. apply andb_prop in H as [_ H].
  apply memb_In in I. rewrite I in H. discriminate.
Qed.
Lemma parse_expr_repr b t : parse_expr ("dill.loads(" ++ bytes_repr b ++ ")" ++ t) = Some (ELoads b, t).
Proof.
  unfold parse_expr. rewrite drop_prefix_app. unfold bytes_repr.
  change (("b" ++ String (quote_for b) (escapes (quote_for b) b ++ String (quote_for b) "")) ++ ")" ++ t)
    with (String "b" (String (quote_for b) ((escapes (quote_for b) b ++ String (quote_for b) "") ++ ")" ++ t))).
  cbv iota beta. rewrite app_assoc_s. cbn [append]. rewrite (read_escapes (quote_for b) b (String ")" t) (quote_for_cases b)).
  destruct (quote_for_cases b) as [-> | ->]; reflexivity.
Qed.
Lemma parse_expr_new b m t : all_chars is_name_char m = true ->
  parse_expr ("dill.loads(" ++ bytes_repr b ++ ".replace(b'" ++ m ++ "',bytes(__name__,""UTF-8"")))" ++ t) = Some (ELoadsNew b m, t).
Proof.
  intros M. unfold parse_expr. rewrite drop_prefix_app. unfold bytes_repr. set (X := ".replace(b'" ++ m ++ "',bytes(__name__,""UTF-8"")))" ++ t).
  change (("b" ++ String (quote_for b) (escapes (quote_for b) b ++ String (quote_for b) "")) ++ X)
    with (String "b" (String (quote_for b) ((escapes (quote_for b) b ++ String (quote_for b) "") ++ X))).
  cbv iota beta. rewrite app_assoc_s. cbn [append]. rewrite (read_escapes (quote_for b) b X (quote_for_cases b)).
  assert (Ascii.eqb (quote_for b) apos || Ascii.eqb (quote_for b) dquote = true) as Q by (destruct (quote_for_cases b) as [-> | ->]; reflexivity). rewrite Q.
  change (drop_prefix ")" X) with (@None string). cbv iota. unfold X. rewrite drop_prefix_app.
  rewrite (span_chars m ("',bytes(__name__,""UTF-8"")))" ++ t) M) by reflexivity. rewrite drop_prefix_app. reflexivity.
Qed.
Lemma drop_prefix_inv p : forall s r, drop_prefix p s = Some r -> s = p ++ r.
Proof.
  induction p as [|a p IH]; intros s r X; cbn [drop_prefix append] in *; [congruence|]. destruct s as [|y s]; [discriminate|].
  destruct (Ascii.eqb_spec a y); [|discriminate]. subst y. rewrite (IH _ _ X). reflexivity.
Qed.
Lemma parse_expr_call f t : is_name f = true -> f <> "dill" -> parse_expr (f ++ "()" ++ t) = Some (ECall f, t).
Proof.
  intros F D. unfold parse_expr.
  assert (drop_prefix "dill.loads(" (f ++ "()" ++ t) = None) as N.
  { destruct (drop_prefix "dill.loads(" (f ++ "()" ++ t)) as [r|] eqn:E; [|reflexivity]. exfalso.
    apply drop_prefix_inv in E. pose proof (span_name f ("()" ++ t) F eq_refl) as A. rewrite E in A.
    change ("dill.loads(" ++ r) with ("dill" ++ (".loads(" ++ r)) in A. rewrite (span_name "dill" (".loads(" ++ r) eq_refl eq_refl) in A. injection A as A _. congruence. }
  rewrite N, (span_name f _ F) by reflexivity. rewrite F. change ("()" ++ t) with ("()" ++ t). rewrite drop_prefix_app. reflexivity.
Qed.
Lemma parse_simple_assign x e t ex : is_name x = true -> parse_expr e = Some (ex, t) -> parse_simple (x ++ " = " ++ e) = Some (SAssign x ex, t).
Proof.
  intros X E. unfold parse_simple. rewrite (span_name x _ X) by reflexivity. rewrite !(name_not x) by (try exact X; cbn; tauto).
  rewrite drop_prefix_app, X, E. reflexivity.
Qed.
Lemma parse_line_one fuel s st : parse_simple s = Some (st, "") -> parse_line (S fuel) s = Some [st].
Proof. intros H. cbn [parse_line]. rewrite H. reflexivity. Qed.
Lemma parse_line_two fuel s st r l : parse_simple s = Some (st, "; " ++ r) -> parse_line fuel r = Some l -> parse_line (S fuel) s = Some (st :: l).
Proof. intros H L. cbn [parse_line]. rewrite H. cbn [append]. change (String ";" (String " " r)) with ("; " ++ r). rewrite drop_prefix_app, L. reflexivity. Qed.

Definition del_fn : string := "del " ++ fn.
Definition end_line (a : string) : string := (if String.eqb a "" then "" else a ++ " = ") ++ fn ++ "(); " ++ del_fn.
Lemma parse_end a : alias_ok a -> parse (end_line a) = Some [if String.eqb a "" then SExpr (ECall fn) else SAssign a (ECall fn); SDel fn].
Proof.
  intros A. unfold parse. assert (exists k, String.length (end_line a) = S k) as [k L].
  { unfold end_line. destruct (String.eqb a ""); [eexists; reflexivity|]. destruct a; eexists; reflexivity. }
  rewrite L. unfold end_line. destruct A as [->|[A _]].
  - vm_compute. reflexivity.
  - destruct (String.eqb_spec a "") as [->|_]; [discriminate A|]. eapply parse_line_two with (r := del_fn); [|vm_compute; reflexivity].
    rewrite app_assoc_s. apply parse_simple_assign; [exact A|]. exact (parse_expr_call fn ("; " ++ del_fn) eq_refl ltac:(discriminate)).
Qed.

Definition def_line : string := "def " ++ fn ++ "():".
Definition tail3 (a : string) : list string := ["    return " ++ stub; end_line a; ""].
(** the text, line by line *)
Lemma dumpsource_enclosed b a s new : alias_ok a ->
  dumpsource b a (s ++ nl) new true =
  unlines ["def " ++ fn ++ "():"; "    import dill"; "    " ++ stub ++ " = dill.loads(" ++ bytes_repr b ++ ")"; "    return " ++ stub; end_line a; ""].
Proof.
  intros A. unfold dumpsource. cbv zeta iota.
  assert (one_line (end_line a)) as EL.
  { unfold end_line. apply one_line_app; [|vm_compute; reflexivity]. destruct A as [->|[A _]]; [reflexivity|].
    destruct (String.eqb a ""); [reflexivity|]. apply one_line_app; [apply name_line, name_ident; exact A|reflexivity]. }
  assert (exists X, split lf (enclose_ (s ++ nl) a) = ((def_line :: X) ++ tail3 a)%list) as [X E].
  { unfold enclose_. rewrite indent_end. set (Y := unlines _).
    change (indent4 ("return " ++ stub ++ nl)) with (("    return " ++ stub) ++ nl). exists (split lf Y).
    replace ("def " ++ fn ++ "():" ++ nl ++ (Y ++ nl) ++ (("    return " ++ stub) ++ nl) ++ (if String.eqb a "" then "" else a ++ " = ") ++ fn ++ "(); del " ++ fn ++ nl)
      with (("def " ++ fn ++ "():") ++ String lf (Y ++ String lf (("    return " ++ stub) ++ String lf (end_line a ++ String lf "")))).
    2:{ unfold end_line. rewrite !app_assoc_s. reflexivity. }
    rewrite !split_app, (split_line _ EL). rewrite (split_line ("    return " ++ stub)) by reflexivity. rewrite (split_line ("def " ++ fn ++ "():")) by reflexivity. reflexivity. }
  rewrite E.
  change (hd "" ((def_line :: X) ++ tail3 a)%list) with def_line.
  replace (last3 ((def_line :: X) ++ tail3 a)%list) with (tail3 a).
  2:{ unfold last3. rewrite app_length. change (List.length (tail3 a)) with 3. rewrite Nat.add_sub, skipn_app, skipn_all, Nat.sub_diag. reflexivity. }
  replace ("import dill" ++ nl ++ (stub ++ " = ") ++ "dill.loads(" ++ bytes_repr b ++ ")" ++ nl) with (("import dill" ++ String lf (stub ++ " = dill.loads(" ++ bytes_repr b ++ ")")) ++ nl).
  2:{ cbn [append]. rewrite ?app_assoc_s. cbn [append]. rewrite ?app_assoc_s. reflexivity. }
  rewrite indent_end, split_app, split_line by reflexivity. rewrite split_line.
  2:{ repeat (apply one_line_app; [first [reflexivity|apply repr_line]|]). reflexivity. }
  cbn [map unlines List.app]. rewrite !app_assoc_s. reflexivity.
Qed.


Lemma run_line fuel P x r g sts g' : x <> "" -> parse x = Some sts -> (forall f, sts <> [SDef f]) -> run_top P sts g = Some g' ->
  run_lines (S fuel) P (x :: r) g = run_lines fuel P r g'.
Proof.
  intros N Q D R. cbn [run_lines]. destruct x as [|c x]; [congruence|]. rewrite Q. destruct sts as [|st sts]; [rewrite R; reflexivity|].
  destruct st; try (rewrite R; reflexivity). destruct sts; [exfalso; exact (D f eq_refl)|rewrite R; reflexivity].
Qed.
Lemma run_line_err fuel P x r g sts : x <> "" -> parse x = Some sts -> (forall f, sts <> [SDef f]) -> run_top P sts g = None ->
  run_lines (S fuel) P (x :: r) g = None.
Proof.
  intros N Q D R. cbn [run_lines]. destruct x as [|c x]; [congruence|]. rewrite Q. destruct sts as [|st sts]; [rewrite R; reflexivity|].
  destruct st; try (rewrite R; reflexivity). destruct sts; [exfalso; exact (D f eq_refl)|rewrite R; reflexivity].
Qed.
Lemma run_def fuel P x r g f body r' : x <> "" -> parse x = Some [SDef f] -> block r = (body, r') -> body <> [] ->
  run_lines (S fuel) P (x :: r) g = run_lines fuel P r' (set f (VFunc body) g).
Proof.
  intros N Q B E. cbn [run_lines]. destruct x as [|c x]; [congruence|]. rewrite Q, B. destruct body; [congruence|reflexivity].
Qed.
Definition body_of (b : string) : list string := ["import dill"; stub ++ " = dill.loads(" ++ bytes_repr b ++ ")"; "return " ++ stub].
Lemma parse_assign x e ex : is_name x = true -> parse_expr e = Some (ex, "") -> parse (x ++ " = " ++ e) = Some [SAssign x ex].
Proof. intros X E. unfold parse. apply parse_line_one. apply parse_simple_assign; assumption. Qed.
Lemma parse_loads_end b : parse_expr ("dill.loads(" ++ bytes_repr b ++ ")") = Some (ELoads b, "").
Proof. pose proof (parse_expr_repr b "") as H. cbn [append] in H. exact H. Qed.
Lemma parse_body b : parse_all (body_of b) = Some [SImport; SAssign stub (ELoads b); SReturn stub].
Proof.
  unfold body_of. cbn [parse_all]. change (stub ++ " = dill.loads(" ++ bytes_repr b ++ ")") with (stub ++ " = " ++ ("dill.loads(" ++ bytes_repr b ++ ")")).
  rewrite (parse_assign stub _ (ELoads b) eq_refl (parse_loads_end b)).
  replace (parse "import dill") with (Some [SImport]) by (vm_compute; reflexivity).
  replace (parse ("return " ++ stub)) with (Some [SReturn stub]) by (vm_compute; reflexivity). reflexivity.
Qed.
Lemma call_body P b g : get fn g = Some (VFunc (body_of b)) -> call P g fn = option_map VObj (loads P b).
Proof.
  intros G. unfold call. rewrite G, parse_body. cbn [run_body eval_]. unfold look at 1.
  change (get "dill" (set "dill" VDill [])) with (Some VDill). cbn iota. destruct (loads P b); reflexivity.
Qed.
Lemma block_body b a : alias_ok a -> block ["    import dill"; "    " ++ stub ++ " = dill.loads(" ++ bytes_repr b ++ ")"; "    return " ++ stub; end_line a; ""] = (body_of b, [end_line a; ""]).
Proof.
  intros A. cbn [block]. change (drop_prefix "    " "    import dill") with (Some "import dill"). cbn iota. rewrite drop_prefix_app.
  change (drop_prefix "    " ("    return " ++ stub)) with (Some ("return " ++ stub)). cbn iota.
  replace (drop_prefix "    " (end_line a)) with (@None string); [reflexivity|]. unfold end_line. destruct A as [->|[A _]]; [reflexivity|].
  destruct a as [|c a]; [discriminate A|]. cbn [String.eqb append drop_prefix]. destruct (Ascii.eqb_spec " " c) as [<-|]; [|reflexivity]. discriminate A.
Qed.
Lemma enclosed_lines b a s new : alias_ok a -> split lf (dumpsource b a (s ++ nl) new true) =
  [def_line; "    import dill"; "    " ++ stub ++ " = dill.loads(" ++ bytes_repr b ++ ")"; "    return " ++ stub; end_line a; ""].
Proof.
  intros A. rewrite (dumpsource_enclosed b a s new A).
  assert (one_line (end_line a)) as EL.
  { unfold end_line. apply one_line_app; [|vm_compute; reflexivity]. destruct A as [->|[A _]]; [reflexivity|].
    destruct (String.eqb a ""); [reflexivity|]. apply one_line_app; [apply name_line, name_ident; exact A|reflexivity]. }
  apply split_unlines; [discriminate|].
  constructor; [reflexivity|]. constructor; [reflexivity|]. constructor; [repeat (apply one_line_app; [first [reflexivity|apply repr_line]|]); reflexivity|].
  constructor; [reflexivity|]. constructor; [exact EL|]. constructor; [reflexivity|constructor].
Qed.
Lemma end_ne a : end_line a <> "".
Proof. unfold end_line. destruct (String.eqb a ""); [discriminate|]. destruct a; discriminate. Qed.

(** ** C67 *)
(** enclose=True: running the text binds the alias to the loaded object, and no other name (the name of the enclosing function is unbound) *)
Theorem C67_enclosed_partial : forall P b a s new g o, alias_ok a -> loads P b = Some o ->
  exists g', exec P (dumpsource b a (s ++ nl) new true) g = Some g' /\ changed g g' (bound a o ++ [(fn, None)]).
Proof.
  intros P b a s new g o A L. unfold exec. rewrite (enclosed_lines b a s new A). cbn [List.length].
  rewrite (run_def _ P def_line _ g fn (body_of b) [end_line a; ""]); [|discriminate|vm_compute; reflexivity|apply block_body; exact A|discriminate].
  set (g1 := set fn (VFunc (body_of b)) g). assert (call P g1 fn = Some (VObj o)) as C.
  { rewrite (call_body P b g1); [rewrite L; reflexivity|]. apply get_set_same. }
  set (g2 := if String.eqb a "" then g1 else set a (VObj o) g1).
  assert (get fn g2 = Some (VFunc (body_of b))) as G2.
  { unfold g2. destruct (String.eqb_spec a "") as [->|NE]; [apply get_set_same|]. destruct A as [->|[_ A]]; [congruence|].
    rewrite get_set_other by congruence. apply get_set_same. }
  exists (del fn g2). split.
  - rewrite (run_line _ P (end_line a) [""] g1 _ (del fn g2) (end_ne a) (parse_end a A)).
    + reflexivity.
    + discriminate.
    + unfold g2 in *. destruct (String.eqb a ""); cbn [run_top eval_top]; rewrite C; rewrite G2; reflexivity.
  - intros x. unfold bound. destruct (string_dec x fn) as [->|XF].
    + rewrite get_del_same. unfold g2 in G2. destruct (String.eqb_spec a "") as [->|NE]; [reflexivity|]. destruct A as [->|[_ A]]; [congruence|].
      cbn [List.app get]. unfold eqb, EqB_string. replace (String.eqb fn a) with false by (symmetry; apply String.eqb_neq; congruence). reflexivity.
    + rewrite get_del_other by exact XF. unfold g2. destruct (String.eqb_spec a "") as [->|NE].
      * cbn [List.app get]. unfold eqb, EqB_string. apply String.eqb_neq in XF as XF'. rewrite XF'. apply get_set_other. exact XF.
      * cbn [List.app get]. unfold eqb, EqB_string. apply String.eqb_neq in XF as XF'. rewrite XF'. destruct (String.eqb_spec x a) as [->|XA].
        -- apply get_set_same.
        -- rewrite get_set_other by exact XA. apply get_set_other. exact XF.
Qed.
(** if the pickle does not load, running the text raises, and nothing is bound to the alias *)
Theorem C67_raises : forall P b a s new g, alias_ok a -> loads P b = None -> exec P (dumpsource b a (s ++ nl) new true) g = None.
Proof.
  intros P b a s new g A L. unfold exec. rewrite (enclosed_lines b a s new A). cbn [List.length].
  rewrite (run_def _ P def_line _ g fn (body_of b) [end_line a; ""]); [|discriminate|vm_compute; reflexivity|apply block_body; exact A|discriminate].
  assert (call P (set fn (VFunc (body_of b)) g) fn = None) as C. { rewrite (call_body P b _); [rewrite L; reflexivity|]. apply get_set_same. }
  apply (run_line_err _ P (end_line a) [""] _ _ (end_ne a) (parse_end a A)); [discriminate|].
  destruct (String.eqb a ""); cbn [run_top eval_top]; rewrite C; reflexivity.
Qed.

Definition load_line (a : string) (e : string) : string := if String.eqb a "" then e else a ++ " = " ++ e.
Lemma load_line_ok a e ex : alias_ok a -> one_line e -> (forall t, parse_expr (e ++ t) = Some (ex, t)) -> (exists r, e = "dill.loads(" ++ r) ->
  one_line (load_line a e) /\ load_line a e <> "" /\ parse (load_line a e) = Some [if String.eqb a "" then SExpr ex else SAssign a ex].
Proof.
  intros A O E [r R]. specialize (E ""). rewrite app_nil_s in E. unfold load_line. destruct A as [->|[A _]].
  - change (String.eqb "" "") with true. cbv iota. split; [exact O|]. split; [subst e; discriminate|]. unfold parse. apply parse_line_one. unfold parse_simple.
    subst e. change ("dill.loads(" ++ r) with ("dill" ++ (".loads(" ++ r)) at 1. rewrite (span_name "dill" (".loads(" ++ r) eq_refl eq_refl).
    change (String.eqb "dill" "import") with false. change (String.eqb "dill" "del") with false. change (String.eqb "dill" "return") with false. change (String.eqb "dill" "def") with false.
    change (drop_prefix " = " (".loads(" ++ r)) with (@None string). cbv iota. rewrite E. reflexivity.
  - destruct (String.eqb_spec a "") as [->|_]; [discriminate A|]. split; [|split].
    + apply one_line_app; [apply name_line, name_ident; exact A|]. apply one_line_app; [reflexivity|exact O].
    + destruct a; discriminate.
    + apply parse_assign; assumption.
Qed.
Lemma run_two P a e ex g v : alias_ok a -> one_line e -> (forall t, parse_expr (e ++ t) = Some (ex, t)) -> (exists r, e = "dill.loads(" ++ r) ->
  (forall g, eval_top P (set "dill" VDill g) ex = Some (VObj v)) ->
  exists g', exec P ("import dill" ++ nl ++ load_line a e ++ nl) g = Some g' /\ changed g g' (bound a v ++ [("dill", Some VDill)]).
Proof.
  intros A O E R V. destruct (load_line_ok a e ex A O E R) as (L1 & L2 & L3). unfold exec.
  change ("import dill" ++ nl ++ load_line a e ++ nl) with ("import dill" ++ String lf (load_line a e ++ String lf "")). rewrite !split_app, (split_line _ L1).
  rewrite (split_line "import dill") by reflexivity. change (split lf "") with [""]. cbn [List.app List.length].
  set (g1 := set "dill" VDill g). set (g2 := if String.eqb a "" then g1 else set a (VObj v) g1). exists g2. split.
  - rewrite (run_line _ P "import dill" _ g [SImport] g1); [|discriminate|vm_compute; reflexivity|discriminate|reflexivity].
    rewrite (run_line _ P (load_line a e) [""] g1 _ g2 L2 L3); [reflexivity|intros f; destruct (String.eqb a ""); discriminate|].
    unfold g2. destruct (String.eqb a ""); cbn [run_top]; unfold g1; rewrite V; reflexivity.
  - intros x. unfold bound, g2. destruct (String.eqb_spec a "") as [->|NE]; cbn [List.app get]; unfold eqb, EqB_string.
    + destruct (String.eqb_spec x "dill") as [->|XD]; [apply get_set_same|apply get_set_other; exact XD].
    + destruct (String.eqb_spec x a) as [->|XA]; [apply get_set_same|]. rewrite get_set_other by exact XA.
      destruct (String.eqb_spec x "dill") as [->|XD]; [apply get_set_same|apply get_set_other; exact XD].
Qed.
(** enclose=False: running the text binds the alias to the loaded object, and the name dill *)
Theorem C67_open_partial : forall P b a src g o, alias_ok a -> loads P b = Some o ->
  exists g', exec P (dumpsource b a src None false) g = Some g' /\ changed g g' (bound a o ++ [("dill", Some VDill)]).
Proof.
  intros P b a src g o A L.
  destruct (run_two P a ("dill.loads(" ++ bytes_repr b ++ ")") (ELoads b) g o A) as (g' & X & Y).
  - apply one_line_app; [reflexivity|]. apply one_line_app; [apply repr_line|reflexivity].
  - intros t. rewrite !app_assoc_s. apply parse_expr_repr.
  - exists (bytes_repr b ++ ")"). reflexivity.
  - intros g0. cbn [eval_top eval_]. unfold look. cbn [get]. rewrite get_set_same, L. reflexivity.
  - exists g'. split; [|exact Y]. rewrite <- X. f_equal. unfold dumpsource, load_line. destruct (String.eqb a ""); rewrite ?app_assoc_s; reflexivity.
Qed.

Lemma length_app a b : String.length (a ++ b) = String.length a + String.length b.
Proof. induction a as [|c a IH]; cbn [append String.length]; [reflexivity|]. rewrite IH. reflexivity. Qed.
Lemma replaced_ok m n b b' : m <> "" -> replaced m n b b' -> replace m n b = b'.
Proof.
  intros M R. unfold replace. assert (forall fuel, String.length b < fuel -> replace_aux fuel m n b = b') as G; [|apply G; lia].
  induction R as [|r r' R IH|c b b' N R IH]; intros fuel L; (destruct fuel as [|fuel]; [lia|]); cbn [replace_aux].
  - destruct m; [congruence|reflexivity].
  - rewrite drop_prefix_app. rewrite IH; [reflexivity|]. rewrite length_app in L. destruct m; [congruence|]. cbn [String.length] in L. lia.
  - destruct (drop_prefix m (String c b)) as [r|] eqn:E; [apply drop_prefix_inv in E; exfalso; exact (N r E)|]. rewrite IH; [reflexivity|]. cbn [String.length] in L. lia.
Qed.
Lemma replaced_total m n : m <> "" -> forall b, exists b', replaced m n b b'.
Proof.
  intros M. assert (forall k b, String.length b <= k -> exists b', replaced m n b b') as G; [|intros b; exact (G _ b (le_n _))].
  induction k as [|k IH]; intros b L.
  - destruct b; [exists ""; constructor|cbn [String.length] in L; lia].
  - destruct b as [|c b]; [exists ""; constructor|]. destruct (drop_prefix m (String c b)) as [r|] eqn:E.
    + apply drop_prefix_inv in E. rewrite E in *. rewrite length_app in L. destruct (IH r) as [r' R]; [destruct m; [congruence|]; cbn [String.length] in L; lia|].
      exists (n ++ r'). constructor. exact R.
    + destruct (IH b) as [b' R]; [cbn [String.length] in L; lia|]. exists (String c b'). constructor; [|exact R]. intros r X. rewrite X, drop_prefix_app in E. discriminate E.
Qed.
(** new=True (which enclose=False is needed for): every occurrence of the name of the module among the bytes of the pickle is replaced by the name of
    the module the text runs in, and what results is loaded *)
Theorem C67_new_partial : forall P b b' a src m g o, alias_ok a -> is_ident m = true -> replaced m (mod_name P) b b' -> loads P b' = Some o ->
  exists g', exec P (dumpsource b a src (Some ("", m)) false) g = Some g' /\ changed g g' (bound a o ++ [("dill", Some VDill)]).
Proof.
  intros P b b' a src m g o A M R L. apply replaced_ok in R; [|intros ->; discriminate M]. rewrite <- R in L. clear R.
  destruct (run_two P a ("dill.loads(" ++ bytes_repr b ++ ".replace(b'" ++ m ++ "',bytes(__name__,""UTF-8"")))") (ELoadsNew b m) g o A) as (g' & X & Y).
  - repeat (apply one_line_app; [first [reflexivity|apply repr_line|apply name_line; exact M]|]). reflexivity.
  - intros t. rewrite !app_assoc_s. apply parse_expr_new, ident_chars, M.
  - eexists. reflexivity.
  - intros g0. cbn [eval_top eval_]. unfold look. cbn [get]. rewrite get_set_same, L. reflexivity.
  - exists g'. split; [|exact Y]. rewrite <- X. f_equal. unfold dumpsource, load_line. destruct (String.eqb a ""); rewrite ?app_assoc_s; reflexivity.
Qed.
Lemma replace_same m b : m <> "" -> replaced m m b b.
Proof.
  intros N. destruct (replaced_total m m N b) as [b' R]. assert (b' = b) as ->; [|exact R]. induction R as [|r r' R IH|c b b' X R IH]; congruence.
Qed.
(** so in a module of the same name the object is loaded from its pickle *)
Corollary C67_new_same_module_partial : forall P b a src g o, alias_ok a -> is_ident (mod_name P) = true -> loads P b = Some o ->
  exists g', exec P (dumpsource b a src (Some ("", mod_name P)) false) g = Some g' /\ changed g g' (bound a o ++ [("dill", Some VDill)]).
Proof.
  intros P b a src g o A M L. apply (C67_new_partial P b b a src (mod_name P) g o A M); [|exact L]. apply replace_same. intros E. rewrite E in M. discriminate M.
Qed.
(** with enclose=True, the default, new=True changes nothing: the class is looked for in its module, its source is not in the text *)
Theorem C67_new_ignored : forall b a src new, dumpsource b a src new true = dumpsource b a src None true.
Proof. reflexivity. Qed.
