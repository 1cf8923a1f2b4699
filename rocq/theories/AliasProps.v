(** C83: getsource(object, alias=a) gives a text that, executed, binds a to the object.  C84: getname of a lambda. *)
From Coq Require Import String Ascii List Bool Arith Lia.
From Verif Require Import PyDict DescrModel CheckModel FindModel BlocksModel NamesModel DumpsourceModel AliasModel DescrProps FindProps DumpsourceProps.
Import ListNotations.
Local Open Scope string_scope.
Local Notation nl := DumpsourceModel.nl.

(** ** specification *)
(** the lines of a text, each with its newline *)
Definition lines_of (s : string) : list string := map (fun l => l ++ nl) (split lf s).
(** [s] is  t1 = t2 = ... = e  *)
Definition blanks (w : string) : Prop := all_chars (fun c => Ascii.eqb c " ") w = true.
Inductive assigns (e : string) : list string -> string -> Prop :=
| rhs : assigns e [] e
| tgt t ts w1 w2 s : is_name t = true -> blanks w1 -> blanks w2 -> assigns e ts s -> assigns e (t :: ts) (t ++ w1 ++ "=" ++ w2 ++ s).
(** the lines [ls] are one logical line: brackets are open at each of their ends but the last *)
Fixpoint joined (d : nat) (ls : list string) : Prop :=
  match ls with
  | [] => False
  | [l] => depth None d l = Some 0
  | l :: r => exists d', depth None d l = Some (S d') /\ joined (S d') r
  end.
(** the expression is a lambda, or is in brackets *)
Definition lambda_or_bracket (e : string) : Prop := (exists c r, e = "lambda " ++ String c r /\ is_space c = false) \/ (exists r, e = "(" ++ r).
(** [g2] is [g1] with [a] bound to [v] *)
Definition extends (g1 g2 : dict string nat) (a : string) (v : nat) : Prop := get a g2 = Some v /\ forall x, x <> a -> get x g2 = get x g1.

(** ** characters *)
Ltac chars := intros c; destruct c as [[] [] [] [] [] [] [] []]; vm_compute; first [reflexivity | discriminate | intros; first [reflexivity | discriminate]].
Lemma name_not_space c : is_name_char c = true -> is_space c = false.
Proof. revert c. chars. Qed.
Definition plain (c : ascii) : bool := negb (Ascii.eqb c "#" || Ascii.eqb c apos || Ascii.eqb c dquote || has_char c "([{" || has_char c ")]}").
Lemma name_plain c : is_name_char c = true -> plain c = true.
Proof. revert c. chars. Qed.
Lemma name_noteq c : is_name_char c = true -> Ascii.eqb c "=" = false.
Proof. revert c. chars. Qed.
Lemma start_char c : is_start c = true -> is_name_char c = true.
Proof. intros H. unfold is_name_char. rewrite H. reflexivity. Qed.
Lemma depth_plain a : forall d s, all_chars plain a = true -> depth None d (a ++ s) = depth None d s.
Proof.
  induction a as [|c a IH]; intros d s H; [reflexivity|]. cbn [all_chars] in H. apply andb_prop in H as [A B]. cbn [append depth].
  unfold plain in A. apply negb_true_iff in A. repeat (apply orb_false_iff in A as [A ?]).
  repeat match goal with E : _ = false |- _ => rewrite E; clear E end. cbn [orb]. apply IH, B.
Qed.
Lemma all_chars_imp (f h : ascii -> bool) s : (forall c, f c = true -> h c = true) -> all_chars f s = true -> all_chars h s = true.
Proof. intros I. induction s as [|c s IH]; [reflexivity|]. cbn [all_chars]. intros H. apply andb_prop in H as [A B]. rewrite (I _ A), (IH B). reflexivity. Qed.
Lemma name_chars s : is_name s = true -> all_chars is_name_char s = true.
Proof. intros H. apply ident_chars, name_ident, H. Qed.
Lemma name_cons s : is_name s = true -> exists c r, s = String c r /\ is_start c = true.
Proof. intros H. apply name_ident in H. destruct s as [|c r]; [discriminate|]. cbn [is_ident] in H. apply andb_prop in H as [A B]. exists c, r. split; [reflexivity|exact A]. Qed.
Lemma blanks_space w : blanks w -> all_chars is_space w = true.
Proof. apply all_chars_imp. chars. Qed.
Lemma blanks_plain w : blanks w -> all_chars plain w = true.
Proof. apply all_chars_imp. chars. Qed.
Lemma lstrip_white w s : all_chars is_space w = true -> lstrip (w ++ s) = lstrip s.
Proof. induction w as [|c w IH]; [reflexivity|]. cbn [all_chars append lstrip]. intros H. apply andb_prop in H as [A B]. rewrite A. apply IH, B. Qed.
Lemma lstrip_starts s : starts s -> lstrip s = s.
Proof. destruct s as [|c s]; [reflexivity|]. cbn. intros ->. reflexivity. Qed.
Lemma rstrip_name s : all_chars is_name_char s = true -> rstrip s = s.
Proof.
  induction s as [|c s IH]; [reflexivity|]. cbn [all_chars rstrip]. intros H. apply andb_prop in H as [A B]. rewrite (IH B).
  destruct s; [rewrite (name_not_space _ A); reflexivity|reflexivity].
Qed.
Lemma name_starts s r : is_name s = true -> starts (s ++ r).
Proof. intros H. destruct (name_cons _ H) as (c & t & -> & C). cbn. apply name_not_space, start_char, C. Qed.
Lemma blanks_stops w c s : blanks w -> is_name_char c = false -> stops (w ++ String c s).
Proof. destruct w as [|x w]; [intros _ H; exact H|]. intros H _. unfold blanks in H. cbn [all_chars] in H. apply andb_prop in H as [A _]. apply Ascii.eqb_eq in A. subst x. reflexivity. Qed.

(** ** a statement that begins with a name *)
Lemma drop_span k s : all_chars is_name_char k = true -> (exists r, drop_prefix (k ++ " ") s = Some r) -> fst (span s) = k.
Proof.
  intros K (r & E). apply drop_prefix_inv in E. subst s. rewrite app_assoc_s. rewrite span_chars; [reflexivity|exact K|reflexivity].
Qed.
Lemma header_name a s : is_name a = true -> stops s -> header (a ++ s) = None.
Proof.
  intros A S. unfold header. pose proof (span_name a s A S) as E.
  destruct (drop_prefix "def " (a ++ s)) eqn:D1.
  { assert (fst (span (a ++ s)) = "def") as X by (apply drop_span; [reflexivity|eexists; exact D1]). rewrite E in X. cbn [fst] in X. subst a. discriminate A. }
  destruct (drop_prefix "async def " (a ++ s)) eqn:D2.
  { assert (fst (span (a ++ s)) = "async") as X. { apply drop_prefix_inv in D2. rewrite D2. change ("async def " ++ s0) with ("async" ++ " def " ++ s0). rewrite span_chars; reflexivity. } rewrite E in X. cbn [fst] in X. subst a. discriminate A. }
  destruct (drop_prefix "class " (a ++ s)) eqn:D3; [|reflexivity].
  assert (fst (span (a ++ s)) = "class") as X by (apply drop_span; [reflexivity|eexists; exact D3]). rewrite E in X. cbn [fst] in X. subst a. discriminate A.
Qed.
Lemma not_at a s : is_name a = true -> startswith "@" (a ++ s) = false.
Proof. intros A. destruct (name_cons _ A) as (c & t & -> & C). cbn [append startswith]. destruct (Ascii.eqb_spec "@" c) as [<-|]; [discriminate C|reflexivity]. Qed.
Lemma targets_step fuel t w1 w2 s : is_name t = true -> blanks w1 -> blanks w2 -> starts s -> startswith "=" (w2 ++ s) = false ->
  targets (S fuel) (t ++ w1 ++ "=" ++ w2 ++ s) = (t :: fst (targets fuel s), snd (targets fuel s)).
Proof.
  intros T W1 W2 S N. cbn [targets]. change (w1 ++ "=" ++ w2 ++ s) with (w1 ++ String "=" (w2 ++ s)).
  rewrite (span_name t (w1 ++ String "=" (w2 ++ s)) T) by (apply blanks_stops; [exact W1|reflexivity]). rewrite T, (lstrip_white w1 _ (blanks_space _ W1)).
  change (lstrip (String "=" (w2 ++ s))) with (String "=" (w2 ++ s)). cbv beta iota. rewrite N. change (Ascii.eqb "=" "=" && negb false) with true. cbv iota.
  rewrite (lstrip_white w2 _ (blanks_space _ W2)), (lstrip_starts _ S). destruct (targets fuel s); reflexivity.
Qed.
Lemma start_line P g l d : (exists c r, l = String c r /\ is_space c = false) -> depth None 0 l = Some d -> start P [] g l = match d with 0 => logical P [] [l] g | _ => Some (Open d [] [l] g) end.
Proof. intros (c & r & -> & C) D. unfold start. rewrite C, D. destruct d; reflexivity. Qed.

(** ** appending  alias = e  *)
Lemma append_assign P g a r v : is_name a = true -> depth None 0 r = Some 0 -> starts r -> (forall f, targets f r = ([], r)) -> eval P g (rstrip r) = Some v ->
  start P [] g (a ++ " = " ++ r) = Some (Idle (set a v g)).
Proof.
  intros A D0 S T V. destruct (name_cons _ A) as (c & t & Ea & C).
  assert (depth None 0 (a ++ " = " ++ r) = Some 0) as D.
  { rewrite (depth_plain a) by (apply (all_chars_imp is_name_char); [exact name_plain|apply name_chars, A]). rewrite (depth_plain " = ") by reflexivity. exact D0. }
  rewrite (start_line _ _ _ 0); [|exists c, (t ++ " = " ++ r); split; [rewrite Ea; reflexivity|apply name_not_space, start_char, C]|exact D].
  unfold logical. cbn [rev app unlines]. rewrite (not_at a _ A), (header_name a _ A) by reflexivity. unfold simple.
  assert (targets (String.length (a ++ " = " ++ r)) (a ++ " = " ++ r) = ([a], r)) as E.
  { replace (String.length (a ++ " = " ++ r)) with (Datatypes.S (String.length (t ++ " = " ++ r))) by (rewrite Ea; reflexivity).
    change (a ++ " = " ++ r) with (a ++ " " ++ "=" ++ " " ++ r).
    rewrite (targets_step _ a " " " " r A); [|reflexivity|reflexivity|exact S|reflexivity]. rewrite T. reflexivity. }
  rewrite E, V. reflexivity.
Qed.
Lemma append_alias P g a n o : is_name a = true -> is_name n = true -> get n g = Some o -> start P [] g (a ++ " = " ++ n) = Some (Idle (set a o g)).
Proof.
  intros A N O. apply append_assign; [exact A| | | |].
  - rewrite <- (app_nil_s n). rewrite (depth_plain n) by (apply (all_chars_imp is_name_char); [exact name_plain|apply name_chars, N]). reflexivity.
  - rewrite <- (app_nil_s n). apply name_starts, N.
  - intros [|f]; [reflexivity|]. cbn [targets]. rewrite <- (app_nil_s n) at 1. rewrite (span_name n "" N I). rewrite N. reflexivity.
  - unfold eval. rewrite (rstrip_name n (name_chars _ N)), N, O. reflexivity.
Qed.
Lemma name_lf s : is_name s = true -> one_line s.
Proof. intros H. apply name_line, name_ident, H. Qed.
Lemma exec_append P T g g1 a n o : is_name a = true -> is_name n = true -> exec P T g = Some g1 -> get n g1 = Some o ->
  exec P (T ++ alias_line a n) g = Some (set a o g1).
Proof.
  intros A N E O. unfold exec in *. unfold alias_line. change (nl ++ a ++ " = " ++ n ++ nl) with (String lf (a ++ " = " ++ n ++ nl)). rewrite split_app, fold_left_app.
  replace (a ++ " = " ++ n ++ nl) with ((a ++ " = " ++ n) ++ String lf "") by (rewrite !app_assoc_s; reflexivity).
  assert (one_line (a ++ " = " ++ n)) as L by (apply one_line_app; [apply name_lf, A|]; apply one_line_app; [reflexivity|apply name_lf, N]).
  rewrite split_app, (split_line _ L). change (split lf "") with [""]. cbn [app fold_left].
  destruct (name_cons _ A) as (c & t & Ea & C). pose proof (name_not_space _ (start_char _ C)) as Sp.
  assert (all_space (a ++ " = " ++ n) = false) as B by (rewrite Ea; cbn [append all_space]; rewrite Sp; reflexivity).
  pose proof (append_alias P g1 a n o A N O) as X.
  destruct (fold_left (step P) (split lf T) (Some (Idle g))) as [[g0|acc g0|m acc g0|d b acc g0]|]; cbn [finish] in E; try discriminate.
  - assert (g0 = g1) by congruence. subst g0. cbn [step]. rewrite B, X. reflexivity.
  - assert (set m (P (rev (trim acc))) g0 = g1) as Eg by congruence. cbn [step].
    rewrite Ea in X |- *. cbn [append] in X |- *. rewrite Sp, Eg, X. reflexivity.
Qed.
Lemma concat_app l1 l2 : String.concat "" (l1 ++ l2)%list = String.concat "" l1 ++ String.concat "" l2.
Proof.
  induction l1 as [|x l1 IH]; [reflexivity|]. cbn [app]. destruct l1 as [|y l1]; [destruct l2; cbn; [rewrite app_nil_s; reflexivity|reflexivity]|].
  change (String.concat "" (x :: (y :: l1) ++ l2)%list) with (x ++ "" ++ String.concat "" ((y :: l1) ++ l2)%list). rewrite IH.
  change (String.concat "" (x :: y :: l1)) with (x ++ "" ++ String.concat "" (y :: l1)). rewrite !app_assoc_s. reflexivity.
Qed.
Lemma concat_cons x l : String.concat "" (x :: l) = x ++ String.concat "" l.
Proof. destruct l; [symmetry; apply app_nil_s|reflexivity]. Qed.

(** C83: functions and classes: if running the (outdented) source binds the object's __name__ to the object, running the text with the alias binds the alias to it too.
    The first line that is not a decorator begins a def, or has no lambda. *)
Theorem C83_named_partial : forall P x name alias lines g g1 o,
  x = Class name \/ (x = Callable name /\ (exists l, nth_error (outdent lines) (at_lines (outdent lines)) = Some l /\ (startswith "def " (lstrip l) = true \/ contains "lambda " l = false))) ->
  is_name name = true -> is_name alias = true ->
  exec P (String.concat "" (outdent lines)) g = Some g1 -> get name g1 = Some o ->
  exists text g2, getsource x alias false lines = Some text /\ exec P text g = Some g2 /\ extends g1 g2 alias o.
Proof.
  intros P x name alias lines g g1 o X N A E O.
  assert (getsource x alias false lines = Some (String.concat "" (with_name alias name (outdent lines)))) as G.
  { unfold getsource. assert (String.eqb alias "" = false) as Z by (destruct (name_cons _ A) as (c & t & -> & _); reflexivity). rewrite Z. cbn [orb negb].
    destruct X as [->|[-> (l & L & H)]]; [reflexivity|]. unfold aliased. rewrite L. destruct H as [-> | ->]; [reflexivity|]. destruct (startswith _ _); reflexivity. }
  rewrite G. unfold with_name. destruct (String.eqb_spec alias name) as [->|Ne].
  - exists (String.concat "" (outdent lines)), g1. split; [reflexivity|]. split; [exact E|]. split; [exact O|]. reflexivity.
  - exists (String.concat "" (outdent lines) ++ alias_line alias name), (set alias o g1). split; [rewrite concat_app; reflexivity|].
    split; [apply exec_append; assumption|]. split; [apply get_set_same|]. intros y Y. apply get_set_other. congruence.
Qed.

(** ** statements  t1 = ... = e  *)
Lemma split_aux_cur c s : forall cur, split_aux c cur s = match split_aux c "" s with l :: r => (cur ++ l) :: r | [] => [] end.
Proof.
  induction s as [|x s IH]; intros cur; cbn [split_aux]; [rewrite app_nil_s; reflexivity|]. destruct (Ascii.eqb x c); [rewrite app_nil_s; reflexivity|].
  rewrite (IH (cur ++ String x "")), (IH ("" ++ String x "")). destruct (split_aux c "" s); [reflexivity|]. rewrite app_assoc_s. reflexivity.
Qed.
Lemma split_prefix p s : one_line p -> split lf (p ++ s) = match split lf s with l :: r => (p ++ l) :: r | [] => [] end.
Proof.
  intros L. unfold split. rewrite <- split_aux_cur.
  assert (forall cur, split_aux lf cur (p ++ s) = split_aux lf (cur ++ p) s) as X.
  { clear -L. unfold one_line in L. induction p as [|x p IH]; intros cur; [rewrite app_nil_s; reflexivity|]. cbn [all_chars append split_aux] in *. apply andb_prop in L as [A B].
    apply negb_true_iff in A. rewrite A. rewrite (IH B). rewrite app_assoc_s. reflexivity. }
  apply (X "").
Qed.
Lemma split_first s : exists l r, split lf s = l :: r.
Proof. destruct (split lf s) eqn:E; [exfalso; exact (split_ne _ _ E)|eauto]. Qed.
Lemma unlines_split s : unlines (split lf s) = s.
Proof.
  assert (forall cur, unlines (split_aux lf cur s) = cur ++ s) as X; [|apply (X "")].
  induction s as [|x s IH]; intros cur; cbn [split_aux]; [symmetry; apply app_nil_s|]. destruct (Ascii.eqb_spec x lf) as [->|].
  - pose proof (split_ne lf s) as Ne. unfold split in Ne. specialize (IH ""). destruct (split_aux lf "" s) as [|y r]; [congruence|].
    cbn [unlines]. cbn [unlines] in IH. rewrite IH. reflexivity.
  - rewrite IH, app_assoc_s. reflexivity.
Qed.
Lemma concat_lines s : String.concat "" (lines_of s) = s ++ nl.
Proof.
  unfold lines_of. rewrite <- (unlines_split s) at 2. pose proof (split_ne lf s). induction (split lf s) as [|x r IH]; [congruence|]. clear H. destruct r as [|y r]; [reflexivity|].
  change (String.concat "" (map (fun l => l ++ nl) (x :: y :: r))) with ((x ++ nl) ++ "" ++ String.concat "" (map (fun l => l ++ nl) (y :: r))). rewrite IH by discriminate.
  change (unlines (x :: y :: r)) with (x ++ nl ++ unlines (y :: r)). rewrite !app_assoc_s. reflexivity.
Qed.
Lemma joined_fold P b g ls : forall d acc, joined d ls -> d <> 0 -> fold_left (step P) ls (Some (Open d b acc g)) = logical P b (rev ls ++ acc)%list g.
Proof.
  induction ls as [|l ls IH]; intros d acc J D; [contradiction|]. destruct ls as [|y ls].
  - cbn [joined] in J. cbn [fold_left step rev app]. rewrite J. reflexivity.
  - destruct J as (d' & E & J). change (fold_left (step P) (l :: y :: ls) (Some (Open d b acc g))) with (fold_left (step P) (y :: ls) (step P (Some (Open d b acc g)) l)).
    cbn [step]. rewrite E. rewrite (IH (S d') (l :: acc)); [|exact J|discriminate].
    cbn [rev]. rewrite <- !app_assoc. reflexivity.
Qed.
Lemma run_logical P s g : joined 0 (split lf s) -> (exists c r, s = String c r /\ is_space c = false) ->
  exec P (s ++ nl) g = finish P (step P (logical P [] (rev (split lf s)) g) "").
Proof.
  intros J (c & r & E & C). unfold exec. change (s ++ nl) with (s ++ String lf ""). rewrite split_app, fold_left_app. change (split lf "") with [""]. cbn [fold_left]. f_equal. f_equal.
  assert (Ascii.eqb c lf = false) as Cl by (destruct (Ascii.eqb_spec c lf) as [->|]; [discriminate C|reflexivity]).
  assert (exists t rest, split lf s = String c t :: rest) as (t & rest & S).
  { rewrite E. destruct (split_first r) as (y & rr & Y). exists y, rr. change (String c r) with (String c "" ++ r). rewrite split_prefix by (unfold one_line; cbn [all_chars]; rewrite Cl; reflexivity). rewrite Y. reflexivity. }
  rewrite S in *. change (fold_left (step P) (String c t :: rest) (Some (Idle g))) with (fold_left (step P) rest (if is_space c && all_space t then Some (Idle g) else start P [] g (String c t))). rewrite C. cbn [andb].
  destruct rest as [|y rest].
  - cbn [joined] in J. rewrite (start_line _ _ _ 0); [reflexivity|eauto|exact J].
  - destruct J as (d' & D & J). rewrite (start_line _ _ _ (Datatypes.S d')); [|eauto|exact D]. rewrite joined_fold; [|exact J|discriminate]. cbn [rev]. rewrite <- !app_assoc. reflexivity.
Qed.
Lemma lambda_char e : lambda_or_bracket e -> exists c r, e = String c r /\ is_space c = false /\ Ascii.eqb c "=" = false /\ Ascii.eqb c "@" = false.
Proof. intros [(c & r & -> & _)|(r & ->)]; eexists; eexists; (split; [reflexivity|repeat split]). Qed.
Lemma assigns_char e ts s : assigns e ts s -> lambda_or_bracket e -> exists c r, s = String c r /\ is_space c = false /\ Ascii.eqb c "=" = false /\ Ascii.eqb c "@" = false.
Proof.
  intros A L. destruct A as [|t ts w1 w2 s T]; [apply lambda_char, L|]. destruct (name_cons _ T) as (c & r & -> & C). eexists; eexists; split; [reflexivity|].
  split; [apply name_not_space, start_char, C|]. split; [apply name_noteq, start_char, C|]. destruct (Ascii.eqb_spec c "@") as [->|]; [discriminate C|reflexivity].
Qed.
Lemma lambda_targets fuel e : lambda_or_bracket e -> targets fuel e = ([], e).
Proof. destruct fuel; [reflexivity|]. intros [(c & r & -> & _)|(r & ->)]; reflexivity. Qed.
Lemma assigns_targets e ts s : assigns e ts s -> lambda_or_bracket e -> forall fuel, List.length ts <= fuel -> targets fuel s = (ts, e).
Proof.
  intros A L. induction A as [|t ts w1 w2 s T W1 W2 A IH]; intros fuel F; [apply lambda_targets, L|]. destruct fuel as [|fuel]; [cbn in F; lia|].
  destruct (assigns_char _ _ _ A L) as (c & r & E & C1 & C2 & _).
  rewrite targets_step; [|exact T|exact W1|exact W2|rewrite E; exact C1|].
  - rewrite IH by (cbn in F; lia). reflexivity.
  - rewrite E. destruct w2 as [|x w2]; cbn [append startswith].
    + rewrite Ascii.eqb_sym, C2. reflexivity.
    + unfold blanks in W2. cbn [all_chars] in W2. apply andb_prop in W2 as [X _]. apply Ascii.eqb_eq in X. subst x. reflexivity.
Qed.
Lemma assigns_length e ts s : assigns e ts s -> List.length ts <= String.length s.
Proof. induction 1; cbn [List.length]; [lia|]. destruct (name_cons _ H) as (c & r & -> & _). cbn [append String.length]. rewrite !length_app. cbn [String.length append]. rewrite length_app. lia. Qed.
Lemma rstrip_cons c r : is_space c = false -> rstrip (String c r) = String c (rstrip r).
Proof. intros C. cbn [rstrip]. rewrite C. destruct (rstrip r); reflexivity. Qed.
Lemma lambda_eval P g e : lambda_or_bracket e -> eval P g (rstrip e) = Some (P [rstrip e]).
Proof.
  intros [(c & r & -> & C)|(r & ->)].
  - assert (rstrip ("lambda " ++ String c r) = "lambda " ++ String c (rstrip r)) as E.
    { change ("lambda " ++ String c r) with (String "l" (String "a" (String "m" (String "b" (String "d" (String "a" (String " " (String c r)))))))).
      rewrite !(fun x => rstrip_cons "l" x eq_refl), !(fun x => rstrip_cons "a" x eq_refl), !(fun x => rstrip_cons "m" x eq_refl), !(fun x => rstrip_cons "b" x eq_refl), !(fun x => rstrip_cons "d" x eq_refl), !(fun x => rstrip_cons "a" x eq_refl).
      cbn [rstrip]. rewrite C. destruct (rstrip r); reflexivity. }
    rewrite E. reflexivity.
  - change ("(" ++ r) with (String "(" r). rewrite rstrip_cons by reflexivity. reflexivity.
Qed.
Lemma assigns_exec P e ts s g : assigns e ts s -> lambda_or_bracket e -> joined 0 (split lf s) -> exec P (s ++ nl) g = Some (bind ts (P [rstrip e]) g).
Proof.
  intros A L J. destruct (assigns_char _ _ _ A L) as (c & r & E & C & _ & At).
  rewrite run_logical; [|exact J|eauto]. unfold logical. rewrite rev_involutive, unlines_split.
  assert (startswith "@" s = false) as S by (rewrite E; cbn [startswith]; rewrite Ascii.eqb_sym, At; reflexivity). rewrite S.
  assert (header s = None) as H.
  { destruct A as [|t ts w1 w2 s T W1]; [destruct L as [(c' & r' & -> & _)|(r' & ->)]; reflexivity|]. apply header_name; [exact T|]. apply blanks_stops; [exact W1|reflexivity]. }
  rewrite H. unfold simple. rewrite (assigns_targets _ _ _ A L _ (assigns_length _ _ _ A)).
  destruct ts as [|t ts].
  - inversion A as [X1 X2|]; rewrite <- X2 in *; clear X1 X2.
    assert (is_name (fst (span e)) = false) as Sp by (destruct L as [(c' & r' & -> & _)|(r' & ->)]; reflexivity). destruct (span e) as [n r']. cbn [fst] in Sp. rewrite Sp, (lambda_eval P g e L). reflexivity.
  - rewrite (lambda_eval P g e L). reflexivity.
Qed.
Lemma get_bind ts v : forall g x, get x (bind ts v g) = if memb x ts then Some v else get x g.
Proof.
  induction ts as [|t ts IH]; intros g x; [reflexivity|]. cbn [bind]. rewrite IH. destruct (memb x ts) eqn:M.
  - apply memb_In in M. rewrite (proj2 (memb_In x (t :: ts))) by (right; exact M). reflexivity.
  - apply memb_nIn in M. destruct (String.eqb_spec x t) as [->|N].
    + rewrite (proj2 (memb_In t (t :: ts))) by (left; reflexivity). apply get_set_same.
    + rewrite (proj2 (memb_nIn x (t :: ts))) by (intros [Y|Y]; [congruence|contradiction]). apply get_set_other. congruence.
Qed.
Lemma before_eq_app a r : all_chars (fun c => negb (Ascii.eqb c "=")) a = true -> before_eq (a ++ String "=" r) = a.
Proof. induction a as [|c a IH]; [reflexivity|]. cbn [all_chars append before_eq]. intros H. apply andb_prop in H as [A B]. apply negb_true_iff in A. rewrite A, (IH B). reflexivity. Qed.
Lemma before_eq_prefix a r : all_chars (fun c => negb (Ascii.eqb c "=")) a = true -> before_eq (a ++ r) = a ++ before_eq r.
Proof. induction a as [|c a IH]; [reflexivity|]. cbn [all_chars append before_eq]. intros H. apply andb_prop in H as [A B]. apply negb_true_iff in A. rewrite A, (IH B). reflexivity. Qed.
Lemma rstrip_white w : all_chars is_space w = true -> rstrip w = "".
Proof. induction w as [|c w IH]; [reflexivity|]. cbn [all_chars rstrip]. intros H. apply andb_prop in H as [A B]. rewrite (IH B), A. reflexivity. Qed.
Lemma rstrip_app a w : all_chars is_name_char a = true -> all_chars is_space w = true -> rstrip (a ++ w) = a.
Proof.
  intros A W. induction a as [|c a IH]; [apply rstrip_white, W|]. cbn [all_chars] in A. apply andb_prop in A as [X Y]. cbn [append]. rewrite (rstrip_cons c _ (name_not_space _ X)), (IH Y). reflexivity.
Qed.
(** the text before the first '=' of an assignment is its first target *)
Lemma strip_target p t w1 r : all_chars is_space p = true -> is_name t = true -> blanks w1 -> strip (before_eq (p ++ t ++ w1 ++ String "=" r)) = t.
Proof.
  intros Pw T W. assert (forall w, all_chars is_space w = true -> all_chars (fun c => negb (Ascii.eqb c "=")) w = true) as NE by (intros w; apply all_chars_imp; chars).
  rewrite (before_eq_prefix p) by apply NE, Pw.
  rewrite (before_eq_prefix t) by (apply (all_chars_imp is_name_char); [intros c C; rewrite (name_noteq _ C); reflexivity|apply name_chars, T]).
  rewrite before_eq_app by apply NE, blanks_space, W.
  unfold strip. rewrite (lstrip_white p _ Pw), (lstrip_starts (t ++ w1)) by (apply name_starts, T). apply rstrip_app; [apply name_chars, T|apply blanks_space, W].
Qed.
Lemma startswith_inv p : forall s, startswith p s = true -> exists r, s = p ++ r.
Proof.
  induction p as [|a p IH]; intros s H; [exists s; reflexivity|]. destruct s as [|b s]; [discriminate|]. cbn [startswith] in H. apply andb_prop in H as [A B]. apply Ascii.eqb_eq in A. subst b.
  destruct (IH _ B) as (r & ->). exists r. reflexivity.
Qed.
Lemma not_def t r : is_name t = true -> stops r -> startswith "def " (t ++ r) = false.
Proof.
  intros T S. destruct (startswith "def " (t ++ r)) eqn:E; [|reflexivity]. apply startswith_inv in E as (x & E). pose proof (span_name t r T S) as Sp. rewrite E in Sp.
  change ("def " ++ x) with ("def" ++ " " ++ x) in Sp. rewrite span_chars in Sp by reflexivity. assert (t = "def") by congruence. subst t. discriminate T.
Qed.
Lemma blanks_line w : blanks w -> one_line w.
Proof. apply all_chars_imp. chars. Qed.
(** the first line of an assignment *)
Lemma first_line e t ts s l0 rest : assigns e (t :: ts) s -> split lf s = l0 :: rest -> exists w1 r, is_name t = true /\ blanks w1 /\ l0 = t ++ w1 ++ String "=" r.
Proof.
  intros A S. inversion A as [|t' ts' w1 w2 s' T W1 W2 A' E1 E2]; subst.
  replace (t ++ w1 ++ "=" ++ w2 ++ s') with ((t ++ w1 ++ "=" ++ w2) ++ s') in S by (rewrite !app_assoc_s; reflexivity).
  rewrite split_prefix in S by (apply one_line_app; [apply name_lf, T|]; apply one_line_app; [apply blanks_line, W1|]; apply one_line_app; [reflexivity|apply blanks_line, W2]).
  destruct (split_first s') as (y & rr & Y). rewrite Y in S. exists w1, (w2 ++ y). split; [exact T|]. split; [exact W1|]. assert (l0 = (t ++ w1 ++ "=" ++ w2) ++ y) as -> by congruence. rewrite !app_assoc_s. reflexivity.
Qed.
Lemma first_line_e e l0 rest : lambda_or_bracket e -> split lf e = l0 :: rest -> (exists r, l0 = "lambda " ++ r) \/ (exists r, l0 = "(" ++ r).
Proof.
  intros [(c & r & -> & _)|(r & ->)] S; [left|right]; rewrite split_prefix in S by reflexivity.
  - destruct (split_first (String c r)) as (y & rr & Y). rewrite Y in S. exists y. congruence.
  - destruct (split_first r) as (y & rr & Y). rewrite Y in S. exists y. congruence.
Qed.
Lemma strip_lambda r a : is_name a = true -> a <> strip (before_eq ("lambda " ++ r)).
Proof.
  intros A E. rewrite (before_eq_prefix "lambda ") in E by reflexivity. unfold strip in E. change (lstrip ("lambda " ++ before_eq r)) with ("lambda " ++ before_eq r) in E.
  generalize (before_eq r) E. clear E. intros y E. subst a. revert A.
  change ("lambda " ++ y) with (String "l" (String "a" (String "m" (String "b" (String "d" (String "a" (String " " y))))))). cbn [rstrip].
  destruct (rstrip y) as [|c z]; intros A; vm_compute in A; discriminate A.
Qed.
Lemma strip_bracket r a : is_name a = true -> a <> strip (before_eq (String "(" r)).
Proof.
  intros A E. unfold strip in E. change (before_eq (String "(" r)) with (String "(" (before_eq r)) in E. change (lstrip (String "(" (before_eq r))) with (String "(" (before_eq r)) in E.
  rewrite rstrip_cons in E by reflexivity. subst a. discriminate A.
Qed.

(** C83: lambdas: the source is an assignment  t1 = ... = e  (or only e) whose value is the lambda, e being the lambda itself or something in brackets; "lambda " is in its first line.
    Running the text with the alias binds the alias to the value of e; the other variables are as after running the source. *)
Theorem C83_lambda_partial : forall P name alias lines s ts e g, is_name alias = true ->
  outdent lines = lines_of s -> assigns e ts s -> lambda_or_bracket e -> joined 0 (split lf s) -> contains "lambda " (nth 0 (split lf s) "") = true ->
  exists text g1 g2, getsource (Callable name) alias false lines = Some text /\ exec P (String.concat "" (outdent lines)) g = Some g1 /\
    exec P text g = Some g2 /\ extends g1 g2 alias (P [rstrip e]) /\ forall t, In t ts -> get t g2 = Some (P [rstrip e]).
Proof.
  intros P name alias lines s ts e g A O As L J M.
  destruct (split_first s) as (l0 & rest & S). rewrite S in M. cbn [nth] in M.
  assert (at_lines (outdent lines) = 0) as At.
  { rewrite O. unfold lines_of. rewrite S. cbn [map at_lines]. destruct ts as [|t ts].
    - inversion As as [X1 X2|]; rewrite <- X2 in *; clear X1 X2. destruct (first_line_e e l0 rest L S) as [(r & ->)|(r & ->)]; reflexivity.
    - destruct (first_line _ _ _ _ _ _ As S) as (w1 & r & T & W1 & ->). rewrite app_assoc_s, (not_at t _ T). reflexivity. }
  assert (startswith "def " (lstrip (l0 ++ nl)) = false) as ND.
  { destruct ts as [|t ts].
    - inversion As as [X1 X2|]; rewrite <- X2 in *; clear X1 X2. destruct (first_line_e e l0 rest L S) as [(r & ->)|(r & ->)]; reflexivity.
    - destruct (first_line _ _ _ _ _ _ As S) as (w1 & r & T & W1 & ->). rewrite app_assoc_s, (lstrip_starts (t ++ _)) by (apply name_starts, T). apply not_def; [exact T|].
      rewrite app_assoc_s. apply blanks_stops; [exact W1|reflexivity]. }
  assert (contains "lambda " (l0 ++ nl) = true) as M'.
  { apply contains_spec in M as (x & y & ->). apply contains_spec. exists x, (y ++ nl). rewrite !app_assoc_s. reflexivity. }
  assert (getsource (Callable name) alias false lines = Some (String.concat "" (with_prefix alias (l0 ++ nl) :: map (fun l => l ++ nl) rest))) as G.
  { unfold getsource. assert (String.eqb alias "" = false) as Z by (destruct (name_cons _ A) as (c & t & -> & _); reflexivity). rewrite Z. cbn [orb negb]. unfold aliased. rewrite At, O.
    unfold lines_of. rewrite S. cbn [map nth_error]. rewrite ND, M'. reflexivity. }
  rewrite G, O, concat_lines. pose proof (assigns_exec P e ts s g As L J) as E1. set (v := P [rstrip e]) in *.
  assert (with_prefix alias (l0 ++ nl) = l0 ++ nl /\ In alias ts \/ with_prefix alias (l0 ++ nl) = alias ++ " = " ++ l0 ++ nl) as [[W I]|W].
  { unfold with_prefix. destruct (String.eqb_spec alias (strip (before_eq (l0 ++ nl)))) as [Eq|]; [left; split; [reflexivity|]|right; reflexivity].
    destruct ts as [|t ts].
    - inversion As as [X1 X2|]; rewrite <- X2 in *; clear X1 X2. destruct (first_line_e e l0 rest L S) as [(r & ->)|(r & ->)]; rewrite app_assoc_s in Eq.
      + exfalso. exact (strip_lambda _ _ A Eq).
      + exfalso. exact (strip_bracket _ _ A Eq).
    - destruct (first_line _ _ _ _ _ _ As S) as (w1 & r & T & W1 & ->). left. rewrite Eq.
      replace ((t ++ w1 ++ String "=" r) ++ nl) with ("" ++ t ++ w1 ++ String "=" (r ++ nl)) by (rewrite !app_assoc_s; reflexivity). symmetry. apply strip_target; [reflexivity|exact T|exact W1]. }
  - rewrite W. change ((l0 ++ nl) :: map (fun l => l ++ nl) rest) with (map (fun l => l ++ nl) (l0 :: rest)). rewrite <- S. change (map _ (split lf s)) with (lines_of s). rewrite concat_lines.
    exists (s ++ nl), (bind ts v g), (bind ts v g). split; [reflexivity|]. split; [exact E1|]. split; [exact E1|]. split; [split; [|reflexivity]|].
    + rewrite get_bind, (proj2 (memb_In alias ts) I). reflexivity.
    + intros t T. rewrite get_bind, (proj2 (memb_In t ts) T). reflexivity.
  - rewrite W.
    assert (String.concat "" ((alias ++ " = " ++ l0 ++ nl) :: map (fun l => l ++ nl) rest) = (alias ++ " " ++ "=" ++ " " ++ s) ++ nl) as C.
    { pose proof (concat_lines s) as X. unfold lines_of in X. rewrite S in X. cbn [map] in X. rewrite concat_cons in X |- *. rewrite !app_assoc_s in *. rewrite X. reflexivity. }
    rewrite C. pose proof (tgt e alias ts " " " " s A eq_refl eq_refl As) as As'.
    assert (joined 0 (split lf (alias ++ " " ++ "=" ++ " " ++ s))) as J'.
    { change (alias ++ " " ++ "=" ++ " " ++ s) with (alias ++ " = " ++ s). rewrite <- app_assoc_s. rewrite split_prefix by (apply one_line_app; [apply name_lf, A|reflexivity]). rewrite S in *.
      assert (forall d l, depth None d ((alias ++ " = ") ++ l) = depth None d l) as D.
      { intros d l. apply depth_plain. rewrite all_chars_app. apply andb_true_intro. split; [apply (all_chars_imp is_name_char); [exact name_plain|apply name_chars, A]|reflexivity]. }
      destruct rest as [|y rest]; cbn [joined] in *; rewrite D; exact J. }
    pose proof (assigns_exec P e (alias :: ts) _ g As' L J') as E2. fold v in E2.
    exists ((alias ++ " " ++ "=" ++ " " ++ s) ++ nl), (bind ts v g), (bind (alias :: ts) v g). split; [reflexivity|]. split; [exact E1|]. split; [exact E2|]. split; [split|].
    + rewrite get_bind, (proj2 (memb_In alias (alias :: ts)) (or_introl eq_refl)). reflexivity.
    + intros x X. rewrite !get_bind. destruct (memb x ts) eqn:Mx.
      * apply memb_In in Mx. rewrite (proj2 (memb_In x (alias :: ts)) (or_intror Mx)). reflexivity.
      * apply memb_nIn in Mx. rewrite (proj2 (memb_nIn x (alias :: ts))) by (intros [Y|Y]; [congruence|contradiction]). reflexivity.
    + intros t T. rewrite get_bind, (proj2 (memb_In t (alias :: ts)) (or_intror T)). reflexivity.
Qed.

(** ** instances: the class and  alias = repr  *)
Definition opened (st : option state) : Prop := match st with Some (Open 0 _ _ _) => False | _ => True end.
Lemma logical_opened P b acc g : opened (logical P b acc g).
Proof. unfold logical. destruct (startswith _ _); [exact I|]. destruct (header _); [exact I|]. destruct b; [|exact I]. destruct (simple _ _ _); exact I. Qed.
Lemma step_opened P st l : opened st -> opened (step P st l).
Proof.
  assert (forall b g l, opened (start P b g l)) as X.
  { intros b g x. unfold start. destruct (match x with EmptyString => true | String c _ => is_space c end); [exact I|]. destruct (depth None 0 x) as [[|d]|]; [apply logical_opened|exact I|exact I]. }
  intros O. destruct st as [[g|acc g|n acc g|d b acc g]|]; cbn [step].
  - destruct (all_space l); [exact I|apply X].
  - destruct (all_space l); [exact I|apply X].
  - destruct l as [|c l]; [exact I|]. destruct (is_space c); [exact I|apply X].
  - destruct (depth None d l) as [[|d']|]; [apply logical_opened|exact I|exact I].
  - exact I.
Qed.
Lemma fold_opened P ls : forall st, opened st -> opened (fold_left (step P) ls st).
Proof. induction ls as [|l ls IH]; intros st O; [exact O|]. cbn [fold_left]. apply IH, step_opened, O. Qed.
Lemma exec_append_line P t g g1 x g2 : exec P (t ++ nl) g = Some g1 -> one_line x -> (exists c r, x = String c r /\ is_space c = false) -> start P [] g1 x = Some (Idle g2) ->
  exec P ((t ++ nl) ++ x ++ nl) g = Some g2.
Proof.
  intros E L (c & r & Ex & C) X. unfold exec in *. change (t ++ nl) with (t ++ String lf "") in E |- *.
  replace ((t ++ String lf "") ++ x ++ nl) with (t ++ String lf (x ++ String lf "")) by (rewrite !app_assoc_s; reflexivity).
  rewrite split_app, fold_left_app in E |- *. rewrite split_app, (split_line _ L). change (split lf "") with [""] in *. cbn [app fold_left] in *.
  pose proof (fold_opened P (split lf t) (Some (Idle g)) I) as O.
  destruct (fold_left (step P) (split lf t) (Some (Idle g))) as [[g0|acc g0|m acc g0|d b acc g0]|]; cbn [step finish all_space depth] in E; try discriminate.
  - assert (g0 = g1) by congruence. subst g0. cbn [step]. rewrite Ex. cbn [all_space]. rewrite C. cbn [andb]. rewrite <- Ex, X. reflexivity.
  - assert (set m (P (rev (trim acc))) g0 = g1) as Eg by (cbn [trim all_space] in E; congruence). cbn [step]. rewrite Ex, C, Eg, <- Ex, X. reflexivity.
  - destruct d; [contradiction|discriminate].
Qed.
Lemma change_last f l : forall x, AliasModel.change f (List.length (l ++ [x])%list - 1) (l ++ [x])%list = (l ++ [f x])%list.
Proof.
  intros x. rewrite app_length. cbn [List.length]. replace (List.length l + 1 - 1) with (List.length l) by lia.
  induction l as [|y l IH]; [reflexivity|]. cbn [app List.length AliasModel.change]. rewrite IH. reflexivity.
Qed.
Lemma rstrip_prefix a c r : all_chars is_name_char a = true -> is_space c = false -> rstrip (a ++ String c r) = a ++ String c (rstrip r).
Proof. intros A C. induction a as [|x a IH]; [apply rstrip_cons, C|]. cbn [all_chars] in A. apply andb_prop in A as [X Y]. cbn [append]. rewrite (rstrip_cons x _ (name_not_space _ X)), (IH Y). reflexivity. Qed.
Lemma not_name_with a c r : is_name_char c = false -> is_name (a ++ String c r) = false.
Proof.
  intros C. destruct (is_name (a ++ String c r)) eqn:E; [|reflexivity]. apply name_chars in E. rewrite all_chars_app in E. apply andb_prop in E as [_ E]. cbn [all_chars] in E. rewrite C in E. discriminate.
Qed.
(** C83: instances whose repr is a call  name(...)  of one line: running the text binds the alias to the value of that expression, after what the source of the class binds *)
Theorem C83_instance_partial : forall P n r alias lines t g g1, is_name alias = true -> is_name n = true -> let rep := n ++ "(" ++ r in
  one_line rep -> depth None 0 rep = Some 0 ->
  String.concat "" (outdent lines) = t ++ nl -> exec P (t ++ nl) g = Some g1 ->
  exists text g2, getsource (Instance rep) alias false lines = Some text /\ exec P text g = Some g2 /\ extends g1 g2 alias (P [rstrip rep]).
Proof.
  intros P n r alias lines t g g1 A N rep L D T E.
  assert (with_prefix alias (rep ++ nl) = alias ++ " = " ++ rep ++ nl) as W.
  { unfold with_prefix. destruct (String.eqb_spec alias (strip (before_eq (rep ++ nl)))) as [Eq|]; [exfalso|reflexivity].
    unfold rep in Eq. rewrite !app_assoc_s in Eq. rewrite before_eq_prefix in Eq by (apply (all_chars_imp is_name_char); [intros c C; rewrite (name_noteq _ C); reflexivity|apply name_chars, N]).
    change (before_eq ("(" ++ r ++ nl)) with (String "(" (before_eq (r ++ nl))) in Eq. unfold strip in Eq. rewrite (lstrip_starts (n ++ _)) in Eq by (apply name_starts, N).
    rewrite rstrip_prefix in Eq; [|apply name_chars, N|reflexivity]. rewrite Eq, not_name_with in A by reflexivity. discriminate. }
  assert (getsource (Instance rep) alias false lines = Some ((t ++ nl) ++ (alias ++ " = " ++ rep) ++ nl)) as G.
  { unfold getsource. assert (String.eqb alias "" = false) as Z by (destruct (name_cons _ A) as (c & y & -> & _); reflexivity). rewrite Z. cbn [orb negb]. unfold aliased.
    rewrite change_last, W, concat_app, T. cbn [String.concat]. rewrite !app_assoc_s. reflexivity. }
  exists ((t ++ nl) ++ (alias ++ " = " ++ rep) ++ nl), (set alias (P [rstrip rep]) g1). split; [exact G|]. split.
  - apply (exec_append_line P t g g1 (alias ++ " = " ++ rep)); [exact E| | |].
    + apply one_line_app; [apply name_lf, A|]. apply one_line_app; [reflexivity|exact L].
    + destruct (name_cons _ A) as (c & y & -> & C). exists c, (y ++ " = " ++ rep). split; [reflexivity|apply name_not_space, start_char, C].
    + assert (span rep = (n, String "(" r)) as Sp by (apply span_name; [exact N|reflexivity]).
      apply append_assign; [exact A|exact D|apply name_starts, N| |].
      * intros [|f]; [reflexivity|]. cbn [targets]. rewrite Sp, N. reflexivity.
      * unfold eval. unfold rep. change ("(" ++ r) with (String "(" r). rewrite rstrip_prefix; [|apply name_chars, N|reflexivity]. rewrite not_name_with by reflexivity.
        assert (expr_ok (n ++ String "(" (rstrip r)) = true) as ->; [|reflexivity].
        assert (span (n ++ String "(" (rstrip r)) = (n, String "(" (rstrip r))) as Sp2 by (apply span_name; [exact N|reflexivity]).
        destruct (name_cons _ N) as (c & y & En & C). unfold expr_ok. rewrite Sp2, N. rewrite En at 1. cbn [append]. rewrite C. cbn [orb andb].
        change (startswith ":" (lstrip (String "(" (rstrip r)))) with false. apply orb_true_r.
  - split; [apply get_set_same|]. intros y Y. apply get_set_other. congruence.
Qed.

(** C83: without alias and lstrip the text is the lines found, for functions and classes *)
Theorem C83_no_alias : forall x lines, (forall r, x <> Instance r) -> getsource x "" false lines = Some (String.concat "" lines).
Proof. intros [n|n|r] lines H; [reflexivity|reflexivity|]. exfalso. exact (H r eq_refl). Qed.

(** C84: the name of a lambda that is assigned is the first name it is assigned to *)
Theorem C84_getname_partial : forall P lines p s t ts e g,
  all_chars is_space p = true -> outdent lines = lines_of s -> nth 0 lines "" = p ++ nth 0 (lines_of s) "" ->
  assigns e (t :: ts) s -> lambda_or_bracket e -> joined 0 (split lf s) ->
  getname "<lambda>" lines = Some t /\ exists g1, exec P (String.concat "" (outdent lines)) g = Some g1 /\ get t g1 = Some (P [rstrip e]).
Proof.
  intros P lines p s t ts e g Pw O F As L J. split.
  - unfold getname. change (String.eqb "<lambda>" "<lambda>") with true. cbv iota. rewrite (C83_no_alias (Callable "<lambda>") lines) by discriminate. f_equal.
    destruct (split_first s) as (l0 & rest & S). unfold lines_of in F. rewrite S in F. cbn [map nth] in F. destruct (first_line _ _ _ _ _ _ As S) as (w1 & r & T & W1 & El).
    destruct lines as [|x lines]; [exfalso|].
    + cbn [nth] in F. apply (f_equal String.length) in F. rewrite !length_app in F. cbn in F. lia.
    + cbn [nth] in F. subst x. rewrite concat_cons, El.
      replace ((p ++ (t ++ w1 ++ String "=" r) ++ nl) ++ String.concat "" lines) with (p ++ t ++ w1 ++ String "=" (r ++ nl ++ String.concat "" lines)) by (rewrite !app_assoc_s; reflexivity).
      apply strip_target; [exact Pw|exact T|exact W1].
  - exists (bind (t :: ts) (P [rstrip e]) g). rewrite O, concat_lines. split; [apply assigns_exec; assumption|]. rewrite get_bind, (proj2 (memb_In t (t :: ts)) (or_introl eq_refl)). reflexivity.
Qed.
Theorem C84_named : forall name lines, name <> "<lambda>" -> getname name lines = Some name.
Proof. intros name lines N. unfold getname. destruct (String.eqb_spec name "<lambda>"); [contradiction|reflexivity]. Qed.

(** ** _outdent: of a line indented at least as the first one, the indentation of the first is cut; of one indented less, its own *)
Definition pad (k : nat) : string := string_of_list_ascii (repeat " "%char k).
Definition white_no_tab (w : string) : Prop := all_chars (fun c => is_space c && negb (Ascii.eqb c (ascii_of_nat 9))) w = true.
Inductive unindented (k : nat) : string -> string -> Prop :=
| cut_all y : unindented k (pad k ++ y) y
| cut_own w y : white_no_tab w -> String.length w < k -> starts y -> unindented k (w ++ y) y.
Lemma indent_own w y : white_no_tab w -> starts y -> forall total col, indent_from total col (w ++ y) = total + String.length w.
Proof.
  intros W Y. induction w as [|c w IH]; intros total col.
  - destruct y as [|c y]; cbn [append indent_from String.length]; [lia|]. cbn in Y. rewrite Y. destruct (Ascii.eqb_spec c (ascii_of_nat 9)) as [->|]; [discriminate Y|lia].
  - unfold white_no_tab in W. cbn [all_chars] in W. apply andb_prop in W as [A B]. apply andb_prop in A as [A1 A2]. apply negb_true_iff in A2. cbn [append indent_from]. rewrite A2, A1, IH by exact B. cbn [String.length]. lia.
Qed.
Lemma indent_le s : forall total col, total <= indent_from total col s.
Proof.
  induction s as [|c s IH]; intros total col; cbn [indent_from]; [lia|]. destruct (Ascii.eqb c (ascii_of_nat 9)); [etransitivity; [|apply IH]; lia|].
  destruct (is_space c); [etransitivity; [|apply IH]; lia|lia].
Qed.
Lemma indent_pad k y : forall total col, total + k <= indent_from total col (pad k ++ y).
Proof.
  induction k as [|k IH]; intros total col; [rewrite Nat.add_0_r; apply indent_le|]. change (pad (S k) ++ y) with (String " " (pad k ++ y)). cbn [indent_from].
  change (Ascii.eqb " " (ascii_of_nat 9)) with false. change (is_space " ") with true. cbv iota. etransitivity; [|apply IH]. lia.
Qed.
Lemma drop_app w y : drop (String.length w) (w ++ y) = y.
Proof. induction w as [|c w IH]; [destruct y; reflexivity|exact IH]. Qed.
Lemma pad_len k : String.length (pad k) = k.
Proof. induction k as [|k IH]; [reflexivity|]. change (pad (S k)) with (String " " (pad k)). cbn [String.length]. rewrite IH. reflexivity. Qed.
Lemma pad_white k : white_no_tab (pad k).
Proof. induction k as [|k IH]; [reflexivity|]. change (pad (S k)) with (String " " (pad k)). unfold white_no_tab in *. cbn [all_chars]. rewrite IH. reflexivity. Qed.
Theorem C83_outdent_partial : forall k l0 rest outs, starts l0 -> Forall2 (unindented k) rest outs -> outdent ((pad k ++ l0) :: rest) = l0 :: outs.
Proof.
  intros k l0 rest outs S F. unfold outdent. cbn [nth].
  assert (indentsize (pad k ++ l0) = k) as -> by (unfold indentsize; rewrite (indent_own _ _ (pad_white k) S), pad_len; reflexivity).
  assert (forall x y, unindented k x y -> drop (if Nat.ltb (indentsize x) k then indentsize x else k) x = y) as X.
  { intros x y [z|w z W L Z].
    - unfold indentsize. pose proof (indent_pad k z 0 0). destruct (Nat.ltb_spec (indent_from 0 0 (pad k ++ z)) k); [lia|]. rewrite <- (pad_len k) at 1. apply drop_app.
    - unfold indentsize. rewrite (indent_own w z W Z). cbn [Nat.add]. destruct (Nat.ltb_spec (String.length w) k); [|lia]. apply drop_app. }
  cbn [map]. f_equal; [apply X; constructor|]. clear -X F. induction F as [|x y l l' H F IH]; [reflexivity|]. cbn [map]. rewrite (X _ _ H), IH. reflexivity.
Qed.
