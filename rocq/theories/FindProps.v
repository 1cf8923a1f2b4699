(** C68: findsource finds the line where a function or a class is defined. *)
From Coq Require Import String Ascii List Bool Arith NArith Lia.
From Verif Require Import PyDict NamesProofs DescrModel DescrProps CheckModel CheckProps FindModel.
Import ListNotations.
Local Open Scope string_scope.

(** ** specification *)
Definition white (s : string) : Prop := all_chars is_space s = true.
Definition ends_word (t : string) : Prop := match t with EmptyString => True | String c _ => is_name_char c = false end.
(** the line is a def statement, a decorator, has a lambda *)
Definition is_def (s : string) : Prop := exists w c rest, s = w ++ "def" ++ String c rest /\ white w /\ is_space c = true.
Definition is_decorator (s : string) : Prop := exists w rest, s = w ++ "@" ++ rest /\ white w.
(** "class", perhaps whitespace, and the name as a word, after indentation [w] *)
Definition looks_like (name w s : string) : Prop := exists s1 rest, s = w ++ "class" ++ s1 ++ name ++ rest /\ white w /\ white s1 /\ ends_word rest.
Definition class_stmt (name w s : string) : Prop := exists s1 rest, s = w ++ "class" ++ s1 ++ name ++ rest /\ white w /\ white s1 /\ s1 <> "" /\ ends_word rest.

(** somewhere in the line: the word lambda, not after a character of a name, with a colon or whitespace after it *)
Definition has_lambda (s : string) : Prop := exists a c b, s = a ++ "lambda" ++ String c b /\ (c = ":"%char \/ is_space c = true) /\
  ~ In (ascii_of_nat 10) (list_ascii_of_string a) /\ is_name_char (last (list_ascii_of_string a) " "%char) = false.
(** ** lemmas *)
Definition starts (s : string) : Prop := match s with EmptyString => True | String c _ => is_space c = false end.
Lemma lead_app w r : white w -> starts r -> lead (w ++ r) = (w, r).
Proof.
  intros W R. induction w as [|c w IH].
  - destruct r as [|c r]; [reflexivity|]. cbn [append lead]. cbn in R. rewrite R. reflexivity.
  - cbn [append lead]. unfold white in W. cbn [all_chars] in W. apply andb_prop in W as [A B]. rewrite A, (IH B). reflexivity.
Qed.
Lemma lead_inv s : forall w r, lead s = (w, r) -> s = w ++ r /\ white w /\ starts r.
Proof.
  induction s as [|c s IH]; intros w r H; cbn [lead] in H.
  - injection H as <- <-. repeat split.
  - destruct (is_space c) eqn:C.
    + destruct (lead s) as [w' t]. destruct (IH w' t eq_refl) as (A & B & D). injection H as <- <-. subst s. split; [reflexivity|]. split; [|exact D].
      unfold white. cbn [all_chars]. rewrite C. exact B.
    + injection H as <- <-. split; [reflexivity|]. split; [reflexivity|exact C].
Qed.
Lemma lstrip_lead s : lstrip s = snd (lead s).
Proof. induction s as [|c s IH]; [reflexivity|]. cbn [lstrip lead]. destruct (is_space c); [|reflexivity]. rewrite IH. destruct (lead s); reflexivity. Qed.
Lemma drop_inv p : forall s r, drop_prefix p s = Some r -> s = p ++ r.
Proof.
  induction p as [|a p IH]; intros s r X; cbn [drop_prefix append] in *; [congruence|]. destruct s as [|y s]; [discriminate|].
  destruct (Ascii.eqb_spec a y); [|discriminate]. subst y. rewrite (IH _ _ X). reflexivity.
Qed.
Lemma start_not_space c : is_start c = true -> is_space c = false.
Proof. destruct c as [[] [] [] [] [] [] [] []]; vm_compute; congruence. Qed.
Lemma m_class_spec name s w : is_ident name = true -> (m_class name s = Some w <-> looks_like name w s).
Proof.
  intros N. assert (forall t, starts (name ++ t)) as NS.
  { intros t. destruct name as [|c name]; [discriminate|]. cbn in *. apply andb_prop in N as [N _]. apply start_not_space. exact N. }
  unfold m_class, looks_like. split.
  - destruct (lead s) as [w' r] eqn:L. apply lead_inv in L as (-> & W & _). destruct (drop_prefix "class" r) as [r'|] eqn:D; [|discriminate].
    apply drop_inv in D. subst r. rewrite lstrip_lead. destruct (lead r') as [s1 r2] eqn:L2. apply lead_inv in L2 as (-> & W1 & _). cbn [snd].
    destruct (drop_prefix name r2) as [t|] eqn:D2; [|discriminate]. apply drop_inv in D2. subst r2. destruct (boundary t) eqn:B; [|discriminate].
    intros X. injection X as <-. exists s1, t. repeat split; try assumption. destruct t; [exact I|]. cbn in *. apply negb_true_iff. exact B.
  - intros (s1 & rest & -> & W & W1 & E). rewrite (lead_app w _ W) by reflexivity. rewrite drop_prefix_app, lstrip_lead, (lead_app s1 _ W1) by apply NS. cbn [snd].
    rewrite drop_prefix_app. replace (boundary rest) with true; [reflexivity|]. destruct rest; [reflexivity|]. cbn in *. rewrite E. reflexivity.
Qed.
Lemma m_def_spec s : m_def s = true <-> is_def s.
Proof.
  unfold m_def, is_def. split.
  - destruct (lead s) as [w r] eqn:L. apply lead_inv in L as (-> & W & _). cbn [snd]. destruct (drop_prefix "def" r) as [[|c t]|] eqn:D; try discriminate.
    apply drop_inv in D. subst r. intros C. exists w, c, t. auto.
  - intros (w & c & rest & -> & W & C). rewrite (lead_app w _ W) by reflexivity. cbn [snd]. rewrite drop_prefix_app. exact C.
Qed.
Lemma m_at_spec s : m_at s = true <-> is_decorator s.
Proof.
  unfold m_at, is_decorator. split.
  - destruct (lead s) as [w r] eqn:L. apply lead_inv in L as (-> & W & _). cbn [snd]. destruct r as [|c r]; [discriminate|]. intros C. apply Ascii.eqb_eq in C. subst c. exists w, r. auto.
  - intros (w & rest & -> & W). rewrite (lead_app w _ W) by reflexivity. reflexivity.
Qed.

Lemma last_shift (l : list ascii) : forall c d, last (c :: l) d = last l c.
Proof. induction l as [|x l IH]; intros c d; [reflexivity|]. change (last (c :: x :: l) d) with (last (x :: l) d). rewrite (IH x d), (IH x c). reflexivity. Qed.
Lemma m_lambda_from_spec s : forall d, m_lambda_from (is_name_char d) s = true <-> exists a c b, s = a ++ "lambda" ++ String c b /\ (c = ":"%char \/ is_space c = true) /\
  ~ In (ascii_of_nat 10) (list_ascii_of_string a) /\ is_name_char (last (list_ascii_of_string a) d) = false.
Proof.
  induction s as [|x s IH]; intros d.
  - cbn [m_lambda_from]. split; [discriminate|]. intros ([|y a] & c & b & X & _); discriminate X.
  - cbn [m_lambda_from]. rewrite orb_true_iff. split.
    + intros [H|H].
      * apply andb_prop in H as [P H]. apply negb_true_iff in P. destruct (drop_prefix "lambda" (String x s)) as [[|c t]|] eqn:D; try discriminate.
        apply drop_inv in D. exists "", c, t. split; [exact D|]. split; [|split; [intros []|exact P]].
        apply orb_prop in H as [H|H]; [left; now apply Ascii.eqb_eq|now right].
      * destruct (Ascii.eqb_spec x (ascii_of_nat 10)) as [|N]; [discriminate|]. apply IH in H as (a & c & b & -> & C & L & P).
        exists (String x a), c, b. split; [reflexivity|]. split; [exact C|]. cbn [list_ascii_of_string]. rewrite last_shift. split; [|exact P].
        intros [Q|Q]; [now apply N|contradiction].
    + intros (a & c & b & X & C & L & P). destruct a as [|y a].
      * left. cbn [list_ascii_of_string last] in P. rewrite P. rewrite X. change ("" ++ "lambda" ++ String c b) with ("lambda" ++ String c b).
        rewrite drop_prefix_app. destruct C as [->| ->]; [reflexivity|]. apply orb_true_r.
      * right. change (String x s = String y (a ++ "lambda" ++ String c b)) in X. inversion X as [[X1 X2]]; subst x. change (s = a ++ "lambda" ++ String c b) in X2. subst s.
        cbn [list_ascii_of_string In] in L. change (list_ascii_of_string (String y a)) with (y :: list_ascii_of_string a) in P. rewrite last_shift in P. destruct (Ascii.eqb_spec y (ascii_of_nat 10)) as [E|]; [exfalso; auto|].
        apply IH. exists a, c, b. split; [reflexivity|]. split; [exact C|]. split; [tauto|exact P].
Qed.
Lemma m_lambda_spec s : m_lambda s = true <-> has_lambda s.
Proof. apply (m_lambda_from_spec s " "%char). Qed.

(** ** functions of a file *)
Lemma up_spec p lines : forall n, let i := up p lines n in
  (i = 0 \/ p (nth i lines "") = true) /\ i <= n /\ forall j, i < j <= n -> p (nth j lines "") = false.
Proof.
  induction n as [|n IH]; cbv zeta; cbn [up]; [split; [auto|]; split; [lia|]; intros; lia|].
  destruct (p (nth (S n) lines "")) eqn:P.
  - split; [auto|]. split; [lia|]. intros; lia.
  - cbv zeta in IH. destruct IH as (A & B & C). split; [exact A|]. split; [lia|]. intros j J. destruct (Nat.eq_dec j (S n)) as [->|]; [exact P|apply C; lia].
Qed.
(** what is found: the last line, not after the first line of the code, that is a def statement, a decorator or has a lambda; or the first line *)
Theorem C68_code : forall lines first i, find_code lines first = Some i ->
  (i = 0 \/ is_def (nth i lines "") \/ is_decorator (nth i lines "") \/ has_lambda (nth i lines "")) /\ i <= first - 1 /\
  forall j, i < j <= first - 1 -> ~ is_def (nth j lines "") /\ ~ is_decorator (nth j lines "") /\ ~ has_lambda (nth j lines "").
Proof.
  intros lines first i H. unfold find_code in H. destruct (Nat.ltb 0 (first - 1) && Nat.leb (List.length lines) (first - 1)); [discriminate|]. injection H as <-.
  destruct (up_spec pat_code lines (first - 1)) as (A & B & C). split; [|split; [exact B|]].
  - destruct A as [A|A]; [auto|right]. unfold pat_code in A. apply orb_true_iff in A as [A|A]; [apply orb_true_iff in A as [A|A]|].
    + left. apply m_def_spec. exact A.
    + right. right. apply m_lambda_spec. exact A.
    + right. left. apply m_at_spec. exact A.
  - intros j J. specialize (C j J). unfold pat_code in C. apply orb_false_iff in C as [C C3]. apply orb_false_iff in C as [C1 C2].
    split; [|split]; intros X; [apply m_def_spec in X|apply m_at_spec in X|apply m_lambda_spec in X]; congruence.
Qed.
(** a function whose first line -- the one co_firstlineno tells -- is its def statement or its first decorator, or has the lambda, is found there *)
Theorem C68_function_partial : forall lines k, k < List.length lines ->
  is_def (nth k lines "") \/ is_decorator (nth k lines "") \/ has_lambda (nth k lines "") -> find_code lines (S k) = Some k.
Proof.
  intros lines k L H. unfold find_code. replace (S k - 1) with k by lia. replace (Nat.leb (List.length lines) k) with false by (symmetry; apply Nat.leb_gt; exact L).
  rewrite andb_false_r. f_equal. destruct k as [|k]; [reflexivity|]. cbn [up].
  replace (pat_code (nth (S k) lines "")) with true; [reflexivity|]. symmetry. unfold pat_code. destruct H as [H|[H|H]].
  - apply m_def_spec in H. rewrite H. reflexivity.
  - apply m_at_spec in H. rewrite H. rewrite orb_true_r. reflexivity.
  - apply m_lambda_spec in H. rewrite H. rewrite orb_true_r. reflexivity.
Qed.
Definition nl : string := String (ascii_of_nat 10) "".
(** REFUTED: the first line of an async def is none of these: the source found for it is that of an earlier function *)
Theorem C68_async_refuted : exists lines k, nth k lines "" = "async def fetch(url):" ++ nl /\ find_code lines (S k) = Some 0 /\ nth 0 lines "" = "def other():" ++ nl /\ k <> 0.
Proof.
  exists ["def other():" ++ nl; "    return 1" ++ nl; nl; "async def fetch(url):" ++ nl; "    return 2" ++ nl], 3. vm_compute. repeat split. discriminate.
Qed.

(** ** functions of an interactive session *)
(** the lines directly above line n that are decorators *)
Lemma hats_spec lines : forall n, hats lines n <= n /\ (forall j, n - hats lines n <= j < n -> is_decorator (nth j lines "")) /\
  (hats lines n = n \/ ~ is_decorator (nth (n - hats lines n - 1) lines "")).
Proof.
  induction n as [|n (A & B & C)]; cbn [hats]; [split; [lia|]; split; [intros; lia|auto]|].
  destruct (m_at (nth n lines "")) eqn:M.
  - split; [lia|]. replace (S n - S (hats lines n)) with (n - hats lines n) by lia. split.
    + intros j J. destruct (Nat.eq_dec j n) as [->|]; [apply m_at_spec; exact M|apply B; lia].
    + destruct C as [C|C]; [left; lia|right; exact C].
  - split; [lia|]. split; [intros; lia|]. right. replace (S n - 0 - 1) with n by lia. intros X. apply m_at_spec in X. congruence.
Qed.
Lemma contains_spec p s : contains p s = true <-> exists a b, s = a ++ p ++ b.
Proof.
  split.
  - induction s as [|c s IH]; cbn [contains]; destruct (drop_prefix p _) as [r|] eqn:D.
    + intros _. apply drop_inv in D. exists "", r. exact D.
    + discriminate.
    + intros _. apply drop_inv in D. exists "", r. exact D.
    + intros H. destruct (IH H) as (a & b & ->). exists (String c a), b. reflexivity.
  - intros (a & b & ->). induction a as [|c a IH]; cbn [append].
    + destruct (p ++ b) eqn:E; cbn [contains]; rewrite <- E, drop_prefix_app; reflexivity.
    + cbn [contains]. rewrite IH. destruct (drop_prefix p _); reflexivity.
Qed.
(** what is found: above its decorators, the last def statement that has the name anywhere in its line, the first line of the session not counted *)
Theorem C68_history_partial : forall lines name d, 0 < d < List.length lines -> is_def (nth d lines "") -> (exists a b, nth d lines "" = a ++ name ++ b) ->
  (forall j, d < j < List.length lines -> is_def (nth j lines "") -> ~ exists a b, nth j lines "" = a ++ name ++ b) ->
  find_history lines name = d - hats lines d /\ (forall j, d - hats lines d <= j < d -> is_decorator (nth j lines "")) /\
  (hats lines d = d \/ ~ is_decorator (nth (d - hats lines d - 1) lines "")).
Proof.
  intros lines name d L D N H. split; [|apply hats_spec]. unfold find_history.
  assert (forall n, d <= n -> n < List.length lines -> find_history_from lines name n = d - hats lines d) as G; [|apply G; lia].
  induction n as [|n IH]; intros A B; [lia|]. cbn [find_history_from]. destruct (Nat.eq_dec (S n) d) as [E|E].
  - rewrite E. apply m_def_spec in D. apply contains_spec in N. rewrite D, N. reflexivity.
  - destruct (m_def (nth (S n) lines "") && contains name (nth (S n) lines "")) eqn:M; [|apply IH; lia].
    apply andb_prop in M as [M1 M2]. exfalso. apply (H (S n)); [lia|apply m_def_spec; exact M1|apply contains_spec; exact M2].
Qed.
Lemma hats_unique lines d h : h <= d -> (forall j, d - h <= j < d -> is_decorator (nth j lines "")) -> (h = d \/ ~ is_decorator (nth (d - h - 1) lines "")) -> hats lines d = h.
Proof.
  revert h. induction d as [|d IH]; intros h L A B; [cbn; lia|]. cbn [hats].
  destruct h as [|h].
  - destruct B as [B|B]; [lia|]. replace (S d - 0 - 1) with d in B by lia. rewrite <- m_at_spec in B. destruct (m_at (nth d lines "")); [congruence|reflexivity].
  - assert (M : m_at (nth d lines "") = true) by (apply m_at_spec, A; lia). rewrite M. f_equal. apply IH; [lia| |].
    + intros j J. apply A. lia.
    + destruct B as [B|B]; [left; lia|right]. replace (d - h - 1) with (S d - S h - 1) by lia. exact B.
Qed.
(** the same in terms of the lines alone: [h] decorators are right above the def statement *)
Theorem C68_history_decorated_partial : forall lines name d h, 0 < d < List.length lines -> is_def (nth d lines "") -> (exists a b, nth d lines "" = a ++ name ++ b) ->
  (forall j, d < j < List.length lines -> is_def (nth j lines "") -> ~ exists a b, nth j lines "" = a ++ name ++ b) ->
  h <= d -> (forall j, d - h <= j < d -> is_decorator (nth j lines "")) -> (h = d \/ ~ is_decorator (nth (d - h - 1) lines "")) ->
  find_history lines name = d - h.
Proof.
  intros lines name d h D M C A L B E. destruct (C68_history_partial lines name d D M C A) as [-> _]. rewrite (hats_unique lines d h L B E). reflexivity.
Qed.
(** REFUTED: a later function whose name only begins like it is found instead *)
Theorem C68_history_refuted : exists lines, nth 1 lines "" = "def foo(): return 1" ++ nl /\ find_history lines "foo" = 2 /\ nth 2 lines "" = "def foobar(): return 2" ++ nl.
Proof. exists ["import dill" ++ nl; "def foo(): return 1" ++ nl; "def foobar(): return 2" ++ nl]. vm_compute. auto. Qed.

(** ** classes *)
Lemma white_c s : white s -> s = "" \/ exists c r, s = String c r /\ c <> "c"%char.
Proof.
  destruct s as [|c r]; [auto|]. intros W. right. exists c, r. split; [reflexivity|]. intros ->. discriminate W.
Qed.
Lemma scan_spec lines name : is_ident name = true -> forall n cands,
  (exists i, scan lines name n cands = Some i /\ i < n /\ looks_like name "" (nth i lines "") /\ forall j, i < j < n -> ~ looks_like name "" (nth j lines "")) \/
  ((forall j, j < n -> ~ looks_like name "" (nth j lines "")) /\
   exists found, (forall w j, In (w, j) found <-> j < n /\ looks_like name w (nth j lines "")) /\
     scan lines name n cands = match (cands ++ found)%list with [] => None | c :: l => Some (snd (least c l)) end).
Proof.
  intros N. induction n as [|n IH]; intros cands.
  - right. split; [intros; lia|]. exists []. split; [|rewrite app_nil_r; reflexivity]. intros w j. split; [intros []|intros []; lia].
  - cbn [scan]. cbv zeta. destruct (m_class name (nth n lines "")) as [w|] eqn:M.
    + assert (looks_like name w (nth n lines "")) as LL by (apply m_class_spec; assumption).
      assert (forall w', looks_like name w' (nth n lines "") -> w' = w) as U. { intros w' X. apply (m_class_spec name _ _ N) in X. congruence. }
      destruct LL as (s1 & rest & E & W & W1 & EW). destruct (white_c w W) as [->|(c & r & -> & NC)].
      * rewrite E. cbn [append]. change (Ascii.eqb "c" "c") with true. cbn iota. left. exists n. split; [reflexivity|]. split; [lia|]. split; [|intros; lia].
        exists s1, rest. rewrite E. auto.
      * replace (match nth n lines "" with EmptyString => false | String c0 _ => Ascii.eqb c0 "c" end) with (Ascii.eqb c "c") by (rewrite E; reflexivity). apply Ascii.eqb_neq in NC as NC'. rewrite NC'.
        destruct (IH (cands ++ [(String c r, n)])%list) as [(i & A & B & C & D)|(A & found & B & C)].
        -- left. exists i. split; [exact A|]. split; [lia|]. split; [exact C|]. intros j J. destruct (Nat.eq_dec j n) as [->|]; [|apply D; lia].
           intros X. apply U in X. discriminate X.
        -- right. split.
           ++ intros j J. destruct (Nat.eq_dec j n) as [->|]; [|apply A; lia]. intros X. apply U in X. discriminate X.
           ++ exists ((String c r, n) :: found). split; [|rewrite C, <- app_assoc; reflexivity]. intros w' j. cbn [In]. rewrite B. split.
              ** intros [X|[X Y]]; [injection X as <- <-; split; [lia|exists s1, rest; auto]|split; [lia|exact Y]].
              ** intros [X Y]. destruct (Nat.eq_dec j n) as [->|]; [left; f_equal; symmetry; apply U; exact Y|right; split; [lia|exact Y]].
    + assert (forall w', ~ looks_like name w' (nth n lines "")) as U. { intros w' X. apply (m_class_spec name _ _ N) in X. congruence. }
      destruct (IH cands) as [(i & A & B & C & D)|(A & found & B & C)].
      * left. exists i. split; [exact A|]. split; [lia|]. split; [exact C|]. intros j J. destruct (Nat.eq_dec j n) as [->|]; [apply U|apply D; lia].
      * right. split.
        -- intros j J. destruct (Nat.eq_dec j n) as [->|]; [apply U|apply A; lia].
        -- exists found. split; [|exact C]. intros w j. rewrite B. split; [intros [X Y]; split; [lia|exact Y]|].
           intros [X Y]. destruct (Nat.eq_dec j n) as [->|]; [exfalso; exact (U _ Y)|split; [lia|exact Y]].
Qed.

(** a class defined at top level: the last such line is found *)
Theorem C68_class_toplevel_partial : forall lines name i, is_ident name = true -> i < List.length lines -> looks_like name "" (nth i lines "") ->
  (forall j, i < j < List.length lines -> ~ looks_like name "" (nth j lines "")) -> find_class lines name = Some i.
Proof.
  intros lines name i N L H U. unfold find_class. destruct (scan_spec lines name N (List.length lines) []) as [(k & A & B & C & D)|(A & _)].
  - rewrite A. f_equal. destruct (Nat.lt_trichotomy k i) as [X|[X|X]]; [exfalso; apply (D i); [lia|exact H]|exact X|exfalso; apply (U k); [lia|exact C]].
  - exfalso. exact (A i L H).
Qed.
(** no line looks like it: IOError, and only then *)
Theorem C68_class_none : forall lines name, is_ident name = true ->
  (find_class lines name = None <-> forall i w, i < List.length lines -> ~ looks_like name w (nth i lines "")).
Proof.
  intros lines name N. unfold find_class. destruct (scan_spec lines name N (List.length lines) []) as [(k & A & B & C & D)|(A & found & B & C)].
  - rewrite A. split; [discriminate|]. intros H. exfalso. exact (H k "" B C).
  - rewrite C. cbn [List.app]. destruct found as [|[w j] l].
    + split; [|reflexivity]. intros _ i w X Y. apply (proj2 (B w i)). auto.
    + split; [discriminate|]. intros H. exfalso. destruct (proj1 (B w j) (or_introl eq_refl)) as [X Y]. exact (H j w X Y).
Qed.
(** a line that is found looks like the class *)
Lemma least_In l : forall c, In (least c l) (c :: l).
Proof.
  induction l as [|x l IH]; intros c; cbn [least]; [left; reflexivity|]. destruct (cleb c x).
  - destruct (IH c) as [X|X]; [left; exact X|right; right; exact X].
  - right. exact (IH x).
Qed.
(** n spaces *)
Fixpoint pad (n : nat) : string := match n with 0 => "" | S n => String " " (pad n) end.
Lemma pad_length n : String.length (pad n) = n.
Proof. induction n; cbn; congruence. Qed.
Lemma sleb_pad n : forall m, sleb (pad n) (pad m) = Nat.leb n m.
Proof. induction n as [|n IH]; intros [|m]; try reflexivity. cbn [pad sleb]. rewrite Ascii.eqb_refl, IH. reflexivity. Qed.
Definition before (x y : string * nat) : Prop := String.length (fst x) < String.length (fst y) \/ (String.length (fst x) = String.length (fst y) /\ snd x <= snd y).
Lemma cleb_before x y a b : fst x = pad a -> fst y = pad b -> (cleb x y = true -> before x y) /\ (cleb x y = false -> before y x).
Proof.
  intros X Y. unfold cleb, before. rewrite X, Y, sleb_pad, !pad_length. destruct (String.eqb_spec (pad a) (pad b)) as [E|E].
  - apply (f_equal String.length) in E. rewrite !pad_length in E. subst b. split; intros H; [apply Nat.leb_le in H|apply Nat.leb_gt in H]; lia.
  - assert (a <> b) as AB by congruence. split; intros H; [apply Nat.leb_le in H|apply Nat.leb_gt in H]; lia.
Qed.
Lemma before_trans x y z : before x y -> before y z -> before x z.
Proof. unfold before. lia. Qed.
Lemma before_refl x : before x x.
Proof. unfold before. lia. Qed.
Lemma least_before l : forall c, (forall x, In x (c :: l) -> exists k, fst x = pad k) -> forall x, In x (c :: l) -> before (least c l) x.
Proof.
  induction l as [|y l IH]; intros c P x I.
  - destruct I as [<-|[]]. apply before_refl.
  - cbn [least]. destruct (P c (or_introl eq_refl)) as [a A]. destruct (P y (or_intror (or_introl eq_refl))) as [b B]. pose proof (cleb_before c y a b A B) as [T F].
    destruct (cleb c y).
    + assert (forall x, In x (c :: l) -> before (least c l) x) as G. { apply IH. intros z [<-|Z]; apply P; [left; reflexivity|right; right; exact Z]. }
      destruct I as [<-|[<-|I]]; [apply G; left; reflexivity| |apply G; right; exact I]. eapply before_trans; [apply G; left; reflexivity|apply T; reflexivity].
    + assert (forall x, In x (y :: l) -> before (least y l) x) as G. { apply IH. intros z [<-|Z]; apply P; [right; left; reflexivity|right; right; exact Z]. }
      destruct I as [<-|[<-|I]]; [|apply G; left; reflexivity|apply G; right; exact I]. eapply before_trans; [apply G; left; reflexivity|apply F; reflexivity].
Qed.
(** a class that is nowhere at top level, and indentation by spaces: the line found is the first of those with the least indentation *)
Theorem C68_class_nested_partial : forall lines name, is_ident name = true ->
  (forall i, i < List.length lines -> ~ looks_like name "" (nth i lines "")) ->
  (forall i w, i < List.length lines -> looks_like name w (nth i lines "") -> exists k, w = pad k) ->
  (exists i w, i < List.length lines /\ looks_like name w (nth i lines "")) ->
  exists i k, find_class lines name = Some i /\ i < List.length lines /\ looks_like name (pad k) (nth i lines "") /\
    forall j k', j < List.length lines -> looks_like name (pad k') (nth j lines "") -> k < k' \/ (k = k' /\ i <= j).
Proof.
  intros lines name N T P (i0 & w0 & L0 & H0). unfold find_class. destruct (scan_spec lines name N (List.length lines) []) as [(k & A & B & C & D)|(A & found & B & C)].
  - exfalso. exact (T k B C).
  - rewrite C. cbn [List.app]. destruct found as [|c l].
    + exfalso. apply (proj2 (B w0 i0)). auto.
    + pose proof (least_In l c) as I. destruct (least c l) as [w i] eqn:E. apply B in I as [I1 I2]. destruct (P i w I1 I2) as [k ->].
      exists i, k. cbn [snd]. split; [reflexivity|]. split; [exact I1|]. split; [exact I2|]. intros j k' J1 J2.
      assert (before (least c l) (pad k', j)) as Q.
      { apply least_before; [|apply B; auto]. intros [w' j'] X. apply B in X as [X1 X2]. exact (P j' w' X1 X2). }
      rewrite E in Q. unfold before in Q. cbn [fst snd] in Q. rewrite !pad_length in Q. lia.
Qed.
(** hence a class that is defined once in the file, whatever its indentation by spaces, is found *)
Corollary C68_class_unique_partial : forall lines name i k, is_ident name = true -> i < List.length lines -> class_stmt name (pad k) (nth i lines "") ->
  (forall j w, j < List.length lines -> looks_like name w (nth j lines "") -> j = i) -> find_class lines name = Some i.
Proof.
  intros lines name i k N L (s1 & rest & E & W & W1 & _ & R) U.
  assert (looks_like name (pad k) (nth i lines "")) as H by (exists s1, rest; auto).
  assert (forall w, looks_like name w (nth i lines "") -> w = pad k) as UW. { intros w X. apply (m_class_spec name _ _ N) in X, H. congruence. }
  destruct k as [|k].
  - apply C68_class_toplevel_partial; try assumption. intros j J X. assert (j = i) by (apply (U j ""); [lia|exact X]). lia.
  - destruct (C68_class_nested_partial lines name N) as (i' & k' & A & B & C & _).
    + intros j J X. assert (j = i) as -> by (apply (U j ""); assumption). apply UW in X. discriminate X.
    + intros j w J X. assert (j = i) as -> by (apply (U j w); assumption). apply UW in X. eauto.
    + eauto.
    + rewrite A. f_equal. apply (U i' (pad k')); assumption.
Qed.

(** ** refutations and examples *)
Definition tab : string := String (ascii_of_nat 9) "".
(** 1. an assignment to a variable whose name is class and the name of the class *)
Theorem C68_variable_refuted : let lines := ["class A: pass" ++ nl; "classA = 1" ++ nl] in find_class lines "A" = Some 1.
Proof. vm_compute. reflexivity. Qed.
(** 2. two functions, each with a class of that name: the class of the second is never found, whichever of the two is asked for *)
Theorem C68_two_functions_refuted : let lines := ["def f():" ++ nl; "    class A: pass" ++ nl; "    return A" ++ nl; "def g():" ++ nl; "    class A: pass" ++ nl; "    return A" ++ nl] in
  find_class lines "A" = Some 1 /\ class_stmt "A" (pad 4) (nth 4 lines "").
Proof. split; [vm_compute; reflexivity|]. exists " ", (": pass" ++ nl). repeat split. discriminate. Qed.
(** 3. one tab, eight columns, comes before one space *)
Theorem C68_tab_refuted : let lines := ["if 1:" ++ nl; " class A: pass" ++ nl; " def f():" ++ nl; tab ++ "class A: pass" ++ nl] in find_class lines "A" = Some 3.
Proof. vm_compute. reflexivity. Qed.
(** 4. the text of a docstring *)
Theorem C68_docstring_refuted : let lines := ["class A: pass" ++ nl; "doc = '''" ++ nl; "class A is documented here" ++ nl; "'''" ++ nl] in find_class lines "A" = Some 2.
Proof. vm_compute. reflexivity. Qed.
Example C68_ex : let lines := ["@deco" ++ nl; "def f(x):" ++ nl; "    class B(object):" ++ nl; "        pass" ++ nl; "g = lambda x: x" ++ nl] in
  find_code lines 1 = Some 0 /\ find_code lines 2 = Some 1 /\ find_code lines 5 = Some 4 /\ find_class lines "B" = Some 2 /\ find_class lines "C" = None /\
  find_history (("import os" ++ nl) :: lines) "f" = 1.
Proof. vm_compute. repeat split. Qed.
