(** C94: the source line of a lambda of an interactive session. *)
From Coq Require Import String Ascii List Bool Arith Lia.
From Verif Require Import PyDict CheckModel CheckProps FindModel FindProps MatchModel.
Import ListNotations.
Local Open Scope string_scope.

(** ** specification *)
(** [t] is [pre ++ sep ++ post], cut at the first place where [sep] occurs *)
Definition first_cut (sep t pre post : string) : Prop :=
  t = pre ++ sep ++ post /\ forall pre' post', t = pre' ++ sep ++ post' -> String.length pre <= String.length pre'.
(** the line has the word lambda in front of a blank or a colon *)
Definition lambda_line (line : string) : Prop := has_lambda line.
(** the first lambda expression of the line: its arguments and the text after the colon *)
Definition first_lambda (line args body : string) : Prop :=
  exists pre rest, first_cut "lambda " line pre rest /\ first_cut ":" rest args body.

Lemma cut_spec sep t : sep <> "" -> forall pre post, cut sep t = Some (pre, post) <-> first_cut sep t pre post.
Proof.
  intros N. induction t as [|c t IH]; intros pre post.
  - cbn [cut]. destruct (drop_prefix sep "") as [r|] eqn:D.
    + apply drop_inv in D. destruct sep; [congruence|discriminate].
    + split; [discriminate|]. intros (E & _). destruct pre; [|discriminate]. destruct sep; [congruence|discriminate].
  - cbn [cut]. destruct (drop_prefix sep (String c t)) as [r|] eqn:D.
    + apply drop_inv in D. split.
      * intros E. inversion E; subst pre post. split; [exact D|]. intros. cbn. lia.
      * intros (E & M). specialize (M "" r D). destruct pre; [|cbn in M; lia].
        cbn [append] in E. rewrite D in E. f_equal. f_equal.
        clear -E. induction sep as [|x s IHs]; [exact E|]. cbn [append] in E. inversion E as [E1]. apply IHs. exact E1.
    + assert (ND : forall q, String c t <> sep ++ q).
      { intros q E. rewrite E, drop_prefix_app in D. discriminate. }
      destruct (cut sep t) as [[a b]|] eqn:Ct.
      * pose proof (proj1 (IH a b) eq_refl) as (Et & Mt). split.
        -- intros E. inversion E; subst pre post. split; [cbn [append]; rewrite <- Et; reflexivity|].
           intros [|x p'] q E'; [exfalso; apply (ND q E')|]. cbn [append] in E'. inversion E' as [[Ex Eq]].
           specialize (Mt p' q Eq). cbn [String.length]. lia.
        -- intros (E & M). destruct pre as [|x p]; [exfalso; apply (ND post E)|].
           cbn [append] in E. inversion E as [[Ex Eq]]. subst x.
           assert (F : first_cut sep t p post).
           { split; [exact Eq|]. intros p' q E'. specialize (M (String c p') q ltac:(cbn [append]; rewrite <- E'; reflexivity)).
             cbn [String.length] in M. lia. }
           apply IH in F. inversion F. reflexivity.
      * split; [discriminate|]. intros (E & M). destruct pre as [|x p]; [exfalso; apply (ND post E)|].
        cbn [append] in E. inversion E as [[Ex Eq]]. subst x.
        assert (F : first_cut sep t p post).
        { split; [exact Eq|]. intros p' q E'. specialize (M (String c p') q ltac:(cbn [append]; rewrite <- E'; reflexivity)).
          cbn [String.length] in M. lia. }
        apply IH in F. discriminate.
Qed.

(** characters of a string *)
Definition chars_of (s : string) : list ascii := list_ascii_of_string s.
Lemma prefix_before p : forall l q r, ~ In ":"%char (chars_of p) -> p ++ q = l ++ ":" ++ r -> forall c, In c (chars_of p) -> In c (chars_of l).
Proof.
  induction p as [|x p IH]; intros l q r N E c I; [destruct I|].
  destruct l as [|y l]; cbn [append] in E.
  - inversion E as [[Ex Eq]]. exfalso. apply N. left. exact Ex.
  - inversion E as [[Ex Eq]]. subst y. destruct I as [<-|I]; [left; reflexivity|right].
    apply (IH l q r (fun J => N (or_intror J)) Eq c I).
Qed.
Lemma lambda_in_rest lhs : forall rhs a b, ~ In " "%char (chars_of lhs) ->
  lhs ++ ":" ++ rhs = a ++ "lambda " ++ b -> exists a', rhs = a' ++ "lambda " ++ b.
Proof.
  induction lhs as [|c lhs IH]; intros rhs a b N E.
  - destruct a as [|x a].
    + change (String ":" rhs = String "l" ("ambda " ++ b)) in E. inversion E.
    + cbn [append] in E. inversion E as [[Ex Eq]]. exists a. reflexivity.
  - destruct a as [|x a].
    + exfalso. apply N. apply (prefix_before "lambda " (String c lhs) b rhs).
      * cbn. intros H. repeat (destruct H as [H|H]; [discriminate H|]). exact H.
      * cbn [append] in *. symmetry. exact E.
      * cbn. auto 20.
    + cbn [append] in E. inversion E as [[Ex Eq]]. apply (IH rhs a b (fun J => N (or_intror J)) Eq).
Qed.

Lemma same_code_spec a : forall b, same_code a b = true <-> a = b.
Proof.
  induction a as [|x a IH]; intros [|y b]; cbn [same_code]; try (split; [discriminate|congruence]); [split; reflexivity|].
  rewrite andb_true_iff, IH, Nat.eqb_eq. split; [intros [-> ->]; reflexivity|intros E; inversion E; auto].
Qed.

Section Props.
  Variable compile : string -> option (list nat).
  Variable dummy : list nat.
  Local Notation matchlambda := (matchlambda compile dummy).
  Local Notation find_lambda := (find_lambda compile dummy).

  (** the first lambda of the line evaluates to a function with bytecode [c] *)
  Definition evaluates (line : string) (c : list nat) : Prop :=
    exists args body, first_lambda line args body /\ compile ("lambda " ++ args ++ " : " ++ body) = Some c.

  Lemma cut_first line args body : first_lambda line args body -> cut ":" (after "lambda " line) = Some (args, body).
  Proof.
    intros (pre & rest & L & C). unfold after.
    apply (cut_spec "lambda ") in L; [|discriminate]. rewrite L. apply cut_spec; [discriminate|exact C].
  Qed.

  (** the line has no lambda followed by a space (but, say, lambda:); what stands before its first colon is then taken for the
      arguments, and evaluates to a function with bytecode [c] *)
  Definition misread (line : string) (c : list nat) : Prop :=
    exists args body, (forall pre post, line <> pre ++ "lambda " ++ post) /\ first_cut ":" line args body
      /\ compile ("lambda " ++ args ++ " : " ++ body) = Some c.

  Lemma cut_none sep t : sep <> "" -> cut sep t = None -> forall pre post, t <> pre ++ sep ++ post.
  Proof.
    intros N. induction t as [|c t IH]; intros C pre post E.
    - destruct pre; [|discriminate]. destruct sep; [congruence|discriminate].
    - cbn [cut] in C. destruct (drop_prefix sep (String c t)) eqn:D; [discriminate|].
      destruct (cut sep t) as [[]|] eqn:Ct; [discriminate|].
      destruct pre as [|x p].
      + cbn [append] in E. rewrite E, drop_prefix_app in D. discriminate.
      + cbn [append] in E. inversion E as [[Ex Eq]]. apply (IH eq_refl p post Eq).
  Qed.

  (** search stops at the last line that says Yes or raises *)
  Lemma search_last f lines n : forall m, n <= m ->
    (forall j, n < j <= m -> lambda_line (nth j lines "") -> matchlambda f (nth j lines "") = No) ->
    search compile dummy f lines m = search compile dummy f lines n.
  Proof.
    induction m as [|m IH]; intros Le H.
    - replace n with 0 by lia. reflexivity.
    - destruct (Nat.eq_dec n (S m)) as [->|Ne]; [reflexivity|].
      cbn [search]. destruct (m_lambda (nth (S m) lines "")) eqn:L.
      + rewrite (H (S m)) by (try lia; apply m_lambda_spec; exact L). apply IH; [lia|]. intros j Hj. apply H. lia.
      + apply IH; [lia|]. intros j Hj. apply H. lia.
  Qed.

  (** a lambda without free variables is found at its line, if every later line with a lambda evaluates to another bytecode *)
  Theorem C94_found_partial f lines n :
    freevars f = [] -> 0 < n < List.length lines ->
    lambda_line (nth n lines "") -> evaluates (nth n lines "") (co_code f) ->
    (forall j, n < j < List.length lines -> lambda_line (nth j lines "") ->
       exists c, evaluates (nth j lines "") c /\ c <> co_code f) ->
    find_lambda f lines = (Yes, n).
  Proof.
    intros V Hn L (args & body & F & C) H. unfold MatchModel.find_lambda.
    rewrite (search_last f lines n); [|lia|].
    - destruct n as [|n]; [lia|]. cbn [search]. apply m_lambda_spec in L. rewrite L. unfold MatchModel.matchlambda.
      rewrite (cut_first _ _ _ F), V. unfold code_of, text. rewrite C.
      assert (X : same_code (co_code f) (co_code f) = true) by (apply same_code_spec; reflexivity). rewrite X. reflexivity.
    - intros j Hj Lj. destruct (H j ltac:(lia) Lj) as (c & (args' & body' & F' & C') & Ne).
      unfold MatchModel.matchlambda. rewrite (cut_first _ _ _ F'), V. unfold code_of, text. rewrite C'.
      destruct (same_code c (co_code f)) eqn:S; [|reflexivity]. apply same_code_spec in S. congruence.
  Qed.

  (** what is found, unless it is line 0: the last line whose first lambda has the bytecode; or, for a function with the
      bytecode of a constant one, a line whose text cannot be evaluated *)
  Theorem C94_sound f lines n :
    freevars f = [] -> find_lambda f lines = (Yes, n) -> 0 < n ->
    n < List.length lines /\ lambda_line (nth n lines "")
    /\ (evaluates (nth n lines "") (co_code f) \/ misread (nth n lines "") (co_code f) \/ dummy = co_code f).
  Proof.
    intros V. unfold MatchModel.find_lambda.
    assert (G : forall m, search compile dummy f lines m = (Yes, n) -> 0 < n ->
      n <= m /\ lambda_line (nth n lines "") /\ (evaluates (nth n lines "") (co_code f) \/ misread (nth n lines "") (co_code f) \/ dummy = co_code f)).
    { induction m as [|m IH]; intros E P.
      - cbn [search] in E. inversion E. lia.
      - cbn [search] in E. destruct (m_lambda (nth (S m) lines "")) eqn:L.
        + unfold MatchModel.matchlambda in E. rewrite V in E.
          destruct (cut ":" (after "lambda " (nth (S m) lines ""))) as [[lhs rhs]|] eqn:C; [|inversion E].
          destruct (same_code (code_of compile dummy lhs rhs) (co_code f)) eqn:S.
          * inversion E; subst n. split; [lia|]. split; [apply m_lambda_spec; exact L|].
            apply same_code_spec in S. unfold code_of in S. destruct (compile (text lhs rhs)) as [c|] eqn:Cp; [|right; right; exact S].
            subst c. unfold after in C. destruct (cut "lambda " (nth (S m) lines "")) as [[pre rest]|] eqn:Cl.
            -- left. exists lhs, rhs. split; [|exact Cp]. exists pre, rest. split; apply cut_spec; auto; discriminate.
            -- (* no 'lambda ' in the line: the whole line is cut at its first colon *)
               right. left. exists lhs, rhs. split; [apply cut_none; [discriminate|exact Cl]|]. split; [|exact Cp]. apply cut_spec; [discriminate|exact C].
          * destruct (IH E P) as (A & B). split; [lia|exact B].
        + destruct (IH E P) as (A & B). split; [lia|exact B]. }
    intros E P. destruct (G _ E P) as (A & B & C). split; [|split; assumption].
    destruct lines; cbn in *; lia.
  Qed.

  (** every name is in the line *)
  Definition mentions (line : string) (names : list string) : Prop :=
    forall n, In n names -> exists a b, line = a ++ n ++ b.
  Lemma all_in_spec names line : all_in names line = true <-> mentions line names.
  Proof.
    unfold all_in, mentions. rewrite forallb_forall. split; intros H n I.
    - apply contains_spec. apply H. exact I.
    - apply contains_spec. apply H. exact I.
  Qed.

  Lemma one_pair_spec a : forall b, List.length a = List.length b -> one_pair (diffs a b) = true ->
    exists x y, a <> b /\ Forall2 (fun i j => i = j \/ (i = x /\ j = y)) a b.
  Proof.
    intros b L O. unfold one_pair in O. destruct (diffs a b) as [|[x y] r] eqn:D; [discriminate|].
    exists x, y.
    assert (All : forall p, In p (diffs a b) -> p = (x, y)).
    { rewrite D. intros p [<-|I]; [reflexivity|]. rewrite forallb_forall in O. specialize (O p I).
      apply eqb_true in O. congruence. }
    split.
    - intros <-. assert (Z : diffs a a = []).
      { clear. induction a as [|i a IH]; [reflexivity|]. cbn [diffs]. rewrite Nat.eqb_refl. exact IH. }
      rewrite Z in D. discriminate.
    - clear D O. revert b L All. induction a as [|i a IH]; intros [|j b] L All; try discriminate; [constructor|].
      cbn [diffs] in All. destruct (Nat.eqb_spec i j) as [->|Ne].
      + constructor; [left; reflexivity|]. apply IH; [cbn in L; congruence|exact All].
      + constructor.
        * right. specialize (All (i, j) (or_introl eq_refl)). split; congruence.
        * apply IH; [cbn in L; congruence|]. intros p I. apply All. right. exact I.
  Qed.

  (** a lambda with free variables is found only in a line with two lambdas, the first of which has one argument,
      a free variable of the second; its name and all others are in the line, and the bytecode of the second differs from the
      function's, but only by one byte that stands for another one *)
  Theorem C94_closure f lines n :
    freevars f <> [] -> (forall v, In v (freevars f) -> ~ In " "%char (chars_of v)) ->
    find_lambda f lines = (Yes, n) -> 0 < n ->
    exists pre v mid args body,
      first_cut "lambda " (nth n lines "") pre (v ++ ":" ++ mid) /\ In v (freevars f)
      /\ (exists a b, mid = a ++ "lambda " ++ b) /\ first_lambda mid args body
      /\ mentions (nth n lines "") (freevars f ++ varnames f ++ globalvars f)%list
      /\ exists c x y, (compile ("lambda " ++ args ++ " : " ++ body) = Some c \/ c = dummy)
           /\ c <> co_code f /\ Forall2 (fun i j => i = j \/ (i = x /\ j = y)) c (co_code f).
  Proof.
    intros V Sp. unfold MatchModel.find_lambda. generalize (List.length lines - 1) as m.
    induction m as [|m IH]; intros E P.
    - cbn [search] in E. inversion E. lia.
    - cbn [search] in E. destruct (m_lambda (nth (S m) lines "")) eqn:L; [|apply IH; assumption].
      unfold MatchModel.matchlambda in E.
      destruct (cut ":" (after "lambda " (nth (S m) lines ""))) as [[lhs rhs]|] eqn:C; [|inversion E].
      destruct (freevars f) as [|v0 vs] eqn:Ev; [congruence|]. rewrite <- Ev in *.
      destruct (all_in (freevars f) (nth (S m) lines "")) eqn:A1; cbn [negb] in E; [|apply IH; assumption].
      destruct (all_in (varnames f) (nth (S m) lines "")) eqn:A2; cbn [negb] in E; [|apply IH; assumption].
      destruct (all_in (globalvars f) (nth (S m) lines "")) eqn:A3; cbn [negb] in E; [|apply IH; assumption].
      destruct (second_lambda (nth (S m) lines "") && memb lhs (freevars f)) eqn:D.
      + apply andb_true_iff in D. destruct D as [D1 D2]. apply memb_In in D2.
        unfold second_lambda in D1. unfold after in C.
        destruct (cut "lambda " (nth (S m) lines "")) as [[pre rest]|] eqn:Cl; [|discriminate].
        apply cut_spec in Cl; [|discriminate]. apply cut_spec in C; [|discriminate].
        destruct (cut ":" (after "lambda " rhs)) as [[lhs2 rhs2]|] eqn:C2; [|inversion E].
        destruct (Nat.eqb _ _) eqn:Le; cbn [negb] in E; [|apply IH; assumption]. apply Nat.eqb_eq in Le.
        destruct (one_pair _) eqn:Op; [|apply IH; assumption]. inversion E; subst n.
        unfold after in C2. destruct (cut "lambda " rhs) as [[p2 r2]|] eqn:Cl2.
        * apply cut_spec in Cl2; [|discriminate]. apply cut_spec in C2; [|discriminate].
          exists pre, lhs, rhs, lhs2, rhs2. destruct C as (Ec & Mc). rewrite Ec in Cl. cbn [append].
          split; [exact Cl|]. split; [exact D2|]. split; [exists p2, r2; apply Cl2|].
          split; [exists p2, r2; split; assumption|].
          split; [|destruct (one_pair_spec _ _ Le Op) as (x & y & Ne & F2); exists (code_of compile dummy lhs2 rhs2), x, y;
            split; [unfold code_of, text; destruct (compile _); [left; reflexivity|right; reflexivity]|split; assumption]].
          intros x I. apply in_app_or in I. destruct I as [I|I]; [|apply in_app_or in I; destruct I as [I|I]].
          -- apply all_in_spec in A1. exact (A1 x I).
          -- apply all_in_spec in A2. exact (A2 x I).
          -- apply all_in_spec in A3. exact (A3 x I).
        * (* the second lambda is not after the colon: it would be in the arguments, which are one name *)
          exfalso. apply contains_spec in D1. destruct D1 as (a & b & Eab). destruct C as (Ec & Mc).
          rewrite Ec in Eab. destruct (lambda_in_rest lhs rhs a b (Sp lhs D2) Eab) as (a' & Ea).
          exact (cut_none "lambda " rhs ltac:(discriminate) Cl2 a' b Ea).
      + destruct (indented (nth (S m) lines "")); cbn [negb] in E; [inversion E|apply IH; assumption].
  Qed.
End Props.

(** ** what goes wrong *)
(** REFUTED for every lambda made in a function: an indented line with one lambda, which has the colon and all the names
    of the lambda in it -- as its own line has -- raises TypeError, for bytes are split at a number *)
Theorem C94_closure_refuted compile dummy f line args body :
  freevars f <> [] -> first_lambda line args body ->
  mentions line (freevars f) -> mentions line (varnames f) -> mentions line (globalvars f) ->
  (exists c r, line = String c r /\ is_space c = true) ->
  ~ In args (freevars f) ->
  matchlambda compile dummy f line = TypeError.
Proof.
  intros V F A1 A2 A3 (c & r & El & Sp) N. unfold matchlambda.
  rewrite (cut_first _ _ _ F). destruct (freevars f) as [|v vs] eqn:E; [congruence|]. rewrite <- E in *.
  apply all_in_spec in A1, A2, A3. rewrite A1, A2, A3. cbn [negb].
  assert (X : memb args (freevars f) = false) by (apply memb_nIn; exact N).
  rewrite X, andb_false_r. unfold indented. rewrite El, Sp. reflexivity.
Qed.

Definition nl : string := String (ascii_of_nat 10) "".
(** bytecodes of CPython 3.11: lambda x: x+1 and lambda x: x+2 have the same one; the dummy is LOAD_CONST, RETURN_VALUE *)
Definition code_add : list nat := [151; 0; 124; 0; 100; 1; 122; 0; 0; 0; 83; 0].
Definition code_const : list nat := [151; 0; 100; 1; 83; 0].
Definition code_call : list nat := [151; 0; 116; 0; 0; 0; 166; 0; 171; 0; 83; 0].
Definition eval311 (t : string) : option (list nat) :=
  if String.eqb t ("lambda x :  x+1" ++ nl) then Some code_add
  else if String.eqb t ("lambda x :  x+2" ++ nl) then Some code_add
  else if String.eqb t ("lambda n :  n" ++ nl) then Some [151; 0; 124; 0; 83; 0]
  else None.

(** REFUTED: a later lambda with the same bytecode, which has other constants *)
Theorem C94_constants_refuted :
  find_lambda eval311 code_const (Lam code_add [] ["x"] []) ["import os" ++ nl; "f = lambda x: x+1" ++ nl; "g = lambda x: x+2" ++ nl]
  = (Yes, 2).
Proof. vm_compute. reflexivity. Qed.

(** REFUTED: a lambda without arguments, f = lambda: g(), is not recognised; the first line of the history is given *)
Theorem C94_no_arguments_refuted :
  find_lambda eval311 code_const (Lam code_call [] [] ["g"]) ["import os" ++ nl; "f = lambda: g()" ++ nl] = (Yes, 0).
Proof. vm_compute. reflexivity. Qed.

(** REFUTED: a lambda with a constant value matches every line whose text cannot be evaluated *)
Theorem C94_dummy_refuted :
  find_lambda eval311 code_const (Lam code_const [] ["x"] [])
    ["import os" ++ nl; "f = lambda x: 5" ++ nl; "h = (lambda a: sorted(a, key=k))([1])" ++ nl] = (Yes, 2).
Proof. vm_compute. reflexivity. Qed.

(** REFUTED: a later line with the word lambda and no colon after it makes the search fail *)
Theorem C94_comment_refuted :
  find_lambda eval311 code_const (Lam code_add [] ["x"] []) ["import os" ++ nl; "f = lambda x: x+1" ++ nl; "# a lambda here" ++ nl]
  = (ValueError, 2).
Proof. vm_compute. reflexivity. Qed.

(** ** cases *)
Lemma ex_lambda pre args body : cut "lambda " (pre ++ "lambda " ++ args ++ ":" ++ body) = Some (pre, args ++ ":" ++ body) ->
  cut ":" (args ++ ":" ++ body) = Some (args, body) -> first_lambda (pre ++ "lambda " ++ args ++ ":" ++ body) args body.
Proof. intros A B. exists pre, (args ++ ":" ++ body). split; apply cut_spec; auto; discriminate. Qed.

Theorem C94_case :
  find_lambda eval311 code_const (Lam code_add [] ["x"] [])
    ["import os" ++ nl; "f = lambda x: x+1" ++ nl; "print(f)" ++ nl; "g = lambda n: n" ++ nl] = (Yes, 1).
Proof.
  apply C94_found_partial.
  - reflexivity.
  - cbn. lia.
  - apply m_lambda_spec. vm_compute. reflexivity.
  - exists "x", (" x+1" ++ nl). split; [|vm_compute; reflexivity].
    apply (ex_lambda "f = " "x" (" x+1" ++ nl)); vm_compute; reflexivity.
  - intros j Hj L. change (1 < j < 4) in Hj. assert (J : j = 2 \/ j = 3) by lia. destruct J as [->| ->].
    + apply m_lambda_spec in L. vm_compute in L. discriminate.
    + exists [151; 0; 124; 0; 83; 0]. split; [|discriminate].
      exists "n", (" n" ++ nl). split; [|vm_compute; reflexivity].
      apply (ex_lambda "g = " "n" (" n" ++ nl)); vm_compute; reflexivity.
Qed.

(** a lambda of a closure, whose line stands in the history as it does in a def statement *)
Definition add_y : lam := Lam [149; 1; 151; 0; 124; 0; 137; 1; 122; 0; 0; 0; 83; 0] ["y"] ["x"] [].
Theorem C94_closure_case :
  find_lambda eval311 code_const add_y ["import os" ++ nl; "def h(y):" ++ nl; "    return lambda x: x+y" ++ nl; "f = h(3)" ++ nl] = (TypeError, 2).
Proof. vm_compute. reflexivity. Qed.
(** lambda y: lambda x: x+y, on a Python whose bytecode for globals and free variables differs in one byte *)
Definition eval38 (t : string) : option (list nat) :=
  if String.eqb t ("lambda x :  x+y" ++ nl) then Some [124; 0; 116; 0; 23; 0; 83; 0] else None.
Theorem C94_double_case :
  find_lambda eval38 code_const (Lam [124; 0; 136; 0; 23; 0; 83; 0] ["y"] ["x"] []) ["import os" ++ nl; "f = lambda y: lambda x: x+y" ++ nl; "g = f(3)" ++ nl] = (Yes, 1).
Proof. vm_compute. reflexivity. Qed.
