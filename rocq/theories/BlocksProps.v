(** C74: getsource, enclosing=True, gives the source of the outermost enclosing function. *)
From Coq Require Import String Ascii List Bool Arith Lia.
From Verif Require Import CheckModel FindModel FindProps BlocksModel.
Import ListNotations.
Local Open Scope string_scope.

(** ** specification *)
Section Spec.
  Variable lines : list string.
  Variable blen : nat -> nat.
  (** a line that has a def statement or a lambda; a decorator *)
  Definition opens (i : nat) : Prop := pat1 (nth i lines "") = true.
  Definition decorator (i : nat) : Prop := is_decorator (nth i lines "").
  (** the decorators of the function whose def statement is line [e] begin at line [s] *)
  Definition heads (s e : nat) : Prop := s <= e /\ (forall j, s <= j < e -> decorator j) /\ (s = 0 \/ ~ decorator (s - 1)).
  (** decorators are one line each, and the block that begins at one goes to the end of what is decorated *)
  Definition one_line_decorators : Prop := forall i, decorator i ->
    exists k, 1 <= k /\ (forall j, i <= j < i + k -> decorator j) /\ ~ decorator (i + k) /\ k < blen i /\ (opens (i + k) -> blen i = k + blen (i + k)).
End Spec.
Definition part_of (t s : string) : Prop := exists a b, s = a ++ t ++ b.

(** ** lemmas *)
Lemma pat2_dec lines i : pat2 (line lines i) = true <-> decorator lines i.
Proof. unfold pat2, line, decorator. apply m_at_spec. Qed.
Lemma pat2_ndec lines i : ~ decorator lines i -> pat2 (line lines i) = false.
Proof. intro H. destruct (pat2 (line lines i)) eqn:E; [|reflexivity]. apply pat2_dec in E. contradiction. Qed.

Lemma concat_app : forall a b : list string, String.concat "" (a ++ b)%list = String.concat "" a ++ String.concat "" b.
Proof.
  induction a as [|x a IH]; intro b; [reflexivity|]. destruct a as [|y a].
  - cbn [app String.concat]. destruct b as [|y b]; [|reflexivity]. clear. cbn [String.concat]. induction x as [|c x IHx]; [reflexivity|]. cbn [String.append]. congruence.
  - cbn [app] in *. change (String.concat "" (x :: y :: (a ++ b)%list)) with (x ++ "" ++ String.concat "" (y :: (a ++ b)%list)).
    change (String.concat "" (x :: y :: a)) with (x ++ "" ++ String.concat "" (y :: a)). rewrite IH. cbn [String.append].
    clear. induction x as [|c x IHx]; [reflexivity|]. cbn [String.append]. congruence.
Qed.
Lemma skip_skip (A : Type) : forall b a (l : list A), skipn a (skipn b l) = skipn (a + b) l.
Proof. induction b as [|b IH]; intros a l; [rewrite Nat.add_0_r; reflexivity|]. destruct l as [|x l]; [rewrite !skipn_nil; reflexivity|]. rewrite Nat.add_succ_r. cbn [skipn]. apply IH. Qed.
Lemma text_part lines s n a k : s <= a -> a + k <= s + n -> contains (text lines a k) (text lines s n) = true.
Proof.
  intros A B. apply contains_spec. unfold text.
  set (l := skipn s lines). assert (skipn a lines = skipn (a - s) l) as ->.
  { unfold l. rewrite skip_skip. f_equal. lia. }
  assert (firstn n l = firstn (a - s) l ++ firstn k (skipn (a - s) l) ++ firstn (n - (a - s) - k) (skipn k (skipn (a - s) l)))%list as ->.
  { rewrite <- (firstn_skipn (a - s) l) at 1. rewrite firstn_app. rewrite firstn_firstn. replace (Nat.min n (a - s)) with (a - s) by lia. f_equal.
    destruct (Nat.le_gt_cases (a - s) (List.length l)) as [H|H].
    - rewrite firstn_length_le by exact H. set (m := skipn (a - s) l). rewrite <- (firstn_skipn k m) at 1. rewrite firstn_app, firstn_firstn.
      replace (Nat.min (n - (a - s)) k) with k by lia. f_equal.
      destruct (Nat.le_gt_cases k (List.length m)) as [J|J]; [rewrite firstn_length_le by exact J; reflexivity|].
      rewrite skipn_all2 by lia. rewrite !firstn_nil. reflexivity.
    - rewrite skipn_all2 by lia. rewrite skipn_nil, !firstn_nil. reflexivity. }
  rewrite !concat_app. eauto.
Qed.
Lemma contains_refl s : contains s s = true.
Proof. apply contains_spec. exists "", "". cbn [String.append]. clear. induction s as [|c s IH]; [reflexivity|]. cbn [String.append]. congruence. Qed.

Lemma more_hats_le lines : forall n a, more_hats lines a n <= n.
Proof. induction n; intro a; cbn; [lia|]. destruct (pat2 _); [specialize (IHn (S a)); lia|lia]. Qed.
Lemma more_hats_run lines : forall n a k, (forall j, a <= j < a + k -> decorator lines j) -> ~ decorator lines (a + k) -> k <= n -> more_hats lines a n = k.
Proof.
  induction n as [|n IH]; intros a k D N L; cbn [more_hats]; [lia|].
  destruct k as [|k]; [rewrite pat2_ndec by (rewrite Nat.add_0_r in N; exact N); reflexivity|].
  assert (pat2 (line lines a) = true) as -> by (apply pat2_dec, D; lia). f_equal. apply IH; [intros j J; apply D; lia| |lia].
  replace (S a + k) with (a + S k) by lia. exact N.
Qed.

(** ** it ends *)
Lemma scan_ends lines blen target indent lnum : (forall i, 1 <= blen i) ->
  forall fuel l skip cs cl acc, skip <= cl -> 2 * (lnum + 1 - l) + (if Nat.eqb skip 0 then 0 else 1) < fuel -> scan lines blen fuel target indent lnum l skip cs cl acc <> None.
Proof.
  intro B. induction fuel as [|fuel IH]; intros l skip cs cl acc S F; [lia|]. cbn [scan].
  destruct (Nat.ltb_spec lnum l); [discriminate|].
  destruct (pat1 (line lines l)).
  - destruct (Nat.eqb_spec skip 0) as [->|K].
    + specialize (B l). destruct (Nat.ltb _ _); [|destruct (contains _ _)]; apply IH; cbn [Nat.eqb]; lia.
    + destruct (Nat.ltb _ _); [|destruct (contains _ _)]; apply IH; cbn [Nat.eqb]; lia.
  - destruct (pat2 (line lines l)).
    + cbv zeta. set (m := more_hats lines (l + 1) (blen l - 1)). assert (m <= blen l - 1) by apply more_hats_le. specialize (B l).
      apply IH; [lia|]. destruct (Nat.eqb_spec (1 + m) 0); lia.
    + apply IH; cbn [Nat.eqb]; lia.
Qed.
(** for every text, and however long the blocks of code are taken to be *)
Theorem C74_ends : forall lines blen enclosing lnum fuel, (forall i, 1 <= blen i) -> 2 * lnum + 2 < fuel -> exists s n r, getsourcelines lines blen fuel enclosing lnum = Some (s, n, r).
Proof.
  intros lines blen enclosing lnum fuel B F. unfold getsourcelines.
  assert (getblocks lines blen fuel enclosing lnum <> None) as H.
  { unfold getblocks. destruct (_ || _); [discriminate|].
    destruct (scan _ _ _ _ _ _ _ _ _ _ _) as [[|]|] eqn:E; try discriminate. exfalso. revert E. apply scan_ends; [exact B|lia|cbn [Nat.eqb]; lia]. }
  destruct (getblocks _ _ _ _ _) as [bs|]; [|contradiction]. destruct (last bs (0, 0, 0)) as [[s n] r]. eauto.
Qed.

(** ** what is given has the source of the object in it, and the line number is that of its first line *)
Definition good (lines : list string) (target : string) (b : nat * nat * nat) : Prop := let '(s, n, r) := b in r = s /\ contains target (text lines s n) = true.
Lemma scan_good lines blen target indent lnum : forall fuel l skip cs cl acc bs, (skip <> 0 -> cs + skip = l) -> Forall (good lines target) acc ->
  scan lines blen fuel target indent lnum l skip cs cl acc = Some bs -> Forall (good lines target) bs.
Proof.
  induction fuel as [|fuel IH]; intros l skip cs cl acc bs S A; [discriminate|]. cbn [scan].
  destruct (Nat.ltb_spec lnum l); [intro E; injection E as <-; exact A|].
  destruct (pat1 (line lines l)).
  - destruct (Nat.eqb_spec skip 0) as [->|K].
    + destruct (Nat.ltb _ _); [|destruct (contains _ _) eqn:C]; apply IH; try (intro; exfalso; lia); auto.
      apply Forall_app; split; [exact A|]. constructor; [|constructor]. split; [lia|exact C].
    + destruct (Nat.ltb _ _); [|destruct (contains _ _) eqn:C]; apply IH; try (intro; exfalso; lia); auto.
      apply Forall_app; split; [exact A|]. constructor; [|constructor]. split; [specialize (S K); lia|exact C].
  - destruct (pat2 (line lines l)); cbv zeta; apply IH; auto; intro; lia.
Qed.
Lemma last_Forall (A : Type) (P : A -> Prop) d : forall l, Forall P l -> l <> [] -> P (last l d).
Proof. induction l as [|x l IH]; intros F N; [contradiction|]. inversion_clear F. destruct l as [|y l]; [assumption|]. apply IH; [assumption|discriminate]. Qed.
Theorem C74_has_it : forall lines blen enclosing lnum fuel s n r, getsourcelines lines blen fuel enclosing lnum = Some (s, n, r) ->
  part_of (text lines lnum (blen lnum)) (text lines s n) /\ r = s.
Proof.
  intros lines blen enclosing lnum fuel s n r. unfold getsourcelines. destruct (getblocks _ _ _ _ _) as [bs|] eqn:E; [|discriminate].
  set (t := text lines lnum (blen lnum)). assert (Forall (good lines t) bs /\ bs <> []) as [F N].
  { revert E. unfold getblocks. fold t. assert (Forall (good lines t) [(lnum, blen lnum, lnum)]) as O.
    { constructor; [|constructor]. split; [reflexivity|apply contains_refl]. }
    destruct (_ || _); [intro E; injection E as <-; split; [exact O|discriminate]|].
    destruct (scan _ _ _ _ _ _ _ _ _ _ _) as [[|b l]|] eqn:S; intro E; try discriminate E; injection E as <-; (split; [|discriminate]); [exact O|].
    eapply scan_good; [| |exact S]; [lia|constructor]. }
  intro L. injection L as L. pose proof (last_Forall _ _ (0, 0, 0) _ F N) as G. rewrite L in G. destruct G as [G C]. apply contains_spec in C. split; [exact C|exact G].
Qed.

(** ** enclosing=False, or code that is not indented *)
Theorem C74_own : forall lines blen enclosing lnum fuel, enclosing = false \/ indentsize (nth lnum lines "") = 0 ->
  getsourcelines lines blen fuel enclosing lnum = Some (lnum, blen lnum, lnum).
Proof.
  intros lines blen enclosing lnum fuel H. unfold getsourcelines, getblocks, line.
  assert (negb enclosing || Nat.eqb (indentsize (nth lnum lines "")) 0 = true) as -> by (destruct H as [->| ->]; [reflexivity|apply orb_true_r]). reflexivity.
Qed.

(** ** the outermost function *)
Section Enclosing.
  Variables (lines : list string) (blen : nat -> nat) (lnum s e : nat).
  Hypothesis W1 : forall i, 1 <= blen i.
  Hypothesis W2 : one_line_decorators lines blen.
  Hypothesis OP : opens lines e.
  Hypothesis HD : heads lines s e.
  Hypothesis IN : e <= lnum < e + blen e.
  Hypothesis FIT : lnum + blen lnum <= e + blen e.
  Hypothesis FIRST : forall d, d < s -> opens lines d -> d + blen d <= s.
  Hypothesis IND : indentsize (nth e lines "") <= indentsize (nth lnum lines "") /\ indentsize (nth s lines "") <= indentsize (nth lnum lines "").
  Notation indent := (indentsize (line lines lnum)).
  Notation target := (text lines lnum (blen lnum)).
  Notation answer := (s, e - s + blen e, s).

  Lemma run_to_e : decorator lines s -> s < e -> ~ decorator lines e -> blen s = e - s + blen e /\ more_hats lines (s + 1) (blen s - 1) = e - s - 1.
  Proof.
    intros D L N. destruct (W2 s D) as (k & K1 & K2 & K3 & K4 & K5). destruct HD as (H1 & H2 & H3).
    assert (s + k = e) as E. { destruct (Nat.lt_trichotomy (s + k) e) as [X|[X|X]]; [|exact X|]; exfalso; [apply K3, H2; lia|apply N, K2; lia]. }
    rewrite E in K5. split; [rewrite K5 by exact OP; lia|]. apply more_hats_run; [intros j J; apply H2; lia| |lia].
    replace (s + 1 + (e - s - 1)) with e by lia. exact N.
  Qed.
  Hypothesis NE : ~ decorator lines e.

  Lemma reach : forall fuel l cs cl acc, l <= s -> 2 * (lnum + 1 - l) < fuel ->
    exists acc', scan lines blen fuel target indent lnum l 0 cs cl acc = Some (acc' ++ [answer])%list.
  Proof.
    pose proof HD as (H1 & H2 & H3).
    induction fuel as [fuel IH] using lt_wf_ind; intros l cs cl acc L F. destruct fuel as [|fuel]; [lia|]. cbn [scan].
    destruct (Nat.ltb_spec lnum l); [lia|].
    destruct (Nat.eq_dec l s) as [->|NL].
    - destruct (pat1 (line lines s)) eqn:P1.
      + cbn [Nat.eqb]. change (line lines s) with (nth s lines ""). change (line lines lnum) with (nth lnum lines "").
        destruct (Nat.ltb_spec (indentsize (nth lnum lines "")) (indentsize (nth s lines ""))); [lia|].
        assert (blen s = e - s + blen e) as B.
        { destruct (Nat.eq_dec s e) as [->|X]; [lia|]. apply run_to_e; [apply H2; lia|lia|exact NE]. }
        rewrite B, text_part by lia. destruct fuel as [|fuel]; [lia|]. cbn [scan].
        destruct (Nat.ltb_spec lnum (s + (e - s + blen e) - 0)); [|lia]. rewrite Nat.sub_0_r. eauto.
      + destruct (Nat.eq_dec s e) as [X|X]; [unfold opens, line in *; rewrite <- X in OP; congruence|].
        assert (decorator lines s) as D by (apply H2; lia). destruct (run_to_e D) as [B R]; [lia|exact NE|].
        assert (pat2 (line lines s) = true) as -> by (apply pat2_dec; exact D). cbv zeta. rewrite R.
        replace (1 + (e - s - 1)) with (e - s) by lia. replace (s + (e - s)) with e by lia.
        destruct fuel as [|fuel]; [lia|]. cbn [scan]. destruct (Nat.ltb_spec lnum e); [lia|].
        unfold opens in OP. change (line lines e) with (nth e lines ""). rewrite OP. destruct (Nat.eqb_spec (e - s) 0); [lia|].
        change (line lines lnum) with (nth lnum lines "").
        destruct (Nat.ltb_spec (indentsize (nth lnum lines "")) (indentsize (nth e lines ""))); [lia|].
        rewrite B, text_part by lia. destruct fuel as [|fuel]; [lia|]. cbn [scan].
        destruct (Nat.ltb_spec lnum (e + (e - s + blen e) - (e - s))); [|lia]. replace (e - (e - s)) with s by lia. eauto.
    - destruct (pat1 (line lines l)) eqn:P1.
      + cbn [Nat.eqb]. assert (l + blen l <= s) by (apply FIRST; [lia|exact P1]). pose proof (W1 l).
        destruct (Nat.ltb _ _); [|destruct (contains _ _)]; apply IH; lia.
      + destruct (pat2 (line lines l)) eqn:P2; [|apply IH; lia].
        apply pat2_dec in P2. destruct (W2 l P2) as (k & K1 & K2 & K3 & K4 & K5). cbv zeta.
        rewrite (more_hats_run lines (blen l - 1) (l + 1) (k - 1)); [|intros j J; apply K2; lia|replace (l + 1 + (k - 1)) with (l + k) by lia; exact K3|lia].
        replace (1 + (k - 1)) with k by lia.
        assert (l + k < s) as LK.
        { destruct (Nat.lt_ge_cases (l + k) s) as [X|X]; [exact X|]. exfalso. destruct H3 as [->|H3]; [lia|]. apply H3, K2. lia. }
        destruct fuel as [|fuel]; [lia|]. cbn [scan]. destruct (Nat.ltb_spec lnum (l + k)); [lia|].
        destruct (pat1 (line lines (l + k))) eqn:P3.
        * destruct (Nat.eqb_spec k 0); [lia|]. assert (l + k + blen (l + k) <= s) by (apply FIRST; [lia|exact P3]). rewrite (K5 P3). pose proof (W1 (l + k)).
          destruct (Nat.ltb _ _); [|destruct (contains _ _)]; apply IH; lia.
        * rewrite (pat2_ndec _ _ K3). apply IH; lia.
  Qed.
End Enclosing.
(** the object whose source begins at line [lnum], in or at the function whose def statement is line [e] and whose decorators begin at line [s]; what begins before [s] has
    ended there: the source given is that of the function at [e], with its decorators *)
Theorem C74_enclosing_partial : forall lines blen lnum s e fuel, (forall i, 1 <= blen i) -> one_line_decorators lines blen ->
  opens lines e -> ~ decorator lines e -> heads lines s e -> e <= lnum < e + blen e -> lnum + blen lnum <= e + blen e ->
  (forall d, d < s -> opens lines d -> d + blen d <= s) ->
  indentsize (nth e lines "") <= indentsize (nth lnum lines "") -> indentsize (nth s lines "") <= indentsize (nth lnum lines "") -> 0 < indentsize (nth lnum lines "") ->
  2 * lnum + 2 < fuel -> getsourcelines lines blen fuel true lnum = Some (s, e - s + blen e, s).
Proof.
  intros lines blen lnum s e fuel W1 W2 OP NE HD IN FIT FIRST I1 I2 I0 F. unfold getsourcelines, getblocks.
  change (line lines lnum) with (nth lnum lines "") at 1. destruct (Nat.eqb_spec (indentsize (nth lnum lines "")) 0); [lia|]. cbn [negb orb].
  destruct (reach lines blen lnum s e W1 W2 OP HD IN FIT FIRST (conj I1 I2) NE fuel 0 0 0 [] (Nat.le_0_l _)) as (acc & ->); [lia|].
  destruct (acc ++ [(s, e - s + blen e, s)])%list eqn:E; [destruct acc; discriminate|]. rewrite <- E. rewrite last_last. reflexivity.
Qed.

(** ** no enclosing function, and no earlier one with such text in it *)
Lemma scan_none lines blen lnum target indent :
  (forall l s, l <= lnum -> opens lines l -> indentsize (nth l lines "") <= indent -> s <= l -> (forall j, s <= j < l -> decorator lines j) -> ~ part_of target (text lines s (blen s))) ->
  forall fuel l skip cs cl acc, (skip <> 0 -> cs + skip = l /\ cl = blen cs /\ forall j, cs <= j < l -> decorator lines j) ->
  scan lines blen fuel target indent lnum l skip cs cl acc = None \/ scan lines blen fuel target indent lnum l skip cs cl acc = Some acc.
Proof.
  intro H. induction fuel as [|fuel IH]; intros l skip cs cl acc S; [left; reflexivity|]. cbn [scan].
  destruct (Nat.ltb_spec lnum l); [right; reflexivity|].
  destruct (pat1 (line lines l)) eqn:P1.
  - destruct (Nat.eqb_spec skip 0) as [->|K].
    + destruct (Nat.ltb_spec indent (indentsize (line lines l))); [apply IH; lia|].
      destruct (contains _ _) eqn:C; [|apply IH; lia]. exfalso. apply contains_spec in C. apply (H l l); auto; intros; lia.
    + destruct (S K) as (E1 & E2 & E3). destruct (Nat.ltb_spec indent (indentsize (line lines l))); [apply IH; lia|].
      destruct (contains _ _) eqn:C; [|apply IH; lia]. exfalso. apply contains_spec in C. subst cl. apply (H l cs); auto; lia.
  - destruct (pat2 (line lines l)) eqn:P2; cbv zeta; [|apply IH; lia]. apply IH. intros _. split; [lia|split; [reflexivity|]].
    assert (forall n a j, a <= j < a + more_hats lines a n -> decorator lines j) as G.
    { induction n as [|n IHn]; intros a j; cbn [more_hats]; [lia|]. destruct (pat2 (line lines a)) eqn:Q; [|lia]. intro J.
      destruct (Nat.eq_dec j a) as [->|N]; [apply pat2_dec; exact Q|]. apply (IHn (Datatypes.S a)). lia. }
    intros j J. destruct (Nat.eq_dec j l) as [->|N]; [apply pat2_dec; exact P2|]. apply (G (blen l - 1) (l + 1)). lia.
Qed.
Theorem C74_alone_partial : forall lines blen lnum fuel, (forall i, 1 <= blen i) -> 2 * lnum + 2 < fuel ->
  (forall l s, l <= lnum -> opens lines l -> s <= l -> (forall j, s <= j < l -> decorator lines j) -> indentsize (nth l lines "") <= indentsize (nth lnum lines "") ->
     ~ part_of (text lines lnum (blen lnum)) (text lines s (blen s))) ->
  getsourcelines lines blen fuel true lnum = Some (lnum, blen lnum, lnum).
Proof.
  intros lines blen lnum fuel W1 F H. destruct (C74_ends lines blen true lnum fuel W1 F) as (s & n & r & E). revert E. unfold getsourcelines, getblocks.
  destruct (_ || _); [reflexivity|].
  destruct (scan_none lines blen lnum (text lines lnum (blen lnum)) (indentsize (line lines lnum))) with (fuel := fuel) (l := 0) (skip := 0) (cs := 0) (cl := 0) (acc := @nil (nat * nat * nat)) as [-> | ->];
    [intros; apply (H l s0); assumption|lia|discriminate|reflexivity].
Qed.

(** ** refutations *)
Definition nths (l : list nat) (i : nat) : nat := nth i l 1.
(** REFUTED: a decorated method of a class, and an earlier function with the same text in it: the source given for the method is that of the function *)
Definition t_method : list string := ["def make():" ++ nl; "    @property" ++ nl; "    def m(self): return 1" ++ nl; "    return m" ++ nl; "class B:" ++ nl; "    @property" ++ nl; "    def m(self): return 1" ++ nl].
Definition n_method : list nat := [4; 2; 1; 1; 3; 2; 1].
Theorem C74_method_refuted : exists lines blen lnum s n, getsourcelines lines blen 100 true lnum = Some (s, n, s) /\
  nth s lines "" = "def make():" ++ nl /\ s + n <= lnum /\ nth lnum lines "" = "    @property" ++ nl.
Proof. exists t_method, (nths n_method), 5, 0, 4. vm_compute. repeat split; auto. Qed.
(** REFUTED: a class, and the same text in an earlier function, with more indentation *)
Definition t_class : list string := ["def make():" ++ nl; "    class A: pass" ++ nl; "    return A" ++ nl; "if True:" ++ nl; "  class A: pass" ++ nl].
Definition n_class : list nat := [3; 1; 1; 1; 1].
Theorem C74_class_refuted : exists lines blen lnum s n, find_class lines "A" = Some lnum /\ getsourcelines lines blen 100 true lnum = Some (s, n, s) /\
  nth s lines "" = "def make():" ++ nl /\ s + n <= lnum.
Proof. exists t_class, (nths n_class), 4, 0, 3. vm_compute. repeat split; auto. Qed.
(** REFUTED: the word lambda in a comment: what follows, to the end of the class, is given as the enclosing function of the method *)
Definition t_comment : list string := ["# a lambda would do here" ++ nl; "x = 1" ++ nl; "class B:" ++ nl; "    def m(self):" ++ nl; "        return x" ++ nl].
Definition n_comment : list nat := [5; 1; 3; 2; 1].
Theorem C74_comment_refuted : exists lines blen lnum, getsourcelines lines blen 100 true lnum = Some (0, 5, 0) /\ nth 0 lines "" = "# a lambda would do here" ++ nl /\
  nth lnum lines "" = "    def m(self):" ++ nl /\ blen lnum = 2.
Proof. exists t_comment, (nths n_comment), 3. vm_compute. repeat split; auto. Qed.
(** REFUTED: an enclosing async def is not given *)
Definition t_async : list string := ["async def outer():" ++ nl; "    def inner():" ++ nl; "        return 1" ++ nl; "    return inner" ++ nl].
Definition n_async : list nat := [4; 2; 1; 1].
Theorem C74_async_refuted : exists lines blen lnum, getsourcelines lines blen 100 true lnum = Some (1, 2, 1) /\ lnum = 1 /\ nth 0 lines "" = "async def outer():" ++ nl /\ lnum + blen lnum <= blen 0.
Proof. exists t_async, (nths n_async), 1. vm_compute. repeat split; auto. Qed.

(** ** an example that meets the hypotheses: a function in a decorated function, after other code *)
Definition t_ex : list string := ["import os" ++ nl; "@a" ++ nl; "class C:" ++ nl; "    def m(self): pass" ++ nl; "@d" ++ nl; "@d" ++ nl; "def f():" ++ nl;
  "    def g():" ++ nl; "        return 1" ++ nl; "    return g" ++ nl].
Definition n_ex : list nat := [1; 3; 2; 1; 6; 5; 4; 2; 1; 1].
Theorem C74_ex : (forall i, 1 <= nths n_ex i) /\ one_line_decorators t_ex (nths n_ex) /\ opens t_ex 6 /\ ~ decorator t_ex 6 /\ heads t_ex 4 6 /\
  (forall d, d < 4 -> opens t_ex d -> d + nths n_ex d <= 4) /\ getsourcelines t_ex (nths n_ex) 100 true 7 = Some (4, 6, 4).
Proof.
  assert (forall i, decorator t_ex i -> i = 1 \/ i = 4 \/ i = 5) as D.
  { intros i H. apply pat2_dec in H. do 10 (destruct i as [|i]; [vm_compute in H; try discriminate; auto|]). exfalso. unfold line in H. rewrite nth_overflow in H by (cbn; lia). discriminate. }
  assert (decorator t_ex 1 /\ decorator t_ex 4 /\ decorator t_ex 5) as (D1 & D4 & D5) by (repeat split; apply pat2_dec; reflexivity).
  split; [|split; [|split; [|split; [|split; [|split]]]]].
  - intro i. do 10 (destruct i as [|i]; [cbn; lia|]). unfold nths. rewrite nth_overflow by (cbn; lia). lia.
  - intros i H. destruct (D i H) as [->|[->| ->]]; [exists 1|exists 2|exists 1]; (split; [lia|]); (split; [|split; [intro X; apply D in X; lia|split; [cbn; lia|cbn; intro X; try reflexivity; vm_compute in X; discriminate X]]]).
    + intros j J. replace j with 1 by lia. exact D1.
    + intros j J. assert (j = 4 \/ j = 5) as [->| ->] by lia; assumption.
    + intros j J. replace j with 5 by lia. exact D5.
  - reflexivity.
  - intro X; apply D in X; lia.
  - split; [lia|]. split; [|right; intro X; apply D in X; cbn in X; lia]. intros j J. assert (j = 4 \/ j = 5) as [->| ->] by lia; assumption.
  - intros d L. do 4 (destruct d as [|d]; [cbn; lia|]). lia.
  - reflexivity.
Qed.
