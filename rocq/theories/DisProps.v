(** C113: detect.nestedglobals reads the names of globals off the text of dis.dis. *)
From Coq Require Import String Ascii List Bool Arith Lia.
From Verif Require Import PyDict GlobalsModel GlobalsLine DisModel.
Import ListNotations.
Local Open Scope string_scope.

(** ** Specification *)
(** [p] is somewhere in [s] *)
Definition occurs (p s : string) : Prop := exists a b, s = a ++ p ++ b.
(** the instructions that name a global variable *)
Definition global_op (op : string) : Prop := In op ["LOAD_GLOBAL"; "STORE_GLOBAL"; "DELETE_GLOBAL"].
(** the instruction names the global [n]; from 3.11 LOAD_GLOBAL may be shown with NULL *)
Definition names_global (can_null : bool) (i : instr) (n : string) : Prop :=
  global_op (opname i) /\ identifier n /\ n <> "" /\ (argrepr i = n \/ can_null = true /\ (argrepr i = "NULL + " ++ n \/ argrepr i = n ++ " + NULL")).
(** [d] is the code [c] or nested in it at any depth *)
Inductive within : dcode -> dcode -> Prop :=
  | w_here c : within c c
  | w_in c d e : In (Some d) (dconsts c) -> within d e -> within c e.
(** [n] is named as a global somewhere in the code or nested code *)
Definition refers (can_null : bool) (c : dcode) (n : string) : Prop := exists d i, within c d /\ In i (dinstrs d) /\ names_global can_null i n.
(** digits, blanks and marks only *)
Definition plain (s : string) : Prop := has_char "_" s = false.
(** code as the compiler makes it: the columns left of the name and the arguments are numbers, the instructions for globals name one *)
Definition compiled (can_null : bool) (c : dcode) : Prop := forall d i, within c d -> In i (dinstrs d) ->
  plain (left_ i) /\ (forall a, oparg i = Some a -> plain a) /\ (global_op (opname i) -> oparg i <> None /\ exists n, names_global can_null i n).
(** an instruction that names no global, but has the letters _GLOBAL in it: a local variable, an attribute, a constant *)
Definition looks_global (c : dcode) : Prop :=
  exists d, within c d /\ ((exists i, In i (dinstrs d) /\ ~ global_op (opname i) /\ (occurs "_GLOBAL" (opname i) \/ occurs "_GLOBAL" (argrepr i))) \/
                           exists k, In (Some k) (dconsts d) /\ occurs "_GLOBAL" (drepr k)).

(** ** Proof *)
Lemma sapp_assoc : forall a b c, (a ++ b) ++ c = a ++ b ++ c.
Proof. induction a as [|x a IH]; intros; cbn [append]; congruence. Qed.
Lemma infix_occurs p : forall s, infix p s = true <-> occurs p s.
Proof.
  induction s as [|c s IH]; split.
  - cbn [infix]. destruct (strip_prefix p "") as [r|] eqn:E; [|discriminate]. intros _. apply strip_prefix_spec in E. exists "", r. exact E.
  - intros (a & b & E). destruct a; [|discriminate]. destruct p; [reflexivity|discriminate].
  - cbn [infix]. destruct (strip_prefix p (String c s)) as [r|] eqn:E.
    + intros _. apply strip_prefix_spec in E. exists "", r. exact E.
    + intros H. apply IH in H as (a & b & ->). exists (String c a), b. reflexivity.
  - intros (a & b & E). cbn [infix]. destruct (strip_prefix p (String c s)) as [r|] eqn:F; auto. destruct a as [|x a].
    + cbn [append] in E. rewrite E, strip_prefix_app in F. discriminate.
    + cbn [append] in E. injection E as <- E. apply IH. exists a, b. exact E.
Qed.
(** a part of a concatenation around a character that is not in the pattern *)
Lemma occurs_split p ch : has_char ch p = false -> forall s t, occurs p (s ++ String ch t) -> occurs p s \/ occurs p t.
Proof.
  intros Hp. induction s as [|c s IH]; intros t (a & b & E).
  - destruct a as [|x a].
    + destruct p as [|y p]; [left; exists "", ""; reflexivity|]. cbn [append] in E. injection E as <- _. cbn [has_char] in Hp. rewrite Ascii.eqb_refl in Hp. discriminate.
    + cbn [append] in E. injection E as _ E. right. exists a, b. exact E.
  - destruct a as [|x a].
    + left. cbn [append] in E. exists "". cbn [append]. clear IH. assert (G : forall p, has_char ch p = false -> forall s b, s ++ String ch t = p ++ b -> exists b', s = p ++ b').
      { clear. induction p as [|y p IHp]; intros Hp s b E; [now exists s|]. cbn [has_char] in Hp. apply orb_false_iff in Hp as [H1 H2]. destruct s as [|z s]; cbn [append] in E; injection E as E1 E.
        - subst y. now rewrite Ascii.eqb_refl in H1.
        - subst z. destruct (IHp H2 s b E) as (b' & ->). now exists b'. }
      apply (G p Hp (String c s) b). exact E.
    + cbn [append] in E. injection E as <- E. destruct (IH t (ex_intro _ a (ex_intro _ b E))) as [(a' & b' & ->)|H]; auto. left. exists (String c a'), b'. reflexivity.
Qed.
Lemma occurs_char p ch s : has_char ch p = true -> has_char ch s = false -> ~ occurs p s.
Proof. intros Hp Hs (a & b & ->). rewrite !has_char_app, Hp in Hs. cbn in Hs. rewrite orb_true_r in Hs. discriminate. Qed.
Lemma blanks_no ch n : Ascii.eqb " " ch = false -> has_char ch (blanks n) = false.
Proof. intros E. induction n; cbn [blanks has_char]; auto. now rewrite E. Qed.
Lemma occurs_tail p s t : occurs p s -> occurs p (s ++ t).
Proof. intros (a & b & ->). exists a, (b ++ t). now rewrite !sapp_assoc. Qed.
Lemma occurs_head p s t : occurs p t -> occurs p (s ++ t).
Proof. intros (a & b & ->). exists (s ++ a), b. now rewrite !sapp_assoc. Qed.
Lemma occurs_blanks p s n : has_char " " p = false -> p <> "" -> occurs p (s ++ blanks n) -> occurs p s.
Proof.
  intros Hp Ne. revert s. induction n as [|n IH]; intros s H; cbn [blanks] in H; [now rewrite string_app_nil in H|]. apply (occurs_split p " " Hp) in H as [H|H]; auto.
  specialize (IH ""). cbn [append] in IH. destruct (IH H) as (a & b & E). destruct a; [|discriminate]. destruct p; [contradiction|discriminate].
Qed.
Lemma occurs_line i : plain (left_ i) -> (forall a, oparg i = Some a -> plain a) -> occurs "_GLOBAL" (line i) -> occurs "_GLOBAL" (opname i) \/ occurs "_GLOBAL" (argrepr i).
Proof.
  intros L A H. unfold line in H. change (" " ++ ?x) with (String " " x) in H.
  apply (occurs_split "_GLOBAL" " " eq_refl) in H as [H|H]; [now elim (occurs_char "_GLOBAL" "_" _ eq_refl L)|]. destruct (oparg i) as [a|]; [|auto].
  specialize (A a eq_refl). apply (occurs_split "_GLOBAL" " " eq_refl) in H as [H|H].
  { left. apply (occurs_blanks "_GLOBAL" _ _ eq_refl ltac:(discriminate) H). }
  unfold rjust in H. rewrite sapp_assoc in H.
  assert (G : forall n x, occurs "_GLOBAL" (blanks n ++ x) -> occurs "_GLOBAL" x).
  { clear. induction n as [|n IH]; intros x H; [exact H|]. cbn [blanks] in H. change (String " " (blanks n) ++ x) with ("" ++ String " " (blanks n ++ x)) in H.
    apply (occurs_split "_GLOBAL" " " eq_refl) in H as [H|H]; [now elim (occurs_char "_GLOBAL" "_" "" eq_refl eq_refl)|auto]. }
  apply G in H. destruct (String.eqb (argrepr i) "").
  - rewrite string_app_nil in H. now elim (occurs_char "_GLOBAL" "_" _ eq_refl A).
  - change (" (" ++ argrepr i ++ ")") with (String " " (String "(" (argrepr i ++ ")"))) in H. apply (occurs_split "_GLOBAL" " " eq_refl) in H as [H|H]; [now elim (occurs_char "_GLOBAL" "_" _ eq_refl A)|].
    change (String "(" (argrepr i ++ ")")) with ("" ++ String "(" (argrepr i ++ ")")) in H.
    apply (occurs_split "_GLOBAL" "(" eq_refl) in H as [H|H]; [now elim (occurs_char "_GLOBAL" "_" "" eq_refl eq_refl)|].
    apply (occurs_split "_GLOBAL" ")" eq_refl) in H as [H|H]; [auto|now elim (occurs_char "_GLOBAL" "_" "" eq_refl eq_refl)].
Qed.
Lemma global_line i : global_op (opname i) -> occurs "_GLOBAL" (line i).
Proof.
  intros G. assert (H : occurs "_GLOBAL" (opname i)) by (destruct G as [<-|[<-|[<-|[]]]]; [exists "LOAD", ""|exists "STORE", ""|exists "DELETE", ""]; reflexivity).
  unfold line. apply occurs_head, occurs_head. destruct (oparg i); auto. apply occurs_tail. unfold ljust. now apply occurs_tail.
Qed.
Lemma line_name can_null i n : names_global can_null i n -> oparg i <> None -> parse_line can_null (line i) = n.
Proof.
  intros (_ & Id & Ne & F) A. unfold line. destruct (oparg i) as [a|]; [|congruence]. assert (E : String.eqb (argrepr i) "" = false).
  { apply String.eqb_neq. intros E. destruct F as [F|[_ [F|F]]]; rewrite E in F; [auto|discriminate|]. destruct n; [auto|discriminate]. }
  rewrite E. change (" (" ++ argrepr i ++ ")") with (" " ++ "(" ++ argrepr i ++ ")"). rewrite <- !sapp_assoc. set (pre := (((((left_ i ++ " ") ++ ljust 20 (opname i)) ++ " ") ++ rjust 5 a) ++ " ")).
  replace (((pre ++ "(") ++ argrepr i) ++ ")") with (pre ++ "(" ++ argrepr i ++ ")") by (rewrite !sapp_assoc; reflexivity). destruct (C33_names_read pre n Id) as (H1 & H2 & H3 & H4).
  destruct F as [->|[-> [-> | ->]]].
  - destruct can_null; auto.
  - rewrite <- H3 at 2. f_equal.
  - rewrite sapp_assoc. exact H4.
Qed.
Fixpoint dcode_ind' (P : dcode -> Prop) (H : forall r is ks, (forall d, In (Some d) ks -> P d) -> P (DCode r is ks)) (c : dcode) : P c.
Proof.
  destruct c as [r is ks]. apply H. induction ks as [|[k|] ks IH]; intros d I0.
  - destruct I0.
  - destruct I0 as [[= <-]|I0]; [apply dcode_ind'; exact H|apply IH; exact I0].
  - destruct I0 as [[=]|I0]. apply IH. exact I0.
Qed.
Lemma listing_in : forall c x, In x (listing c) <-> (exists d i, within c d /\ In i (dinstrs d) /\ x = line i) \/ (exists d k, within c d /\ In (Some k) (dconsts d) /\ (x = "" \/ x = "Disassembly of " ++ drepr k ++ ":")).
Proof.
  induction c as [r is ks IH] using dcode_ind'. intros x. cbn [listing]. rewrite in_app_iff, in_map_iff, in_flat_map. split.
  - intros [(i & <- & I0)|([k|] & I1 & I2)]; [left; exists (DCode r is ks), i; repeat split; auto; constructor| |destruct I2].
    destruct I2 as [<-|[<-|I2]]; [right; exists (DCode r is ks), k; repeat split; auto; constructor|right; exists (DCode r is ks), k; repeat split; auto; constructor|].
    apply (IH k I1) in I2 as [(d & i & W & I2 & E)|(d & k' & W & I2 & E)]; [left; exists d, i|right; exists d, k']; repeat split; auto; eapply w_in; eauto.
  - intros [(d & i & W & I0 & ->)|(d & k & W & I0 & E)]; inversion W as [c0|c0 e d0 I1 W']; subst.
    + left. eauto.
    + right. exists (Some e). split; auto. right. right. apply (IH e I1). left. eauto.
    + right. exists (Some k). split; auto. destruct E as [-> | ->]; [left|right; left]; reflexivity.
    + right. exists (Some e). split; auto. right. right. apply (IH e I1). right. exists d, k. auto.
Qed.
Lemma text_globals_in can_null : forall c recurse n, In n (text_globals can_null recurse c) <-> exists x, In x (listing c) /\ occurs "_GLOBAL" x /\ n = parse_line can_null x.
Proof.
  assert (B : forall c n, In n (names_on can_null (listing c)) <-> exists x, In x (listing c) /\ occurs "_GLOBAL" x /\ n = parse_line can_null x).
  { intros c n. unfold names_on. rewrite in_map_iff. split.
    - intros (x & <- & F). apply filter_In in F as [F1 F2]. apply infix_occurs in F2. eauto.
    - intros (x & I0 & O & ->). exists x. split; auto. apply filter_In. split; auto. now apply infix_occurs. }
  induction c as [r is ks IH] using dcode_ind'. intros recurse n. split.
  - unfold text_globals; fold text_globals. rewrite in_app_iff. intros [I0|I0]; [now apply B|]. destruct recurse; [|destruct I0]. apply in_flat_map in I0 as ([k|] & I1 & I2); [|destruct I2].
    apply (IH k I1) in I2 as (x & I2 & O & ->). exists x. split; auto. cbn [listing]. apply in_or_app. right. apply in_flat_map. exists (Some k). split; auto. right. right. exact I2.
  - intros H. unfold text_globals; fold text_globals. apply in_or_app. left. now apply B.
Qed.

(** ** C113 *)
(** no global is missed: every name that an instruction of the code, or of code nested in it, refers to as a global *)
Theorem C113_complete : forall can_null recurse c n, compiled can_null c -> refers can_null c n -> In n (text_globals can_null recurse c).
Proof.
  intros can_null recurse c n C (d & i & W & I0 & N). apply text_globals_in. exists (line i). split; [apply listing_in; left; eauto|]. split; [apply global_line, N|].
  symmetry. destruct (C d i W I0) as (_ & _ & G). apply line_name; auto. apply G, N.
Qed.
(** what is given is such a name, or the text has the letters _GLOBAL somewhere else *)
Theorem C113_sound : forall can_null recurse c n, compiled can_null c -> In n (text_globals can_null recurse c) -> refers can_null c n \/ looks_global c.
Proof.
  intros can_null recurse c n C H. apply text_globals_in in H as (x & I0 & O & ->). apply listing_in in I0 as [(d & i & W & I0 & ->)|(d & k & W & I0 & E)].
  - destruct (C d i W I0) as (L & A & G). assert (Dec : global_op (opname i) \/ ~ global_op (opname i)).
    { unfold global_op. destruct (in_dec string_dec (opname i) ["LOAD_GLOBAL"; "STORE_GLOBAL"; "DELETE_GLOBAL"]); auto. }
    destruct Dec as [D|D].
    + destruct (G D) as (Na & n & N). left. rewrite (line_name can_null i n N Na). exists d, i. auto.
    + right. exists d. split; auto. left. exists i. repeat split; auto. apply occurs_line; auto.
  - right. exists d. split; auto. right. exists k. split; auto. destruct E as [-> | ->]; [now elim (occurs_char "_GLOBAL" "_" "" eq_refl eq_refl)|].
    change ("Disassembly of " ++ drepr k ++ ":") with ("Disassembly of" ++ String " " (drepr k ++ String ":" "")) in O.
    apply (occurs_split "_GLOBAL" " " eq_refl) in O as [O|O]; [now elim (occurs_char "_GLOBAL" "_" "Disassembly of" eq_refl eq_refl)|].
    apply (occurs_split "_GLOBAL" ":" eq_refl) in O as [O|O]; [auto|now elim (occurs_char "_GLOBAL" "_" "" eq_refl eq_refl)].
Qed.
(** so without those letters elsewhere it is exact *)
Theorem C113_exact_partial : forall can_null recurse c, compiled can_null c -> ~ looks_global c -> forall n, In n (text_globals can_null recurse c) <-> refers can_null c n.
Proof. intros can_null recurse c C Q n. split; [|now apply C113_complete]. intros H. destruct (C113_sound _ _ _ _ C H); [auto|contradiction]. Qed.
(** the argument recurse changes nothing: dis.dis goes into nested code by itself *)
Theorem C113_recurse : forall can_null c n, In n (text_globals can_null false c) <-> In n (text_globals can_null true c).
Proof. intros. now rewrite !text_globals_in. Qed.
(** REFUTED as stated: a local variable called MY_GLOBAL is taken for a global, and a text constant brings in whatever its parentheses say *)
Definition local_code : dcode := DCode "<code object f at 0x7f0, file ""m.py"", line 1>"
  [Ins "  2           2" "LOAD_CONST" (Some "1") "2"; Ins "              4" "STORE_FAST" (Some "0") "MY_GLOBAL"; Ins "  3           6" "LOAD_FAST" (Some "0") "MY_GLOBAL"; Ins "              8" "RETURN_VALUE" None ""] [None].
Definition const_code : dcode := DCode "<code object f at 0x7f0, file ""m.py"", line 1>"
  [Ins "  2           2" "LOAD_CONST" (Some "1") "'set LOG_GLOBAL (os)'"; Ins "              4" "RETURN_VALUE" None ""] [None].
Theorem C113_letters_refuted : forall c n, (c, n) = (local_code, "MY_GLOBAL") \/ (c, n) = (const_code, "os") ->
  compiled true c /\ In n (text_globals true true c) /\ ~ (exists m, refers true c m) /\ forall v, pick (text_globals true true c) [(n, v)] = [(n, v)].
Proof.
  assert (W : forall r is d, within (DCode r is [None]) d -> d = DCode r is [None]) by (intros r is d W; inversion W as [|? ? ? I0]; subst; auto; destruct I0 as [[=]|[]]).
  intros c n [[= -> ->]|[= -> ->]]; (split; [|split; [|split]]).
  1, 5: intros d i Wd I0; apply W in Wd; subst d; cbn in I0; repeat destruct I0 as [<-|I0]; try destruct I0;
    (split; [reflexivity|split; [intros a [= <-]; reflexivity|intros [G|[G|[G|[]]]]; discriminate]]).
  1, 4: vm_compute; tauto.
  1, 3: intros (m & d & i & Wd & I0 & [G|[G|[G|[]]]] & _); apply W in Wd; subst d; cbn in I0; repeat destruct I0 as [<-|I0]; try destruct I0; discriminate.
  all: intros v; vm_compute; reflexivity.
Qed.
(** a function with a nested one meets the hypotheses: def f(): y = 2 (global y); def g(): return print(open) *)
Definition case_code : dcode := DCode "<code object f at 0x7f0, file ""m.py"", line 1>"
  [Ins "  2           2" "LOAD_CONST" (Some "1") "2"; Ins "              4" "STORE_GLOBAL" (Some "0") "y"; Ins "              6" "LOAD_CONST" (Some "2") "<code object g at 0x7f8, file ""m.py"", line 3>"]
  [None; Some (DCode "<code object g at 0x7f8, file ""m.py"", line 3>" [Ins "  4           2" "LOAD_GLOBAL" (Some "1") "NULL + print"; Ins "             14" "LOAD_GLOBAL" (Some "2") "open"; Ins "             26" "RETURN_VALUE" None ""] [])].
Theorem C113_case : compiled true case_code /\ ~ looks_global case_code /\ refers true case_code "print" /\ text_globals true false case_code = ["y"; "print"; "open"].
Proof.
  assert (W : forall d, within case_code d -> d = case_code \/ In (Some d) (dconsts case_code)).
  { intros d W. inversion W as [|? e ? I0 W']; subst; auto. right. destruct I0 as [[=]|[E|[]]]. injection E as <-. inversion W' as [|? ? ? I1]; subst; [right; left; reflexivity|destruct I1]. }
  split; [|split; [|split]].
  - intros d i Wd I0. apply W in Wd as [-> |[[=]|[E|[]]]]; [|injection E as <-]; cbn in I0; repeat destruct I0 as [<-|I0]; try destruct I0;
      (split; [reflexivity|split; [intros a [= <-]; reflexivity|]]); intros [G|[G|[G|[]]]]; try discriminate; (split; [discriminate|]);
      [exists "y"|exists "print"|exists "open"]; (split; [cbn; tauto|split; [repeat split|split; [discriminate|]]]); auto.
  - intros (d & Wd & H). assert (B : forall s, occurs "_GLOBAL" s -> infix "_GLOBAL" s = true) by (intros; now apply infix_occurs).
    destruct H as [(i & I0 & G & [O|O])|(k & I0 & O)]; apply B in O; apply W in Wd as [-> |[[=]|[E|[]]]]; try (injection E as <-); cbn in I0; repeat destruct I0 as [<-|I0]; try destruct I0;
      try (vm_compute in O; discriminate); try (apply G; cbn; tauto); try discriminate.
    destruct H as [[= <-]|[]]. vm_compute in O. discriminate.
  - exists (DCode "<code object g at 0x7f8, file ""m.py"", line 3>" [Ins "  4           2" "LOAD_GLOBAL" (Some "1") "NULL + print"; Ins "             14" "LOAD_GLOBAL" (Some "2") "open"; Ins "             26" "RETURN_VALUE" None ""] []).
    eexists. split; [eapply w_in; [right; left; reflexivity|constructor]|]. split; [left; reflexivity|]. split; [cbn; tauto|]. split; [repeat split|]. split; [discriminate|]. right. auto.
  - vm_compute. reflexivity.
Qed.
