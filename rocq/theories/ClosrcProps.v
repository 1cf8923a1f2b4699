(** C88: the source text that importable gives for a closure, executed, defines the function and everything it refers to. *)
From Coq Require Import String Ascii List Bool Arith Lia.
From Verif Require Import PyDict DescrModel CheckModel FindModel BlocksModel NamesModel DumpsourceModel AliasModel DescrProps FindProps DumpsourceProps AliasProps ImportableModel ClosrcModel.
Import ListNotations.
Local Open Scope string_scope.
Local Notation nl := DumpsourceModel.nl.

(** ** specification *)
(** executing [T] where the names [needs] are bound as [G] says binds [names] as [G] says, and no other name *)
Definition runs (P : list string -> nat) (G : string -> option nat) (needs : list string) (T : string) (names : list string) : Prop :=
  (T = "" \/ exists s, T = s ++ String lf "") /\
  forall g, (forall y, In y needs -> get y g = G y) -> exists g2, exec P T g = Some g2 /\ forall y, get y g2 = if memb y names then G y else get y g.
(** the name a text binds: the alias, or the name of the function *)
Definition label (fname : nat -> string) (f : nat) (alias : string) : string := if String.eqb alias "" then fname f else alias.
(** the text getsource gives for the object [o] under the name [n] binds [n] *)
Definition sourced_as (W : closures) (P : list string -> nat) (G : string -> option nat) (n : string) (o : nat) : Prop :=
  exists t names, text_of W o n false false true = Some t /\ runs P G [] t names /\ In n names.
(** Every name stands for one object ([G]): the function [f], from __main__ (or that cannot be imported), whose source text binds it - to [v] - after its globals, and the names [env],
    are bound; each global and each free variable has a source text; the functions among the free variables are not decorated and are like that themselves.
    (A function that is its own free variable, directly or through others, is not described.) *)
Inductive described (W : closures) (P : list string -> nat) (G : string -> option nat) (fname : nat -> string) : list string -> nat -> string -> nat -> Prop :=
| Described env f alias v d t names :
  frommain (rest W alias) (Obj f) = true \/ by_import (rest W alias) (Obj f) = None ->
  isbuiltin_ (rest W alias) (Obj f) = false ->
  globalvars_ (rest W alias) (Obj f) = Some d ->
  (forall n o, In (n, o) d -> isbuiltin_ (rest W alias) (Obj o) = false /\ G n = Some o /\ sourced_as W P G n o) ->
  ((forall n o, In (n, o) (vars W f) -> isfun W o = false) -> text_of W f alias true false true = Some t) ->
  ((exists n o, In (n, o) (vars W f) /\ isfun W o = true) -> text_of W f alias true false false = Some t) -> runs P G (map fst d ++ env)%list t names -> In (label fname f alias) names -> G (label fname f alias) = Some v ->
  (forall n o, In (n, o) (vars W f) -> n <> "" /\ G n = Some o) ->
  (forall n o, In (n, o) (vars W f) -> isfun W o = false -> sourced_as W P G n o) ->
  (forall n o, In (n, o) (vars W f) -> isfun W o = true -> exists s, text_of W o alias false false false = Some s /\ startswith "@" (lstrip s) = false) ->
  (forall n o, In (n, o) (vars W f) -> isfun W o = true -> described W P G fname [] o n o) ->
  described W P G fname env f alias v.
(** the function [f] refers to [o] by the name [n]: as a global, as a free variable, or through a function among its free variables *)
Inductive refers (W : closures) : nat -> string -> string -> nat -> Prop :=
| by_global f alias d n o : globalvars_ (rest W alias) (Obj f) = Some d -> In (n, o) d -> refers W f alias n o
| by_var f alias n o : In (n, o) (vars W f) -> refers W f alias n o
| by_function f alias m h n o : In (m, h) (vars W f) -> isfun W h = true -> refers W h m n o -> refers W f alias n o.

(** ** texts one after the other *)
Lemma block_idle P ls : forall n acc g g2, finish P (fold_left (step P) ls (Some (Idle (set n (P (rev (trim acc))) g)))) = Some g2 -> finish P (fold_left (step P) ls (Some (Block n acc g))) = Some g2.
Proof.
  induction ls as [|l ls IH]; intros n acc g g2 H; [exact H|]. cbn [fold_left] in *.
  destruct (all_space l) eqn:A.
  - cbn [step] in H. rewrite A in H.
    assert (step P (Some (Block n acc g)) l = Some (Block n (l :: acc) g)) as E.
    { destruct l as [|c r]; [reflexivity|]. cbn [step]. cbn [all_space] in A. apply andb_true_iff in A. destruct A as [A _]. rewrite A. reflexivity. }
    rewrite E. apply IH. cbn [trim]. rewrite A. exact H.
  - cbn [step] in H. rewrite A in H. destruct l as [|c r]; [discriminate A|].
    destruct (is_space c) eqn:C.
    + unfold start in H. rewrite C in H. exfalso. clear -H. induction ls as [|x ls IH]; [discriminate H|apply IH, H].
    + cbn [step]. rewrite C. exact H.
Qed.
Lemma exec_app P s t g g1 g2 : exec P (s ++ String lf "") g = Some g1 -> exec P t g1 = Some g2 -> exec P ((s ++ String lf "") ++ t) g = Some g2.
Proof.
  intros E F. unfold exec in *. rewrite app_assoc_s. change (String lf "" ++ t) with (String lf t). rewrite split_app, fold_left_app in E |- *.
  change (split lf "") with [""] in E. cbn [fold_left] in E.
  pose proof (fold_opened P (split lf s) (Some (Idle g)) I) as O.
  destruct (fold_left (step P) (split lf s) (Some (Idle g))) as [[g0|acc g0|m acc g0|d b acc g0]|]; cbn [step finish all_space depth] in E; try discriminate.
  - assert (g0 = g1) by congruence. subst g0. exact F.
  - assert (set m (P (rev (trim acc))) g0 = g1) as Eg by (cbn [trim all_space] in E; congruence). apply block_idle. rewrite Eg. exact F.
  - destruct d; [contradiction|discriminate].
Qed.
Lemma runs_app P G N M T1 T2 n1 n2 : runs P G N T1 n1 -> runs P G M T2 n2 -> (forall y, In y M -> In y N \/ In y n1) -> runs P G N (T1 ++ T2) (n1 ++ n2)%list.
Proof.
  intros [L1 R1] [L2 R2] S. split.
  - destruct L2 as [->|[s ->]].
    + rewrite app_nil_s. exact L1.
    + right. exists (T1 ++ s). rewrite app_assoc_s. reflexivity.
  - intros g Hg. destruct (R1 g Hg) as (g1 & E1 & A1).
    destruct (R2 g1) as (g2 & E2 & A2).
    { intros y Hy. rewrite A1. destruct (memb y n1) eqn:My; [reflexivity|]. destruct (S y Hy) as [Y|Y]; [apply Hg, Y|]. apply memb_nIn in My. contradiction. }
    exists g2. split.
    + destruct L1 as [->|[s ->]]; [|apply (exec_app _ _ _ _ g1); assumption]. assert (exec P "" g = Some g) as E0 by reflexivity. assert (g1 = g) by congruence. subst g1. exact E2.
    + intros y. rewrite A2, A1. destruct (memb y n2) eqn:M2.
      * apply memb_In in M2. rewrite (proj2 (memb_In y (n1 ++ n2)%list)) by (apply in_app_iff; right; exact M2). reflexivity.
      * destruct (memb y n1) eqn:M1.
        -- apply memb_In in M1. rewrite (proj2 (memb_In y (n1 ++ n2)%list)) by (apply in_app_iff; left; exact M1). reflexivity.
        -- apply memb_nIn in M1, M2. rewrite (proj2 (memb_nIn y (n1 ++ n2)%list)) by (intros X; apply in_app_iff in X; destruct X; contradiction). reflexivity.
Qed.
Lemma runs_empty P G N : runs P G N "" [].
Proof. split; [left; reflexivity|]. intros g _. exists g. split; [reflexivity|]. intros y. reflexivity. Qed.
Lemma runs_nl P G N : runs P G N newline [].
Proof. split; [right; exists ""; reflexivity|]. intros g _. exists g. split; [reflexivity|]. intros y. reflexivity. Qed.
Lemma runs_more P G N M T n : runs P G N T n -> (forall y, In y N -> In y M) -> runs P G M T n.
Proof. intros [L R] S. split; [exact L|]. intros g Hg. apply R. intros y Hy. apply Hg, S, Hy. Qed.
Lemma runs_join P G N ts : forall ns, Forall2 (runs P G N) ts ns -> runs P G N (String.concat newline (nonempty ts)) (List.concat ns).
Proof.
  induction ts as [|t ts IH]; intros ns F; inversion F as [|? n ? ns' R F']; subst.
  - apply runs_empty.
  - specialize (IH _ F'). unfold nonempty in *. cbn [filter List.concat]. destruct (String.eqb_spec t "") as [->|Nt]; cbn [negb].
    + apply (runs_app P G N N "" _ n _ R IH). intros y Y; left; exact Y.
    + destruct (filter (fun s => negb (String.eqb s "")) ts) as [|u us] eqn:E.
      * cbn [String.concat] in *. rewrite <- (app_nil_s t). apply (runs_app P G N N _ _ _ _ R IH). intros y Y; left; exact Y.
      * change (String.concat newline (t :: u :: us)) with (t ++ newline ++ String.concat newline (u :: us)).
        apply (runs_app P G N N _ _ _ _ R); [|intros y Y; left; exact Y].
        apply (runs_app P G N N newline _ [] _ (runs_nl P G N) IH). intros y Y; left; exact Y.
Qed.
Lemma runs_stitch P G N a b n1 n2 : runs P G N a n1 -> runs P G N b n2 -> runs P G N (stitch (a, Some b)) (n1 ++ n2)%list.
Proof.
  intros A B. pose proof (runs_join P G N [a; b] [n1; n2] (Forall2_cons _ _ A (Forall2_cons _ _ B (Forall2_nil _)))) as R.
  cbn [List.concat] in R. rewrite app_nil_r in R. replace (stitch (a, Some b)) with (String.concat newline (nonempty [a; b])); [exact R|].
  unfold nonempty, stitch. cbn [filter]. destruct (String.eqb_spec a "") as [->|Na]; cbn [negb].
  - destruct (String.eqb_spec b "") as [->|Nb]; reflexivity.
  - destruct (String.eqb_spec b "") as [->|Nb]; reflexivity.
Qed.

(** ** the text of the globals *)
Lemma global_texts W P G R cs alias : forall d,
  (forall n o, In (n, o) d -> isbuiltin_ (rest W alias) (Obj o) = false /\ G n = Some o /\ sourced_as W P G n o) ->
  R = asks W alias cs -> exists l ns, sources R d = Some l /\ Forall2 (runs P G []) l ns /\ (forall n, In n (map fst d) -> In n (List.concat ns)).
Proof.
  induction d as [|[n o] d IH]; intros H E.
  - exists [], []. split; [reflexivity|]. split; [constructor|]. intros n [].
  - destruct IH as (l & ns & S & F & C); [intros m x X; apply H; right; exact X|exact E|].
    destruct (H n o (or_introl eq_refl)) as (B & _ & t & names & Ht & Rt & In_n). exists (t :: l), (names :: ns). split; [|split].
    + cbn [sources]. subst R. cbn [asks isbuiltin_ source_as]. rewrite B, Ht, S. reflexivity.
    + constructor; assumption.
    + intros m [X|X]; cbn [List.concat]; apply in_app_iff; [left; cbn in X; subst m; exact In_n|right; apply C, X].
Qed.
(** '\n'.join of texts, the empty ones too *)
Lemma runs_concat P G N ts : forall ns, Forall2 (runs P G N) ts ns -> runs P G N (String.concat newline ts) (List.concat ns).
Proof.
  induction ts as [|t ts IH]; intros ns F; inversion F as [|? n ? ns' R F']; subst.
  - apply runs_empty.
  - specialize (IH _ F'). cbn [List.concat]. destruct ts as [|u us].
    + inversion F'; subst. cbn [String.concat List.concat]. rewrite app_nil_r. exact R.
    + change (String.concat newline (t :: u :: us)) with (t ++ newline ++ String.concat newline (u :: us)).
      apply (runs_app P G N N _ _ _ _ R); [|intros y Y; left; exact Y].
      apply (runs_app P G N N newline _ [] _ (runs_nl P G N) IH). intros y Y; left; exact Y.
Qed.

(** ** the texts of the free variables *)
(** what is known of importable(o, alias=n), a function among the free variables *)
Definition known (W : closures) (P : list string -> nat) (G : string -> option nat) (imp : nat -> string -> option bool -> option string) (n : string) (o : nat) : Prop :=
  exists T names, imp o n None = Some T /\ runs P G [] T names /\ In n names /\ forall m x, refers W o n m x -> In m names.
Lemma free_texts W P G imp f alias N t names : forall l,
  (forall n o, In (n, o) l -> isfun W o = false -> sourced_as W P G n o) ->
  (forall n o, In (n, o) l -> isfun W o = true -> exists s, text_of W o alias false false false = Some s /\ startswith "@" (lstrip s) = false) ->
  (forall n o, In (n, o) l -> isfun W o = true -> known W P G imp n o) ->
  ((exists n o, In (n, o) l /\ isfun W o = true) -> text_of W f alias true false false = Some t) -> runs P G N t names ->
  exists values pairs vn ns, free_sources W imp f alias l = Some (values, pairs) /\ runs P G [] values vn /\ Forall2 (runs P G N) (map stitch pairs) ns /\
    ((pairs = [] /\ forall n o, In (n, o) l -> isfun W o = false) \/ (pairs <> [] /\ incl names (List.concat ns))) /\
    (forall n o, In (n, o) l -> In n (vn ++ List.concat ns)%list) /\
    (forall m h n o, In (m, h) l -> isfun W h = true -> refers W h m n o -> In n (vn ++ List.concat ns)%list).
Proof.
  induction l as [|[n o] l IH]; intros V U K Ht Rt.
  - exists "", [], [], []. split; [reflexivity|]. split; [apply runs_empty|]. split; [constructor|]. split; [left; split; [reflexivity|intros ? ? []]|]. split; intros; contradiction.
  - destruct IH as (values & pairs & vn & ns & E & Rv & F & L & C1 & C2);
      [intros a b X; exact (V a b (or_intror X))|intros a b X; exact (U a b (or_intror X))|intros a b X; exact (K a b (or_intror X))|intros (a & b & X & Y); apply Ht; exists a, b; split; [right; exact X|exact Y]|exact Rt|].
    cbn [free_sources]. destruct (isfun W o) eqn:Fo.
    + specialize (Ht (ex_intro _ n (ex_intro _ o (conj (or_introl eq_refl) Fo)))). destruct (U n o (or_introl eq_refl) Fo) as (s & Es & As). destruct (K n o (or_introl eq_refl) Fo) as (T & Tn & ET & RT & InT & CT).
      rewrite Es, As, ET, Ht, E. exists values, ((T, Some t) :: pairs), vn, ((Tn ++ names)%list :: ns).
      split; [reflexivity|]. split; [exact Rv|]. split; [|split; [|split]].
      * cbn [map]. constructor; [|exact F]. apply runs_stitch; [|exact Rt]. apply (runs_more _ _ _ _ _ _ RT). intros y [].
      * right. split; [discriminate|]. intros y Y. cbn [List.concat]. rewrite !in_app_iff. tauto.
      * intros m x [X|X]; cbn [List.concat]; rewrite !in_app_iff.
        -- injection X; intros; subst. tauto.
        -- specialize (C1 _ _ X). rewrite in_app_iff in C1. tauto.
      * intros m h k x [X|X] Fh Rh; cbn [List.concat]; rewrite !in_app_iff.
        -- injection X; intros; subst. specialize (CT _ _ Rh). tauto.
        -- specialize (C2 _ _ _ _ X Fh Rh). rewrite in_app_iff in C2. tauto.
    + destruct (V n o (or_introl eq_refl) Fo) as (T & Tn & ET & RT & InT). rewrite ET, E.
      exists (T ++ values), pairs, (Tn ++ vn)%list, ns. split; [reflexivity|]. split; [|split; [exact F|split; [|split]]].
      * apply (runs_app P G [] [] _ _ _ _ RT Rv). intros y Y; left; exact Y.
      * destruct L as [[L1 L2]|L]; [left; split; [exact L1|]|right; exact L]. intros m x [X|X]; [injection X; intros; subst; exact Fo|exact (L2 _ _ X)].
      * intros m x [X|X]; rewrite !in_app_iff.
        -- injection X; intros; subst. tauto.
        -- specialize (C1 _ _ X). rewrite in_app_iff in C1. tauto.
      * intros m h k x [X|X] Fh Rh; rewrite !in_app_iff.
        -- injection X; intros; subst. congruence.
        -- specialize (C2 _ _ _ _ X Fh Rh). rewrite in_app_iff in C2. tauto.
Qed.
Lemma enough {A B} (Q : nat -> A -> B -> Prop) (c : B -> bool) : forall l : list (A * B),
  (forall n o, In (n, o) l -> c o = true -> exists k, forall fuel, k <= fuel -> Q fuel n o) -> exists k, forall fuel n o, k <= fuel -> In (n, o) l -> c o = true -> Q fuel n o.
Proof.
  induction l as [|[n o] l IH]; intros H; [exists 0; intros ? ? ? _ []|].
  destruct IH as [k1 K1]; [intros ? ? X; apply H; right; exact X|].
  destruct (c o) eqn:Co.
  - destruct (H n o (or_introl eq_refl) Co) as [k2 K2]. exists (k1 + k2). intros fuel m x L [X|X] Cx; [injection X; intros; subst; apply K2; lia|apply K1; [lia|assumption|assumption]].
  - exists k1. intros fuel m x L [X|X] Cx; [injection X; intros; subst; congruence|apply K1; assumption].
Qed.
Lemma by_source_text W P G cs f alias env d first others fn ns : let R := asks W alias cs in
  cs f = Some (first, others) -> globalvars_ (rest W alias) (Obj f) = Some d ->
  (forall n o, In (n, o) d -> isbuiltin_ (rest W alias) (Obj o) = false /\ G n = Some o /\ sourced_as W P G n o) ->
  runs P G (map fst d ++ env)%list (stitch first) fn -> Forall2 (runs P G (map fst d ++ env)%list) (map stitch others) ns ->
  exists T names, by_source R (Obj f) = inl T /\ runs P G env T names /\ incl (map fst d) names /\ incl fn names /\ incl (List.concat ns) names.
Proof.
  intros R Ec Ed Hd Rf Ro. destruct (global_texts W P G R cs alias d Hd eq_refl) as (l & gn & S & Fl & C).
  pose proof (runs_concat P G [] l gn Fl) as Rg.
  pose proof (runs_join P G _ (stitch first :: map stitch others) (fn :: ns) (Forall2_cons _ _ Rf Ro)) as Rs. cbn [List.concat] in Rs.
  exists (String.concat newline l ++ String.concat newline (nonempty (stitch first :: map stitch others))), (List.concat gn ++ fn ++ List.concat ns)%list.
  split; [|split; [|split; [|split]]].
  - unfold by_source, R. cbn [asks closure_sources globalvars_]. rewrite Ec, Ed. unfold R in S. rewrite S. cbn zeta.
    destruct (String.eqb_spec (String.concat newline l) "") as [->|Ng]; [reflexivity|].
    destruct (String.eqb_spec (String.concat newline (nonempty (stitch first :: map stitch others))) "") as [->|Ns]; [rewrite app_nil_s; reflexivity|reflexivity].
  - apply (runs_app P G env (map fst d ++ env)%list); [apply (runs_more _ _ _ _ _ _ Rg); intros y []|exact Rs|].
    intros y Y. apply in_app_iff in Y. destruct Y as [Y|Y]; [right; apply C, Y|left; exact Y].
  - intros y Y. rewrite !in_app_iff. left. apply C, Y.
  - intros y Y. rewrite !in_app_iff. tauto.
  - intros y Y. rewrite !in_app_iff. tauto.
Qed.
Lemma importable_first R f source T : (frommain R (Obj f) = true \/ by_import R (Obj f) = None) -> isbuiltin_ R (Obj f) = false -> source = None \/ source = Some true ->
  by_source R (Obj f) = inl T -> importable 2 R f source true = Text T.
Proof.
  intros M B Sr E. unfold importable. assert (forall b, attempts 2 R (Obj f) b false false = match b with true => Text T | false => match by_import R (Obj f) with Some t => Text t | None => Text T end end) as A.
  { intros b. cbn [attempts]. destruct b; rewrite E; reflexivity. }
  destruct Sr as [Sr|Sr]; rewrite Sr, ?B; cbn [andb]; rewrite A; [|reflexivity].
  destruct M as [M|M]; rewrite M; [reflexivity|]. destruct (frommain R (Obj f)); reflexivity.
Qed.
Lemma described_text W P G fname : forall env f alias v, described W P G fname env f alias v ->
  exists k, forall fuel, k <= fuel -> forall source, source = None \/ source = Some true ->
    exists T names, importable_source fuel W f alias source = Some T /\ runs P G env T names /\ In (label fname f alias) names /\ forall m x, refers W f alias m x -> In m names.
Proof.
  intros env f alias v D. induction D as [env f alias v d t names M B Ed Hd Ht1 Ht Rt Ln Gl Gv Hv Hu Hf IH].
  destruct (enough (fun fuel n o => exists T names, importable_source fuel W o n None = Some T /\ runs P G [] T names /\ In n names /\ forall m x, refers W o n m x -> In m names)
              (isfun W) (vars W f)) as [k K].
  { intros n o X Fo. destruct (IH n o X Fo) as [k K]. exists k. intros fuel L. destruct (K fuel L None (or_introl eq_refl)) as (T & nm & E & R & Ll & C).
    exists T, nm. split; [exact E|]. split; [exact R|]. split; [|exact C]. revert Ll. unfold label. destruct (String.eqb_spec n "") as [->|_]; [|exact (fun x => x)].
    destruct (Gv "" o X) as [Z _]. contradiction. }
  exists (S k). intros fuel L source Sr. destruct fuel as [|fuel]; [lia|].
  destruct (free_texts W P G (fun o a source => importable_source fuel W o a source) f alias (map fst d ++ env)%list t names (vars W f)) as (values & pairs & vn & ns & E & Rv & F & C0 & C1 & C2).
  { exact Hv. } { exact Hu. } { intros n o X Fo. apply (K fuel n o); [lia|exact X|exact Fo]. } { exact Ht. } { exact Rt. }
  destruct (by_source_text W P G (fun o => closuredsource (S fuel) W o alias) f alias env d
              (match pairs with [] => (values, Some t) | _ => (values, None) end) pairs (match pairs with [] => vn ++ names | _ => vn end)%list ns) as (T & nm & ES & R & I1 & I2 & I3).
  { cbn [closuredsource]. unfold importable_source in E. rewrite E. destruct pairs; [rewrite Ht1; [reflexivity|]|reflexivity]. destruct C0 as [[_ C0]|[C0 _]]; [exact C0|contradiction]. }
  { exact Ed. } { exact Hd. }
  { destruct pairs; [apply runs_stitch; [|exact Rt]|]; apply (runs_more _ _ _ _ _ _ Rv); intros y []. }
  { exact F. }
  assert (incl vn nm) as Iv by (destruct pairs; [intros y Y; apply I2, in_app_iff; left; exact Y|exact I2]).
  assert (forall n, In n (vn ++ List.concat ns)%list -> In n nm) as Iall by (intros n Y; apply in_app_iff in Y; destruct Y as [Y|Y]; [apply Iv, Y|apply I3, Y]).
  exists T, nm. split; [|split; [exact R|split]].
  - unfold importable_source. rewrite (importable_first (asks W alias (fun o => closuredsource (S fuel) W o alias)) f source T M B Sr ES). reflexivity.
  - destruct C0 as [[C0 _]|[_ C0]]; [subst pairs; apply I2, in_app_iff; right; exact Ln|apply I3, C0, Ln].
  - intros m x Rf. inversion Rf as [? ? d' ? ? Ed' Id|? ? ? ? Iv'|? ? m' h ? ? Im Fh Rh]; subst.
    + assert (d' = d) by congruence. subst d'. apply I1. apply in_map_iff. exists (m, x). split; [reflexivity|exact Id].
    + apply Iall, (C1 _ _ Iv').
    + apply Iall, (C2 _ _ _ _ Im Fh Rh).
Qed.
Lemma described_refers W P G fname : forall env f alias v, described W P G fname env f alias v -> forall n o, refers W f alias n o -> G n = Some o.
Proof.
  intros env f alias v D. induction D as [env f alias v d t names M B Ed Hd Ht1 Ht Rt Ln Gl Gv Hv Hu Hf IH]. intros n o R.
  inversion R as [? ? d' ? ? Ed' Id|? ? ? ? Iv|? ? m h ? ? Im Fh Rh]; subst.
  - assert (d' = d) by congruence. subst d'. apply (Hd _ _ Id).
  - apply (Gv _ _ Iv).
  - apply (IH _ _ Im Fh _ _ Rh).
Qed.

(** the text binds the function, and every name by which it refers to something, directly or through its functions - whatever was bound before *)
Theorem C88_closure_partial : forall W P G fname f alias source, described W P G fname [] f alias f -> source = None \/ source = Some true ->
  exists k, forall fuel, k <= fuel -> exists T, importable_source fuel W f alias source = Some T /\
    forall g, exists g2, exec P T g = Some g2 /\ get (label fname f alias) g2 = Some f /\ forall n o, refers W f alias n o -> get n g2 = Some o.
Proof.
  intros W P G fname f alias source D Sr. destruct (described_text _ _ _ _ _ _ _ _ D) as [k K]. exists k. intros fuel L.
  destruct (K fuel L source Sr) as (T & names & E & [_ R] & Ln & C). exists T. split; [exact E|]. intros g.
  destruct (R g) as (g2 & Eg & A); [intros y []|]. exists g2. split; [exact Eg|]. split.
  - rewrite A, (proj2 (memb_In _ _) Ln). inversion D; assumption.
  - intros n o Rf. rewrite A, (proj2 (memb_In _ _) (C _ _ Rf)). apply (described_refers _ _ _ _ _ _ _ _ D _ _ Rf).
Qed.

(** ** decorated functions: f is what the decorator made of h, which is a free variable of f *)
Lemma runs_stitch_after P G N M a b n1 n2 : runs P G N a n1 -> runs P G M b n2 -> (forall y, In y M -> In y N \/ In y n1) -> runs P G N (stitch (a, Some b)) (n1 ++ n2)%list.
Proof.
  intros A B S. unfold stitch. destruct (String.eqb_spec a "") as [->|Na]; [exact (runs_app P G N M "" b _ _ A B S)|].
  destruct (String.eqb_spec b "") as [->|Nb]; [rewrite <- (app_nil_s a); exact (runs_app P G N M a "" _ _ A B S)|].
  apply (runs_app P G N M a _ _ _ A); [|exact S]. apply (runs_app P G M M newline b [] _ (runs_nl P G M) B). intros y Y; left; exact Y.
Qed.
Lemma decorated_texts W P G fname imp f alias N t0 names0 : forall l,
  (forall n o, In (n, o) l -> isfun W o = false -> sourced_as W P G n o) ->
  (forall n o, In (n, o) l -> isfun W o = true -> exists s, text_of W o alias false false false = Some s /\ startswith "@" (lstrip s) = true) ->
  (forall n o, In (n, o) l -> isfun W o = true -> exists T names, imp o alias (Some true) = Some T /\ runs P G (names0 ++ N)%list T names /\ In (label fname o alias) names /\
     forall m x, refers W o alias m x -> In m names) ->
  text_of W f "" false true false = Some t0 -> runs P G N t0 names0 ->
  exists values pairs vn ns, free_sources W imp f alias l = Some (values, pairs) /\ runs P G [] values vn /\ Forall2 (runs P G N) (map stitch pairs) ns /\
    (pairs = [] -> forall n o, In (n, o) l -> isfun W o = false) /\
    (forall n o, In (n, o) l -> isfun W o = false -> In n (vn ++ List.concat ns)%list) /\
    (forall m h, In (m, h) l -> isfun W h = true -> In (label fname h alias) (vn ++ List.concat ns)%list /\ forall n o, refers W h alias n o -> In n (vn ++ List.concat ns)%list).
Proof.
  induction l as [|[n o] l IH]; intros V U K Ht Rt.
  - exists "", [], [], []. split; [reflexivity|]. split; [apply runs_empty|]. split; [constructor|]. split; [intros _ ? ? []|]. split; intros; contradiction.
  - destruct IH as (values & pairs & vn & ns & E & Rv & F & L & C1 & C2);
      [intros a b X; exact (V a b (or_intror X))|intros a b X; exact (U a b (or_intror X))|intros a b X; exact (K a b (or_intror X))|exact Ht|exact Rt|].
    cbn [free_sources]. destruct (isfun W o) eqn:Fo.
    + destruct (U n o (or_introl eq_refl) Fo) as (s & Es & As). destruct (K n o (or_introl eq_refl) Fo) as (T & Tn & ET & RT & InT & CT).
      rewrite Es, As, ET, Ht, E. exists values, ((t0, Some T) :: pairs), vn, ((names0 ++ Tn)%list :: ns).
      split; [reflexivity|]. split; [exact Rv|]. split; [|split; [|split]].
      * cbn [map]. constructor; [|exact F]. apply (runs_stitch_after _ _ _ _ _ _ _ _ Rt RT). intros y Y. apply in_app_iff in Y. tauto.
      * discriminate.
      * intros m x [X|X] Fx; cbn [List.concat]; rewrite !in_app_iff.
        -- injection X; intros; subst. congruence.
        -- specialize (C1 _ _ X Fx). rewrite in_app_iff in C1. tauto.
      * intros m h [X|X] Fh; cbn [List.concat].
        -- injection X; intros; subst. split; [rewrite !in_app_iff; tauto|]. intros a b Rh. specialize (CT _ _ Rh). rewrite !in_app_iff. tauto.
        -- destruct (C2 _ _ X Fh) as [C3 C4]. split; [rewrite !in_app_iff in *; tauto|]. intros a b Rh. specialize (C4 _ _ Rh). rewrite !in_app_iff in *. tauto.
    + destruct (V n o (or_introl eq_refl) Fo) as (T & Tn & ET & RT & InT). rewrite ET, E.
      exists (T ++ values), pairs, (Tn ++ vn)%list, ns. split; [reflexivity|]. split; [|split; [exact F|split; [|split]]].
      * apply (runs_app P G [] [] _ _ _ _ RT Rv). intros y Y; left; exact Y.
      * intros Z m x [X|X]; [injection X; intros; subst; exact Fo|exact (L Z _ _ X)].
      * intros m x [X|X] Fx; rewrite !in_app_iff.
        -- injection X; intros; subst. tauto.
        -- specialize (C1 _ _ X Fx). rewrite in_app_iff in C1. tauto.
      * intros m h [X|X] Fh.
        -- injection X; intros; subst. congruence.
        -- destruct (C2 _ _ X Fh) as [C3 C4]. split; [rewrite !in_app_iff in *; tauto|]. intros a b Rh. specialize (C4 _ _ Rh). rewrite !in_app_iff in *. tauto.
Qed.
(** the text has the enclosing source first, then the decorated function: executed, it binds the name of the decorated function, or the alias, to f *)
Theorem C88_decorated_partial : forall W P G fname f alias source d t0 names0 m h,
  frommain (rest W alias) (Obj f) = true \/ by_import (rest W alias) (Obj f) = None -> isbuiltin_ (rest W alias) (Obj f) = false -> source = None \/ source = Some true ->
  globalvars_ (rest W alias) (Obj f) = Some d ->
  (forall n o, In (n, o) d -> isbuiltin_ (rest W alias) (Obj o) = false /\ G n = Some o /\ sourced_as W P G n o) ->
  text_of W f "" false true false = Some t0 -> runs P G (map fst d) t0 names0 ->
  (forall n o, In (n, o) (vars W f) -> isfun W o = false -> sourced_as W P G n o) ->
  (forall n o, In (n, o) (vars W f) -> isfun W o = true -> exists s, text_of W o alias false false false = Some s /\ startswith "@" (lstrip s) = true) ->
  (forall n o, In (n, o) (vars W f) -> isfun W o = true -> described W P G fname (names0 ++ map fst d) o alias f) ->
  In (m, h) (vars W f) -> isfun W h = true ->
  exists k, forall fuel, k <= fuel -> exists T, importable_source fuel W f alias source = Some T /\
    forall g, exists g2, exec P T g = Some g2 /\ get (label fname h alias) g2 = Some f /\
      (forall n o, In (n, o) d -> get n g2 = Some o) /\ (forall n o, refers W h alias n o -> get n g2 = Some o).
Proof.
  intros W P G fname f alias source d t0 names0 m h M B Sr Ed Hd Ht Rt Hv Hu Hf Im Fh.
  destruct (enough (fun fuel (n : string) o => exists T names, importable_source fuel W o alias (Some true) = Some T /\ runs P G (names0 ++ map fst d)%list T names /\ In (label fname o alias) names /\
     forall m x, refers W o alias m x -> In m names) (isfun W) (vars W f)) as [k K].
  { intros n o X Fo. destruct (described_text _ _ _ _ _ _ _ _ (Hf n o X Fo)) as [k K]. exists k. intros fuel L. apply (K fuel L (Some true)). right; reflexivity. }
  exists (S k). intros fuel L. destruct fuel as [|fuel]; [lia|].
  destruct (decorated_texts W P G fname (fun o a source => importable_source fuel W o a source) f alias (map fst d) t0 names0 (vars W f)) as (values & pairs & vn & ns & E & Rv & F & C0 & C1 & C2).
  { exact Hv. } { exact Hu. } { intros n o X Fo. apply (K fuel n o); [lia|exact X|exact Fo]. } { exact Ht. } { exact Rt. }
  assert (pairs <> []) as Np by (intros Z; specialize (C0 Z _ _ Im); congruence).
  destruct (by_source_text W P G (fun o => closuredsource (S fuel) W o alias) f alias [] d (values, None) pairs vn ns) as (T & nm & ES & [_ R] & I1 & I2 & I3).
  { cbn [closuredsource]. unfold importable_source in E. rewrite E. destruct pairs; [contradiction|reflexivity]. }
  { exact Ed. } { exact Hd. }
  { apply (runs_more _ _ _ _ _ _ Rv). intros y []. }
  { rewrite app_nil_r. exact F. }
  exists T. split; [unfold importable_source; rewrite (importable_first (asks W alias (fun o => closuredsource (S fuel) W o alias)) f source T M B Sr ES); reflexivity|].
  assert (forall n, In n (vn ++ List.concat ns)%list -> In n nm) as Iall by (intros n Y; apply in_app_iff in Y; destruct Y as [Y|Y]; [apply I2, Y|apply I3, Y]).
  intros g. destruct (R g) as (g2 & Eg & A); [intros y []|]. exists g2. split; [exact Eg|].
  destruct (C2 _ _ Im Fh) as [Cl Cr]. split; [|split].
  - rewrite A, (proj2 (memb_In _ _) (Iall _ Cl)). pose proof (Hf _ _ Im Fh) as D. inversion D; assumption.
  - intros n o X. rewrite A. assert (In n nm) as In_n by (apply I1, in_map_iff; exists (n, o); split; [reflexivity|exact X]).
    rewrite (proj2 (memb_In _ _) In_n). apply (Hd _ _ X).
  - intros n o X. rewrite A, (proj2 (memb_In _ _) (Iall _ (Cr _ _ X))). apply (described_refers _ _ _ _ _ _ _ _ (Hf _ _ Im Fh) _ _ X).
Qed.

(** ** recursive functions: among the free variables of each is one of them *)
Theorem C88_recursive_refuted : forall W (C : nat -> Prop),
  (forall f, C f -> (forall alias, by_import (rest W alias) (Obj f) = None) /\ exists n h, In (n, h) (vars W f) /\ isfun W h = true /\ C h) ->
  forall f, C f -> forall fuel alias source, importable_source fuel W f alias source = None.
Proof.
  intros W C H.
  assert (forall R f source, by_import R (Obj f) = None -> closure_sources R (Obj f) = None -> text_or_none (importable 2 R f source true) = None) as A.
  { intros R f source Bi Bs. unfold importable. assert (by_source R (Obj f) = inr (Obj f)) as Es by (unfold by_source; rewrite Bs; reflexivity).
    generalize (match source with None => frommain R (Obj f) | Some b => if true && isbuiltin_ R (Obj f) then false else b end). intros b.
    cbn [attempts]. destruct b; rewrite ?Es, Bi; reflexivity. }
  assert (forall fuel f alias, C f -> closuredsource fuel W f alias = None) as K.
  { induction fuel as [|fuel IH]; intros f alias Cf; [reflexivity|]. cbn [closuredsource]. destruct (H f Cf) as (Bi & n & h & Iv & Fh & Ch).
    assert (forall l, In (n, h) l -> free_sources W (fun o a source => text_or_none (importable 2 (asks W a (fun o => closuredsource fuel W o a)) o source true)) f alias l = None) as L.
    { induction l as [|[n' o] l IHl]; intros X; [destruct X|]. cbn [free_sources]. destruct X as [X|X].
      - injection X; intros; subst. rewrite Fh. destruct (text_of W h alias false false false) as [s|]; [|reflexivity].
        rewrite !(A (asks W _ _) h) by ((apply (H h Ch)) || (cbn [asks closure_sources]; apply IH, Ch)).
        destruct (startswith "@" (lstrip s)); [destruct (text_of W f "" false true false)|]; reflexivity.
      - specialize (IHl X). rewrite IHl. destruct (isfun W o); [|destruct (text_of W o n' false false true); reflexivity].
        destruct (text_of W o alias false false false); [|reflexivity]. 
        match goal with |- match ?x with Some _ => _ | None => _ end = None => destruct x; reflexivity end. }
    rewrite (L _ Iv). reflexivity. }
  intros f Cf fuel alias source. unfold importable_source. apply A; [apply (H f Cf)|]. cbn [asks closure_sources]. apply K, Cf.
Qed.
