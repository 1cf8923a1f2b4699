(** C44, C45: dump_source/load_source and capture. *)
From Coq Require Import String List Bool Arith NArith Lia.
From Verif Require Import PyDict IndentModel TempModel.
Import ListNotations.

(** ** C44 *)
Definition ascii_text (s : str) : Prop := forall c, In c s -> (c < 128)%N.
(** a name: not empty, no whitespace *)
Definition plain_name (s : str) : Prop := s <> [] /\ forall c, In c s -> is_space c = false.

Lemma utf8_ascii : forall s n, ascii_text s -> length s <= n -> utf8 n s = Some s.
Proof.
  induction s as [|c s IH]; intros n Ha Hn; [destruct n; reflexivity|]. destruct n as [|n]; [cbn in Hn; lia|].
  cbn [utf8]. assert (Hc : (c < 128)%N) by (apply Ha; simpl; auto). apply N.ltb_lt in Hc. rewrite Hc.
  rewrite IH; [reflexivity| |cbn in Hn; lia]. intros x Hx. apply Ha. simpl; auto.
Qed.
Lemma latin1_ascii s : ascii_text s -> latin1 s = Ok s.
Proof.
  intros Ha. unfold latin1. replace (forallb _ s) with true; [reflexivity|]. symmetry. apply forallb_forall. intros c Hc. apply N.ltb_lt.
  specialize (Ha c Hc). lia.
Qed.
Lemma break_space c : is_break c = true -> is_space c = true.
Proof.
  unfold is_break, is_space. rewrite ?orb_true_iff, ?andb_true_iff, ?N.leb_le, ?N.eqb_eq. lia.
Qed.
Lemma lead_not_space c s : is_space c = false -> lead (c :: s) = 0.
Proof. intros Hc. cbn [lead]. rewrite Hc. reflexivity. Qed.
Lemma lead_app_not_space : forall s c t, is_space c = false -> exists pre, skipn (lead (s ++ c :: t)) (s ++ c :: t) = pre ++ c :: t /\ (pre = [] \/ exists u, s = u ++ pre).
Proof.
  induction s as [|a s IH]; intros c t Hc; cbn [app lead].
  - rewrite Hc. exists []. auto.
  - destruct (is_space a).
    + cbn [skipn]. destruct (IH c t Hc) as [pre [E1 E2]]. exists pre. split; auto. destruct E2 as [->|[u ->]]; [auto|right]. exists (a :: u). reflexivity.
    + exists (a :: s). split; auto. right. exists []. reflexivity.
Qed.
Lemma strip_trailer src name : plain_name name -> exists pre, strip (src ++ trailer name) = pre ++ tag_word ++ sp :: name /\ (pre = [] \/ exists u, pre = u ++ [nl]).
Proof.
  intros [Hne Hn]. unfold trailer.
  destruct (lead_app_not_space (src ++ [nl]) 35%N ([78; 65; 77; 69; 58] ++ sp :: name ++ [nl])%N eq_refl) as [pre [E1 E2]].
  rewrite <- app_assoc in E1. cbn [app] in E1. unfold strip, lstrip.
  change (src ++ nl :: tag_word ++ sp :: name ++ [nl]) with (src ++ nl :: 35%N :: [78; 65; 77; 69; 58]%N ++ sp :: name ++ [nl]) in *.
  cbn [app] in *. rewrite E1. exists pre. split.
  - destruct (exists_last Hne) as [n0 [z Ez]]. assert (Hz : is_space z = false) by (apply Hn; rewrite Ez; apply in_app_iff; simpl; auto).
    assert (E3 : pre ++ 35%N :: 78%N :: 65%N :: 77%N :: 69%N :: 58%N :: sp :: name ++ [nl] = ((pre ++ tag_word ++ sp :: n0) ++ [z]) ++ [nl]).
    { rewrite Ez. unfold tag_word. cbn [app]. rewrite <- ?app_assoc. cbn [app]. rewrite <- ?app_assoc. reflexivity. }
    rewrite E3. rewrite rev_app_distr. cbn [rev app]. rewrite rev_app_distr. cbn [rev app].
    cbn [lead]. change (is_space nl) with true. cbn iota. rewrite Hz. cbn [skipn].
    change (rev (z :: rev (pre ++ tag_word ++ sp :: n0)) = pre ++ tag_word ++ sp :: name). cbn [rev]. rewrite rev_involutive, Ez.
    rewrite <- !app_assoc. reflexivity.
  - destruct E2 as [->|[u Eu]]; [auto|]. destruct (list_eq_dec N.eq_dec pre []) as [->|Hp]; [auto|right].
    destruct (exists_last Hp) as [p0 [y Ey]]. subst pre. rewrite app_assoc in Eu. apply app_inj_tail in Eu as [_ <-]. eauto.
Qed.
Lemma last_line_nl : forall pre rest acc, last_line (pre ++ nl :: rest) acc = last_line rest [].
Proof. induction pre as [|c pre IH]; intros rest acc; cbn [app last_line]; [reflexivity|]. destruct (is_break c); apply IH. Qed.
Lemma last_line_plain : forall s acc, (forall c, In c s -> is_break c = false) -> last_line s acc = rev acc ++ s.
Proof.
  induction s as [|c s IH]; intros acc Hs; cbn [last_line]; [rewrite app_nil_r; reflexivity|]. rewrite (Hs c) by (simpl; auto).
  rewrite IH by (intros x Hx; apply Hs; simpl; auto). cbn [rev]. rewrite <- app_assoc. reflexivity.
Qed.
Lemma words_plain : forall s acc, (forall c, In c s -> is_space c = false) -> rev acc ++ s <> [] -> words s acc = [rev acc ++ s].
Proof.
  induction s as [|c s IH]; intros acc Hs Hn; cbn [words].
  - rewrite app_nil_r in *. destruct acc; [cbn in Hn; congruence|reflexivity].
  - rewrite (Hs c) by (simpl; auto). rewrite IH; [|intros x Hx; apply Hs; simpl; auto|]; cbn [rev]; rewrite <- app_assoc; [reflexivity|exact Hn].
Qed.
Lemma read_name_trailer src name : plain_name name -> read_name (src ++ trailer name) [] = Ok name.
Proof.
  intros Hn. unfold read_name. destruct (strip_trailer src name Hn) as [pre [-> Hp]].
  assert (Hl : last_line (pre ++ tag_word ++ sp :: name) [] = tag_word ++ sp :: name).
  { assert (E : last_line (tag_word ++ sp :: name) [] = tag_word ++ sp :: name).
    { rewrite last_line_plain; [reflexivity|]. intros c Hc. apply in_app_iff in Hc as [Hc|[<-|Hc]]; [|reflexivity|].
      - repeat (destruct Hc as [<-|Hc]; [reflexivity|]). destruct Hc.
      - destruct (is_break c) eqn:E; auto. apply break_space in E. destruct Hn as [_ Hn]. rewrite (Hn c Hc) in E. discriminate. }
    destruct Hp as [->|[u ->]]; [exact E|]. rewrite <- app_assoc. cbn [app]. rewrite last_line_nl. exact E. }
  destruct (pre ++ tag_word ++ sp :: name) as [|c0 s0] eqn:E0; [destruct pre; discriminate|]. rewrite Hl.
  unfold tag_word. cbn [app words]. change (is_space 35) with false. change (is_space 78) with false. change (is_space 65) with false.
  change (is_space 77) with false. change (is_space 69) with false. change (is_space 58) with false. change (is_space sp) with true. cbn iota.
  destruct Hn as [Hne Hn]. rewrite words_plain by (auto; exact Hne). reflexivity.
Qed.

(** universal newlines keep the last line *)
Lemma newlines_app : forall n src rest, length src <= n -> exists src', newlines (src ++ nl :: rest) = src' ++ nl :: newlines rest.
Proof.
  induction n as [|n IH]; intros src rest Hl.
  - destruct src; [|cbn in Hl; lia]. exists []. reflexivity.
  - destruct src as [|c src]; [exists []; reflexivity|]. cbn [app newlines]. cbn [length] in Hl. destruct (N.eqb_spec c cr) as [->|Hne].
    + destruct src as [|d src].
      * cbn [app]. change ((nl =? nl)%N) with true. cbn iota. exists []. reflexivity.
      * cbn [app]. destruct (N.eqb_spec d nl) as [->|Hd].
        -- destruct (IH src rest) as [s' ->]; [cbn in Hl; lia|]. exists (nl :: s'). reflexivity.
        -- destruct (IH (d :: src) rest) as [s' Es]; [cbn in *; lia|]. cbn [app] in Es. exists (nl :: s'). cbn [app]. f_equal. exact Es.
    + destruct (IH src rest) as [s' ->]; [lia|]. exists (c :: s'). reflexivity.
Qed.
Lemma newlines_id : forall s, (forall c, In c s -> c <> cr) -> newlines s = s.
Proof.
  induction s as [|c s IH]; intros Hs; [reflexivity|]. cbn [newlines]. destruct (N.eqb_spec c cr) as [->|]; [exfalso; apply (Hs cr); simpl; auto|].
  rewrite IH; auto. intros x Hx. apply Hs. simpl; auto.
Qed.

(** C44.  For ASCII source: the file is written, and both loaders read back the name it was dumped under (the alias,
    or what getname returned), whatever the source is -- also when it contains lines like the trailer *)
Theorem C44_name_partial : forall source alias getname, let name := dump_name alias getname in
  ascii_text (source alias) -> ascii_text name -> plain_name name ->
  exists file, dump_source source alias getname = Ok file /\ loadIO_source file [] = Ok name /\ load_source file [] = Ok name.
Proof.
  intros source alias getname name Hs Hn Hp. unfold dump_source. fold name.
  assert (Ha : ascii_text (source alias ++ trailer name)).
  { intros c Hc. apply in_app_iff in Hc as [Hc|Hc]; [auto|]. unfold trailer in Hc. destruct Hc as [<-|Hc]; [reflexivity|].
    apply in_app_iff in Hc as [Hc|Hc]; [repeat (destruct Hc as [<-|Hc]; [reflexivity|]); destruct Hc|].
    destruct Hc as [<-|Hc]; [reflexivity|]. apply in_app_iff in Hc as [Hc|[<-|[]]]; [auto|reflexivity]. }
  rewrite latin1_ascii by auto. eexists. split; [reflexivity|]. unfold loadIO_source, load_source, decode. rewrite utf8_ascii by auto.
  split; [apply read_name_trailer; auto|].
  destruct (newlines_app (length (source alias)) (source alias) (tag_word ++ sp :: name ++ [nl]) (le_n _)) as [src' E].
  unfold trailer at 1. rewrite E, newlines_id; [apply read_name_trailer; auto|].
  intros c Hc ->. apply in_app_iff in Hc as [Hc|Hc]; [repeat (destruct Hc as [Hc|Hc]; [discriminate|]); destruct Hc|].
  destruct Hc as [Hc|Hc]; [discriminate|]. apply in_app_iff in Hc as [Hc|[Hc|[]]]; [|discriminate]. destruct Hp as [_ Hp]. specialize (Hp cr Hc). discriminate.
Qed.
(** the same, with the name spelled out: the alias if one was given, otherwise the object's own name *)
Theorem C44_dumped_alias : forall source alias getname, alias <> [] -> ascii_text (source alias) -> ascii_text alias -> plain_name alias ->
  exists file, dump_source source alias getname = Ok file /\ loadIO_source file [] = Ok alias /\ load_source file [] = Ok alias.
Proof.
  intros source alias getname Ha Hs Hn Hp. assert (E : dump_name alias getname = alias) by (unfold dump_name; destruct alias; [congruence|auto]).
  pose proof (C44_name_partial source alias getname) as C. cbv zeta in C. rewrite E in C. auto.
Qed.
Theorem C44_dumped_own_name : forall source name, ascii_text (source []) -> ascii_text name -> plain_name name ->
  exists file, dump_source source [] (Some name) = Ok file /\ loadIO_source file [] = Ok name /\ load_source file [] = Ok name.
Proof. intros source name Hs Hn Hp. exact (C44_name_partial source [] (Some name) Hs Hn Hp). Qed.
(** an explicit alias at load time is the name used *)
Theorem C44_alias : forall file alias, alias <> [] -> (exists s, decode file = Ok s) -> loadIO_source file alias = Ok alias /\ load_source file alias = Ok alias.
Proof.
  intros file alias Ha [s Hs]. unfold loadIO_source, load_source. rewrite Hs. unfold read_name. destruct alias; [congruence|auto].
Qed.
(** a file without the trailer is refused *)
Theorem C44_no_name_partial : forall w rest, (forall c, In c w -> is_break c = false /\ is_space c = false) -> w <> [] -> w <> tag_word ->
  (forall c, In c rest -> is_break c = false) -> (forall c, In c rest -> is_space c = false) ->
  read_name (w ++ rest) [] = Err UnknownName \/ w ++ rest = tag_word.
Proof.
  intros w rest Hw Hn Ht Hb Hr.
  assert (Hall : forall c, In c (w ++ rest) -> is_space c = false /\ is_break c = false).
  { intros c Hc. apply in_app_iff in Hc as [Hc|Hc]; [apply Hw in Hc; tauto|auto]. }
  set (v := w ++ rest) in *. assert (Hv : v <> []) by (unfold v; destruct w; [congruence|discriminate]).
  assert (Hlead : forall u, (forall c, In c u -> is_space c = false) -> skipn (lead u) u = u).
  { intros [|c u] Hu; [reflexivity|]. cbn [lead]. rewrite (Hu c) by (simpl; auto). reflexivity. }
  assert (Hst : strip v = v).
  { unfold strip, lstrip. rewrite (Hlead v) by (intros c Hc; apply Hall; auto). rewrite Hlead; [apply rev_involutive|].
    intros c Hc. apply in_rev in Hc. apply Hall; auto. }
  unfold read_name. rewrite Hst. destruct v as [|c0 v0] eqn:Ev; [congruence|].
  rewrite last_line_plain by (intros c Hc; apply Hall; auto). cbn [rev app].
  rewrite words_plain by (try (intros c Hc; apply Hall; auto); exact Hv). cbn [rev app].
  match goal with |- context [if ?b then _ else _] => destruct b eqn:Eb end; [|auto]. right.
  apply andb_true_iff in Eb as [E1 E2]. apply Nat.eqb_eq in E2. clear - E1 E2. revert E1 E2. generalize (c0 :: v0) as l. generalize tag_word as t.
  induction t as [|x t IH]; intros [|y l] E1 E2; try discriminate; auto. cbn [combine forallb fst snd] in E1. apply andb_true_iff in E1 as [Exy E1].
  apply N.eqb_eq in Exy. subst. f_equal. apply IH; auto.
Qed.

(** REFUTED for source that is not ASCII: written in Latin-1, read as UTF-8.  A Latin-1 character followed by an
    ASCII one makes the file unreadable ... *)
Lemma utf8_bad : forall n pre c d post, (128 <= c)%N -> (d < 128)%N -> ascii_text pre -> utf8 n (pre ++ c :: d :: post) = None.
Proof.
  induction n as [|n IH]; intros pre c d post Hc Hd Hp; [destruct pre; reflexivity|]. destruct pre as [|a pre]; cbn [app utf8].
  - apply N.ltb_ge in Hc. rewrite Hc. replace (cont d) with false by (symmetry; unfold cont; destruct (N.leb_spec 128 d); [lia|reflexivity]).
    rewrite andb_false_r. destruct post as [|e post]; [reflexivity|]. rewrite andb_false_r. cbn [andb]. destruct post as [|f post]; [reflexivity|].
    rewrite andb_false_r. reflexivity.
  - assert (Ha : (a < 128)%N) by (apply Hp; simpl; auto). apply N.ltb_lt in Ha. rewrite Ha. rewrite IH; auto. intros x Hx. apply Hp. simpl; auto.
Qed.
Theorem C44_latin1_refuted : forall source getname pre c d post, source [] = pre ++ c :: d :: post -> ascii_text pre -> (128 <= c < 256)%N -> (d < 128)%N ->
  forall file alias, dump_source source [] getname = Ok file -> loadIO_source file alias = Err UnicodeDecodeError /\ load_source file alias = Err UnicodeDecodeError.
Proof.
  intros source getname pre c d post Es Hp Hc Hd file alias E. unfold dump_source, latin1 in E. destruct (forallb _ _); [|discriminate]. injection E as <-.
  unfold loadIO_source, load_source, decode. rewrite Es, <- app_assoc. cbn [app]. rewrite utf8_bad by (auto; lia). auto.
Qed.
(** ... and any other character makes dump_source fail *)
Theorem C44_unicode_refuted : forall source getname c, In c (source []) -> (256 <= c)%N -> dump_source source [] getname = Err UnicodeEncodeError.
Proof.
  intros source getname c Hc Hge. unfold dump_source, latin1. replace (forallb _ _) with false; [reflexivity|]. symmetry. apply not_true_iff_false.
  rewrite forallb_forall. intros Hf. specialize (Hf c (proj2 (in_app_iff _ _ _) (or_introl Hc))). apply N.ltb_lt in Hf. lia.
Qed.
(** ... while an object without a name is loaded as None *)
Theorem C44_unnamed_refuted : forall source, ascii_text (source []) -> exists file, dump_source source [] None = Ok file /\ load_source file [] = Ok none_text.
Proof.
  intros source Hs. destruct (C44_name_partial source [] None Hs) as [file [H1 [_ H2]]]; [| |eauto].
  - intros c Hc. repeat (destruct Hc as [<-|Hc]; [reflexivity|]). destruct Hc.
  - split; [discriminate|]. intros c Hc. repeat (destruct Hc as [<-|Hc]; [reflexivity|]). destruct Hc.
Qed.
(** f = 1 \n#NAME: g \n, dumped as _f *)
Example ex_C44 : exists file, dump_source (fun _ => [102; 61; 49; 10; 35; 78; 65; 77; 69; 58; 32; 103; 10]%N) [95; 102]%N None = Ok file /\
  loadIO_source file [] = Ok [95; 102]%N /\ load_source file [103]%N = Ok [103]%N.
Proof. eexists. repeat split. Qed.

(** ** C45 *)
Lemma exec_wf p : forall s s' e, exec p s = (s', e) -> wf (streams s) -> wf (streams s').
Proof.
  induction p as [| | | |p1 IH1 p2 IH2|p1 IH1 p2 IH2|n p IH]; intros s s' e E Hw; cbn [exec] in E.
  - injection E as <- _; auto.
  - destruct (get stream (streams s)); injection E as <- _; auto.
  - injection E as <- _. apply wf_set; auto.
  - injection E as <- _; auto.
  - destruct (exec p1 s) as [s1 e1] eqn:E1. destruct e1; [injection E as <- _; eauto|eauto].
  - destruct (exec p1 s) as [s1 e1] eqn:E1. destruct e1; [eauto|injection E as <- _; eauto].
  - destruct (get n (streams s)); [|injection E as <- _; auto].
    destruct (exec p _) as [s1 e1] eqn:E1. injection E as <- _. apply wf_set. eapply IH; eauto. apply wf_set; auto.
Qed.
(** however the block ends, whatever the program in it does (nested blocks, exceptions, assignments to sys.stdout) *)
Theorem C45_restored : forall n p s s' e, exec (Capture n p) s = (s', e) -> get n (streams s') = get n (streams s).
Proof.
  intros n p s s' e E. cbn [exec] in E. destruct (get n (streams s)) as [orig|] eqn:Eo; [|injection E as <- _; auto].
  destruct (exec p _) as [s1 e1] eqn:E1. injection E as <- _. cbn [streams]. apply get_set_same.
Qed.
(** the block does not swallow the exception nor raise one of its own *)
Theorem C45_exception : forall n p s s' e, exec (Capture n p) s = (s', e) -> has n (streams s) = true ->
  e = snd (exec p (St (set n (next s) (streams s)) (upd (text s) (next s) []) (S (next s)))).
Proof.
  intros n p s s' e E Hh. cbn [exec] in E. apply has_get in Hh as [h Hh]. rewrite Hh in E.
  destruct (exec p _) as [s1 e1] eqn:E1. injection E as _ <-. reflexivity.
Qed.

(** *** Specification of what is written where, for programs that do not assign sys.stdout themselves *)
Fixpoint no_assign (p : prog) : bool :=
  match p with Assign _ _ => false | Seq p q | Try p q => no_assign p && no_assign q | Capture _ p => no_assign p | _ => true end.
(** does the program end in an exception?  [present n]: sys has the attribute n *)
Fixpoint raises (present : string -> bool) (p : prog) : bool :=
  match p with
  | Skip | Assign _ _ => false
  | Write n _ => negb (present n)
  | Raise => true
  | Seq p q => raises present p || raises present q
  | Try p h => raises present p && raises present h
  | Capture n p => negb (present n) || raises present p
  end.
(** what it writes to the stream objects that [bound] says, in order; a nested capture of a stream diverts it *)
Fixpoint written (present : string -> bool) (bound : string -> bool) (p : prog) : list nat :=
  match p with
  | Skip | Assign _ _ | Raise => []
  | Write n t => if bound n then t else []
  | Seq p q => written present bound p ++ (if raises present p then [] else written present bound q)
  | Try p h => written present bound p ++ (if raises present p then written present bound h else [])
  | Capture n p => if present n then written present (fun m => bound m && negb (String.eqb m n)) p else []
  end.
Definition bound_to (s : state) (h : nat) (n : string) : bool := match get n (streams s) with Some h' => Nat.eqb h' h | None => false end.
Definition good (s : state) : Prop := wf (streams s) /\ forall n h, get n (streams s) = Some h -> h < next s.

Lemma written_ext present : forall p b b', (forall n, b n = b' n) -> written present b p = written present b' p.
Proof.
  induction p as [| | | |p1 IH1 p2 IH2|p1 IH1 p2 IH2|n p IH]; intros b b' Hb; cbn [written]; auto.
  - rewrite Hb. reflexivity.
  - rewrite (IH1 b b'), (IH2 b b'); auto.
  - rewrite (IH1 b b'), (IH2 b b'); auto.
  - destruct (present n); auto. apply IH. intros m. rewrite Hb. reflexivity.
Qed.
Lemma present_ext : forall p q q', (forall n, q n = q' n) -> raises q p = raises q' p /\ forall b, written q b p = written q' b p.
Proof.
  induction p as [|n t| | |p1 IH1 p2 IH2|p1 IH1 p2 IH2|n p IH]; intros q q' Hq; cbn [written raises]; auto.
  - rewrite Hq. auto.
  - destruct (IH1 q q' Hq) as [-> H1], (IH2 q q' Hq) as [-> H2]. split; auto. intros b. rewrite H1, H2. auto.
  - destruct (IH1 q q' Hq) as [-> H1], (IH2 q q' Hq) as [-> H2]. split; auto. intros b. rewrite H1, H2. auto.
  - destruct (IH q q' Hq) as [-> H1]. rewrite Hq. split; auto. intros b. rewrite H1. auto.
Qed.
Lemma written_none present : forall p, written present (fun _ => false) p = [].
Proof.
  induction p as [|n t| | |p1 IH1 p2 IH2|p1 IH1 p2 IH2|n p IH]; cbn [written]; auto.
  - rewrite IH1. destruct (raises present p1); auto.
  - rewrite IH1. destruct (raises present p1); auto.
  - destruct (present n); auto.
Qed.

Theorem exec_spec : forall p s s' e, no_assign p = true -> good s -> exec p s = (s', e) ->
  let present := fun n => has n (streams s) in
  e = raises present p /\ (forall n, get n (streams s') = get n (streams s)) /\ next s <= next s' /\ good s' /\
  (forall h, h < next s -> text s' h = text s h ++ written present (bound_to s h) p).
Proof.
  induction p as [|n t|n h|  |p1 IH1 p2 IH2|p1 IH1 p2 IH2|n p IH]; intros s s' e Hna Hg E; cbn [exec no_assign] in *; cbv zeta.
  - injection E as <- <-. cbn [raises written]. split; [|split; [|split; [|split]]]; auto. intros h _. rewrite app_nil_r. auto.
  - cbn [raises written]. destruct (get n (streams s)) as [h|] eqn:Eg; injection E as <- <-; cbn [streams text next].
    + unfold has. rewrite Eg. split; [|split; [|split; [|split]]]; auto. intros h' _. unfold upd, bound_to. rewrite Eg.
      rewrite (Nat.eqb_sym h h'). destruct (Nat.eqb_spec h' h) as [->|]; [auto|rewrite app_nil_r; auto].
    + unfold has. rewrite Eg. split; [|split; [|split; [|split]]]; auto. intros h' _. unfold bound_to. rewrite Eg, app_nil_r. auto.
  - discriminate.
  - injection E as <- <-. cbn [raises written]. split; [|split; [|split; [|split]]]; auto. intros h _. rewrite app_nil_r. auto.
  - apply andb_true_iff in Hna as [Hn1 Hn2]. destruct (exec p1 s) as [s1 e1] eqn:E1.
    destruct (IH1 s s1 e1 Hn1 Hg E1) as [He [Hs [Hx [Hg1 Ht]]]]. cbn [raises written]. destruct e1.
    + injection E as <- <-. rewrite <- He. cbn [orb]. split; [|split; [|split; [|split]]]; auto. intros h Hh. rewrite app_nil_r. auto.
    + destruct (IH2 s1 s' e Hn2 Hg1 E) as [He2 [Hs2 [Hx2 [Hg2 Ht2]]]]. rewrite <- He. cbn [orb].
      assert (Hp : forall n, has n (streams s1) = has n (streams s)) by (intros n; unfold has; rewrite Hs; auto).
      destruct (present_ext p2 _ _ Hp) as [Hr Hw].
      split; [|split; [|split; [|split]]]; auto; try lia; try congruence.
      intros h Hh. rewrite Ht2, Ht, Hw by lia. rewrite <- app_assoc. f_equal. f_equal. apply written_ext. intros n. unfold bound_to. rewrite Hs. auto.
  - apply andb_true_iff in Hna as [Hn1 Hn2]. destruct (exec p1 s) as [s1 e1] eqn:E1.
    destruct (IH1 s s1 e1 Hn1 Hg E1) as [He [Hs [Hx [Hg1 Ht]]]]. cbn [raises written]. destruct e1.
    + destruct (IH2 s1 s' e Hn2 Hg1 E) as [He2 [Hs2 [Hx2 [Hg2 Ht2]]]]. rewrite <- He. cbn [andb].
      assert (Hp : forall n, has n (streams s1) = has n (streams s)) by (intros n; unfold has; rewrite Hs; auto).
      destruct (present_ext p2 _ _ Hp) as [Hr Hw].
      split; [|split; [|split; [|split]]]; auto; try lia; try congruence.
      intros h Hh. rewrite Ht2, Ht, Hw by lia. rewrite <- app_assoc. f_equal. f_equal. apply written_ext. intros n. unfold bound_to. rewrite Hs. auto.
    + injection E as <- <-. rewrite <- He. cbn [andb]. split; [|split; [|split; [|split]]]; auto. intros h Hh. rewrite app_nil_r. auto.
  - cbn [raises written]. destruct (get n (streams s)) as [orig|] eqn:Eg.
    + set (s0 := St (set n (next s) (streams s)) (upd (text s) (next s) []) (S (next s))) in *.
      assert (Hg0 : good s0).
      { split; [apply wf_set, Hg|]. cbn [streams next s0]. intros m h Hm. rewrite get_set in Hm. destruct (eqb m n); [injection Hm; lia|].
        destruct Hg as [_ Hg]. specialize (Hg m h Hm). lia. }
      destruct (exec p s0) as [s1 e1] eqn:E1. destruct (IH s0 s1 e1 Hna Hg0 E1) as [He [Hs [Hx [Hg1 Ht]]]]. injection E as <- <-.
      assert (Hp : forall m, has m (streams s0) = has m (streams s)).
      { intros m. unfold has, s0. cbn [streams]. rewrite get_set. destruct (eqb_spec m n) as [->|]; auto. rewrite Eg. auto. }
      destruct (present_ext p _ _ Hp) as [Hr Hw].
      assert (Hh : has n (streams s) = true) by (apply has_get; eauto).
      cbn [streams text next]. rewrite Hh. cbn [negb orb]. cbn [next s0] in Hx, Ht.
      assert (Hback : forall m, get m (set n orig (streams s1)) = get m (streams s)).
      { intros m. rewrite get_set. destruct (eqb_spec m n) as [->|Hne]; [auto|]. rewrite Hs. unfold s0. cbn [streams]. apply get_set_other; auto. }
      split; [congruence|]. split; [auto|]. split; [lia|]. split.
      * split; [apply wf_set, Hg1|]. cbn [streams next]. intros m h Hm. rewrite Hback in Hm. destruct Hg as [_ Hg]. specialize (Hg m h Hm). lia.
      * intros h Hlt. rewrite Ht, Hw by lia. unfold s0 at 1. cbn [text]. unfold upd. destruct (Nat.eqb_spec h (next s)); [lia|]. f_equal.
        apply written_ext. intros m. unfold bound_to, s0. cbn [streams]. rewrite get_set. change (String.eqb m n) with (eqb m n).
        destruct (eqb m n); cbn [negb]; rewrite ?andb_false_r, ?andb_true_r; auto. apply Nat.eqb_neq. lia.
    + injection E as <- <-. unfold has. rewrite Eg. cbn [negb orb]. split; [|split; [|split; [|split]]]; auto. intros h _. rewrite app_nil_r. auto.
Qed.
(** C45.  After a block whose program does not assign sys.<stream> itself: every stream of sys is the object it was; the
    new buffer holds exactly what the block wrote to the stream, in order, up to where it ended; and whatever the
    stream was before received nothing through that name *)
Theorem C45_captured : forall n p s s' e, no_assign p = true -> good s -> has n (streams s) = true -> exec (Capture n p) s = (s', e) ->
  let present := fun m => has m (streams s) in
  (forall m, get m (streams s') = get m (streams s)) /\ e = raises present p /\
  text s' (next s) = written present (String.eqb n) p /\
  (forall h, h < next s -> text s' h = text s h ++ written present (fun m => bound_to s h m && negb (String.eqb m n)) p).
Proof.
  intros n p s s' e Hna Hg Hh E. cbv zeta.
  destruct (exec_spec (Capture n p) s s' e Hna Hg E) as [He [Hs [Hx [Hg' Ht]]]]. cbn [raises written] in He, Ht. rewrite Hh in He, Ht. cbn [negb orb] in He.
  split; [auto|]. split; [auto|]. split; [|auto].
  cbn [exec] in E. pose proof Hh as Hh'. apply has_get in Hh' as [orig Eg]. rewrite Eg in E.
  set (s0 := St (set n (next s) (streams s)) (upd (text s) (next s) []) (S (next s))) in *.
  assert (Hg0 : good s0).
  { split; [apply wf_set, Hg|]. cbn [streams next s0]. intros m h Hm. rewrite get_set in Hm. destruct (eqb m n); [injection Hm; lia|].
    destruct Hg as [_ Hg]. specialize (Hg m h Hm). lia. }
  destruct (exec p s0) as [s1 e1] eqn:E1. destruct (exec_spec p s0 s1 e1 Hna Hg0 E1) as [_ [_ [_ [_ Ht0]]]]. injection E as <- _. cbn [text].
  rewrite Ht0 by (cbn [next s0]; lia). unfold s0 at 1. cbn [text]. unfold upd. rewrite Nat.eqb_refl. cbn [app].
  assert (Hp : forall m, has m (streams s0) = has m (streams s)).
  { intros m. unfold has, s0. cbn [streams]. rewrite get_set. destruct (eqb_spec m n) as [->|]; [rewrite Eg|]; auto. }
  destruct (present_ext p _ _ Hp) as [_ Hw]. rewrite Hw. apply written_ext. intros m. unfold bound_to, s0. cbn [streams]. rewrite get_set.
  change (String.eqb n m) with (eqb n m). destruct (eqb_spec m n) as [->|Hne].
  - rewrite Nat.eqb_refl. symmetry. apply eqb_refl.
  - rewrite (eqb_neq n m) by auto. destruct (get m (streams s)) as [h|] eqn:Em; [|reflexivity]. apply Nat.eqb_neq. destruct Hg as [_ Hg]. specialize (Hg m h Em). lia.
Qed.
Local Open Scope string_scope.
Example ex_C45 : let s := St [("stdout", 1); ("stderr", 2)] (fun _ => []) 3 in
  let p := Seq (Write "stdout" [1]) (Seq (Capture "stdout" (Write "stdout" [2])) (Seq (Write "stderr" [9]) (Seq (Write "stdout" [3]) (Seq Raise (Write "stdout" [4]))))) in
  let r := exec (Capture "stdout" p) s in
  good s /\ snd r = true /\ text (fst r) 3 = [1; 3]%nat /\ text (fst r) 4 = [2]%nat /\ text (fst r) 1 = [] /\ text (fst r) 2 = [9]%nat /\ streams (fst r) = streams s.
Proof.
  cbv zeta. split.
  - split; [repeat constructor; simpl; intuition discriminate|]. intros n h. cbn [streams get next]. destruct (eqb n "stdout"); [intros E; injection E; lia|].
    destruct (eqb n "stderr"); [intros E; injection E; lia|discriminate].
  - repeat split.
Qed.
Print Assumptions C44_name_partial.
Print Assumptions C44_alias.
Print Assumptions C45_restored.
Print Assumptions C45_captured.
