(** C73: importable gives text for the object it was asked for; getsource finds the class of an instance. *)
From Coq Require Import String Ascii List Bool Arith Lia.
From Verif Require Import GlobalsModel ImportableModel.
Import ListNotations.
Local Open Scope string_scope.

(** ** specification *)
(** [t] imports [o]: what _importable or _closuredimport, with one entry, give for it *)
Definition imports (W : world) (x : subject) (t : string) : Prop :=
  (isinst W x = true /\ inst_import W x = Some t) \/ (isinst W x = false /\ closure_imports W x = Some [t]).
(** the sources of the globals, each under its name, in order; builtins need none *)
Inductive global_sources (W : world) : list (string * nat) -> list string -> Prop :=
  | gs_nil : global_sources W [] []
  | gs_builtin n o d l : isbuiltin_ W (Obj o) = true -> global_sources W d l -> global_sources W ((n, o) :: d) l
  | gs_source n o d t l : isbuiltin_ W (Obj o) = false -> source_as W o n = Some t -> global_sources W d l -> global_sources W ((n, o) :: d) (t :: l).
(** [t] is the source of [o]: the globals' sources, then the object's own text *)
Definition parts (b : string * option string) : list string := fst b :: match snd b with Some c => [c] | None => [] end.
Definition lines_joined (l : list string) : string := String.concat (String (ascii_of_nat 10) "") (filter (fun s => negb (String.eqb s "")) l).
Definition own_text (first : string * option string) (others : list (string * option string)) : string := lines_joined (map (fun b => lines_joined (parts b)) (first :: others)).
Definition sourced (W : world) (x : subject) (t : string) : Prop :=
  exists first others d l, closure_sources W x = Some (first, others) /\ globalvars_ W x = Some d /\ global_sources W d l /\
    t = String.concat newline l ++ own_text first others.
(** the order in which the two ways are tried *)
Definition source_first (W : world) (o : nat) (source : option bool) (builtin : bool) : bool :=
  match source with None => frommain W (Obj o) | Some b => b && negb (builtin && isbuiltin_ W (Obj o)) end.

(** ** proofs *)
Lemma by_import_spec W x t : by_import W x = Some t <-> imports W x t.
Proof.
  unfold by_import, imports. destruct (isinst W x); split.
  - intros E. left. auto.
  - intros [(_ & E)|(E & _)]; [exact E|discriminate].
  - intros E. right. destruct (closure_imports W x) as [[|a [|b l]]|]; try discriminate. injection E as ->. auto.
  - intros [(E & _)|(_ & E)]; [discriminate|]. rewrite E. reflexivity.
Qed.
Lemma sources_spec W : forall d l, sources W d = Some l <-> global_sources W d l.
Proof.
  induction d as [|[n o] d IH]; intros l; cbn [sources].
  - split; [intros E; injection E as <-; constructor|intros G; inversion G; reflexivity].
  - destruct (isbuiltin_ W (Obj o)) eqn:B.
    + rewrite IH. split; [intros G; apply gs_builtin; assumption|intros G; inversion G; subst; [assumption|congruence]].
    + destruct (source_as W o n) as [t|] eqn:S; [|split; [discriminate|intros G; inversion G; subst; congruence]].
      split.
      * destruct (sources W d) as [l'|]; [|discriminate]. intros E. injection E as <-. apply gs_source; auto. apply IH. reflexivity.
      * intros G. inversion G; subst; [congruence|]. assert (t0 = t) as -> by congruence. apply IH in H5. rewrite H5. reflexivity.
Qed.
Lemma app_empty_r s : s ++ "" = s.
Proof. induction s; cbn; congruence. Qed.
Lemma stitch_parts b : stitch b = lines_joined (parts b).
Proof.
  destruct b as [a [c|]]; unfold stitch, lines_joined, parts; cbn [fst snd filter].
  - destruct (String.eqb_spec a "") as [->|_], (String.eqb_spec c "") as [->|_]; reflexivity.
  - destruct (String.eqb_spec a "") as [->|_]; reflexivity.
Qed.
Lemma own_text_eq first others : own_text first others = String.concat newline (nonempty (stitch first :: map stitch others)).
Proof. unfold own_text. rewrite <- (map_ext _ _ stitch_parts). reflexivity. Qed.
Lemma joined g src : (if String.eqb g "" then src else if String.eqb src "" then g else g ++ src) = g ++ src.
Proof. destruct (String.eqb_spec g "") as [->|_]; [reflexivity|]. destruct (String.eqb_spec src "") as [->|_]; [symmetry; apply app_empty_r|reflexivity]. Qed.
Lemma inl_inv {A B} (x y : A) : @inl A B x = inl y -> y = x.
Proof. intros E. injection E as ->. reflexivity. Qed.
Lemma by_source_spec W x t : by_source W x = inl t <-> sourced W x t.
Proof.
  unfold by_source, sourced. split.
  - destruct (closure_sources W x) as [[first others]|]; [|discriminate]. destruct (globalvars_ W x) as [d|]; [|discriminate]. destruct (sources W d) as [l|] eqn:S; [|discriminate].
    intros E. apply inl_inv in E. rewrite joined, <- own_text_eq in E. exists first, others, d, l. repeat split; auto. apply sources_spec. exact S.
  - intros (first & others & d & l & -> & -> & G & ->). apply sources_spec in G. rewrite G. cbv zeta. rewrite joined, own_text_eq. reflexivity.
Qed.
Lemma outcome_eq fuel W o source builtin : importable (S (S fuel)) W o source builtin =
  if source_first W o source builtin
  then match by_source W (Obj o) with inl t => Text t | inr x => match by_import W x with Some t => Text t | None => Raises end end
  else match by_import W (Obj o) with Some t => Text t | None => match by_source W (Obj o) with inl t => Text t | inr _ => Raises end end.
Proof.
  unfold importable. assert (match source with None => frommain W (Obj o) | Some b => if builtin && isbuiltin_ W (Obj o) then false else b end = source_first W o source builtin) as ->.
  { unfold source_first. destruct source as [b|]; [|reflexivity]. destruct (builtin && isbuiltin_ W (Obj o)), b; reflexivity. }
  generalize (source_first W o source builtin) as s. intros [|]; cbn [attempts negb].
  - destruct (by_source W (Obj o)); [reflexivity|]. destruct (by_import W s); reflexivity.
  - destruct (by_import W (Obj o)); [reflexivity|]. destruct (by_source W (Obj o)); reflexivity.
Qed.
Lemma by_source_inr W x y : by_source W x = inr y -> (y = x /\ (closure_sources W x = None \/ globalvars_ W x = None)) \/
  exists d, y = Globals d /\ closure_sources W x <> None /\ globalvars_ W x = Some d /\ forall l, ~ global_sources W d l.
Proof.
  unfold by_source. destruct (closure_sources W x) as [[first others]|]; [|intros E; injection E as <-; auto]. destruct (globalvars_ W x) as [d|]; [|intros E; injection E as <-; auto].
  destruct (sources W d) as [l|] eqn:S; [discriminate|]. intros E. injection E as <-. right. exists d. repeat split; auto; [discriminate|]. intros l G. apply sources_spec in G. congruence.
Qed.

(** ** theorems *)
(** importable always ends: two rounds are enough *)
Theorem C73_ends : forall fuel W o source builtin, 2 <= fuel -> importable fuel W o source builtin <> Loops /\ importable fuel W o source builtin = importable 2 W o source builtin.
Proof.
  intros [|[|fuel]] W o source builtin L; try lia. rewrite !outcome_eq. split; [|reflexivity].
  destruct (source_first W o source builtin); [destruct (by_source W (Obj o)) as [|x]; [discriminate|destruct (by_import W x); discriminate]|destruct (by_import W (Obj o)); [discriminate|destruct (by_source W (Obj o)); discriminate]].
Qed.
(** if the import is tried first, the text is for the object, and an exception means that neither way works *)
Theorem C73_import_first : forall W o source builtin, source_first W o source builtin = false ->
  match importable 2 W o source builtin with
  | Text t => imports W (Obj o) t \/ ((forall t', ~ imports W (Obj o) t') /\ sourced W (Obj o) t)
  | Raises => forall t, ~ imports W (Obj o) t /\ ~ sourced W (Obj o) t
  | Loops => False
  end.
Proof.
  intros W o source builtin F. rewrite outcome_eq, F. destruct (by_import W (Obj o)) as [t|] eqn:I; [left; apply by_import_spec; exact I|].
  assert (forall t', ~ imports W (Obj o) t') as N by (intros t' A; apply by_import_spec in A; congruence). destruct (by_source W (Obj o)) as [t|x] eqn:S.
  - right. split; [exact N|apply by_source_spec; exact S].
  - intros t. split; [apply N|]. intros A. apply by_source_spec in A. congruence.
Qed.
(** if the source is tried first: likewise, provided the sources of all the globals are found *)
Theorem C73_source_first_partial : forall W o source builtin, source_first W o source builtin = true ->
  (forall d, globalvars_ W (Obj o) = Some d -> exists l, global_sources W d l) ->
  match importable 2 W o source builtin with
  | Text t => sourced W (Obj o) t \/ ((forall t', ~ sourced W (Obj o) t') /\ imports W (Obj o) t)
  | Raises => forall t, ~ imports W (Obj o) t /\ ~ sourced W (Obj o) t
  | Loops => False
  end.
Proof.
  intros W o source builtin F G. rewrite outcome_eq, F. destruct (by_source W (Obj o)) as [t|x] eqn:S; [left; apply by_source_spec; exact S|].
  assert (forall t', ~ sourced W (Obj o) t') as N by (intros t' A; apply by_source_spec in A; congruence). destruct (by_source_inr _ _ _ S) as [(-> & _)|(d & -> & _ & E & NG)].
  - destruct (by_import W (Obj o)) as [t|] eqn:I; [right; split; [exact N|apply by_import_spec; exact I]|]. intros t. split; [|apply N]. intros A. apply by_import_spec in A. congruence.
  - destruct (G d E) as (l & Gl). exfalso. exact (NG l Gl).
Qed.
(** otherwise the text is what importing the dictionary of the globals gives: it does not depend on the object, nor on whether the object can be imported *)
Theorem C73_wrong_object : forall W o source builtin d t, source_first W o source builtin = true ->
  closure_sources W (Obj o) <> None -> globalvars_ W (Obj o) = Some d -> (forall l, ~ global_sources W d l) -> imports W (Globals d) t ->
  importable 2 W o source builtin = Text t.
Proof.
  intros W o source builtin d t F C E NG I. rewrite outcome_eq, F. destruct (by_source W (Obj o)) as [t'|x] eqn:S.
  - exfalso. apply by_source_spec in S. destruct S as (first & others & d' & l & _ & E' & Gl & _). assert (d' = d) as -> by congruence. exact (NG l Gl).
  - destruct (by_source_inr _ _ _ S) as [(_ & [N|N])|(d' & -> & _ & E' & _)]; [contradiction|congruence|]. assert (d' = d) as -> by congruence. apply by_import_spec in I. rewrite I. reflexivity.
Qed.
(** def f(): log.write('x') in __main__, log an open file, importable(f): getsource(log) raises TypeError, and importing the dictionary {'log': log} gives
    an import of dict *)
Definition log_world : world := {|
  frommain := fun x => match x with Obj 0 => true | _ => false end;
  isbuiltin_ := fun _ => false;
  isinst := fun x => match x with Obj 1 => true | _ => false end;
  inst_import := fun _ => None;
  closure_imports := fun x => match x with Obj 0 => Some ["from __main__ import f" ++ newline] | Globals _ => Some ["from builtins import dict" ++ newline] | _ => None end;
  closure_sources := fun x => match x with Obj 0 => Some (("", Some ("def f():" ++ newline ++ "    log.write('x')" ++ newline)), []) | _ => None end;
  globalvars_ := fun x => match x with Obj 0 => Some [("log", 1)] | _ => Some [] end;
  source_as := fun o _ => match o with 0 => Some "def f(): ..." | _ => None end |}.
Theorem C73_refuted : importable 2 log_world 0 None true = Text ("from builtins import dict" ++ newline) /\ imports log_world (Obj 0) ("from __main__ import f" ++ newline).
Proof. split; [vm_compute; reflexivity|]. right. split; reflexivity. Qed.
(** the hypotheses of the partial theorem are met: the same function with a helper instead of the file *)
Definition helper_world : world := {|
  frommain := frommain log_world; isbuiltin_ := isbuiltin_ log_world; isinst := isinst log_world; inst_import := inst_import log_world; closure_imports := closure_imports log_world;
  closure_sources := closure_sources log_world; globalvars_ := globalvars_ log_world;
  source_as := fun o n => match o with 1 => Some ("log = helper.log" ++ newline) | _ => None end |}.
Example C73_met : source_first helper_world 0 None true = true /\ (forall d, globalvars_ helper_world (Obj 0) = Some d -> exists l, global_sources helper_world d l) /\
  importable 2 helper_world 0 None true = Text ("log = helper.log" ++ newline ++ "def f():" ++ newline ++ "    log.write('x')" ++ newline).
Proof.
  split; [reflexivity|]. split; [|vm_compute; reflexivity]. intros d E. injection E as <-. eexists. apply gs_source; [reflexivity|reflexivity|constructor].
Qed.

(** ** the class of an instance *)
Lemma has_char_app c a b : has_char c (a ++ b) = has_char c a || has_char c b.
Proof. induction a as [|x a IH]; cbn; [reflexivity|]. rewrite IH. apply orb_assoc. Qed.
Lemma lstrip_all chars : forall a b, (forall c, has_char c a = true -> has_char c chars = true) -> lstrip_of chars (a ++ b) = lstrip_of chars b.
Proof.
  induction a as [|x a IH]; intros b A; [reflexivity|]. cbn [append lstrip_of]. rewrite (A x) by (cbn; rewrite Ascii.eqb_refl; reflexivity). apply IH. intros c C. apply A. cbn. rewrite C. apply orb_true_r.
Qed.
Lemma lstrip_length chars : forall s, String.length (lstrip_of chars s) <= String.length s.
Proof. induction s as [|c s IH]; cbn; [lia|]. destruct (has_char c chars); cbn; lia. Qed.
Lemma evaluated_eq m n : evaluated m n = lstrip_of (n ++ " = ") (class_expr m n).
Proof.
  unfold evaluated. rewrite lstrip_all; [|intros c C; rewrite has_char_app, C; reflexivity]. change (" = " ++ class_expr m n) with (" = " ++ class_expr m n). rewrite (lstrip_all (n ++ " = ") " = "); [reflexivity|].
  intros c C. rewrite has_char_app, C. apply orb_true_r.
Qed.
(** getsource evaluates the expression for the class exactly if the name of the class has no underscore *)
Theorem C73_instance_class_iff : forall m n, evaluated m n = class_expr m n <-> has_char "_" n = false.
Proof.
  intros m n. rewrite evaluated_eq. assert (exists r, class_expr m n = String "_" r) as (r & ->) by (eexists; reflexivity). cbn [lstrip_of]. rewrite has_char_app. split.
  - intros E. destruct (has_char "_" n) eqn:U; [|reflexivity]. exfalso. cbn [orb] in E. apply (f_equal String.length) in E. pose proof (lstrip_length (n ++ " = ") r) as L. cbn [String.length] in E. lia.
  - intros U. rewrite U. reflexivity.
Qed.
(** otherwise what is evaluated has lost at least the underscores of __import__ *)
Theorem C73_instance_class_lost : forall m n, has_char "_" n = true -> exists s, s <> "" /\ class_expr m n = "__" ++ s /\ String.length (evaluated m n) <= String.length s.
Proof.
  intros m n U. rewrite evaluated_eq. set (s := "import__(" ++ quoted m ++ ", fromlist=[" ++ quoted n ++ "])." ++ n ++ newline). exists s.
  assert (class_expr m n = String "_" (String "_" s)) as -> by reflexivity. split; [discriminate|]. split; [reflexivity|]. clearbody s.
  cbn [lstrip_of]. rewrite has_char_app, U. cbn [orb]. apply lstrip_length.
Qed.
Theorem C73_instance_refuted : evaluated "shapes" "My_Shape" = "import__('shapes', fromlist=['My_Shape']).My_Shape" ++ newline.
Proof. vm_compute. reflexivity. Qed.
