(** C14-C16: code objects within and across versions. *)
From Coq Require Import String List Bool ZArith.
From Verif Require Import PyDict CodeModel.
Import ListNotations.
Local Open Scope string_scope.

(** the code objects of an interpreter: what its CodeType builds *)
Definition code_of (v : version) (c : @dict string cval) : Prop := exists args, CodeType v args = Some c.
(** co_lnotab is bytes when the attribute exists; only 3.11+ (CPython 3.15) may lack it *)
Definition lnotab_ok (v : version) (t : option cval) : Prop :=
  match t with Some (CBytes _) => True | Some _ => False | None => v = V311 end.
(** dump on the version of [c], load on [w] *)
Definition transfer (utf8 : string -> list nat) (lnotab : option cval) (c : @dict string cval) (w : version) : option (@dict string cval) :=
  match save_code lnotab c with Some args => create_code utf8 w args | None => None end.

(** what each field of the copy should be, except the line tables *)
Definition table_field (n : string) : bool := memb n ["lnotab"; "linetable"].
Definition default_field (c : @dict string cval) (n : string) : option cval :=
  if String.eqb n "posonlyargcount" then Some (CInt 0)
  else if String.eqb n "qualname" then get "name" c
  else if String.eqb n "exceptiontable" then Some (CBytes [])
  else if memb n ["endlinetable"; "columntable"] then Some CNone
  else None.

Lemma detect_ok : forall v, detect (fun n => memb n (params v)) = Some v.
Proof. intros []; reflexivity. Qed.

Ltac list_out args := repeat (destruct args as [|? args]; [try discriminate|]); try discriminate.

Definition table_expected (utf8 : string -> list nat) (lnotab : option cval) (c : @dict string cval) (v w : version) : option cval :=
  match ge310 v, ge310 w with
  | true, true => get "linetable" c
  | false, false => get "lnotab" c
  | true, false => match v, w, lnotab with
                   | V310, V38, _ => get "linetable" c
                   | V310, _, Some (CBytes []) => get "linetable" c
                   | _, _, Some t => Some t | _, _, None => Some (CBytes []) end
  | false, true => match v with V37 => Some (CBytes []) | _ => get "lnotab" c end
  end.

Definition full_field (utf8 : string -> list nat) (lnotab : option cval) (c : @dict string cval) (v w : version) (n : string) : option cval :=
  if table_field n then table_expected utf8 lnotab c v w
  else match get n c with Some x => Some x | None => default_field c n end.

Lemma transfer_exact : forall utf8 v w c lnotab, code_of v c -> lnotab_ok v lnotab ->
  exists c', transfer utf8 lnotab c w = Some c' /\ code_of w c' /\
    forall n, In n (params w) -> get n c' = full_field utf8 lnotab c v w n.
Proof.
  intros utf8 v w c lnotab [args Hc] Hl. unfold CodeType in Hc.
  destruct (Nat.eqb_spec (length args) (length (params v))) as [Hn|]; [|discriminate].
  cbn [andb] in Hc. destruct (forallb _ _) eqn:Hf; [|discriminate]. injection Hc as <-.
  destruct v;
  (repeat (destruct args as [|? args]; [discriminate Hn|]); destruct args; [|discriminate Hn]); clear Hn;
  vm_compute in Hf;
  repeat match type of Hf with context [match ?x with _ => _ end] => is_var x; destruct x; try discriminate Hf end; clear Hf;
  (destruct lnotab as [[]|]; try contradiction; try discriminate Hl); clear Hl.
  all: try match goal with |- context [transfer _ (Some (CBytes ?b))] => destruct b end.
  all: destruct w; eexists; (split; [vm_compute; reflexivity|]); (split; [match goal with |- code_of _ ?d => exists (map snd d); vm_compute; reflexivity end|]);
    intros ? Hin; vm_compute in Hin; repeat (destruct Hin as [<-|Hin]; [vm_compute; reflexivity|]); contradiction.
Qed.

Lemma code_of_ext v c c' : code_of v c -> code_of v c' -> (forall n, In n (params v) -> get n c = get n c') -> c = c'.
Proof.
  assert (G : forall (ps : list string) (a b : list cval), NoDup ps -> length a = length ps -> length b = length ps ->
            (forall n, In n ps -> get n (combine ps a) = get n (combine ps b)) -> combine ps a = combine ps b).
  { induction ps as [|p ps IH]; intros a b Hd Ha Hb H; [reflexivity|].
    destruct a as [|x a]; [discriminate|]. destruct b as [|y b]; [discriminate|].
    inversion Hd as [|? ? Hni Hd']; subst. cbn [combine]. f_equal.
    - specialize (H p (or_introl eq_refl)). cbn [combine get] in H. rewrite eqb_refl in H. congruence.
    - apply IH; auto. intros n Hi. specialize (H n (or_intror Hi)). cbn [combine get] in H.
      rewrite eqb_neq in H by (intros ->; tauto). exact H. }
  unfold code_of, CodeType. intros [a Ha] [b Hb] H.
  destruct (Nat.eqb_spec (length a) (length (params v))) as [La|]; [|discriminate].
  destruct (Nat.eqb_spec (length b) (length (params v))) as [Lb|]; [|discriminate].
  cbn [andb] in *. destruct (forallb _ (combine (params v) a)); [|discriminate].
  destruct (forallb _ (combine (params v) b)); [|discriminate].
  injection Ha as <-. injection Hb as <-. apply G; auto.
  destruct v; cbn [params]; repeat constructor; vm_compute; intuition discriminate.
Qed.
Lemma code_of_get v c : code_of v c -> forall n, (exists x, get n c = Some x) <-> In n (params v).
Proof.
  unfold code_of, CodeType. intros [a Ha] n.
  destruct (Nat.eqb_spec (length a) (length (params v))) as [La|]; [|discriminate].
  cbn [andb] in *. destruct (forallb _ (combine (params v) a)); [|discriminate]. injection Ha as <-.
  revert a La. induction (params v) as [|p ps IH]; intros a La.
  - simpl. split; [intros [x Hx]; discriminate|tauto].
  - destruct a as [|x a]; [discriminate|]. cbn [combine get]. destruct (eqb_spec n p) as [->|Hne].
    + split; [intros; left; auto|intros _; eauto].
    + rewrite IH by (simpl in La; congruence). simpl. intuition congruence.
Qed.

(** C14: dumped and loaded on the same version, a code object is the same in every constructor field. *)
Theorem C14_same_version : forall utf8 v c lnotab, code_of v c -> lnotab_ok v lnotab ->
  transfer utf8 lnotab c v = Some c.
Proof.
  intros utf8 v c l Hc Hl. destruct (transfer_exact utf8 v v c l Hc Hl) as [c' [Ht [Hc' Hf]]].
  rewrite Ht. f_equal. symmetry. eapply code_of_ext; eauto. intros n Hn. rewrite (Hf n Hn).
  apply (code_of_get v c Hc) in Hn as Hx. destruct Hx as [x Hx]. unfold full_field, table_expected.
  destruct (table_field n) eqn:Et.
  - unfold table_field in Et. apply memb_In in Et. destruct Et as [<-|[<-|[]]]; destruct v; cbn [ge310]; auto;
    exfalso; vm_compute in Hn; intuition discriminate.
  - rewrite Hx. reflexivity.
Qed.
(** the version is recognised from the attributes CodeType has *)
Theorem C14_version_detected : forall v, detect (fun n => memb n (params v)) = Some v.
Proof. intros []; reflexivity. Qed.

(** C15: between any two versions, every field both have is kept (the line table is C16), and a field
    only the loading version has gets its neutral default. *)
Theorem C15_across_versions : forall utf8 v w c lnotab, code_of v c -> lnotab_ok v lnotab ->
  exists c', transfer utf8 lnotab c w = Some c' /\ code_of w c' /\
    (forall n, In n (params v) -> In n (params w) -> n <> "lnotab" -> n <> "linetable" -> get n c' = get n c) /\
    (~ In "posonlyargcount" (params v) -> In "posonlyargcount" (params w) -> get "posonlyargcount" c' = Some (CInt 0)) /\
    (~ In "qualname" (params v) -> In "qualname" (params w) -> get "qualname" c' = get "name" c) /\
    (~ In "exceptiontable" (params v) -> In "exceptiontable" (params w) -> get "exceptiontable" c' = Some (CBytes [])) /\
    (forall n, n = "endlinetable" \/ n = "columntable" -> ~ In n (params v) -> In n (params w) -> get n c' = Some CNone).
Proof.
  intros utf8 v w c l Hc Hl. destruct (transfer_exact utf8 v w c l Hc Hl) as [c' [Ht [Hc' Hf]]].
  exists c'. split; auto. split; auto.
  assert (Hnone : forall n, ~ In n (params v) -> get n c = None).
  { intros n Hn. destruct (get n c) eqn:E; auto. exfalso. apply Hn, (code_of_get v c Hc). eauto. }
  split; [|split; [|split; [|split]]].
  - intros n Hv Hw H1 H2. rewrite (Hf n Hw). unfold full_field.
    destruct (table_field n) eqn:Et.
    { unfold table_field in Et. apply memb_In in Et. destruct Et as [<-|[<-|[]]]; congruence. }
    apply (code_of_get v c Hc) in Hv. destruct Hv as [x ->]. reflexivity.
  - intros Hv Hw. rewrite (Hf _ Hw). unfold full_field. rewrite (Hnone _ Hv). reflexivity.
  - intros Hv Hw. rewrite (Hf _ Hw). unfold full_field. rewrite (Hnone _ Hv). reflexivity.
  - intros Hv Hw. rewrite (Hf _ Hw). unfold full_field. rewrite (Hnone _ Hv). reflexivity.
  - intros n [->| ->] Hv Hw; rewrite (Hf _ Hw); unfold full_field; rewrite (Hnone _ Hv); reflexivity.
Qed.
(** the fourteen fields of the property are in every version *)
Theorem C15_common_fields : forall v n,
  In n ["argcount"; "kwonlyargcount"; "nlocals"; "stacksize"; "flags"; "code"; "consts"; "names"; "varnames"; "filename"; "name"; "firstlineno"; "freevars"; "cellvars"] ->
  In n (params v) /\ n <> "lnotab" /\ n <> "linetable".
Proof.
  intros v n Hn. apply memb_In in Hn.
  assert (H : forallb (fun m => memb m (params v) && negb (memb m ["lnotab"; "linetable"]))
    ["argcount"; "kwonlyargcount"; "nlocals"; "stacksize"; "flags"; "code"; "consts"; "names"; "varnames"; "filename"; "name"; "firstlineno"; "freevars"; "cellvars"] = true)
    by (destruct v; vm_compute; reflexivity).
  rewrite forallb_forall in H. apply memb_In in Hn. specialize (H n Hn). apply andb_prop in H as [H1 H2].
  apply memb_In in H1. split; auto. apply negb_true_iff in H2. apply memb_nIn in H2. simpl in H2. intuition congruence.
Qed.

(** C16: the line table.  [table w] is the name, and so the format, of the table the version expects. *)
Definition table (w : version) : string := match w with V37 | V38 => "lnotab" | _ => "linetable" end.
(** the copy's table is a table of the right format: the original's own table of that format, the
    original's co_lnotab, or empty *)
Definition right_format (lnotab : option cval) (c : @dict string cval) (v w : version) (t : option cval) : Prop :=
  (table v = table w /\ t = get (table v) c) \/ (table w = "lnotab" /\ t = lnotab) \/ t = Some (CBytes []).

Theorem C16_line_table_partial : forall utf8 v w c lnotab, code_of v c -> lnotab_ok v lnotab ->
  ~ (v = V38 /\ table w = "linetable") -> ~ (v = V310 /\ w = V38) -> ~ (v = V310 /\ w = V37 /\ lnotab = Some (CBytes [])) ->
  exists c', transfer utf8 lnotab c w = Some c' /\ right_format lnotab c v w (get (table w) c').
Proof.
  intros utf8 v w c l Hc Hl N1 N2 N3. destruct (transfer_exact utf8 v w c l Hc Hl) as [c' [Ht [Hc' Hf]]].
  exists c'. split; auto. rewrite Hf by (destruct w; vm_compute; tauto).
  assert (Etf : table_field (table w) = true) by (destruct w; reflexivity).
  unfold full_field, right_format. rewrite Etf.
  destruct l as [[]|]; try contradiction;
  destruct v, w; try discriminate Hl; cbn [table_expected ge310 table]; auto 6;
  try (exfalso; apply N1; split; reflexivity); try (exfalso; apply N2; split; reflexivity);
  destruct b; auto 6; exfalso; apply N3; auto.
Qed.
(** REFUTED for the excluded pairs: 3.8/3.9 hands its lnotab to any 3.10+ as linetable; 3.10 hands its
    linetable to 3.8/3.9 as lnotab, although the right table was pickled too; and to 3.7 when co_lnotab is empty *)
Theorem C16_lnotab_as_linetable_refuted : forall utf8 w c, code_of V38 c -> table w = "linetable" ->
  exists c', transfer utf8 (Some (CBytes [])) c w = Some c' /\ get "linetable" c' = get "lnotab" c.
Proof.
  intros utf8 w c Hc Hw. destruct (transfer_exact utf8 V38 w c (Some (CBytes [])) Hc I) as [c' [Ht [Hc' Hf]]].
  exists c'. split; auto. rewrite Hf by (destruct w; try discriminate Hw; vm_compute; tauto).
  destruct w; try discriminate Hw; reflexivity.
Qed.
Theorem C16_linetable_as_lnotab_refuted : forall utf8 c b, code_of V310 c ->
  exists c', transfer utf8 (Some (CBytes b)) c V38 = Some c' /\ get "lnotab" c' = get "linetable" c.
Proof.
  intros utf8 c b Hc. destruct (transfer_exact utf8 V310 V38 c (Some (CBytes b)) Hc I) as [c' [Ht [Hc' Hf]]].
  exists c'. split; auto. rewrite Hf by (vm_compute; tauto). reflexivity.
Qed.
Theorem C16_linetable_as_lnotab_37_refuted : forall utf8 c, code_of V310 c ->
  exists c', transfer utf8 (Some (CBytes [])) c V37 = Some c' /\ get "lnotab" c' = get "linetable" c.
Proof.
  intros utf8 c Hc. destruct (transfer_exact utf8 V310 V37 c (Some (CBytes [])) Hc I) as [c' [Ht [Hc' Hf]]].
  exists c'. split; auto. rewrite Hf by (vm_compute; tauto). reflexivity.
Qed.

(** example: one code object on 3.10, and what 3.11 and 3.8 make of it *)
Definition ex310 : list cval := [CInt 1; CInt 0; CInt 0; CInt 1; CInt 2; CInt 67; CBytes [124; 0]; COther 1; COther 2; COther 3; CStr "f.py"; CStr "f"; CInt 10; CBytes [4; 1]; COther 4; COther 5].
Example ex_C14 : exists c, CodeType V310 ex310 = Some c /\ code_of V310 c /\
  option_map (map snd) (transfer (fun _ => []) (Some (CBytes [0; 1])) c V310) = Some ex310 /\
  option_map (get "qualname") (transfer (fun _ => []) (Some (CBytes [0; 1])) c V311) = Some (Some (CStr "f")) /\
  option_map (get "lnotab") (transfer (fun _ => []) (Some (CBytes [0; 1])) c V37) = Some (Some (CBytes [0; 1])) /\
  option_map (get "lnotab") (transfer (fun _ => []) (Some (CBytes [0; 1])) c V38) = Some (Some (CBytes [4; 1])).
Proof.
  eexists. split; [reflexivity|]. split; [exists ex310; reflexivity|]. repeat split.
Qed.
