(** C13: function attributes survive. *)
From Coq Require Import String List Bool Arith Lia.
From Verif Require Import PyDict FuncModel.
Import ListNotations.
Local Open Scope string_scope.

Lemma update_nil_l (d : dict string nat) : wf d -> update [] d = d.
Proof.
  intros Hw. assert (G : forall d acc : dict string nat, NoDup (keys acc ++ keys d) -> update acc d = (acc ++ d)%list).
  { clear. induction d as [|[k x] d IH]; intros acc H; [unfold update; simpl; now rewrite app_nil_r|].
    unfold update in *. cbn [fold_left fst snd].
    assert (Hs : set k x acc = (acc ++ [(k, x)])%list).
    { assert (Hn : ~ In k (keys acc)).
      { intros Hi. apply NoDup_remove_2 in H. apply H. apply in_app_iff. auto. }
      clear - Hn. induction acc as [|[k' x'] acc IHa]; simpl; auto. simpl in Hn.
      destruct (String.eqb_spec k k') as [->|]; [tauto|]. rewrite IHa; auto. }
    rewrite Hs, IH.
    - now rewrite <- app_assoc.
    - unfold keys in *. rewrite map_app. simpl. rewrite <- app_assoc. exact H. }
  rewrite G; auto.
Qed.

(** Every attribute of the copy, for every function saved by value, in terms of the original: all of
    __name__, __module__, __defaults__, __kwdefaults__, __annotations__, __dict__, code and closure are
    kept; __qualname__ and __doc__ are kept except in one case each. The '__name__' of a module
    dictionary is taken to be the same when dumping and loading. *)
Theorem C13_attributes : forall v empty empty_tuple mg f,
  empty <> VNone -> f_annotations f <> VNone ->
  (forall d, f_dict f = Some d -> wf d /\ f_odd_dict f = VNone) ->
  let gname := match mg with Some n => n | None => None end in
  let f' := load_function v empty empty_tuple gname (save_function mg f) in
  f_code f' = f_code f /\ f_name f' = f_name f /\ f_module f' = f_module f /\ f_defaults f' = f_defaults f /\
  f_kwdefaults f' = f_kwdefaults f /\ f_annotations f' = f_annotations f /\ f_dict f' = f_dict f /\
  f_odd_dict f' = f_odd_dict f /\ f_closure f' = f_closure f /\
  f_qualname f' = (if has_co_qualname v && String.eqb (f_qualname f) (f_name f) then co_qualname (f_code f) else f_qualname f) /\
  f_doc f' = (if Nat.eqb (f_doc f) VNone then co_doc (f_code f) else f_doc f) /\
  f_type_params f' = empty_tuple.
Proof.
  intros v empty et mg f He Ha Hd gname f'. unfold f', gname. clear f' gname.
  destruct f as [c nm q md doc df kw an tp d od cl]. cbn [f_code f_name f_qualname f_module f_doc f_defaults f_kwdefaults f_annotations f_type_params f_dict f_odd_dict f_closure] in *.
  apply Nat.eqb_neq in Ha.
  assert (Hst : forall st, d = Some st -> update [] st = st) by (intros st E; apply update_nil_l; destruct (Hd _ E); auto).
  assert (Hod : forall st, d = Some st -> VNone = od) by (intros st E; symmetry; apply (proj2 (Hd _ E))).
  clear Hd He. unfold save_function.
  cbn [f_code f_name f_qualname f_module f_doc f_defaults f_kwdefaults f_annotations f_type_params f_dict f_odd_dict f_closure].
  rewrite Ha. clear Ha.
  destruct mg as [[n|]|]; cbn [globs_name]; rewrite ?Nat.eqb_refl; [destruct (Nat.eqb_spec md n) as [<-|E4]| |];
  (destruct (Nat.eqb_spec doc VNone) as [->|E1]; destruct (Nat.eqb_spec kw VNone) as [->|E2];
    destruct (String.eqb_spec q nm) as [->|E3]);
  destruct d as [st|]; destruct v as [[|]]; vm_compute; (repeat apply conj; try reflexivity;
  first [exact (f_equal Some (Hst _ eq_refl)) | exact (Hod _ eq_refl)]).
Qed.

(** __qualname__ is kept exactly when ... *)
Theorem C13_qualname_partial : forall v empty empty_tuple mg f,
  empty <> VNone -> f_annotations f <> VNone -> (forall d, f_dict f = Some d -> wf d /\ f_odd_dict f = VNone) ->
  let f' := load_function v empty empty_tuple (match mg with Some n => n | None => None end) (save_function mg f) in
  f_qualname f' = f_qualname f <->
  ~ (has_co_qualname v = true /\ f_qualname f = f_name f /\ co_qualname (f_code f) <> f_name f).
Proof.
  intros v e et mg f H1 H2 H3 f'. destruct (C13_attributes v e et mg f H1 H2 H3) as [_ [_ [_ [_ [_ [_ [_ [_ [_ [Q _]]]]]]]]]].
  unfold f'. rewrite Q. destruct (has_co_qualname v); cbn [andb].
  - destruct (String.eqb_spec (f_qualname f) (f_name f)) as [E|E].
    + rewrite E. destruct (string_dec (co_qualname (f_code f)) (f_name f)); intuition congruence.
    + intuition congruence.
  - intuition congruence.
Qed.
(** REFUTED in general: on 3.11+ a nested function renamed so that __qualname__ = __name__ = "g" comes
    back with the qualified name of its code; and a function whose __doc__ was removed gets its
    docstring back; type parameters (3.12+) are dropped. *)
Definition exc : code := {| co_id := 9; co_qualname := "outer.<locals>.g"; co_doc := 7 |}.
Definition exf : func := {| f_code := exc; f_name := "g"; f_qualname := "g"; f_module := 5; f_doc := VNone; f_defaults := 3;
  f_kwdefaults := VNone; f_annotations := 11; f_type_params := 21; f_dict := Some [("attr", 4)]; f_odd_dict := VNone; f_closure := 6 |}.
Theorem C13_qualname_refuted : exists f,
  f_qualname (load_function {| has_co_qualname := true |} 10 20 None (save_function None f)) <> f_qualname f.
Proof. exists exf. cbn. discriminate. Qed.
Theorem C13_doc_refuted : exists f, f_doc f = VNone /\
  f_doc (load_function {| has_co_qualname := true |} 10 20 None (save_function None f)) <> f_doc f.
Proof. exists exf. split; [reflexivity|]. cbn. discriminate. Qed.
Theorem C13_type_params_refuted : exists f,
  f_type_params (load_function {| has_co_qualname := true |} 10 20 None (save_function None f)) <> f_type_params f.
Proof. exists exf. cbn. discriminate. Qed.
(** the usual case: all attributes kept *)
Example ex_C13 : forall mg, mg = None \/ mg = Some (Some 5) \/ mg = Some (Some 8) \/ mg = Some None ->
  let f := {| f_code := exc; f_name := "g"; f_qualname := "outer.<locals>.g"; f_module := 5; f_doc := 31; f_defaults := 3;
    f_kwdefaults := 32; f_annotations := 11; f_type_params := 20; f_dict := Some [("attr", 4); ("b", 5)]; f_odd_dict := VNone; f_closure := 6 |} in
  load_function {| has_co_qualname := true |} 10 20 (match mg with Some n => n | None => None end) (save_function mg f) = f.
Proof. intros mg [->|[->|[->| ->]]]; reflexivity. Qed.
