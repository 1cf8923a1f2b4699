(** C80: a subclass of dill.Pickler defined by the user does what dill.Pickler does. *)
From Coq Require Import String Ascii List Bool Arith.
From Verif Require Import CapsuleModel SubclassModel.
Import ListNotations.
Local Open Scope string_scope.

(** * Specification *)
(** a subclass of dill.Pickler, defined anywhere, whose __init__ calls the inherited one *)
Definition subclass_in (m : string) (a : pattrs) : pickler := Pickler_ (PClass m true) (Some a).
(** a subclass of the standard library's pickle._Pickler *)
Definition stock_subclass_in (m : string) : pickler := Pickler_ (PClass m false) None.
(** a name that has the four letters in it *)
Definition has_dill (m : string) : Prop := exists u v, m = u ++ "dill" ++ v.

(** everything that dill asks its pickler is answered alike *)
Definition same_decisions (p q : pickler) : Prop :=
  (forall E o, save_module_dict E p o = save_module_dict E q o) /\
  (forall n m, never_located p n m = never_located q n m) /\
  file_settings p = file_settings q /\
  (forall o, is_session_main p o = is_session_main q o) /\
  postpones p = postpones q /\ trace_is_set_up p = trace_is_set_up q.

Lemma prefix_app s t : prefix s t = true <-> exists v, t = s ++ v.
Proof.
  revert t; induction s as [|c s IH]; intros t; simpl.
  - split; [intros _; exists t; reflexivity|intros _; destruct t; reflexivity].
  - destruct t as [|c' t]; [split; [discriminate|intros (v & E); discriminate]|].
    cbn [prefix]. destruct (ascii_dec c c') as [<-|N].
    + rewrite IH. split; intros (v & E); exists v; [now rewrite E|now injection E].
    + split; [discriminate|]. intros (v & E). injection E as E1 _. now destruct N.
Qed.
Lemma mentions_spec m : mentions_dill m = true <-> has_dill m.
Proof.
  split.
  - induction m as [|c m IH]; intro H; [discriminate|]. cbn [mentions_dill] in H.
    apply orb_true_iff in H as [H|H].
    + apply prefix_app in H as (v & E). exists "", v. exact E.
    + destruct (IH H) as (u & v & E). exists (String c u), v. now rewrite E.
  - intros (u & v & ->). induction u as [|c u IH].
    + change ("" ++ "dill" ++ v) with ("dill" ++ v). cbn [mentions_dill append]. destruct v; reflexivity.
    + change (String c u ++ "dill" ++ v) with (String c (u ++ "dill" ++ v)). cbn [mentions_dill]. rewrite IH. apply orb_true_r.
Qed.
Lemma mentions_false m : ~ has_dill m -> mentions_dill m = false.
Proof. intro N. destruct (mentions_dill m) eqn:E; [|reflexivity]. now apply mentions_spec in E. Qed.

(** C80 for subclasses in modules (or packages) that have 'dill' in their name: nothing distinguishes them *)
Theorem C80_named_partial m a : has_dill m -> same_decisions (subclass_in m a) (dill_pickler a).
Proof.
  intro H. apply mentions_spec in H.
  assert (Z : forall ch, is_dill (subclass_in m a) ch = is_dill (dill_pickler a) ch) by (intros []; [reflexivity|exact H]).
  repeat split; intros; unfold save_module_dict, never_located, file_settings, is_session_main, postpones, trace_is_set_up; now rewrite ?Z.
Qed.

(** C80 for every other subclass: files, modules and recursive objects are treated alike, and outside sessions functions are; dictionaries that equal
    neither __main__'s nor the pickler's are stored alike *)
Theorem C80_elsewhere_partial m a : ~ has_dill m ->
  let p := subclass_in m a in let q := dill_pickler a in
  (file_settings p = file_settings q /\ file_settings p = Done (a_strictio a, a_fmode a, Nat.eqb (a_fmode a) 2)) /\
  (forall o, is_session_main p o = is_session_main q o /\ is_session_main p o = Done (Nat.eqb o (a_main a))) /\ (postpones p = postpones q /\ postpones p = true) /\
  (a_session a = false -> forall n f, never_located p n f = never_located q n f) /\
  (a_session a = false -> forall E o, e_deq E o (e_main E) = false -> e_deq E o (a_main a) = false -> save_module_dict E p o = save_module_dict E q o).
Proof.
  intros N p q. apply mentions_false in N. repeat split.
  - intros S n [f|]; [|reflexivity]. unfold never_located, is_dill, p, q, subclass_in, dill_pickler. cbn [cls in_module]. rewrite N.
    replace (mentions_dill "dill._dill") with true by reflexivity. destruct (String.eqb f "__main__"); [reflexivity|].
    unfold attr_of. cbn [attrs and_then]. now rewrite S.
  - intros S E o E1 E2. unfold save_module_dict, is_dill, p, q, subclass_in, dill_pickler, attr_of. cbn [cls in_module attrs and_then]. rewrite N.
    replace (mentions_dill "dill._dill") with true by reflexivity. cbn [negb andb and_then]. rewrite E1, E2, S. reflexivity.
Qed.

(** and __main__'s dictionary: stored by another reference, which loads as the same dictionary whenever neither the pickler nor the Unpickler is for another module *)
Theorem C80_main_dict_partial m a E o s f : a_session a = false -> a_main a = e_main E ->
  save_module_dict E (subclass_in m a) o = Done (s, f) ->
  exists s', save_module_dict E (dill_pickler a) o = Done (s', f) /\ loaded E (e_main E) s' = loaded E (e_main E) s.
Proof.
  intros S M H. destruct (mentions_dill m) eqn:D.
  - apply mentions_spec in D. destruct (C80_named_partial m a D) as (Z & _). rewrite <- Z. now exists s.
  - unfold save_module_dict, is_dill, subclass_in, dill_pickler, attr_of in *. cbn [cls in_module attrs and_then] in *.
    rewrite D in H. replace (mentions_dill "dill._dill") with true by reflexivity. cbn [negb andb and_then] in *. rewrite M, S.
    destruct (e_deq E o (e_main E)) eqn:Q; cbn [negb andb] in *.
    + injection H as <- <-. now exists D1.
    + now exists s.
Qed.

(** C80 is false: with the same attributes, the reference written for the dictionary of a pickler's own module differs in bytes, and what is loaded differs
    if that module is not __main__; in a session, functions of the session's module are looked up by name and the dictionary itself is not stored *)
Theorem C80_refuted m a : ~ has_dill m ->
  (forall E, e_deq E (e_main E) (e_main E) = true -> a_main a = e_main E -> a_session a = false ->
     save_module_dict E (subclass_in m a) (e_main E) = Done (D3, None) /\ save_module_dict E (dill_pickler a) (e_main E) = Done (D1, None) /\
     forall um, loaded E um D3 = Some (e_main E) /\ loaded E um D1 = Some um) /\
  (forall E, e_deq E (e_main E) (e_main E) = true -> a_main a = e_main E -> a_session a = true -> a_first_pass a = true ->
     e_name E (e_main E) = Some "__main__" ->
     save_module_dict E (subclass_in m a) (e_main E) = Done (D3, None) /\ save_module_dict E (dill_pickler a) (e_main E) = Done (D2, Some false)) /\
  (forall n, a_session a = true -> n <> "__main__" -> never_located (subclass_in m a) n (Some n) = Done false /\ never_located (dill_pickler a) n (Some n) = Done true) /\
  trace_is_set_up (subclass_in m a) = false.
Proof.
  intro N. apply mentions_false in N.
  assert (T : mentions_dill "dill._dill" = true) by reflexivity.
  split; [|split; [|split; [|exact N]]].
  - intros E Q M S. unfold save_module_dict, is_dill, subclass_in, dill_pickler, attr_of. cbn [cls in_module attrs and_then]. rewrite N, T, M, S, Q. now repeat split.
  - intros E Q M S F Nm. unfold save_module_dict, is_dill, subclass_in, dill_pickler, attr_of. cbn [cls in_module attrs and_then]. rewrite N, T, M, S, F, Q, Nm. now split.
  - intros n S Ne. unfold never_located, is_dill, subclass_in, dill_pickler, attr_of. cbn [cls in_module attrs and_then]. apply String.eqb_neq in Ne. rewrite Ne, N, T, S, String.eqb_refl. now split.
Qed.

(** and a pickler that is not dill's, in a module whose name has the four letters, is taken for dill's: once dill has extended the standard pickler every
    dictionary, and every function outside __main__, raises AttributeError *)
Theorem C80_letters_refuted m : has_dill m ->
  (forall E o, save_module_dict E (stock_subclass_in m) o = NoAttribute) /\
  (forall n f, f <> "__main__" -> never_located (stock_subclass_in m) n (Some f) = NoAttribute).
Proof.
  intro H. apply mentions_spec in H. split.
  - intros E o. unfold save_module_dict, is_dill, stock_subclass_in, attr_of. cbn [cls in_module attrs and_then]. now rewrite H.
  - intros n f Ne. apply String.eqb_neq in Ne. unfold never_located, is_dill, stock_subclass_in, attr_of. cbn [cls in_module attrs and_then]. now rewrite Ne, H.
Qed.
(** whatever the pickler, a function of __main__ or with no module is never looked up by name: it is saved with its code *)
Theorem C80_locate_main : forall p n, never_located p n None = Done true /\ never_located p n (Some "__main__") = Done true.
Proof. intros. now split. Qed.
(** elsewhere such a pickler never asks for an attribute it has not *)
Theorem C80_stock m E o : ~ has_dill m -> exists s, save_module_dict E (stock_subclass_in m) o = Done s.
Proof.
  intro N. apply mentions_false in N. unfold save_module_dict, is_dill, stock_subclass_in. cbn [cls in_module]. rewrite N. cbn [negb andb].
  destruct (e_deq E o (e_main E)); [eauto|]. destruct (e_name E o) as [n|]; [|eauto]. destruct (_ && _); eauto.
Qed.
(** a pickler that is not dill's: files are saved by name and mode only, no module is the session's own, nothing is postponed; a dictionary that is no
    module's is saved as it is *)
Theorem C80_stock_plain : forall m E o, file_settings (stock_subclass_in m) = Done (false, 0, false) /\ is_session_main (stock_subclass_in m) o = Done false /\
  postpones (stock_subclass_in m) = false /\
  (~ has_dill m -> e_deq E o (e_main E) = false -> (forall n, e_name E o = Some n -> e_module_dict E n = None) -> save_module_dict E (stock_subclass_in m) o = Done (D2, None)).
Proof.
  intros m E o. split; [reflexivity|]. split; [reflexivity|]. split; [reflexivity|].
  intros N D H. apply mentions_false in N. unfold save_module_dict, is_dill, stock_subclass_in. cbn [cls in_module]. rewrite N, D. cbn [negb andb].
  destruct (e_name E o) as [n|]; [|reflexivity]. rewrite (H n eq_refl). reflexivity.
Qed.

(** ** Instances: a module mypickle, a package piccadilly *)
Definition attrs0 : pattrs := PAttrs 0 false true false 0.
Definition env0 : penv := PEnv 0 Nat.eqb (fun o => if Nat.eqb o 0 then Some "__main__" else if Nat.eqb o 5 then Some "math" else None)
  (fun n => if String.eqb n "math" then Some 5 else if String.eqb n "__main__" then Some 0 else None).
Example C80_ex : has_dill "piccadilly.work" /\ ~ has_dill "mypickle" /\
  save_module_dict env0 (subclass_in "mypickle" attrs0) 0 = Done (D3, None) /\ save_module_dict env0 (dill_pickler attrs0) 0 = Done (D1, None) /\
  save_module_dict env0 (subclass_in "mypickle" attrs0) 5 = Done (D4 "math", None) /\ save_module_dict env0 (stock_subclass_in "piccadilly.work") 5 = NoAttribute /\
  save_module_dict env0 (subclass_in "mypickle" (PAttrs 0 true true false 0)) 7 = Done (D2, None) /\
  save_module_dict env0 (dill_pickler (PAttrs 0 true true false 0)) 7 = Done (D2, Some false).
Proof.
  split; [now exists "picca", "y.work"|]. split; [intro H; apply mentions_spec in H; discriminate|]. repeat split; reflexivity.
Qed.
