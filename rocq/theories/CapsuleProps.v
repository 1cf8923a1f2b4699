(** C51 and C54 on CapsuleModel. *)
From Coq Require Import String List Bool Arith Lia.
From Verif Require Import CapsuleModel.
Import ListNotations.
Local Open Scope string_scope.

(** ** Specification: what a capsule's name says (PyCapsule_Import): import the first component, then follow the attributes *)
Inductive attr_path (E : cenv) : nat -> list string -> nat -> Prop :=
| path_nil o : attr_path E o [] o
| path_cons o a o' l c : attr E o a = Some o' -> attr_path E o' l c -> attr_path E o (a :: l) c.
Definition resolves (E : cenv) (name : list string) (c : nat) : Prop :=
  exists m attrs, name = m :: attrs /\ import_ E [m] = Imported /\ attr_path E (top E m) attrs c.
Lemma resolves_one E m x c : resolves E [m; x] c -> import_ E [m] = Imported /\ attr E (top E m) x = Some c.
Proof.
  intros (m' & l & Hn & Hi & Hp). injection Hn as <- <-. split; auto. inversion Hp as [|? ? o' ? ? Ha Hp']; subst. inversion Hp'; subst. auto.
Qed.
Definition is_capsule (E : cenv) (name : list string) (c : nat) : Prop := capsule_name E c = Some name.

Lemma rsplit_last name x : rsplit (name ++ [x]) 1 = (name, [x]).
Proof.
  unfold rsplit. rewrite app_length. cbn [length]. replace (length name + 1 - 1) with (length name) by lia.
  rewrite firstn_app, firstn_all, skipn_app, skipn_all, Nat.sub_diag. cbn. rewrite app_nil_r. auto.
Qed.
(** only the last component is ever split off: the loop ends at its first turn *)
Lemma find_exact E m rest x : find_loop E (m :: rest ++ [x]) None (seq 1 (length (m :: rest ++ [x]) - 1)) =
  match import_ E (m :: rest) with Imported => attr E (top E m) x | _ => None end.
Proof.
  cbn [length]. rewrite app_length. cbn [length]. replace (S (length rest + 1) - 1) with (S (length rest)) by lia. cbn [seq find_loop].
  assert (Hr := rsplit_last (m :: rest) x). cbn [app] in Hr. rewrite Hr. destruct (import_ E (m :: rest)); auto.
  cbn [getattrs]. destruct (attr E (top E m) x); auto.
Qed.

(** C51 for names with one dot: the capsule that the name resolves to is returned, whatever pointer is in the pickle *)
Theorem C51_found_partial E p m x c : resolves E [m; x] c -> is_capsule E [m; x] c -> create_capsule E p (Some [m; x]) = Found c.
Proof.
  intros Hr Hc. apply resolves_one in Hr as [Hi Hg]. unfold create_capsule. assert (Hf := find_exact E m [] x). cbn [app] in Hf. rewrite Hf, Hi.
  rewrite Hg. rewrite Hc.
  destruct (list_eq_dec string_dec [m; x] [m; x]); congruence.
Qed.
(** whatever is returned without a new capsule is a valid capsule of that name *)
Theorem C51_valid E p name c : create_capsule E p (Some name) = Found c -> is_capsule E name c.
Proof.
  unfold create_capsule. destruct (find_loop _ _ _ _) as [o|]; [|discriminate]. destruct (capsule_name E o) as [n'|] eqn:En; [|discriminate].
  destruct (list_eq_dec string_dec n' name) as [->|]; [|discriminate]. intros H. injection H as <-. auto.
Qed.
(** a name that resolves to something else is an error, not a new capsule (one dot) *)
Theorem C51_not_capsule_partial E p m x c : resolves E [m; x] c -> ~ is_capsule E [m; x] c -> create_capsule E p (Some [m; x]) = NotACapsule.
Proof.
  intros Hr Hc. apply resolves_one in Hr as [Hi Hg]. unfold create_capsule. assert (Hf := find_exact E m [] x). cbn [app] in Hf. rewrite Hf, Hi.
  rewrite Hg.
  unfold is_capsule in Hc. destruct (capsule_name E c) as [n'|]; auto. destruct (list_eq_dec string_dec n' [m; x]); congruence.
Qed.
(** the whole behaviour: the last attribute is looked up in the top-level package, not in the module *)
Theorem C51_exact E p m rest x c : create_capsule E p (Some (m :: rest ++ [x])) = Found c <->
  import_ E (m :: rest) = Imported /\ attr E (top E m) x = Some c /\ is_capsule E (m :: rest ++ [x]) c.
Proof.
  unfold create_capsule, is_capsule. rewrite find_exact. destruct (import_ E (m :: rest)); [|split; [discriminate|intros [H _]; discriminate]..].
  destruct (attr E (top E m) x) as [o|]; [|split; [discriminate|intros [_ [H _]]; discriminate]].
  destruct (capsule_name E o) as [n'|] eqn:En.
  - destruct (list_eq_dec string_dec n' (m :: rest ++ [x])) as [->|Hne].
    + split; [intros H; injection H as <-; auto|intros [_ [H _]]; injection H as <-; auto].
    + split; [discriminate|]. intros [_ [H H2]]. injection H as <-. congruence.
  - split; [discriminate|]. intros [_ [H H2]]. injection H as <-. congruence.
Qed.
(** C51 is false for every name pkg.mod.attr whose capsule is in the module and not also in the package: a new capsule
    around the old pointer is returned *)
Theorem C51_submodule_refuted E p pkg mod_ x c : resolves E [pkg; mod_; x] c -> is_capsule E [pkg; mod_; x] c -> attr E (top E pkg) x = None ->
  create_capsule E p (Some [pkg; mod_; x]) = NewCapsule p.
Proof.
  intros _ _ Ha. unfold create_capsule. assert (Hf := find_exact E pkg [mod_] x). cbn [app] in Hf. rewrite Hf, Ha. destruct (import_ E [pkg; mod_]); auto.
Qed.
(** and for every name module.cls.attr: the attempt to import module.cls ends the search *)
Theorem C51_class_attr_refuted E p m cls x c : resolves E [m; cls; x] c -> is_capsule E [m; cls; x] c -> import_ E [m; cls] = NoModule ->
  create_capsule E p (Some [m; cls; x]) = NewCapsule p.
Proof. intros _ _ Ha. unfold create_capsule. assert (Hf := find_exact E m [cls] x). cbn [app] in Hf. rewrite Hf, Ha. auto. Qed.

(** ** Instances: datetime.datetime_CAPI, and dill's own test capsule dill._dill._testcapsule *)
Definition cenv0 : cenv := CEnv
  (fun n => match n with ["datetime"] | ["dill"] | ["dill"; "_dill"] => Imported | _ => NoModule end)
  (fun m => if String.eqb m "dill" then 1 else 10)
  (fun o a => match o, a with 1, "_dill" => Some 2 | 2, "_testcapsule" => Some 3 | 10, "datetime_CAPI" => Some 11 | _, _ => None end)
  (fun o => match o with 3 => Some ["dill"; "_dill"; "_testcapsule"] | 11 => Some ["datetime"; "datetime_CAPI"] | _ => None end).
Example C51_case : resolves cenv0 ["datetime"; "datetime_CAPI"] 11 /\ is_capsule cenv0 ["datetime"; "datetime_CAPI"] 11 /\
  create_capsule cenv0 77 (Some ["datetime"; "datetime_CAPI"]) = Found 11.
Proof. split; [|split; reflexivity]. eexists _, _. split; [reflexivity|]. split; [reflexivity|]. repeat (eapply path_cons; [reflexivity|]). apply path_nil. Qed.
Example C51_case_dill : resolves cenv0 ["dill"; "_dill"; "_testcapsule"] 3 /\ is_capsule cenv0 ["dill"; "_dill"; "_testcapsule"] 3 /\
  create_capsule cenv0 77 (Some ["dill"; "_dill"; "_testcapsule"]) = NewCapsule 77.
Proof. split; [|split; reflexivity]. eexists _, _. split; [reflexivity|]. split; [reflexivity|]. repeat (eapply path_cons; [reflexivity|]). apply path_nil. Qed.

(** * C54 *)
(** a dictionary stored as a reference to a module's dictionary loads as itself; holds for other modules *)
Theorem C54_module E o n : save_module_dict E o = D4 n -> loads_as E (D4 n) = Some o /\ name_of E o = Some n.
Proof.
  unfold save_module_dict. destruct (dill E && _ && _); [discriminate|]. destruct (negb (dill E) && _); [discriminate|].
  destruct (name_of E o) as [n'|]; [|discriminate]. destruct (negb _ && _) eqn:Eb; [|discriminate]. intros H. injection H as ->. split; auto.
  apply andb_true_iff in Eb as [_ Eb]. cbn [loads_as]. destruct (module_dict E n) as [o'|]; [|discriminate]. apply Nat.eqb_eq in Eb. subst; auto.
Qed.
(** if no other dictionary equals __main__'s, whatever loads as an existing dictionary is that dictionary *)
Theorem C54_same_partial E o r : (forall o', deq E o' (pmain E) = true -> o' = pmain E) -> (forall o', deq E o' (main E) = true -> o' = main E) ->
  loads_as E (save_module_dict E o) = Some r -> r = o.
Proof.
  intros H1 H2. destruct (save_module_dict E o) as [| | |n] eqn:Es; cbn [loads_as].
  - unfold save_module_dict in Es. destruct (dill E && deq E o (pmain E) && _) eqn:Eb.
    + intros H. injection H as <-. apply andb_true_iff in Eb as [Eb _]. apply andb_true_iff in Eb as [_ Eb]. symmetry. auto.
    + destruct (negb (dill E) && _); [discriminate|]. destruct (name_of E o); [destruct (negb (deq E o (main E)) && _)|]; discriminate Es.
  - discriminate.
  - unfold save_module_dict in Es. destruct (dill E && deq E o (pmain E) && _) eqn:Eb; [discriminate|].
    destruct (negb (dill E) && deq E o (main E)) eqn:Ec.
    + intros H. injection H as <-. apply andb_true_iff in Ec as [_ Ec]. symmetry. auto.
    + destruct (name_of E o); [destruct (negb (deq E o (main E)) && _)|]; discriminate Es.
  - intros H. destruct (C54_module E o n Es) as [H' _]. cbn [loads_as] in H'. congruence.
Qed.
(** and __main__'s own dictionary is stored by reference, except in the first pass of a session *)
Theorem C54_main E : dill E = true -> deq E (pmain E) (pmain E) = true -> session E && first_pass E = false -> loads_as E (save_module_dict E (pmain E)) = Some (pmain E).
Proof. intros H1 H2 H3. unfold save_module_dict. rewrite H1, H2, H3. reflexivity. Qed.
Definition denv0 (eq_ : nat -> nat -> bool) : denv := DEnv true 1 1 eq_ false false (fun o => if Nat.eqb o 7 then Some "os" else Some "__main__") (fun n => if String.eqb n "os" then Some 7 else Some 1).
Example C54_case : loads_as (denv0 Nat.eqb) (save_module_dict (denv0 Nat.eqb) 7) = Some 7 /\ loads_as (denv0 Nat.eqb) (save_module_dict (denv0 Nat.eqb) 1) = Some 1 /\
  loads_as (denv0 Nat.eqb) (save_module_dict (denv0 Nat.eqb) 3) = None.
Proof. repeat split. Qed.
(** C54 is false: dictionaries are compared with ==, so every equal copy of __main__.__dict__ loads as __main__.__dict__ *)
Theorem C54_copy_refuted E o : dill E = true -> o <> pmain E -> deq E o (pmain E) = true -> session E && first_pass E = false ->
  loads_as E (save_module_dict E o) = Some (pmain E).
Proof. intros H1 H2 H3 H4. unfold save_module_dict. rewrite H1, H3, H4. reflexivity. Qed.
Example C54_copy_case : let E := denv0 (fun a b => Nat.eqb a b || Nat.eqb a 3) in 3 <> pmain E /\ loads_as E (save_module_dict E 3) = Some (pmain E).
Proof. split; [cbv; discriminate|reflexivity]. Qed.
