(** C08 (by-reference pickles) and C12 (find_class / load). *)
From Coq Require Import String List Bool Arith.
From Verif Require Import PyDict NamesModel NamesSpec NamesProofs.
Import ListNotations.
Local Open Scope string_scope.

(** C08: if save_function stores a function by reference, its module and qualified name denote that
    very object at dump time ... *)
Theorem C08_function_reference_denotes : forall E p describe isfc other fuel o r,
  save_function E p describe isfc other fuel o = Ok (ByRef r) ->
  denotes E (whichmodule other o) (match n_qualname o with Some q => q | None => n_name o end) (n_id o).
Proof.
  intros E p d i ot fuel o r H. unfold save_function in H.
  destruct (_locate_function E p o); [|discriminate].
  destruct (save_global E p d i ot fuel o) eqn:Es; [|discriminate]. eapply save_global_denotes; eauto.
Qed.
Print Assumptions C08_function_reference_denotes.

(** ... and likewise for classes, also when stored by reference because of byref=True or recursion. *)
Theorem C08_class_reference_denotes : forall E p describe isfc other fuel rec o r,
  save_type E p describe isfc other fuel rec o = Ok (ByRef r) ->
  denotes E (whichmodule other o) (match n_qualname o with Some q => q | None => n_name o end) (n_id o).
Proof.
  intros E p d i ot fuel rc o r H. unfold save_type in H.
  destruct (negb (byref p) && negb rc && negb (_locate_function E p o)); [discriminate|].
  destruct (save_global E p d i ot fuel o) eqn:Es; [|discriminate]. eapply save_global_denotes; eauto.
Qed.
Print Assumptions C08_class_reference_denotes.

(** Loading such a reference in the same environment, with any protocol, returns the original
    object.  Conditions: the reference does not use a name that dill's unpickler redirects, no
    parent class was itself saved by value (protocols below 4, nested names), and for protocols
    below 3 pickle's Python-2 tables undo each other on existing names. *)
Theorem C08_function_reference_loads : forall E p describe isfc other fuel o r,
  compat_ok E -> (forall x, n_id (describe x) = x) ->
  save_function E p describe isfc other fuel o = Ok (ByRef r) ->
  pure_ref r -> not_redirected r ->
  load_ref E (proto p) (fix_imports p) r = Ok (FObj (n_id o)).
Proof.
  intros E p d i ot fuel o r Hc Hd H. unfold save_function in H.
  destruct (_locate_function E p o); [|discriminate].
  destruct (save_global E p d i ot fuel o) eqn:Es; [|discriminate]. inversion H; subst.
  eapply save_global_load; eauto.
Qed.
Print Assumptions C08_function_reference_loads.

Theorem C08_class_reference_loads : forall E p describe isfc other fuel rec o r,
  compat_ok E -> (forall x, n_id (describe x) = x) ->
  save_type E p describe isfc other fuel rec o = Ok (ByRef r) ->
  pure_ref r -> not_redirected r ->
  load_ref E (proto p) (fix_imports p) r = Ok (FObj (n_id o)).
Proof.
  intros E p d i ot fuel rc o r Hc Hd H. unfold save_type in H.
  destruct (negb (byref p) && negb rc && negb (_locate_function E p o)); [discriminate|].
  destruct (save_global E p d i ot fuel o) eqn:Es; [|discriminate]. inversion H; subst.
  eapply save_global_load; eauto.
Qed.
Print Assumptions C08_class_reference_loads.

(** Functions and classes of __main__, of the session's main module, or without module are saved by
    value (classes: unless byref is on or the class is being pickled already). *)
Theorem C08_main_by_value : forall E p describe isfc other fuel o,
  (n_module o = Some "__main__" \/ n_module o = None \/ (exists s, session_main p = Some s /\ n_module o = Some s)) ->
  save_function E p describe isfc other fuel o = Ok ByValue /\
  (byref p = false -> save_type E p describe isfc other fuel false o = Ok ByValue).
Proof.
  intros E p d i ot fuel o H. unfold save_function, save_type. rewrite (locate_main E p o H).
  split; [reflexivity|]. intros ->. reflexivity.
Qed.
Print Assumptions C08_main_by_value.

(** In every other (undotted, importable) module the choice is exact: by reference if and only if
    the name denotes the object. *)
Theorem C08_locate_exact : forall E p o m q,
  has_dot m = false -> startswith "__runtime__." m = false -> n_module o = Some m -> n_qualname o = Some q ->
  m <> "__main__" -> session_main p <> Some m -> get m (modules E) <> None ->
  (_locate_function E p o = true <-> denotes E m q (n_id o)).
Proof. exact locate_exact. Qed.
Print Assumptions C08_locate_exact.

(** C12: for a name outside the redirections, find_class returns exactly the object the pair denotes *)
Theorem C12_find_class_plain : forall E pr fx m n o, 4 <= pr ->
  (m, n) <> ("__builtin__", "__main__") -> (m, n) <> ("__builtin__", "NoneType") -> m <> "dill.dill" ->
  (find_class E pr fx m n = Ok (FObj o) <-> denotes E m n o).
Proof. exact find_class_denotes. Qed.
Print Assumptions C12_find_class_plain.

Theorem C12_find_class_plain_old : forall E pr fx m n o, pr = 3 \/ fx = false -> pr < 4 ->
  (m, n) <> ("__builtin__", "__main__") -> (m, n) <> ("__builtin__", "NoneType") -> m <> "dill.dill" ->
  (find_class E pr fx m n = Ok (FObj o) <->
   exists mo, get m (modules E) = Some mo /\ get n (attr E mo) = Some o).
Proof. exact find_class_old. Qed.
Print Assumptions C12_find_class_plain_old.

Theorem C12_find_class_redirected : forall E pr fx,
  find_class E pr fx "__builtin__" "__main__" = Ok FMainDict /\
  find_class E pr fx "__builtin__" "NoneType" = Ok (FObj (none_type E)) /\
  (forall n, find_class E pr fx "dill.dill" n = find_class E pr fx "dill._dill" n).
Proof. exact find_class_redirect. Qed.
Print Assumptions C12_find_class_redirected.

(** C12: the class of the loaded object afterwards *)
Theorem C12_load_repoints : forall main_name main_attr assign ignore c c',
  load_class main_name main_attr assign ignore c = Ok c' <->
  ((exists v, c_module c = main_name /\ ignore = false /\ main_attr (c_name c) = Some v /\ assign v = AOk c')
   \/ (c' = c /\ (c_module c <> main_name \/ ignore = true \/ main_attr (c_name c) = None \/
        exists v, main_attr (c_name c) = Some v /\ (assign v = AAttributeError \/ assign v = ATypeError)))).
Proof. exact load_class_spec. Qed.
Print Assumptions C12_load_repoints.

(** a module 'pkg' (1) with class A (2) having nested class B (3), an alias and an impostor *)
Definition exE : env := {|
  modules := [("pkg", 1); ("builtins", 9)];
  attr := fun o => match o with 1 => [("A", 2); ("alias", 2); ("f", 5)] | 2 => [("B", 3)] | _ => [] end;
  is_mod_or_type := fun o => Nat.leb o 3; none := 0; none_type := 8;
  name_mapping := [(("oldpkg", "A"), ("pkg", "A"))]; import_mapping := [("oldpkg", "pkg")];
  rev_name_mapping := []; rev_import_mapping := [("pkg", "oldpkg")] |}.
Definition exP pr := {| session_main := Some "sess"; proto := pr; fix_imports := true; byref := false |}.
Definition exD (x : nat) : named :=
  match x with
  | 2 => Named 2 (Some "pkg") (Some "A") "A"
  | 3 => Named 3 (Some "pkg") (Some "A.B") "B"
  | 5 => Named 5 (Some "pkg") (Some "f") "f"
  | 6 => Named 6 (Some "pkg") (Some "A") "A"
  | _ => Named x (Some "sess") (Some "g") "g"
  end.
Example C08_nonvacuous :
  compat_ok exE /\ (forall x, n_id (exD x) = x) /\
  save_type exE (exP 2) exD (fun _ => true) (fun _ => "") 5 false (exD 3) = Ok (ByRef (RGetattr (RGlobal "oldpkg" "A") "B")) /\
  load_ref exE 2 true (RGetattr (RGlobal "oldpkg" "A") "B") = Ok (FObj 3) /\
  save_type exE (exP 4) exD (fun _ => true) (fun _ => "") 5 false (exD 3) = Ok (ByRef (RGlobal "pkg" "A.B")) /\
  save_type exE (exP 4) exD (fun _ => true) (fun _ => "") 5 false (exD 6) = Ok ByValue /\
  save_function exE (exP 4) exD (fun _ => true) (fun _ => "") 5 (exD 7) = Ok ByValue /\
  save_function exE (exP 0) exD (fun _ => true) (fun _ => "") 5 (exD 5) = Ok (ByRef (RGlobal "oldpkg" "f")).
Proof.
  repeat split; try reflexivity.
  - intros m n mo x Hm Hn. simpl in Hm.
    destruct (String.eqb_spec m "pkg") as [->|H1].
    + inversion Hm; subst. simpl in Hn.
      destruct (String.eqb_spec n "A") as [->|]; [reflexivity|].
      destruct (String.eqb_spec n "alias") as [->|]; [reflexivity|].
      destruct (String.eqb_spec n "f") as [->|]; [reflexivity|discriminate].
    + destruct (String.eqb_spec m "builtins") as [->|H2]; [|discriminate].
      inversion Hm; subst. discriminate.
  - intros [|[|[|[|[|[|[|x]]]]]]]; reflexivity.
Qed.
Example C12_nonvacuous :
  find_class exE 4 true "pkg" "A.B" = Ok (FObj 3) /\ denotes exE "pkg" "A.B" 3 /\
  load_class "__main__" (fun n => if String.eqb n "K" then Some 30 else None) (fun v => AOk (Cls v "__main__" "K")) false (Cls 20 "__main__" "K")
    = Ok (Cls 30 "__main__" "K").
Proof.
  repeat split; try reflexivity. apply (C12_find_class_plain exE 4 true "pkg" "A.B" 3); auto; discriminate.
Qed.

(** With byref on, or for a class that is being pickled already, a class is never saved by value: by reference, or PicklingError *)
Theorem C08_byref_classes : forall E p describe isfc other fuel rec o,
  byref p = true \/ rec = true -> save_type E p describe isfc other fuel rec o <> Ok ByValue.
Proof.
  intros E p d i ot fuel rc o H. unfold save_type.
  assert (G : negb (byref p) && negb rc && negb (_locate_function E p o) = false) by (destruct H as [-> | ->]; [reflexivity|rewrite andb_false_r; reflexivity]).
  rewrite G. destruct (save_global E p d i ot fuel o); discriminate.
Qed.
Print Assumptions C08_byref_classes.

(** From protocol 4 on, a function or class of an (undotted, importable) module that its name denotes is saved by reference, and that
    reference loads as the very object *)
Theorem C08_importable_by_reference : forall E p describe isfc other fuel rec o m q, 0 < fuel -> 4 <= proto p ->
  has_dot m = false -> startswith "__runtime__." m = false -> n_module o = Some m -> n_qualname o = Some q ->
  m <> "__main__" -> session_main p <> Some m -> denotes E m q (n_id o) ->
  exists n, save_function E p describe isfc other fuel o = Ok (ByRef (RGlobal m n)) /\
    save_type E p describe isfc other fuel rec o = Ok (ByRef (RGlobal m n)) /\
    ((m, n) <> ("__builtin__", "__main__") -> (m, n) <> ("__builtin__", "NoneType") -> m <> "dill.dill" ->
     load_ref E (proto p) (fix_imports p) (RGlobal m n) = Ok (FObj (n_id o))).
Proof.
  intros E p d i ot fuel rc o m q Hf H4 Hd Hr Hm Hq Hn Hs Hden. pose proof Hden as (mo & path & Hmo & Ej & Hne & Hfd & Hfo).
  assert (Hl : _locate_function E p o = true). { apply (C08_locate_exact E p o m q); auto. congruence. }
  unfold save_function, save_type. rewrite Hl. rewrite andb_false_r. destruct fuel as [|fuel]; [exfalso; inversion Hf|]. cbn [save_global].
  unfold whichmodule. rewrite Hm, Hq. unfold import_. rewrite Hmo. unfold _getattribute.
  assert (Es : split_dot q = path) by (subst q; apply split_join; auto). rewrite Es.
  destruct (follows_getattribute E path mo (n_id o) mo Hfo) as [par Eg]. rewrite Eg. rewrite Nat.eqb_refl. cbn [negb].
  apply Nat.leb_le in H4. rewrite H4. eexists. split; [reflexivity|]. split; [reflexivity|]. intros R1 R2 R3.
  apply Nat.leb_le in H4. apply (C12_find_class_plain E (proto p) (fix_imports p)); auto.
  destruct (Nat.eqb_spec par mo) as [->|Hp]; [|exact Hden].
  exists mo, [last_part q]. split; [auto|]. split; [reflexivity|]. split; [discriminate|]. split; [constructor; [apply last_part_nodot|constructor]|].
  unfold last_part. rewrite Es. destruct (getattribute_last E path mo mo (n_id o) mo Hne Eg) as [G1 G2].
  unfold getattr in G1. destruct (get (last path "") (attr E mo)) as [b|] eqn:Eb; [|discriminate]. injection G1 as ->.
  econstructor; [exact Eb|exact G2|constructor].
Qed.
Print Assumptions C08_importable_by_reference.
Example C08_importable_ex : exists n, save_type exE (exP 4) exD (fun _ => true) (fun _ => "") 5 false (exD 3) = Ok (ByRef (RGlobal "pkg" n)) /\ denotes exE "pkg" "A.B" 3.
Proof. exists "A.B". split; [reflexivity|]. apply (C12_find_class_plain exE 4 true "pkg" "A.B" 3); auto; try discriminate; reflexivity. Qed.

(** ** modules in packages *)
(** the module [m] is importable, and if it is in a package then the package has it, and nothing else that is a module or class, under its name *)
Definition importable_as (E : env) (m : string) (mo : nat) : Prop :=
  get m (modules E) = Some mo /\
  (has_dot m = false \/
   exists pkg leaf po x, m = pkg ++ "." ++ leaf /\ has_dot leaf = false /\ get pkg (modules E) = Some po /\ get leaf (attr E po) = Some x /\ (is_mod_or_type E x = true -> x = mo)).
Lemma split_last pkg leaf : has_dot leaf = false -> split_dot (pkg ++ "." ++ leaf) = (split_dot pkg ++ [leaf])%list.
Proof.
  intros L. assert (J : pkg ++ "." ++ leaf = join_dot (split_dot pkg ++ [leaf])).
  { rewrite <- (join_split pkg) at 1. generalize (split_dot_nonempty pkg). generalize (split_dot pkg). induction l as [|x l IH]; [congruence|]. intros _. destruct l as [|y l]; [reflexivity|].
    change (join_dot ((x :: y :: l) ++ [leaf])) with (x ++ "." ++ join_dot ((y :: l) ++ [leaf])). rewrite <- IH by discriminate.
    change (join_dot (x :: y :: l)) with (x ++ "." ++ join_dot (y :: l)). rewrite !app_assoc_s. reflexivity. }
  rewrite J. apply split_join; [destruct (split_dot pkg); discriminate|]. apply Forall_app. split; [apply split_dot_nodot|constructor; [exact L|constructor]].
Qed.
Lemma import_resolves E m mo : importable_as E m mo -> startswith "__runtime__." m = false -> forall safe, _import_module E m safe = Ok mo.
Proof.
  intros (M & H) R safe. unfold _import_module, import_module_raw. rewrite R. destruct H as [D|(pkg & leaf & po & x & -> & L & P & X & Q)].
  - rewrite D. unfold import_. rewrite M. reflexivity.
  - assert (has_dot (pkg ++ "." ++ leaf) = true) as -> by (rewrite has_dot_app; apply orb_true_iff; right; reflexivity).
    rewrite (split_last pkg leaf L), removelast_last, last_last, join_split. unfold import_. rewrite P. unfold getattr. rewrite X.
    destruct (is_mod_or_type E x) eqn:T; [rewrite (Q eq_refl); reflexivity|]. rewrite M. reflexivity.
Qed.
(** C102: in every module, in packages too, the choice is exact *)
Theorem C102_locate_exact_partial : forall E p o m mo q, importable_as E m mo -> startswith "__runtime__." m = false -> n_module o = Some m -> n_qualname o = Some q ->
  m <> "__main__" -> session_main p <> Some m -> (_locate_function E p o = true <-> denotes E m q (n_id o)).
Proof.
  intros E p o m mo q H R Hm Hq N1 N2. unfold _locate_function. rewrite Hm, Hq, (import_resolves E m mo H R). destruct (String.eqb_spec m "__main__"); [congruence|].
  assert (match session_main p with Some s => String.eqb m s | None => false end = false) as -> by (destruct (session_main p) as [s|]; auto; destruct (String.eqb_spec m s); congruence).
  unfold _getattribute. split.
  - destruct (getattribute_path E mo mo (split_dot q)) as [[f pr]|e] eqn:Eg; [|discriminate]. intros Hf. apply Nat.eqb_eq in Hf. subst f.
    exists mo, (split_dot q). rewrite join_split. split; [apply H|]. repeat split; auto using split_dot_nonempty, split_dot_nodot. eapply getattribute_follows. exact Eg.
  - intros (mo' & path & E1 & -> & Hne & Hnd & Hf). destruct H as [E2 _]. assert (mo' = mo) by congruence. subst mo'.
    rewrite split_join by auto. destruct (follows_getattribute E path mo (n_id o) mo Hf) as [pr ->]. apply Nat.eqb_refl.
Qed.
Lemma located_by_reference E p d i ot fuel rc o m q : 0 < fuel -> 4 <= proto p -> n_module o = Some m -> n_qualname o = Some q ->
  _locate_function E p o = true -> denotes E m q (n_id o) ->
  exists n, save_function E p d i ot fuel o = Ok (ByRef (RGlobal m n)) /\ save_type E p d i ot fuel rc o = Ok (ByRef (RGlobal m n)) /\
    ((m, n) <> ("__builtin__", "__main__") -> (m, n) <> ("__builtin__", "NoneType") -> m <> "dill.dill" -> load_ref E (proto p) (fix_imports p) (RGlobal m n) = Ok (FObj (n_id o))).
Proof.
  intros Hf H4 Hm Hq Hl Hden. pose proof Hden as (mo & path & Hmo & Ej & Hne & Hfd & Hfo).
  unfold save_function, save_type. rewrite Hl. rewrite andb_false_r. destruct fuel as [|fuel]; [exfalso; inversion Hf|]. cbn [save_global].
  unfold whichmodule. rewrite Hm, Hq. unfold import_. rewrite Hmo. unfold _getattribute.
  assert (Es : split_dot q = path) by (subst q; apply split_join; auto). rewrite Es.
  destruct (follows_getattribute E path mo (n_id o) mo Hfo) as [par Eg]. rewrite Eg. rewrite Nat.eqb_refl. cbn [negb].
  apply Nat.leb_le in H4. rewrite H4. eexists. split; [reflexivity|]. split; [reflexivity|]. intros R1 R2 R3.
  apply Nat.leb_le in H4. apply (C12_find_class_plain E (proto p) (fix_imports p)); auto.
  destruct (Nat.eqb_spec par mo) as [->|Hp]; [|exact Hden].
  exists mo, [last_part q]. split; [auto|]. split; [reflexivity|]. split; [discriminate|]. split; [constructor; [apply last_part_nodot|constructor]|].
  unfold last_part. rewrite Es. destruct (getattribute_last E path mo mo (n_id o) mo Hne Eg) as [G1 G2].
  unfold getattr in G1. destruct (get (last path "") (attr E mo)) as [b|] eqn:Eb; [|discriminate]. injection G1 as ->.
  econstructor; [exact Eb|exact G2|constructor].
Qed.
(** C102: a function or class of a module in a package is saved by reference and loads as the very object *)
Theorem C102_by_reference_partial : forall E p describe isfc other fuel rec o m mo q, 0 < fuel -> 4 <= proto p -> importable_as E m mo -> startswith "__runtime__." m = false ->
  n_module o = Some m -> n_qualname o = Some q -> m <> "__main__" -> session_main p <> Some m -> denotes E m q (n_id o) ->
  exists n, save_function E p describe isfc other fuel o = Ok (ByRef (RGlobal m n)) /\
    save_type E p describe isfc other fuel rec o = Ok (ByRef (RGlobal m n)) /\
    ((m, n) <> ("__builtin__", "__main__") -> (m, n) <> ("__builtin__", "NoneType") -> m <> "dill.dill" ->
     load_ref E (proto p) (fix_imports p) (RGlobal m n) = Ok (FObj (n_id o))).
Proof.
  intros E p d i ot fuel rc o m mo q Hf H4 I R Hm Hq Hn Hs Hden. apply located_by_reference with q; auto. apply (C102_locate_exact_partial E p o m mo q); auto.
Qed.
(** C102: an object without __qualname__: only a class that its module has under its name; functions never *)
Theorem C102_unqualified : forall E p o m mo, importable_as E m mo -> startswith "__runtime__." (m ++ "." ++ n_name o) = false -> n_module o = Some m -> n_qualname o = None -> has_dot (n_name o) = false ->
  m <> "__main__" -> session_main p <> Some m -> get (m ++ "." ++ n_name o) (modules E) = None -> n_id o <> none E ->
  (_locate_function E p o = true <-> get (n_name o) (attr E mo) = Some (n_id o) /\ is_mod_or_type E (n_id o) = true).
Proof.
  intros E p o m mo [M _] R Hm Hq L N1 N2 Nm Nn. unfold _locate_function. rewrite Hm, Hq. destruct (String.eqb_spec m "__main__"); [congruence|].
  assert (match session_main p with Some s => String.eqb m s | None => false end = false) as -> by (destruct (session_main p) as [s|]; auto; destruct (String.eqb_spec m s); congruence).
  unfold _import_module, import_module_raw. rewrite R. assert (has_dot (m ++ "." ++ n_name o) = true) as -> by (rewrite has_dot_app; apply orb_true_iff; right; reflexivity).
  rewrite (split_last m _ L), removelast_last, last_last, join_split. unfold import_, getattr. rewrite M, Nm.
  destruct (get (n_name o) (attr E mo)) as [x|] eqn:X.
  - destruct (is_mod_or_type E x) eqn:T.
    + rewrite Nat.eqb_eq. split; [intros ->; auto|]. intros [[= ->] _]. reflexivity.
    + rewrite Nat.eqb_eq. split; [congruence|]. intros [[= ->] T']. congruence.
  - rewrite Nat.eqb_eq. split; [congruence|]. intros [H _]. discriminate.
Qed.
(** a package that has a class with the name of its submodule: the functions of that submodule are importable, and are saved by value all the same *)
Definition exS : env := {|
  modules := [("pkg", 1); ("pkg.run", 2)];
  attr := fun o => match o with 1 => [("run", 3)] | 2 => [("f", 5)] | _ => [] end;
  is_mod_or_type := fun o => Nat.leb o 3; none := 0; none_type := 8; name_mapping := []; import_mapping := []; rev_name_mapping := []; rev_import_mapping := [] |}.
Theorem C102_shadowed_refuted : let f := Named 5 (Some "pkg.run") (Some "f") "f" in
  denotes exS "pkg.run" "f" 5 /\ find_class exS 4 true "pkg.run" "f" = Ok (FObj 5) /\
  forall describe isfc other fuel, save_function exS (exP 4) describe isfc other fuel f = Ok ByValue.
Proof.
  cbn zeta. split; [|split].
  - exists 2, ["f"]. split; [reflexivity|]. split; [reflexivity|]. split; [discriminate|]. split; [repeat constructor|]. econstructor; [reflexivity|discriminate|constructor].
  - vm_compute. reflexivity.
  - intros. unfold save_function. assert (_locate_function exS (exP 4) (Named 5 (Some "pkg.run") (Some "f") "f") = false) as -> by (vm_compute; reflexivity). reflexivity.
Qed.
Definition exQ : env := {|
  modules := [("pkg", 1); ("pkg.sub", 2)];
  attr := fun o => match o with 1 => [("sub", 2); ("f", 7)] | 2 => [("A", 3); ("f", 5)] | 3 => [("B", 4)] | _ => [] end;
  is_mod_or_type := fun o => Nat.leb o 4; none := 0; none_type := 8; name_mapping := []; import_mapping := []; rev_name_mapping := []; rev_import_mapping := [] |}.
Theorem C102_case : importable_as exQ "pkg.sub" 2 /\ denotes exQ "pkg.sub" "A.B" 4 /\ _locate_function exQ (exP 4) (Named 4 (Some "pkg.sub") (Some "A.B") "B") = true /\
  _locate_function exQ (exP 4) (Named 7 (Some "pkg.sub") (Some "f") "f") = false /\ _locate_function exQ (exP 4) (Named 3 (Some "pkg.sub") None "A") = true /\
  _locate_function exQ (exP 4) (Named 5 (Some "pkg.sub") None "f") = false.
Proof.
  split; [|split; [|repeat split; vm_compute; reflexivity]].
  - split; [reflexivity|]. right. exists "pkg", "sub", 1, 2. repeat split; reflexivity.
  - exists 2, ["A"; "B"]. split; [reflexivity|]. split; [reflexivity|]. split; [discriminate|]. split; [repeat constructor|].
    econstructor; [reflexivity|discriminate|]. econstructor; [reflexivity|discriminate|constructor].
Qed.
