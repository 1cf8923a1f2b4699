(** C58: module objects. *)
From Coq Require Import String Ascii List Bool Arith Lia.
From Verif Require Import PyDict NamesModel NamesProofs ModuleModel.
Import ListNotations.
Local Open Scope string_scope.

(** [o] is the module of the dotted name: it is registered under the name, and it is the attribute of its package *)
Definition is_module (E : env) (package : list string) (last_name : string) (o : nat) : Prop :=
  has_dot last_name = false /\ Forall (fun x => has_dot x = false) package /\
  startswith "__runtime__." (join_dot (package ++ [last_name])) = false /\ is_mod_or_type E o = true /\
  get (join_dot (package ++ [last_name])) (modules E) = Some o /\
  (package <> [] -> exists po, get (join_dot package) (modules E) = Some po /\ get last_name (attr E po) = Some o).
(** the file is in the directory *)
Definition inside (dir f : string) : Prop := exists rest, f = dir ++ "/" ++ rest.
(** the module comes with the interpreter or is installed: no file, a file in one of the interpreter's directories (links followed or not), an extension,
    or a file in a site-packages directory *)
Definition installed (P : interp) (i : minfo) : Prop :=
  match m_file i with
  | NoFile => True
  | FileNone => False
  | File f => (exists p, In p (prefixes P) /\ (inside p f \/ inside (realpath P p) (realpath P f))) \/
              (exists x base, In x (ext_suffixes P) /\ f = base ++ x) \/ (exists a b, f = a ++ "/site-packages/" ++ b)
  end.

(** the module is the user's own: none of these, not even by the beginning or a part of its file's name *)
Definition own (P : interp) (i : minfo) : Prop :=
  match m_file i with
  | NoFile => False
  | FileNone => True
  | File f => (forall p r, In p (prefixes P) -> f <> p ++ r /\ realpath P f <> realpath P p ++ r) /\
              (forall x base, In x (ext_suffixes P) -> f <> base ++ x) /\ (forall a b, f <> a ++ "site-packages" ++ b)
  end.
(** the module was imported: it has a loader, or it is registered *)
Definition imported (E : env) (i : minfo) (o : nat) : Prop := m_loader i = true \/ exists n, In (n, o) (modules E).

Lemma has_dot_join p l : p <> [] -> has_dot (join_dot (p ++ [l])) = true.
Proof.
  assert (D : forall a b, has_dot (a ++ String "." b) = true) by (induction a as [|c a IHa]; intros b; [reflexivity|]; cbn [append has_dot]; rewrite IHa; apply orb_true_r).
  destruct p as [|x p]; [congruence|]. intros _. cbn [app join_dot]. destruct (p ++ [l])%list eqn:E; [destruct p; discriminate|]. apply (D x).
Qed.
Lemma import_is_module E p l o : is_module E p l o -> _import_module E (join_dot (p ++ [l])) false = Ok o.
Proof.
  intros (Hl & Hp & Hr & Ht & Hm & Hpar). unfold _import_module, import_module_raw. rewrite Hr.
  destruct p as [|x p].
  - cbn [app join_dot] in *. rewrite Hl. unfold import_. rewrite Hm. reflexivity.
  - rewrite has_dot_join by discriminate. rewrite split_join; [|destruct p; discriminate|apply Forall_app; auto].
    rewrite removelast_last, last_last. destruct (Hpar ltac:(discriminate)) as (po & Hpo & Hat). unfold import_. rewrite Hpo. unfold getattr. rewrite Hat, Ht. reflexivity.
Qed.
Lemma startswith_app p r : startswith p (p ++ r) = true.
Proof. induction p; cbn; auto. rewrite Ascii.eqb_refl. auto. Qed.
Lemma endswith_app a x : endswith x (a ++ x) = true.
Proof. induction a as [|c a IH]; cbn [append]; [destruct x; unfold endswith; match goal with |- context [string_dec ?u ?v] => destruct (string_dec u v); congruence end|].
  cbn [endswith]. match goal with |- context [string_dec ?u ?v] => destruct (string_dec u v); auto end. Qed.
Lemma contains_app a x b : contains x (a ++ x ++ b) = true.
Proof.
  induction a as [|c a IH]; cbn [append].
  - destruct (x ++ b) as [|c s] eqn:E; unfold contains; fold contains; rewrite <- E, startswith_app; reflexivity.
  - cbn [contains]. rewrite IH. apply orb_true_r.
Qed.
Lemma installed_builtin P i : installed P i -> is_builtin_module P i = true.
Proof.
  unfold installed, is_builtin_module. destruct (m_file i) as [| |f]; auto; try contradiction.
  intros [(p & Hp & [(r & ->)|(r & Hr)])|[(x & base & Hx & ->)|(a & b & ->)]].
  - replace (existsb _ (prefixes P)) with true; [reflexivity|]. symmetry. apply existsb_exists. exists p. split; auto. rewrite startswith_app. reflexivity.
  - replace (existsb _ (prefixes P)) with true; [reflexivity|]. symmetry. apply existsb_exists. exists p. split; auto. rewrite Hr, startswith_app. apply orb_true_r.
  - replace (existsb _ (ext_suffixes P)) with true; [rewrite orb_true_r; reflexivity|]. symmetry. apply existsb_exists. exists x. split; auto. apply endswith_app.
  - change (a ++ "/site-packages/" ++ b) with (a ++ "/" ++ "site-packages" ++ "/" ++ b). replace (a ++ "/" ++ "site-packages" ++ "/" ++ b) with ((a ++ "/") ++ "site-packages" ++ ("/" ++ b)).
    + rewrite contains_app, orb_true_r. reflexivity.
    + clear. induction a; cbn in *; [reflexivity|f_equal; exact IHa].
Qed.

Lemma startswith_inv p : forall s, startswith p s = true -> exists r, s = p ++ r.
Proof.
  induction p as [|c p IH]; intros s H; [exists s; reflexivity|]. destruct s as [|x s]; [discriminate|]. cbn [startswith] in H. apply andb_true_iff in H. destruct H as [H1 H2].
  apply Ascii.eqb_eq in H1. destruct (IH _ H2) as [r ->]. exists r. subst c. reflexivity.
Qed.
Lemma endswith_inv x : forall s, endswith x s = true -> exists b, s = b ++ x.
Proof.
  induction s as [|c s IH]; intros H; cbn [endswith] in H.
  - destruct (string_dec "" x) as [E|]; [exists ""; symmetry; rewrite <- E; reflexivity|discriminate].
  - destruct (string_dec (String c s) x) as [E|]; [exists ""; rewrite <- E; reflexivity|]. destruct (IH H) as [b ->]. exists (String c b). reflexivity.
Qed.
Lemma contains_inv x : forall s, contains x s = true -> exists a b, s = a ++ x ++ b.
Proof.
  induction s as [|c s IH]; intros H; cbn [contains] in H; apply orb_true_iff in H; destruct H as [H|H]; try discriminate.
  - destruct (startswith_inv _ _ H) as [r ->]. exists "", r. reflexivity.
  - destruct (startswith_inv _ _ H) as [r ->]. exists "", r. reflexivity.
  - destruct (IH H) as (a & b & ->). exists (String c a), b. reflexivity.
Qed.
Lemma own_builtin P i : own P i -> is_builtin_module P i = false.
Proof.
  unfold own, is_builtin_module. destruct (m_file i) as [| |f]; [contradiction|reflexivity|]. intros (H1 & H2 & H3). rewrite !orb_false_iff. split; [split|].
  - destruct (existsb _ (prefixes P)) eqn:X; [|reflexivity]. apply existsb_exists in X as (p & Ip & X). apply orb_true_iff in X. destruct X as [X|X]; destruct (startswith_inv _ _ X) as [r E]; destruct (H1 p r Ip); contradiction.
  - destruct (existsb _ (ext_suffixes P)) eqn:X; [|reflexivity]. apply existsb_exists in X as (x & Ix & X). destruct (endswith_inv _ _ X) as [b E]. exfalso. exact (H2 x b Ix E).
  - destruct (contains _ f) eqn:X; [|reflexivity]. destruct (contains_inv _ _ X) as (a & b & E). exfalso. exact (H3 a b E).
Qed.
Lemma imported_spec E i o : imported E i o <-> is_imported_module E i o = true.
Proof.
  unfold imported, is_imported_module. rewrite orb_true_iff, existsb_exists. split.
  - intros [H|[n H]]; [left; exact H|right; exists (n, o); split; [exact H|apply Nat.eqb_refl]].
  - intros [H|[[n o'] [H1 H2]]]; [left; exact H|right]. apply Nat.eqb_eq in H2. cbn in H2. subst o'. exists n. exact H1.
Qed.

(** an installed module is pickled by its name: it loads as the module of that name, and loading changes nothing *)
Theorem C58_installed_by_name : forall P E El i o cp p l o', installed P i -> m_name i = join_dot (p ++ [l]) -> m_name i <> "dill._dill" ->
  is_module El p l o' ->
  load_module_ref cp El (save_module P E false i o) = Ok (o', El).
Proof.
  intros P E El i o cp p l o' Hi En Nd M. unfold save_module. rewrite (installed_builtin P i Hi), andb_false_r. cbn [orb].
  destruct (String.eqb_spec (m_name i) "dill._dill"); [contradiction|]. cbn [load_module_ref]. rewrite En, (import_is_module _ _ _ _ M). reflexivity.
Qed.
Lemma get_map_snd {V W} (f : V -> W) (d : dict string V) k : get k (map (fun kv => (fst kv, f (snd kv))) d) = option_map f (get k d).
Proof. induction d as [|[k1 v] d IH]; cbn [map get fst snd]; [reflexivity|]. destruct (eqb k k1); [reflexivity|exact IH]. Qed.
Lemma wf_map_snd {V W} (f : V -> W) (d : dict string V) : wf d -> wf (map (fun kv => (fst kv, f (snd kv))) d).
Proof. unfold wf, keys. rewrite map_map. cbn. auto. Qed.

(** dill's own _dill module, whose contents are never saved, loads as the module that dill has under that name *)
Theorem C58_dill_module : forall P E El i o cp d o',
  m_name i = "dill._dill" -> get "dill" (modules El) = Some d -> get "_dill" (attr El d) = Some o' ->
  load_module_ref cp El (save_module P E false i o) = Ok (o', El).
Proof.
  intros P E El i o cp d o' N D O. assert (save_module P E false i o = PDill) as ->.
  { unfold save_module. rewrite N. cbn [String.eqb Ascii.eqb Bool.eqb andb orb]. destruct (is_builtin_module P i); reflexivity. }
  cbn [load_module_ref]. unfold import_. rewrite D. unfold getattr. rewrite O. reflexivity.
Qed.
(** a module of the user's is pickled with its names: it loads as the module of that name; each name it had gets the copy of its value, except
    __builtins__ and __loader__; names only the loading process has, and everything else, are unchanged *)
Theorem C58_user_with_contents : forall P E El i o cp p l o' (is_main : bool),
  (is_main = true \/ (own P i /\ ~ In (m_name i) ["builtins"; "dill"; "dill._dill"])) ->
  imported E i o -> m_name i = join_dot (p ++ [l]) -> is_module El p l o' -> wf (attr E o) ->
  exists E', load_module_ref cp El (save_module P E is_main i o) = Ok (o', E') /\
    (forall n, get n (attr E' o') = if memb n ["__builtins__"; "__loader__"] then get n (attr El o')
                                    else match get n (attr E o) with Some v => Some (cp v) | None => get n (attr El o') end) /\
    (forall x, x <> o' -> attr E' x = attr El x) /\ modules E' = modules El.
Proof.
  intros P E El i o cp p l o' is_main Hm Im En M W. unfold save_module. rewrite (proj1 (imported_spec _ _ _) Im).
  replace ((negb (memb (m_name i) ["builtins"; "dill"; "dill._dill"]) && negb (is_builtin_module P i)) || is_main) with true.
  2:{ symmetry. destruct Hm as [->|[Ho Hn]]; [apply orb_true_r|]. rewrite (own_builtin _ _ Ho). replace (memb (m_name i) ["builtins"; "dill"; "dill._dill"]) with false; [reflexivity|].
      symmetry. destruct (memb (m_name i) _) eqn:X; auto. apply memb_In in X. contradiction. }
  cbn [load_module_ref]. rewrite En, (import_is_module _ _ _ _ M). eexists. split; [reflexivity|]. split; [|split].
  - intros n. cbn [set_attrs attr]. rewrite Nat.eqb_refl. rewrite get_update, get_map_snd, !get_del by (apply wf_map_snd; repeat apply wf_del; exact W). cbn [memb].
    destruct (eqb_spec n "__loader__") as [->|N1]; [reflexivity|]. destruct (eqb_spec n "__builtins__") as [->|N2]; [reflexivity|].
    cbn [orb]. destruct (get n (attr E o)); reflexivity.
  - intros x Nx. cbn [set_attrs attr]. destruct (Nat.eqb_spec x o'); [contradiction|reflexivity].
  - reflexivity.
Qed.
(** a module that was not imported - no loader, not registered - is loaded as a new module of that name: the name is marked *)
Theorem C58_runtime_name : forall P E i o (is_main : bool), (is_main = true \/ (own P i /\ ~ In (m_name i) ["builtins"; "dill"; "dill._dill"])) -> ~ imported E i o ->
  exists d, save_module P E is_main i o = PState ("__runtime__." ++ m_name i) d /\ forall n, get n d = if memb n ["__builtins__"; "__loader__"] then None else get n (attr E o).
Proof.
  intros P E i o is_main Hm Im. unfold save_module. destruct (is_imported_module E i o) eqn:X; [exfalso; apply Im, imported_spec, X|].
  replace ((negb (memb (m_name i) ["builtins"; "dill"; "dill._dill"]) && negb (is_builtin_module P i)) || is_main) with true.
  2:{ symmetry. destruct Hm as [->|[Ho Hn]]; [apply orb_true_r|]. rewrite (own_builtin _ _ Ho). replace (memb (m_name i) ["builtins"; "dill"; "dill._dill"]) with false; [reflexivity|].
      symmetry. destruct (memb (m_name i) _) eqn:Y; auto. apply memb_In in Y. contradiction. }
  eexists. split; [reflexivity|]. intros n. rewrite !get_del. cbn [memb].
  destruct (eqb_spec n "__loader__") as [->|N1]; [reflexivity|]. destruct (eqb_spec n "__builtins__") as [->|N2]; [reflexivity|]. reflexivity.
Qed.
(** loading in the process that dumped, later: the module's names get back the values they had when the dump was made *)
Corollary C58_load_reverts : forall P E El i o cp p l n v w,
  own P i -> ~ In (m_name i) ["builtins"; "dill"; "dill._dill"] -> imported E i o -> m_name i = join_dot (p ++ [l]) ->
  is_module El p l o -> wf (attr E o) -> ~ In n ["__builtins__"; "__loader__"] -> get n (attr E o) = Some v -> get n (attr El o) = Some w ->
  exists E', load_module_ref cp El (save_module P E false i o) = Ok (o, E') /\ get n (attr E' o) = Some (cp v).
Proof.
  intros P E El i o cp p l n v w Hb Hn Im En M W Nn Ev Ew. destruct (C58_user_with_contents P E El i o cp p l o false (or_intror (conj Hb Hn)) Im En M W) as (E' & L & G & _).
  exists E'. split; auto. rewrite G, Ev. destruct (memb n _) eqn:X; auto. apply memb_In in X. contradiction.
Qed.

(** REFUTED: a file is taken to be in a directory of the interpreter's if its path begins with the same characters; the module's contents are then not saved *)
Theorem C58_prefix_refuted : forall P E i o rest p, In p (prefixes P) -> m_file i = File (p ++ rest) -> m_name i <> "dill._dill" ->
  save_module P E false i o = PName (m_name i).
Proof.
  intros P E i o rest p Hp Ef Nd. unfold save_module, is_builtin_module. rewrite Ef.
  replace (existsb (fun p0 => startswith p0 (p ++ rest) || startswith (realpath P p0) (realpath P (p ++ rest))) (prefixes P)) with true.
  2:{ symmetry. apply existsb_exists. exists p. split; auto. rewrite startswith_app. reflexivity. }
  cbn [orb negb]. rewrite andb_false_r. cbn [orb]. destruct (String.eqb_spec (m_name i) "dill._dill"); [contradiction|reflexivity].
Qed.
(** REFUTED: a module object that is not the one registered under its name loads as the registered one, or not at all *)
Theorem C58_unregistered_refuted : forall P E El i o cp, m_file i = NoFile -> has_dot (m_name i) = false -> startswith "__runtime__." (m_name i) = false ->
  load_module_ref cp El (save_module P E false i o) = match get (m_name i) (modules El) with Some o' => Ok (o', El) | None => Err ImportError end.
Proof.
  intros P E El i o cp Hf Hd Hr. unfold save_module, is_builtin_module. rewrite Hf. cbn [negb]. rewrite andb_false_r. cbn [orb].
  destruct (String.eqb_spec (m_name i) "dill._dill") as [Eq|Ne]; [rewrite Eq in Hd; discriminate|]. cbn [load_module_ref]. unfold _import_module, import_module_raw, import_.
  rewrite Hr, Hd. destruct (get (m_name i) (modules El)); reflexivity.
Qed.
(** REFUTED: a class in the package with the name of the submodule is loaded in place of the module *)
Theorem C58_shadowed_refuted : forall P E El i o cp p l po c, p <> [] -> Forall (fun x => has_dot x = false) p -> has_dot l = false ->
  startswith "__runtime__." (join_dot (p ++ [l])) = false -> m_name i = join_dot (p ++ [l]) -> m_name i <> "dill._dill" ->
  get (join_dot p) (modules El) = Some po -> get l (attr El po) = Some c -> is_mod_or_type El c = true -> installed P i ->
  load_module_ref cp El (save_module P E false i o) = Ok (c, El).
Proof.
  intros P E El i o cp p l po c Hp Fp Hl Hr En Nd Hpo Hc Ht Hi. unfold save_module. rewrite (installed_builtin P i Hi), andb_false_r. cbn [orb].
  destruct (String.eqb_spec (m_name i) "dill._dill"); [contradiction|]. cbn [load_module_ref]. rewrite En. unfold _import_module, import_module_raw. rewrite Hr, has_dot_join by auto.
  rewrite split_join; [|destruct p; discriminate|apply Forall_app; auto]. rewrite removelast_last, last_last. unfold import_. rewrite Hpo. unfold getattr. rewrite Hc, Ht. reflexivity.
Qed.

(** ** examples: sys.prefix is /usr *)
Definition ex_interp : interp := {| prefixes := ["/usr"]; realpath := fun f => f; ext_suffixes := [".so"] |}.
Definition ex_env (x : nat) : env :=
  {| modules := [("json", 1); ("project", 2); ("project.tool", 3); ("sys", 4)];
     attr := fun o => match o with 1 => [("dumps", 20)] | 2 => [("tool", 3); ("limit", x); ("__loader__", 30); ("__builtins__", 31)] | 3 => [("run", 22)] | _ => [] end;
     is_mod_or_type := fun o => Nat.ltb o 10; none := 99; none_type := 98; name_mapping := []; import_mapping := []; rev_name_mapping := []; rev_import_mapping := [] |}.
Example ex_json : installed ex_interp (MInfo "json" (File "/usr/lib/python3/json/__init__.py") true) /\
  load_module_ref (fun o => o) (ex_env 21) (save_module ex_interp (ex_env 21) false (MInfo "json" (File "/usr/lib/python3/json/__init__.py") true) 1) = Ok (1, ex_env 21).
Proof.
  assert (I0 : installed ex_interp (MInfo "json" (File "/usr/lib/python3/json/__init__.py") true)) by (left; exists "/usr"; split; [left; auto|]; left; exists "lib/python3/json/__init__.py"; reflexivity).
  split; [exact I0|]. apply (C58_installed_by_name ex_interp (ex_env 21) (ex_env 21) _ 1 _ [] "json" 1 I0); [reflexivity|discriminate|].
  split; [reflexivity|]. split; [constructor|]. split; [reflexivity|]. split; [reflexivity|]. split; [reflexivity|]. congruence.
Qed.
(** a module of the user's: its [limit] was 21 when it was dumped; the loading process has 25 *)
Example ex_project : exists E', load_module_ref (fun o => o + 100) (ex_env 25) (save_module ex_interp (ex_env 21) false (MInfo "project" (File "/home/me/project/__init__.py") true) 2) = Ok (2, E') /\
  get "limit" (attr E' 2) = Some 121 /\ get "__loader__" (attr E' 2) = Some 30.
Proof. eexists. split; [reflexivity|]. split; reflexivity. Qed.
(** a project in /usr2 counts as installed *)
Example ex_usr2 : ~ installed ex_interp (MInfo "project" (File "/usr2/project.py") true) /\
  save_module ex_interp (ex_env 21) false (MInfo "project" (File "/usr2/project.py") true) 2 = PName "project".
Proof.
  split; [|apply (C58_prefix_refuted ex_interp (ex_env 21) (MInfo "project" (File "/usr2/project.py") true) 2 "2/project.py" "/usr"); [left; auto|reflexivity|discriminate]].
  intros [(p & [<-|[]] & [(r & Hr)|(r & Hr)])|[(x & base & [<-|[]] & Hx)|(a & b & Hab)]]; try discriminate.
  - assert (C : endswith ".so" "/usr2/project.py" = true) by (rewrite Hx; apply endswith_app). discriminate C.
  - assert (C : contains "/site-packages/" "/usr2/project.py" = true) by (rewrite Hab; apply contains_app). discriminate C.
Qed.
(** types.ModuleType('json') loads as the json module *)
Example ex_dynamic : load_module_ref (fun o => o) (ex_env 21) (save_module ex_interp (ex_env 21) false (MInfo "json" NoFile false) 7) = Ok (1, ex_env 21).
Proof. apply (C58_unregistered_refuted ex_interp (ex_env 21) (ex_env 21) (MInfo "json" NoFile false) 7 (fun o => o)); reflexivity. Qed.
Example ex_dill : load_module_ref (fun o => o) {| modules := [("dill", 1); ("dill._dill", 2)]; attr := fun o => match o with 1 => [("_dill", 2)] | _ => [] end;
    is_mod_or_type := fun _ => true; none := 99; none_type := 98; name_mapping := []; import_mapping := []; rev_name_mapping := []; rev_import_mapping := [] |}
  (save_module ex_interp (ex_env 21) false (MInfo "dill._dill" (File "/home/me/dill/_dill.py") true) 2) <> Err ImportError.
Proof. vm_compute. discriminate. Qed.
