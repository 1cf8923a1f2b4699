(** C59, C60: slot and C descriptors, properties, static and class methods. *)
From Coq Require Import String Ascii List Bool Arith Lia.
From Verif Require Import PyDict NamesModel NamesProofs DescrModel.
Import ListNotations.
Local Open Scope string_scope.

(** ** specification *)
(** the dotted name [n1.n2...] names [o] in dill's module: n1 is a name there or a builtin, the rest are attributes *)
Inductive names (P : proc) : list string -> nat -> Prop :=
  | names_top : forall n o, get n (ns P) = Some o -> names P [n] o
  | names_attr : forall l n p o, names P l p -> get n (att P p) = Some o -> names P (l ++ [n]) o.
Definition no_quote (s : string) : Prop := all_chars (fun c => negb (Ascii.eqb c "'")) s = true.
(** an ordinary class name: identifiers joined by dots *)
Definition dotted (l : list string) : Prop := l <> [] /\ Forall (fun x => is_ident x = true) l.

(** ** lemmas *)
Lemma app_assoc_s (a b c : string) : (a ++ b) ++ c = a ++ (b ++ c).
Proof. induction a; cbn; congruence. Qed.
Lemma app_nil_s (a : string) : a ++ "" = a.
Proof. induction a; cbn; congruence. Qed.
Lemma split_aux_one c s : forall cur, all_chars (fun x => negb (Ascii.eqb x c)) s = true -> forall rest,
  split_aux c cur (s ++ String c rest) = (cur ++ s) :: split c rest.
Proof.
  induction s as [|a s IH]; intros cur H rest; cbn [append split_aux all_chars] in *.
  - rewrite Ascii.eqb_refl, app_nil_s. reflexivity.
  - apply andb_prop in H as [A B]. apply negb_true_iff in A. rewrite A, (IH _ B), app_assoc_s. reflexivity.
Qed.
Lemma split_one c s rest : all_chars (fun x => negb (Ascii.eqb x c)) s = true -> split c (s ++ String c rest) = s :: split c rest.
Proof. intros H. unfold split at 1. rewrite (split_aux_one c s "" H rest). reflexivity. Qed.
Lemma all_chars_app f a b : all_chars f (a ++ b) = all_chars f a && all_chars f b.
Proof. induction a; cbn; [reflexivity|]. rewrite IHa. apply andb_assoc. Qed.

Lemma repr_split kind name cls : no_quote kind -> no_quote name -> no_quote cls -> nth_error (split quote (descr_repr kind name cls)) 3 = Some cls.
Proof.
  intros K N C. unfold descr_repr.
  replace ("<" ++ kind ++ " '" ++ name ++ "' of '" ++ cls ++ "' objects>")
    with (("<" ++ kind ++ " ") ++ String quote (name ++ String quote (" of " ++ String quote (cls ++ String quote " objects>")))).
  2:{ rewrite !app_assoc_s. reflexivity. }
  rewrite split_one. 2:{ change quote with "'"%char. rewrite !all_chars_app. unfold no_quote in K. rewrite K. reflexivity. }
  rewrite split_one by exact N. rewrite split_one by reflexivity. rewrite split_one by exact C. reflexivity.
Qed.

Lemma walk_names P l : forall o pre x, names P pre o -> walk P o l = Some x -> names P (pre ++ l)%list x.
Proof.
  induction l as [|n l IH]; intros o pre x N W; cbn in W.
  - rewrite app_nil_r. congruence.
  - destruct (get n (att P o)) as [y|] eqn:E; [|discriminate].
    replace (pre ++ n :: l)%list with ((pre ++ [n]) ++ l)%list by (rewrite <- app_assoc; reflexivity).
    apply (IH y); [|exact W]. eapply names_attr; eassumption.
Qed.
Lemma names_walk P l o : names P l o -> match l with [] => False | n :: r => exists p, get n (ns P) = Some p /\ walk P p r = Some o end.
Proof.
  assert (forall r p o' n x, walk P p r = Some o' -> get n (att P o') = Some x -> walk P p (r ++ [n])%list = Some x) as A.
  { induction r as [|m r IH]; intros p o' n x W G; cbn in *.
    - injection W as ->. rewrite G. reflexivity.
    - destruct (get m (att P p)); [|discriminate]. eapply IH; eassumption. }
  induction 1 as [n o G|l n p o N IH G].
  - exists o. split; [exact G|reflexivity].
  - destruct l as [|m r]; [destruct IH|]. destruct IH as (q & Q & W). cbn. exists q. split; [exact Q|]. eapply A; eassumption.
Qed.
Lemma ident_nodot s : is_ident s = true -> NamesModel.has_dot s = false.
Proof.
  destruct s as [|c s]; [discriminate|]. cbn [is_ident]. intros H. apply andb_prop in H as [A B].
  assert (forall x, is_name_char x = true -> Ascii.eqb x "." = false) as D.
  { intros x X. destruct (Ascii.eqb_spec x "."); [|reflexivity]. subst x. vm_compute in X. discriminate. }
  assert (forall s, all_chars is_name_char s = true -> NamesModel.has_dot s = false) as F.
  { induction s0 as [|a s0 IH]; intros X; [reflexivity|]. cbn in *. apply andb_prop in X as [X Y]. rewrite (D _ X), (IH Y). reflexivity. }
  cbn. rewrite (F _ B), (D c); [reflexivity|]. unfold is_name_char. rewrite A. reflexivity.
Qed.
Lemma ident_noquote s : is_ident s = true -> no_quote s.
Proof.
  unfold no_quote. destruct s as [|c s]; [discriminate|]. cbn [is_ident all_chars]. intros H. apply andb_prop in H as [A B].
  assert (forall x, is_name_char x = true -> negb (Ascii.eqb x "'") = true) as D.
  { intros x X. destruct (Ascii.eqb_spec x "'"); [|reflexivity]. subst x. vm_compute in X. discriminate. }
  rewrite (D c) by (unfold is_name_char; rewrite A; reflexivity). cbn. induction s as [|a s IH]; [reflexivity|].
  cbn in *. apply andb_prop in B as [X Y]. rewrite (D _ X), (IH Y). reflexivity.
Qed.
Lemma join_noquote l : Forall (fun x => is_ident x = true) l -> no_quote (join_dot l).
Proof.
  unfold no_quote. induction 1 as [|x l X F IH]; [reflexivity|]. pose proof (ident_noquote x X) as Q. unfold no_quote in Q.
  destruct l as [|y l]; [exact Q|]. change (join_dot (x :: y :: l)) with (x ++ "." ++ join_dot (y :: l)). rewrite !all_chars_app, Q, IH. reflexivity.
Qed.
Lemma eval_dotted P l : dotted l -> eval_expr P (join_dot l) = match l with n :: r => match get n (ns P) with Some o => walk P o r | None => None end | [] => None end.
Proof.
  intros [N F]. unfold eval_expr. rewrite split_join; [|exact N|].
  2:{ eapply Forall_impl; [|exact F]. intros a. apply ident_nodot. }
  replace (forallb is_ident l) with true; [reflexivity|]. symmetry. apply forallb_forall. apply Forall_forall. exact F.
Qed.
Lemma eval_names P l o : dotted l -> eval_expr P (join_dot l) = Some o <-> names P l o.
Proof.
  intros D. rewrite (eval_dotted P l D). split; intros H.
  - destruct l as [|n r]; [discriminate|]. destruct (get n (ns P)) as [p|] eqn:E; [|discriminate].
    change (n :: r) with ([n] ++ r)%list. apply (walk_names P r p); [|exact H]. constructor. exact E.
  - pose proof (names_walk P l o H) as X. destruct l as [|n r]; [destruct X|]. destruct X as (p & A & B). rewrite A. exact B.
Qed.

(** ** C59: a slot or C descriptor comes back as the entry of its class *)
(** the class [c] of the loading process, whose name is dotted, has the entry [e] under the name; nothing that the class's name means in dill's own
    module has such an entry, or only the class itself does *)
Theorem C59_own_entry_partial : forall P d c l e (entries : dict string nat),
  no_quote (d_kind d) -> no_quote (d_name d) -> d_cls d = join_dot l -> dotted l ->
  cdict P c = Some entries -> get (d_name d) entries = Some e ->
  (forall o od, names P l o -> cdict P o = Some od -> has (d_name d) od = true -> o = c) ->
  load_descr P d c = Ok e.
Proof.
  intros P d c l e entries K N C D E G U. unfold load_descr, getattr_.
  rewrite repr_split; [|exact K|exact N|rewrite C; apply join_noquote; apply D].
  unfold eval_entry. rewrite C. destruct (eval_expr P (join_dot l)) as [o|] eqn:V.
  - destruct (cdict P o) as [od|] eqn:O.
    + destruct (get (d_name d) od) as [x|] eqn:X.
      * apply (eval_names P l o D) in V. assert (o = c) as ->. { apply (U o od V O). unfold has. rewrite X. reflexivity. } congruence.
      * rewrite E, G. reflexivity.
    + rewrite E, G. reflexivity.
  - rewrite E, G. reflexivity.
Qed.
(** in particular: a class of the user's whose name means nothing in dill's module *)
Corollary C59_user_class : forall P d c n e (entries : dict string nat),
  no_quote (d_kind d) -> no_quote (d_name d) -> d_cls d = n -> is_ident n = true -> get n (ns P) = None ->
  cdict P c = Some entries -> get (d_name d) entries = Some e ->
  load_descr P d c = Ok e.
Proof.
  intros P d c n e entries K N C I G E X. apply (C59_own_entry_partial P d c [n] e entries); try assumption.
  - split; [discriminate|]. constructor; [exact I|constructor].
  - intros o od Y. apply names_walk in Y. destruct Y as (p & Y & _). congruence.
Qed.

(** REFUTED in general: if the class's name means another class in dill's module that has an entry of the same name, that entry is loaded *)
Theorem C59_other_class_refuted : forall P d c l o (od : dict string nat) x,
  no_quote (d_kind d) -> no_quote (d_name d) -> d_cls d = join_dot l -> dotted l ->
  names P l o -> cdict P o = Some od -> get (d_name d) od = Some x ->
  load_descr P d c = Ok x.
Proof.
  intros P d c l o od x K N C D V O X. unfold load_descr, getattr_.
  rewrite repr_split; [|exact K|exact N|rewrite C; apply join_noquote; apply D].
  unfold eval_entry. rewrite C. apply (eval_names P l o D) in V. rewrite V, O, X. reflexivity.
Qed.
(** whatever the class: what is loaded is an entry or attribute of that name, of the class or of what the text between the quotes evaluates to *)
Theorem C59_same_name : forall P d c x, load_descr P d c = Ok x ->
  get (d_name d) (att P c) = Some x \/ (exists o od, (o = c \/ exists s, eval_expr P s = Some o) /\ cdict P o = Some od /\ get (d_name d) od = Some x).
Proof.
  intros P d c x. unfold load_descr, getattr_. destruct (nth_error _ 3) as [a|].
  - unfold eval_entry. destruct (eval_expr P a) as [o|] eqn:V; [destruct (cdict P o) as [od|] eqn:O; [destruct (get (d_name d) od) as [y|] eqn:Y|]|].
    { intros H. injection H as ->. right. exists o, od. split; [right; exists a; exact V|]. split; assumption. }
    all: destruct (cdict P c) as [cd|] eqn:C; [destruct (get (d_name d) cd) as [z|] eqn:Z|];
      try (intros H; injection H as ->; right; exists c, cd; split; [left; reflexivity|split; assumption]);
      destruct (get (d_name d) (att P c)) as [z'|]; intros H; try discriminate; injection H as ->; left; reflexivity.
  - destruct (cdict P c) as [cd|] eqn:C; [destruct (get (d_name d) cd) as [z|] eqn:Z|];
      try (intros H; injection H as ->; right; exists c, cd; split; [left; reflexivity|split; assumption]);
      destruct (get (d_name d) (att P c)) as [z'|]; intros H; try discriminate; injection H as ->; left; reflexivity.
Qed.

(** examples: int is object 1; the user has a class Point (2) with a slot x, and a class also called int (3) with a slot real *)
Definition ex_proc : proc :=
  {| ns := [("int", 1)]; att := fun o => match o with 1 => [("real", 11)] | 2 => [("x", 21)] | 3 => [("real", 31)] | _ => [] end;
     cdict := fun o => match o with 1 => Some [("real", 11)] | 2 => Some [("x", 21)] | 3 => Some [("real", 31)] | _ => None end; other := fun _ => None |}.
Example ex_point : load_descr ex_proc (Descr "member" "x" "Point") 2 = Ok 21. Proof. reflexivity. Qed.
Example ex_int : load_descr ex_proc (Descr "attribute" "real" "int") 1 = Ok 11. Proof. reflexivity. Qed.
Example ex_own_int : load_descr ex_proc (Descr "member" "real" "int") 3 = Ok 11. Proof. reflexivity. Qed.
Example ex_quote : load_descr ex_proc (Descr "member" "real" "int's") 3 = Ok 11. Proof. reflexivity. Qed.

(** ** C60: properties, static and class methods *)
(** the functions of the copies are the copies of the functions: property objects *)
Theorem C60_functions : forall fdoc cp p, let q := reload_property fdoc cp p in
  p_get q = option_map cp (p_get p) /\ p_set q = option_map cp (p_set p) /\ p_del q = option_map cp (p_del p) /\ p_abstract q = p_abstract p.
Proof.
  intros fdoc cp [a g s d doc gd dd]. cbn zeta. unfold reload_property, property_init. cbn [p_get p_set p_del p_abstract].
  destruct (doc_of _) as [x|], g as [f|]; cbn; auto. destruct a; cbn; auto.
Qed.

(** a property made with property(...), then changed with getter, setter, deleter *)
Inductive made (fdoc : nat -> option string) : property -> Prop :=
  | made_init : forall g s d doc, made fdoc (property_init fdoc false g s d doc)
  | made_copy : forall p a, made fdoc p -> made fdoc (property_copy fdoc p a).

Lemma made_inv fdoc p : made fdoc p -> p_abstract p = false /\
  ((p_doc p = None -> forall f, p_get p = Some f -> p_getter_doc p = true) /\ (p_getter_doc p = true -> exists f, p_get p = Some f /\ p_doc p = fdoc f)).
Proof.
  assert (forall g s d doc, let p := property_init fdoc false g s d doc in p_abstract p = false /\
    ((p_doc p = None -> forall f, p_get p = Some f -> p_getter_doc p = true) /\ (p_getter_doc p = true -> exists f, p_get p = Some f /\ p_doc p = fdoc f))) as A.
  { intros g s d doc. cbn zeta. unfold property_init. destruct doc as [x|], g as [f|]; cbn; (split; [reflexivity|]);
      (split; [intros; try discriminate; reflexivity|intros; try discriminate; exists f; auto]). }
  induction 1 as [g s d doc|p a M IH]; [apply A|].
  unfold property_copy. destruct IH as (B & _). rewrite B. apply A.
Qed.

(** its copy has the same documentation, if the copy of the getter has the getter's; and so has whatever is made from the copy with setter and deleter *)
Theorem C60_doc : forall fdoc fdoc' cp p, made fdoc p -> (forall f, p_get p = Some f -> fdoc' (cp f) = fdoc f) ->
  doc_of (reload_property fdoc' cp p) = doc_of p.
Proof.
  intros fdoc fdoc' cp p M F. destruct (made_inv _ _ M) as (A & N & G). unfold reload_property, doc_of at 1 3, property_init. rewrite A. cbn [p_doc].
  unfold doc_of. rewrite A. destruct (p_doc p) as [x|] eqn:D, (p_get p) as [f|] eqn:E; cbn; auto.
  specialize (N eq_refl f eq_refl). destruct (G N) as (f' & X & Y). injection X as <-. rewrite (F f eq_refl). auto.
Qed.
Definition map_accessor (cp : nat -> nat) (a : accessor) : accessor := match a with AGet f => AGet (cp f) | ASet f => ASet (cp f) | ADel f => ADel (cp f) end.
Theorem C60_doc_later : forall fdoc fdoc' cp p a, made fdoc p -> (forall f, p_get p = Some f -> fdoc' (cp f) = fdoc f) ->
  match a with AGet _ => False | _ => True end ->
  doc_of (property_copy fdoc' (reload_property fdoc' cp p) (map_accessor cp a)) = doc_of (property_copy fdoc p a).
Proof.
  intros fdoc fdoc' cp p a M F NG. destruct (made_inv _ _ M) as (A & N & G).
  destruct p as [ab g s d doc gd dd]. cbn [p_abstract p_doc p_get p_getter_doc] in *. subst ab.
  unfold reload_property, doc_of, property_copy, property_init. cbn [p_abstract p_doc p_get p_set p_del p_getter_doc].
  destruct g as [f|].
  - pose proof (F f eq_refl) as Q. destruct doc as [x|].
    + destruct gd. { destruct (G eq_refl) as (f' & X & Y). injection X as <-. destruct a; [destruct NG| |]; cbn; congruence. }
      destruct a; [destruct NG| |]; reflexivity.
    + rewrite (N eq_refl f eq_refl) in *. destruct (G eq_refl) as (f' & X & Y). injection X as <-.
      destruct a; [destruct NG| |]; cbn; exact Q.
  - destruct gd. { destruct (G eq_refl) as (f' & X & Y). discriminate. }
    destruct doc, a; try destruct NG; reflexivity.
Qed.
(** REFUTED: a new getter made from the copy does not bring its own documentation, which the original's does *)
Theorem C60_getter_refuted : forall fdoc fdoc' cp f g x y, fdoc f = Some x -> fdoc g = Some y -> fdoc' (cp f) = Some x ->
  doc_of (property_copy fdoc (property_init fdoc false (Some f) None None None) (AGet g)) = Some y /\
  doc_of (property_copy fdoc' (reload_property fdoc' cp (property_init fdoc false (Some f) None None None)) (AGet (cp g))) = Some x.
Proof.
  intros fdoc fdoc' cp f g x y F G F'. unfold reload_property, property_copy, property_init, doc_of. cbn. rewrite F. cbn. split; [exact G|reflexivity].
Qed.
(** REFUTED: documentation that was set to None comes back from the getter *)
Theorem C60_none_refuted : forall fdoc fdoc' cp f x, fdoc' (cp f) = Some x ->
  let p := set_doc (property_init fdoc false (Some f) None None None) None in doc_of p = None /\ doc_of (reload_property fdoc' cp p) = Some x.
Proof. intros fdoc fdoc' cp f x F p. split; [reflexivity|]. exact F. Qed.
(** REFUTED: an abstractproperty with a documented getter comes back with the documentation of the class abstractproperty *)
Theorem C60_abstract_refuted : forall fdoc fdoc' cp f s d x, fdoc f = Some x ->
  let p := property_init fdoc true (Some f) s d None in doc_of p = Some x /\ doc_of (reload_property fdoc' cp p) = class_doc.
Proof. intros fdoc fdoc' cp f s d x F p. unfold p, property_init. cbn. rewrite F. split; reflexivity. Qed.

(** static and class methods: the kind and the function are kept *)
Theorem C60_wrapper_function : forall fattr cp w, w_kind (reload_wrapper fattr cp w) = w_kind w /\ w_func (reload_wrapper fattr cp w) = cp (w_func w).
Proof. intros. split; reflexivity. Qed.
Lemma get_copied d n : get n (copied d) = if memb n wrapped_names then get n d else None.
Proof.
  unfold copied. set (l := wrapped_names).
  assert (forall l acc, get n (fold_left (fun acc m => match get m d with Some v => set m v acc | None => acc end) l acc) =
    if memb n l then match get n d with Some v => Some v | None => get n acc end else get n acc) as A.
  { clear l. induction l as [|m l IH]; intros acc; [reflexivity|]. cbn [fold_left memb]. rewrite IH.
    change (memb n (m :: l)) with (eqb n m || memb n l).
    destruct (eqb_spec n m) as [<-|Q]; cbn [orb].
    - destruct (get n d) eqn:G; destruct (memb n l); try rewrite get_set_same; reflexivity.
    - destruct (get m d) eqn:G; [|reflexivity]. rewrite get_set_other by congruence. reflexivity. }
  rewrite A. destruct (memb n l); [|reflexivity]. destruct (get n d); reflexivity.
Qed.
(** the attributes are those a new wrapper of the function has: the copy of an unchanged wrapper has the original's, if the function's are kept *)
Theorem C60_wrapper_attributes : forall fattr fattr' cp k f n, (forall m, In m wrapped_names -> get m (fattr' (cp f)) = get m (fattr f)) ->
  get n (w_dict (reload_wrapper fattr' cp (wrap fattr k f))) = get n (w_dict (wrap fattr k f)).
Proof.
  intros fattr fattr' cp k f n H. unfold reload_wrapper, wrap. cbn [w_dict w_func w_kind]. rewrite !get_copied. destruct (memb n wrapped_names) eqn:M; [|reflexivity]. apply H. apply memb_In. exact M.
Qed.
(** REFUTED: an attribute set on the wrapper is lost *)
Theorem C60_wrapper_lost_refuted : forall fattr fattr' cp k f n v, ~ In n wrapped_names ->
  get n (w_dict (set_attr (wrap fattr k f) n v)) = Some v /\ get n (w_dict (reload_wrapper fattr' cp (set_attr (wrap fattr k f) n v))) = None.
Proof.
  intros fattr fattr' cp k f n v N. unfold reload_wrapper, set_attr, wrap. cbn [w_dict w_func w_kind]. rewrite get_set_same. split; [reflexivity|]. rewrite get_copied.
  destruct (memb n wrapped_names) eqn:M; [|reflexivity]. destruct N. apply memb_In. exact M.
Qed.

(** examples: f (1) has documentation "F", g (2) has none; copies add 10 *)
Definition ex_fdoc (o : nat) : option string := match o with 1 | 11 => Some "F" | _ => None end.
Example ex_doc : doc_of (reload_property ex_fdoc (fun o => o + 10) (property_init ex_fdoc false (Some 1) (Some 2) None None)) = Some "F". Proof. reflexivity. Qed.
Example ex_doc_given : doc_of (reload_property ex_fdoc (fun o => o + 10) (property_init ex_fdoc false (Some 1) (Some 2) None (Some "mine"))) = Some "mine".
Proof. reflexivity. Qed.
Example ex_setter : doc_of (property_copy ex_fdoc (reload_property ex_fdoc (fun o => o + 10) (property_init ex_fdoc false (Some 1) None None None)) (ASet 12)) = Some "F".
Proof. reflexivity. Qed.
