(** C19: a namedtuple class comes back with its own fields -- when its name is not taken. *)
From Coq Require Import String Ascii List Bool Arith Lia.
From Verif Require Import PyDict NamesModel NamesProofs NamedtupleModel.
Import ListNotations.
Local Open Scope string_scope.

(** a namedtuple class: made by namedtuple(...), then possibly given another __qualname__ and more attributes *)
Definition is_namedtuple (ident : string -> bool) (digits : nat -> string) (c : ntclass) : Prop :=
  exists rename fields ds c0, namedtuple ident digits rename (nt_name c) fields ds (nt_module c) = Some c0 /\
    nt_fields c = nt_fields c0 /\ nt_defaults c = nt_defaults c0.

Lemma no_dups_NoDup l : no_dups l = true -> NoDup l.
Proof.
  induction l as [|x l IH]; intros Hd; constructor; cbn [no_dups] in Hd; apply andb_prop in Hd as [H1 H2]; auto.
  apply memb_nIn. apply negb_true_iff in H1. exact H1.
Qed.
(** reading the defaults back in field order *)
Lemma defaults_back : forall fields ds, NoDup fields -> length ds <= length fields ->
  concat (map (fun f => match get f (right_zip fields ds) with Some x => [x] | None => [] end) fields) = ds.
Proof.
  intros fields ds Hn Hl. unfold right_zip. set (n := length fields - length ds).
  assert (G : forall g : string -> list nat, concat (map g fields) = (concat (map g (firstn n fields)) ++ concat (map g (skipn n fields)))%list).
  { intros g. rewrite <- concat_app, <- map_app, firstn_skipn. reflexivity. }
  rewrite G. clear G.
  assert (Hn' : NoDup (firstn n fields ++ skipn n fields)) by now rewrite firstn_skipn.
  assert (H1 : concat (map (fun f => match get f (combine (skipn n fields) ds) with Some x => [x] | None => [] end) (firstn n fields)) = []).
  { assert (Hni : forall f, In f (firstn n fields) -> ~ In f (skipn n fields)).
    { revert Hn'. generalize (skipn n fields) as B. induction (firstn n fields) as [|a A IH]; intros B Hd f Hf; [destruct Hf|].
      inversion Hd as [|? ? Ha Hd']; subst. destruct Hf as [->|Hf]; [|eapply IH; eauto]. intros Hi. apply Ha. apply in_app_iff. auto. }
    induction (firstn n fields) as [|a A IH]; [reflexivity|]. cbn [map concat].
    destruct (get a (combine (skipn n fields) ds)) as [x|] eqn:E.
    - exfalso. apply get_In in E. apply in_combine_l in E. exact (Hni a (or_introl eq_refl) E).
    - simpl. apply IH; [inversion Hn'; auto|]. intros f Hf. apply Hni. simpl; auto. }
  rewrite H1. cbn [app]. clear H1.
  assert (Hlen : length (skipn n fields) = length ds) by (rewrite skipn_length; unfold n; lia).
  assert (Hd : NoDup (skipn n fields)).
  { clear - Hn'. induction (firstn n fields) as [|a A IH]; [exact Hn'|]. inversion Hn'; auto. }
  clear Hn' Hl Hn. revert Hlen Hd. generalize (skipn n fields). clear n. intros B Hlen HB. revert ds Hlen. induction B as [|b B IH]; intros ds Hlen; destruct ds as [|x ds]; try discriminate; auto.
  cbn [combine map concat get]. rewrite eqb_refl. cbn [app]. f_equal.
  inversion HB as [|? ? Hb HB']; subst. etransitivity; [|apply (IH HB' ds); auto]. f_equal. apply map_ext_in.
  intros f Hf. rewrite eqb_neq; auto. intros ->. exact (Hb Hf).
Qed.

Lemma right_zip_nil fields ds : right_zip fields ds = [] -> length ds <= length fields -> ds = [].
Proof.
  unfold right_zip. intros E Hl. destruct ds as [|x ds]; auto. exfalso.
  assert (Hlen : length (skipn (length fields - length (x :: ds)) fields) = length (x :: ds)) by (rewrite skipn_length; lia).
  destruct (skipn _ fields); [discriminate|discriminate E].
Qed.

(** If nothing is importable under the class's name, and no field came from rename=True, the copy has the
    same name, qualified name, module, fields and defaults. *)
Theorem C19_fresh_partial : forall ident digits E c, is_namedtuple ident digits c ->
  (forall f, In f (nt_fields c) -> underscore f = false) ->
  _import_module E (nt_module c ++ "." ++ nt_name c) true = Ok (none E) ->
  exists c', create_namedtuple ident digits E (save_namedtuple c) = Fresh c' /\
    nt_name c' = nt_name c /\ nt_qualname c' = nt_qualname c /\ nt_module c' = nt_module c /\
    nt_fields c' = nt_fields c /\ nt_defaults c' = nt_defaults c.
Proof.
  intros ident digits E c [rn [fields [ds [c0 [Hc [Hf Hd]]]]]] Hu Hi. unfold create_namedtuple, save_namedtuple.
  cbn [s_module s_name s_fields s_defaults s_qualname]. rewrite Hi, Nat.eqb_refl.
  unfold namedtuple in Hc. cbn zeta in Hc.
  set (fs := if rn then rename_fields ident digits 0 [] fields else fields) in *.
  destruct (ident (nt_name c)) eqn:E1; [|discriminate]. destruct (forallb ident fs) eqn:E2; [|discriminate]. cbn [negb] in Hc.
  destruct (existsb _ fs || negb (no_dups fs)) eqn:E3; [discriminate|]. apply orb_false_iff in E3 as [_ E4]. apply negb_false_iff in E4.
  destruct (Nat.ltb_spec (length fs) (length ds)) as [|Hl]; [discriminate|]. injection Hc as <-. cbn [nt_fields nt_defaults] in *.
  rewrite Hf, Hd.
  assert (Hds : match (match right_zip fs ds with [] => None | _ :: _ => Some (concat (map (fun f => match get f (right_zip fs ds) with Some x => [x] | None => [] end) fs)) end)
                with Some l => l | None => [] end = ds).
  { destruct (right_zip fs ds) eqn:Er; [symmetry; eapply right_zip_nil; eauto|]. rewrite <- Er. apply defaults_back; auto. apply no_dups_NoDup; auto. }
  match goal with |- context [namedtuple ident digits false (nt_name c) fs ?l (nt_module c)] => replace l with ds end.
  2:{ rewrite <- Hds at 1. destruct (right_zip fs ds); reflexivity. }
  unfold namedtuple. rewrite E1, E2, E4. cbn [negb].
  replace (existsb (fun f => underscore f && true) fs) with false.
  2:{ symmetry. apply not_true_iff_false. intros Ht. apply existsb_exists in Ht as [f [Hin Hx]]. rewrite Hf in Hu. rewrite (Hu f Hin) in Hx. discriminate. }
  cbn [orb]. destruct (Nat.ltb_spec (length fs) (length ds)); [lia|].
  eexists. split; [reflexivity|]. cbn [nt_name nt_qualname nt_module nt_fields nt_defaults]. repeat split.
  destruct (String.eqb_spec (nt_name c) (nt_qualname c)) as [<-|]; reflexivity.
Qed.

(** if the class itself is importable under its name, the copy is the class itself *)
Theorem C19_importable_same : forall ident digits E c o, _import_module E (nt_module c ++ "." ++ nt_name c) true = Ok o -> o <> none E ->
  create_namedtuple ident digits E (save_namedtuple c) = Found o.
Proof.
  intros ident digits E c o Hi Hn. unfold create_namedtuple, save_namedtuple. cbn [s_module s_name]. rewrite Hi.
  destruct (Nat.eqb_spec o (none E)); [contradiction|reflexivity].
Qed.

(** REFUTED in general.  1: whatever class or module the name leads to is returned, the fields are not
    looked at: for every class c and every object x that is a module or a type *)
Theorem C19_name_taken_refuted : forall ident digits c x, has_dot (nt_module c) = false -> has_dot (nt_name c) = false ->
  startswith "__runtime__." (nt_module c ++ "." ++ nt_name c) = false ->
  exists E, create_namedtuple ident digits E (save_namedtuple c) = Found (S x).
Proof.
  intros ident digits c x H1 H2 H3.
  exists {| modules := [(nt_module c, 7)]; attr := fun _ => [(nt_name c, S x)]; is_mod_or_type := fun _ => true; none := 0; none_type := 0;
            name_mapping := []; import_mapping := []; rev_name_mapping := []; rev_import_mapping := [] |}.
  apply C19_importable_same; [|cbn; discriminate].
  unfold _import_module, import_module_raw. rewrite H3.
  assert (Hd : has_dot (nt_module c ++ "." ++ nt_name c) = true).
  { clear. induction (nt_module c) as [|a s IH]; [reflexivity|]. change (Ascii.eqb a "." || has_dot (s ++ "." ++ nt_name c) = true). rewrite IH. apply orb_true_r. }
  rewrite Hd.
  change (nt_module c ++ "." ++ nt_name c) with (join_dot [nt_module c; nt_name c]).
  rewrite split_join by (try discriminate; repeat constructor; auto).
  cbn [removelast join_dot last]. unfold import_, getattr. cbn [modules attr get is_mod_or_type].
  rewrite !eqb_refl. reflexivity.
Qed.

Definition ident0 (s : string) : bool := negb (String.eqb s "def") && negb (String.eqb s "").
Definition digits0 (i : nat) : string := String (Ascii.ascii_of_nat (48 + i)) "".
Definition E0 : env := {| modules := [("mod", 7)]; attr := fun _ => []; is_mod_or_type := fun _ => true; none := 0; none_type := 0;
            name_mapping := []; import_mapping := []; rev_name_mapping := []; rev_import_mapping := [] |}.
(** 2: namedtuple('P', ['a', 'def'], rename=True) has the field _1 and cannot be loaded *)
Theorem C19_rename_refuted : exists c, is_namedtuple ident0 digits0 c /\ nt_fields c = ["a"; "_1"] /\
  create_namedtuple ident0 digits0 E0 (save_namedtuple c) = Failed.
Proof.
  exists (NT "P" "P" "mod" ["a"; "_1"] [] []). split; [|split; reflexivity].
  exists true, ["a"; "def"], [], (NT "P" "P" "mod" ["a"; "_1"] [] []). repeat split.
Qed.
(** 3: further attributes and methods (as typing.NamedTuple classes have) are not in the copy *)
Theorem C19_methods_refuted : forall ident digits E c c', create_namedtuple ident digits E (save_namedtuple c) = Fresh c' -> nt_extra c' = [].
Proof.
  intros ident digits E c c'. unfold create_namedtuple. destruct (_import_module _ _ _); [|discriminate].
  destruct (Nat.eqb _ _); [|discriminate]. destruct (namedtuple _ _ _ _ _ _ _) as [c0|] eqn:En; [|discriminate].
  intros Ex. injection Ex as <-. cbn [nt_extra]. unfold namedtuple in En.
  repeat match type of En with (if ?b then _ else _) = _ => destruct b; [discriminate|] end. injection En as <-. reflexivity.
Qed.
(** namedtuple('P', ['x', 'y', 'z'], defaults=[5, 6]) nested in a function *)
Example ex_C19 : let c := NT "P" "f.<locals>.P" "mod" ["x"; "y"; "z"] [("y", 5); ("z", 6)] [] in
  is_namedtuple ident0 digits0 c /\ create_namedtuple ident0 digits0 E0 (save_namedtuple c) = Fresh c.
Proof.
  split; [|reflexivity]. exists false, ["x"; "y"; "z"], [5; 6], (NT "P" "P" "mod" ["x"; "y"; "z"] [("y", 5); ("z", 6)] []).
  split; [reflexivity|]. split; reflexivity.
Qed.
