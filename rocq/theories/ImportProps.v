(** C66: the import statement getimport gives. *)
From Coq Require Import String Ascii List Bool Arith Lia.
From Verif Require Import PyDict NamesModel NamesProofs DescrModel DescrProps ImportModel.
Import ListNotations.
Local Open Scope string_scope.

(** ** specification *)
(** the package [path] has the name: as an attribute, or as a submodule *)
Definition provides (E : env) (path : list string) (n : string) (o : nat) : Prop :=
  exists m, get (join_dot path) (modules E) = Some m /\
    (get n (attr E m) = Some o \/ (get n (attr E m) = None /\ get (join_dot path ++ "." ++ n) (modules E) = Some o)).
(** running the text binds exactly the name to the object *)
Definition binds (E : env) (bi : dict string nat) (text name : string) (o : nat) : Prop := exec E bi text = Ok [(name, o)].
(** the name an alias asks for *)
Definition target (alias n : string) : string := if String.eqb alias "" then n else alias.
(** the parts of a module's name, outside dill, builtins and types *)
Definition ordinary (head : list string) : Prop :=
  Forall (fun x => is_ident x = true) head /\ match head with [] => False | x :: _ => ~ In x ["builtins"; "__builtin__"; "types"; "dill"] end.
Definition alias_ok (a : string) : Prop := a = "" \/ is_ident a = true.

(** ** lemmas *)
Lemma ident_nospace s : is_ident s = true -> all_chars (fun c => negb (Ascii.eqb c " ")) s = true.
Proof.
  destruct s as [|c s]; [discriminate|]. cbn [is_ident all_chars]. intros H. apply andb_prop in H as [A B].
  assert (forall x, is_name_char x = true -> negb (Ascii.eqb x " ") = true) as D.
  { intros x X. destruct (Ascii.eqb_spec x " "); [|reflexivity]. subst x. vm_compute in X. discriminate. }
  rewrite (D c) by (unfold is_name_char; rewrite A; reflexivity). cbn. induction s as [|a s IH]; [reflexivity|].
  cbn in *. apply andb_prop in B as [X Y]. rewrite (D _ X), (IH Y). reflexivity.
Qed.
Lemma join_nospace l : Forall (fun x => is_ident x = true) l -> all_chars (fun c => negb (Ascii.eqb c " ")) (join_dot l) = true.
Proof.
  induction 1 as [|x l X F IH]; [reflexivity|]. pose proof (ident_nospace x X) as Q.
  destruct l as [|y l]; [exact Q|]. change (join_dot (x :: y :: l)) with (x ++ "." ++ join_dot (y :: l)). rewrite !all_chars_app, Q, IH. reflexivity.
Qed.
Lemma chomp_nl s : chomp (s ++ nl) = s.
Proof.
  induction s as [|c s IH]; [reflexivity|]. cbn [append chomp]. rewrite IH. destruct s; reflexivity.
Qed.
Lemma split_aux_last c s : forall cur, all_chars (fun x => negb (Ascii.eqb x c)) s = true -> split_aux c cur s = [cur ++ s].
Proof.
  induction s as [|a s IH]; intros cur H; cbn [split_aux all_chars] in *; [rewrite app_nil_s; reflexivity|].
  apply andb_prop in H as [A B]. apply negb_true_iff in A. rewrite A, (IH _ B), app_assoc_s. reflexivity.
Qed.
Lemma split_last c s : all_chars (fun x => negb (Ascii.eqb x c)) s = true -> split c s = [s].
Proof. intros H. unfold split. rewrite (split_aux_last c s "" H). reflexivity. Qed.

Lemma from_import_provides E path n o : from_import E (join_dot path) n = Ok o <-> provides E path n o.
Proof.
  unfold from_import, provides, import_. destruct (get (join_dot path) (modules E)) as [m|]; [|split; [discriminate|intros (m & X & _); discriminate]].
  destruct (get n (attr E m)) as [x|] eqn:G.
  - split.
    + intros X. injection X as ->. exists m. auto.
    + intros (m' & X & Y). injection X as <-. rewrite G in Y. destruct Y as [Y|(Y & _)]; congruence.
  - split.
    + intros X. exists m. split; [reflexivity|]. right. split; [exact G|]. destruct (get _ (modules E)); congruence.
    + intros (m' & X & Y). injection X as <-. rewrite G in Y. destruct Y as [Y|(_ & Y)]; [discriminate|]. rewrite Y. reflexivity.
Qed.
Lemma from_import_err E path n e : from_import E (join_dot path) n = Err e -> e = ImportError.
Proof.
  unfold from_import, import_. destruct (get (join_dot path) (modules E)); [|congruence]. destruct (get n (attr E n0)); [discriminate|].
  destruct (get _ (modules E)); congruence.
Qed.

Lemma exec_statement E bi head n a : head <> [] -> Forall (fun x => is_ident x = true) head -> is_ident n = true -> alias_ok a ->
  exec E bi (statement head n a) = match from_import E (join_dot head) n with Ok o => Ok [(target a n, o)] | Err e => Err e end.
Proof.
  intros NE F N A. unfold exec, statement.
  assert (forallb is_ident (split_dot (join_dot head)) = true) as I.
  { rewrite split_join; [|exact NE|]. { apply forallb_forall. apply Forall_forall. exact F. }
    eapply Forall_impl; [|exact F]. intros x. apply ident_nodot. }
  pose proof (join_nospace head F) as JN. pose proof (ident_nospace n N) as NN.
  destruct head as [|h0 head]; [congruence|]. set (H := join_dot (h0 :: head)) in *. unfold target.
  destruct (String.eqb_spec a "") as [->|A0].
  - cbn [orb]. replace (("from " ++ H ++ " import " ++ n) ++ nl) with (("from" ++ String " " (H ++ String " " ("import" ++ String " " n))) ++ nl).
    2:{ cbn [append]. rewrite ?app_assoc_s. cbn [append]. rewrite ?app_assoc_s. cbn [append]. rewrite ?app_assoc_s. cbn [append]. reflexivity. }
    rewrite chomp_nl. rewrite split_one by reflexivity. rewrite split_one by exact JN. rewrite split_one by reflexivity. rewrite split_last by exact NN.
    cbn [run_words]. change (String.eqb "from" "from") with true. change (String.eqb "import" "import") with true. cbn [andb]. rewrite I, N. cbn [andb]. reflexivity.
  - destruct A as [->|A]; [congruence|]. cbn [orb]. destruct (String.eqb_spec a n) as [->|AN].
    + replace (("from " ++ H ++ " import " ++ n) ++ nl) with (("from" ++ String " " (H ++ String " " ("import" ++ String " " n))) ++ nl).
      2:{ cbn [append]. rewrite ?app_assoc_s. cbn [append]. rewrite ?app_assoc_s. cbn [append]. rewrite ?app_assoc_s. cbn [append]. reflexivity. }
      rewrite chomp_nl. rewrite split_one by reflexivity. rewrite split_one by exact JN. rewrite split_one by reflexivity. rewrite split_last by exact NN.
      cbn [run_words]. change (String.eqb "from" "from") with true. change (String.eqb "import" "import") with true. cbn [andb]. rewrite I, N. cbn [andb]. reflexivity.
    + replace (("from " ++ H ++ " import " ++ n) ++ " as " ++ a ++ nl)
        with (("from" ++ String " " (H ++ String " " ("import" ++ String " " (n ++ String " " ("as" ++ String " " a))))) ++ nl).
      2:{ cbn [append]. rewrite ?app_assoc_s. cbn [append]. rewrite ?app_assoc_s. cbn [append]. rewrite ?app_assoc_s. cbn [append]. cbn [append]. rewrite ?app_assoc_s. reflexivity. }
      rewrite chomp_nl. rewrite split_one by reflexivity. rewrite split_one by exact JN. rewrite split_one by reflexivity. rewrite split_one by exact NN.
      rewrite split_one by reflexivity. rewrite split_last by (apply ident_nospace; exact A).
      cbn [run_words]. change (String.eqb "from" "from") with true. change (String.eqb "import" "import") with true. change (String.eqb "as" "as") with true.
      cbn [andb]. rewrite I, N, A. cbn [andb]. reflexivity.
Qed.

Lemma join_inj l l' : l <> [] -> l' <> [] -> Forall (fun x => has_dot x = false) l -> Forall (fun x => has_dot x = false) l' -> join_dot l = join_dot l' -> l = l'.
Proof. intros A B C D E. rewrite <- (split_join l A C), <- (split_join l' B D), E. reflexivity. Qed.
Lemma ordinary_join head s : ordinary head -> In s ["builtins"; "__builtin__"; "types"; "dill"] -> String.eqb (join_dot head) s = false.
Proof.
  intros [F O] I. destruct (String.eqb_spec (join_dot head) s) as [X|]; [|reflexivity]. exfalso.
  destruct head as [|x head]; [exact O|]. assert (x :: head = [s]) as Y.
  { apply join_inj; [discriminate|discriminate| | |exact X].
    - eapply Forall_impl; [|exact F]. intros a. apply ident_nodot.
    - constructor; [|constructor]. cbn in I. repeat (destruct I as [<-|I]; [reflexivity|]). destruct I. }
  injection Y as -> ->. exact (O I).
Qed.
Lemma startswith_split p s rest : has_dot p = false -> has_dot s = false -> startswith (p ++ ".") (s ++ "." ++ rest) = true -> p = s.
Proof.
  revert s. induction p as [|a p IH]; intros s P Q H.
  - destruct s as [|b s]; [reflexivity|]. cbn [append startswith has_dot] in *. apply andb_prop in H as [A _]. apply Ascii.eqb_eq in A. subst b.
    apply orb_false_iff in Q as [Q _]. discriminate Q.
  - destruct s as [|b s]; cbn [append startswith has_dot] in *.
    + apply andb_prop in H as [A _]. apply orb_false_iff in P as [P _]. rewrite P in A. discriminate A.
    + apply andb_prop in H as [A B]. apply Ascii.eqb_eq in A. subst b. apply orb_false_iff in P as [_ P]. apply orb_false_iff in Q as [_ Q].
      f_equal. apply IH; assumption.
Qed.
Lemma startswith_nodot p s : has_dot s = false -> startswith (p ++ ".") s = false.
Proof.
  revert s. induction p as [|a p IH]; intros s Q.
  - destruct s as [|b s]; [reflexivity|]. cbn [append startswith has_dot] in *. apply orb_false_iff in Q as [A _]. rewrite Ascii.eqb_sym. rewrite A. reflexivity.
  - destruct s as [|b s]; [reflexivity|]. cbn [append startswith has_dot] in *. apply orb_false_iff in Q as [_ Q]. rewrite (IH _ Q). apply andb_false_r.
Qed.
Lemma ordinary_dill head : ordinary head -> startswith "dill." (join_dot head) = false.
Proof.
  intros [F O]. destruct head as [|x head]; [destruct O|]. inversion F as [|y l X F']; subst. pose proof (ident_nodot x X) as D.
  change "dill." with ("dill" ++ "."). destruct head as [|y head]; [apply (startswith_nodot "dill" x D)|].
  change (join_dot (x :: y :: head)) with (x ++ "." ++ join_dot (y :: head)).
  destruct (startswith ("dill" ++ ".") (x ++ "." ++ join_dot (y :: head))) eqn:E; [|reflexivity].
  apply startswith_split in E; [|reflexivity|exact D]. subst x. destruct O. cbn. auto.
Qed.
Lemma ordinary_removelast head : ordinary head -> removelast head <> [] -> ordinary (removelast head).
Proof.
  intros [F O] N. destruct head as [|x head]; [destruct O|]. destruct head as [|y head]; [exfalso; apply N; reflexivity|].
  split.
  - rewrite (app_removelast_last (l := x :: y :: head) "") in F by discriminate. apply Forall_app in F. apply F.
  - exact O.
Qed.

(** one round of the search *)
Lemma getimport_step fuel E bi head n a builtin : ordinary head -> is_ident n = true -> alias_ok a ->
  getimport_ fuel E bi head n a true builtin =
    match from_import E (join_dot head) n with
    | Ok _ => Ok (statement head n a)
    | Err _ => match head with [_] => Ok (statement head n a)
               | _ => match fuel with 0 => Err RecursionError | S fuel => getimport_ fuel E bi (removelast head) n a true false end end
    end.
Proof.
  intros O N A. pose proof O as [F O2]. assert (head <> []) as NE by (destruct head; [destruct O2|discriminate]).
  pose proof (ordinary_join head "types" O) as T. pose proof (ordinary_join head "builtins" O) as B1. pose proof (ordinary_join head "__builtin__" O) as B2.
  pose proof (ordinary_dill head O) as D. pose proof (exec_statement E bi head n a NE F N A) as X.
  assert (is_builtins (join_dot head) = false) as B.
  { unfold is_builtins. cbn [memb existsb]. unfold eqb, EqB_string. rewrite B1, B2 by (cbn; auto). reflexivity. }
  destruct fuel; cbn [getimport_]; rewrite T by (cbn; auto); cbn [andb]; rewrite B; cbn [andb]; rewrite D; cbn [negb andb]; rewrite X;
    destruct (from_import E (join_dot head) n) as [o|e] eqn:FI; try reflexivity; rewrite (from_import_err _ _ _ _ FI); destruct head as [|h0 [|h1 head]]; try reflexivity; congruence.
Qed.

(** ** C66 *)
(** getimport with verify, for an object whose namespace is head.n: the statement imports the name from the longest part of the package's path that
    provides it; if none does, it is the statement for the first part, which fails *)
Theorem C66_longest : forall E bi head n a builtin, ordinary head -> is_ident n = true -> alias_ok a ->
  exists text pre, getimport E bi (head ++ [n]) None a true builtin = Ok text /\ text = statement pre n a /\
    ((exists o suf, pre <> [] /\ head = (pre ++ suf)%list /\ provides E pre n o /\ binds E bi text (target a n) o /\
        forall s1 s2, suf = (s1 ++ s2)%list -> s1 <> [] -> forall x, ~ provides E (pre ++ s1) n x) \/
     ((exists h suf, head = h :: suf /\ pre = [h]) /\ (forall s1 s2, head = (s1 ++ s2)%list -> s1 <> [] -> forall x, ~ provides E s1 n x) /\ exec E bi text = Err ImportError)).
Proof.
  intros E bi head n a builtin O N A. unfold getimport. rewrite removelast_last, last_last. unfold _getimport.
  assert (forall fuel head builtin, ordinary head -> List.length head <= fuel -> exists text pre,
    getimport_ fuel E bi head n a true builtin = Ok text /\ text = statement pre n a /\
    ((exists o suf, pre <> [] /\ head = (pre ++ suf)%list /\ provides E pre n o /\ binds E bi text (target a n) o /\
        forall s1 s2, suf = (s1 ++ s2)%list -> s1 <> [] -> forall x, ~ provides E (pre ++ s1) n x) \/
     ((exists h suf, head = h :: suf /\ pre = [h]) /\ (forall s1 s2, head = (s1 ++ s2)%list -> s1 <> [] -> forall x, ~ provides E s1 n x) /\ exec E bi text = Err ImportError))) as G.
  { clear head builtin O. induction fuel as [|fuel IH]; intros head builtin O L; pose proof O as [F O2];
      (assert (head <> []) as NE by (destruct head; [destruct O2|discriminate])); [destruct head; [congruence|cbn in L; lia]|].
    rewrite (getimport_step (S fuel) E bi head n a builtin O N A). pose proof (exec_statement E bi head n a NE F N A) as X.
    destruct (from_import E (join_dot head) n) as [o|e] eqn:FI.
    - exists (statement head n a), head. split; [reflexivity|]. split; [reflexivity|]. left. exists o, []. split; [exact NE|]. split; [rewrite app_nil_r; reflexivity|].
      split; [apply from_import_provides; exact FI|]. split; [exact X|]. intros s1 s2 Q. symmetry in Q. apply app_eq_nil in Q as [-> _]. congruence.
    - assert (forall x, ~ provides E head n x) as NP. { intros x Y. apply from_import_provides in Y. congruence. }
      pose proof (from_import_err _ _ _ _ FI) as ->.
      destruct head as [|h0 [|h1 head]]; [congruence| |].
      + exists (statement [h0] n a), [h0]. split; [reflexivity|]. split; [reflexivity|]. right. split; [exists h0, []; auto|]. split; [|exact X].
        intros s1 s2 Q S1. destruct s1 as [|y s1]; [congruence|]. injection Q as <- Q. symmetry in Q. apply app_eq_nil in Q as [-> ->]. exact NP.
      + set (hd := h0 :: h1 :: head) in *. assert (removelast hd <> []) as RN by discriminate.
        assert (List.length (removelast hd) <= fuel) as RL. { rewrite (app_removelast_last (l := hd) "") in L by discriminate. rewrite app_length in L. cbn [List.length] in L. rewrite Nat.add_1_r in L. exact (le_S_n _ _ L). }
        destruct (IH (removelast hd) false (ordinary_removelast hd O RN) RL) as (text & pre & G1 & G2 & G3).
        exists text, pre. split; [exact G1|]. split; [exact G2|].
        pose proof (app_removelast_last (l := hd) "" ltac:(discriminate)) as AP. set (la := last hd "") in *. set (rl := removelast hd) in *.
        destruct G3 as [(o & suf & P0 & P1 & P2 & P3 & P4)|((h & suf & P1 & P2) & P3 & P4)].
        * left. exists o, (suf ++ [la])%list. split; [exact P0|]. split; [rewrite AP, P1, app_assoc; reflexivity|]. split; [exact P2|]. split; [exact P3|].
          intros s1 s2 Q S1. destruct s2 as [|y s2] using rev_ind.
          -- rewrite app_nil_r in Q. subst s1. rewrite app_assoc, <- P1, <- AP. exact NP.
          -- rewrite app_assoc in Q. apply app_inj_tail in Q as [Q _]. apply (P4 s1 s2 Q S1).
        * right. split; [exists h, (suf ++ [la])%list; split; [rewrite AP, P1; reflexivity|exact P2]|]. split; [|exact P4].
          intros s1 s2 Q S1. destruct s2 as [|y s2] using rev_ind.
          -- rewrite app_nil_r in Q. rewrite <- Q. exact NP.
          -- rewrite AP in Q. rewrite app_assoc in Q. apply app_inj_tail in Q as [Q _]. apply (P3 s1 s2 Q S1). }
  destruct (G (S (List.length head)) head builtin O ltac:(lia)) as (text & pre & G1 & G2 & G3). exists text, pre. rewrite G1. split; [reflexivity|]. split; [exact G2|exact G3].
Qed.

(** an object that is where its namespace says is imported: the statement binds the alias, or its name, to the object *)
Corollary C66_own_object_partial : forall E bi head n a builtin o, ordinary head -> is_ident n = true -> alias_ok a -> provides E head n o ->
  exists text, getimport E bi (head ++ [n]) None a true builtin = Ok text /\ binds E bi text (target a n) o.
Proof.
  intros E bi head n a builtin o O N A P. destruct (C66_longest E bi head n a builtin O N A) as (text & pre & G & T & [(o' & suf & H0 & H1 & H2 & H3 & H4)|(_ & H & _)]).
  - exists text. split; [exact G|]. destruct suf as [|y suf].
    + rewrite app_nil_r in H1. subst pre. assert (o' = o) as <-; [|exact H3].
      apply from_import_provides in P, H2. congruence.
    + exfalso. apply (H4 (y :: suf) [] (eq_sym (app_nil_r _)) ltac:(discriminate) o). rewrite <- H1. exact P.
  - exfalso. apply (H head [] (eq_sym (app_nil_r _))) with o; [destruct O as [_ O]; destruct head; [destruct O|discriminate]|exact P].
Qed.
(** REFUTED: with verify=True a statement that fails is returned, if the object is in none of the packages: a function of a function, for example *)
Corollary C66_verified_refuted : forall E bi head n a builtin, ordinary head -> is_ident n = true -> alias_ok a ->
  (forall s1 s2, head = (s1 ++ s2)%list -> s1 <> [] -> forall x, ~ provides E s1 n x) ->
  exists text, getimport E bi (head ++ [n]) None a true builtin = Ok text /\ exec E bi text = Err ImportError.
Proof.
  intros E bi head n a builtin O N A H. destruct (C66_longest E bi head n a builtin O N A) as (text & pre & G & T & [(o' & suf & H0 & H1 & H2 & _)|(_ & _ & X)]).
  - exfalso. exact (H pre suf H1 H0 _ H2).
  - exists text. split; [exact G|exact X].
Qed.

(** a builtin object, which no import is needed for: with an alias the text is "alias = name" and binds the alias; with none it is the name itself and binds nothing *)
Theorem C66_builtin_partial : forall E bi n a verify o, is_ident n = true -> alias_ok a -> n <> "ellipsis" -> intypes E n = false -> get n bi = Some o ->
  exists text, getimport E bi ["builtins"; n] None a verify false = Ok text /\
    exec E bi text = Ok (if String.eqb a "" || String.eqb a n then [] else [(a, o)]).
Proof.
  intros E bi n a verify o N A NE T G. exists (assign a n). assert (String.eqb n "ellipsis" = false) as EL by (apply String.eqb_neq; exact NE). split.
  - unfold getimport. change (removelast ["builtins"; n]) with ["builtins"]. change (last ["builtins"; n] "") with n. unfold _getimport.
    cbn [getimport_ join_dot List.length]. change (String.eqb "builtins" "types") with false. cbn [andb]. change (is_builtins (join_dot ["builtins"])) with true. cbn [andb].
    change (is_builtins "builtins") with true. cbn [andb]. rewrite EL, T. reflexivity.
  - unfold assign, exec. pose proof (ident_nospace n N) as NN. destruct (String.eqb a "" || String.eqb a n) eqn:Q.
    + change ("" ++ n ++ nl) with (n ++ nl). rewrite chomp_nl, split_last by exact NN. cbn [run_words]. rewrite N, G. reflexivity.
    + apply orb_false_iff in Q as [Q _]. destruct A as [->|A]; [discriminate Q|].
      replace ((a ++ " = ") ++ n ++ nl) with ((a ++ String " " ("=" ++ String " " n)) ++ nl).
      2:{ cbn [append]. rewrite ?app_assoc_s. cbn [append]. rewrite ?app_assoc_s. reflexivity. }
      rewrite chomp_nl, split_one by (apply ident_nospace; exact A). rewrite split_one by reflexivity. rewrite split_last by exact NN.
      cbn [run_words]. change (String.eqb "=" "=") with true. rewrite A, N, G. reflexivity.
Qed.
(** Ellipsis and NotImplemented, which are said to live in types, are names of builtins too; None needs no import whatever is asked for *)
Theorem C66_constants : forall E bi n a verify o, In n ["Ellipsis"; "NotImplemented"] -> alias_ok a -> intypes E n = false -> get n bi = Some o ->
  exists text, getimport E bi ["types"; n] None a verify false = Ok text /\
    exec E bi text = Ok (if String.eqb a "" || String.eqb a n then [] else [(a, o)]).
Proof.
  intros E bi n a verify o I A T G. destruct (C66_builtin_partial E bi n a verify o) as (text & X & Y); try assumption.
  - destruct I as [<-|[<-|[]]]; reflexivity.
  - intros ->. destruct I as [I|[I|[]]]; discriminate I.
  - exists text. split; [|exact Y]. rewrite <- X. destruct I as [<-|[<-|[]]]; unfold getimport; cbn [removelast last]; unfold _getimport; cbn [getimport_ join_dot List.length];
      cbn [String.eqb Ascii.eqb Bool.eqb andb memb existsb eqb EqB_string orb join_dot]; change (is_builtins "builtins") with true; change (is_builtins "types") with false; cbn [andb];
      rewrite T; reflexivity.
Qed.
Theorem C66_none : forall E bi a verify builtin, getimport E bi ["types"; "None"] None a verify builtin = Ok (assign a "None").
Proof. reflexivity. Qed.
(** the class of Ellipsis is imported from types *)
Theorem C66_ellipsis_class : forall E bi a builtin m o, alias_ok a -> get "types" (modules E) = Some m -> get "EllipsisType" (attr E m) = Some o ->
  exists text, getimport E bi ["builtins"; "ellipsis"] None a true builtin = Ok text /\ binds E bi text (target a "EllipsisType") o.
Proof.
  intros E bi a builtin m o A M O. exists (statement ["types"] "EllipsisType" a).
  assert (exec E bi (statement ["types"] "EllipsisType" a) = Ok [(target a "EllipsisType", o)]) as X.
  { rewrite exec_statement; [|discriminate|repeat constructor|reflexivity|exact A]. unfold from_import. cbn [join_dot]. unfold import_. rewrite M, O. reflexivity. }
  split; [|exact X]. unfold getimport. cbn [removelast last]. unfold _getimport. cbn [getimport_ join_dot List.length].
  change (String.eqb "builtins" "types") with false. cbn [andb]. change (is_builtins (join_dot ["builtins"])) with true. change (is_builtins "builtins") with true. cbn [andb].
  change (String.eqb "ellipsis" "ellipsis") with true. cbv iota.
  assert (intypes E "EllipsisType" = true) as T by (unfold intypes; change (String.eqb "EllipsisType" "ellipsis") with false; cbv iota; rewrite M; unfold has; rewrite O; reflexivity).
  cbn [join_dot]. rewrite T. cbn [negb andb]. change (startswith "dill." (join_dot ["types"])) with false. cbn [negb andb]. rewrite X. reflexivity.
Qed.
(** an import of a builtin that is asked for (builtin=True): from builtins, if that runs; a name that no statement can have is given as it is, and
    outside builtins is a SyntaxError *)
Theorem C66_forced : forall E bi n a m o, is_ident n = true -> alias_ok a -> n <> "ellipsis" -> intypes E n = false -> get "builtins" (modules E) = Some m -> get n (attr E m) = Some o ->
  exists text, getimport E bi ["builtins"; n] None a true true = Ok text /\ binds E bi text (target a n) o.
Proof.
  intros E bi n a m o N A NE T M O. exists (statement ["builtins"] n a). assert (String.eqb n "ellipsis" = false) as EL by (apply String.eqb_neq; exact NE).
  assert (exec E bi (statement ["builtins"] n a) = Ok [(target a n, o)]) as X.
  { rewrite exec_statement; [|discriminate|repeat constructor|exact N|exact A]. unfold from_import. cbn [join_dot]. unfold import_. rewrite M, O. reflexivity. }
  split; [|exact X]. unfold getimport. change (removelast ["builtins"; n]) with ["builtins"]. change (last ["builtins"; n] "") with n. unfold _getimport. cbn [getimport_ join_dot List.length].
  change (String.eqb "builtins" "types") with false. cbn [andb]. change (is_builtins (join_dot ["builtins"])) with true. change (is_builtins "builtins") with true. cbn [andb].
  rewrite EL, T. cbn [negb andb]. change (startswith "dill." (join_dot ["builtins"])) with false. change (startswith "dill." "builtins") with false. cbn [negb andb]. rewrite X. reflexivity.
Qed.
Theorem C66_unnamable : forall E bi n a, n <> "ellipsis" -> intypes E n = false -> exec E bi (statement ["builtins"] n a) = Err SyntaxError ->
  getimport E bi ["builtins"; n] None a true true = Ok (assign a n).
Proof.
  intros E bi n a NE T X. assert (String.eqb n "ellipsis" = false) as EL by (apply String.eqb_neq; exact NE).
  unfold getimport. change (removelast ["builtins"; n]) with ["builtins"]. change (last ["builtins"; n] "") with n. unfold _getimport. cbn [getimport_ join_dot List.length].
  change (String.eqb "builtins" "types") with false. cbn [andb]. change (is_builtins (join_dot ["builtins"])) with true. change (is_builtins "builtins") with true. cbn [andb].
  rewrite EL, T. cbn [negb andb]. change (startswith "dill." (join_dot ["builtins"])) with false. change (startswith "dill." "builtins") with false. cbn [negb andb]. rewrite X. reflexivity.
Qed.
Theorem C66_unnamable_elsewhere : forall E bi head n a builtin, ordinary head -> exec E bi (statement head n a) = Err SyntaxError ->
  getimport E bi (head ++ [n]) None a true builtin = Err SyntaxError.
Proof.
  intros E bi head n a builtin O X. unfold getimport. rewrite removelast_last, last_last. unfold _getimport.
  pose proof (ordinary_join head "types" O) as T. pose proof (ordinary_join head "builtins" O) as B1. pose proof (ordinary_join head "__builtin__" O) as B2.
  pose proof (ordinary_dill head O) as D.
  assert (is_builtins (join_dot head) = false) as B.
  { unfold is_builtins. cbn [memb existsb]. unfold eqb, EqB_string. rewrite B1, B2 by (cbn; auto). reflexivity. }
  cbn [getimport_]. rewrite T by (cbn; auto). cbn [andb]. rewrite B. cbn [andb]. rewrite D. cbn [negb andb]. rewrite X. reflexivity.
Qed.
(** a top-level module: imported by its name, or as the alias *)
Theorem C66_module_partial : forall E bi n a builtin m, is_ident n = true -> alias_ok a -> get n (modules E) = Some m ->
  exists text, getimport E bi [n] None a true builtin = Ok text /\ binds E bi text (target a n) m.
Proof.
  intros E bi n a builtin m N A G. exists (statement [] n a). unfold binds.
  assert (exec E bi (statement [] n a) = Ok [(target a n, m)]) as X.
  { unfold exec, statement, target. pose proof (ident_nospace n N) as NN. destruct (String.eqb_spec a "") as [->|A0].
    - cbn [orb]. replace (("import " ++ n) ++ nl) with (("import" ++ String " " n) ++ nl) by reflexivity. rewrite chomp_nl, split_one by reflexivity. rewrite split_last by exact NN.
      cbn [run_words]. change (String.eqb "import" "import") with true. rewrite N. unfold import_. rewrite G. reflexivity.
    - destruct A as [->|A]; [congruence|]. cbn [orb]. destruct (String.eqb_spec a n) as [->|AN].
      + replace (("import " ++ n) ++ nl) with (("import" ++ String " " n) ++ nl) by reflexivity. rewrite chomp_nl, split_one by reflexivity. rewrite split_last by exact NN.
        cbn [run_words]. change (String.eqb "import" "import") with true. rewrite N. unfold import_. rewrite G. reflexivity.
      + replace (("import " ++ n) ++ " as " ++ a ++ nl) with (("import" ++ String " " (n ++ String " " ("as" ++ String " " a))) ++ nl).
        2:{ cbn [append]. rewrite ?app_assoc_s. cbn [append]. rewrite ?app_assoc_s. reflexivity. }
        rewrite chomp_nl, split_one by reflexivity. rewrite split_one by exact NN. rewrite split_one by reflexivity. rewrite split_last by (apply ident_nospace; exact A).
        cbn [run_words]. change (String.eqb "import" "from") with false. change (String.eqb "import" "import") with true. change (String.eqb "as" "as") with true. cbn [andb].
        rewrite N, A. cbn [andb]. unfold import_. rewrite G. reflexivity. }
  split; [|exact X]. unfold getimport. change (removelast [n]) with (@nil string). change (last [n] "") with n. unfold _getimport.
  cbn [getimport_ List.length]. change (String.eqb (join_dot []) "types") with false. cbn [andb]. change (is_builtins (join_dot [])) with false. cbn [andb].
  change (startswith "dill." (join_dot [])) with false. cbn [negb andb]. rewrite X. reflexivity.
Qed.

(** ** examples and refutations *)
Definition E1 : env := Env [("pkg", 1); ("pkg.sub", 2); ("types", 3)]
  (fun m => match m with 1 => [("f", 11); ("sub", 2)] | 2 => [("g", 12)] | 3 => [("NoneType", 13)] | _ => [] end) (fun _ => true) 0 0 [] [] [] [].
Definition BI : dict string nat := [("len", 20); ("int", 21)].
(** REFUTED, name collision: pkg.sub.f is gone (or lives inside a function), and the verified statement binds another object of that name *)
Theorem C66_collision_refuted : exists E bi head n text other, ordinary head /\ is_ident n = true /\ (forall o, ~ provides E head n o) /\
  getimport E bi (head ++ [n]) None "" true false = Ok text /\ binds E bi text n other.
Proof.
  exists E1, BI, ["pkg"; "sub"], "f", ("from pkg import f" ++ nl), 11. split.
  { split; [repeat constructor|]. cbn. intros [X|[X|[X|[X|[]]]]]; discriminate X. }
  split; [reflexivity|]. split; [|split; reflexivity]. intros o (m & X & [Y|(_ & Y)]); cbn in X; injection X as <-; cbn in Y; discriminate Y.
Qed.
Example C66_ex1 : getimport E1 BI ["pkg"; "sub"; "g"] None "h" true false = Ok ("from pkg.sub import g as h" ++ nl) /\
  binds E1 BI ("from pkg.sub import g as h" ++ nl) "h" 12.
Proof. split; reflexivity. Qed.
(** a function of a function: nothing provides it *)
Example C66_ex2 : getimport E1 BI ["pkg"; "sub"; "nested"] None "" true false = Ok ("from pkg import nested" ++ nl) /\
  exec E1 BI ("from pkg import nested" ++ nl) = Err ImportError.
Proof. split; reflexivity. Qed.
Example C66_ex3 : getimport E1 BI ["builtins"; "len"] None "size" true false = Ok ("size = len" ++ nl) /\ getimport E1 BI ["pkg"] None "p" true false = Ok ("import pkg as p" ++ nl).
Proof. split; reflexivity. Qed.
Example C66_ex4 : getimport E1 (("Ellipsis", 22) :: BI) ["types"; "Ellipsis"] None "dots" true false = Ok ("dots = Ellipsis" ++ nl) /\
  exec E1 (("Ellipsis", 22) :: BI) ("dots = Ellipsis" ++ nl) = Ok [("dots", 22)].
Proof. vm_compute. split; reflexivity. Qed.
Example C66_ex5 : exec E1 BI (statement ["builtins"] "<lambda>" "") = Err SyntaxError /\ getimport E1 BI ["builtins"; "<lambda>"] None "" true true = Ok ("<lambda>" ++ nl) /\
  getimport E1 BI ["pkg"; "<lambda>"] None "" true true = Err SyntaxError.
Proof. vm_compute. repeat split; reflexivity. Qed.
Example C66_ex6 : getimport (Env [("types", 3); ("builtins", 4)] (fun m => match m with 3 => [("EllipsisType", 13)] | 4 => [("len", 20)] | _ => [] end) (fun _ => true) 0 0 [] [] [] []) BI ["builtins"; "ellipsis"] None "" true false
    = Ok ("from types import EllipsisType" ++ nl) /\
  getimport (Env [("types", 3); ("builtins", 4)] (fun m => match m with 3 => [("EllipsisType", 13)] | 4 => [("len", 20)] | _ => [] end) (fun _ => true) 0 0 [] [] [] []) BI ["builtins"; "len"] None "size" true true
    = Ok ("from builtins import len as size" ++ nl).
Proof. vm_compute. split; reflexivity. Qed.
