(** C110: loading arbitrary bytes. Whatever the bytes are, load comes to an end, and only what find_class gave is ever called or is in the result:
    a subclass of Unpickler whose find_class refuses a name keeps the object out. *)
From Coq Require Import String Ascii List Bool Arith NArith ZArith Lia.
From Verif Require Import PyDict CoreModel CoreSpec CoreProps CoreExamples BytesModel BytesProofs BytesProps BytesExamples BytesSim.
Import ListNotations.
Local Open Scope list_scope.

(** ** Specification *)
(** [a] is something of a module: a class, a function, a module's dictionary *)
Definition by_name (a : atom) : Prop := match a with AGlob _ | AModDict _ | ACellEmpty => True | _ => False end.
(** find_class gave it *)
Definition given (find : string -> string -> option atom) (a : atom) : Prop := exists m n, find m n = Some a.
(** [a] is in the value, the state, the object, the machine *)
Definition in_val (a : atom) (v : val) : Prop := match v with VA b _ => b = a | VR _ => False end.
Definition in_obj (a : atom) (b : obj) : Prop :=
  (exists v, In v (refs b) /\ in_val a v) \/ match b with OFun _ (GRef g) _ _ _ _ => g = a | _ => False end.
(** the loader at work: from the bytes [l] and a new machine it has come to the bytes [l'] and the machine [m'] *)
Inductive comes (find : string -> string -> option atom) (l : list N) : list N -> vm -> Prop :=
  | c_start : comes find l l {| stk := []; meta := []; mem := []; heap := [] |}
  | c_step l1 m1 r l2 m2 : comes find l l1 m1 -> lex l1 = Some (r, l2) -> r <> ROp STOP -> rstep find r m1 = Some m2 -> comes find l l2 m2.

(** ** Proof *)
Section Inv.
  Variable P : atom -> Prop.
  Definition pv (v : val) : Prop := match v with VA a _ => P a | VR _ => True end.
  Definition pd (d : list (val * val)) : Prop := Forall (fun p => pv (fst p) /\ pv (snd p)) d.
  Definition ps (s : state) : Prop := match s with SNone => True | SVal v => pv v | SAttrs d sl => pd d /\ match sl with Some e => pd e | None => True end end.
  Definition po (b : obj) : Prop :=
    match b with
    | OTup vs | OList vs | OSet _ vs => Forall pv vs
    | ODict d => pd d
    | ORed _ c args li di st => pv c /\ Forall pv args /\ Forall pv li /\ pd di /\ ps st
    | OFun co gl n de cl st => pv co /\ pv n /\ pv de /\ pv cl /\ match gl with GRef a => P a | GCopy _ m => pv m end /\ ps st
    | OType mt n bs d q => pv mt /\ pv n /\ pv bs /\ pd d /\ pv q
    | OCell (Some v) => pv v
    | OCell None => True
    end.
  Definition pm (m : vm) : Prop := Forall pv (stk m) /\ Forall (Forall pv) (meta m) /\ Forall (fun p => pv (snd p)) (mem m) /\ Forall po (heap m).

  (** constants that are not of a module; those that creating a function puts in *)
  Hypothesis Pplain : forall a, ~ by_name a -> P a.
  Hypothesis Pbuiltins : P (AGlob GCreateFunction) -> P (AModDict "builtins").

  Lemma pd_setitem d k v : pd d -> pv k -> pv v -> pd (setitem d k v).
  Proof.
    intros D K V. induction d as [|[k' v'] d IH]; cbn; [repeat constructor; auto|]. inversion D as [|? ? [A B] D']; subst. cbn in A, B.
    destruct (keyeq k k'); constructor; cbn; auto. apply IH; auto.
  Qed.
  Lemma pd_setitems l : forall d, pd d -> pd l -> pd (setitems d l).
  Proof. unfold setitems. induction l as [|[k v] l IH]; intros d D L; cbn; auto. inversion L as [|? ? [A B] L']; subst. apply IH; auto using pd_setitem. Qed.
  Lemma ps_adds l : forall d, Forall pv d -> Forall pv l -> Forall pv (set_adds d l).
  Proof.
    unfold set_adds. induction l as [|v l IH]; intros d D L; cbn; auto. inversion L; subst. apply IH; auto. unfold set_add. destruct (existsb _ _); auto.
    apply Forall_app; auto.
  Qed.
  Lemma p_pairs l : forall d, (forall n, List.length l <= n -> Forall pv l -> pairs l = Some d -> pd d).
  Proof.
    intros d n. revert l d. induction n as [|n IH]; intros l d Hn F E.
    - destruct l; cbn in Hn; [|lia]. injection E as <-. constructor.
    - destruct l as [|k [|v l]]; cbn in E; [injection E as <-; constructor|discriminate|]. destruct (pairs l) as [d'|] eqn:Q; [|discriminate]. injection E as <-.
      inversion F as [|? ? A F']; subst. inversion F' as [|? ? B F'']; subst. constructor; auto. apply (IH l d'); auto. cbn in Hn. lia.
  Qed.
  Lemma p_upd h a b : Forall po h -> po b -> Forall po (upd h a b).
  Proof. intros Hh B. revert a. induction Hh; intros a; cbn; auto. destruct a; constructor; auto. Qed.
  Lemma p_nth h a b : Forall po h -> nth_error h a = Some b -> po b.
  Proof. intros F E. rewrite Forall_forall in F. apply F. eapply nth_error_In; eauto. Qed.
  Lemma p_getitem d k v : pd d -> getitem d k = Some v -> pv v.
  Proof. intros D. induction d as [|[k' v'] d IH]; cbn; [discriminate|]. inversion D as [|? ? [A B] D']; subst. destruct (keyeq k k'); [intros [= <-]; auto|auto]. Qed.
  Lemma p_tuple h v l : Forall po h -> tuple_items h v = Some l -> Forall pv l.
  Proof.
    intros Hh. destruct v as [a i|t]; cbn; [destruct a; try discriminate; intros [= <-]; auto|]. destruct (nth_error h t) as [b|] eqn:E; [|discriminate].
    pose proof (p_nth _ _ _ Hh E) as B. destruct b; try discriminate. intros [= <-]. exact B.
  Qed.
  Lemma p_dict h v d : Forall po h -> dict_items h v = Some d -> pd d.
  Proof.
    intros Hh. destruct v as [a i|t]; cbn; [discriminate|]. destruct (nth_error h t) as [b|] eqn:E; [|discriminate].
    pose proof (p_nth _ _ _ Hh E) as B. destruct b; try discriminate. intros [= <-]. exact B.
  Qed.
  Lemma p_state h v : Forall po h -> pv v -> ps (state_arg h v).
  Proof.
    intros Hh V. unfold state_arg. destruct (dict_items h v) as [d|] eqn:E; [split; auto; eapply p_dict; eauto|].
    destruct (tuple_items h v) as [[|x [|y [|z l]]]|]; auto. destruct (dict_items h x) eqn:X, (dict_items h y) eqn:Y; auto. split; eapply p_dict; eauto.
  Qed.
  Lemma p_upd_state s n : ps s -> ps n -> ps (upd_state s n).
  Proof.
    intros S N. destruct n as [|v|d sl]; auto. destruct N as [N1 N2]. cbn. destruct s as [|v|d0 s0]; cbn in *.
    - split; [apply pd_setitems; auto; constructor|]. destruct sl; auto. apply pd_setitems; auto. constructor.
    - split; [apply pd_setitems; auto; constructor|]. destruct sl; auto. apply pd_setitems; auto. constructor.
    - destruct S. split; [apply pd_setitems; auto|]. destruct sl; auto. apply pd_setitems; auto. destruct s0; auto. constructor.
  Qed.
  Lemma p_push v m : pm m -> pv v -> pm (push v m).
  Proof. intros (A & B & C & D) V. repeat split; auto. constructor; auto. Qed.
  Lemma p_stk l m : pm m -> Forall pv l -> pm (set_stk l m).
  Proof. intros (A & B & C & D) V. repeat split; auto. Qed.
  Lemma p_heap h m : pm m -> Forall po h -> pm (set_heap h m).
  Proof. intros (A & B & C & D) V. repeat split; auto. Qed.
  Lemma p_alloc o m : pm m -> po o -> pm (alloc o m).
  Proof. intros (A & B & C & D) V. repeat split; cbn; auto. - constructor; auto. exact I. - apply Forall_app; auto. Qed.
  Lemma p_mark m l m' : pm m -> pop_mark m = Some (l, m') -> Forall pv l /\ pm m'.
  Proof.
    intros (A & B & C & D) E. unfold pop_mark in E. destruct (meta m) as [|s ms]; [discriminate|]. injection E as <- <-. inversion B; subst.
    split; [apply Forall_rev; auto|repeat split; auto].
  Qed.
  Lemma p_maketuple l m : pm m -> Forall pv l -> pm (make_tuple l m).
  Proof. intros M F. unfold make_tuple. destruct l; [apply p_push; auto; apply Pplain; cbn; auto|apply p_alloc; auto]. Qed.
  Lemma p_none : pv vNone. Proof. apply Pplain. cbn. auto. Qed.
  Lemma p_str s i : pv (VA (AStr s) i). Proof. apply Pplain. cbn. auto. Qed.
  Lemma p_get k d v : Forall (fun p : nat * val => pv (snd p)) d -> get k d = Some v -> pv v.
  Proof. intros F E. apply get_In in E. rewrite Forall_forall in F. apply (F _ E). Qed.
  Lemma p_set k d v : Forall (fun p : nat * val => pv (snd p)) d -> pv v -> Forall (fun p => pv (snd p)) (set k v d).
  Proof. intros F V. induction F as [|[k' v'] d X F IH]; cbn; [constructor; auto|]. destruct (Nat.eqb k k'); constructor; auto. Qed.
  Lemma p_call f args m m' : pm m -> pv f -> Forall pv args -> call f args m = Some m' -> pm m'.
  Proof.
    intros M F A E. pose proof M as (M1 & M2 & M3 & M4). unfold call in E.
    assert (U : forall g, pv g -> pm (alloc (ORed false g args [] [] SNone) m)) by (intros; apply p_alloc; auto; repeat split; auto; constructor).
    destruct f as [a i|o]; [|injection E as <-; auto]. destruct a as [| | | | |g| | | |]; try (injection E as <-; auto; fail).
    destruct g; try (injection E as <-; auto; fail).
    - destruct args as [|v [|]]; try discriminate; [|destruct v as [[]|]; discriminate]. inversion A; subst.
      destruct v as [[]|]; injection E as <-; apply p_alloc; cbn; auto.
    - destruct args as [|[|a] [|[[]|] [|v [|]]]]; try discriminate. inversion A as [|? ? _ A1]; subst. inversion A1 as [|? ? _ A2]; subst. inversion A2; subst.
      destruct (nth_error (heap m) a) as [[]|] eqn:Q; try discriminate.
      + destruct (String.eqb s "__qualname__"); [|discriminate]. injection E as <-. apply p_push; auto using p_none. apply p_heap; auto. apply p_upd; auto.
        pose proof (p_nth _ _ _ M4 Q) as B. cbn in B |- *. tauto.
      + destruct (String.eqb s "cell_contents"); [|discriminate]. injection E as <-. apply p_push; auto using p_none. apply p_heap; auto. apply p_upd; auto.
    - destruct args as [|[|a] [|[[]|] [|]]]; try discriminate. destruct (nth_error (heap m) a) as [[]|] eqn:Q; try discriminate.
      destruct (String.eqb s "cell_contents"); [|discriminate]. injection E as <-. apply p_push; auto using p_none. apply p_heap; auto. apply p_upd; auto. exact I.
    - destruct args as [|co [|g [|n [|de [|cl [|]]]]]]; try discriminate; try (destruct g; discriminate).
      inversion A as [|? ? C1 A1]; subst. inversion A1 as [|? ? C2 A2]; subst. inversion A2 as [|? ? C3 A3]; subst. inversion A3 as [|? ? C4 A4]; subst. inversion A4 as [|? ? C5 A5]; subst.
      destruct g as [a j|g].
      + injection E as <-. apply p_alloc; auto. cbn in *. tauto.
      + destruct (nth_error (heap m) g) as [[| |d| | | | |]|] eqn:Q; try discriminate. injection E as <-. pose proof (p_nth _ _ _ M4 Q) as B. cbn in B.
        assert (B' : pd (match getitem d sBUILTINS with Some _ => d | None => d ++ [(sBUILTINS, vBUILTINS)] end)).
        { destruct (getitem d sBUILTINS); auto. apply Forall_app. split; auto. constructor; auto. split; cbn; [apply (p_str _ 0)|apply Pbuiltins; exact F].
        }
        apply p_alloc; [apply p_heap; auto; apply p_upd; auto|]. cbn. repeat split; auto. destruct (getitem d sNAME) eqn:G; [exact (p_getitem d _ _ B G)|apply p_none].
    - destruct args as [|mt [|n [|bs [|[|d] [|]]]]]; try discriminate. inversion A as [|? ? C1 A1]; subst. inversion A1 as [|? ? C2 A2]; subst. inversion A2 as [|? ? C3 A3]; subst.
      destruct (nth_error (heap m) d) as [[| |kvs| | | | |]|] eqn:Q; try discriminate. injection E as <-. apply p_alloc; auto. pose proof (p_nth _ _ _ M4 Q) as B. cbn in *. tauto.
    - destruct args as [|c args]; [discriminate|]. injection E as <-. inversion A; subst. apply p_alloc; auto. repeat split; auto; constructor.
    - destruct args as [|[|l] [|]]; try discriminate. destruct (nth_error (heap m) l) as [[|vs| | | | | |]|] eqn:Q; try discriminate. injection E as <-.
      apply p_alloc; auto. apply ps_adds; auto. apply (p_nth _ _ _ M4 Q).
    - destruct args as [|[|l] [|]]; try discriminate. destruct (nth_error (heap m) l) as [[|vs| | | | | |]|] eqn:Q; try discriminate. injection E as <-.
      apply p_alloc; auto. apply ps_adds; auto. apply (p_nth _ _ _ M4 Q).
  Qed.
  Lemma p_extend b vs b' : match b with Some x => po x | None => True end -> Forall pv vs -> extend b vs = Some b' -> po b'.
  Proof.
    intros B V E. destruct b as [[]|]; try discriminate; injection E as <-; cbn in *.
    - apply Forall_app; auto.
    - destruct B as (? & ? & ? & ? & ?). repeat split; auto. apply Forall_app; auto.
  Qed.
  Lemma p_setall b d b' : match b with Some x => po x | None => True end -> pd d -> set_all b d = Some b' -> po b'.
  Proof.
    intros B V E. destruct b as [[]|]; try discriminate; injection E as <-; cbn in *.
    - apply pd_setitems; auto.
    - destruct B as (? & ? & ? & ? & ?). repeat split; auto. apply pd_setitems; auto.
  Qed.
  Lemma p_opt h a : Forall po h -> match nth_error h a with Some x => po x | None => True end.
  Proof. intros F. destruct (nth_error h a) eqn:E; auto. eapply p_nth; eauto. Qed.
  Lemma p_firstn {X} (Q : X -> Prop) n l : Forall Q l -> Forall Q (firstn n l).
  Proof. intros F. revert n. induction F; intros [|n]; cbn; auto. Qed.
  Lemma p_skipn {X} (Q : X -> Prop) n l : Forall Q l -> Forall Q (skipn n l).
  Proof. intros F. revert n. induction F; intros [|n]; cbn; auto. Qed.
  Lemma p_step o m m' : pm m -> (forall a, o = CONST a -> P a) -> step o m = Some m' -> pm m'.
  Proof.
    intros M K E. pose proof M as (M1 & M2 & M3 & M4). destruct o; cbn [step] in E.
    - destruct (Nat.leb p 5); [injection E as <-; auto|discriminate].
    - discriminate.
    - injection E as <-. repeat split; cbn; auto.
    - destruct (stk m) as [|v s] eqn:Q; [|injection E as <-; inversion M1; subst; apply p_stk; auto]. destruct (pop_mark m) as [[l x]|] eqn:Z; [|discriminate]. injection E as <-. apply (p_mark m l x M Z).
    - destruct (pop_mark m) as [[l x]|] eqn:Z; [|discriminate]. injection E as <-. apply (p_mark m l x M Z).
    - injection E as <-. apply p_push; auto. apply K; reflexivity.
    - injection E as <-. apply p_push; auto. apply Pplain; cbn; auto.
    - destruct (pop_mark m) as [[l x]|] eqn:Z; [|discriminate]. injection E as <-. destruct (p_mark m l x M Z). apply p_maketuple; auto.
    - destruct (Nat.leb n _); [|discriminate]. injection E as <-. apply p_maketuple; [apply p_stk; auto; apply p_skipn; auto|apply Forall_rev, p_firstn; auto].
    - injection E as <-. apply p_alloc; auto. constructor.
    - destruct (pop_mark m) as [[l x]|] eqn:Z; [|discriminate]. injection E as <-. destruct (p_mark m l x M Z). apply p_alloc; auto.
    - destruct (stk m) as [|v [|[|a] s]]; try discriminate. inversion M1 as [|? ? V1 M1']; subst. destruct (extend _ _) eqn:X; [|discriminate]. injection E as <-.
      apply p_heap; [apply p_stk; auto|apply p_upd; auto]. exact (p_extend _ [v] _ (p_opt _ a M4) (Forall_cons _ V1 (Forall_nil _)) X).
    - destruct (pop_mark m) as [[l x]|] eqn:Z; [|discriminate]. destruct (p_mark m l x M Z) as [L Mx]. destruct (stk x) as [|[|a] s]; try discriminate. destruct (extend _ _) eqn:X; [|discriminate]. injection E as <-.
      pose proof Mx as (X1 & X2 & X3 & X4). apply p_heap; auto. apply p_upd; auto. exact (p_extend _ l _ (p_opt _ a X4) L X).
    - injection E as <-. apply p_alloc; auto. constructor.
    - destruct (pop_mark m) as [[l x]|] eqn:Z; [|discriminate]. destruct (p_mark m l x M Z) as [L Mx]. destruct (pairs l) as [d|] eqn:Y; [|discriminate]. injection E as <-.
      apply p_alloc; auto. apply pd_setitems; [constructor|]. eapply p_pairs; eauto.
    - destruct (stk m) as [|v [|k [|[|a] s]]]; try discriminate. inversion M1 as [|? ? V1 M1']; subst. inversion M1' as [|? ? V2 M1'']; subst. destruct (set_all _ _) eqn:X; [|discriminate]. injection E as <-.
      apply p_heap; [apply p_stk; auto|apply p_upd; auto]. refine (p_setall _ [(k, v)] _ (p_opt _ a M4) _ X). constructor; [split; auto|constructor].
    - destruct (pop_mark m) as [[l x]|] eqn:Z; [|discriminate]. destruct (p_mark m l x M Z) as [L Mx]. destruct (stk x) as [|[|a] s]; try discriminate.
      destruct (pairs l) as [d|] eqn:Y; [|discriminate]. destruct (set_all _ _) eqn:X; [|discriminate]. injection E as <-.
      pose proof Mx as (X1 & X2 & X3 & X4). apply p_heap; auto. apply p_upd; auto. exact (p_setall _ d _ (p_opt _ a X4) (p_pairs l d _ (le_n _) L Y) X).
    - destruct (get i (mem m)) eqn:G; [|discriminate]. injection E as <-. apply p_push; auto. eapply p_get; eauto.
    - destruct (stk m) as [|v s] eqn:Q; [discriminate|]. injection E as <-. inversion M1; subst. repeat split; cbn; auto. apply p_set; auto.
    - destruct (stk m) as [|v s] eqn:Q; [discriminate|]. injection E as <-. inversion M1; subst. repeat split; cbn; auto. apply p_set; auto.
    - destruct (stk m) as [|args [|f s]]; try discriminate. inversion M1 as [|? ? V1 M1']; subst. inversion M1' as [|? ? V2 M1'']; subst.
      destruct (tuple_items (heap m) args) as [vs|] eqn:T; [|discriminate]. eapply p_call; [|exact V2|eapply p_tuple; eauto|exact E]. apply p_stk; auto.
    - destruct (stk m) as [|args [|f s]]; try discriminate. inversion M1 as [|? ? V1 M1']; subst. inversion M1' as [|? ? V2 M1'']; subst.
      destruct (tuple_items (heap m) args) as [vs|] eqn:T; [|discriminate]. injection E as <-. apply p_alloc; [apply p_stk; auto|]. repeat split; auto; try constructor. eapply p_tuple; eauto.
    - destruct (stk m) as [|v [|[|a] s]]; try discriminate. inversion M1 as [|? ? V1 M1']; subst.
      destruct (nth_error (heap m) a) as [[]|] eqn:Q; try discriminate; injection E as <-; pose proof (p_nth _ _ _ M4 Q) as B; cbn in B;
        (apply p_heap; [apply p_stk; auto|apply p_upd; auto]); cbn; decompose [and] B; repeat split; auto; apply p_upd_state; auto; apply p_state; auto.
    - injection E as <-. apply p_alloc; auto. constructor.
    - destruct (pop_mark m) as [[l x]|] eqn:Z; [|discriminate]. destruct (p_mark m l x M Z) as [L Mx]. destruct (stk x) as [|[|a] s]; try discriminate.
      pose proof Mx as (X1 & X2 & X3 & X4). destruct (nth_error (heap x) a) as [[| | | | | | |[] vs]|] eqn:Q; try discriminate. injection E as <-. apply p_heap; auto. apply p_upd; auto.
      apply ps_adds; auto. apply (p_nth _ _ _ X4 Q).
    - destruct (pop_mark m) as [[l x]|] eqn:Z; [|discriminate]. injection E as <-. destruct (p_mark m l x M Z). apply p_alloc; auto. apply ps_adds; auto.
  Qed.
End Inv.

(** the bytes left are fewer *)
Lemma take_less k l x r : take k l = Some (x, r) -> List.length r <= List.length l.
Proof. unfold IdentifyModel.take. destruct (Nat.ltb _ _); [discriminate|]. intros [= _ <-]. rewrite skipn_length. lia. Qed.
Lemma readline_less l : forall x r, readline l = Some (x, r) -> List.length r <= List.length l.
Proof.
  induction l as [|b l IH]; intros x r E; cbn [IdentifyModel.readline] in E; [discriminate|]. destruct (b =? 10)%N; [injection E as _ <-; cbn; lia|].
  destruct (readline l) as [[y s]|]; [|discriminate]. injection E as _ <-. specialize (IH y s eq_refl). cbn. lia.
Qed.
Lemma counted_less {A} k l (f : list N -> option A) y r : counted k l f = Some (y, r) -> List.length r <= List.length l.
Proof. unfold counted. destruct (take k l) as [[x s]|] eqn:E; [|discriminate]. cbn [bind]. destruct (f x); [|discriminate]. intros [= _ <-]. eapply take_less; eauto. Qed.
Lemma counted2_less {A} k l (f : list N -> option A) y r : counted2 k l f = Some (y, r) -> List.length r <= List.length l.
Proof. unfold counted2. destruct (take k l) as [[x s]|] eqn:E; [|discriminate]. cbn [bind]. intros C. apply counted_less in C. apply take_less in E. lia. Qed.
Lemma line_less {A} l (f : list N -> option A) y r : line l f = Some (y, r) -> List.length r <= List.length l.
Proof. unfold line. destruct (readline l) as [[x s]|] eqn:E; [|discriminate]. cbn [bind]. destruct (f x); [|discriminate]. intros [= _ <-]. eapply readline_less; eauto. Qed.
Lemma lex_less l o r : lex l = Some (o, r) -> List.length r < List.length l.
Proof.
  destruct l as [|c l]; [discriminate|]. cbn [List.length]. intros E. apply Nat.lt_succ_r. revert E.
  assert (GC : forall k (f : list N -> option rop), counted k l f = Some (o, r) -> List.length r <= List.length l) by (intros; eapply counted_less; eauto).
  assert (G2 : forall k (f : list N -> option rop), counted2 k l f = Some (o, r) -> List.length r <= List.length l) by (intros; eapply counted2_less; eauto).
  assert (GL : forall (f : list N -> option rop), line l f = Some (o, r) -> List.length r <= List.length l) by (intros; eapply line_less; eauto).
  assert (GO : forall o', Some (o', l) = Some (o, r) -> List.length r <= List.length l) by (intros o' [= _ <-]; auto).
  assert (GG : bind (readline l) (fun '(x, r) => line r (fun y => bind (text x) (fun m => option_map (GLOBAL m) (text y)))) = Some (o, r) -> List.length r <= List.length l).
  { destruct (readline l) as [[x s]|] eqn:E; [|discriminate]. cbn [bind]. intros X. apply line_less in X. apply readline_less in E. lia. }
  assert (GF : bind (take 8 l) (fun '(x, r) => if (length r <? N.to_nat (unle x))%nat then None else Some (FRAME (unle x), r)) = Some (o, r) -> List.length r <= List.length l).
  { destruct (take 8 l) as [[x s]|] eqn:E; [|discriminate]. cbn [bind]. destruct (Nat.ltb _ _); [discriminate|]. intros [= _ <-]. eapply take_less; eauto. }
  unfold lex.
  repeat (match goal with |- (match ?c with _ => _ end = _ -> _) => destruct c end; try discriminate; try apply GC; try apply G2; try apply GL; try apply GO; try apply GG; try apply GF).
Qed.
(** no opcode of one byte is a global *)
Lemma lex_const l a r : lex l = Some (ROp (CONST a), r) -> ~ by_name a.
Proof.
  destruct l as [|c l]; [discriminate|].
  assert (GC : forall k (f : list N -> option rop), (forall x, f x <> Some (ROp (CONST a))) -> counted k l f = Some (ROp (CONST a), r) -> ~ by_name a).
  { intros k f F. unfold counted. destruct (take k l) as [[x s]|]; [|discriminate]. cbn [bind]. destruct (f x) eqn:E; [|discriminate]. intros [= -> _]. destruct (F x E). }
  assert (G2 : forall k (f : list N -> option rop), (forall x, f x <> Some (ROp (CONST a))) -> counted2 k l f = Some (ROp (CONST a), r) -> ~ by_name a).
  { intros k f F. unfold counted2. destruct (take k l) as [[x s]|]; [|discriminate]. cbn [bind]. unfold counted. destruct (take _ s) as [[y t]|]; [|discriminate]. cbn [bind].
    destruct (f y) eqn:E; [|discriminate]. intros [= -> _]. destruct (F y E). }
  assert (GL0 : forall s (f : list N -> option rop), (forall x, f x <> Some (ROp (CONST a))) -> line s f = Some (ROp (CONST a), r) -> ~ by_name a).
  { intros t f F. unfold line. destruct (readline t) as [[x s]|]; [|discriminate]. cbn [bind]. destruct (f x) eqn:E; [|discriminate]. intros [= -> _]. destruct (F x E). }
  pose proof (GL0 l) as GL.
  assert (OM : forall {X} (g : X -> rop) (o : option X), (forall x, g x <> ROp (CONST a)) -> option_map g o <> Some (ROp (CONST a))) by (intros X g [x|] Q; cbn; [intros [= E]; destruct (Q x E)|discriminate]).
  assert (GG : bind (readline l) (fun '(x, r) => line r (fun y => bind (text x) (fun m => option_map (GLOBAL m) (text y)))) = Some (ROp (CONST a), r) -> ~ by_name a).
  { destruct (readline l) as [[x s]|] eqn:E; [|discriminate]. cbn [bind]. apply GL0. intros y. destruct (text x); cbn [bind]; [apply OM; discriminate|discriminate]. }
  assert (GF : bind (take 8 l) (fun '(x, r) => if (length r <? N.to_nat (unle x))%nat then None else Some (FRAME (unle x), r)) = Some (ROp (CONST a), r) -> ~ by_name a).
  { destruct (take 8 l) as [[x s]|] eqn:E; [|discriminate]. cbn [bind]. destruct (Nat.ltb _ _); discriminate. }
  assert (IB : forall x, int_or_bool x <> Some (ROp (CONST a))).
  { intros x. unfold int_or_bool. repeat (match goal with |- (match ?c with _ => _ end <> _) => destruct c end; try discriminate; try (apply OM; discriminate)). }
  unfold lex.
  repeat (match goal with |- (match ?c with _ => _ end = _ -> _) => destruct c end; try discriminate; try (apply GG); try (apply GF);
          try (intros [= <- _]; cbn; tauto); try (apply GC; intros x; discriminate); try (apply GC; intros x; apply OM; discriminate);
          try (apply G2; intros x; discriminate); try (apply G2; intros x; apply OM; discriminate); try (apply GL; exact IB); try (apply GL; intros x; apply OM; discriminate)).
Qed.

Section Global.
  Variable find : string -> string -> option atom.
  Definition known (a : atom) : Prop := by_name a -> given find a \/ a = AModDict "builtins" /\ given find (AGlob GCreateFunction).
  Lemma known_plain a : ~ by_name a -> known a.
  Proof. intros N B. contradiction. Qed.
  Lemma known_builtins : known (AGlob GCreateFunction) -> known (AModDict "builtins").
  Proof. intros K _. right. split; auto. destruct (K I) as [G|[E _]]; auto. discriminate. Qed.
  Lemma p_find md n m m' : pm known m -> find_push find md n m = Some m' -> pm known m'.
  Proof.
    intros M. unfold find_push. destruct (find md n) as [a|] eqn:E; [|discriminate]. intros [= <-]. apply p_push; auto. intros _. left. exists md, n. exact E.
  Qed.
  Lemma p_rstep r m m' : pm known m -> (forall a, r = ROp (CONST a) -> ~ by_name a) -> rstep find r m = Some m' -> pm known m'.
  Proof.
    intros M K E. pose proof (p_step known known_plain known_builtins) as ST.
    assert (SC : forall a, ~ by_name a -> step (CONST a) m = Some m' -> pm known m').
    { intros a N. apply (ST _ m m' M). intros b [= <-]. apply known_plain; auto. }
    destruct r; cbn [rstep] in E; try (apply SC in E; [exact E|cbn; tauto]); try (eapply p_find; eauto; fail); try (eapply ST; [exact M| |exact E]; intros; discriminate).
    - eapply ST; [exact M| |exact E]. intros a ->. apply known_plain. apply K. reflexivity.
    - pose proof M as (M1 & M2 & M3 & M4). destruct (stk m) as [|[[]|] [|[[]|] s]]; try discriminate. inversion M1 as [|? ? V1 M1']; subst. inversion M1'; subst.
      eapply p_find; [|exact E]. apply p_stk; auto.
    - injection E as <-. auto.
  Qed.
  Lemma pm0 : pm known {| stk := []; meta := []; mem := []; heap := [] |}.
  Proof. repeat split; constructor. Qed.
  Lemma p_comes l l' m' : comes find l l' m' -> pm known m'.
  Proof.
    intros C. induction C as [|l1 m1 r l2 m2 C IH L N S]; [apply pm0|]. eapply p_rstep; eauto. intros a ->. eapply lex_const; eauto.
  Qed.
  Lemma p_bload fuel : forall l m v m' rest, pm known m -> bload find fuel l m = Some (v, m', rest) -> pv known v /\ pm known m'.
  Proof.
    induction fuel as [|fuel IH]; intros l m v m' rest M E; [discriminate|]. cbn [bload] in E. destruct (lex l) as [[r t]|] eqn:L; [|discriminate].
    assert (G : forall r, lex l = Some (r, t) -> match rstep find r m with Some m' => bload find fuel t m' | None => None end = Some (v, m', rest) -> pv known v /\ pm known m').
    { intros r0 L0. destruct (rstep find r0 m) eqn:R0; [|discriminate]. apply IH. eapply p_rstep; eauto. intros a ->. eapply lex_const; eauto. }
    destruct r as [o| | | | | | | | | | | | | | | | | | | | | | | | |]; try (eapply G; eauto; fail). destruct o; try (eapply G; eauto; fail).
    pose proof M as (M1 & _). destruct (stk m) as [|w s] eqn:Q; [discriminate|]. injection E as <- <- _. inversion M1; subst. auto.
  Qed.
End Global.

(** ** C110 *)
(** whatever the bytes: load ends, after at most as many opcodes as there are bytes *)
Theorem C110_ends : forall find l m n, bload find (List.length l + n) l m = bload find (List.length l) l m.
Proof.
  intros find l m n. assert (G : forall k l m f, List.length l <= k -> k <= f -> bload find f l m = bload find k l m).
  { clear. induction k as [|k IH]; intros l m f L F.
    - destruct l; cbn in L; [|lia]. destruct f; reflexivity.
    - destruct f as [|f]; [lia|]. cbn [bload]. destruct (lex l) as [[r t]|] eqn:X; auto. apply lex_less in X.
      assert (Y : match rstep find r m with Some m' => bload find f t m' | None => None end = match rstep find r m with Some m' => bload find k t m' | None => None end).
      { destruct (rstep find r m); auto. apply IH; lia. }
      destruct r as [o| | | | | | | | | | | | | | | | | | | | | | | | |]; auto. destruct o; auto. }
  apply G; lia.
Qed.
(** what follows in the stream does not change the result *)
Theorem C110_more : forall find l v m rest more, loadb find l = Some (v, m, rest) -> loadb find (l ++ more) = Some (v, m, rest ++ more).
Proof. intros find l v m rest more E. exact (loadb_more find l more v m rest E). Qed.
(** whatever the bytes: what is called (REDUCE) or made an instance of (NEWOBJ), find_class gave it *)
Theorem C110_called : forall find l l1 m1 r l2 args g i s, comes find l l1 m1 -> lex l1 = Some (ROp r, l2) -> r = REDUCE \/ r = NEWOBJ -> stk m1 = args :: VA (AGlob g) i :: s ->
  given find (AGlob g).
Proof.
  intros find l l1 m1 r l2 args g i s C _ _ Q. destruct (p_comes find _ _ _ C) as (M1 & _). rewrite Q in M1. inversion M1 as [|? ? _ M2]; subst. inversion M2 as [|? ? K _]; subst.
  destruct (K I) as [G|[E _]]; auto. discriminate.
Qed.
(** and so is every class, function and module dictionary in the result; but if find_class gives _create_function, the dictionary of builtins can come with a function *)
Theorem C110_result : forall find l v m rest a, loadb find l = Some (v, m, rest) -> by_name a -> in_val a v \/ (exists o b, nth_error (heap m) o = Some b /\ in_obj a b) ->
  given find a \/ a = AModDict "builtins" /\ given find (AGlob GCreateFunction).
Proof.
  intros find l v m rest a E B Q. destruct (p_bload find _ _ _ _ _ _ (pm0 find) E) as [V (_ & _ & _ & Hh)].
  assert (PV : forall w, in_val a w -> pv (known find) w -> given find a \/ a = AModDict "builtins" /\ given find (AGlob GCreateFunction)).
  { intros [b j|o] W K; cbn in W; [subst b; auto|contradiction]. }
  destruct Q as [Q|(o & b & N & Q)]; [apply (PV v); auto|]. rewrite Forall_forall in Hh. specialize (Hh b (nth_error_In _ _ N)).
  assert (PD : forall d w, pd (known find) d -> In w (flat d) -> pv (known find) w).
  { intros d w D I0. unfold flat in I0. apply in_flat_map in I0 as ([k x] & I1 & I2). unfold pd in D. rewrite Forall_forall in D. destruct (D _ I1). destruct I2 as [<-|[<-|[]]]; auto. }
  assert (PL : forall d w, Forall (pv (known find)) d -> In w d -> pv (known find) w) by (intros d w D; rewrite Forall_forall in D; auto).
  assert (PS : forall st w, ps (known find) st -> In w (state_vals st) -> pv (known find) w).
  { intros [|x|d [sl|]] w D; cbn [state_vals]; cbn [ps] in D.
    - intros [].
    - intros [<-|[]]; auto.
    - destruct D as [D1 D2]. rewrite in_app_iff. intros [Y|Y]; [exact (PD _ _ D1 Y)|exact (PD _ _ D2 Y)].
    - destruct D as [D1 D2]. rewrite ?app_nil_r. intros Y; exact (PD _ _ D1 Y). }
  destruct Q as [(w & I0 & W)|Q].
  - apply (PV w W). destruct b as [vs|vs|d|nb c args li di st|co gl n de cl st|mt n bs d q|[c|]|z vs]; cbn [refs po] in *; try (eapply PL; eauto; fail); try (eapply PD; eauto; fail).
    + destruct Hh as (? & ? & ? & ? & ?). destruct I0 as [<-|I0]; auto. rewrite !in_app_iff in I0. destruct I0 as [I0|[I0|[I0|I0]]]; eauto.
    + destruct Hh as (? & ? & ? & ? & HG & ?). rewrite !in_app_iff in I0. destruct I0 as [I0|[I0|I0]]; [cbn in I0; intuition (subst; auto)| |eauto].
      destruct gl as [x|g x]; cbn in I0; [tauto|]. destruct I0 as [<-|[<-|[]]]; [exact I|auto].
    + destruct Hh as (? & ? & ? & ? & ?). rewrite in_app_iff in I0. destruct I0 as [I0|I0]; [cbn in I0; intuition (subst; auto)|eauto].
    + destruct I0 as [<-|[]]. auto.
  - destruct b as [| | | |co [x|] n de cl st| | |]; try contradiction. subst x. cbn in Hh. apply Hh. exact B.
Qed.
(** so a find_class that gives only what is on a list keeps the rest out, whatever the pickle *)
Theorem C110_allowed : forall find allowed l v m rest g, (forall md n a, find md n = Some a -> In a allowed) -> loadb find l = Some (v, m, rest) ->
  in_val (AGlob g) v \/ (exists o b, nth_error (heap m) o = Some b /\ in_obj (AGlob g) b) -> In (AGlob g) allowed.
Proof.
  intros find allowed l v m rest g F E Q. destruct (C110_result find l v m rest (AGlob g) E I Q) as [(md & n & G)|[[=] _]]. eapply F; eauto.
Qed.
(** ** A case: an instance of a class lib.C made by hand with REDUCE, for a find_class that gives only the names on a list *)
Definition only (names : list (string * string)) (m n : string) : option atom :=
  if existsb (fun p => andb (String.eqb (fst p) m) (String.eqb (snd p) n)) names then ex_find m n else None.
Definition hand : list N := (* c lib \n C \n ) R . *)
  [99; 108; 105; 98; 10; 67; 10; 41; 82; 46]%N.
Theorem C110_case :
  (exists v m, loadb (only [("lib", "C")]%string) (hand ++ [1%N]) = Some (v, m, [1%N]) /\ exists o b, nth_error (heap m) o = Some b /\ in_obj (AGlob (GUser "C")) b) /\
  loadb (only [("lib", "D")]%string) hand = None /\
  (exists l1 m1 l2, comes (only [("lib", "C")]%string) hand l1 m1 /\ lex l1 = Some (ROp REDUCE, l2) /\ exists args s, stk m1 = args :: VA (AGlob (GUser "C")) 0 :: s) /\
  (exists b, dumps_bytes 4 ex_naming ex_heap 40 (VR 5) b /\ loadb (only []) b = None /\ exists r, loadb ex_find b = Some r).
Proof.
  split; [|split; [|split]].
  - destruct (loadb (only [("lib", "C")]%string) (hand ++ [1%N])) as [[[v m] r]|] eqn:E; vm_compute in E; [|discriminate]. injection E as <- <- <-.
    eexists _, _. split; [reflexivity|]. eexists 0, _. split; [reflexivity|]. left. eexists. split; [left; reflexivity|reflexivity].
  - vm_compute. reflexivity.
  - eexists _, _, _. split; [|split].
    + eapply c_step; [eapply c_step; [apply c_start| | |]| | |]; try (vm_compute; reflexivity); discriminate.
    + vm_compute. reflexivity.
    + eexists _, _. vm_compute. reflexivity.
  - let d := eval vm_compute in (dumped 4 ex_naming (ex_reuse 3) ex_heap 40 (VR 5)) in
    match d with Some ?b => exists b end. split; [apply (dumped_ok 4 ex_naming (ex_reuse 3)); vm_compute; reflexivity|]. split; [vm_compute; reflexivity|].
    match goal with |- exists r, ?x = _ => destruct x as [r|] eqn:E; [exists r; reflexivity|vm_compute in E; discriminate] end.
Qed.
