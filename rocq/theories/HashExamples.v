(** C81: a case that meets the hypotheses, and the two ways in which the property fails. *)
From Coq Require Import String List Bool Arith ZArith Lia.
From Verif Require Import PyDict CoreModel CoreSpec CoreProps CoreExamples HashModel HashSpec HashProps.
Import ListNotations.
Local Open Scope string_scope.
Local Open Scope list_scope.

Definition gu n := VA (AGlob (GUser n)) 0.
(** def E(d = {K(): "v"}), where the class K was made by a function and its __hash__ uses a variable of that function *)
Definition hk_objs : list obj := [
  (* 0: E *) OFun (gu "code_E") (GRef (AModDict "__main__")) (str "E") (VR 1) vNone (SAttrs [] (Some []));
  (* 1: its defaults *) OTup [VR 2];
  (* 2: the dictionary *) ODict [(VR 3, str "v")];
  (* 3: the key *) ORed true (VR 4) [] [] [] (SAttrs [(str "id", VA (AScalar 7) 0)] None);
  (* 4: K *) OType (gu "type") (str "K") (VA AEmptyTuple 0) [(str "__hash__", VR 5)] (str "make.K");
  (* 5: K.__hash__ *) OFun (gu "code_hash") (GRef (AModDict "__main__")) (str "__hash__") vNone (VR 6) (SAttrs [] (Some []));
  (* 6: its closure *) OTup [VR 7];
  (* 7 *) OCell (Some (VA (AScalar 3) 0)) ].
Definition hk_heap (o : oid) : option obj := nth_error hk_objs o.
Lemma hk_wf : heap_wf hk_heap.
Proof.
  assert (F : Forall (obj_wf hk_heap) hk_objs).
  { unfold hk_objs. repeat (apply Forall_cons; [unfold obj_wf, state_wf|]); try apply Forall_nil; kd; try (eexists; reflexivity); discriminate. }
  assert (F2 : forall o b, nth_error hk_objs o = Some b -> items_once hk_heap o b).
  { intros o b Ho. do 8 (destruct o as [|o]; [injection Ho as <-; exact I|]). destruct o; discriminate. }
  intros o b Ho. split; [rewrite Forall_forall in F; apply F; eapply nth_error_In; exact Ho|exact (F2 o b Ho)].
Qed.
Lemma hk_reach o : reach hk_heap (VR 3) o -> 3 <= o.
Proof.
  assert (C : forall x b v, 3 <= x -> hk_heap x = Some b -> In v (refs b) -> match v with VR y => 3 <= y | _ => True end).
  { intros x b v L Hb Hv. do 8 (destruct x as [|x]; [try lia; injection Hb as <-; cbn in Hv; repeat (destruct Hv as [<-|Hv]; [try exact I; lia|]); destruct Hv|]). destruct x; discriminate. }
  assert (G : forall v x, reach hk_heap v x -> match v with VR y => 3 <= y | _ => True end -> 3 <= x).
  { intros v x R. induction R as [x|x b v y Hb Hv R IH]; intros L; auto. apply IH. eapply C; eauto. }
  intros R. apply (G _ _ R). lia.
Qed.
(** what is inserted where: the events of a stream *)
Fixpoint events (ops : list op) (m : vm) : list (val * nat * list obj) :=
  match ops with
  | [] => []
  | o :: r => map (fun p => (p, heap m)) (hashed o m) ++ match step o m with Some m' => events r m' | None => [] end
  end.
Lemma events_inserts ops : forall pre m0 m k a h, runs pre m0 = Some m -> In (k, a, h) (events ops m) ->
  exists pre' o rest m', pre ++ ops = pre' ++ o :: rest /\ runs pre' m0 = Some m' /\ In (k, a) (hashed o m') /\ heap m' = h.
Proof.
  induction ops as [|o ops IH]; intros pre m0 m k a h R Hi; [destruct Hi|]. cbn [events] in Hi. apply in_app_iff in Hi as [Hi|Hi].
  - apply in_map_iff in Hi as ([k' a'] & E & Hi). injection E as <- <- <-. exists pre, o, ops, m. auto.
  - destruct (step o m) as [m1|] eqn:Es; [|destruct Hi].
    assert (R1 : runs (pre ++ [o]) m0 = Some m1).
    { clear - R Es. revert m0 R. induction pre as [|p pre IH]; intros m0 R; cbn in *; [injection R as ->; rewrite Es; reflexivity|]. destruct (step p m0); [auto|discriminate]. }
    destruct (IH (pre ++ [o]) m0 m1 k a h R1 Hi) as (pre' & o' & rest & m' & E & X). exists pre', o', rest, m'. rewrite <- app_assoc in E. auto.
Qed.
Lemma inserts_in ops k a h : In (k, a, h) (events ops start) -> inserts ops k a h.
Proof. intros Hi. destruct (events_inserts ops [] start start k a h eq_refl Hi) as (pre & o & rest & m & X). exists pre, o, rest, m. exact X. Qed.

Lemma some_inj (X : option (val * vm * list op)) v m v' m' l l' : X = Some (v, m, l) -> X = Some (v', m', l') -> v = v' /\ m = m'.
Proof. intros -> E. injection E. auto. Qed.
(** the state of the unpickler at the end *)
Definition fin (ops : list op) : vm := match loads ops with Some x => snd (fst x) | None => start end.
Definition hk_ops (p : nat) (v : val) : list op := match dumps p hk_heap 40 v with Ok l => l | _ => [] end.

(** a case: dumping the dictionary itself with protocol 4; the key is inserted, it does not lead back to the
    dictionary, and its class and the method are near it *)
Lemma C81_case : exists ops, dumps 4 hk_heap 40 (VR 2) = Ok ops /\ (exists a h, inserts ops (VR 14) a h) /\ ~ reach hk_heap (VR 3) 2 /\ near hk_heap (VR 3) 4 /\ near hk_heap (VR 3) 5.
Proof.
  exists (hk_ops 4 (VR 2)). split; [vm_compute; reflexivity|]. split.
  { exists 0, (nth 2 (map snd (events (hk_ops 4 (VR 2)) start)) []). apply inserts_in. vm_compute. auto 10. }
  split; [intros R; apply hk_reach in R; lia|].
  assert (N : near hk_heap (VR 4) 5) by (eapply n_step with (b := OType (gu "type") (str "K") (VA AEmptyTuple 0) [(str "__hash__", VR 5)] (str "make.K")) (v := VR 5); [reflexivity|auto|cbn; auto 10|constructor]).
  split; (eapply n_step with (b := ORed true (VR 4) [] [] [] (SAttrs [(str "id", VA (AScalar 7) 0)] None)) (v := VR 4); [reflexivity|auto|cbn; auto 10|]); [constructor|exact N].
Qed.

(** the key of a dictionary, complete when inserted: everything it leads to is there *)
Definition all_complete (ops : list op) (R G : oid -> nat -> Prop) (H : oid -> option obj) : Prop :=
  forall k a h c, inserts ops k a h -> R c a ->
    exists kx b, H c = Some b /\ In kx (keys_of b) /\ val_rel R kx k /\ (~ reach H kx c -> forall x, reach H kx x -> whole R G H h x).
(** without the exemption of closure cells the property is false: while a function is pickled the contents of all
    cells found on the way are postponed to the end, so that K.__hash__ runs with None in its cell *)
Theorem C81_cells_refuted : ~ forall proto H fuel v ops, heap_wf H -> proto <= 5 -> dumps proto H fuel v = Ok ops ->
  exists v' mf R G, loads ops = Some (v', mf, []) /\ iso_by R G H v (heap mf) v' /\ all_complete ops R G H.
Proof.
  intros F. assert (E : dumps 4 hk_heap 40 (VR 0) = Ok (hk_ops 4 (VR 0))) by (vm_compute; reflexivity).
  destruct (F 4 hk_heap 40 (VR 0) _ hk_wf ltac:(lia) E) as (v' & mf & R & G & L & (Rv & Rf & _ & _ & _ & _ & Ro) & AC). clear F E.
  assert (L' : loads (hk_ops 4 (VR 0)) = Some (VR 17, fin (hk_ops 4 (VR 0)), [])) by (vm_compute; reflexivity).
  destruct (some_inj _ _ _ _ _ _ _ L L') as (-> & Em). cbn in Rv.
  assert (R2 : R 2 0).
  { destruct (Ro 0 17 Rv) as (b & b' & Hb & Hh & O). rewrite Em in Hh. injection Hb as <-. vm_compute in Hh. injection Hh as <-.
    destruct O as (_ & _ & _ & O & _). cbn in O.
    destruct (Ro _ _ O) as (b & b' & Hb & Hh & O2). rewrite Em in Hh. injection Hb as <-. vm_compute in Hh. injection Hh as <-.
    inversion O2 as [|? ? ? ? X _]; subst. exact X. }
  set (h := nth 2 (map snd (events (hk_ops 4 (VR 0)) start)) []).
  assert (Hi : inserts (hk_ops 4 (VR 0)) (VR 13) 0 h) by (apply inserts_in; vm_compute; auto 10).
  destruct (AC _ _ _ _ Hi R2) as (kx & b & Hb & Hk & _ & W). injection Hb as <-. destruct Hk as [<-|[]].
  assert (Nr : ~ reach hk_heap (fst (VR 3, str "v")) 2) by (intros X; apply hk_reach in X; lia).
  assert (Rc : reach hk_heap (VR 3) 7).
  { eapply r_step with (v := VR 4); [reflexivity|cbn; auto|]. eapply r_step with (v := VR 5); [reflexivity|cbn; auto 10|]. eapply r_step with (v := VR 6); [reflexivity|cbn; auto 10|].
    eapply r_step with (v := VR 7); [reflexivity|cbn; auto|]. constructor. }
  destruct (W Nr 7 Rc) as (a & b & b' & _ & Hb & Hh & O). injection Hb as <-. destruct b' as [| | | | | |[w|]|]; try exact O. cbn in O. destruct w as [ad j|]; [destruct O as [<- _]|exact O]. apply nth_error_In in Hh.
  assert (B : forallb (fun b => match b with OCell (Some (VA (AScalar _) _)) => false | _ => true end) h = true) by (vm_compute; reflexivity).
  rewrite forallb_forall in B. specialize (B _ Hh). discriminate.
Qed.

(** the same with a key that leads back to its own container, and nothing said about cells *)
Definition all_complete_near (ops : list op) (R G : oid -> nat -> Prop) (H : oid -> option obj) : Prop :=
  forall k a h c, inserts ops k a h -> R c a ->
    exists kx b, H c = Some b /\ In kx (keys_of b) /\ val_rel R kx k /\ (forall x, near H kx x -> (exists b, H x = Some b /\ is_cell b) \/ whole R G H h x).
Definition ex_ops (p : nat) (v : val) : list op := match dumps p ex_heap 60 v with Ok l => l | _ => [] end.
(** an instance that refers to a set it is an element of is hashed before it has its attributes (also in CPython's pickle) *)
Theorem C81_cycles_refuted : ~ forall proto H fuel v ops, heap_wf H -> proto <= 5 -> dumps proto H fuel v = Ok ops ->
  exists v' mf R G, loads ops = Some (v', mf, []) /\ iso_by R G H v (heap mf) v' /\ all_complete_near ops R G H.
Proof.
  intros F. assert (E : dumps 4 ex_heap 60 (VR 15) = Ok (ex_ops 4 (VR 15))) by (vm_compute; reflexivity).
  destruct (F 4 ex_heap 60 (VR 15) _ ex_wf ltac:(lia) E) as (v' & mf & R & G & L & (Rv & Rf & _ & _ & _ & _ & Ro) & AC). clear F E.
  assert (L' : loads (ex_ops 4 (VR 15)) = Some (VR 13, fin (ex_ops 4 (VR 15)), [])) by (vm_compute; reflexivity).
  destruct (some_inj _ _ _ _ _ _ _ L L') as (-> & Em). cbn in Rv.
  assert (R2 : R 13 15).
  { destruct (Ro 15 13 Rv) as (b & b' & Hb & Hh & O). rewrite Em in Hh. injection Hb as <-. vm_compute in Hh. injection Hh as <-.
    destruct O as (_ & _ & _ & _ & _ & O). inversion O as [|? ? ? ? [_ X] _]; subst. exact X. }
  set (h := nth 4 (map snd (events (ex_ops 4 (VR 15)) start)) []).
  assert (Hi : inserts (ex_ops 4 (VR 15)) (VR 13) 15 h) by (apply inserts_in; vm_compute; auto 12).
  assert (H13 : nth_error h 13 = Some (ORed true (VR 10) [] [] [] SNone)) by (vm_compute; reflexivity).
  destruct (AC _ _ _ _ Hi R2) as (kx & b & Hb & Hk & Hv & W). injection Hb as <-. clearbody h. clear Em L Hi AC.
  destruct Hk as [<-|[<-|[<-|[]]]]; cbn in Hv; [| |exact Hv].
  - destruct (W 15 (n_here _ _)) as [(b & Hb & C)|(a & b & b' & Ra & Hb & Hh & O)]; injection Hb as <-; [exact C|].
    rewrite (Rf _ _ _ Ra Hv), H13 in Hh. injection Hh as <-. apply O.
  - destruct (W 14 (n_here _ _)) as [(b & Hb & C)|(a & b & b' & Ra & Hb & Hh & O)]; injection Hb as <-; [exact C|].
    rewrite (Rf _ _ _ Ra Hv), H13 in Hh. injection Hh as <-. exact O.
Qed.
