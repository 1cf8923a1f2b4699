(** C56: the items of list-like and dict-like instances (a reduce value's fourth and fifth elements), and the condition under which the
    list items do not come back twice. *)
From Coq Require Import String List Bool Arith ZArith Lia.
From Verif Require Import PyDict CoreModel CoreSpec CoreSim CoreProps CoreExamples.
Import ListNotations.
Local Open Scope string_scope.
Local Open Scope list_scope.

(** class C(list) with a method that refers to inst through its closure, inst = C(['a', 'b']); inst is dumped: the class is saved first, with it the
    method, the cell and the instance; back in the outer call the instance is found in the memo, fetched, and its items are appended again *)
Definition twice_objs : list obj := [
  (* 0: inst *) ORed true (VR 1) [] [str "a"; str "b"] [] SNone;
  (* 1: class C *) OType (VA (AGlob (GUser "type")) 0) (str "C") (VA (AGlob (GUser "bases")) 0) [(str "meth", VR 2)] (str "outer.C");
  (* 2: its method *) OFun (VA (AGlob (GUser "code_m")) 0) (GRef (AModDict "__main__")) (str "meth") vNone (VR 3) (SAttrs [] (Some []));
  (* 3 *) OTup [VR 4];
  (* 4 *) OCell (Some (VR 0)) ].
Definition twice_heap (o : oid) : option obj := nth_error twice_objs o.
Theorem C56_items_twice_refuted : forall p, p <= 5 -> exists ops m a c,
  (forall o b, twice_heap o = Some b -> obj_wf twice_heap b) /\
  dumps p twice_heap 40 (VR 0) = Ok ops /\ loads ops = Some (VR a, m, []) /\
  nth_error (heap m) a = Some (ORed true c [] [str "a"; str "b"; str "a"; str "b"] [] SNone).
Proof.
  intros p Hp. assert (W : forall o b, twice_heap o = Some b -> obj_wf twice_heap b).
  { assert (F : Forall (obj_wf twice_heap) twice_objs).
    { unfold twice_objs. repeat (apply Forall_cons; [unfold obj_wf, state_wf|]); try apply Forall_nil; kd; try (eexists; reflexivity); discriminate. }
    intros o b Ho. rewrite Forall_forall in F. apply F. eapply nth_error_In. exact Ho. }
  assert (p = 0 \/ p = 1 \/ p = 2 \/ p = 3 \/ p = 4 \/ p = 5) as C by lia.
  destruct C as [->|[->|[->|[->|[->| ->]]]]]; eexists _, _, _, _; (split; [exact W|]); (split; [vm_compute; reflexivity|]);
    (split; [vm_compute; reflexivity|]); vm_compute; reflexivity.
Qed.
(** with key-value items instead, the second time changes nothing *)
Definition twice_dict (o : oid) : option obj :=
  match o with 0 => Some (ORed true (VR 1) [] [] [(str "a", str "b"); (str "me", VR 0)] SNone) | _ => twice_heap o end.
Example twice_dict_wf : heap_wf twice_dict.
Proof.
  intros o b Ho. do 5 (destruct o as [|o]; [injection Ho as <-; split; [unfold obj_wf, state_wf; kd; try (eexists; reflexivity); discriminate|exact I]|]).
  destruct o; discriminate.
Qed.
Example twice_dict_dumps : forall p, p <= 5 -> exists ops v' m, dumps p twice_dict 40 (VR 0) = Ok ops /\ loads ops = Some (v', m, []) /\ iso twice_dict (VR 0) (heap m) v'.
Proof.
  intros p Hp. assert (exists ops, dumps p twice_dict 40 (VR 0) = Ok ops) as (ops & E).
  { assert (p = 0 \/ p = 1 \/ p = 2 \/ p = 3 \/ p = 4 \/ p = 5) as C by lia. destruct C as [->|[->|[->|[->|[->| ->]]]]]; eexists; vm_compute; reflexivity. }
  exists ops. destruct (C01_roundtrip p _ 40 (VR 0) ops twice_dict_wf Hp E) as (v' & m & L & I0). eauto.
Qed.

(** C56.  The copy of an instance has as many items as the instance, in the same order, and each is the copy of the original's: a constant is that
    constant, an object is the object found in the copied graph where the original was found in the original graph.  [heap_wf] asks that no
    instance with list items is reachable from its own class or constructor arguments *)
Theorem C56_items_partial : forall proto H fuel v ops p o nb c args li di st,
  heap_wf H -> proto <= 5 -> dumps proto H fuel v = Ok ops ->
  follow H v p = Some (VR o) -> H o = Some (ORed nb c args li di st) ->
  exists v' m a c' args' li' di' st', loads ops = Some (v', m, []) /\
    follow (nth_error (heap m)) v' p = Some (VR a) /\ nth_error (heap m) a = Some (ORed nb c' args' li' di' st') /\
    length li' = length li /\ length di' = length di /\
    let copy x x' := (forall k i, x = VA k i -> x' = VA k 0) /\
                     (forall o q, x = VR o -> follow H v q = Some (VR o) -> follow (nth_error (heap m)) v' q = Some x') in
    (forall n x, nth_error li n = Some x -> exists x', nth_error li' n = Some x' /\ copy x x') /\
    (forall n k x, nth_error di n = Some (k, x) -> exists k' x', nth_error di' n = Some (k', x') /\ copy k k' /\ copy x x').
Proof.
  intros proto H fuel v ops p o nb c args li di st HW Hp E F Ho.
  destruct (C01_roundtrip _ _ _ _ _ HW Hp E) as (v' & m & L & I0). pose proof I0 as (R & G & Hv & RF & RI & _ & _ & _ & RO).
  destruct (follow_rel R G H (heap m) HW RF RI RO p v v' _ Hv F) as (w0 & F' & Hw0). destruct w0 as [|a]; [exfalso; exact Hw0|]. cbn in Hw0.
  destruct (RO _ _ Hw0) as (b & b' & B1 & B2 & O). rewrite Ho in B1. injection B1 as <-.
  destruct b' as [| | |nb' c' args' li' di' st'| | | |]; try (exfalso; exact O). destruct O as (<- & C & A & LI & DI & S).
  exists v', m, a, c', args', li', di', st'. split; [auto|]. split; [auto|]. split; [auto|].
  assert (HC : forall x x', val_rel R x x' -> (forall k i, x = VA k i -> x' = VA k 0) /\
     (forall o q, x = VR o -> follow H v q = Some (VR o) -> follow (nth_error (heap m)) v' q = Some x')).
  { intros x x' Hx. split.
    - intros k i ->. destruct x' as [k' i'|]; [|exfalso; exact Hx]. destruct Hx as [-> ->]. auto.
    - intros o1 q -> Fq. destruct x' as [|a1]; [exfalso; exact Hx|]. cbn in Hx.
      destruct (follow_rel R G H (heap m) HW RF RI RO q v v' _ Hv Fq) as (y & Fy & Hy). destruct y as [|a2]; [exfalso; exact Hy|]. cbn in Hy.
      rewrite Fy. do 2 f_equal. eapply RF; eauto. }
  split; [clear - LI; induction LI; cbn; auto|]. split; [clear - DI; induction DI; cbn; auto|]. split.
  - intros n x Hx. destruct (nth_rel _ _ _ _ _ LI Hx) as (x' & Hx' & Rx). eauto.
  - intros n k x Hx. destruct (nth_rel _ _ _ _ _ DI Hx) as ([k' x'] & Hx' & Rk & Rx). exists k', x'. auto.
Qed.
(** the example: the instance with three list items and two key-value items *)
Example ex_C56 : forall p, p <= 5 -> exists ops v' m a c' args' li' di' st',
  dumps p ex_heap 40 (VR 5) = Ok ops /\ loads ops = Some (v', m, []) /\ follow (nth_error (heap m)) v' [SItem 5] = Some (VR a) /\
  nth_error (heap m) a = Some (ORed true c' args' li' di' st') /\ length li' = 3 /\ length di' = 2 /\ nth_error li' 0 = Some (VR a).
Proof.
  intros p Hp. destruct (ex_dumps p Hp) as (ops & E).
  destruct (C56_items_partial p ex_heap 40 (VR 5) ops [SItem 5] 12 _ _ _ _ _ _ ex_wf Hp E eq_refl eq_refl)
    as (v' & m & a & c' & args' & li' & di' & st' & L & F & B & N1 & N2 & X & _).
  destruct (X 0 (VR 12) eq_refl) as (x' & Hx & _ & Y). specialize (Y 12 [SItem 5] eq_refl eq_refl). rewrite F in Y. injection Y as <-.
  exists ops, v', m, a, c', args', li', di', st'. repeat (split; [assumption|]). exact Hx.
Qed.
