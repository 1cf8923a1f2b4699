(** C53: a concrete graph meeting the hypotheses of the theorems, and the two ways in which older interpreters fall short. *)
From Coq Require Import String List Bool Arith ZArith Lia.
From Verif Require Import PyDict CoreModel CoreSpec CoreSim CoreProps CoreExamples WeakModel WeakProps.
Import ListNotations.
Local Open Scope string_scope.
Local Open Scope list_scope.

Definition num (z : Z) : val := VA (AScalar z) 0.
Definition wk_objs : list obj := [
  (* 0: the root *) OList [VR 1; VR 2; VR 3; VR 5; VR 6; VR 7; VR 8];
  (* 1: a list that is in the root as well *) OList [num 1; VR 0];
  (* 2: a weak reference to it *) weakref_obj (VR 1);
  (* 3: a weak reference to an object nothing else refers to *) weakref_obj (VR 4);
  (* 4 *) OList [VR 1];
  (* 5: a dead one *) weakref_obj vNone;
  (* 6: a dictionary *) ODict [(num 2, VR 1); (str "b", VR 6); (num 0, num 7)];
  (* 7: its items *) view_obj VItems 6;
  (* 8: lru_cache(maxsize=None, typed=True)(f) *) fst (lru_saved vNone (num 1) 9 (VA (AGlob (GUser "m.f")) 0));
  (* 9: the shim *) ORed false (user "functools.lru_cache") [vNone; num 1] [] [] SNone ].
Definition wk_heap (o : oid) : option obj := nth_error wk_objs o.
Lemma wk_wf : heap_wf wk_heap.
Proof.
  assert (F : Forall (obj_wf wk_heap) wk_objs).
  { unfold wk_objs. repeat (apply Forall_cons; [unfold obj_wf, state_wf|]); try apply Forall_nil; try (hnf; split; [exact I|split; exact I]); kd; try (eexists; reflexivity); try discriminate. }
  assert (F2 : forall o b, nth_error wk_objs o = Some b -> items_once wk_heap o b).
  { intros o b Ho. do 10 (destruct o as [|o]; [injection Ho as <-; exact I|]). destruct o; discriminate. }
  intros o b Ho. split; [rewrite Forall_forall in F; apply F; eapply nth_error_In; exact Ho|exact (F2 o b Ho)].
Qed.
Example wk_dumps : forall p, p <= 5 -> exists ops, dumps p wk_heap 40 (VR 0) = Ok ops.
Proof.
  intros p Hp. assert (p = 0 \/ p = 1 \/ p = 2 \/ p = 3 \/ p = 4 \/ p = 5) as C by lia.
  destruct C as [->|[->|[->|[->|[->| ->]]]]]; eexists; vm_compute; reflexivity.
Qed.
(** 1 is strongly reachable from the root, 4 is not *)
Example wk_strong : strong_reach wk_heap (VR 0) 1 /\ ~ strong_reach wk_heap (VR 0) 4.
Proof.
  split.
  - eapply sr_step; [apply sr_root; reflexivity|reflexivity|left; reflexivity].
  - assert (G : forall o, strong_reach wk_heap (VR 0) o -> In o [0; 1; 2; 3; 5; 6; 7; 8; 9]).
    { intros o Hr. induction Hr as [o E|o b o' Hr IH Hb Hi]; [injection E as <-; left; auto|].
      cbn in IH. repeat (destruct IH as [<-|IH]; [injection Hb as <-; vm_compute in Hi; repeat (destruct Hi as [Hi|Hi]; [try discriminate; injection Hi as <-; cbn; auto 20|]); destruct Hi|]). destruct IH. }
    intros Hr. specialize (G _ Hr). cbn in G. intuition discriminate.
Qed.
(** so after loading the first weak reference is alive, the other two are dead *)
Example wk_C53 : forall p, p <= 5 -> exists ops v' m w1 w2 w3 b1 b2 b3 t1 t2 t3,
  dumps p wk_heap 40 (VR 0) = Ok ops /\ loads ops = Some (v', m, []) /\
  follow (nth_error (heap m)) v' [SItem 1] = Some (VR w1) /\ nth_error (heap m) w1 = Some b1 /\ made_by b1 = MRef t1 /\ ~ dead (nth_error (heap m)) v' t1 /\
  follow (nth_error (heap m)) v' [SItem 2] = Some (VR w2) /\ nth_error (heap m) w2 = Some b2 /\ made_by b2 = MRef t2 /\ dead (nth_error (heap m)) v' t2 /\
  follow (nth_error (heap m)) v' [SItem 3] = Some (VR w3) /\ nth_error (heap m) w3 = Some b3 /\ made_by b3 = MRef t3 /\ dead (nth_error (heap m)) v' t3.
Proof.
  intros p Hp. destruct (wk_dumps p Hp) as (ops & E).
  destruct (C53_weakref p wk_heap 40 (VR 0) ops [SItem 1] 2 (VR 1) 0 wk_wf Hp E eq_refl eq_refl ltac:(discriminate)) as (v' & m & w1 & b1 & t1 & L & F1 & W1 & M1 & D1 & _).
  destruct (C53_weakref p wk_heap 40 (VR 0) ops [SItem 2] 3 (VR 4) 0 wk_wf Hp E eq_refl eq_refl ltac:(discriminate)) as (v2 & m2 & w2 & b2 & t2 & L2 & F2 & W2 & M2 & D2 & _).
  destruct (C53_weakref p wk_heap 40 (VR 0) ops [SItem 3] 5 vNone 0 wk_wf Hp E eq_refl eq_refl ltac:(intros ? ? X; injection X; auto)) as (v3 & m3 & w3 & b3 & t3 & L3 & F3 & W3 & M3 & D3 & _).
  rewrite L in L2, L3. injection L2 as <- <-. injection L3 as <- <-.
  exists ops, v', m, w1, w2, w3, b1, b2, b3, t1, t2, t3. destruct wk_strong as [S1 S4].
  split; [auto|]. split; [auto|]. split; [auto|]. split; [auto|]. split; [auto|]. split.
  { intros D. apply D1 in D as [D|(o & Ho & D)]; [discriminate|]. injection Ho as <-. contradiction. }
  split; [auto|]. split; [auto|]. split; [auto|]. split; [apply D2; right; exists 4; auto|].
  split; [auto|]. split; [auto|]. split; [auto|]. apply D3. left. reflexivity.
Qed.
(** the view and the cached function of the example *)
Example wk_view_lru : wk_heap 7 = Some (view_obj VItems 6) /\ follow wk_heap (VR 0) [SItem 5] = Some (VR 7) /\ follow wk_heap (VR 0) [SItem 4] = Some (VR 6) /\
  shown VItems [(num 2, VR 1); (str "b", VR 6); (num 0, num 7)] = [[num 2; VR 1]; [str "b"; VR 6]; [num 0; num 7]] /\
  wk_heap 8 = Some (fst (lru_saved vNone (num 1) 9 (VA (AGlob (GUser "m.f")) 0))) /\ snd (lru_saved vNone (num 1) 9 (VA (AGlob (GUser "m.f")) 0)) = wk_heap 9.
Proof. repeat split. Qed.

(** on Python 3.8 the loaded wrapper never has typed=True: whatever the setting was, the configuration read from what is saved is typed=False *)
Theorem C53_lru38_refuted ms fn r : exists b shim, lru_saved38 ms r fn = (b, Some shim) /\
  forall hp, hp r = Some shim -> exists ms', lru_config hp b = Some (ms', VA (AScalar 0) 0, fn).
Proof. unfold lru_saved38. eexists _, _. split; [reflexivity|]. intros hp Hr. exists ms. cbn [lru_config]. rewrite Hr. reflexivity. Qed.

(** before Python 3.10 the copied view is not a view of the copied dictionary: a dictionary and its keys pickled together load as a
    dictionary and a view of another one *)
Definition v39_objs : list obj := [
  OList [VR 1; VR 2];
  ODict [(str "a", num 1)];
  view_obj39 VKeys 3;
  ORed false (user "dict.fromkeys") [VR 4] [] [] SNone;
  OList [str "a"] ].
Definition v39_heap (o : oid) : option obj := nth_error v39_objs o.
Theorem C53_view39_refuted : forall p, p <= 5 -> exists ops v' m d' w' x,
  dumps p v39_heap 40 (VR 0) = Ok ops /\ loads ops = Some (v', m, []) /\
  follow (nth_error (heap m)) v' [SItem 0] = Some (VR d') /\ follow (nth_error (heap m)) v' [SItem 1] = Some (VR w') /\
  nth_error (heap m) w' = Some (ORed false (user "dict.keys") [VR x] [] [] SNone) /\ x <> d'.
Proof.
  intros p Hp. assert (p = 0 \/ p = 1 \/ p = 2 \/ p = 3 \/ p = 4 \/ p = 5) as C by lia.
  destruct C as [->|[->|[->|[->|[->| ->]]]]]; eexists _, _, _, _, _, _; (split; [vm_compute; reflexivity|]); (split; [vm_compute; reflexivity|]);
    (split; [vm_compute; reflexivity|]); (split; [vm_compute; reflexivity|]); (split; [vm_compute; reflexivity|discriminate]).
Qed.
