(** A concrete source heap meeting the hypotheses of C01-C06: a list that contains itself, a function
    that refers to itself through its closure and through a non-module globals dictionary, an empty
    cell, a class whose method refers to the class through its closure, and a set one of whose elements refers to it. *)
From Coq Require Import String List Bool Arith ZArith Lia.
From Verif Require Import PyDict CoreModel CoreSpec CoreProps.
Import ListNotations.
Local Open Scope string_scope.
Local Open Scope list_scope.

Definition str (s : string) := VA (AStr s) 0.
Definition ex_objs : list obj := [
  (* 0: def f: closure (cell of f, empty cell), own globals *)
  OFun (VA (AGlob (GUser "code_f")) 0) (GCopy 3 (str "m")) (str "f") vNone (VR 1) (SAttrs [] (Some [(str "__doc__", str "recursive")]));
  (* 1 *) OTup [VR 2; VR 6];
  (* 2 *) OCell (Some (VR 0));
  (* 3: the globals of f and h *) ODict [(str "__name__", str "m"); (str "h", VR 4); (str "f", VR 0); (str "data", VR 5)];
  (* 4: def h *) OFun (VA (AGlob (GUser "code_h")) 0) (GCopy 3 (str "m")) (str "h") vNone vNone (SAttrs [] (Some []));
  (* 5: the root, a list containing itself *) OList [VR 5; VR 0; VR 7; VR 11; VR 4; VR 12; VR 13];
  (* 6 *) OCell None;
  (* 7: class C *) OType (VA (AGlob (GUser "type")) 0) (str "C") (VA AEmptyTuple 0) [(str "meth", VR 8); (str "x", VA (AScalar 3) 0)] (str "outer.C");
  (* 8: its method *) OFun (VA (AGlob (GUser "code_m")) 0) (GRef (AModDict "__main__")) (str "meth") vNone (VR 9) (SAttrs [] (Some []));
  (* 9 *) OTup [VR 10];
  (* 10 *) OCell (Some (VR 7));
  (* 11: an instance of C holding itself *) ORed true (VR 7) [] [] [] (SAttrs [(str "self", VR 11); (str "l", VR 5)] None);
  (* 12: an instance of an importable class, with items of both kinds among which it is itself, and state *)
  ORed true (VA (AGlob (GUser "lib.Both")) 0) [str "arg"] [VR 12; VR 5; VA (AScalar 3) 0] [(str "me", VR 12); (str "f", VR 0)] (SAttrs [(str "l", VR 11)] None);
  (* 13: a set: an instance that refers to the set, a frozenset, a string *) OSet false [VR 15; VR 14; str "a"];
  (* 14: a frozenset that shares two elements with the set *) OSet true [str "a"; VR 15];
  (* 15 *) ORed true (VR 7) [] [] [] (SAttrs [(str "home", VR 13)] None) ].
Definition ex_heap (o : oid) : option obj := nth_error ex_objs o.

Ltac kd := repeat match goal with
  | |- _ /\ _ => split
  | |- True => exact I
  | |- keys_distinct _ => cbn [keys_distinct]
  | |- forall _ _, In _ _ -> _ => intros ? ?; cbn [In]; intro
  | Hx : _ \/ _ |- _ => destruct Hx as [Hx|Hx]
  | Hx : (_, _) = (_, _) |- _ => inversion Hx; subst; clear Hx
  | Hx : False |- _ => destruct Hx
  | |- elems_distinct _ => cbn [elems_distinct]
  | |- forall _, In _ _ -> _ => intros ?; cbn [In]; intro
  | Hx : _ = ?v |- _ => is_var v; subst v
  | |- keyeq _ _ = _ => reflexivity
  end.
Lemma ex_wf : heap_wf ex_heap.
Proof.
  assert (F : Forall (obj_wf ex_heap) ex_objs).
  { unfold ex_objs. repeat (apply Forall_cons; [unfold obj_wf, state_wf|]); try apply Forall_nil; kd; try (eexists; reflexivity); discriminate. }
  assert (F2 : forall o b, nth_error ex_objs o = Some b -> items_once ex_heap o b).
  { intros o b Ho. do 16 (destruct o as [|o]; [injection Ho as <-; try exact I; intros v [<-|[<-|[]]] Hr; inversion Hr|]). destruct o; discriminate. }
  intros o b Ho. split; [rewrite Forall_forall in F; apply F; eapply nth_error_In; exact Ho|exact (F2 o b Ho)].
Qed.

(** every protocol can dump it *)
Example ex_dumps : forall p, p <= 5 -> exists ops, dumps p ex_heap 40 (VR 5) = Ok ops.
Proof.
  intros p Hp. assert (p = 0 \/ p = 1 \/ p = 2 \/ p = 3 \/ p = 4 \/ p = 5) as C by lia.
  destruct C as [->|[->|[->|[->|[->| ->]]]]]; eexists; vm_compute; reflexivity.
Qed.

(** the paths to the function and back through its closure, and the two functions sharing globals *)
Example ex_paths :
  follow ex_heap (VR 5) [SItem 1; SClosure; SItem 0; SContents] = Some (VR 0) /\
  follow ex_heap (VR 5) [SItem 1; SGlobal (AStr "f")] = Some (VR 0) /\
  follow ex_heap (VR 5) [SItem 2; SClsVal 0; SClosure; SItem 0; SContents] = Some (VR 7) /\
  follow ex_heap (VR 5) [SItem 0; SItem 0] = Some (VR 5) /\
  follow ex_heap (VR 5) [SItem 4] = Some (VR 4) /\
  follow ex_heap (VR 5) [SItem 5; SItem 0; SValue 0; SKey 1] = Some (str "f") /\
  follow ex_heap (VR 5) [SItem 6; SItem 1; SItem 1; SAttr 0; SItem 0] = Some (VR 15).
Proof. repeat split. Qed.

(** so C06 fails for a concrete dump under every protocol *)
Example ex_C06 : forall p, p <= 5 -> exists ops v' m x y gx gy mx my cx nx dx lx sx cy ny dy ly sy,
  dumps p ex_heap 40 (VR 5) = Ok ops /\ loads ops = Some (v', m, []) /\
  follow (nth_error (heap m)) v' [SItem 1] = Some (VR x) /\ follow (nth_error (heap m)) v' [SItem 4] = Some (VR y) /\
  nth_error (heap m) x = Some (OFun cx (GCopy gx mx) nx dx lx sx) /\
  nth_error (heap m) y = Some (OFun cy (GCopy gy my) ny dy ly sy) /\ gx <> gy.
Proof.
  intros p Hp. destruct (ex_dumps p Hp) as (ops & E). assert (N04 : 0 <> 4) by discriminate.
  destruct (C01_roundtrip p ex_heap 40 (VR 5) ops ex_wf Hp E) as (v' & m & L & I0).
  destruct (C06_copied_globals_refuted ex_heap (VR 5) (heap m) v' [SItem 1] [SItem 4] 0 4 3 (str "m") (str "m") _ _ _ _ _ _ _ _ _ _ ex_wf I0 eq_refl eq_refl N04 eq_refl eq_refl)
    as (x & y & gx & gy & mx & my & cx & nx & dx & lx & sx & cy & ny & dy & ly & sy & A).
  exists ops, v', m, x, y, gx, gy, mx, my, cx, nx, dx, lx, sx, cy, ny, dy, ly, sy. split; auto.
Qed.
