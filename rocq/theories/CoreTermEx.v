(** C07: the hypotheses are met by the example heap, and cannot be dropped. *)
From Coq Require Import String List Bool Arith ZArith Lia.
From Verif Require Import PyDict CoreModel CoreSpec CoreTerm CoreExamples.
Import ListNotations.
Local Open Scope string_scope.
Local Open Scope list_scope.

Lemma trans_rank (E : oid -> oid -> Prop) (rank : oid -> nat) : (forall x y, E x y -> rank y < rank x) ->
  forall x y, trans E x y -> rank y < rank x.
Proof. intros HE x y T. induction T as [x y T|x y z T IH E1]; auto. specialize (HE _ _ E1). lia. Qed.
Lemma acyclic_rank (E : oid -> oid -> Prop) (rank : oid -> nat) : (forall x y, E x y -> rank y < rank x) -> acyclic E.
Proof. intros HE x T. pose proof (trans_rank E rank HE x x T). lia. Qed.

Definition ex_rank (o : oid) : nat := nth o [3; 2; 1; 0; 0; 0; 0; 3; 2; 1; 0; 4; 1; 6; 5; 4] 0.
Definition ex_rank_top (o : oid) : nat := nth o [0; 2; 1; 0; 0; 0; 0; 0; 0; 2; 1; 1; 1; 3; 2; 1] 0.
Lemma ex_needs : acyclic (needs ex_heap).
Proof.
  apply acyclic_rank with (rank := ex_rank). intros x y (b & Hb & Hi).
  do 16 (destruct x as [|x]; [inversion Hb; subst b; cbn in Hi; repeat (destruct Hi as [Hi|Hi]; [try discriminate; inversion Hi; subst; cbn; lia|]); destruct Hi|]).
  unfold ex_heap in Hb. cbn in Hb. destruct x; discriminate.
Qed.
Lemma ex_needs_top : acyclic (needs_top ex_heap).
Proof.
  apply acyclic_rank with (rank := ex_rank_top). intros x y [Hc|((b & Hb & Hi) & Hp)].
  - do 16 (destruct x as [|x]; [inversion Hc; subst; cbn; lia|]). unfold ex_heap in Hc. cbn in Hc. destruct x; discriminate.
  - do 16 (destruct x as [|x]; [inversion Hb; subst b; cbn in Hi, Hp; try contradiction; repeat (destruct Hi as [Hi|Hi]; [try discriminate; inversion Hi; subst; cbn; lia|]); destruct Hi|]).
    unfold ex_heap in Hb. cbn in Hb. destruct x; discriminate.
Qed.
Lemma ex_closed : closed ex_heap (List.seq 0 16).
Proof.
  intros o b v _ Hb Hi.
  do 16 (destruct o as [|o]; [inversion Hb; subst b; cbn in Hi; repeat (destruct Hi as [<-|Hi]; [cbn; auto 30; fail|]); destruct Hi|]).
  unfold ex_heap in Hb. cbn in Hb. destruct o; discriminate.
Qed.
Example ex_depth : forall p fuel, depth_bound 16 <= fuel -> ~ failed (dumps p ex_heap fuel (VR 5)) OutOfFuel.
Proof. intros p fuel Hf. apply (C07_depth p ex_heap (VR 5) (List.seq 0 16) fuel ex_closed); [cbn; auto 8|apply ex_needs|apply ex_needs_top|exact Hf]. Qed.

(** a cell whose contents is a tuple holding the cell: never ends *)
Definition cyc (o : oid) : option obj := match o with 0 => Some (OCell (Some (VR 1))) | 1 => Some (OTup [VR 0]) | _ => None end.
Lemma atom_save p n a i s : memoized a = true -> failed (save p cyc n (VA a i) s) OutOfFuel \/
  exists l, (exists ops, save p cyc n (VA a i) s = Ok (ops, {| memo := memo s ++ l; post := post s |})) /\ (forall k, In k l -> exists b j, k = KAtom b j).
Proof.
  intros Ha. destruct n as [|n]; [left; eexists; reflexivity|]. right. cbn [save]. unfold save_val, save_atom.
  destruct (memo_get (KAtom a i) s) as [x|] eqn:E.
  - exists []. split; [|intros k []]. exists [GET x]. rewrite app_nil_r. destruct s, a; cbn in *; try discriminate; rewrite ?E; reflexivity.
  - exists [KAtom a i]. split; [|intros k [<-|[]]; eauto]. unfold seq, emit, memoize. destruct a; try discriminate; rewrite ?E; eexists; reflexivity.
Qed.
Lemma find_none k l : ~ In k l -> forall i, find_key k l i = None.
Proof. induction l as [|k' l IH]; cbn [find_key]; auto. intros Hn i. destruct (key_eq_dec k k') as [->|]; [exfalso; apply Hn; left; auto|]. apply IH. intros X; apply Hn; right; auto. Qed.
Theorem C07_cell_needs_itself : forall p n, failed (dumps p cyc n (VR 0)) OutOfFuel.
Proof.
  intros p n.
  assert (G : forall n s, post s = [] -> (forall k, In k (memo s) -> exists b j, k = KAtom b j) ->
               failed (save p cyc n (VR 0) s) OutOfFuel /\ failed (save p cyc n (VR 1) s) OutOfFuel).
  { clear n. induction n as [|n IH]; intros s Hp Hm; [split; eexists; reflexivity|].
    assert (M : forall o, memo_get (KObj o) s = None).
    { intros o. cbn [memo_get]. apply find_none. intros X. destruct (Hm _ X) as (b & j & Y). discriminate. }
    cbn [save]. unfold save_val. rewrite !M. cbn [cyc save_obj]. split.
    - unfold save_cell. rewrite Hp. cbn [map memb existsb]. unfold save_reduce, red_call, red_memo. cbv beta iota.
      unfold seq at 1. unfold seq at 1. destruct (atom_save p n (AGlob GCreateCell) 0 s eq_refl) as [[sf E]|(l & (ops & E) & Hl)].
      + change (g_ GCreateCell) with (VA (AGlob GCreateCell) 0). rewrite E. eexists; reflexivity.
      + change (g_ GCreateCell) with (VA (AGlob GCreateCell) 0). rewrite E.
        set (s1 := {| memo := memo s ++ l; post := post s |}).
        assert (F : failed (save p cyc n (VR 1) s1) OutOfFuel).
        { apply IH; auto. intros k Hk. cbn in Hk. apply in_app_iff in Hk as [Hk|Hk]; auto. }
        destruct F as [sf F]. unfold seq at 1, save_tuple. destruct (_ && _); cbn [seqs save_arg]; unfold seq; cbn [emit]; rewrite F; eexists; reflexivity.
    - unfold save_tuple. cbn [map]. assert (F : failed (save p cyc n (VR 0) s) OutOfFuel) by (apply IH; auto). destruct F as [sf F].
      destruct (_ && _); cbn [seqs save_arg]; unfold seq; cbn [emit]; rewrite F; eexists; reflexivity. }
  unfold dumps, dump. destruct (proj1 (G n {| memo := []; post := [] |} eq_refl ltac:(intros k []))) as [sf ->]. eexists; reflexivity.
Qed.
