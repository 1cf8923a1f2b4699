(** C15: the bytes of a code object given as text. *)
From Coq Require Import String List Bool ZArith.
From Verif Require Import PyDict CodeModel CodeProps.
Import ListNotations.
Local Open Scope string_scope.

(** C15: the fields that are bytes may come as text (pickled where str was bytes): they are encoded, whatever the versions are.
    [args]: the arguments as they should be; [args']: the same, some bytes replaced by a text of that encoding *)
Definition as_text (utf8 : string -> list nat) (n : string) (x y : cval) : Prop :=
  y = x \/ (In n ["code"; "lnotab"; "linetable"; "endlinetable"; "columntable"; "exceptiontable"] /\ exists s, y = CStr s /\ x = CBytes (utf8 s)).
Fixpoint all_as_text (utf8 : string -> list nat) (ns : list string) (l l' : list cval) : Prop :=
  match ns, l, l' with
  | n :: ns, x :: l, y :: l' => as_text utf8 n x y /\ all_as_text utf8 ns l l'
  | [], [], [] => True
  | _, _, _ => False
  end.
Lemma as_text_other utf8 n x y : memb n ["code"; "lnotab"; "linetable"; "endlinetable"; "columntable"; "exceptiontable"] = false -> as_text utf8 n x y -> y = x.
Proof. intros M [->|[I _]]; [reflexivity|]. apply memb_In in I. congruence. Qed.
Theorem C15_text_fields : forall utf8 v w args args' c b, CodeType v args = Some c -> all_as_text utf8 (params v) args args' ->
  create_code utf8 w (CBytes b :: args') = create_code utf8 w (CBytes b :: args) /\
  create_code utf8 w args' = create_code utf8 w args.
Proof.
  intros utf8 v w args args' c b Hc T. unfold CodeType in Hc. destruct (Nat.eqb_spec (length args) (length (params v))) as [Hn|]; [|discriminate].
  cbn [andb] in Hc. destruct (forallb _ _) eqn:Hf; [|discriminate]. clear Hc.
  destruct v; (repeat (destruct args as [|? args]; [discriminate Hn|]); destruct args; [|discriminate Hn]); clear Hn;
    cbn [params all_as_text] in T; (repeat (destruct args' as [|? args']; [exfalso; cbn in T; tauto|])); (destruct args'; [|exfalso; cbn in T; tauto]);
    repeat match type of T with as_text _ _ _ _ /\ _ => let H := fresh "A" in destruct T as [H T]; first [apply as_text_other in H; [subst|vm_compute; reflexivity] | idtac] end; clear T.
  all: vm_compute in Hf; repeat match type of Hf with context [match ?x with _ => _ end] => is_var x; destruct x; try discriminate Hf end; clear Hf.
  all: repeat match goal with A : as_text _ _ _ _ |- _ => destruct A as [->|[_ (? & -> & A)]]; [|try discriminate A; injection A as ->] end.
  all: destruct b; destruct w; split; vm_compute; reflexivity.
Qed.
(** the code of [ex310] given as text, loaded on 3.8 *)
Example C15_text_case : let u := fun s => map Ascii.nat_of_ascii (list_ascii_of_string s) in
  let args' := [CInt 1; CInt 0; CInt 0; CInt 1; CInt 2; CInt 67; CStr "|S"; COther 1; COther 2; COther 3; CStr "f.py"; CStr "f"; CInt 10; CStr "t"; COther 4; COther 5] in
  let args := [CInt 1; CInt 0; CInt 0; CInt 1; CInt 2; CInt 67; CBytes [124; 83]; COther 1; COther 2; COther 3; CStr "f.py"; CStr "f"; CInt 10; CBytes [116]; COther 4; COther 5] in
  all_as_text u (params V310) args args' /\ (exists c, CodeType V310 args = Some c) /\
  create_code u V38 args' = create_code u V38 args /\ (exists c, create_code u V38 args' = Some c /\ get "code" c = Some (CBytes [124; 83])).
Proof.
  cbn beta zeta. split; [|split; [|split]].
  - cbn [all_as_text params]. repeat split; try (left; reflexivity); right; (split; [cbn; tauto|eexists; split; reflexivity]).
  - eexists. reflexivity.
  - vm_compute. reflexivity.
  - eexists. split; vm_compute; reflexivity.
Qed.
