(** The bytes of concrete pickles: those CPython 3.11 writes for a list that contains itself, and the pickles of CoreExamples. *)
From Coq Require Import String Ascii List Bool Arith NArith ZArith Lia.
From Verif Require Import PyDict CoreModel CoreSpec CoreProps CoreExamples BytesModel BytesProps.
Import ListNotations.

(** all of what follows PROTO in one frame (protocol 4 and later) *)
Definition one_frame (proto : nat) (l : list rop) : option (list N) :=
  if (proto <? 4)%nat then enc_all l
  else match l with
       | ROp (PROTO p) :: l => match enc (ROp (PROTO p)), enc_all l with
                               | Some a, Some b => match enc (FRAME (N.of_nat (length b))) with Some f => Some (a ++ f ++ b) | None => None end
                               | _, _ => None end
       | _ => None
       end.
Lemma one_frame_pickled proto l b : (2 <= length l)%nat -> one_frame proto l = Some b -> pickled proto l b.
Proof.
  unfold one_frame. intros L E. destruct (proto <? 4)%nat eqn:P; [apply Nat.ltb_lt in P; apply pk_plain; auto|]. apply Nat.ltb_ge in P.
  destruct l as [|r l]; [discriminate|]. destruct r as [o| | | | | | | | | | | | | | | | | | | | | | | | |]; try discriminate. destruct o as [p| | | | |a| | |n| | | | | | | | |i|i| | | | | | |]; try discriminate.
  destruct (enc (ROp (PROTO p))) as [a|] eqn:E1; [|discriminate]. destruct (enc_all l) as [c|] eqn:E2; [|discriminate].
  destruct (enc (FRAME (N.of_nat (length c)))) as [f|] eqn:E3; [|discriminate]. injection E as <-. apply pk_framed; auto.
  replace l with (l ++ []) by apply app_nil_r. replace c with (c ++ []) at 1 by apply app_nil_r.
  replace (f ++ c ++ []) with (f ++ c ++ ([] : list N)) by reflexivity. eapply fr_frame; [|exact E2|exact E3|constructor]. destruct l; [cbn in L; lia|discriminate].
Qed.
Definition dumped (proto : nat) (naming : atom -> string * string) (reuse : nat -> option nat) (H : oid -> option obj) (fuel : nat) (v : val) : option (list N) :=
  match dumps proto H fuel v with Ok ops => match written proto naming reuse ops with Some l => if (2 <=? length l)%nat then one_frame proto l else None | None => None end | Fail _ _ => None end.
Lemma dumped_ok proto naming reuse H fuel v b : dumped proto naming reuse H fuel v = Some b -> dumps_bytes proto naming H fuel v b.
Proof.
  unfold dumped. intros E. destruct (dumps proto H fuel v) as [ops|] eqn:E1; [|discriminate]. destruct (written proto naming reuse ops) as [l|] eqn:E2; [|discriminate].
  destruct (2 <=? length l)%nat eqn:E3; [|discriminate]. apply Nat.leb_le in E3. exists ops, reuse, l. split; auto. split; auto. apply one_frame_pickled; auto.
Qed.

(** s = 'a\u00e9\n'; l = [s, 300, -5, 2**40, -2**40, -128, 7, None, (), (1, s), {}, {300, 7}, frozenset([s])]; l[10]['k'] = l; l[10][3] = s *)
Definition py_str : string := String "a" (String (ascii_of_N 233) (String (ascii_of_N 10) EmptyString)).
Definition int (z : Z) : val := VA (AScalar z) 0.
Definition py_heap (o : oid) : option obj := nth_error [
  OList [VA (AStr py_str) 0; int 300; int (-5); int (2 ^ 40); int (- 2 ^ 40); int (-128); int 7; VA ANone 0; VA AEmptyTuple 0; VR 1; VR 2; VR 3; VR 4];
  OTup [int 1; VA (AStr py_str) 0];
  ODict [(VA (AStr "k"%string) 0, VR 0); (int 3, VA (AStr py_str) 0)];
  OSet false [int 300; int 7];
  OSet true [VA (AStr py_str) 0] ] o.
(** fix_imports: builtins is called __builtin__ before protocol 3 *)
Definition py_names (p : nat) (a : atom) : string * string :=
  (if Nat.leb 3 p then "builtins" else "__builtin__", match a with AGlob GSet => "set" | AGlob GFrozenset => "frozenset" | _ => "" end)%string.
Local Open Scope N_scope.
(** the bytes below are the output of pickle._dumps(l, protocol), CPython 3.11.7 *)
Example cpython_bytes :
  map (fun p => dumped p (py_names p) (fun _ => None) py_heap 20 (VR 0%nat)) [0; 1; 2; 3; 4; 5]%nat = [
    Some [40; 108; 112; 48; 10; 86; 97; 233; 92; 117; 48; 48; 48; 97; 10; 112; 49; 10; 97; 73; 51; 48; 48; 10; 97; 73; 45; 53; 10; 97; 76; 49; 48; 57; 57; 53; 49; 49; 54; 50; 55; 55; 55; 54; 76; 10; 97; 76; 45; 49; 48; 57; 57; 53; 49; 49; 54; 50; 55; 55; 55; 54; 76; 10; 97; 73; 45; 49; 50; 56; 10; 97; 73; 55; 10; 97; 78; 97; 40; 116; 97; 40; 73; 49; 10; 103; 49; 10; 116; 112; 50; 10; 97; 40; 100; 112; 51; 10; 86; 107; 10; 112; 52; 10; 103; 48; 10; 115; 73; 51; 10; 103; 49; 10; 115; 97; 99; 95; 95; 98; 117; 105; 108; 116; 105; 110; 95; 95; 10; 115; 101; 116; 10; 112; 53; 10; 40; 40; 108; 112; 54; 10; 73; 51; 48; 48; 10; 97; 73; 55; 10; 97; 116; 112; 55; 10; 82; 112; 56; 10; 97; 99; 95; 95; 98; 117; 105; 108; 116; 105; 110; 95; 95; 10; 102; 114; 111; 122; 101; 110; 115; 101; 116; 10; 112; 57; 10; 40; 40; 108; 112; 49; 48; 10; 103; 49; 10; 97; 116; 112; 49; 49; 10; 82; 112; 49; 50; 10; 97; 46];
    Some [93; 113; 0; 40; 88; 4; 0; 0; 0; 97; 195; 169; 10; 113; 1; 77; 44; 1; 74; 251; 255; 255; 255; 76; 49; 48; 57; 57; 53; 49; 49; 54; 50; 55; 55; 55; 54; 76; 10; 76; 45; 49; 48; 57; 57; 53; 49; 49; 54; 50; 55; 55; 55; 54; 76; 10; 74; 128; 255; 255; 255; 75; 7; 78; 41; 40; 75; 1; 104; 1; 116; 113; 2; 125; 113; 3; 40; 88; 1; 0; 0; 0; 107; 113; 4; 104; 0; 75; 3; 104; 1; 117; 99; 95; 95; 98; 117; 105; 108; 116; 105; 110; 95; 95; 10; 115; 101; 116; 10; 113; 5; 40; 93; 113; 6; 40; 77; 44; 1; 75; 7; 101; 116; 113; 7; 82; 113; 8; 99; 95; 95; 98; 117; 105; 108; 116; 105; 110; 95; 95; 10; 102; 114; 111; 122; 101; 110; 115; 101; 116; 10; 113; 9; 40; 93; 113; 10; 104; 1; 97; 116; 113; 11; 82; 113; 12; 101; 46];
    Some [128; 2; 93; 113; 0; 40; 88; 4; 0; 0; 0; 97; 195; 169; 10; 113; 1; 77; 44; 1; 74; 251; 255; 255; 255; 138; 6; 0; 0; 0; 0; 0; 1; 138; 6; 0; 0; 0; 0; 0; 255; 74; 128; 255; 255; 255; 75; 7; 78; 41; 75; 1; 104; 1; 134; 113; 2; 125; 113; 3; 40; 88; 1; 0; 0; 0; 107; 113; 4; 104; 0; 75; 3; 104; 1; 117; 99; 95; 95; 98; 117; 105; 108; 116; 105; 110; 95; 95; 10; 115; 101; 116; 10; 113; 5; 93; 113; 6; 40; 77; 44; 1; 75; 7; 101; 133; 113; 7; 82; 113; 8; 99; 95; 95; 98; 117; 105; 108; 116; 105; 110; 95; 95; 10; 102; 114; 111; 122; 101; 110; 115; 101; 116; 10; 113; 9; 93; 113; 10; 104; 1; 97; 133; 113; 11; 82; 113; 12; 101; 46];
    Some [128; 3; 93; 113; 0; 40; 88; 4; 0; 0; 0; 97; 195; 169; 10; 113; 1; 77; 44; 1; 74; 251; 255; 255; 255; 138; 6; 0; 0; 0; 0; 0; 1; 138; 6; 0; 0; 0; 0; 0; 255; 74; 128; 255; 255; 255; 75; 7; 78; 41; 75; 1; 104; 1; 134; 113; 2; 125; 113; 3; 40; 88; 1; 0; 0; 0; 107; 113; 4; 104; 0; 75; 3; 104; 1; 117; 99; 98; 117; 105; 108; 116; 105; 110; 115; 10; 115; 101; 116; 10; 113; 5; 93; 113; 6; 40; 77; 44; 1; 75; 7; 101; 133; 113; 7; 82; 113; 8; 99; 98; 117; 105; 108; 116; 105; 110; 115; 10; 102; 114; 111; 122; 101; 110; 115; 101; 116; 10; 113; 9; 93; 113; 10; 104; 1; 97; 133; 113; 11; 82; 113; 12; 101; 46];
    Some [128; 4; 149; 79; 0; 0; 0; 0; 0; 0; 0; 93; 148; 40; 140; 4; 97; 195; 169; 10; 148; 77; 44; 1; 74; 251; 255; 255; 255; 138; 6; 0; 0; 0; 0; 0; 1; 138; 6; 0; 0; 0; 0; 0; 255; 74; 128; 255; 255; 255; 75; 7; 78; 41; 75; 1; 104; 1; 134; 148; 125; 148; 40; 140; 1; 107; 148; 104; 0; 75; 3; 104; 1; 117; 143; 148; 40; 77; 44; 1; 75; 7; 144; 40; 104; 1; 145; 148; 101; 46];
    Some [128; 5; 149; 79; 0; 0; 0; 0; 0; 0; 0; 93; 148; 40; 140; 4; 97; 195; 169; 10; 148; 77; 44; 1; 74; 251; 255; 255; 255; 138; 6; 0; 0; 0; 0; 0; 1; 138; 6; 0; 0; 0; 0; 0; 255; 74; 128; 255; 255; 255; 75; 7; 78; 41; 75; 1; 104; 1; 134; 148; 125; 148; 40; 140; 1; 107; 148; 104; 0; 75; 3; 104; 1; 117; 143; 148; 40; 77; 44; 1; 75; 7; 144; 40; 104; 1; 145; 148; 101; 46] ].
Proof. vm_compute. reflexivity. Qed.
(** booleans, floats and bytes: s = b'a\xe9\n'; [True, False, 1.5, -0.0, s, (s, True), b'\x07' * 300, b''] in protocols 3 to 5; [True, 1, False, 0] in
    protocols 0 to 2; [1.5, True] in protocols 1 and 2; as written by pickle._dumps, CPython 3.11.7 *)
Fixpoint sevens (n : nat) : string := match n with O => EmptyString | S n => String (ascii_of_N 7) (sevens n) end.
Definition py_consts (o : oid) : option obj := nth_error [
  OList [VA (ABool true) 0; VA (ABool false) 0; VA (AFloat 4609434218613702656) 0; VA (AFloat 9223372036854775808) 0; VA (ABytes py_str) 0; VR 1%nat; VA (ABytes (sevens 300)) 0; VA (ABytes EmptyString) 1];
  OTup [VA (ABytes py_str) 0; VA (ABool true) 0];
  OList [VA (ABool true) 0; int 1; VA (ABool false) 0; int 0];
  OList [VA (AFloat 4609434218613702656) 0; VA (ABool true) 0] ] o.
Example cpython_constants :
  (map (fun p => dumped p (py_names p) (fun _ => None) py_consts 20 (VR 0%nat)) [3; 4; 5] ++ map (fun p => dumped p (py_names p) (fun _ => None) py_consts 20 (VR 2%nat)) [0; 1; 2] ++
   map (fun p => dumped p (py_names p) (fun _ => None) py_consts 20 (VR 3%nat)) [1; 2])%nat = [
    Some [128; 3; 93; 113; 0; 40; 136; 137; 71; 63; 248; 0; 0; 0; 0; 0; 0; 71; 128; 0; 0; 0; 0; 0; 0; 0; 67; 3; 97; 233; 10; 113; 1; 104; 1; 136; 134; 113; 2; 66; 44; 1; 0; 0; 7; 7; 7; 7; 7; 7; 7; 7; 7; 7; 7; 7; 7; 7; 7; 7; 7; 7; 7; 7; 7; 7; 7; 7; 7; 7; 7; 7; 7; 7; 7; 7; 7; 7; 7; 7; 7; 7; 7; 7; 7; 7; 7; 7; 7; 7; 7; 7; 7; 7; 7; 7; 7; 7; 7; 7; 7; 7; 7; 7; 7; 7; 7; 7; 7; 7; 7; 7; 7; 7; 7; 7; 7; 7; 7; 7; 7; 7; 7; 7; 7; 7; 7; 7; 7; 7; 7; 7; 7; 7; 7; 7; 7; 7; 7; 7; 7; 7; 7; 7; 7; 7; 7; 7; 7; 7; 7; 7; 7; 7; 7; 7; 7; 7; 7; 7; 7; 7; 7; 7; 7; 7; 7; 7; 7; 7; 7; 7; 7; 7; 7; 7; 7; 7; 7; 7; 7; 7; 7; 7; 7; 7; 7; 7; 7; 7; 7; 7; 7; 7; 7; 7; 7; 7; 7; 7; 7; 7; 7; 7; 7; 7; 7; 7; 7; 7; 7; 7; 7; 7; 7; 7; 7; 7; 7; 7; 7; 7; 7; 7; 7; 7; 7; 7; 7; 7; 7; 7; 7; 7; 7; 7; 7; 7; 7; 7; 7; 7; 7; 7; 7; 7; 7; 7; 7; 7; 7; 7; 7; 7; 7; 7; 7; 7; 7; 7; 7; 7; 7; 7; 7; 7; 7; 7; 7; 7; 7; 7; 7; 7; 7; 7; 7; 7; 7; 7; 7; 7; 7; 7; 7; 7; 7; 7; 7; 7; 7; 7; 7; 7; 7; 7; 7; 7; 7; 7; 7; 7; 7; 7; 7; 7; 7; 7; 7; 7; 7; 7; 7; 7; 7; 7; 7; 7; 7; 7; 7; 7; 7; 7; 7; 7; 7; 7; 7; 7; 7; 7; 7; 7; 7; 7; 7; 7; 7; 7; 7; 7; 7; 7; 113; 3; 67; 0; 113; 4; 101; 46];
    Some [128; 4; 149; 89; 1; 0; 0; 0; 0; 0; 0; 93; 148; 40; 136; 137; 71; 63; 248; 0; 0; 0; 0; 0; 0; 71; 128; 0; 0; 0; 0; 0; 0; 0; 67; 3; 97; 233; 10; 148; 104; 1; 136; 134; 148; 66; 44; 1; 0; 0; 7; 7; 7; 7; 7; 7; 7; 7; 7; 7; 7; 7; 7; 7; 7; 7; 7; 7; 7; 7; 7; 7; 7; 7; 7; 7; 7; 7; 7; 7; 7; 7; 7; 7; 7; 7; 7; 7; 7; 7; 7; 7; 7; 7; 7; 7; 7; 7; 7; 7; 7; 7; 7; 7; 7; 7; 7; 7; 7; 7; 7; 7; 7; 7; 7; 7; 7; 7; 7; 7; 7; 7; 7; 7; 7; 7; 7; 7; 7; 7; 7; 7; 7; 7; 7; 7; 7; 7; 7; 7; 7; 7; 7; 7; 7; 7; 7; 7; 7; 7; 7; 7; 7; 7; 7; 7; 7; 7; 7; 7; 7; 7; 7; 7; 7; 7; 7; 7; 7; 7; 7; 7; 7; 7; 7; 7; 7; 7; 7; 7; 7; 7; 7; 7; 7; 7; 7; 7; 7; 7; 7; 7; 7; 7; 7; 7; 7; 7; 7; 7; 7; 7; 7; 7; 7; 7; 7; 7; 7; 7; 7; 7; 7; 7; 7; 7; 7; 7; 7; 7; 7; 7; 7; 7; 7; 7; 7; 7; 7; 7; 7; 7; 7; 7; 7; 7; 7; 7; 7; 7; 7; 7; 7; 7; 7; 7; 7; 7; 7; 7; 7; 7; 7; 7; 7; 7; 7; 7; 7; 7; 7; 7; 7; 7; 7; 7; 7; 7; 7; 7; 7; 7; 7; 7; 7; 7; 7; 7; 7; 7; 7; 7; 7; 7; 7; 7; 7; 7; 7; 7; 7; 7; 7; 7; 7; 7; 7; 7; 7; 7; 7; 7; 7; 7; 7; 7; 7; 7; 7; 7; 7; 7; 7; 7; 7; 7; 7; 7; 7; 7; 7; 7; 7; 7; 7; 7; 7; 7; 7; 7; 7; 7; 7; 7; 7; 7; 7; 7; 7; 7; 7; 7; 7; 7; 7; 7; 7; 7; 7; 7; 148; 67; 0; 148; 101; 46];
    Some [128; 5; 149; 89; 1; 0; 0; 0; 0; 0; 0; 93; 148; 40; 136; 137; 71; 63; 248; 0; 0; 0; 0; 0; 0; 71; 128; 0; 0; 0; 0; 0; 0; 0; 67; 3; 97; 233; 10; 148; 104; 1; 136; 134; 148; 66; 44; 1; 0; 0; 7; 7; 7; 7; 7; 7; 7; 7; 7; 7; 7; 7; 7; 7; 7; 7; 7; 7; 7; 7; 7; 7; 7; 7; 7; 7; 7; 7; 7; 7; 7; 7; 7; 7; 7; 7; 7; 7; 7; 7; 7; 7; 7; 7; 7; 7; 7; 7; 7; 7; 7; 7; 7; 7; 7; 7; 7; 7; 7; 7; 7; 7; 7; 7; 7; 7; 7; 7; 7; 7; 7; 7; 7; 7; 7; 7; 7; 7; 7; 7; 7; 7; 7; 7; 7; 7; 7; 7; 7; 7; 7; 7; 7; 7; 7; 7; 7; 7; 7; 7; 7; 7; 7; 7; 7; 7; 7; 7; 7; 7; 7; 7; 7; 7; 7; 7; 7; 7; 7; 7; 7; 7; 7; 7; 7; 7; 7; 7; 7; 7; 7; 7; 7; 7; 7; 7; 7; 7; 7; 7; 7; 7; 7; 7; 7; 7; 7; 7; 7; 7; 7; 7; 7; 7; 7; 7; 7; 7; 7; 7; 7; 7; 7; 7; 7; 7; 7; 7; 7; 7; 7; 7; 7; 7; 7; 7; 7; 7; 7; 7; 7; 7; 7; 7; 7; 7; 7; 7; 7; 7; 7; 7; 7; 7; 7; 7; 7; 7; 7; 7; 7; 7; 7; 7; 7; 7; 7; 7; 7; 7; 7; 7; 7; 7; 7; 7; 7; 7; 7; 7; 7; 7; 7; 7; 7; 7; 7; 7; 7; 7; 7; 7; 7; 7; 7; 7; 7; 7; 7; 7; 7; 7; 7; 7; 7; 7; 7; 7; 7; 7; 7; 7; 7; 7; 7; 7; 7; 7; 7; 7; 7; 7; 7; 7; 7; 7; 7; 7; 7; 7; 7; 7; 7; 7; 7; 7; 7; 7; 7; 7; 7; 7; 7; 7; 7; 7; 7; 7; 7; 7; 7; 7; 7; 7; 7; 7; 7; 7; 7; 7; 148; 67; 0; 148; 101; 46];
    Some [40; 108; 112; 48; 10; 73; 48; 49; 10; 97; 73; 49; 10; 97; 73; 48; 48; 10; 97; 73; 48; 10; 97; 46];
    Some [93; 113; 0; 40; 73; 48; 49; 10; 75; 1; 73; 48; 48; 10; 75; 0; 101; 46];
    Some [128; 2; 93; 113; 0; 40; 136; 75; 1; 137; 75; 0; 101; 46];
    Some [93; 113; 0; 40; 71; 63; 248; 0; 0; 0; 0; 0; 0; 73; 48; 49; 10; 101; 46];
    Some [128; 2; 93; 113; 0; 40; 71; 63; 248; 0; 0; 0; 0; 0; 0; 136; 101; 46] ].
Proof. vm_compute. reflexivity. Qed.
Local Close Scope N_scope.

(** the names of the functions and classes in CoreExamples, and a loader that finds them *)
Definition ex_naming (a : atom) : string * string :=
  match a with
  | AGlob GCreateCell => ("dill._dill", "_create_cell") | AGlob GSetattr => ("dill._dill", "_setattr") | AGlob GDelattr => ("dill._dill", "_delattr")
  | AGlob GCreateFunction => ("dill._dill", "_create_function") | AGlob GCreateType => ("dill._dill", "_create_type") | AGlob GNewobj => ("copyreg", "__newobj__")
  | AGlob GSet => ("builtins", "set") | AGlob GFrozenset => ("builtins", "frozenset")
  | AGlob (GUser n) => ("lib", n) | ACellEmpty => ("dill._dill", "_CELL_EMPTY") | AModDict m => ("__builtin__", m)
  | _ => ("", "")
  end%string.
Definition ex_find (m n : string) : option atom :=
  if string_dec m "lib" then Some (AGlob (GUser n)) else if string_dec m "__builtin__" then Some (AModDict n)
  else if string_dec m "copyreg" then Some (AGlob GNewobj)
  else if string_dec m "builtins" then (if string_dec n "set" then Some (AGlob GSet) else Some (AGlob GFrozenset))
  else if string_dec n "_create_cell" then Some (AGlob GCreateCell) else if string_dec n "_setattr" then Some (AGlob GSetattr)
  else if string_dec n "_delattr" then Some (AGlob GDelattr) else if string_dec n "_create_function" then Some (AGlob GCreateFunction)
  else if string_dec n "_create_type" then Some (AGlob GCreateType) else if string_dec n "_CELL_EMPTY" then Some ACellEmpty else None.
Lemma ex_importable proto fuel v : importable proto ex_naming ex_find ex_heap fuel v.
Proof. intros ops a _ _. destruct a; try exact I; try reflexivity. destruct g; reflexivity. Qed.
(** the memo entries of names: the string "lib" is the same object each time *)
Definition ex_reuse (p : nat) (k : nat) : option nat := Some (k + p)%nat.
Example ex_bytes : forall p, p <= 5 -> exists b, dumps_bytes p ex_naming ex_heap 40 (VR 5) b /\ (p <= 5 -> 400 <= length b).
Proof.
  intros p Hp. assert (p = 0 \/ p = 1 \/ p = 2 \/ p = 3 \/ p = 4 \/ p = 5) as C by lia.
  destruct C as [->|[->|[->|[->|[->| ->]]]]].
  all: match goal with |- exists b, dumps_bytes ?p _ _ _ _ _ /\ _ =>
    let d := eval vm_compute in (dumped p ex_naming (ex_reuse 3) ex_heap 40 (VR 5)) in
    match d with Some ?b => exists b; split; [apply (dumped_ok p ex_naming (ex_reuse 3)); vm_compute; reflexivity|intros _; apply Nat.leb_le; vm_compute; reflexivity] end end.
Qed.
(** what the theorems say of it: it loads, leaving what follows; no strict prefix does *)
Example ex_bytes_loads : forall p rest, p <= 5 -> exists b v' m, dumps_bytes p ex_naming ex_heap 40 (VR 5) b /\
  loadb ex_find (b ++ rest) = Some (v', m, rest) /\ iso ex_heap (VR 5) (heap m) v' /\ forall k, k < length b -> loadb ex_find (firstn k b) = None.
Proof.
  intros p rest Hp. destruct (ex_bytes p Hp) as (b & D & _).
  destruct (C01_bytes p ex_naming ex_find ex_heap 40 (VR 5) b rest ex_wf Hp (ex_importable _ _ _) D) as (v' & m & L & I0).
  exists b, v', m. split; auto. split; auto. split; auto. intros k Hk.
  apply (C04_bytes p ex_naming ex_find ex_heap 40 (VR 5) b (firstn k b) (skipn k b) ex_wf Hp (ex_importable _ _ _) D).
  - symmetry. apply firstn_skipn.
  - intros X. apply (f_equal (@length N)) in X. rewrite skipn_length in X. cbn in X. lia.
Qed.
(** the memoized names of protocol 4: the second reference to a name may be a GET *)
Example ex_shorter : map (fun r => match dumped 4 ex_naming r ex_heap 40 (VR 5) with Some b => length b | None => 0%nat end) [(fun _ => None); (fun _ => Some 1%nat)] = [696; 630].
Proof. vm_compute. reflexivity. Qed.
