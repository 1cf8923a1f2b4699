(** C67: refutations and examples. *)
From Coq Require Import String Ascii List Bool Arith NArith.
From Verif Require Import PyDict NamesModel DescrModel CheckModel DumpsourceModel DumpsourceProps BytesModel CoreModel.
Import ListNotations.
Local Open Scope string_scope.

Definition chr (n : nat) : string := String (ascii_of_nat n) "".
(** REFUTED, new=True: the name of the module is written in the pickle with its length, which is not replaced: the pickle of an object of a class of the
    module mod (SHORT_BINUNICODE mod, MEMOIZE, SHORT_BINUNICODE C, MEMOIZE, STACK_GLOBAL ...), when the text runs in __main__, names the module __m,
    and the rest of the name is read as opcodes *)
Theorem C67_new_length_refuted : let b := chr 140 ++ chr 3 ++ "mod" ++ chr 148 ++ chr 140 ++ chr 1 ++ "C" ++ chr 148 ++ chr 147 ++ ")" ++ chr 129 ++ "." in
  let b' := replace "mod" "__main__" b in
  lex (bytes_of b) = Some (SHORT_BINUNICODE "mod", bytes_of (chr 148 ++ chr 140 ++ chr 1 ++ "C" ++ chr 148 ++ chr 147 ++ ")" ++ chr 129 ++ ".")) /\
  lex (bytes_of b') = Some (SHORT_BINUNICODE "__m", bytes_of ("ain__" ++ chr 148 ++ chr 140 ++ chr 1 ++ "C" ++ chr 148 ++ chr 147 ++ ")" ++ chr 129 ++ ".")).
Proof. vm_compute. split; reflexivity. Qed.
(** REFUTED, new=True: data that happens to contain the name of the module is changed: the string 'command', of an object of the module mma *)
Theorem C67_new_data_refuted : replace "mma" "xyz" (chr 140 ++ chr 7 ++ "command") = chr 140 ++ chr 7 ++ "coxyznd".
Proof. vm_compute. reflexivity. Qed.

(** the None of a pickle, and a process that loads only it *)
Definition P0 : proc := Proc (fun b => if String.eqb b "N." then Some 7 else None) "__main__".
Example C67_ex1 : exec P0 (dumpsource "N." "x" ("a = 1" ++ nl) None true) [("y", VObj 1)] = Some [("y", VObj 1); ("x", VObj 7)].
Proof. vm_compute. reflexivity. Qed.
Example C67_ex2 : exec P0 (dumpsource "N." "x" "" None false) [("y", VObj 1)] = Some [("y", VObj 1); ("dill", VDill); ("x", VObj 7)].
Proof. vm_compute. reflexivity. Qed.
Example C67_ex3 : exec P0 (dumpsource "K." "x" ("a = 1" ++ nl) None true) [] = None.
Proof. vm_compute. reflexivity. Qed.
(** a pickle with quotes of both kinds, a backslash, and line ends *)
Example C67_ex4 : let b := "'" ++ chr 34 ++ chr 92 ++ chr 10 ++ "; del x" in
  exec (Proc (fun b' => if String.eqb b' b then Some 9 else None) "m") (dumpsource b "x" ("a = 1" ++ nl) None true) [("x", VObj 1)] = Some [("x", VObj 9)].
Proof. vm_compute. reflexivity. Qed.
