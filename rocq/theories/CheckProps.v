(** C61: check() runs the interpreter on exactly the pickle. *)
From Coq Require Import String Ascii List Bool Arith Lia.
From Verif Require Import CheckModel.
Import ListNotations.
Local Open Scope string_scope.

Fixpoint no_space (s : string) : bool := match s with EmptyString => true | String c s => negb (is_space c) && no_space s end.

Lemma app_assoc_s (a b c : string) : (a ++ b) ++ c = a ++ (b ++ c).
Proof. induction a; cbn; congruence. Qed.
Lemma length_app (a b : string) : String.length (a ++ b) = String.length a + String.length b.
Proof. induction a; cbn; congruence. Qed.

(** ** the words of the message *)
Lemma lstrip_word c s : is_space c = false -> lstrip (String c s) = String c s.
Proof. intros H. cbn. rewrite H. reflexivity. Qed.
Lemma word_app w c r : no_space w = true -> is_space c = true -> word (w ++ String c r) = (w, String c r).
Proof.
  intros N C. induction w as [|a w IH]; cbn [append word].
  - rewrite C. reflexivity.
  - cbn [no_space] in N. apply andb_prop in N as [A B]. apply negb_true_iff in A. rewrite A, (IH B). reflexivity.
Qed.
Lemma split_ws_word n w c r : w <> "" -> no_space w = true -> is_space c = true -> split_ws (S n) (w ++ String c r) = w :: split_ws n (String c r).
Proof.
  intros E N C. destruct w as [|a w]; [congruence|]. cbn [no_space] in N. apply andb_prop in N as [A B]. apply negb_true_iff in A.
  cbn [split_ws append]. rewrite (lstrip_word _ _ A).
  pose proof (word_app (String a w) c r) as W. cbn [append no_space] in W. rewrite A in W. cbn [negb andb] in W. rewrite (W B C). reflexivity.
Qed.

Theorem argv_plain python b : python <> "" -> no_space python = true -> argv python b = [python; "-c"; program_head ++ bytes_repr b ++ "))"].
Proof.
  intros E N. unfold argv, message. cbn [append]. rewrite (split_ws_word 1 python " "%char); [|assumption|assumption|reflexivity].
  reflexivity.
Qed.

(** ** the literal *)
Lemma read_escape q c rest : (q = apos \/ q = dquote) -> read_bytes q (escape q c ++ rest) = put (String c "") (read_bytes q rest).
Proof.
  intros [-> | ->]; destruct c as [[] [] [] [] [] [] [] []]; reflexivity.
Qed.
Lemma put_put a b r : put a (put b r) = put (a ++ b) r.
Proof. destruct r as [[x t]|]; cbn; [|reflexivity]. rewrite app_assoc_s. reflexivity. Qed.
Lemma read_escapes q b rest : (q = apos \/ q = dquote) -> read_bytes q (escapes q b ++ String q rest) = Some (b, rest).
Proof.
  intros Q. induction b as [|c b IH].
  - cbn. rewrite Ascii.eqb_refl. reflexivity.
  - cbn [escapes]. rewrite app_assoc_s, (read_escape q c _ Q), IH. reflexivity.
Qed.
Lemma drop_prefix_app p s : drop_prefix p (p ++ s) = Some s.
Proof. induction p as [|a p IH]; [reflexivity|]. cbn. rewrite Ascii.eqb_refl. exact IH. Qed.
Lemma quote_for_cases b : quote_for b = apos \/ quote_for b = dquote.
Proof. unfold quote_for. destruct (has_char apos b && negb (has_char dquote b)); auto. Qed.

Theorem loaded_repr b : loaded_bytes (program_head ++ bytes_repr b ++ "))") = Some b.
Proof.
  unfold loaded_bytes. rewrite drop_prefix_app. unfold bytes_repr.
  change (("b" ++ String (quote_for b) (escapes (quote_for b) b ++ String (quote_for b) "")) ++ "))")
    with (String "b" (String (quote_for b) ((escapes (quote_for b) b ++ String (quote_for b) "") ++ "))"))).
  cbv iota beta. rewrite app_assoc_s. cbn [append]. rewrite (read_escapes (quote_for b) b "))" (quote_for_cases b)).
  destruct (quote_for_cases b) as [-> | ->]; reflexivity.
Qed.

(** ** C61 *)
(** the command is the given interpreter, -c, and a program that loads exactly the bytes of the pickle *)
Theorem C61_command_partial : forall python b, python <> "" -> no_space python = true ->
  exists prog, argv python b = [python; "-c"; prog] /\ loaded_bytes prog = Some b.
Proof. intros python b E N. eexists. split; [apply (argv_plain python b E N)|apply loaded_repr]. Qed.

(** the interpreter [p] loads the pickle: the program's exit status depends only on the bytes it loads *)
Definition loads_in (M : machine) (p : string) (ok : string -> bool) : Prop :=
  forall prog b, loaded_bytes prog = Some b -> runs M p prog = Some (if ok b then 0 else 1).
(** SUCCESS is printed exactly if the other interpreter loads the pickle *)
Theorem C61_verdict_partial : forall M python ok b, python <> "" -> no_space python = true -> loads_in M python ok ->
  String.length python <= limit M -> 2 <= limit M -> String.length (program_head ++ bytes_repr b ++ "))") <= limit M ->
  check M python true (Some b) = ([if ok b then "SUCCESS" else "LOAD FAILED"], Returns).
Proof.
  intros M python ok b E N L P1 P2 P3. unfold check, call. rewrite (argv_plain python b E N). cbn [existsb].
  destruct (Nat.ltb_spec (limit M) (String.length python)); [lia|]. destruct (Nat.ltb_spec (limit M) (String.length "-c")) as [X|X]; [cbn in X; lia|].
  destruct (Nat.ltb_spec (limit M) (String.length (program_head ++ bytes_repr b ++ "))"))); [lia|]. cbn [orb].
  change (String.eqb "-c" "-c") with true. cbv iota. rewrite (L _ b (loaded_repr b)). destruct (ok b); reflexivity.
Qed.
Theorem C61_dump_failed : forall M python verbose, check M python verbose None = (if verbose then ["DUMP FAILED"] else [], Raises).
Proof. reflexivity. Qed.
(** a check that is not verbose tells nothing: it returns, whether or not the pickle loads *)
Theorem C61_silent : forall M python b n, call M (argv python b) = Some n -> check M python false (Some b) = ([], Returns).
Proof. intros M python b n H. unfold check. rewrite H. reflexivity. Qed.

(** REFUTED: if there is a space in the path of the interpreter, the command is the part before it with the rest as its argument *)
Theorem C61_space_refuted : forall a rest b, a <> "" -> no_space a = true -> rest <> "" -> no_space rest = true ->
  argv (a ++ " " ++ rest) b = [a; rest; "-c " ++ program_head ++ bytes_repr b ++ "))"].
Proof.
  intros a rest b A NA R NR. unfold argv, message.
  replace ((a ++ " " ++ rest) ++ " -c " ++ program_head ++ bytes_repr b ++ "))")
    with (a ++ String " " (rest ++ String " " ("-c " ++ program_head ++ bytes_repr b ++ "))"))).
  2:{ rewrite !app_assoc_s. reflexivity. }
  rewrite (split_ws_word 1 a " "%char); [|assumption|assumption|reflexivity].
  destruct rest as [|c rest]; [congruence|]. pose proof NR as NR'. cbn [no_space] in NR. apply andb_prop in NR as [C D]. apply negb_true_iff in C.
  f_equal. change (split_ws 1 (String " " (String c rest ++ String " " ("-c " ++ program_head ++ bytes_repr b ++ "))"))))
    with (split_ws 1 (String c rest ++ String " " ("-c " ++ program_head ++ bytes_repr b ++ "))"))).
  rewrite (split_ws_word 0 (String c rest) " "%char); [|discriminate|exact NR'|reflexivity]. reflexivity.
Qed.
(** REFUTED: the pickle travels in an argument; above the system's limit (131072 bytes on Linux) check raises, whatever the pickle *)
Lemma escape_length q c : 1 <= String.length (escape q c).
Proof. unfold escape. repeat match goal with |- context [if ?x then _ else _] => destruct x end; cbn; lia. Qed.
Lemma escapes_length q b : String.length b <= String.length (escapes q b).
Proof. induction b as [|c b IH]; cbn [escapes String.length]; [lia|]. rewrite length_app. pose proof (escape_length q c). lia. Qed.
Theorem C61_large_refuted : forall M python verbose b, python <> "" -> no_space python = true -> limit M < String.length b ->
  check M python verbose (Some b) = ([], Raises).
Proof.
  intros M python verbose b E N L. unfold check, call. rewrite (argv_plain python b E N).
  assert (existsb (fun a => Nat.ltb (limit M) (String.length a)) [python; "-c"; program_head ++ bytes_repr b ++ "))"] = true) as ->; [|reflexivity].
  apply existsb_exists. exists (program_head ++ bytes_repr b ++ "))"). split; [cbn; auto|]. apply Nat.ltb_lt.
  rewrite !length_app. unfold bytes_repr. rewrite !length_app. cbn [String.length]. rewrite !length_app. pose proof (escapes_length (quote_for b) b). lia.
Qed.

(** examples *)
Example ex_argv : argv "/usr/bin/python3" ("a'" ++ String (ascii_of_nat 0) "") = ["/usr/bin/python3"; "-c"; "import dill; print(dill.loads(b""a'\x00""))"].
Proof. reflexivity. Qed.
Example ex_argv_space : argv "/my programs/python3" "N." = ["/my"; "programs/python3"; "-c import dill; print(dill.loads(b'N.'))"].
Proof. reflexivity. Qed.
Example ex_verdict : check (Machine 100 (fun p prog => match loaded_bytes prog with Some b => Some (if String.eqb b "N." then 0 else 1) | None => Some 2 end) (fun _ => None))
  "python3" true (Some "N.") = (["SUCCESS"], Returns).
Proof. reflexivity. Qed.
