(** C31: dump_module and the session file. *)
From Coq Require Import String List Bool Arith NArith.
From Verif Require Import PyDict SafeOpenModel DumpModuleModel DumpModuleProofs.
Import ListNotations.

(** C31, what holds.  For every run (any chunks, any buffering, failing or crashing at any point):
    - if the arguments are wrong or the file cannot be opened (e.g. a symlink) nothing changes;
    - otherwise the path holds exactly the bytes written so far (after a crash: a prefix of them),
      the file object opened is closed (unless the process died), no other file is touched.
    Missing: the previous session's contents are not kept when pickling fails. *)
Theorem C31_dump_module_effect_partial : forall umask r f o h f',
  dump_to_path umask r f = (o, h, f') ->
  match h with
  | None => f' = f /\ ((exists n, o = Raised (ArgError n)) \/ (exists e, o = Raised (OpenError e)))
  | Some h =>
    at_path f' = Reg (h_ino h) /\
    (forall j, j <> h_ino h -> get j (inodes f') = get j (inodes f)) /\
    match o with
    | Crashed => exists d rest, content (h_ino h) f' = Some d /\ written r = d ++ rest
    | _ => content (h_ino h) f' = Some (written r) /\ h_closed h = true
    end
  end.
Proof. exact dump_path_spec. Qed.
Print Assumptions C31_dump_module_effect_partial.

(** a stream given by the caller is never closed; everything written goes after what was there *)
Theorem C31_stream_not_closed : forall r s o s', dump_to_stream r s = (o, s') ->
  s_closed s' = s_closed s /\
  (s' = s /\ (exists n, o = Raised (ArgError n)) \/ s_data s' = s_data s ++ written r).
Proof. exact dump_stream_spec. Qed.
Print Assumptions C31_stream_not_closed.

(** C31 is false as far as the previous session is concerned: an unpicklable object found after any
    number of writes leaves a truncated file in place of the old session. *)
Theorem C31_previous_session_lost_refuted : exists umask r f i old f' h,
  at_path f = Reg i /\ content i f = Some old /\ old <> [] /\
  dump_to_path umask r f = (Raised (PickleFailed 0), Some h, f') /\
  at_path f' = Reg i /\ content i f' = Some [].
Proof.
  exists 18%N, {| arg_error := None; chunks := [([1; 2], 0)]; fail := Some (0, 0); crash := None |},
    {| at_path := Reg 1; inodes := [(1, {| data := [8; 9; 46]; perm := 384 |})] |}, 1, [8; 9; 46].
  do 2 eexists. repeat split; try reflexivity. discriminate.
Qed.
Print Assumptions C31_previous_session_lost_refuted.

Example C31_nonvacuous :
  let f := {| at_path := Reg 1; inodes := [(1, {| data := [8; 9; 46]; perm := 384 |})] |} in
  let r := {| arg_error := None; chunks := [([1; 2], 1); ([3; 4], 2)]; fail := None; crash := None |} in
  dump_to_path 18 r f = (Returned, Some {| h_ino := 1; h_buf := []; h_closed := true |},
     {| at_path := Reg 1; inodes := [(1, {| data := [1; 2; 3; 4]; perm := 384 |})] |}).
Proof. reflexivity. Qed.

(** The outcome, in terms of the run alone: dump_module returns exactly if pickling succeeds, and then the file holds everything the pickler
    wrote and nothing else; if pickling raises after k writes that exception comes out and the file holds the first k writes; after a crash the
    file holds a prefix of what was written by then. *)
Theorem C31_outcome : forall umask r f o h f',
  dump_to_path umask r f = (o, Some h, f') ->
  arg_error r = None /\
  match crash r, fail r with
  | None, None => o = Returned /\ content (h_ino h) f' = Some (concat (map fst (chunks r)))
  | None, Some (k, n) => o = Raised (PickleFailed n) /\ content (h_ino h) f' = Some (concat (map fst (firstn k (chunks r))))
  | Some k, _ => o = Crashed /\ exists d rest, content (h_ino h) f' = Some d /\ concat (map fst (firstn k (chunks r))) = d ++ rest
  end.
Proof.
  intros umask r f o h f' H. pose proof (dump_path_spec umask r f o (Some h) f' H) as S. cbn beta iota in S. destruct S as (_ & _ & S).
  assert (A : arg_error r = None). { unfold dump_to_path in H. destruct (arg_error r); [inversion H|reflexivity]. }
  assert (O : o = match crash r with Some _ => Crashed | None => match fail r with Some (_, n) => Raised (PickleFailed n) | None => Returned end end).
  { unfold dump_to_path in H. rewrite A in H. destruct (_safe_open_for_writing true umask (fun f => f) (fun f => f) f) as [[i f1]|e]; [|inversion H].
    destruct (do_writes _ _ _) as [h1 f2]. destruct (crash r); [inversion H; auto|]. destruct (h_close h1 f2) as [h3 f3].
    destruct (fail r) as [[k n]|]; inversion H; auto. }
  split; [exact A|]. unfold written, executed in S.
  destruct (crash r) as [k|] eqn:C.
  - subst o. split; [reflexivity|]. destruct S as (d & rest & S1 & S2). exists d. rewrite S1.
    set (n := match fail r with Some (k0, _) => Nat.min (length (chunks r)) k0 | None => length (chunks r) end) in *.
    exists (rest ++ concat (map fst (skipn (Nat.min n k) (firstn k (chunks r))))). split; [reflexivity|].
    rewrite app_assoc, <- S2. rewrite <- concat_app, <- map_app. do 2 f_equal.
    replace (firstn (Nat.min n k) (chunks r)) with (firstn (Nat.min n k) (firstn k (chunks r))) by (rewrite firstn_firstn; f_equal; apply Nat.min_l; apply Nat.le_min_r).
    symmetry. apply firstn_skipn.
  - destruct (fail r) as [[k n]|]; subst o; (split; [reflexivity|]); destruct S as [S _]; rewrite S.
    + f_equal. do 2 f_equal. destruct (Nat.le_ge_cases (length (chunks r)) k) as [L|L].
      * rewrite Nat.min_l by auto. rewrite !firstn_all2; auto.
      * rewrite Nat.min_r by auto. reflexivity.
    + rewrite firstn_all. reflexivity.
Qed.
Print Assumptions C31_outcome.

(** the same for a stream: exactly the pickler's writes are added *)
Theorem C31_stream_outcome : forall r s o s', arg_error r = None -> dump_to_stream r s = (o, s') ->
  match crash r, fail r with
  | None, None => o = Returned /\ s_data s' = s_data s ++ concat (map fst (chunks r))
  | None, Some (k, n) => o = Raised (PickleFailed n) /\ s_data s' = s_data s ++ concat (map fst (firstn k (chunks r)))
  | Some _, _ => o = Crashed
  end.
Proof.
  intros r s o s' A H. unfold dump_to_stream in H. rewrite A in H. unfold executed in H. destruct (crash r) as [k|]; [inversion H; auto|].
  destruct (fail r) as [[k n]|]; inversion H; subst; (split; [reflexivity|]); cbn [s_data]; f_equal.
  - do 2 f_equal. destruct (Nat.le_ge_cases (length (chunks r)) k) as [L|L].
    + rewrite Nat.min_l by auto. rewrite !firstn_all2; auto.
    + rewrite Nat.min_r by auto. reflexivity.
  - rewrite firstn_all. reflexivity.
Qed.
Print Assumptions C31_stream_outcome.
