(** C25, C26: how session files are opened. *)
From Coq Require Import String List Bool Arith NArith.
From Verif Require Import PyDict SafeOpenModel SafeOpenProofs.
Import ListNotations.

(** C25 (writing), with O_NOFOLLOW (every POSIX system): whatever other processes do between the
    system calls, if opening succeeds then at that instant the path itself was the opened regular
    file -- never a symbolic link -- and the opening changed no other file. *)
Theorem C25_write_never_through_symlink : forall umask adv1 adv2 f i f',
  _safe_open_for_writing true umask adv1 adv2 f = Ok (i, f') ->
  at_path f' = Reg i /\
  forall k, k <> i -> get k (inodes f') = get k (inodes f) \/ get k (inodes f') = get k (inodes (adv2 (adv1 f))).
Proof.
  intros umask a1 a2 f i f' H. split; [exact (write_safe umask a1 a2 f i f' H) | exact (write_frame umask a1 a2 f i f' H)].
Qed.
Print Assumptions C25_write_never_through_symlink.

(** C25 (reading) *)
Theorem C25_read_never_through_symlink : forall umask adv f i f',
  _safe_open_for_reading true umask adv f = Ok (i, f') -> f' = adv f /\ at_path f' = Reg i.
Proof. exact read_safe. Qed.
Print Assumptions C25_read_never_through_symlink.

(** Without O_NOFOLLOW (platforms where the flag is missing): guaranteed only when nobody interferes *)
Theorem C25_no_nofollow_partial : forall umask f i f',
  (_safe_open_for_writing false umask no_adv no_adv f = Ok (i, f') -> at_path f' = Reg i) /\
  (_safe_open_for_reading false umask no_adv f = Ok (i, f') -> at_path f' = Reg i).
Proof. intros umask f i f'. split; [apply write_safe_quiet | apply read_safe_quiet]. Qed.
Print Assumptions C25_no_nofollow_partial.

(** ... and false otherwise: a link put in place after the check is followed and its target truncated *)
Theorem C25_no_nofollow_refuted : exists umask adv1 adv2 f i f',
  _safe_open_for_writing false umask adv1 adv2 f = Ok (i, f') /\
  at_path f' = Link (Some i) /\
  get i (inodes f) = Some {| data := [1; 2; 3]; perm := 420 |} /\
  get i (inodes f') = Some {| data := []; perm := 420 |}.
Proof.
  exists 18%N, no_adv, (fun f => {| at_path := Link (Some 2); inodes := inodes f |}),
    {| at_path := Reg 1; inodes := [(1, {| data := []; perm := 384 |}); (2, {| data := [1; 2; 3]; perm := 420 |})] |}, 2.
  eexists. repeat split; reflexivity.
Qed.
Print Assumptions C25_no_nofollow_refuted.

Example C25_nonvacuous :
  let f := {| at_path := Reg 1; inodes := [(1, {| data := [7]; perm := 384 |}); (2, {| data := [1; 2; 3]; perm := 420 |})] |} in
  _safe_open_for_writing true 18 no_adv no_adv f =
    Ok (1, {| at_path := Reg 1; inodes := [(1, {| data := []; perm := 384 |}); (2, {| data := [1; 2; 3]; perm := 420 |})] |}) /\
  _safe_open_for_writing true 18 no_adv (fun f => {| at_path := Link (Some 2); inodes := inodes f |}) f = Err LoopError /\
  _safe_open_for_reading true 18 no_adv f = Ok (1, f).
Proof. repeat split; reflexivity. Qed.

(** C26, the part that holds: a file created by dump_module (nothing at the path) has permissions
    0600 less the umask, whatever the adversary does. *)
Theorem C26_created_private_partial : forall umask adv1 adv2 f, at_path f = Absent ->
  forall nf, exists i f',
  _safe_open_for_writing nf umask adv1 adv2 f = Ok (i, f') /\ at_path f' = Reg i /\
  get i (inodes f) = None /\ get i (inodes f') = Some {| data := []; perm := N.ldiff 384 umask |}.
Proof. exact write_created. Qed.
Print Assumptions C26_created_private_partial.

(** C26 is false for a file that exists already: its permissions are kept, whatever they are. *)
Theorem C26_existing_keeps_mode_refuted : forall umask f i nd nf,
  at_path f = Reg i -> get i (inodes f) = Some nd ->
  exists f', _safe_open_for_writing nf umask no_adv no_adv f = Ok (i, f') /\
    get i (inodes f') = Some {| data := []; perm := perm nd |}.
Proof. exact write_existing. Qed.
Print Assumptions C26_existing_keeps_mode_refuted.

(** a world-writable (0666 = 438) session file stays world-writable *)
Example C26_witness :
  let f := {| at_path := Reg 1; inodes := [(1, {| data := [7]; perm := 438 |})] |} in
  exists f', _safe_open_for_writing true 18 no_adv no_adv f = Ok (1, f') /\
             get 1 (inodes f') = Some {| data := []; perm := 438 |}.
Proof. eexists. split; reflexivity. Qed.
