(** C27: the module name in a session file is identified without consuming it. *)
From Coq Require Import String Ascii List Bool Arith NArith Lia.
From Verif Require Import IdentifyModel IdentifyProofs.
Import ListNotations.
Local Open Scope N_scope.

(** a Python string: code points below 0x110000 (surrogates included) *)
Definition is_str (s : list N) : Prop := Forall (fun c => c < 1114112) s.

(** what a session file begins with, for protocol 0..5 *)
Definition session_start (proto : nat) (flen : N) (name rest : list N) : list N :=
  (header_bytes proto flen name ++ rest)%list.

(** what peek(256) shows of a stream *)
Definition visible (s : stream) : list N := match fst (peek256 s) with Some c => c | None => [] end.

(** For every protocol, every module name and whatever follows, on every peekable stream: if the bytes
    peek shows reach the end of the module name, exactly that name is returned, else UnpicklingError;
    and what can be read from the stream is unchanged either way. *)
Theorem C27_identify : forall proto flen name rest s main_given,
  (proto <= 5)%nat -> flen < 256 ^ 8 -> is_str name -> N.of_nat (length (utf8 name)) < 256 ^ 4 ->
  remaining s = session_start proto flen name rest ->
  (forall d, s <> Unseekable d) ->
  fst (_identify_module s main_given) =
    (if (length (header_bytes proto flen name) <=? length (visible s))%nat then IName name else IUnpicklingError).
Proof.
  intros proto flen name rest s mg Hp Hf Hn Hl Hr Hu.
  assert (Gen : forall chunk k, chunk = firstn k (remaining s) ->
    identify_loop (S (length chunk)) false chunk =
    if (length (header_bytes proto flen name) <=? length chunk)%nat then IName name else IUnpicklingError).
  { intros chunk k ->. rewrite Hr. unfold session_start, header_bytes.
    rewrite (identify_ops _ false name).
    - rewrite firstn_length.
      destruct (Nat.leb_spec (length (flat_map bytes_of (header proto flen name))) k) as [H|H].
      + rewrite (proj2 (Nat.leb_le _ _)); auto. rewrite app_length. lia.
      + rewrite (proj2 (Nat.leb_gt _ _)); auto. lia.
    - now apply header_valid.
    - apply header_no_stop.
    - apply header_scan.
    - lia. }
  unfold _identify_module, visible. destruct s as [data pos|buf rst raw|data].
  - cbn [peek256 fst snd]. apply (Gen _ 256%nat). reflexivity.
  - destruct buf as [|b buf]; cbn [peek256 fst snd].
    + apply (Gen _ raw). reflexivity.
    + apply (Gen _ (length (b :: buf))). cbn [remaining]. rewrite firstn_app, Nat.sub_diag, firstn_O, app_nil_r, firstn_all. reflexivity.
  - destruct (Hu data). reflexivity.
Qed.
(** the stream is not consumed: what remains to be read is unchanged, and a stream that reports a
    position reports the same one *)
Theorem C27_not_consumed : forall s main_given,
  remaining (snd (_identify_module s main_given)) = remaining s /\
  (forall d p, s = Seekable d p -> snd (_identify_module s main_given) = Seekable d p).
Proof.
  intros s mg. unfold _identify_module. destruct s as [data pos|buf rst raw|data].
  - split; [reflexivity|]. intros d p E. injection E as <- <-. reflexivity.
  - split; [|discriminate]. destruct buf; [|reflexivity]. cbn. apply firstn_skipn.
  - split; [reflexivity|discriminate].
Qed.
(** in particular a seekable stream, or a file just opened, shows the header whenever it is within the
    first 256 bytes (a raw read returning at least that much) *)
Theorem C27_first_256 : forall proto flen name rest s main_given,
  (proto <= 5)%nat -> flen < 256 ^ 8 -> is_str name -> N.of_nat (length (utf8 name)) < 256 ^ 4 ->
  remaining s = session_start proto flen name rest ->
  (length (header_bytes proto flen name) <= 256)%nat ->
  match s with
  | Seekable _ _ => True
  | Buffered buf rst raw => buf = [] /\ (256 <= raw)%nat
  | Unseekable _ => False
  end ->
  fst (_identify_module s main_given) = IName name.
Proof.
  intros proto flen name rest s mg Hp Hf Hn Hl Hr H256 Hs.
  rewrite (C27_identify proto flen name rest s mg); auto.
  2: { intros d ->. exact Hs. }
  assert (length (header_bytes proto flen name) <= length (visible s))%nat as Hv.
  { assert (Hlen : (length (header_bytes proto flen name) <= length (remaining s))%nat) by (rewrite Hr; unfold session_start; rewrite app_length; lia).
    unfold visible. destruct s as [data pos|buf rst raw|data]; [| |destruct Hs].
    - cbn [peek256 fst remaining] in *. rewrite firstn_length. lia.
    - destruct Hs as [-> Hraw]. cbn [peek256 fst remaining app] in *. rewrite firstn_length. lia. }
  now rewrite (proj2 (Nat.leb_le _ _)).
Qed.
(** A stream that cannot be peeked: no name, and no error only if the caller named the module. *)
Theorem C27_unpeekable : forall d main_given,
  fst (_identify_module (Unseekable d) main_given) = if main_given then INone else IUnpicklingError.
Proof. reflexivity. Qed.

(** ** any pickle, session or not *)
(** [o] names the function _import_module: GLOBAL with "module name", or a short string *)
Definition names_import (o : opc) : Prop :=
  exists before, match o with
                 | GLOBAL m n => (m ++ [32] ++ n = before ++ text_of "_import_module")%list
                 | SHORT_BINUNICODE s => (s = before ++ text_of "_import_module")%list
                 | _ => False
                 end.
(** [o] is a string *)
Definition is_string (o : opc) (s : list N) : Prop := o = UNICODE s \/ o = BINUNICODE s \/ o = SHORT_BINUNICODE s.

Lemma list_eqb_iff : forall a b, list_eqb a b = true <-> a = b.
Proof.
  induction a as [|x a IH]; intros [|y b]; cbn [list_eqb]; split; try discriminate; auto.
  - intros H. apply andb_true_iff in H as [H1 H2]. apply N.eqb_eq in H1. apply IH in H2. congruence.
  - intros H. injection H as -> ->. apply andb_true_iff. split; [apply N.eqb_refl|]. now apply IH.
Qed.
Lemma endswith_iff : forall s suf, endswith s suf = true <-> exists u, s = (u ++ suf)%list.
Proof.
  intros s suf. unfold endswith. rewrite andb_true_iff, Nat.leb_le, list_eqb_iff. split.
  - intros [H1 H2]. exists (firstn (length s - length suf) s). rewrite <- H2 at 2. symmetry. apply firstn_skipn.
  - intros [u ->]. rewrite app_length. split; [lia|].
    replace (length u + length suf - length suf)%nat with (length u) by lia.
    rewrite skipn_app, Nat.sub_diag, skipn_all. reflexivity.
Qed.
Lemma marks_iff : forall o, marks_import o = true <-> names_import o.
Proof.
  intros o. unfold names_import. destruct o; cbn [marks_import]; try (split; [discriminate|intros [u []]]).
  - apply endswith_iff.
  - apply endswith_iff.
Qed.

Lemma loop_prefix : forall ops tail fuel, Forall valid ops -> Forall (fun o => o <> STOP) ops ->
  Forall (fun o => ~ names_import o) ops -> (length (flat_map bytes_of ops) <= fuel)%nat ->
  exists fuel', (fuel - length (flat_map bytes_of ops) <= fuel')%nat /\
    identify_loop fuel false (flat_map bytes_of ops ++ tail) = identify_loop fuel' false tail.
Proof.
  induction ops as [|o ops IH]; intros tail fuel Hv Hs Hn Hf.
  - exists fuel. cbn. split; [lia|reflexivity].
  - inversion Hv; subst. inversion Hs; subst. inversion Hn; subst. cbn [flat_map] in *. rewrite app_length in *.
    pose proof (bytes_of_nonempty o) as Ho. destruct fuel as [|fuel]; [lia|].
    assert (M : marks_import o = false) by (destruct (marks_import o) eqn:M; [apply marks_iff in M; contradiction|reflexivity]).
    destruct (IH tail fuel) as (g & Hg & E); auto; [lia|]. exists g. split; [lia|].
    rewrite <- E. cbn [identify_loop]. rewrite <- app_assoc, genop_bytes by auto. cbn [negb].
    change (match o with
            | GLOBAL m n => endswith (m ++ [32] ++ n) import_name
            | SHORT_BINUNICODE s => endswith s import_name
            | _ => false end) with (marks_import o). rewrite M. destruct o; try reflexivity; congruence.
Qed.
Lemma loop_found : forall ops tail fuel, Forall valid ops -> Forall (fun o => o <> STOP) ops ->
  Forall (fun o => forall s, ~ is_string o s) ops -> (length (flat_map bytes_of ops) <= fuel)%nat ->
  exists fuel', (fuel - length (flat_map bytes_of ops) <= fuel')%nat /\
    identify_loop fuel true (flat_map bytes_of ops ++ tail) = identify_loop fuel' true tail.
Proof.
  induction ops as [|o ops IH]; intros tail fuel Hv Hs Hn Hf.
  - exists fuel. cbn. split; [lia|reflexivity].
  - inversion Hv; subst. inversion Hs; subst. inversion Hn; subst. cbn [flat_map] in *. rewrite app_length in *.
    pose proof (bytes_of_nonempty o) as Ho. destruct fuel as [|fuel]; [lia|].
    destruct (IH tail fuel) as (g & Hg & E); auto; [lia|]. exists g. split; [lia|].
    rewrite <- E. cbn [identify_loop]. rewrite <- app_assoc, genop_bytes by auto. cbn [negb].
    destruct o; try reflexivity; try congruence; match goal with H : forall s, ~ is_string _ s |- _ => exfalso; eapply H; unfold is_string; eauto end.
Qed.

(** Whatever pickle the stream begins with (opcodes [ops], then STOP): it is taken for the session of the module [s]
    exactly if some opcode names _import_module and [s] is the first string after the first such opcode; any other
    pickle is refused.  [peeked]: what peek shows, at least up to the STOP. *)
Theorem C27_any_pickle : forall ops tail s, Forall valid ops -> Forall (fun o => o <> STOP) ops ->
  let peeked := (flat_map bytes_of (ops ++ [STOP]) ++ tail)%list in
  let found := identify_loop (S (length peeked)) false peeked in
  (found = IName s <->
   exists before imp between o after, ops = (before ++ imp :: between ++ o :: after)%list /\
     Forall (fun o => ~ names_import o) before /\ names_import imp /\
     Forall (fun o => forall s, ~ is_string o s) between /\ is_string o s) /\
  ((forall s, found <> IName s) -> found = IUnpicklingError).
Proof.
  intros ops tail s Hv Hs peeked found.
  (* where the first import is, and the first string after it *)
  assert (D1 : (Forall (fun o => ~ names_import o) ops) \/ exists before imp rest, ops = (before ++ imp :: rest)%list /\
     Forall (fun o => ~ names_import o) before /\ names_import imp).
  { clear. induction ops as [|o ops [IH|(b & i & r & -> & H1 & H2)]]; [left; constructor| |].
    - destruct (marks_import o) eqn:M.
      + right. exists [], o, ops. repeat split; auto. now apply marks_iff.
      + left. constructor; auto. intros N. apply marks_iff in N. congruence.
    - destruct (marks_import o) eqn:M.
      + right. exists [], o, (b ++ i :: r)%list. repeat split; auto. now apply marks_iff.
      + right. exists (o :: b), i, r. repeat split; auto. constructor; auto. intros N. apply marks_iff in N. congruence. }
  assert (D2 : forall l : list opc, (Forall (fun o => forall s, ~ is_string o s) l) \/ exists between o after t, l = (between ++ o :: after)%list /\
     Forall (fun o => forall s, ~ is_string o s) between /\ is_string o t).
  { assert (dec : forall o, (forall s, ~ is_string o s) \/ exists t, is_string o t).
    { intros o. unfold is_string. destruct o; try (left; intros t [H|[H|H]]; discriminate); right; eauto. }
    induction l as [|o l [IH|(b & i & r & t & -> & H1 & H2)]]; [left; constructor| |].
    - destruct (dec o) as [N|[t T]]; [left; constructor; auto|]. right. exists [], o, l, t. auto.
    - destruct (dec o) as [N|[t' T]]; right.
      + exists (o :: b), i, r, t. repeat split; auto.
      + exists [], o, (b ++ i :: r)%list, t'. auto. }
  assert (U1 : forall (P : opc -> Prop) b1 i1 r1 b2 i2 r2, (b1 ++ i1 :: r1 = b2 ++ i2 :: r2)%list ->
     Forall (fun o => ~ P o) b1 -> Forall (fun o => ~ P o) b2 -> P i1 -> P i2 -> b1 = b2 /\ i1 = i2 /\ r1 = r2).
  { intros P b1. induction b1 as [|x b1 IH]; intros i1 r1 [|y b2] i2 r2 E F1 F2 P1 P2; cbn in E.
    - injection E as -> ->. auto.
    - injection E as -> ->. inversion F2; subst. contradiction.
    - injection E as -> <-. inversion F1; subst. contradiction.
    - injection E as -> E. inversion F1; subst. inversion F2; subst. destruct (IH i1 r1 b2 i2 r2 E) as (-> & -> & ->); auto. }
  assert (Stop : forall fu fnd, (0 < fu)%nat -> identify_loop fu fnd (bytes_of STOP ++ tail) = IUnpicklingError).
  { intros [|fu] fnd Hfu; [lia|]. destruct fnd; reflexivity. }
  unfold found. unfold peeked. rewrite flat_map_app.
  destruct D1 as [D1|(before & imp & rest & E & D1 & Di)].
  - (* no import *)
    rewrite <- app_assoc.
    destruct (loop_prefix ops (flat_map bytes_of [STOP] ++ tail)%list (S (length (flat_map bytes_of ops ++ flat_map bytes_of [STOP] ++ tail))) Hv Hs D1) as (g & Hg & ->).
    { rewrite app_length. lia. }
    assert (Hg0 : (0 < g)%nat) by (rewrite app_length in Hg; lia).
    cbn [flat_map app]. change (46 :: tail) with (bytes_of STOP ++ tail)%list. rewrite app_nil_r || idtac.
    rewrite Stop by exact Hg0. split; [|auto]. split; [discriminate|].
    intros (b & i & m & o & a & E & _ & Hi & _). rewrite E in D1. apply Forall_app in D1 as [_ D1]. inversion D1; subst. contradiction.
  - subst ops. apply Forall_app in Hv as [Hv1 Hv2]. inversion Hv2 as [|? ? Vi Vr]; subst. apply Forall_app in Hs as [Hs1 Hs2]. inversion Hs2 as [|? ? Si Sr]; subst.
    set (t2 := (flat_map bytes_of rest ++ (bytes_of STOP ++ []) ++ tail)%list).
    assert (Epk : ((flat_map bytes_of (before ++ imp :: rest) ++ flat_map bytes_of [STOP]) ++ tail)%list =
                  (flat_map bytes_of before ++ bytes_of imp ++ t2)%list).
    { unfold t2. rewrite flat_map_app. cbn [flat_map]. rewrite <- !app_assoc. reflexivity. }
    rewrite Epk.
    destruct (loop_prefix before (bytes_of imp ++ t2)%list (S (length (flat_map bytes_of before ++ bytes_of imp ++ t2))) Hv1 Hs1 D1) as (g & Hg & ->).
    { rewrite app_length. lia. }
    rewrite !app_length in Hg. pose proof (bytes_of_nonempty imp) as Hb.
    destruct g as [|g]; [lia|].
    assert (St : identify_loop (S g) false (bytes_of imp ++ t2) = identify_loop g true t2).
    { cbn [identify_loop]. rewrite genop_bytes by exact Vi. cbn [negb].
      change (match imp with
              | GLOBAL m n => endswith (m ++ [32] ++ n) import_name
              | SHORT_BINUNICODE s => endswith s import_name
              | _ => false end) with (marks_import imp). rewrite (proj2 (marks_iff imp) Di). destruct imp; try reflexivity; congruence. }
    rewrite St. clear St. assert (Hg2 : (length t2 <= g)%nat) by lia.
    destruct (D2 rest) as [N|(between & o & after & t & -> & N & T)].
    + unfold t2 in *. rewrite !app_length in Hg2. cbn [bytes_of length app] in Hg2.
      destruct (loop_found rest ((bytes_of STOP ++ []) ++ tail)%list g Vr Sr N) as (g' & Hg' & ->); [lia|].
      rewrite app_nil_r. rewrite Stop by lia. split; [|auto]. split; [discriminate|].
      intros (b & i & m & o & a & E & Hb1 & Hi & Hm & Ho). destruct (U1 names_import _ _ _ _ _ _ E D1 Hb1 Di Hi) as (_ & _ & ->).
      apply Forall_app in N as [_ N]. inversion N; subst. exfalso. eapply H1; eauto.
    + apply Forall_app in Vr as [Vr1 Vr2]. inversion Vr2; subst. apply Forall_app in Sr as [Sr1 Sr2]. inversion Sr2; subst.
      unfold t2 in *. rewrite flat_map_app in *. cbn [flat_map] in *. rewrite <- !app_assoc in *.
      set (t3 := (flat_map bytes_of after ++ bytes_of STOP ++ [] ++ tail)%list) in *.
      rewrite !app_length in Hg2. pose proof (bytes_of_nonempty o) as Hbo.
      destruct (loop_found between (bytes_of o ++ t3)%list g Vr1 Sr1 N) as (g' & Hg' & ->); [lia|].
      destruct g' as [|g']; [lia|].
      assert (St : identify_loop (S g') true (bytes_of o ++ t3) = IName t).
      { cbn [identify_loop]. rewrite genop_bytes by assumption. cbn [negb]. destruct T as [-> |[-> | ->]]; reflexivity. }
      rewrite St. split; [|intros K; destruct (K t); reflexivity]. split.
      * intros E. injection E as ->. exists before, imp, between, o, after. auto.
      * intros (b & i & m & o' & a & E & Hb1 & Hi & Hm & Ho). destruct (U1 names_import _ _ _ _ _ _ E D1 Hb1 Di Hi) as (_ & _ & E2).
        destruct (U1 (fun o => exists s, is_string o s) between o after m o' a E2) as (_ & <- & _).
        { eapply Forall_impl; [|exact N]. intros x Hx [y Hy]. eapply Hx; eauto. }
        { eapply Forall_impl; [|exact Hm]. intros x Hx [y Hy]. eapply Hx; eauto. }
        { eauto. } { eauto. }
        f_equal. unfold is_string in *. destruct T as [-> |[-> | ->]], Ho as [H|[H|H]]; congruence.
Qed.

(** the opcodes of a pickled string, and of a reference to a function of another module: refused *)
Theorem C27_any_case :
  let ops1 := [PROTO 4; FRAME 20; SHORT_BINUNICODE (text_of "hello"); MEMOIZE] in
  let ops2 := [PROTO 2; GLOBAL (text_of "os") (text_of "my_import_modules"); BINPUT 0; BINUNICODE (text_of "os")] in
  Forall valid ops1 /\ Forall valid ops2 /\
  identify_loop 200 false (flat_map bytes_of (ops1 ++ [STOP])) = IUnpicklingError /\
  identify_loop 200 false (flat_map bytes_of (ops2 ++ [STOP])) = IUnpicklingError.
Proof.
  assert (P : forall t, forallb (fun c => c <? 1114112) (text_of t) = true -> Forall point (text_of t)).
  { intros t H. apply Forall_forall. intros c Hc. apply N.ltb_lt. exact (proj1 (forallb_forall _ _) H c Hc). }
  cbv zeta. split; [|split; [|split; vm_compute; reflexivity]].
  - constructor; [reflexivity|]. constructor; [reflexivity|]. constructor; [split; [apply P; reflexivity|reflexivity]|].
    constructor; [exact Logic.I|constructor].
  - constructor; [reflexivity|]. constructor; [split; vm_compute; intuition congruence|]. constructor; [reflexivity|].
    constructor; [split; [apply P; reflexivity|reflexivity]|constructor].
Qed.

(** REFUTED: "whenever the header is within the next 256 bytes".  A buffered reader whose buffer ends
    inside the header (say, after reading an earlier session from the same open file) shows only the
    rest of its buffer, and the session is refused. *)
Theorem C27_buffer_boundary_refuted : exists proto flen name rest s,
  (proto <= 5)%nat /\ is_str name /\ remaining s = session_start proto flen name rest /\
  (length (header_bytes proto flen name) <= 256)%nat /\
  fst (_identify_module s false) = IUnpicklingError.
Proof.
  exists 4%nat, 1000, (text_of "__main__"), (text_of "rest of the session"),
    (Buffered (firstn 12 (session_start 4 1000 (text_of "__main__") (text_of "rest of the session")))
              (skipn 12 (session_start 4 1000 (text_of "__main__") (text_of "rest of the session"))) 8192).
  split; [lia|]. split; [apply text_of_point|]. split; [apply firstn_skipn|].
  split; [apply Nat.leb_le; vm_compute; reflexivity|vm_compute; reflexivity].
Qed.

(** concrete cases: every protocol, a non-ASCII name with a backslash and a newline *)
Example ex_C27 : forall proto, In proto [0; 1; 2; 3; 4; 5]%nat ->
  let name := (text_of "pkg.mod" ++ [92; 10; 233; 8364; 128512])%list in
  fst (_identify_module (Seekable (text_of "junk" ++ session_start proto 77 name (text_of "state"))%list 4) false) = IName name.
Proof. intros proto H. simpl in H. destruct H as [<-|[<-|[<-|[<-|[<-|[<-|[]]]]]]]; vm_compute; reflexivity. Qed.
Example ex_C27_long : fst (_identify_module (Seekable (session_start 4 77 (repeat 97 250) []) 0) true) = IUnpicklingError.
Proof. vm_compute. reflexivity. Qed.
