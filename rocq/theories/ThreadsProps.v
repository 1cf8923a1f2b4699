(** C72: functions pickled with recurse=True in several threads. *)
From Coq Require Import String List Bool Arith Lia Permutation.
From Verif Require Import ThreadsModel ThreadsSpec.
Import ListNotations.
Local Open Scope string_scope.
Local Open Scope list_scope.

Lemma upd_same {A} (f : nat -> A) i a : upd f i a i = a.
Proof. unfold upd. rewrite Nat.eqb_refl. reflexivity. Qed.
Lemma upd_other {A} (f : nat -> A) i j a : j <> i -> upd f i a j = f j.
Proof. unfold upd. intros N. destruct (Nat.eqb_spec j i); [contradiction|reflexivity]. Qed.
Lemma lines_app i a b : lines_of i (a ++ b) = lines_of i a ++ lines_of i b.
Proof. unfold lines_of. rewrite filter_app, map_app. reflexivity. Qed.
Lemma lines_one_same i l : lines_of i [(i, l)] = [l].
Proof. unfold lines_of. cbn [filter fst]. rewrite Nat.eqb_refl. reflexivity. Qed.
Lemma lines_one_other i j l : j <> i -> lines_of i [(j, l)] = [].
Proof. unfold lines_of. cbn [filter fst]. intros N. destruct (Nat.eqb_spec j i); [contradiction|reflexivity]. Qed.
Definition tag (i : nat) (ls : list string) : list (nat * string) := map (fun l => (i, l)) ls.

(** ** exclusive schedules *)
Definition good_results (i : nat) (past : list task) (r : list (list (nat * string))) : Prop := r = map (tag i) (disassembled past).
Definition running (i : nat) (s : state) : Prop :=
  match at_ (threads s i) with
  | Idle => stdout s = 0
  | Saved o _ => stdout s = 0 /\ o = 0
  | SetIt o _ => o = 0 /\ 0 < stdout s < fresh s /\ streams s (stdout s) = []
  | Inside o b ls rest => o = 0 /\ stdout s = b /\ 0 < b < fresh s /\ exists d, ls = d ++ rest /\ streams s b = tag i d
  | Left b => stdout s = 0
  end.
Definition current (i : nat) (s : state) (past : list task) (p : list task) : Prop :=
  match at_ (threads s i) with
  | Idle => p = past ++ todo (threads s i)
  | Saved _ ls | SetIt _ ls | Inside _ _ ls _ => p = past ++ Names ls :: todo (threads s i)
  | Left b => exists ls, p = past ++ Names ls :: todo (threads s i) /\ streams s b = tag i ls
  end.
Record Ex (progs : nat -> list task) (past : nat -> list task) (s : state) : Prop := {
  ex_who : exists i, running i s /\ forall j, j <> i -> at_ (threads s j) = Idle;
  ex_cur : forall i, current i s (past i) (progs i);
  ex_res : forall i, good_results i (past i) (results (threads s i));
  ex_term : forall i, lines_of i (streams s 0) = said (past i);
  ex_new : forall b, fresh s <= b -> streams s b = [];
  ex_fr : 0 < fresh s }.
Lemma Ex_idle progs past s : Ex progs past s -> forall i, (forall j, busy (threads s j) -> j = i) -> running i s /\ forall j, j <> i -> at_ (threads s j) = Idle.
Proof.
  intros E i B. destruct (ex_who _ _ _ E) as (k & R & O).
  assert (forall j, j <> i -> at_ (threads s j) = Idle) as O'. { intros j N. destruct (at_ (threads s j)) eqn:A; [reflexivity| | | |]; exfalso; apply N; apply B; unfold busy; rewrite A; discriminate. }
  split; [|exact O']. destruct (Nat.eq_dec k i) as [->|N]; [exact R|]. pose proof (O' k N) as Ak. pose proof (O i (not_eq_sym N)) as Ai. unfold running in *. rewrite Ai. rewrite Ak in R. exact R.
Qed.
Lemma disassembled_app a b : disassembled (a ++ b) = disassembled a ++ disassembled b.
Proof. apply flat_map_app. Qed.
Lemma said_app a b : said (a ++ b) = said a ++ said b.
Proof. apply flat_map_app. Qed.
Lemma Ex_step progs past s i s' : Ex progs past s -> (forall j, busy (threads s j) -> j = i) -> step i s = Some s' -> exists past', Ex progs past' s'.
Proof.
  intros E B St. destruct (Ex_idle _ _ _ E i B) as (R & O). pose proof (ex_cur _ _ _ E) as Cu. pose proof (Cu i) as C. pose proof (ex_res _ _ _ E) as Re. pose proof (ex_term _ _ _ E) as T. pose proof (ex_new _ _ _ E) as Nw. pose proof (ex_fr _ _ _ E) as F.
  unfold step in St. unfold running in R. unfold current in C. destruct (at_ (threads s i)) as [|o ls|o ls|o b ls rest|b] eqn:A.
  - destruct (todo (threads s i)) as [|[ls|l] r] eqn:D; [discriminate| |]; injection St as <-.
    + exists past. constructor; cbn [stdout streams fresh threads]; auto.
      * exists i. split; [unfold running; cbn [threads stdout]; rewrite upd_same; cbn; auto|]. intros j N. cbn [threads]. rewrite upd_other by exact N. apply O. exact N.
      * intros j. destruct (Nat.eq_dec j i) as [->|N]; [unfold current; cbn [threads]; rewrite upd_same; cbn; exact C|].
        specialize (Cu j). unfold current in *. cbn [threads streams]. rewrite upd_other by exact N. exact Cu.
      * intros j. destruct (Nat.eq_dec j i) as [->|N]; [rewrite upd_same; cbn [results]; apply Re|rewrite upd_other by exact N; apply Re].
    + exists (upd past i (past i ++ [Say l])). unfold write. rewrite R. constructor; cbn [stdout streams fresh threads].
      * exists i. split; [unfold running; cbn [threads stdout]; rewrite upd_same; cbn; auto|]. intros j N. cbn [threads]. rewrite upd_other by exact N. apply O. exact N.
      * intros j. destruct (Nat.eq_dec j i) as [->|N]; [unfold current; cbn [threads]; rewrite !upd_same; cbn; rewrite <- app_assoc; exact C|].
        specialize (Cu j). unfold current in *. cbn [threads streams]. rewrite !upd_other by exact N. rewrite (O j N) in *. exact Cu.
      * intros j. destruct (Nat.eq_dec j i) as [->|N]; [rewrite !upd_same; cbn [results]; unfold good_results; rewrite disassembled_app, app_nil_r; apply Re|rewrite !upd_other by exact N; apply Re].
      * intros j. rewrite upd_same, lines_app, T. destruct (Nat.eq_dec j i) as [->|N].
        -- rewrite upd_same, said_app, lines_one_same. reflexivity.
        -- rewrite upd_other, lines_one_other by auto. apply app_nil_r.
      * intros b Hb. rewrite upd_other by lia. apply Nw. exact Hb.
      * exact F.
  - injection St as <-. destruct R as (R1 & ->). exists past. constructor; cbn [stdout streams fresh threads]; auto.
    + exists i. split; [unfold running; cbn [threads stdout streams fresh]; rewrite upd_same; cbn [at_]; split; [reflexivity|split; [lia|apply Nw; lia]]|]. intros j N. cbn [threads]. rewrite upd_other by exact N. apply O. exact N.
    + intros j. destruct (Nat.eq_dec j i) as [->|N]; [unfold current; cbn [threads]; rewrite upd_same; cbn; exact C|].
      specialize (Cu j). unfold current in *. cbn [threads streams]. rewrite upd_other by exact N. exact Cu.
    + intros j. destruct (Nat.eq_dec j i) as [->|N]; [rewrite upd_same; cbn [results]; apply Re|rewrite upd_other by exact N; apply Re].
    + intros b Hb. apply Nw. lia.
  - injection St as <-. destruct R as (-> & R1 & R2). exists past. constructor; cbn [stdout streams fresh threads]; auto.
    + exists i. split; [unfold running; cbn [threads stdout streams fresh]; rewrite upd_same; cbn [at_]; split; [reflexivity|split; [reflexivity|split; [lia|exists []; split; [reflexivity|exact R2]]]]|]. intros j N. cbn [threads]. rewrite upd_other by exact N. apply O. exact N.
    + intros j. destruct (Nat.eq_dec j i) as [->|N]; [unfold current; cbn [threads]; rewrite upd_same; cbn; exact C|].
      specialize (Cu j). unfold current in *. cbn [threads streams]. rewrite upd_other by exact N. exact Cu.
    + intros j. destruct (Nat.eq_dec j i) as [->|N]; [rewrite upd_same; cbn [results]; apply Re|rewrite upd_other by exact N; apply Re].
  - destruct R as (-> & R1 & R2 & d & R3 & R4). destruct rest as [|l rest]; injection St as <-.
    + exists past. constructor; cbn [stdout streams fresh threads]; auto.
      * exists i. split; [unfold running; cbn [threads stdout]; rewrite upd_same; cbn; auto|]. intros j N. cbn [threads]. rewrite upd_other by exact N. apply O. exact N.
      * intros j. destruct (Nat.eq_dec j i) as [->|N].
        -- unfold current; cbn [threads streams]; rewrite upd_same; cbn [at_ todo]. exists ls. split; [exact C|]. rewrite app_nil_r in R3. subst d. exact R4.
        -- specialize (Cu j). unfold current in *. cbn [threads streams]. rewrite upd_other by exact N. exact Cu.
      * intros j. destruct (Nat.eq_dec j i) as [->|N]; [rewrite upd_same; cbn [results]; apply Re|rewrite upd_other by exact N; apply Re].
    + exists past. unfold write. rewrite R1. constructor; cbn [stdout streams fresh threads]; auto.
      * exists i. split; [unfold running; cbn [threads stdout streams fresh]; rewrite upd_same; cbn [at_]|].
        -- split; [reflexivity|split; [reflexivity|split; [lia|exists (d ++ [l]); split; [rewrite <- app_assoc; exact R3|rewrite upd_same, R4; unfold tag; rewrite map_app; reflexivity]]]].
        -- intros j N. cbn [threads]. rewrite upd_other by exact N. apply O. exact N.
      * intros j. destruct (Nat.eq_dec j i) as [->|N]; [unfold current; cbn [threads]; rewrite upd_same; cbn; exact C|].
        specialize (Cu j). unfold current in *. cbn [threads streams]. rewrite upd_other by exact N. rewrite (O j N) in *. exact Cu.
      * intros j. destruct (Nat.eq_dec j i) as [->|N]; [rewrite upd_same; cbn [results]; apply Re|rewrite upd_other by exact N; apply Re].
      * intros j. rewrite upd_other by lia. apply T.
      * intros b' Hb. rewrite upd_other by lia. apply Nw. exact Hb.
  - injection St as <-. destruct C as (ls & C1 & C2). exists (upd past i (past i ++ [Names ls])). constructor; cbn [stdout streams fresh threads].
    * exists i. split; [unfold running; cbn [threads stdout]; rewrite upd_same; cbn; auto|]. intros j N. cbn [threads]. rewrite upd_other by exact N. apply O. exact N.
    * intros j. destruct (Nat.eq_dec j i) as [->|N]; [unfold current; cbn [threads]; rewrite !upd_same; cbn; rewrite <- app_assoc; exact C1|].
      specialize (Cu j). unfold current in *. cbn [threads streams]. rewrite !upd_other by exact N. exact Cu.
    * intros j. destruct (Nat.eq_dec j i) as [->|N]; [rewrite !upd_same; cbn [results]; unfold good_results; rewrite disassembled_app, map_app, C2, (Re i); reflexivity|rewrite !upd_other by exact N; apply Re].
    * intros j. rewrite T. destruct (Nat.eq_dec j i) as [->|N]; [rewrite upd_same, said_app; cbn; rewrite app_nil_r; reflexivity|rewrite upd_other by exact N; reflexivity].
    * exact Nw.
    * exact F.
Qed.
Lemma Ex_run progs : forall sched past s s', Ex progs past s -> exclusive sched s -> run sched s = Some s' -> exists past', Ex progs past' s'.
Proof.
  induction sched as [|i sched IH]; intros past s s' E X R; [injection R as <-; eauto|]. cbn [exclusive run] in *. destruct X as (B & X). destruct (step i s) as [s1|] eqn:St; [|discriminate].
  destruct (Ex_step _ _ _ _ _ E B St) as (past1 & E1). eapply IH; eassumption.
Qed.
Lemma Ex_start progs : Ex progs (fun _ => []) (start progs).
Proof. constructor; cbn; auto. - exists 0. split; [reflexivity|auto]. - intros i. reflexivity. Qed.
Lemma Ex_end progs past s : Ex progs past s -> finished s -> forall i, past i = progs i.
Proof. intros E Fi i. pose proof (ex_cur _ _ _ E i) as C. destruct (Fi i) as (A & B). unfold current in C. rewrite B, A, app_nil_r in C. auto. Qed.

(** any number of threads, any programs: if no two captures overlap, every function's disassembly is what its thread reads, sys.stdout is the terminal again, and
    the terminal has the prints of every thread *)
Theorem C72_exclusive_partial : forall progs sched s, exclusive sched (start progs) -> run sched (start progs) = Some s -> finished s ->
  stdout s = 0 /\ forall i, results (threads s i) = map (tag i) (disassembled (progs i)) /\ lines_of i (streams s 0) = said (progs i).
Proof.
  intros progs sched s X R Fi. destruct (Ex_run progs sched _ _ _ (Ex_start progs) X R) as (past & E). pose proof (Ex_end _ _ _ E Fi) as P. split.
  - destruct (ex_who _ _ _ E) as (i & Ru & _). unfold running in Ru. destruct (Fi i) as (_ & A). rewrite A in Ru. exact Ru.
  - intros i. rewrite <- P. split; [apply (ex_res _ _ _ E)|apply (ex_term _ _ _ E)].
Qed.
(** one thread: no condition on the schedule *)
Lemma one_exclusive : forall sched s, (forall i, In i sched -> i = 0) -> (forall j, j <> 0 -> at_ (threads s j) = Idle) -> exclusive sched s.
Proof.
  induction sched as [|i sched IH]; intros s A B; cbn [exclusive]; [exact Logic.I|]. rewrite (A i (or_introl eq_refl)) in *. split.
  - intros j Bj. destruct (Nat.eq_dec j 0) as [|N]; [assumption|]. exfalso. apply Bj. apply B. exact N.
  - destruct (step 0 s) as [s'|] eqn:St; [|exact Logic.I]. apply IH; [intros k Hk; apply A; right; exact Hk|]. intros j N. specialize (B j N). unfold step in St.
    destruct (at_ (threads s 0)) as [| | |? ? ? [|? ?]|]; [destruct (todo (threads s 0)) as [|[|] ?]; [discriminate| |]| | | | |]; injection St as <-; cbn [threads]; rewrite upd_other by exact N; exact B.
Qed.
Theorem C72_one_thread : forall prog sched s, (forall i, In i sched -> i = 0) -> run sched (start (fun i => match i with 0 => prog | _ => [] end)) = Some s -> finished s ->
  stdout s = 0 /\ results (threads s 0) = map (tag 0) (disassembled prog) /\ lines_of 0 (streams s 0) = said prog.
Proof.
  intros prog sched s A R Fi. edestruct C72_exclusive_partial as (S0 & H); [|exact R|exact Fi|]; [apply one_exclusive; [exact A|reflexivity]|]. split; [exact S0|exact (H 0)].
Qed.

(** ** any schedule: no line is lost, but it may be in another stream *)
Definition written (i : nat) (s : state) : list string := flat_map (fun b => lines_of i (streams s b)) (seq 0 (fresh s)).
Definition remaining (t : thread) : list string :=
  match at_ t with Idle | Left _ => printed (todo t) | Saved _ ls | SetIt _ ls => ls ++ printed (todo t) | Inside _ _ _ rest => rest ++ printed (todo t) end.
Definition saved_ok (s : state) : Prop := forall i, match at_ (threads s i) with Saved o _ | SetIt o _ | Inside o _ _ _ => o < fresh s | _ => True end.
Record Con (progs : nat -> list task) (s : state) : Prop := {
  co_all : forall i, Permutation (written i s ++ remaining (threads s i)) (printed (progs i));
  co_out : stdout s < fresh s;
  co_sav : saved_ok s;
  co_new : forall b, fresh s <= b -> streams s b = [] }.
Lemma flat_map_upd {A} (h : list (nat * string) -> list A) f b x : (forall a c, h (a ++ c) = h a ++ h c) ->
  forall l, NoDup l -> In b l -> Permutation (flat_map (fun c => h (upd f b (f b ++ x) c)) l) (flat_map (fun c => h (f c)) l ++ h x).
Proof.
  intros Hh. induction l as [|c l IH]; intros ND I; [destruct I|]. inversion ND; subst. cbn [flat_map]. destruct I as [->|I].
  - rewrite upd_same, Hh.
    assert (flat_map (fun c => h (upd f b (f b ++ x) c)) l = flat_map (fun c => h (f c)) l) as ->.
    { clear - H1. induction l as [|c l IH]; [reflexivity|]. cbn [flat_map]. rewrite upd_other by (intros ->; apply H1; left; reflexivity). f_equal. apply IH. intros I. apply H1. right. exact I. }
    rewrite <- !app_assoc. apply Permutation_app_head. apply Permutation_app_comm.
  - rewrite upd_other by (intros ->; contradiction). rewrite <- app_assoc. apply Permutation_app_head. apply IH; assumption.
Qed.

Lemma written_write i j l s : stdout s < fresh s -> Permutation (flat_map (fun b => lines_of i (write j l s b)) (seq 0 (fresh s))) (written i s ++ lines_of i [(j, l)]).
Proof.
  intros F. unfold written, write. apply (flat_map_upd (lines_of i)); [intros; apply lines_app|apply seq_NoDup|]. apply in_seq. lia.
Qed.
Lemma written_fresh i s : streams s (fresh s) = [] -> flat_map (fun b => lines_of i (streams s b)) (seq 0 (S (fresh s))) = written i s.
Proof. intros E. rewrite seq_S, flat_map_app. cbn [flat_map plus]. rewrite E. cbn. apply app_nil_r. Qed.
Lemma Con_step progs s i s' : Con progs s -> step i s = Some s' -> Con progs s'.
Proof.
  intros [Al Ou Sa Nw] St. unfold step in St. pose proof (Al i) as Ai. pose proof (Sa i) as Si. unfold remaining in Ai.
  destruct (at_ (threads s i)) as [|o ls|o ls|o b ls rest|b] eqn:A.
  - destruct (todo (threads s i)) as [|[ls|l] r] eqn:D; [discriminate| |]; injection St as <-.
    + constructor; cbn [stdout streams fresh threads]; auto.
      * intros j. destruct (Nat.eq_dec j i) as [->|N]; [rewrite upd_same; unfold written, remaining; cbn [streams fresh at_ todo]; exact Ai|].
        rewrite upd_other by exact N. apply Al.
      * intros j. cbn [threads fresh]. destruct (Nat.eq_dec j i) as [->|N]; [rewrite upd_same; cbn [at_]; exact Ou|rewrite upd_other by exact N; apply Sa].
    + constructor; cbn [stdout streams fresh threads]; auto.
      * intros j. unfold written. cbn [streams fresh]. rewrite written_write by exact Ou. destruct (Nat.eq_dec j i) as [->|N].
        -- rewrite upd_same, lines_one_same. unfold remaining. cbn [at_ todo]. rewrite <- app_assoc. exact Ai.
        -- rewrite upd_other, lines_one_other by auto. rewrite app_nil_r. apply Al.
      * intros j. cbn [threads fresh]. destruct (Nat.eq_dec j i) as [->|N]; [rewrite upd_same; exact Logic.I|rewrite upd_other by exact N; apply Sa].
      * intros b Hb. unfold write. rewrite upd_other by lia. apply Nw. exact Hb.
  - injection St as <-. constructor; cbn [stdout streams fresh threads].
    + intros j. unfold written. cbn [streams fresh]. rewrite written_fresh by (apply Nw; lia). destruct (Nat.eq_dec j i) as [->|N]; [rewrite upd_same; exact Ai|rewrite upd_other by exact N; apply Al].
    + lia.
    + intros j. cbn [threads fresh]. destruct (Nat.eq_dec j i) as [->|N]; [rewrite upd_same; cbn [at_]; lia|rewrite upd_other by exact N]. specialize (Sa j). destruct (at_ (threads s j)); auto.
    + intros b Hb. apply Nw. lia.
  - injection St as <-. constructor; cbn [stdout streams fresh threads]; auto.
    + intros j. destruct (Nat.eq_dec j i) as [->|N]; [rewrite upd_same; exact Ai|rewrite upd_other by exact N; apply Al].
    + intros j. cbn [threads fresh]. destruct (Nat.eq_dec j i) as [->|N]; [rewrite upd_same; cbn [at_]; exact Si|rewrite upd_other by exact N; apply Sa].
  - destruct rest as [|l rest]; injection St as <-.
    + constructor; cbn [stdout streams fresh threads]; auto.
      * intros j. destruct (Nat.eq_dec j i) as [->|N]; [rewrite upd_same; exact Ai|rewrite upd_other by exact N; apply Al].
      * intros j. cbn [threads fresh]. destruct (Nat.eq_dec j i) as [->|N]; [rewrite upd_same; exact Logic.I|rewrite upd_other by exact N; apply Sa].
    + constructor; cbn [stdout streams fresh threads]; auto.
      * intros j. unfold written. cbn [streams fresh]. rewrite written_write by exact Ou. destruct (Nat.eq_dec j i) as [->|N].
        -- rewrite upd_same, lines_one_same. unfold remaining. cbn [at_ todo]. rewrite <- app_assoc. exact Ai.
        -- rewrite upd_other, lines_one_other by auto. rewrite app_nil_r. apply Al.
      * intros j. cbn [threads fresh]. destruct (Nat.eq_dec j i) as [->|N]; [rewrite upd_same; cbn [at_]; exact Si|rewrite upd_other by exact N; apply Sa].
      * intros b' Hb. unfold write. rewrite upd_other by lia. apply Nw. exact Hb.
  - injection St as <-. constructor; cbn [stdout streams fresh threads]; auto.
    + intros j. destruct (Nat.eq_dec j i) as [->|N]; [rewrite upd_same; exact Ai|rewrite upd_other by exact N; apply Al].
    + intros j. cbn [threads fresh]. destruct (Nat.eq_dec j i) as [->|N]; [rewrite upd_same; exact Logic.I|rewrite upd_other by exact N; apply Sa].
Qed.
Lemma Con_run progs : forall sched s s', Con progs s -> run sched s = Some s' -> Con progs s'.
Proof.
  induction sched as [|i sched IH]; intros s s' E R; [injection R as <-; exact E|]. cbn [run] in R. destruct (step i s) as [s1|] eqn:St; [|discriminate]. eapply IH; [eapply Con_step; eassumption|exact R].
Qed.
(** every line any thread prints is in exactly one stream, under every schedule *)
Theorem C72_conserved : forall progs sched s, run sched (start progs) = Some s -> finished s -> forall i, Permutation (written i s) (printed (progs i)).
Proof.
  intros progs sched s R Fi i. assert (Con progs (start progs)) as C0 by (constructor; [intros j; apply Permutation_refl|apply Nat.lt_0_1|intros j; exact Logic.I|reflexivity]). pose proof (co_all _ _ (Con_run _ _ _ _ C0 R) i) as A.
  unfold remaining in A. destruct (Fi i) as (T & P). rewrite T, P in A. cbn in A. rewrite app_nil_r in A. exact A.
Qed.

(** ** nested captures *)
Definition orig_of (t : thread) : option nat := match at_ t with SetIt o _ | Inside o _ _ _ => Some o | _ => None end.
Fixpoint chain (ths : nat -> thread) (own : nat -> nat) (stk : list nat) (top : nat) : Prop :=
  match stk with
  | [] => top = 0
  | i :: r => own i = top /\ exists o, orig_of (ths i) = Some o /\ o < top /\ chain ths own r o
  end.
Lemma chain_below ths own : forall stk top i, chain ths own stk top -> In i stk -> own i <= top.
Proof. induction stk as [|j stk IH]; intros top i C I; [destruct I|]. destruct C as (E & o & _ & L & C). destruct I as [->|I]; [lia|]. specialize (IH o i C I). lia. Qed.
Lemma chain_ext ths ths' own own' : forall stk top, (forall i, In i stk -> orig_of (ths' i) = orig_of (ths i) /\ own' i = own i) -> chain ths own stk top -> chain ths' own' stk top.
Proof.
  induction stk as [|j stk IH]; intros top E C; [exact C|]. destruct C as (A & o & B & L & C). destruct (E j (or_introl eq_refl)) as (E1 & E2). cbn [chain]. rewrite E1, E2. split; [exact A|]. exists o. repeat split; auto.
  apply IH; [intros i I; apply E; right; exact I|exact C].
Qed.
Record Nes (own : nat -> nat) (s : state) : Prop := {
  ne_stk : exists stk, chain (threads s) own stk (stdout s) /\ forall i, orig_of (threads s i) <> None -> In i stk;
  ne_out : stdout s < fresh s }.
Lemma Nes_same own s s' i t : Nes own s -> stdout s' = stdout s -> fresh s' = fresh s -> threads s' = upd (threads s) i t -> orig_of t = orig_of (threads s i) -> Nes own s'.
Proof.
  intros [(stk & C & All) L] E1 E2 E3 E4. constructor; [|rewrite E1, E2; exact L]. exists stk. rewrite E1, E3. split.
  - apply (chain_ext (threads s) _ own own); [|exact C]. intros j _. split; [|reflexivity]. destruct (Nat.eq_dec j i) as [->|N]; [rewrite upd_same; exact E4|rewrite upd_other by exact N; reflexivity].
  - intros j Hj. apply All. destruct (Nat.eq_dec j i) as [->|N]; [rewrite upd_same in Hj; rewrite <- E4; exact Hj|rewrite upd_other in Hj by exact N; exact Hj].
Qed.
Lemma Nes_step own s i s' : Nes own s -> innermost s i own -> step i s = Some s' -> Nes (own' own s i) s'.
Proof.
  intros Ne In_ St. unfold step in St. unfold innermost in In_. unfold own'. destruct (at_ (threads s i)) as [|o ls|o ls|o b ls rest|b] eqn:A.
  - destruct (todo (threads s i)) as [|[ls|l] r] eqn:D; [discriminate| |]; injection St as <-; (eapply (Nes_same own s _ i _ Ne); [reflexivity|reflexivity|reflexivity|]; unfold orig_of; rewrite A; reflexivity).
  - injection St as <-. subst o. destruct Ne as [(stk & C & All) L]. constructor; cbn [stdout fresh threads]; [|lia].
    assert (~ In i stk) as NI. { intros I. clear - C I A. revert C I. generalize (stdout s). induction stk as [|j stk IH]; intros top C I; [destruct I|]. destruct C as (_ & o & B & _ & C). destruct I as [->|I]; [unfold orig_of in B; rewrite A in B; discriminate|]. eapply IH; eassumption. }
    exists (i :: stk). split.
    + cbn [chain]. rewrite upd_same. split; [reflexivity|]. exists (stdout s). rewrite upd_same. split; [reflexivity|]. split; [exact L|].
      apply (chain_ext (threads s) _ own _); [|exact C]. intros j Ij. assert (j <> i) by (intros ->; contradiction). rewrite !upd_other by assumption. split; reflexivity.
    + intros j Hj. destruct (Nat.eq_dec j i) as [->|N]; [left; reflexivity|right; apply All; rewrite upd_other in Hj by exact N; exact Hj].
  - injection St as <-. eapply (Nes_same own s _ i _ Ne); [reflexivity|reflexivity|reflexivity|]; unfold orig_of; rewrite A; reflexivity.
  - destruct rest as [|l rest]; injection St as <-; [|eapply (Nes_same own s _ i _ Ne); [reflexivity|reflexivity|reflexivity|]; unfold orig_of; rewrite A; reflexivity].
    destruct Ne as [(stk & C & All) L]. assert (In i stk) as Ii by (apply All; unfold orig_of; rewrite A; discriminate).
    destruct stk as [|j stk]; [destruct Ii|]. destruct C as (E & o' & B & Lo & C). assert (j = i) as ->.
    { destruct Ii as [->|Ii]; [reflexivity|]. pose proof (chain_below _ _ _ _ _ C Ii). lia. }
    assert (o' = o) as -> by (unfold orig_of in B; rewrite A in B; congruence).
    assert (~ In i stk) as NI by (intros I; pose proof (chain_below _ _ _ _ _ C I); lia).
    constructor; cbn [stdout fresh threads]; [|lia]. exists stk. split.
    + apply (chain_ext (threads s) _ own _); [|exact C]. intros j Ij. assert (j <> i) by (intros ->; contradiction). rewrite !upd_other by assumption. split; reflexivity.
    + intros j Hj. destruct (Nat.eq_dec j i) as [->|N]; [rewrite upd_same in Hj; exfalso; apply Hj; reflexivity|]. rewrite upd_other in Hj by exact N. destruct (All j Hj) as [->|I]; [contradiction|exact I].
  - injection St as <-. eapply (Nes_same own s _ i _ Ne); [reflexivity|reflexivity|reflexivity|]; unfold orig_of; rewrite A; reflexivity.
Qed.
(** captures may overlap, as long as they are nested: sys.stdout is the terminal again when all are done *)
Theorem C72_nested_partial : forall progs sched s, nested sched (start progs) (fun _ => 0) -> run sched (start progs) = Some s -> finished s -> stdout s = 0.
Proof.
  intros progs sched s N R Fi. assert (exists own, Nes own s) as (own & [(stk & C & All) _]).
  { assert (Nes (fun _ => 0) (start progs)) as N0 by (constructor; cbn; [exists []; split; [reflexivity|intros i H; exfalso; apply H; reflexivity]|lia]).
    revert N R N0. generalize (start progs), (fun _ : nat => 0). induction sched as [|i sched IH]; intros s0 own N R N0; [injection R as <-; eauto|]. cbn [nested run] in *. destruct N as (I & N).
    destruct (step i s0) as [s1|] eqn:St; [|discriminate]. eapply IH; [exact N|exact R|]. eapply Nes_step; eassumption. }
  destruct stk as [|i stk]; [exact C|]. destruct C as (_ & o & B & _). destruct (Fi i) as (_ & P). unfold orig_of in B. rewrite P in B. discriminate.
Qed.

(** ** the refutations, and schedules that meet the hypotheses *)
Definition f_lines : list string := ["  1           0 RESUME 0"; "              2 LOAD_GLOBAL 1 (NULL + helper)"; "             14 RETURN_VALUE"].
Definition g_lines : list string := ["  5           0 RESUME 0"; "              2 LOAD_GLOBAL 0 (other)"; "             14 RETURN_VALUE"].
(** the steps of one nestedglobals: save, set, read, three lines, restore, getvalue *)
Definition times (n i : nat) : list nat := repeat i n.
(** one after the other *)
Definition sched_good : list nat := times 8 1 ++ times 8 0 ++ [1; 0].
(** thread 1 enters and leaves while thread 0 is inside *)
Definition sched_nested : list nat := times 4 0 ++ times 8 1 ++ times 4 0 ++ [0; 1].
(** thread 0 leaves first *)
Definition sched_cross : list nat := times 3 0 ++ times 3 1 ++ times 5 0 ++ times 5 1 ++ [0; 1].
Fixpoint exclusiveb (sched : list nat) (s : state) : bool :=
  match sched with
  | [] => true
  | i :: r => forallb (fun j => Nat.eqb j i || match at_ (threads s j) with Idle => true | _ => false end) [0; 1] && match step i s with Some s' => exclusiveb r s' | None => true end
  end.
Lemma step_idle i s s' : step i s = Some s' -> (forall j, 2 <= j -> todo (threads s j) = [] /\ at_ (threads s j) = Idle) -> forall j, 2 <= j -> todo (threads s' j) = [] /\ at_ (threads s' j) = Idle.
Proof.
  intros St A j L. destruct (Nat.eq_dec j i) as [->|N]; [unfold step in St; destruct (A i L) as (T & P); rewrite P, T in St; discriminate|]. specialize (A j L). unfold step in St.
  destruct (at_ (threads s i)) as [| | |? ? ? [|? ?]|]; [destruct (todo (threads s i)) as [|[|] ?]; [discriminate| |]| | | | |]; injection St as <-; cbn [threads]; rewrite upd_other by exact N; assumption.
Qed.
Lemma exclusiveb_spec : forall sched s, (forall j, 2 <= j -> todo (threads s j) = [] /\ at_ (threads s j) = Idle) -> exclusiveb sched s = true -> exclusive sched s.
Proof.
  induction sched as [|i sched IH]; intros s A E; cbn [exclusive]; [exact Logic.I|]. cbn [exclusiveb] in E. apply andb_true_iff in E as (E1 & E2). split.
  - intros j B. rewrite forallb_forall in E1. destruct (Nat.lt_ge_cases j 2) as [L|L]; [|exfalso; apply B; apply A; exact L].
    assert (In j [0; 1]) as I by (destruct j as [|[|j]]; [left; reflexivity|right; left; reflexivity|lia]). specialize (E1 j I). apply orb_true_iff in E1 as [E1|E1]; [apply Nat.eqb_eq; exact E1|].
    exfalso. apply B. destruct (at_ (threads s j)); [reflexivity|discriminate..].
  - destruct (step i s) as [s'|] eqn:St; [|exact Logic.I]. apply IH; [|exact E2]. eapply step_idle; eassumption.
Qed.
Fixpoint nestedb (sched : list nat) (s : state) (own : nat -> nat) : bool :=
  match sched with
  | [] => true
  | i :: r => match at_ (threads s i) with Saved o _ => Nat.eqb o (stdout s) | Inside _ _ _ [] => Nat.eqb (own i) (stdout s) | _ => true end &&
              match step i s with Some s' => nestedb r s' (own' own s i) | None => true end
  end.
Lemma nestedb_spec : forall sched s own, nestedb sched s own = true -> nested sched s own.
Proof.
  induction sched as [|i sched IH]; intros s own E; cbn [nested]; [exact Logic.I|]. cbn [nestedb] in E. apply andb_true_iff in E as (E1 & E2). split.
  - unfold innermost. destruct (at_ (threads s i)) as [| | |? ? ? [|? ?]|]; auto; apply Nat.eqb_eq; exact E1.
  - destruct (step i s); [|exact Logic.I]. apply IH. exact E2.
Qed.
Definition pair (p q : list task) : nat -> list task := fun i => match i with 0 => p | 1 => q | _ => [] end.
Lemma pair_rest p q : forall j, 2 <= j -> todo (threads (start (pair p q)) j) = [] /\ at_ (threads (start (pair p q)) j) = Idle.
Proof. intros [|[|j]] L; try lia. split; reflexivity. Qed.
Lemma run_idle : forall sched s s', run sched s = Some s' -> (forall j, 2 <= j -> todo (threads s j) = [] /\ at_ (threads s j) = Idle) -> forall j, 2 <= j -> todo (threads s' j) = [] /\ at_ (threads s' j) = Idle.
Proof.
  induction sched as [|i sched IH]; intros s s' R A; [injection R as <-; exact A|]. cbn [run] in R. destruct (step i s) as [s1|] eqn:St; [|discriminate]. eapply IH; [exact R|]. eapply step_idle; eassumption.
Qed.
Definition two : nat -> list task := pair [Names f_lines; Say "done 0"] [Names g_lines; Say "done 1"].
(** what the runs give, as one value *)
Definition observe (p q : list task) (sched : list nat) : option (nat * list (list string) * list (list string) * list (nat * string) * list (list task) * list bool) :=
  match run sched (start (pair p q)) with
  | Some s => Some (stdout s, map found (results (threads s 0)), map found (results (threads s 1)), streams s 0,
                    [todo (threads s 0); todo (threads s 1)], map (fun i => match at_ (threads s i) with Idle => true | _ => false end) [0; 1])
  | None => None
  end.
Lemma observe_spec p q sched o r0 r1 t : observe p q sched = Some (o, r0, r1, t, [[]; []], [true; true]) ->
  exists s, run sched (start (pair p q)) = Some s /\ finished s /\ stdout s = o /\ map found (results (threads s 0)) = r0 /\ map found (results (threads s 1)) = r1 /\ streams s 0 = t.
Proof.
  unfold observe. destruct (run sched (start (pair p q))) as [s|] eqn:R; [|discriminate]. intros E. cbn [map] in E. injection E as <- <- <- <- E1 E2 E3 E4. exists s. repeat split; auto.
  - destruct (Nat.lt_ge_cases i 2) as [L|L]; [destruct i as [|[|i]]; [exact E1|exact E2|lia]|exact (proj1 (run_idle _ _ _ R (pair_rest p q) i L))].
  - destruct (Nat.lt_ge_cases i 2) as [L|L]; [destruct i as [|[|i]]; [destruct (at_ (threads s 0)); auto; discriminate|destruct (at_ (threads s 1)); auto; discriminate|lia]|exact (proj2 (run_idle _ _ _ R (pair_rest p q) i L))].
Qed.
Example C72_good_met : exclusive sched_good (start two) /\ exists s, run sched_good (start two) = Some s /\ finished s /\
  stdout s = 0 /\ map found (results (threads s 0)) = [["helper"]] /\ map found (results (threads s 1)) = [["other"]] /\ streams s 0 = [(1, "done 1"); (0, "done 0")].
Proof. split; [apply exclusiveb_spec; [apply pair_rest|vm_compute; reflexivity]|]. apply observe_spec. vm_compute. reflexivity. Qed.
(** nested: sys.stdout is restored, but ... *)
Example C72_nested_met : nested sched_nested (start two) (fun _ => 0) /\ exists s, run sched_nested (start two) = Some s /\ finished s /\
  stdout s = 0 /\ map found (results (threads s 0)) = [["helper"]] /\ map found (results (threads s 1)) = [["other"]] /\ streams s 0 = [(0, "done 0"); (1, "done 1")].
Proof. split; [apply nestedb_spec; vm_compute; reflexivity|]. apply observe_spec. vm_compute. reflexivity. Qed.
(** ... the thread that entered last sees the other's names, and the other sees none: its function is pickled without its globals *)
Definition sched_swap : list nat := times 3 0 ++ times 3 1 ++ times 3 0 ++ times 5 1 ++ times 2 0 ++ [0; 1].
Theorem C72_globals_lost_refuted : nested sched_swap (start two) (fun _ => 0) /\ exists s, run sched_swap (start two) = Some s /\ finished s /\
  stdout s = 0 /\ map found (results (threads s 0)) = [[]] /\ map found (results (threads s 1)) = [["helper"; "other"]] /\ streams s 0 = [(0, "done 0"); (1, "done 1")].
Proof. split; [apply nestedb_spec; vm_compute; reflexivity|]. apply observe_spec. vm_compute. reflexivity. Qed.
(** sys.stdout is a buffer for ever: later prints of both threads never reach the terminal; a disassembly does, and thread 1 takes the other function's names for its own *)
Theorem C72_stdout_lost_refuted : exists s, run sched_cross (start two) = Some s /\ finished s /\
  stdout s = 1 /\ map found (results (threads s 0)) = [[]] /\ map found (results (threads s 1)) = [["helper"]] /\ streams s 0 = map (fun l => (1, l)) g_lines.
Proof. apply observe_spec. vm_compute. reflexivity. Qed.
(** a line printed by another thread is swallowed, and taken for a name *)
Definition talk : nat -> list task := pair [Names f_lines] [Say "MAX_GLOBAL (limit) reached"].
Theorem C72_print_lost_refuted : exists s, run (times 3 0 ++ [1] ++ times 5 0) (start talk) = Some s /\ finished s /\
  stdout s = 0 /\ map found (results (threads s 0)) = [["limit"; "helper"]] /\ map found (results (threads s 1)) = [] /\ streams s 0 = [].
Proof. apply observe_spec. vm_compute. reflexivity. Qed.
