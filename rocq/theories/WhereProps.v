(** C108: where the source of an object is looked for. *)
From Coq Require Import String Ascii List Bool Arith Lia.
From Verif Require Import PyDict FindModel FindProps GetmoduleModel GetmoduleProps WhereModel.
Import ListNotations.
Local Open Scope string_scope.

(** ** Specification *)
(** [o] is a function, or a bound method of one, with the code object [co] of the file [f] *)
Definition has_code (W : world) (o co : nat) (f : string) : Prop :=
  (kind W o = KFunction co \/ exists g, kind W o = KMethod g /\ kind W g = KFunction co) /\ kind W co = KCode f.
(** the module [x] is from the file [g], whose source is [lines] *)
Definition from_file (W : world) (F : files) (x : nat) (lines : list string) : Prop :=
  exists g p, kind W x = KModule /\ mfile W x = Some g /\ srcfile F g = Some p /\ contents F p = lines /\ lines <> [].
(** the source of the file [f] is [lines] *)
Definition source_of (F : files) (f : string) (lines : list string) : Prop := exists p, srcfile F f = Some p /\ contents F p = lines /\ lines <> [].
(** a main module without a file: the interpreter's prompt *)
Definition prompt (W : world) (x : nat) : Prop := kind W x = KModule /\ mname W x = "__main__" /\ mfile W x = None.

Lemma says_kind W o m : says W o m -> kind W o <> KModule.
Proof. intros [A _]. exact A. Qed.
Lemma lines_of_module W F mods C o m x lines : says W o m -> kind W o <> KClass -> get m mods = Some x -> from_file W F x lines -> which_lines W F mods C o = inl lines.
Proof.
  intros S K G (g & p & A & B & D & E & N). unfold which_lines. destruct (C106_says W mods C o m false S) as [-> _]. cbn [fst]. rewrite G. unfold getfile_of.
  assert (X : getfile W mods x = inl g) by (unfold getfile; rewrite A, B; reflexivity). rewrite X. rewrite andb_false_r. unfold which_file, getfile_of. rewrite X.
  destruct (kind W o); try (exfalso; apply K; reflexivity); rewrite D, E; destruct lines; congruence.
Qed.
Lemma lines_of_class W F mods C o m x lines : says W o m -> kind W o = KClass -> get m mods = Some x -> from_file W F x lines -> which_lines W F mods C o = inl lines.
Proof.
  intros S K G (g & p & A & B & D & E & N). unfold which_lines. destruct (C106_says W mods C o m false S) as [-> _]. cbn [fst]. rewrite G. unfold getfile_of.
  assert (X : getfile W mods x = inl g) by (unfold getfile; rewrite A, B; reflexivity). rewrite X. rewrite andb_false_r. unfold which_file.
  assert (Y : getfile W mods o = inl g) by (unfold getfile; rewrite K; destruct S as [_ ->]; rewrite G, B; reflexivity). rewrite K, Y, D, E. destruct lines; congruence.
Qed.
Lemma search_function W F lines o co f : has_code W o co f -> f <> "<stdin>" ->
  search W F lines o = match find_code lines (first F co) with Some i => inl i | None => inr FIndexError end.
Proof.
  intros [[K|[g [K K']]] Kc] N; apply String.eqb_neq in N; unfold search; rewrite K; try rewrite K'; rewrite Kc; unfold search_code; rewrite N; reflexivity.
Qed.

(** ** Functions *)
(** what is searched for a function of a file is the source of the module it says it is of, not that of the file of its code *)
Theorem C108_function : forall W F mods C o co f m x lines, says W o m -> has_code W o co f -> f <> "<stdin>" -> get m mods = Some x -> from_file W F x lines ->
  findsource W F mods C o = match find_code lines (first F co) with Some i => inl (lines, i) | None => inr FIndexError end.
Proof.
  intros W F mods C o co f m x lines S H N G L. unfold findsource.
  assert (K : kind W o <> KClass) by (destruct H as [[K|[g [K _]]] _]; rewrite K; discriminate).
  rewrite (lines_of_module W F mods C o m x lines S K G L), (search_function W F lines o co f H N). destruct (find_code lines (first F co)); reflexivity.
Qed.
(** so, if its code is from its module, the right lines, and the right one of them if it is a def statement, a decorator or has the lambda *)
Theorem C108_function_partial : forall W F mods C o co f m x lines k, says W o m -> has_code W o co f -> f <> "<stdin>" -> get m mods = Some x -> from_file W F x lines ->
  source_of F f lines -> first F co = Datatypes.S k -> k < List.length lines -> is_def (nth k lines "") \/ is_decorator (nth k lines "") \/ has_lambda (nth k lines "") ->
  findsource W F mods C o = inl (lines, k).
Proof.
  intros W F mods C o co f m x lines k S H N G L _ E Lt D. rewrite (C108_function W F mods C o co f m x lines S H N G L), E, (C68_function_partial lines k Lt D). reflexivity.
Qed.

(** a function of a module without a file, or whose module is not there: the file of its code *)
Theorem C108_no_module_file : forall W F mods C o co f m lines, says W o m -> has_code W o co f -> f <> "<stdin>" -> source_of F f lines ->
  get m mods = None \/ (exists x, get m mods = Some x /\ kind W x = KModule /\ mname W x <> "__main__" /\ mfile W x = None) ->
  findsource W F mods C o = match find_code lines (first F co) with Some i => inl (lines, i) | None => inr FIndexError end.
Proof.
  intros W F mods C o co f m lines S H N (p & P1 & P2 & P3) G. unfold findsource, which_lines. destruct (C106_says W mods C o m false S) as [-> _]. cbn [fst].
  assert (X : getfile_of W mods (get m mods) = inr TypeError).
  { unfold getfile_of. destruct G as [->|(x & -> & A & _ & B)]; [reflexivity|]. unfold getfile. rewrite A, B. reflexivity. }
  assert (M : match get m mods with Some x => String.eqb (mname W x) "__main__" && true | None => false end = false).
  { destruct G as [->|(x & -> & _ & B & _)]; [reflexivity|]. apply String.eqb_neq in B. rewrite B. reflexivity. }
  rewrite X, M. unfold which_file. rewrite X.
  assert (Y : getfile W mods o = inl f).
  { unfold getfile, unwrapped. destruct H as [[K|[g [K K']]] Kc]; rewrite K; repeat (rewrite ?K, ?K', ?Kc); reflexivity. }
  assert (Z : match kind W o with KClass => getfile W mods o | _ => inr TypeError end = inr TypeError) by (destruct H as [[K|[g [K _]]] _]; rewrite K; reflexivity).
  rewrite Z, Y, P1, P2, <- P2. rewrite P2. destruct lines as [|l ls]; [congruence|]. rewrite (search_function W F _ o co f H N).
  destruct (find_code (l :: ls) (first F co)); reflexivity.
Qed.

(** ** Classes, instances, modules, values *)
Theorem C108_class : forall W F mods C o m x lines, says W o m -> kind W o = KClass -> get m mods = Some x -> from_file W F x lines ->
  findsource W F mods C o = match find_class lines (fname F o) with Some i => inl (lines, i) | None => inr FIOError end.
Proof.
  intros W F mods C o m x lines S K G L. unfold findsource. rewrite (lines_of_class W F mods C o m x lines S K G L). unfold search. rewrite K.
  destruct (find_class lines (fname F o)); reflexivity.
Qed.
(** of an instance: its class, in the module the instance says *)
Theorem C108_instance : forall W F mods C o m x lines, says W o m -> kind W o = KOther -> get m mods = Some x -> from_file W F x lines ->
  findsource W F mods C o = match find_class lines (fname F (class_of F o)) with Some i => inl (lines, i) | None => inr FIOError end.
Proof.
  intros W F mods C o m x lines S K G L. unfold findsource. rewrite (lines_of_module W F mods C o m x lines S ltac:(rewrite K; discriminate) G L). unfold search. rewrite K.
  destruct (find_class lines (fname F (class_of F o))); reflexivity.
Qed.
Theorem C108_module : forall W F mods C o lines, from_file W F o lines -> findsource W F mods C o = inl (lines, 0).
Proof.
  intros W F mods C o lines (g & p & A & B & D & E & N). unfold findsource, which_lines, getmod. rewrite A. cbn [fst]. unfold getfile_of.
  assert (X : getfile W mods o = inl g) by (unfold getfile; rewrite A, B; reflexivity). rewrite X, andb_false_r. unfold which_file, getfile_of. rewrite A, X, D, E.
  unfold search. destruct lines; [congruence|]. rewrite A. reflexivity.
Qed.
Theorem C108_value : forall W F mods C o, plain_value W o -> findsource W F mods C o = inr FTypeError.
Proof.
  intros W F mods C o H. destruct (C106_value W mods C o H) as [E _]. destruct H as [A B]. unfold findsource, which_lines. rewrite E. cbn [fst]. unfold which_file, getfile_of, getfile, unwrapped.
  rewrite B. repeat rewrite B. reflexivity.
Qed.
Lemma last_char_app a c : last_char (a ++ String c "") = Some c.
Proof. induction a as [|d a IH]; [reflexivity|]. cbn [append last_char]. rewrite IH. destruct (a ++ String c "")%string eqn:E; [destruct a; discriminate|reflexivity]. Qed.
Lemma last_char_split s d : last_char s = Some d -> exists r, s = (r ++ String d "")%string.
Proof.
  induction s as [|c s IH]; [discriminate|]. cbn [last_char]. destruct s as [|c' s].
  - intros H. injection H as <-. exists "". reflexivity.
  - intros H. destruct (IH H) as [r E]. exists (String c r). cbn [append]. rewrite <- E. reflexivity.
Qed.
Lemma angles_spec s : angles s = true <-> exists m, s = ("<" ++ m ++ ">")%string.
Proof.
  unfold angles. destruct s as [|c s]; [split; [discriminate|intros [m E]; discriminate]|]. rewrite andb_true_iff, Ascii.eqb_eq. split.
  - intros [-> L]. destruct (last_char (String "<" s)) as [d|] eqn:E; [|discriminate]. apply Ascii.eqb_eq in L. subst d.
    destruct (last_char_split _ _ E) as [[|e r] Q]; [discriminate|]. cbn [append] in Q. injection Q as <- ->. exists r. reflexivity.
  - intros [m E]. cbn [append] in E. injection E as -> ->. split; [reflexivity|].
    change (String "<" (m ++ ">")) with (String "<" m ++ String ">" "")%string. rewrite last_char_app. reflexivity.
Qed.
(** a module whose file is given as <...> and has no source file, as the cells of a notebook: what linecache has under this name *)
Theorem C108_angles : forall W F mods C o m x e, says W o m -> kind W o <> KClass -> get m mods = Some x -> kind W x = KModule -> mfile W x = Some ("<" ++ e ++ ">")%string ->
  srcfile F ("<" ++ e ++ ">") = None -> contents F ("<" ++ e ++ ">") <> [] ->
  findsource W F mods C o = match search W F (contents F ("<" ++ e ++ ">")) o with inl i => inl (contents F ("<" ++ e ++ ">"), i) | inr f => inr f end.
Proof.
  intros W F mods C o m x e S K G A B D N. set (g := ("<" ++ e ++ ">")%string) in *. assert (Q : angles g = true) by (apply angles_spec; exists e; reflexivity). clearbody g.
  unfold findsource, which_lines. destruct (C106_says W mods C o m false S) as [-> _]. cbn [fst]. rewrite G. unfold getfile_of.
  assert (X : getfile W mods x = inl g) by (unfold getfile; rewrite A, B; reflexivity). rewrite X, andb_false_r. unfold which_file, getfile_of. rewrite X.
  destruct (kind W o) eqn:Ko; try (exfalso; apply K; reflexivity); rewrite D, Q; destruct (contents F g); try congruence; reflexivity.
Qed.
(** no source for the module's file (an extension module, a deleted file): IOError *)
Theorem C108_no_source : forall W F mods C o m x g, says W o m -> kind W o <> KClass -> get m mods = Some x -> kind W x = KModule -> mfile W x = Some g ->
  srcfile F g = None -> (forall e, g <> ("<" ++ e ++ ">")%string) -> findsource W F mods C o = inr FIOError.
Proof.
  intros W F mods C o m x g S K G A B D N'. assert (N : angles g = false).
  { destruct (angles g) eqn:E; [|reflexivity]. apply angles_spec in E. destruct E as [e E]. exfalso. exact (N' e E). }
  unfold findsource, which_lines. destruct (C106_says W mods C o m false S) as [-> _]. cbn [fst]. rewrite G. unfold getfile_of.
  assert (X : getfile W mods x = inl g) by (unfold getfile; rewrite A, B; reflexivity). rewrite X, andb_false_r. unfold which_file, getfile_of. rewrite X.
  destruct (kind W o); try (exfalso; apply K; reflexivity); rewrite D, N; reflexivity.
Qed.

(** ** The prompt *)
Lemma lines_prompt W F mods C o m x l : says W o m -> get m mods = Some x -> prompt W x -> typed F = Some l -> l <> [] -> which_lines W F mods C o = inl l.
Proof.
  intros S G (A & B & D) T N. unfold which_lines. destruct (C106_says W mods C o m false S) as [-> _]. cbn [fst]. rewrite G. unfold getfile_of.
  assert (X : getfile W mods x = inr TypeError) by (unfold getfile; rewrite A, D; reflexivity). rewrite X, B, T. cbn. destruct l; congruence.
Qed.
Theorem C108_typed : forall W F mods C o co m x l, says W o m -> has_code W o co "<stdin>" -> get m mods = Some x -> prompt W x -> typed F = Some l -> l <> [] ->
  let name := match kind W o with KMethod g => fname F g | _ => fname F o end in name <> "<lambda>" ->
  findsource W F mods C o = inl (l, find_history l name).
Proof.
  intros W F mods C o co m x l S H G P T N name Nl. unfold findsource. rewrite (lines_prompt W F mods C o m x l S G P T N). unfold name in *.
  destruct H as [[K|[g [K K']]] Kc]; unfold search; rewrite K in *; try rewrite K'; rewrite Kc; unfold search_code; cbn [String.eqb Ascii.eqb Bool.eqb];
  apply String.eqb_neq in Nl; rewrite Nl; reflexivity.
Qed.
Theorem C108_typed_class : forall W F mods C o m x l, says W o m -> kind W o = KClass -> get m mods = Some x -> prompt W x -> typed F = Some l -> l <> [] ->
  findsource W F mods C o = match find_class l (fname F o) with Some i => inl (l, i) | None => inr FIOError end.
Proof.
  intros W F mods C o m x l S K G P T N. unfold findsource. rewrite (lines_prompt W F mods C o m x l S G P T N). unfold search. rewrite K. destruct (find_class l (fname F o)); reflexivity.
Qed.
(** without a history *)
Theorem C108_no_history : forall W F mods C o m x, says W o m -> get m mods = Some x -> prompt W x -> typed F = None \/ typed F = Some [] -> findsource W F mods C o = inr FIOError.
Proof.
  intros W F mods C o m x S G (A & B & D) T. unfold findsource, which_lines. destruct (C106_says W mods C o m false S) as [-> _]. cbn [fst]. rewrite G. unfold getfile_of.
  assert (X : getfile W mods x = inr TypeError) by (unfold getfile; rewrite A, D; reflexivity). rewrite X, B. cbn. destruct T as [->| ->]; reflexivity.
Qed.

(** ** Code objects, frames, tracebacks: always their own file *)
(** paths that lead to one file have one text *)
Definition one_text (W : world) (F : files) : Prop := forall f g lines, paths W g (absfile W f) -> source_of F f lines -> source_of F g lines.
Lemma getmod_from W es mods C o f x : unshared W -> tidy W [] es -> history W es = (mods, C) -> runs W o f -> name_attr W o = None ->
  fst (getmod W mods C o) = Some x -> exists g, is_mod W x g /\ paths W g (absfile W f).
Proof.
  intros U T H R Na E. destruct (runs_file W mods o f R) as (K & M & Gf).
  destruct (history_good W U es [] [] (Caches [] []) T) as [Own G]; try (split; [constructor|discriminate]); try (split; discriminate); [intros k []|].
  change (fold_left (after W) es ([], Caches [] [])) with (history W es) in *. rewrite H in Own, G. cbn [fst snd] in Own, G.
  pose proof (getmod_good W mods C o U Own G) as G'. revert E G'. unfold getmod. destruct (kind W o) eqn:Ko; try (exfalso; apply K; reflexivity);
  rewrite M, Gf; cbv zeta; destruct (get (absfile W f) (byfile C)) as [n|] eqn:B; cbn [fst snd].
  all: try (intros E _; destruct G as [G1 _]; destruct (G1 _ _ B) as (y & g & Y1 & Y2 & Y3 & Y4); assert (y = x) by congruence; subst y; exists g; auto; fail).
  all: destruct (get (absfile W f) (byfile (fold_left (scan_step W) mods C))) as [n|] eqn:B'; cbn [fst snd]; intros E G'.
  all: try (destruct G' as [G1 _]; destruct (G1 _ _ B') as (y & g & Y1 & Y2 & Y3 & Y4); assert (y = x) by congruence; subst y; exists g; auto; fail).
  all: unfold by_name in E; rewrite Na in E; discriminate.
Qed.
(** After any history of imports and questions, if no two modules come from one file and each has its own name *)
Theorem C108_code : forall W F es mods C o co f lines, unshared W -> one_text W F -> tidy W [] es -> history W es = (mods, C) -> runs W o f -> name_attr W o = None -> f <> "<stdin>" ->
  kind W co = KCode f -> o = co \/ kind W o = KFrame co \/ (exists r, kind W o = KTraceback r /\ kind W r = KFrame co) -> source_of F f lines ->
  findsource W F mods C o = match find_code lines (first F co) with Some i => inl (lines, i) | None => inr FIndexError end.
Proof.
  intros W F es mods C o co f lines U O T H R Na Ns Kc Q Sf. unfold findsource.
  assert (S : search W F lines o = match find_code lines (first F co) with Some i => inl i | None => inr FIndexError end).
  { apply String.eqb_neq in Ns. unfold search. destruct Q as [->|[K|(r & K & K')]]; try rewrite K; try rewrite K'; rewrite Kc; unfold search_code; rewrite Ns; reflexivity. }
  assert (L : which_lines W F mods C o = inl lines).
  { destruct (runs_file W mods o f R) as (K & M & Gf). unfold which_lines. destruct (fst (getmod W mods C o)) as [x|] eqn:E.
    - destruct (getmod_from W es mods C o f x U T H R Na E) as (g & (Kx & Mx) & P). unfold getfile_of.
      assert (X : getfile W mods x = inl g) by (unfold getfile; rewrite Kx, Mx; reflexivity). rewrite X, andb_false_r. unfold which_file, getfile_of. rewrite X.
      destruct (O f g lines P Sf) as (p & P1 & P2 & P3).
      assert (Kn : kind W o <> KClass). { destruct Q as [->|[Q|(r & Q & _)]]; congruence. }
      destruct (kind W o); try (exfalso; apply Kn; reflexivity); rewrite P1, P2; destruct lines; congruence.
    - unfold getfile_of, which_file, getfile_of. rewrite Gf. destruct Sf as (p & P1 & P2 & P3). destruct (kind W o); rewrite P1, P2; destruct lines; congruence. }
  rewrite L, S. destruct (find_code lines (first F co)); reflexivity.
Qed.

(** ** A concrete world *)
(** modules app (1), deco (2), the prompt (3), math (4, no file); app.f (10) is decorated by deco.log: functools.wraps makes it say it is of app, its code (11) is the wrapper in deco.py;
    app.helper (12, code 13); a function typed at the prompt (14, code 15) and one read there by exec from a file (16, code 17); class app.A (18) and an instance of it (19);
    a frame (20) of the wrapper *)
Definition W2 : world :=
  World (fun o => match o with 1 | 2 | 3 | 4 => KModule | 10 => KFunction 11 | 11 => KCode "/w/deco.py" | 12 => KFunction 13 | 13 => KCode "/w/app.py" | 14 => KFunction 15 | 15 => KCode "<stdin>"
                  | 16 => KFunction 17 | 17 => KCode "/w/app.py" | 18 => KClass | 20 => KFrame 11 | _ => KOther end)
        (fun o => match o with 10 | 12 | 18 | 19 => Some (Some "app") | 14 | 16 => Some (Some "__main__") | _ => None end) (fun o => match o with 10 => Some "f" | 12 => Some "helper" | 18 => Some "A" | _ => None end)
        (fun o => match o with 1 => "app" | 2 => "deco" | 3 => "__main__" | 4 => "math" | _ => "" end)
        (fun o => match o with 1 => Some "/w/app.py" | 2 => Some "/w/deco.py" | _ => None end) (fun _ => []) (fun _ => "") (fun f => f) (fun f => f) 4.
Definition app_py : list string := ["from deco import log" ++ nl; "def helper():" ++ nl; "    return 1" ++ nl; "@log" ++ nl; "def f(x):" ++ nl; "    return x" ++ nl; "class A:" ++ nl; "    pass" ++ nl].
Definition deco_py : list string := ["import functools" ++ nl; "def log(f):" ++ nl; "    @functools.wraps(f)" ++ nl; "    def w(*a):" ++ nl; "        return f(*a)" ++ nl; "    return w" ++ nl].
Definition session : list string := ["import app" ++ nl; "def g(): return 2" ++ nl; "def h(): return 3" ++ nl].
Definition F2 : files :=
  Files (fun f => if String.eqb f "/w/app.py" || String.eqb f "/w/deco.py" then Some f else None)
        (fun f => if String.eqb f "/w/app.py" then app_py else if String.eqb f "/w/deco.py" then deco_py else [])
        (Some session) (fun c => match c with 11 => 3 | 13 => 2 | 15 => 1 | 17 => 2 | _ => 1 end)
        (fun o => match o with 10 => "f" | 12 => "helper" | 14 => "g" | 16 => "helper" | 18 => "A" | _ => "" end) (fun o => 18) (fun _ _ => 0).
Definition h2 : list event := [Import "__main__" 3; Import "deco" 2; Import "app" 1; Ask 20].

Theorem C108_case : let (mods, C) := history W2 h2 in
  says W2 12 "app" /\ has_code W2 12 13 "/w/app.py" /\ get "app" mods = Some 1 /\ from_file W2 F2 1 app_py /\ source_of F2 "/w/app.py" app_py /\ is_def (nth 1 app_py "") /\
  findsource W2 F2 mods C 12 = inl (app_py, 1) /\ findsource W2 F2 mods C 14 = inl (session, 1) /\ findsource W2 F2 mods C 18 = inl (app_py, 6) /\ findsource W2 F2 mods C 19 = inl (app_py, 6).
Proof.
  unfold h2. vm_compute (history _ _). repeat split; try discriminate; try (vm_compute; reflexivity); try (left; reflexivity).
  - exists "/w/app.py", "/w/app.py". repeat split; discriminate.
  - exists "/w/app.py". repeat split; discriminate.
  - exists "", " "%char, ("helper():" ++ nl). repeat split; reflexivity.
Qed.

(** the hypotheses of C108_code are met by the frame: it gives the wrapper's lines *)
Theorem C108_code_case : unshared W2 /\ one_text W2 F2 /\ tidy W2 [] h2 /\ runs W2 20 "/w/deco.py" /\ (let (mods, C) := history W2 h2 in findsource W2 F2 mods C 20 = inl (deco_py, 2)).
Proof.
  split; [|split; [|split; [|split]]].
  - intros x y f g p [K1 M1] [K2 M2] P Q. unfold paths in *. cbn [absfile realfile W2] in *.
    assert (f = g) by (destruct P as [->| ->], Q as [->| ->]; reflexivity). subst g.
    destruct x as [|[|[|[|x]]]]; cbn [mfile W2] in M1; try discriminate; destruct y as [|[|[|[|y]]]]; cbn [mfile W2] in M2; try discriminate; congruence.
  - intros f g lines P S. unfold paths in P. cbn [absfile realfile W2] in P. assert (g = f) by (destruct P; auto). subst g. exact S.
  - cbn. repeat split; auto; intuition discriminate.
  - split; [reflexivity|]. right. left. exists 11. split; reflexivity.
  - vm_compute. reflexivity.
Qed.

(** REFUTED: a function decorated with functools.wraps from another module. The lines are those of the module of the decorated function, the number is that of the wrapper in
    the decorator's file: the source found is that of another function *)
Theorem C108_wraps_refuted : let (mods, C) := history W2 h2 in
  says W2 10 "app" /\ has_code W2 10 11 "/w/deco.py" /\ source_of F2 "/w/deco.py" deco_py /\ is_decorator (nth 2 deco_py "") /\
  findsource W2 F2 mods C 10 = inl (app_py, 1) /\ nth 1 app_py "" = "def helper():" ++ nl /\ app_py <> deco_py.
Proof.
  unfold h2. vm_compute (history _ _). repeat split; try discriminate; try (vm_compute; reflexivity); try (left; reflexivity).
  - exists "/w/deco.py". repeat split; discriminate.
  - exists "    ", ("functools.wraps(f)" ++ nl). split; reflexivity.
Qed.

(** REFUTED: code of a file run at the prompt (exec) is looked for in the history, at its line of the file *)
Theorem C108_exec_refuted : let (mods, C) := history W2 h2 in
  says W2 16 "__main__" /\ has_code W2 16 17 "/w/app.py" /\ nth 1 app_py "" = "def helper():" ++ nl /\
  findsource W2 F2 mods C 16 = inl (session, 1) /\ nth 1 session "" = "def g(): return 2" ++ nl.
Proof. unfold h2. vm_compute (history _ _). repeat split; try discriminate; try (vm_compute; reflexivity); try (left; reflexivity). Qed.

(** ** Typed code objects *)
Definition could_be (s : string) : Prop := is_def s \/ is_decorator s \/ has_lambda s.
Lemma pat_code_spec s : pat_code s = true <-> could_be s.
Proof. unfold pat_code, could_be. rewrite !orb_true_iff, m_def_spec, m_lambda_spec, m_at_spec. tauto. Qed.
(** where the lines of typed code are at hand: the last line that could be its first, above the decorators right above it; the first line of the session is not looked at *)
Theorem C108_any : forall lines d h, 0 < d < List.length lines -> could_be (nth d lines "") -> (forall j, d < j < List.length lines -> ~ could_be (nth j lines "")) ->
  h <= d -> (forall j, d - h <= j < d -> is_decorator (nth j lines "")) -> (h = d \/ ~ is_decorator (nth (d - h - 1) lines "")) ->
  find_any lines (List.length lines - 1) = d - h.
Proof.
  intros lines d h D M A L B E. rewrite <- (hats_unique lines d h L B E).
  assert (X : forall n, d <= n < List.length lines -> find_any lines n = d - hats lines d).
  { induction n as [|n IH]; intros R; [lia|]. cbn [find_any]. destruct (Nat.eq_dec d (Datatypes.S n)) as [->|N].
    - apply pat_code_spec in M. rewrite M. reflexivity.
    - assert (Q : pat_code (nth (Datatypes.S n) lines "") = false).
      { destruct (pat_code (nth (Datatypes.S n) lines "")) eqn:Q; [|reflexivity]. apply pat_code_spec in Q. exfalso. apply (A (Datatypes.S n)); [lia|exact Q]. }
      rewrite Q. apply IH. lia. }
  apply X. lia.
Qed.
(** ... and if none of the lines after the first could be, the first *)
Theorem C108_any_first : forall lines, (forall j, 0 < j < List.length lines -> ~ could_be (nth j lines "")) -> find_any lines (List.length lines - 1) = 0.
Proof.
  intros lines A. assert (X : forall n, n < List.length lines \/ n = 0 -> find_any lines n = 0).
  { induction n as [|n IH]; intros R; [reflexivity|]. cbn [find_any]. destruct (pat_code (nth (Datatypes.S n) lines "")) eqn:Q.
    - apply pat_code_spec in Q. exfalso. apply (A (Datatypes.S n)); [lia|exact Q].
    - apply IH. lia. }
  apply X. destruct lines; cbn [List.length]; lia.
Qed.
(** REFUTED: but they are not at hand: the code object of a typed function is asked for in a file called <stdin>, after any history: IOError, where the function itself is found (C108_typed) *)
Theorem C108_typed_code_refuted : forall W F es mods C o, unshared W -> tidy W [] es -> history W es = (mods, C) -> runs W o "<stdin>" -> name_attr W o = None ->
  (forall k x g, get k mods = Some x -> is_mod W x g -> ~ paths W g (absfile W "<stdin>")) -> srcfile F "<stdin>" = None -> contents F "<stdin>" = [] ->
  findsource W F mods C o = inr FIOError.
Proof.
  intros W F es mods C o U T H R Na N S E. destruct (runs_file W mods o _ R) as (K & M & G). unfold findsource, which_lines.
  destruct (C106_code_none W es mods C o _ U T H R Na N) as [-> _]. unfold which_file, getfile_of. rewrite G, S.
  assert (A : angles "<stdin>" = true) by reflexivity. destruct (kind W o); try rewrite S; rewrite A; cbv beta iota; rewrite E; reflexivity.
Qed.
Theorem C108_typed_code_case : let (mods, C) := history W2 h2 in runs W2 15 "<stdin>" /\ findsource W2 F2 mods C 14 = inl (session, 1) /\ findsource W2 F2 mods C 15 = inr FIOError.
Proof. unfold h2. vm_compute (history _ _). split; [|split; vm_compute; reflexivity]. split; [reflexivity|]. left. reflexivity. Qed.
