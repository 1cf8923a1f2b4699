(** C88: cases of the theorems, and closures whose text is wrong. *)
From Coq Require Import String Ascii List Bool Arith Lia.
From Verif Require Import PyDict DescrModel CheckModel FindModel BlocksModel NamesModel DumpsourceModel AliasModel AliasProps ImportableModel ClosrcModel ClosrcProps.
Import ListNotations.
Local Open Scope string_scope.
Local Notation nl := DumpsourceModel.nl.

Lemma runs_one P G N T n v : (forall g, exec P T g = Some (set n v g)) -> G n = Some v -> (T = "" \/ exists s, T = s ++ String lf "") -> runs P G N T [n].
Proof.
  intros E Gn L. split; [exact L|]. intros g _. exists (set n v g). split; [apply E|]. intros y. destruct (string_dec y n) as [->|Ny].
  - rewrite get_set_same. rewrite (proj2 (memb_In n [n]) (or_introl eq_refl)). symmetry; exact Gn.
  - rewrite get_set_other by exact Ny. rewrite (proj2 (memb_nIn y [n])) by (intros [X|[]]; congruence). reflexivity.
Qed.

(** def outer():
        x = 1
        def g(): return x*2
        def f(y): return g() + K + y
        return f
    in __main__; f: 0, g: 1, x: 2, the global K: 3 *)
Definition f_lines := ["def f(y):"; "    return g() + K + y"].
Definition g_lines := ["def g():"; "    return x*2"].
Definition text (l : list string) : string := unlines l ++ nl.
Definition main_world (globals_of : nat -> list (string * nat)) (builtin : nat -> bool) : world := {|
  frommain := fun _ => true; isbuiltin_ := fun x => match x with Obj o => builtin o | _ => false end; isinst := fun _ => false; inst_import := fun _ => None;
  closure_imports := fun _ => None; closure_sources := fun _ => None;
  globalvars_ := fun x => match x with Obj o => Some (globals_of o) | _ => None end; source_as := fun _ _ => None |}.
Definition nested : closures := {|
  vars := fun o => match o with 0 => [("g", 1)] | 1 => [("x", 2)] | _ => [] end;
  isfun := fun o => Nat.leb o 1;
  text_of := fun o _ _ _ _ => match o with 0 => Some (text f_lines) | 1 => Some (text g_lines) | 2 => Some ("x = 1" ++ nl) | 3 => Some ("K = 3" ++ nl) | _ => None end;
  rest := fun _ => main_world (fun o => match o with 0 => [("K", 3)] | _ => [] end) (fun _ => false) |}.
Definition makes (l : list string) : nat :=
  if list_eq_dec string_dec l f_lines then 0 else if list_eq_dec string_dec l g_lines then 1 else if list_eq_dec string_dec l ["1"] then 2 else if list_eq_dec string_dec l ["3"] then 3 else 9.
Definition stands (n : string) : option nat :=
  if String.eqb n "f" then Some 0 else if String.eqb n "g" then Some 1 else if String.eqb n "x" then Some 2 else if String.eqb n "K" then Some 3 else None.
Definition names_of (o : nat) : string := match o with 0 => "f" | _ => "g" end.
Lemma text_ends l : exists s, text l = s ++ String lf "".
Proof. exists (unlines l). reflexivity. Qed.
Theorem C88_case : described nested makes stands names_of [] 0 "" 0 /\
  importable_source 3 nested 0 "" None = Some ("K = 3" ++ nl ++ "x = 1" ++ nl ++ nl ++ text g_lines ++ nl ++ text f_lines).
Proof.
  split; [|vm_compute; reflexivity].
  assert (sourced_as nested makes stands "K" 3) as SK.
  { exists ("K = 3" ++ nl), ["K"]. split; [reflexivity|]. split; [|left; reflexivity]. apply (runs_one _ _ _ _ _ 3); [intros g; vm_compute; reflexivity|reflexivity|right; exists "K = 3"; reflexivity]. }
  assert (sourced_as nested makes stands "x" 2) as Sx.
  { exists ("x = 1" ++ nl), ["x"]. split; [reflexivity|]. split; [|left; reflexivity]. apply (runs_one _ _ _ _ _ 2); [intros g; vm_compute; reflexivity|reflexivity|right; exists "x = 1"; reflexivity]. }
  apply Described with (d := [("K", 3)]) (t := text f_lines) (names := ["f"]).
  - left; reflexivity.
  - reflexivity.
  - reflexivity.
  - intros n o [X|[]]. injection X; intros; subst. split; [reflexivity|]. split; [reflexivity|exact SK].
  - intros _; reflexivity.
  - intros _; reflexivity.
  - apply (runs_one _ _ _ _ _ 0); [intros g; vm_compute; reflexivity|reflexivity|right; apply text_ends].
  - left; reflexivity.
  - reflexivity.
  - intros n o [X|[]]. injection X; intros; subst. split; [discriminate|reflexivity].
  - intros n o [X|[]] F. injection X; intros; subst. discriminate.
  - intros n o [X|[]] F. injection X; intros; subst. exists (text g_lines). split; reflexivity.
  - intros n o [X|[]] F. injection X; intros; subst. apply Described with (d := []) (t := text g_lines) (names := ["g"]).
    + left; reflexivity.
    + reflexivity.
    + reflexivity.
    + intros n o [].
    + intros _; reflexivity.
    + intros _; reflexivity.
    + apply (runs_one _ _ _ _ _ 1); [intros g; vm_compute; reflexivity|reflexivity|right; apply text_ends].
    + left; reflexivity.
    + reflexivity.
    + intros n o [Y|[]]. injection Y; intros; subst. split; [discriminate|reflexivity].
    + intros n o [Y|[]] G. injection Y; intros; subst. exact Sx.
    + intros n o [Y|[]] G. injection Y; intros; subst. discriminate.
    + intros n o [Y|[]] G. injection Y; intros; subst. discriminate.
Qed.

(** def twice(h):                     twice: 4
        def run(x): return h(h(x))    
        return run
    @twice
    def f(x): return x + 1
    importable(f): f is the run of h = the function f without its decorator; run: 0, h: 1 *)
Definition twice_lines := ["def twice(h):"; "    def run(x):"; "        return h(h(x))"; "    return run"].
Definition hat_lines := ["@twice"; "def f(x):"; "    return x + 1"].
Definition decorated : closures := {|
  vars := fun o => match o with 0 => [("h", 1)] | _ => [] end;
  isfun := fun o => Nat.leb o 1;
  text_of := fun o alias _ enclosing _ => match o with
    | 0 => if enclosing then Some (text twice_lines) else None
    | 1 => Some (text hat_lines ++ (if String.eqb alias "" then "" else nl ++ alias ++ " = f" ++ nl))
    | _ => None end;
  rest := fun _ => main_world (fun _ => []) (fun _ => false) |}.
Definition makes2 (l : list string) : nat := if list_eq_dec string_dec l hat_lines then 0 else 4.
Definition stands2 (n : string) : option nat := if String.eqb n "f" || String.eqb n "F" then Some 0 else if String.eqb n "twice" then Some 4 else None.
Lemma runs_hat N : runs makes2 stands2 N (text hat_lines ++ nl ++ "F = f" ++ nl) ["f"; "F"].
Proof.
  split; [right; exists (text hat_lines ++ nl ++ "F = f"); reflexivity|]. intros g _. exists (set "F" 0 (set "f" 0 g)). split.
  - change (text hat_lines ++ nl ++ "F = f" ++ nl) with (text hat_lines ++ alias_line "F" "f").
    apply (exec_append makes2 _ g (set "f" 0 g)); [reflexivity|reflexivity|vm_compute; reflexivity|apply get_set_same].
  - intros y. destruct (string_dec y "F") as [->|NF]; [rewrite get_set_same; reflexivity|]. rewrite get_set_other by exact NF.
    destruct (string_dec y "f") as [->|Nf]; [rewrite get_set_same; reflexivity|]. rewrite get_set_other by exact Nf.
    rewrite (proj2 (memb_nIn y ["f"; "F"])) by (intros [X|[X|[]]]; congruence). reflexivity.
Qed.
Theorem C88_decorated_case : exists T, importable_source 3 decorated 0 "F" None = Some T /\ T = text twice_lines ++ nl ++ text hat_lines ++ nl ++ "F = f" ++ nl /\
  (exists k, forall fuel, k <= fuel -> exists T, importable_source fuel decorated 0 "F" None = Some T /\
     forall g, exists g2, exec makes2 T g = Some g2 /\ get "F" g2 = Some 0).
Proof.
  exists (text twice_lines ++ nl ++ text hat_lines ++ nl ++ "F = f" ++ nl). split; [vm_compute; reflexivity|]. split; [reflexivity|].
  destruct (C88_decorated_partial decorated makes2 stands2 (fun _ => "f") 0 "F" None [] (text twice_lines) ["twice"] "h" 1) as [k K].
  - left; reflexivity.
  - reflexivity.
  - left; reflexivity.
  - reflexivity.
  - intros n o [].
  - reflexivity.
  - apply (runs_one _ _ _ _ _ 4); [intros g; vm_compute; reflexivity|reflexivity|right; apply text_ends].
  - intros n o [X|[]] F. injection X; intros; subst. discriminate.
  - intros n o [X|[]] F. injection X; intros; subst. eexists. split; reflexivity.
  - intros n o [X|[]] F. injection X; intros; subst. apply Described with (d := []) (t := text hat_lines ++ nl ++ "F = f" ++ nl) (names := ["f"; "F"]).
    + left; reflexivity.
    + reflexivity.
    + reflexivity.
    + intros n o [].
    + intros _; reflexivity.
    + intros _; reflexivity.
    + apply runs_hat.
    + right; left; reflexivity.
    + reflexivity.
    + intros n o [].
    + intros n o [].
    + intros n o [].
    + intros n o [].
  - left; reflexivity.
  - reflexivity.
  - exists k. intros fuel L. destruct (K fuel L) as (T & E & R). exists T. split; [exact E|]. intros g. destruct (R g) as (g2 & Eg & A & _). exists g2. split; [exact Eg|exact A].
Qed.

(** two variables x in different scopes:
    def make():
        x = 2
        def g(): return x          g: 1, this x: 3
        return g
    def outer():
        x = 1; g = make()
        def f(): return x + g()    f: 0, this x: 2
        return f
    executing the text leaves one variable x, that of g *)
Definition reused : closures := {|
  vars := fun o => match o with 0 => [("x", 2); ("g", 1)] | 1 => [("x", 3)] | _ => [] end;
  isfun := fun o => Nat.leb o 1;
  text_of := fun o _ _ _ _ => match o with 0 => Some (text ["def f():"; "    return x + g()"]) | 1 => Some (text ["def g():"; "    return x"]) | 2 => Some ("x = 1" ++ nl) | 3 => Some ("x = 2" ++ nl) | _ => None end;
  rest := fun _ => main_world (fun _ => []) (fun _ => false) |}.
Theorem C88_reused_refuted : exists T, importable_source 3 reused 0 "" None = Some T /\ refers reused 0 "" "x" 2 /\
  forall P g, exists g2, exec P T g = Some g2 /\ get "x" g2 = Some (P ["2"]) /\ get "f" g2 = Some (P ["def f():"; "    return x + g()"]).
Proof.
  exists ("x = 1" ++ nl ++ nl ++ "x = 2" ++ nl ++ nl ++ text ["def g():"; "    return x"] ++ nl ++ text ["def f():"; "    return x + g()"]).
  split; [vm_compute; reflexivity|]. split; [apply by_var; left; reflexivity|]. intros P g.
  exists (set "f" (P ["def f():"; "    return x + g()"]) (set "g" (P ["def g():"; "    return x"]) (set "x" (P ["2"]) (set "x" (P ["1"]) g)))).
  split; [vm_compute; reflexivity|]. split; [|apply get_set_same]. rewrite !get_set_other by discriminate. apply get_set_same.
Qed.

(** from math import sin
    def f(x): return sin(x)
    the source text of f lacks the import, because sin is a builtin function *)
Definition trig : closures := {|
  vars := fun _ => []; isfun := fun o => Nat.eqb o 0;
  text_of := fun o _ _ _ _ => match o with 0 => Some (text ["def f(x):"; "    return sin(x)"]) | 1 => Some ("from math import sin" ++ nl) | _ => None end;
  rest := fun _ => main_world (fun o => match o with 0 => [("sin", 1)] | _ => [] end) (fun o => Nat.eqb o 1) |}.
Theorem C88_builtin_refuted : refers trig 0 "" "sin" 1 /\ exists T, importable_source 1 trig 0 "" None = Some T /\ T = text ["def f(x):"; "    return sin(x)"] /\
  forall P g, exists g2, exec P T g = Some g2 /\ get "sin" g2 = get "sin" g.
Proof.
  split; [apply (by_global trig 0 "" [("sin", 1)]); [reflexivity|left; reflexivity]|].
  exists (text ["def f(x):"; "    return sin(x)"]). split; [vm_compute; reflexivity|]. split; [reflexivity|]. intros P g.
  exists (set "f" (P ["def f(x):"; "    return sin(x)"]) g). split; [vm_compute; reflexivity|]. apply get_set_other. discriminate.
Qed.

(** def outer():
        def fact(n): return 1 if n < 2 else n * fact(n - 1)
        return fact *)
Theorem C88_recursive_case : forall W, vars W 0 = [("fact", 0)] -> isfun W 0 = true -> (forall alias, by_import (rest W alias) (Obj 0) = None) ->
  forall fuel alias source, importable_source fuel W 0 alias source = None.
Proof.
  intros W V F Bi fuel alias source. apply (C88_recursive_refuted W (fun f => f = 0)); [|reflexivity].
  intros f ->. split; [exact Bi|]. exists "fact", 0. rewrite V. split; [left; reflexivity|]. split; [exact F|reflexivity].
Qed.
