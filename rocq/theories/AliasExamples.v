(** C83, C84: cases that meet the hypotheses, and the cases where the claims fail. *)
From Coq Require Import String Ascii List Bool Arith.
From Verif Require Import PyDict DescrModel CheckModel FindModel BlocksModel NamesModel DumpsourceModel AliasModel DumpsourceProps AliasProps.
Import ListNotations.
Local Open Scope string_scope.
Local Notation nl := DumpsourceModel.nl.

(** ** cases *)
Definition nested : list string := ["    @memoize" ++ nl; "    def area(r, pi=3.14):" ++ nl; "        # circle" ++ nl; nl; "        return pi*r**2" ++ nl].
Theorem C83_named_case : forall P, exists text g2, getsource (Callable "area") "surface" false nested = Some text /\ exec P text [] = Some g2 /\
  exists o, get "surface" g2 = Some o /\ get "area" g2 = Some o /\ o = P ["@memoize"; "def area(r, pi=3.14):"; "    # circle"; "    return pi*r**2"].
Proof.
  intros P. set (o := P ["@memoize"; "def area(r, pi=3.14):"; "    # circle"; "    return pi*r**2"]).
  destruct (C83_named_partial P (Callable "area") "area" "surface" nested [] [("area", o)] o) as (text & g2 & A & B & C & D).
  - right. split; [reflexivity|]. exists ("def area(r, pi=3.14):" ++ nl). split; [vm_compute; reflexivity|left; reflexivity].
  - reflexivity.
  - reflexivity.
  - vm_compute. reflexivity.
  - reflexivity.
  - exists text, g2. split; [exact A|]. split; [exact B|]. exists o. split; [exact C|]. split; [|reflexivity]. rewrite D by discriminate. reflexivity.
Qed.
Definition two_lines : string := "f = h= (lambda x," ++ nl ++ "     y: x + y)".
Lemma two_lines_assigns : assigns ("(lambda x," ++ nl ++ "     y: x + y)") ["f"; "h"] two_lines.
Proof. apply (tgt _ "f" ["h"] " " " " ("h= (lambda x," ++ nl ++ "     y: x + y)")); [reflexivity..|]. apply (tgt _ "h" [] "" " "); [reflexivity..|]. constructor. Qed.
Theorem C83_lambda_case : forall P, exists text g1 g2, getsource (Callable "<lambda>") "add" false (lines_of two_lines) = Some text /\
  exec P (String.concat "" (outdent (lines_of two_lines))) [] = Some g1 /\ exec P text [] = Some g2 /\
  extends g1 g2 "add" (P [rstrip ("(lambda x," ++ nl ++ "     y: x + y)")]) /\ forall t, In t ["f"; "h"] -> get t g2 = Some (P [rstrip ("(lambda x," ++ nl ++ "     y: x + y)")]).
Proof.
  intros P. apply (C83_lambda_partial P "<lambda>" "add" (lines_of two_lines) two_lines ["f"; "h"] ("(lambda x," ++ nl ++ "     y: x + y)") []).
  - reflexivity.
  - vm_compute. reflexivity.
  - exact two_lines_assigns.
  - right. eexists. reflexivity.
  - exists 0. split; reflexivity.
  - reflexivity.
Qed.
Theorem C83_instance_case : forall P, exists text g2, getsource (Instance "Point(1, y=2)") "p" false ["class Point:" ++ nl; "    x = 0" ++ nl] = Some text /\ exec P text [] = Some g2 /\
  extends [("Point", P ["class Point:"; "    x = 0"])] g2 "p" (P ["Point(1, y=2)"]).
Proof.
  intros P. apply (C83_instance_partial P "Point" "1, y=2)" "p" ["class Point:" ++ nl; "    x = 0" ++ nl] ("class Point:" ++ nl ++ "    x = 0")); vm_compute; reflexivity.
Qed.
Theorem C84_case : forall P, getname "<lambda>" ["        f = g = lambda x=1: x" ++ nl] = Some "f" /\
  exists g1, exec P (String.concat "" (outdent ["        f = g = lambda x=1: x" ++ nl])) [] = Some g1 /\ get "f" g1 = Some (P ["lambda x=1: x"]).
Proof.
  intros P. apply (C84_getname_partial P ["        f = g = lambda x=1: x" ++ nl] "        " "f = g = lambda x=1: x" "f" ["g"] "lambda x=1: x" []).
  - reflexivity.
  - vm_compute. reflexivity.
  - vm_compute. reflexivity.
  - apply (tgt _ "f" ["g"] " " " " "g = lambda x=1: x"); [reflexivity..|]. apply (tgt _ "g" [] " " " "); [reflexivity..|]. constructor.
  - left. exists "x"%char, "=1: x". split; reflexivity.
  - vm_compute. reflexivity.
Qed.

(** ** where the claim fails *)
(** a lambda without arguments: there is no "lambda " in the line, and  g = <lambda>  is appended *)
Theorem C83_no_arguments_refuted : forall P, let lines := ["f = lambda: 0" ++ nl] in
  exec P (String.concat "" lines) [] = Some [("f", P ["lambda: 0"])] /\
  exists text, getsource (Callable "<lambda>") "g" false lines = Some text /\ text = "f = lambda: 0" ++ nl ++ nl ++ "g = <lambda>" ++ nl /\ exec P text [] = None.
Proof. intros P. split; [vm_compute; reflexivity|]. eexists. split; [vm_compute; reflexivity|]. split; vm_compute; reflexivity. Qed.
(** an annotated assignment: SyntaxError, even for the alias that is the name *)
Theorem C83_annotated_refuted : forall P, let lines := ["f: Callable = lambda x: x" ++ nl] in
  exec P (String.concat "" lines) [] = Some [("f", P ["lambda x: x"])] /\
  exists text, getsource (Callable "<lambda>") "f" false lines = Some text /\ text = "f = f: Callable = lambda x: x" ++ nl /\ exec P text [] = None.
Proof. intros P. split; [vm_compute; reflexivity|]. eexists. split; [vm_compute; reflexivity|]. split; vm_compute; reflexivity. Qed.
(** a lambda that is an argument: the alias is bound to what the call returns *)
Theorem C83_argument_refuted : forall P, exists text g2, getsource (Callable "<lambda>") "g" false ["f = jit(lambda x: x)" ++ nl] = Some text /\
  exec P text [] = Some g2 /\ get "g" g2 = Some (P ["jit(lambda x: x)"]).
Proof. intros P. eexists. eexists. split; [vm_compute; reflexivity|]. split; vm_compute; reflexivity. Qed.
(** a lambda that is returned *)
Theorem C83_return_refuted : forall P, exists text, getsource (Callable "<lambda>") "g" false ["    return lambda x: x" ++ nl] = Some text /\ text = "g = return lambda x: x" ++ nl /\ exec P text [] = None.
Proof. intros P. eexists. split; [vm_compute; reflexivity|]. split; vm_compute; reflexivity. Qed.
(** a function whose __name__ was changed (functools.wraps): NameError *)
Theorem C83_wraps_refuted : forall P, let lines := ["def wrapper(x):" ++ nl; "    return x" ++ nl] in
  exec P (String.concat "" lines) [] = Some [("wrapper", P ["def wrapper(x):"; "    return x"])] /\
  exists text, getsource (Callable "wrapped") "g" false lines = Some text /\ exec P text [] = None.
Proof. intros P. split; [vm_compute; reflexivity|]. eexists. split; [vm_compute; reflexivity|vm_compute; reflexivity]. Qed.
(** a decorator over two lines with a lambda on the second: the alias becomes a keyword argument of the decorator, and no variable *)
Theorem C83_decorator_refuted : forall P, let lines := ["@sort_by(" ++ nl; "    lambda x: -x)" ++ nl; "def f(x):" ++ nl; "    return x" ++ nl] in
  exec P (String.concat "" lines) [] = Some [("f", P ["@sort_by("; "    lambda x: -x)"; "def f(x):"; "    return x"])] /\
  exists text g2, getsource (Callable "f") "g" false lines = Some text /\ exec P text [] = Some g2 /\ get "g" g2 = None /\
    get "f" g2 = Some (P ["@sort_by("; "g =     lambda x: -x)"; "def f(x):"; "    return x"]).
Proof. intros P. split; [vm_compute; reflexivity|]. eexists. eexists. split; [vm_compute; reflexivity|]. split; [vm_compute; reflexivity|]. split; vm_compute; reflexivity. Qed.
(** async def with a lambda as default: SyntaxError *)
Theorem C83_async_refuted : forall P, let lines := ["async def f(x, key=lambda x: x):" ++ nl; "    return key(x)" ++ nl] in
  (exists g1, exec P (String.concat "" lines) [] = Some g1 /\ get "f" g1 <> None) /\
  exists text, getsource (Callable "f") "g" false lines = Some text /\ exec P text [] = None.
Proof. intros P. split; [eexists; split; [vm_compute; reflexivity|vm_compute; discriminate]|]. eexists. split; [vm_compute; reflexivity|vm_compute; reflexivity]. Qed.
(** an instance whose repr has a bracket but is no expression *)
Theorem C83_repr_refuted : forall P, let lines := ["class A:" ++ nl; "    x = 0" ++ nl] in
  (exists g1, exec P (String.concat "" lines) [] = Some g1) /\
  exists text, getsource (Instance "<A (1)>") "g" false lines = Some text /\ exec P text [] = None.
Proof. intros P. split; [eexists; vm_compute; reflexivity|]. eexists. split; [vm_compute; reflexivity|vm_compute; reflexivity]. Qed.
(** indentation by tabs: eight characters are cut from each line for each tab *)
Definition tab : string := String (ascii_of_nat 9) "".
Theorem C83_tabs_refuted : forall P, let lines := [tab ++ "def f(x):" ++ nl; tab ++ tab ++ "return x + 1" ++ nl] in
  exists text, getsource (Callable "f") "g" false lines = Some text /\ text = "):" ++ nl ++ " x + 1" ++ nl ++ nl ++ "g = f" ++ nl /\ exec P text [] = None.
Proof. intros P. eexists. split; [vm_compute; reflexivity|]. split; vm_compute; reflexivity. Qed.
(** getname of a lambda that is not assigned to a name is no name *)
Theorem C84_refuted : getname "<lambda>" ["rows.sort(key=lambda r: r[0])" ++ nl] = Some "rows.sort(key" /\ getname "<lambda>" ["f: Callable = lambda x: x" ++ nl] = Some "f: Callable" /\
  getname "<lambda>" ["    return lambda x: x" ++ nl] = Some "return lambda x: x" /\ getname "<lambda>" ["if quick: f = lambda x: x" ++ nl] = Some "if quick: f".
Proof. split; [|split; [|split]]; vm_compute; reflexivity. Qed.
Theorem C83_outdent_case : outdent nested = ["@memoize" ++ nl; "def area(r, pi=3.14):" ++ nl; "    # circle" ++ nl; ""; "    return pi*r**2" ++ nl].
Proof.
  apply (C83_outdent_partial 4 ("@memoize" ++ nl)); [reflexivity|]. repeat constructor.
  - apply (cut_all 4 ("def area(r, pi=3.14):" ++ nl)).
  - apply (cut_all 4 ("    # circle" ++ nl)).
  - apply (cut_own 4 nl ""); [reflexivity| |exact I]. cbn. repeat constructor.
  - apply (cut_all 4 ("    return pi*r**2" ++ nl)).
Qed.
