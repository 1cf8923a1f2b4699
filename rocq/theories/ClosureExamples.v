(** C86, C87: concrete files, and the refutations. *)
From Coq Require Import String Ascii List Bool Arith Lia.
From Verif Require Import PyDict NamesModel NamesProofs DescrModel CheckModel ImportModel FindModel DumpsourceModel AliasModel ImportableModel BlocksModel ClosureModel
  DescrProps FindProps ImportProps DumpsourceProps AliasProps NamespaceProps ClosureProps.
Import ListNotations.
Local Open Scope string_scope.
Local Notation exec := ImportModel.exec.
Local Notation nl := ImportModel.nl.

(** the functions of one file, module [mod_name]: object -> (name, the line of its code, counted from 1); the blocks of the file have the lengths [lens] *)
Definition in_file (mod_name : string) (lines : list string) (lens : list nat) (funs : list (nat * (string * nat))) (globals : list (string * nat)) (frees : list (nat * list (string * nat))) : objects :=
  {| free := fun o => match get o frees with Some l => l | None => [] end;
     is_function := fun o => match get o funs with Some _ => true | None => false end;
     global_names := fun o => match get o funs with Some _ => Some globals | None => None end;
     block_of := fun o enclosing => match get o funs with
                 | Some (_, first) => match find_code lines first with
                    | Some l => match getsourcelines lines (fun i => nth i lens 1) 100 enclosing l with Some (s, n, r) => Some (firstn n (skipn s lines), r) | None => None end
                    | None => None end
                 | None => None end;
     file_of := fun o => match get o funs with Some _ => Some lines | None => None end;
     source_of := fun o => match get o funs with
                 | Some (_, first) => match find_code lines first with Some l => Some (String.concat "" (firstn (nth l lens 1) (skipn l lines))) | None => None end
                 | None => None end;
     name_of := fun o => match get o funs with Some (n, _) => Some n | None => None end;
     module_of := fun o => match get o funs with Some _ => Some mod_name | None => None end;
     import_of := fun o => match get o funs with Some (n, _) => Some ("from " ++ mod_name ++ " import " ++ n ++ nl) | None => None end;
     called := fun o => match get o funs with Some (n, _) => n | None => "" end |}.
Definition env_of (mod_name : string) (globals : list (string * nat)) : env :=
  Env [(mod_name, 100)] (fun m => match m with 100 => globals | _ => [] end) (fun _ => true) 0 0 [] [] [] [].

Definition t_one : list string :=
  ["def outer(x):" ++ nl; "    def inner(y):" ++ nl; "        return x + y" ++ nl; "    return inner" ++ nl; "f = outer(1)" ++ nl; "x == outer(3)" ++ nl].
Definition g_one : list (string * nat) := [("outer", 1); ("f", 2)].
Definition w_one : objects := in_file "tool" t_one [4; 2; 1; 1; 1; 1] [(1, ("outer", 1)); (2, ("inner", 2))] g_one [(2, [("x", 50)])].
Example C86_case : outermost w_one 2 = Some 1 /\ outermost w_one 1 = Some 1 /\ encloses w_one 2 1 "outer" /\ ~ encloses w_one 2 2 "f".
Proof.
  split; [vm_compute; reflexivity|]. split; [vm_compute; reflexivity|]. split.
  - exists g_one, (firstn 4 t_one), 0. split; [reflexivity|]. split; [now left|]. split; [vm_compute; reflexivity|]. split; [vm_compute; reflexivity|].
    exists "def ". eexists. vm_compute. reflexivity.
  - intros (g & l & k & _ & _ & A & B & _). assert (block_of w_one 2 true <> block_of w_one 2 false) as X by (vm_compute; discriminate). congruence.
Qed.
(** the hypotheses of C87_closure_partial, and what it says *)
Example C87_case : makes "f" "outer(" (nth 4 t_one "") /\ ~ has_call "outer(" (nth 5 t_one "") /\ no_functions w_one 2 /\
  closuredimport (env_of "tool" g_one) [] w_one 2 "add_one" true = Some [("f", "from tool import f as add_one" ++ nl)] /\
  binds (env_of "tool" g_one) [] ("from tool import f as add_one" ++ nl) "add_one" 2.
Proof.
  split; [exists "", " ", " ", ("1)" ++ nl); vm_compute; intuition discriminate|].
  split; [intros H; apply assigned_spec in H; [vm_compute in H; discriminate H|reflexivity]|].
  split; [intros n o [X|[]]; injection X as <- <-; reflexivity|]. split; vm_compute; reflexivity.
Qed.

(** REFUTED: a file with two functions made by the same one: the import of the first is that of the last *)
Definition t_two : list string :=
  ["def outer(x):" ++ nl; "    def inner(y):" ++ nl; "        return x + y" ++ nl; "    return inner" ++ nl; "f = outer(1)" ++ nl; "g = outer(2)" ++ nl].
Definition g_two : list (string * nat) := [("outer", 1); ("f", 2); ("g", 3)].
Definition w_two : objects := in_file "tool" t_two [4; 2; 1; 1; 1; 1] [(1, ("outer", 1)); (2, ("inner", 2)); (3, ("inner", 2))] g_two [(2, [("x", 50)]); (3, [("x", 51)])].
Theorem C87_last_refuted : exists E W f other text, makes "f" "outer(" (nth 4 t_two "") /\ get "f" (attr E 100) = Some f /\ other <> f /\
  closuredimport E [] W f "add" true = Some [("g", text)] /\ binds E [] text "add" other.
Proof.
  exists (env_of "tool" g_two), w_two, 2, 3, ("from tool import g as add" ++ nl).
  split; [exists "", " ", " ", ("1)" ++ nl); vm_compute; intuition discriminate|]. split; [reflexivity|]. split; [discriminate|]. split; vm_compute; reflexivity.
Qed.
(** REFUTED: a later assignment inside a function: the text does not run *)
Definition t_local : list string :=
  ["def outer(x):" ++ nl; "    def inner(y):" ++ nl; "        return x + y" ++ nl; "    return inner" ++ nl; "f = outer(1)" ++ nl; "def use(y):" ++ nl; "    h = outer(y)" ++ nl; "    return h(y)" ++ nl].
Definition w_local : objects := in_file "tool" t_local [4; 2; 1; 1; 1; 3; 1; 1] [(1, ("outer", 1)); (2, ("inner", 2)); (3, ("use", 6))] [("outer", 1); ("f", 2); ("use", 3)] [(2, [("x", 50)])].
Theorem C87_local_refuted : exists E W f text, get "f" (attr E 100) = Some f /\ closuredimport E [] W f "" true = Some [("h", text)] /\ exec E [] text = Err ImportError.
Proof.
  exists (env_of "tool" [("outer", 1); ("f", 2); ("use", 3)]), w_local, 2, ("from tool import h" ++ nl). split; [reflexivity|]. split; vm_compute; reflexivity.
Qed.
(** a wrapper of a function *)
Definition t_wrap : list string :=
  ["def twice(fn):" ++ nl; "    def run(x):" ++ nl; "        return fn(fn(x))" ++ nl; "    return run" ++ nl; "def double(x): return 2*x" ++ nl; "quadruple = twice(double)" ++ nl; "other = twice(abs)" ++ nl].
Definition g_wrap : list (string * nat) := [("twice", 1); ("double", 3); ("quadruple", 2); ("other", 4)].
Definition w_wrap : objects := in_file "tool" t_wrap [4; 2; 1; 1; 1; 1; 1] [(1, ("twice", 1)); (2, ("run", 2)); (3, ("double", 5)); (4, ("run", 2))] g_wrap [(2, [("fn", 3)])].
Example C87_wrapper_case : makes "quadruple" "twice(double" (nth 5 t_wrap "") /\ ~ has_call "twice(double" (nth 6 t_wrap "") /\
  filter (fun p => is_function w_wrap (snd p)) (free w_wrap 2) = [("fn", 3)] /\ source_of w_wrap 3 = Some ("def double(x): return 2*x" ++ nl) /\
  closuredimport (env_of "tool" g_wrap) [] w_wrap 2 "" true = Some [("quadruple", "from tool import quadruple" ++ nl)].
Proof.
  split; [exists "", " ", " ", (")" ++ nl); vm_compute; intuition discriminate|].
  split; [intros H; apply assigned_spec in H; [vm_compute in H; discriminate H|reflexivity]|]. split; [reflexivity|]. split; vm_compute; reflexivity.
Qed.
(** REFUTED: another wrapper of a function whose name only begins the same *)
Definition t_prefix : list string :=
  ["def twice(fn):" ++ nl; "    def run(x):" ++ nl; "        return fn(fn(x))" ++ nl; "    return run" ++ nl; "def double(x): return 2*x" ++ nl; "def double_it(x): return x+x" ++ nl; "a = twice(double)" ++ nl; "b = twice(double_it)" ++ nl].
Definition g_prefix : list (string * nat) := [("twice", 1); ("double", 3); ("double_it", 4); ("a", 2); ("b", 5)].
Definition w_prefix : objects := in_file "tool" t_prefix [4; 2; 1; 1; 1; 1; 1; 1] [(1, ("twice", 1)); (2, ("run", 2)); (3, ("double", 5)); (4, ("double_it", 6)); (5, ("run", 2))] g_prefix [(2, [("fn", 3)]); (5, [("fn", 4)])].
Theorem C87_prefix_refuted : exists E W f other text, get "a" (attr E 100) = Some f /\ other <> f /\
  closuredimport E [] W f "" true = Some [("b", text)] /\ binds E [] text "b" other.
Proof.
  exists (env_of "tool" g_prefix), w_prefix, 2, 5, ("from tool import b" ++ nl). split; [reflexivity|]. split; [discriminate|]. split; vm_compute; reflexivity.
Qed.
(** a decorated function *)
Definition t_deco : list string :=
  ["def twice(fn):" ++ nl; "    def run(x):" ++ nl; "        return fn(fn(x))" ++ nl; "    return run" ++ nl; "@twice" ++ nl; "def quadruple(x): return 2*x" ++ nl].
Definition w_deco : objects := in_file "tool" t_deco [4; 2; 1; 1; 2; 1] [(1, ("twice", 1)); (2, ("run", 2)); (3, ("quadruple", 5))] [("twice", 1); ("quadruple", 2)] [(2, [("fn", 3)])].
Example C87_decorated_case : startswith "@" (lstrip match source_of w_deco 3 with Some s => s | None => "" end) = true /\
  closuredimport (env_of "tool" [("twice", 1); ("quadruple", 2)]) [] w_deco 2 "" true = Some [("fn", "from tool import quadruple" ++ nl)] /\
  binds (env_of "tool" [("twice", 1); ("quadruple", 2)]) [] ("from tool import quadruple" ++ nl) "quadruple" 2.
Proof. split; [vm_compute; reflexivity|]. split; vm_compute; reflexivity. Qed.
(** two lambdas of one line have the same source: the outermost function of the second is the first *)
Definition t_lambdas : list string := ["a, b = (lambda: 1), (lambda: 2)" ++ nl].
Definition w_lambdas : objects := in_file "tool" t_lambdas [1] [(1, ("<lambda>", 1)); (2, ("<lambda>", 1))] [("a", 1); ("b", 2)] [].
Theorem C86_lambdas_refuted : exists W, encloses W 2 2 "b" /\ outermost W 2 = Some 1.
Proof.
  exists w_lambdas. split; [|vm_compute; reflexivity]. exists [("a", 1); ("b", 2)], t_lambdas, 0. split; [reflexivity|]. split; [right; now left|].
  split; [vm_compute; reflexivity|]. split; [vm_compute; reflexivity|]. exists "a, ". eexists. vm_compute. reflexivity.
Qed.
(** a function made in a method of a class: no global has the method's source *)
Definition t_method2 : list string := ["class A:" ++ nl; "    def make(self):" ++ nl; "        def inner(y):" ++ nl; "            return y" ++ nl; "        return inner" ++ nl; "f = A().make()" ++ nl].
Definition w_method2 : objects := in_file "tool" t_method2 [5; 4; 2; 1; 1; 1] [(2, ("inner", 3))] [("A", 1); ("f", 2)] [].
Theorem C86_method_refuted : outermost w_method2 2 = None /\ block_of w_method2 2 true = Some (firstn 4 (skipn 1 t_method2), 1).
Proof. split; vm_compute; reflexivity. Qed.
(** the function was put in a dictionary: there is no name to import, and no text is given *)
Definition t_item : list string :=
  ["def outer(x):" ++ nl; "    def inner(y):" ++ nl; "        return x + y" ++ nl; "    return inner" ++ nl; "table = {}" ++ nl; "table['one'] = outer(1)" ++ nl].
Definition w_item : objects := in_file "tool" t_item [4; 2; 1; 1; 1; 1] [(1, ("outer", 1)); (2, ("inner", 2))] [("outer", 1); ("table", 5)] [(2, [("x", 50)])].
Theorem C87_item_case : closuredimport (env_of "tool" [("outer", 1); ("table", 5)]) [] w_item 2 "" true = None.
Proof. vm_compute. reflexivity. Qed.
(** after other words *)
Example C87_words_case : makes "f" "outer(" ("if debug: f = outer(1)" ++ nl) /\ assigned_name ("if debug: f = outer(1)" ++ nl) = Some "f".
Proof.
  split; [|vm_compute; reflexivity]. exists "if debug: ", " ", " ", ("1)" ++ nl). split; [reflexivity|]. split; [split; [right; exists "if debug:", " "%char; split; reflexivity|]|].
  - vm_compute. intuition discriminate.
  - vm_compute. intuition discriminate.
Qed.
(** the wrapper is in another file than the function wrapped and the line that wraps it *)
Definition t_lib : list string := firstn 4 t_wrap.
Definition t_user : list string := ["from lib import twice" ++ nl; "def double(x): return 2*x" ++ nl; "quadruple = twice(double)" ++ nl].
Definition w_lib : objects := in_file "lib" t_lib [4; 2; 1; 1] [(1, ("twice", 1)); (2, ("run", 2))] [("twice", 1)] [(2, [("fn", 3)])].
Definition w_user : objects := in_file "user" t_user [1; 1; 1] [(3, ("double", 2))] [("twice", 1); ("double", 3); ("quadruple", 2)] [].
Definition w_both : objects :=
  let pick := fun {A} (sel : objects -> nat -> A) o => if Nat.eqb o 3 then sel w_user o else sel w_lib o in
  {| free := pick free; is_function := pick is_function; global_names := pick global_names; block_of := pick block_of; file_of := pick file_of;
     source_of := pick source_of; name_of := pick name_of; module_of := pick module_of; import_of := pick import_of; called := pick called |}.
Example C87_elsewhere_case : makes "quadruple" "twice(double" (nth 2 t_user "") /\ (forall l, In l t_lib -> ~ has_call "twice(double" l) /\
  outermost w_both 2 = Some 1 /\ file_of w_both 1 = Some t_lib /\ file_of w_both 3 = Some t_user /\
  closuredimport (env_of "user" [("twice", 1); ("double", 3); ("quadruple", 2)]) [] w_both 2 "" true = Some [("quadruple", "from user import quadruple" ++ nl)].
Proof.
  split; [exists "", " ", " ", (")" ++ nl); vm_compute; intuition discriminate|].
  split. { intros l Hl H. apply assigned_spec in H; [|reflexivity]. cbn [t_lib t_wrap firstn In] in Hl. destruct Hl as [<-|[<-|[<-|[<-|[]]]]]; vm_compute in H; discriminate H. }
  split; [vm_compute; reflexivity|]. split; [reflexivity|]. split; [reflexivity|]. vm_compute; reflexivity.
Qed.
