(** dill/__diff.py: the replacement of __import__ (_imp, 214-224), what importing dill.diff does (226-234), release_gone
    (123-126), over memorise and has_changed of [DiffModel].
    A Python program is given by the bodies of its modules; the import machinery that __import__ is (importlib) is modelled
    as far as _imp can see it: sys.modules, the order of execution, what is left behind by an exception.  Simplified: one
    thread; the attributes a module has from birth (__name__, __spec__, ...) are left out; a module body is a list of
    bindings, attribute assignments and imports; import hooks and reload are left out. *)
From Coq Require Import String List Bool Arith.
From Verif Require Import PyDict DiffModel.
Import ListNotations.

(** what a module body can do, as far as sys.modules, module attributes and exceptions go [the code run by the call of
    __import__ in dill/__diff.py:220] *)
Inductive stmt :=
| New (k : string) (o : oid)                (* k = <an object the module makes> *)
| Put (o : oid) (a : string) (k : string)   (* <that object>.a = k *)
| Import (m k : string)                     (* import m as k *)
| From (m a k : string)                     (* from m import a as k *)
| Try (m : string)                          (* try: import m; except Exception: pass *)
| Raise.

(** [sys.modules is keyed by name, dill/__diff.py:219-223; dont_memo, 33-34; a set is iterated in some order, 222] *)
Record world := World {
  body : string -> option (list stmt);   (* None: no such module *)
  mid : string -> oid;                   (* the module object *)
  packages : string -> list string;      (* packages "a.b.c" = ["a"; "a.b"] *)
  short : string -> string;              (* short "a.b.c" = "c" *)
  order : list string -> list string;    (* the order in which the set [after] is iterated *)
  dont : oid -> bool;                    (* dont_memo *)
  deep : nat                             (* how deep memorise can recurse *)
}.

(** the heap, sys.modules, memo [dill/__diff.py:29-34, 219-223] *)
Record state := State { heap : oid -> node; mods : dict string oid; memo : dict oid node }.

(** o.k = v [the attributes get_attrs reads, dill/__diff.py:37-44] *)
Definition set_attr (h : oid -> node) (o : oid) (k : string) (v : oid) : oid -> node := fun x =>
  if Nat.eqb x o then Node (Some (set k v match attrs (h o) with Some d => d | None => [] end)) (seq (h o)) (hidden (h o)) else h x.
(** o.k [the attributes get_attrs reads, dill/__diff.py:37-44] *)
Definition get_attr (h : oid -> node) (o : oid) (k : string) : option oid := match attrs (h o) with Some d => get k d | None => None end.
(** a new module object, in sys.modules before its body runs [importlib, called at dill/__diff.py:220] *)
Definition create (W : world) (n : string) (s : state) : state :=
  State (fun x => if Nat.eqb x (mid W n) then Node (Some []) None 0 else heap s x) (set n (mid W n) (mods s)) (memo s).
(** [importlib, called at dill/__diff.py:220] *)
Definition with_heap (s : state) (h : oid -> node) : state := State h (mods s) (memo s).

(** one module: found in sys.modules, or created and run; if its body raises it is taken out of sys.modules again, but what
    it imported stays.  The boolean: no exception [importlib, called at dill/__diff.py:220] *)
Definition load (W : world) (ex : string -> list stmt -> state -> option (state * bool)) (n : string) (s : state) : option (state * bool) :=
  if has n (mods s) then Some (s, true)
  else match body W n with
  | None => Some (s, false)
  | Some b => match ex n b (create W n s) with
              | None => None
              | Some (s', true) => Some (s', true)
              | Some (s', false) => Some (State (heap s') (del n (mods s')) (memo s'), false)
              end
  end.
(** the last package of a dotted name gets the module as an attribute, if the module was loaded now [importlib, called at dill/__diff.py:220] *)
Definition bind_in (W : world) (parent : option string) (fresh : bool) (n : string) (s : state) : state :=
  match parent, fresh with
  | Some p, true => match get p (mods s), get n (mods s) with
                    | Some po, Some no => with_heap s (set_attr (heap s) po (short W n) no)
                    | _, _ => s
                    end
  | _, _ => s
  end.
(** the packages of a dotted name, then the module, all in one call of __import__ [importlib, called at dill/__diff.py:220] *)
Fixpoint load_path (W : world) (ex : string -> list stmt -> state -> option (state * bool)) (parent : option string) (path : list string) (s : state) : option (state * bool) :=
  match path with
  | [] => Some (s, true)
  | n :: path => match load W ex n s with
                 | None => None
                 | Some (s', false) => Some (s', false)
                 | Some (s', true) => load_path W ex (Some n) path (bind_in W parent (negb (has n (mods s))) n s')
                 end
  end.
(** for m in after: memorise(sys.modules[m]) [dill/__diff.py:222-223] *)
Fixpoint memorise_all (W : world) (names : list string) (s : state) : option state :=
  match names with
  | [] => Some s
  | n :: names => match get n (mods s) with
                  | None => None
                  | Some o => match memorise (deep W) (heap s) (dont W) false (memo s) o with
                              | None => None
                              | Some m => memorise_all W names (State (heap s) (mods s) m)
                              end
                  end
  end.
(** _imp; None: recursion too deep [dill/__diff.py:214-224] *)
Definition imp (W : world) (ex : string -> list stmt -> state -> option (state * bool)) (n : string) (s : state) : option (state * bool) :=
  let before := keys (mods s) in
  match load_path W ex None (packages W n ++ [n]) s with
  | None => None
  | Some (s', false) => Some (s', false)
  | Some (s', true) =>
    let after := filter (fun k => negb (memb k before)) (keys (mods s')) in
    match memorise_all W (order W after) s' with None => None | Some s2 => Some (s2, true) end
  end.
(** the body of module [n]; builtins.__import__ is _imp [dill/__diff.py:226; the code run by the call of __import__ in 220] *)
Fixpoint block (W : world) (ex : string -> list stmt -> state -> option (state * bool)) (n : string) (b : list stmt) (s : state) : option (state * bool) :=
  match b with
  | [] => Some (s, true)
  | New k o :: b => block W ex n b (with_heap s (set_attr (heap s) (mid W n) k o))
  | Put o a k :: b => match get_attr (heap s) (mid W n) k with
                      | None => Some (s, false)
                      | Some v => block W ex n b (with_heap s (set_attr (heap s) o a v))
                      end
  | Import m k :: b => match imp W ex m s with
                       | None => None
                       | Some (s', false) => Some (s', false)
                       | Some (s', true) => match get m (mods s') with
                                            | None => Some (s', false)
                                            | Some o => block W ex n b (with_heap s' (set_attr (heap s') (mid W n) k o))
                                            end
                       end
  | From m a k :: b => match imp W ex m s with
                       | None => None
                       | Some (s', false) => Some (s', false)
                       | Some (s', true) => match get m (mods s') with
                                            | None => Some (s', false)
                                            | Some o => match get_attr (heap s') o a with
                                                        | None => Some (s', false)
                                                        | Some v => block W ex n b (with_heap s' (set_attr (heap s') (mid W n) k v))
                                                        end
                                            end
                       end
  | Try m :: b => match imp W ex m s with None => None | Some (s', _) => block W ex n b s' end
  | Raise :: b => Some (s, false)
  end.
(** at most [fuel] imports deep [the code run by the call of __import__ in dill/__diff.py:220] *)
Fixpoint exec (fuel : nat) (W : world) (n : string) (b : list stmt) (s : state) : option (state * bool) :=
  match fuel with O => None | S fuel => block W (exec fuel W) n b s end.
(** import n, by the user [dill/__diff.py:214-224] *)
Definition user_import (fuel : nat) (W : world) (n : string) (s : state) : option (state * bool) := imp W (exec fuel W) n s.

(** release_gone; [src] is getrefcount as called there [dill/__diff.py:123-126] *)
Definition release_gone (src : oid -> nat) (m : dict oid node) : dict oid node := filter (fun p => negb (Nat.ltb (src (fst p)) 4)) m.
(** sys.getrefcount(obj) where release_gone calls it: one reference each from id_to_obj, from the tuple in the list of its
    items, from the variable obj and from the argument, and those the rest of the program has [dill/__diff.py:124-126, CPython 3.11] *)
Definition cpython_src (elsewhere : oid -> nat) (x : oid) : nat := 4 + elsewhere x.
(** lambda x: 0 [dill/__diff.py:24] *)
Definition pypy_src (x : oid) : nat := 0.
(** importing dill.diff: builtins._ is deleted, every module in sys.modules is memorised, release_gone is called
    [dill/__diff.py:227-234] *)
Definition startup (W : world) (src : oid -> nat) (builtin_names : dict string oid) (s : state) : option (dict string oid * state) :=
  match memorise_all W (keys (mods s)) s with
  | None => None
  | Some s' => Some (del "_"%string builtin_names, State (heap s') (mods s') (release_gone src (memo s')))
  end.
