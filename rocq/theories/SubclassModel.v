(** dill/_dill.py: is_dill (2247-2251) and the places that ask it: save_module_dict (1244-1268), _locate_function (1090-1094),
    _save_file (1398-1410), save_module (1732-1734), _save_with_postproc and save_cell (1116-1135, 1579); dill/logger.py: trace_setup (127-135). *)
From Coq Require Import String Ascii List Bool Arith.
From Verif Require Import CapsuleModel.
Import ListNotations.
Local Open Scope string_scope.

(** the class of the pickler: the module it is defined in, and whether dill.Pickler is among its bases [what dill/_dill.py:2247-2251 looks at] *)
Record pclass := PClass { in_module : string; from_dill : bool }.
(** the attributes set by Pickler.__init__ and on its class [dill/_dill.py:347-374] *)
Record pattrs := PAttrs { a_main : oid; a_session : bool; a_first_pass : bool; a_strictio : bool; a_fmode : nat }.
(** a pickler: pickle._Pickler has none of dill's attributes [dill/_dill.py:347-374] *)
Record pickler := Pickler_ { cls : pclass; attrs : option pattrs }.
(** dill.Pickler itself [dill/_dill.py:347] *)
Definition dill_pickler (a : pattrs) : pickler := Pickler_ (PClass "dill._dill" true) (Some a).

(** 'dill' in s [dill/_dill.py:2250] *)
Fixpoint mentions_dill (s : string) : bool :=
  prefix "dill" s || match s with EmptyString => false | String _ s => mentions_dill s end.
(** [dill/_dill.py:2247-2251] *)
Definition is_dill (p : pickler) (child : bool) : bool :=
  if child then from_dill (cls p) else mentions_dill (in_module (cls p)).

(** a result, or AttributeError [getattr of the pickler, dill/_dill.py:1246] *)
Inductive result (A : Type) := Done (x : A) | NoAttribute.
Arguments Done {A}. Arguments NoAttribute {A}.
(** pickler._main and so on [dill/_dill.py:1093, 1246-1263, 1399-1407, 1733] *)
Definition attr_of {A} (p : pickler) (f : pattrs -> A) : result A :=
  match attrs p with Some a => Done (f a) | None => NoAttribute end.
(** [sequencing of the above] [dill/_dill.py:1246-1263] *)
Definition and_then {A B} (r : result A) (k : A -> result B) : result B := match r with Done x => k x | NoAttribute => NoAttribute end.

(** the part of the process a dictionary is compared with [dill/_dill.py:1246-1257] *)
Record penv := PEnv {
  e_main : oid;                              (* _main_module.__dict__ *)
  e_deq : oid -> oid -> bool;                (* dict == *)
  e_name : oid -> option string;             (* obj['__name__'] if it is there and a str *)
  e_module_dict : string -> option oid       (* getattr(_import_module(name, True), '__dict__', None) *)
}.

(** which branch is taken; with D2, the new value of pickler._first_pass [dill/_dill.py:1244-1268] *)
Definition save_module_dict (E : penv) (p : pickler) (o : oid) : result (stored * option bool) :=
  let rest :=
    if negb (is_dill p false) && e_deq E o (e_main E) then Done (D3, None)
    else
      let d2 := if is_dill p false
                then and_then (attr_of p a_session) (fun s => Done (D2, if s then Some false else None))
                else Done (D2, None) in
      match e_name E o with
      | Some n => if negb (e_deq E o (e_main E)) && match e_module_dict E n with Some o' => Nat.eqb o o' | None => false end then Done (D4 n, None) else d2
      | None => d2
      end in
  if is_dill p false then
    and_then (attr_of p a_main) (fun m =>
      if e_deq E o m then
        and_then (attr_of p a_session) (fun s =>
          if s then and_then (attr_of p a_first_pass) (fun f => if f then rest else Done (D1, None))
          else Done (D1, None))
      else rest)
  else rest.

(** the first test of _locate_function: is a function of module [m] never looked up by name?  [main_name]: pickler._main.__name__ [dill/_dill.py:1091-1094] *)
Definition never_located (p : pickler) (main_name : string) (m : option string) : result bool :=
  match m with
  | None => Done true
  | Some m => if String.eqb m "__main__" then Done true
              else if is_dill p false then and_then (attr_of p a_session) (fun s => Done (s && String.eqb m main_name)) else Done false
  end.
(** what a file is saved with: strictio, fmode, and whether its text is read [dill/_dill.py:1398-1410] *)
Definition file_settings (p : pickler) : result (bool * nat * bool) :=
  if is_dill p true then and_then (attr_of p a_fmode) (fun f => and_then (attr_of p a_strictio) (fun s => Done (s, f, Nat.eqb f 2)))
  else Done (false, 0, false).
(** is the module the session's own? [dill/_dill.py:1733] *)
Definition is_session_main (p : pickler) (o : oid) : result bool :=
  if is_dill p true then and_then (attr_of p a_main) (fun m => Done (Nat.eqb o m)) else Done false.
(** are objects with postponed parts recorded? [dill/_dill.py:1116-1118, 1579] *)
Definition postpones (p : pickler) : bool := is_dill p true.
(** does trace_setup set the depth and the stack of sizes (the trace is then indented and has sizes)? [dill/logger.py:127-135] *)
Definition trace_is_set_up (p : pickler) : bool := is_dill p false.
(** what the stored dictionary is when loaded by an Unpickler whose _main is [um] [find_class, dill/_dill.py:437-443; CPython Lib/pickle.py:1572-1584] *)
Definition loaded (E : penv) (um : oid) (s : stored) : option oid :=
  match s with D1 => Some um | D3 => Some (e_main E) | D4 n => e_module_dict E n | D2 => None end.
