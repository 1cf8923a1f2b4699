(** Keyword arguments and dill.settings: dill/settings.py:11-20, dill/_dill.py:242-298 (copy, dump,
    dumps, load, loads), 360-374 (Pickler.__init__), 445-450 (Unpickler.__init__),
    dill/session.py:288-314 (dump_module), CPython pickle._Pickler.__init__ (protocol check). *)
From Coq Require Import String List Bool ZArith.
From Verif Require Import PyDict.
Import ListNotations.
Local Open Scope string_scope.
Local Open Scope Z_scope.

(** Values passed for these arguments or stored in settings.  Simplification: integers, booleans, None. [values and dictionary access in dill/_dill.py:242-312, 360-374] *)
Inductive pyv := PNone | PInt (z : Z) | PBool (b : bool).
(** [values and dictionary access in dill/_dill.py:242-312, 360-374] *)
Inductive exn := KeyError (k : string) | TypeErr | ValueErr.
(** [values and dictionary access in dill/_dill.py:242-312, 360-374] *)
Inductive res (A : Type) := Ok (a : A) | Err (e : exn).
Arguments Ok {A}. Arguments Err {A}.
(** [values and dictionary access in dill/_dill.py:242-312, 360-374] *)
Definition bind {A B} (r : res A) (f : A -> res B) : res B := match r with Ok a => f a | Err e => Err e end.
Notation "x <- r ; k" := (bind r (fun x => k)) (at level 61, r at next level, right associativity).

(** dill.settings: one dictionary object, shared by _dill.Pickler.settings, Unpickler.settings and
    the local imports (dill/settings.py:11-20; _dill.py:251-258, 357, 434). *)
Notation settings := (dict string pyv) (only parsing).
(** [settings[k]] [values and dictionary access in dill/_dill.py:242-312, 360-374] *)
Definition item (s : settings) (k : string) : res pyv :=
  match get k s with Some v => Ok v | None => Err (KeyError k) end.

(** dill/settings.py:11-20; DEFAULT_PROTOCOL is 4 on Python 3.8-3.13. *)
Definition default_settings : settings :=
  [("protocol", PInt 4); ("byref", PBool false); ("fmode", PInt 0); ("recurse", PBool false); ("ignore", PBool false)].

(** [int(x)] [values and dictionary access in dill/_dill.py:242-312, 360-374] *)
Definition to_int (v : pyv) : res Z :=
  match v with PInt z => Ok z | PBool b => Ok (if b then 1 else 0) | PNone => Err TypeErr end.

(** pickle._Pickler.__init__, protocol part (CPython 3.11 Lib/pickle.py): None -> DEFAULT_PROTOCOL (4),
    negative -> HIGHEST_PROTOCOL (5), too large -> ValueError, otherwise int(protocol). *)
Definition stock_protocol (p : pyv) : res Z :=
  match p with
  | PNone => Ok 4
  | _ => z <- to_int p; if z <? 0 then Ok 5 else if 5 <? z then Err ValueErr else Ok z
  end.

(** the attributes of a Pickler that decide how it pickles [dill/_dill.py:347-374] *)
Record pickler := Pickler { p_proto : Z; p_byref : pyv; p_fmode : pyv; p_recurse : pyv }.

(** [settings[k] if v is None else v] [dill/_dill.py:364-368] *)
Definition if_none (s : settings) (k : string) (v : pyv) : res pyv :=
  match v with PNone => item s k | _ => Ok v end.

(** Pickler.__init__, dill/_dill.py:360-374.  An absent keyword is the same as None (kwds.pop default). *)
Definition pickler_init (s : settings) (protocol byref fmode recurse : pyv) : res pickler :=
  pr <- stock_protocol protocol;
  b <- if_none s "byref" byref;
  f <- if_none s "fmode" fmode;
  r <- if_none s "recurse" recurse;
  Ok {| p_proto := pr; p_byref := b; p_fmode := f; p_recurse := r |}.

(** dump, dill/_dill.py:251-262: the pickler used *)
Definition dump (s : settings) (protocol byref fmode recurse : pyv) : res pickler :=
  p <- (match protocol with
        | PNone => item s "protocol"
        | _ => z <- to_int protocol; Ok (PInt z)
        end);
  pickler_init s p byref fmode recurse.

(** dumps, dill/_dill.py:264-290: passes its arguments on to dump *)
Definition dumps := dump.

(** Unpickler.__init__, dill/_dill.py:445-450 *)
Definition unpickler_init (s : settings) (ignore : pyv) : res pyv := if_none s "ignore" ignore.
(** load / loads, dill/_dill.py:292-312 *)
Definition load := unpickler_init.
(** [dill/_dill.py:300-312] *)
Definition loads := unpickler_init.

(** copy, dill/_dill.py:242-249.  [ignore = None] models the keyword being absent.  [s0] are the
    settings when copy is called, [s1] when dumps has returned (pickling runs user code, which may
    change them). *)
Definition copy (s0 s1 : settings) (protocol byref fmode recurse : pyv) (ignore : option pyv)
  : res (pickler * pyv) :=
  ig <- (match ignore with Some v => Ok v | None => item s0 "ignore" end);
  pk <- dumps s0 protocol byref fmode recurse;
  i <- loads s1 ig;
  Ok (pk, i).

(** dump_module, dill/session.py:288-314: settings['protocol'] to the Pickler, kwds on to it,
    then _byref and _recurse forced to False. *)
Definition dump_module (s : settings) (fmode recurse : pyv) : res pickler :=
  p <- item s "protocol";
  pk <- pickler_init s p PNone fmode recurse;
  Ok {| p_proto := p_proto pk; p_byref := PBool false; p_fmode := p_fmode pk; p_recurse := PBool false |}.

(** Histories: assignments to settings, construction of picklers, dumps with a pickler built before. [the program's own calls, environment of dill/_dill.py:242-312, 427-429] *)
Inductive event :=
| SetSetting (k : string) (v : pyv)
| NewPickler (protocol byref fmode recurse : pyv)
| UsePickler (i : nat).
(** [the program's own calls, environment of dill/_dill.py:242-312, 427-429] *)
Record world := World { w_settings : settings; w_picklers : list (res pickler); w_used : list (option (res pickler)) }.
(** Pickler.dump (dill/_dill.py:427-429) reads only the attributes of the pickler. *)
Definition wstep (w : world) (e : event) : world :=
  match e with
  | SetSetting k v => {| w_settings := set k v (w_settings w); w_picklers := w_picklers w; w_used := w_used w |}
  | NewPickler p b f r => {| w_settings := w_settings w;
                             w_picklers := w_picklers w ++ [pickler_init (w_settings w) p b f r]; w_used := w_used w |}
  | UsePickler i => {| w_settings := w_settings w; w_picklers := w_picklers w;
                       w_used := w_used w ++ [nth_error (w_picklers w) i] |}
  end.
(** [the program's own calls, environment of dill/_dill.py:242-312, 427-429] *)
Definition wrun (w : world) (es : list event) : world := fold_left wstep es w.
