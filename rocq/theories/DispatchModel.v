(** Dispatch tables: dill/_dill.py:324-335 (MetaCatchingDict), 347-350 (Pickler.dispatch),
    470-490 (pickle_dispatch_copy, pickle, register, _revert_extension), 2253-2261 (_extend),
    dill/__init__.py:88-105 (extend and the import-time call extend()). *)
From Coq Require Import String List Bool Arith.
From Verif Require Import PyDict.
Import ListNotations.
Local Open Scope string_scope.

(** A type object used as a key, by identity. *)
Notation ty := nat (only parsing).

(** A saver function: its identity and its [__module__].
    Simplification: [func.__module__] always exists (true of every Python function). [the values of Pickler.dispatch, dill/_dill.py:350, 480, 487] *)
Record fn := Fn { fn_id : nat; fn_module : string }.

(** [__name__] of dill/_dill.py, compared with in _revert_extension (line 487). *)
Definition dill_module : string := "dill._dill".

(** The pair of tables that calls act on: [Pickler.dispatch] and [StockPickler.dispatch]. [dill/_dill.py:350, 470] *)
Record tables := Tables { dill_t : dict ty fn; stock_t : dict ty fn }.

(** [a value or KeyError, dill/_dill.py:331-335] *)
Inductive res (A : Type) := Ok (a : A) | KeyError.
Arguments Ok {A}. Arguments KeyError {A}.

Section World.
  (** [issubclass(key, type)] for a type key. *)
  Variable is_meta : ty -> bool.
  (** the function object [save_type] of dill/_dill.py:1807-1808 *)
  Variable save_type : fn.
  (** [StockPickler.dispatch] as it was when dill was imported; also the value of
      [pickle_dispatch_copy] (dill/_dill.py:470). *)
  Variable orig : dict ty fn.

  (** MetaCatchingDict.__missing__, dill/_dill.py:331-335 *)
  Definition missing (key : ty) : res fn := if is_meta key then Ok save_type else KeyError.

  (** [d[key]] on a MetaCatchingDict: dict.__getitem__ falling back to __missing__. [dill/_dill.py:324-335] *)
  Definition getitem (d : dict ty fn) (key : ty) : res fn :=
    match get key d with Some f => Ok f | None => missing key end.

  (** MetaCatchingDict.get, dill/_dill.py:325-329 *)
  Definition mget {D} (d : dict ty fn) (key : ty) (inj : fn -> D) (default : D) : D :=
    match getitem d key with Ok f => inj f | KeyError => default end.

  (** dill/_dill.py:472-475 (pickle) and 477-482 (register): the same assignment. *)
  Definition register (t : ty) (f : fn) (s : tables) : tables :=
    {| dill_t := set t f (dill_t s); stock_t := stock_t s |}.

  (** dill/_dill.py:2253-2261: [for t,func in Pickler.dispatch.items(): StockPickler.dispatch[t] = func].
      Simplification: assigning into the stock dict does not raise (the except branch is dead). *)
  Definition _extend (s : tables) : tables :=
    {| dill_t := dill_t s;
       stock_t := fold_left (fun d p => set (fst p) (snd p) d) (dill_t s) (stock_t s) |}.

  (** dill/_dill.py:484-490, one iteration of the loop body *)
  Definition revert_one (d : dict ty fn) (p : ty * fn) : dict ty fn :=
    if String.eqb (fn_module (snd p)) dill_module then
      let d := del (fst p) d in
      match get (fst p) orig with Some f0 => set (fst p) f0 d | None => d end
    else d.

  (** dill/_dill.py:484-490: the loop runs over a snapshot [list(StockPickler.dispatch.items())] *)
  Definition _revert_extension (s : tables) : tables :=
    {| dill_t := dill_t s; stock_t := fold_left revert_one (stock_t s) (stock_t s) |}.

  (** [dill/_dill.py:472-490, 2253-2261; dill/__init__.py:88-103] *)
  Inductive call := Register (t : ty) (f : fn) | Extend (use_dill : bool).

  (** dill/__init__.py:88-103 (extend) and the calls above *)
  Definition step (s : tables) (c : call) : tables :=
    match c with
    | Register t f => register t f s
    | Extend true => _extend s
    | Extend false => _revert_extension s
    end.

  (** [several calls in order; not in /repo] *)
  Definition run (s : tables) (h : list call) : tables := fold_left step h s.

  (** dill/_dill.py:349-350: Pickler.dispatch starts as a copy of the stock table; everything later
      (the @register decorators executed at import, and extend() in dill/__init__.py:103)
      is part of the history. *)
  Definition init : tables := {| dill_t := orig; stock_t := orig |}.
End World.
