(** C09, C10: property theorems about the dispatch tables. *)
From Coq Require Import String List Bool Arith.
From Verif Require Import PyDict DispatchModel DispatchSpec DispatchProofs.
Import ListNotations.
Local Open Scope string_scope.

(** C09: after any history of register/pickle/extend calls, [Pickler.dispatch.get(key, default)] and
    [Pickler.dispatch[key]] give the function registered last for that key (a function of the stock
    table counting as registered first); with none, the class saver for a metaclass, and otherwise
    the default resp. KeyError. *)
Theorem C09_dispatch_lookup :
  forall (is_meta : ty -> bool) (save_type : fn) (orig : dict ty fn) (h : list call) (key : ty)
         (D : Type) (inj : fn -> D) (default : D),
    let d := dill_t (run orig (init orig) h) in
    (getitem is_meta save_type d key =
       match newest_registration orig h key with
       | Some f => Ok f
       | None => if is_meta key then Ok save_type else KeyError
       end)
    /\ (mget is_meta save_type d key inj default =
       match newest_registration orig h key with
       | Some f => inj f
       | None => if is_meta key then inj save_type else default
       end).
Proof. exact dispatch_lookup. Qed.
Print Assumptions C09_dispatch_lookup.

(** a metaclass with nothing registered, a re-registered type, a stock type, an unknown type *)
Example C09_example :
  let is_meta := fun t => Nat.eqb t 7 in
  let st := Fn 99 dill_module in
  let orig := [(1, Fn 1 "pickle"); (2, Fn 2 "pickle")] in
  let h := [Register 3 (Fn 30 dill_module); Extend true; Register 3 (Fn 31 "user"); Register 1 (Fn 11 "user")] in
  let d := dill_t (run orig (init orig) h) in
  map (getitem is_meta st d) [1; 2; 3; 7; 8]
  = [Ok (Fn 11 "user"); Ok (Fn 2 "pickle"); Ok (Fn 31 "user"); Ok st; KeyError].
Proof. reflexivity. Qed.

(** C10, exact description: what the stock table holds after a history that ends with
    extend(False): the original table, except that a function not defined in dill/_dill.py which
    was in dill's table at the last extend(True) stays. *)
Theorem C10_revert_exact :
  forall (orig : dict ty fn) (h : list call) (t : ty),
    wf orig ->
    get t (stock_t (run orig (init orig) (h ++ [Extend false]))) =
    match last_pushed orig h t with
    | Some f => if String.eqb (fn_module f) dill_module then get t orig else Some f
    | None => get t orig
    end.
Proof. exact revert_exact. Qed.
Print Assumptions C10_revert_exact.

(** C10, the guaranteed part: if all functions registered are dill's own, the stock table is
    exactly the one found at import.  Missing from the full statement: user-registered savers. *)
Theorem C10_revert_partial :
  forall (orig : dict ty fn) (h : list call) (t : ty),
    wf orig ->
    (forall t' f, In (Register t' f) h -> fn_module f = dill_module) ->
    get t (stock_t (run orig (init orig) (h ++ [Extend false]))) = get t orig.
Proof. exact revert_partial. Qed.
Print Assumptions C10_revert_partial.

Example C10_partial_nonvacuous :
  let orig := [(1, Fn 1 "pickle")] in
  let h := [Register 1 (Fn 10 dill_module); Register 3 (Fn 30 dill_module); Extend true] in
  wf orig /\ (forall t' f, In (Register t' f) h -> fn_module f = dill_module) /\
  stock_t (run orig (init orig) h) = [(1, Fn 10 dill_module); (3, Fn 30 dill_module)] /\
  stock_t (run orig (init orig) (h ++ [Extend false])) = [(1, Fn 1 "pickle")].
Proof.
  simpl. repeat split; try reflexivity.
  - repeat constructor; simpl; tauto.
  - intros t f [E|[E|[E|[]]]]; inversion E; reflexivity.
Qed.

(** C10 is false in general: a saver registered by the user for a stock type stays in pickle's
    table after extend(False), and so does one for a new type. *)
Theorem C10_revert_refuted :
  exists (orig : dict ty fn) (h : list call) (t : ty),
    wf orig /\
    get t (stock_t (run orig (init orig) (h ++ [Extend false]))) <> get t orig.
Proof. exact revert_refuted. Qed.
Print Assumptions C10_revert_refuted.
