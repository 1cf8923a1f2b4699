(** C11: explicit keyword beats settings, settings are read when the call is made. *)
From Coq Require Import String List Bool ZArith.
From Verif Require Import PyDict SettingsModel SettingsSpec SettingsProofs.
Import ListNotations.
Local Open Scope string_scope.

(** dump/dumps with any arguments under any (complete) settings: each option is the explicit
    argument if not None, else the current settings entry; the protocol number is normalised, and a
    protocol above 5 is refused. *)
Theorem C11_dump : forall s p b f r, complete s ->
  exists p' b' f' r', chosen p s "protocol" = Some p' /\
    chosen b s "byref" = Some b' /\ chosen f s "fmode" = Some f' /\ chosen r s "recurse" = Some r' /\
    dump s p b f r =
      match protocol_number p' with
      | Some z => Ok {| p_proto := z; p_byref := b'; p_fmode := f'; p_recurse := r' |}
      | None => Err ValueErr
      end.
Proof. exact dump_spec. Qed.
Print Assumptions C11_dump.

Theorem C11_load : forall s ig, complete s -> exists i, chosen ig s "ignore" = Some i /\ load s ig = Ok i.
Proof. exact load_spec. Qed.
Print Assumptions C11_load.

(** copy: dump options from the settings at the call, ignore likewise (an explicit None or a None
    setting is looked up again when loading starts). *)
Theorem C11_copy : forall s0 s1 p b f r ig, complete s0 -> complete s1 ->
  exists i0, chosen match ig with Some v => v | None => PNone end s0 "ignore" = Some i0 /\
  copy s0 s1 p b f r ig =
    match dump s0 p b f r with
    | Err e => Err e
    | Ok pk => match chosen (match ig with Some v => v | None => i0 end) s1 "ignore" with
               | Some i => Ok (pk, i)
               | None => Err (KeyError "ignore")
               end
    end.
Proof. exact copy_spec. Qed.
Print Assumptions C11_copy.

(** dump_module: protocol always from settings, byref and recurse always off, fmode as usual. *)
Theorem C11_dump_module : forall s f r, complete s ->
  exists p' f', get "protocol" s = Some p' /\ chosen f s "fmode" = Some f' /\
    dump_module s f r =
      match protocol_number p' with
      | Some z => Ok {| p_proto := z; p_byref := PBool false; p_fmode := f'; p_recurse := PBool false |}
      | None => Err ValueErr
      end.
Proof. exact dump_module_spec. Qed.
Print Assumptions C11_dump_module.

(** In every history of settings changes, pickler constructions and uses, each use of the i-th
    pickler pickles with the options fixed by its arguments and the settings at its construction. *)
Theorem C11_pickler_fixed : forall es s0,
  let w := wrun {| w_settings := s0; w_picklers := []; w_used := [] |} es in
  forall before i after, es = (before ++ UsePickler i :: after)%list ->
  forall s p b f r, creation before s0 i = Some (s, (p, b, f, r)) ->
  nth_error (w_used w) (List.length (filter (fun e => match e with UsePickler _ => true | _ => false end) before))
    = Some (Some (pickler_init s p b f r)).
Proof. exact used_spec. Qed.
Print Assumptions C11_pickler_fixed.

(** as dill comes, dumps without arguments is dumps with protocol 4, byref, recurse off and fmode 0 *)
Theorem C11_defaults : dump default_settings PNone PNone PNone PNone = Ok {| p_proto := 4; p_byref := PBool false; p_fmode := PInt 0; p_recurse := PBool false |} /\
  dump default_settings PNone PNone PNone PNone = dump default_settings (PInt 4) (PBool false) (PInt 0) (PBool false).
Proof. split; reflexivity. Qed.
Example C11_nonvacuous :
  complete default_settings /\
  dump default_settings (PInt 2) PNone (PInt 2) (PBool true) =
    Ok {| p_proto := 2; p_byref := PBool false; p_fmode := PInt 2; p_recurse := PBool true |} /\
  dump default_settings (PInt (-1)) PNone PNone PNone =
    Ok {| p_proto := 5; p_byref := PBool false; p_fmode := PInt 0; p_recurse := PBool false |} /\
  dump default_settings (PInt 6) PNone PNone PNone = Err ValueErr.
Proof.
  repeat split; try reflexivity.
  intros k Hk. simpl in Hk. repeat (destruct Hk as [<-|Hk]; [discriminate|]). destruct Hk.
Qed.
Example C11_fixed_nonvacuous :
  let es := [SetSetting "byref" (PBool true); NewPickler (PInt 3) PNone PNone PNone;
             SetSetting "byref" (PBool false); UsePickler 0] in
  creation (firstn 3 es) default_settings 0 =
    Some (set "byref" (PBool true) default_settings, (PInt 3, PNone, PNone, PNone)).
Proof. reflexivity. Qed.
