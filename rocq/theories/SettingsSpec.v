(** Specification for C11. *)
From Coq Require Import String List Bool ZArith.
From Verif Require Import PyDict SettingsModel.
Import ListNotations.

(** explicit argument if it is not None, otherwise the settings entry *)
Definition chosen (explicit : pyv) (s : dict string pyv) (k : string) : option pyv :=
  match explicit with PNone => get k s | v => Some v end.

(** the protocol number a (non-None) protocol argument stands for; None: rejected *)
Definition protocol_number (v : pyv) : option Z :=
  match v with
  | PNone => Some 4%Z
  | PInt z => if (z <? 0)%Z then Some 5%Z else if (z <=? 5)%Z then Some z else None
  | PBool b => Some (if b then 1 else 0)%Z
  end.

(** settings with all five keys present *)
Definition complete (s : dict string pyv) : Prop :=
  forall k, In k ["protocol"; "byref"; "fmode"; "recurse"; "ignore"]%string -> get k s <> None.

(** the i-th pickler construction of a history and the assignments before it *)
Fixpoint creation (es : list event) (s : dict string pyv) (i : nat)
  : option (dict string pyv * (pyv * pyv * pyv * pyv)) :=
  match es with
  | [] => None
  | SetSetting k v :: es' => creation es' (set k v s) i
  | NewPickler p b f r :: es' => match i with O => Some (s, (p, b, f, r)) | S j => creation es' s j end
  | UsePickler _ :: es' => creation es' s i
  end.
