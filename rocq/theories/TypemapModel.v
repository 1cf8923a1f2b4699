(** Types with names of dill's own: _create_typemap (dill/_dill.py:509-517), _reverse_typemap and _typemap (518-593, 2120-2121), _load_type (598-599),
    the T1 branch of save_type (1809-1814). *)
From Coq Require Import String List Bool Arith.
From Verif Require Import PyDict.
Import ListNotations.
Local Open Scope string_scope.

Notation oid := nat (only parsing).
(** a Python: the dictionaries of builtins and types; of each value there, whether value.__module__ == 'builtins' and type(value) is type;
    the entries dill adds by hand (519-588), and those it adds after the inversion (2120-2121) *)
Record python := Python { builtins : dict string oid; types : dict string oid; plain_builtin : oid -> bool; by_hand : dict string oid; late : dict string oid }.

(** _create_typemap; dict(list(builtins) + list(types)) [dill/_dill.py:509-517] *)
Definition create_typemap (P : python) : dict string oid :=
  filter (fun kv => plain_builtin P (snd kv)) (update (builtins P) (types P)).
(** _reverse_typemap when _typemap is made (line 593) *)
Definition reverse_early (P : python) : dict string oid := update (create_typemap P) (by_hand P).
(** _typemap = dict((v, k) for k, v in _reverse_typemap.items()) [dill/_dill.py:593, 2120-2121] *)
Definition invert (d : dict string oid) : dict oid string := fold_left (fun acc kv => set (snd kv) (fst kv) acc) d [].
(** [dill/_dill.py:593, 2120-2121] *)
Definition typemap (P : python) : dict oid string := invert (reverse_early P).
(** _reverse_typemap once dill is imported [dill/_dill.py:518-593] *)
Definition reverse_typemap (P : python) : dict string oid := update (reverse_early P) (late P).

(** save_type: T1, or one of the other branches [dill/_dill.py:1809-1814] *)
Inductive saved := T1 (name : string) | Otherwise.
(** [dill/_dill.py:1809-1814] *)
Definition save_type (P : python) (t : oid) : saved := match get t (typemap P) with Some n => T1 n | None => Otherwise end.
(** _load_type: None is a KeyError [dill/_dill.py:598-599] *)
Definition load_type (P : python) (n : string) : option oid := get n (reverse_typemap P).
