(** Enum classes and their members through dill: save_type (dill/_dill.py:1807-1932) meets Enum.__reduce_ex__ and EnumType.__new__ (CPython 3.11 Lib/enum.py).
    Modelled: a class of members with values (aliases, unhashable values), without mixed-in data types; Flag's composite members are left out. *)
From Coq Require Import String List Bool Arith.
Import ListNotations.

Section Enum.
  Variable V : Type.                     (* the values of members *)
  Variable veq : V -> V -> bool.         (* == *)
  Variable hashable : V -> bool.         (* whether hash() works *)
  Variable copy : V -> V.                (* the value that loading the pickled value gives *)

  (** index of the first element with the property [list search; not in /repo] *)
  Fixpoint first (p : V -> bool) (l : list V) : option nat :=
    match l with [] => None | x :: l' => if p x then Some 0 else option_map S (first p l') end.
  (** an enum class: the values of its members in the order of definition (aliases left out), and its names with the member each is bound to
      [_member_map_, _value2member_map_, CPython Lib/enum.py:540-560; not in /repo] *)
  Record enum := En { values : list V; names : list (string * nat) }.
  (** cls(value): the dictionary for a hashable value; the search through all members for others; None: ValueError (no _missing_)
      [Enum.__new__, CPython Lib/enum.py:1095-1115] *)
  Definition lookup (vs : list V) (v : V) : option nat :=
    if hashable v then first (fun x => hashable x && veq x v) vs else first (fun x => veq x v) vs.
  (** the definitions of a class body in order: a value that is found is an alias [_proto_member.__set_name__, CPython Lib/enum.py:242-350] *)
  Fixpoint define (defs : list (string * V)) (e : enum) : enum :=
    match defs with
    | [] => e
    | (n, v) :: defs' =>
      define defs' (match lookup (values e) v with
                    | Some k => En (values e) (names e ++ [(n, k)])
                    | None => En (values e ++ [v]) (names e ++ [(n, length (values e))])
                    end)
    end.
  (** the namespace given to EnumType.__new__: the one made by __prepare__, which has noted the names of the members, or an ordinary dictionary
      [_EnumDict, CPython Lib/enum.py:353-477; not in /repo] *)
  Inductive namespace := EnumDict (defs : list (string * V)) | PlainDict.
  (** EnumType.__new__ (not _simple): member_names = classdict._member_names is an AttributeError (None) for a plain dictionary [CPython Lib/enum.py:497-515] *)
  Definition enum_new (d : namespace) : option enum :=
    match d with EnumDict defs => Some (define defs (En [] [])) | PlainDict => None end.
  (** class C(Enum): defs [CPython Lib/enum.py:484-499; not in /repo] *)
  Definition class_statement (defs : list (string * V)) : option enum := enum_new (EnumDict defs).

  (** ** dumps *)
  (** memo entries: the class, its k-th member [pickler.memo; CPython Lib/pickle.py:497-520] *)
  Inductive key := KClass | KMember (k : nat).
  (** what the pickle says: the class by name; a value; call the class with the value; create a type from the dictionary on top (after [n] things in it);
      memo; POP; GET [the opcodes save_type, save_reduce and save_global write; CPython Lib/pickle.py:621-720] *)
  Inductive lop := LGlobal | LValue (v : V) | LCall | LCreate (n : nat) | LMemo (x : key) | LPop | LGet (x : key).
  (** [equality of memo keys; not in /repo] *)
  Definition keyb (a b : key) : bool := match a, b with KClass, KClass => true | KMember i, KMember j => Nat.eqb i j | _, _ => false end.
  (** [id(obj) in memo; not in /repo] *)
  Definition memoed (x : key) (memo : list key) : bool := existsb (keyb x) memo.

  Section Dump.
    Variable e : enum.
    Variable byref : bool.               (* the setting *)
    Variable located : bool.             (* _locate_function(cls): importable under its name, not from __main__ [dill/_dill.py:1090-1104] *)
    Variable importable : bool.          (* its module has it under its qualified name [save_global, CPython Lib/pickle.py:1056-1110] *)
    (** StockPickler.save_global; None: PicklingError [dill/_dill.py:1930; CPython Lib/pickle.py:1056-1110] *)
    Definition by_name (memo : list key) : option (list lop * list key) := if importable then Some ([LGlobal; LMemo KClass], KClass :: memo) else None.
    (** the class met again while its own dictionary is saved: obj_recursive [dill/_dill.py:1855-1857,1907-1930] *)
    Definition save_class_again (memo : list key) : option (list lop * list key) :=
      if memoed KClass memo then Some ([LGet KClass], memo) else by_name memo.
    (** a member: Enum.__reduce_ex__ gives (cls, (value,)) [CPython Lib/enum.py:1235-1236, Lib/pickle.py:621-720] *)
    Definition save_member (save_class : list key -> option (list lop * list key)) (k : nat) (memo : list key) : option (list lop * list key) :=
      if memoed (KMember k) memo then Some ([LGet (KMember k)], memo)
      else match nth_error (values e) k with
           | None => None
           | Some v =>
             match save_class memo with
             | None => None
             | Some (l, memo) =>
               if memoed (KMember k) memo then Some ((l ++ [LValue v; LCall; LPop; LGet (KMember k)])%list, memo)
               else Some ((l ++ [LValue v; LCall; LMemo (KMember k)])%list, KMember k :: memo)
             end
           end.
    (** the members in the class dictionary [dill/_dill.py:1866; CPython Lib/enum.py:540-560] *)
    Fixpoint save_members (ks : list nat) (memo : list key) : option (list lop * list key) :=
      match ks with
      | [] => Some ([], memo)
      | k :: ks' =>
        match save_member save_class_again k memo with
        | None => None
        | Some (l, memo) => match save_members ks' memo with None => None | Some (l', memo) => Some ((l ++ l')%list, memo) end
        end
      end.
    (** save_type: by name (T4), or type, name, bases and dictionary (T2).  The dictionary holds _member_map_, _value2member_map_ and an attribute for every name.
        Left out: the constants in the dictionary, the metaclass and the bases (by name), the assignment of __qualname__ after the creation [dill/_dill.py:1853-1931] *)
    Definition save_class (memo : list key) : option (list lop * list key) :=
      if memoed KClass memo then Some ([LGet KClass], memo)
      else if negb byref && negb located then
        let ks := (map snd (names e) ++ map snd (names e) ++ map snd (names e))%list in
        match save_members ks memo with
        | None => None
        | Some (l, memo) => if memoed KClass memo then Some ((l ++ [LCreate (length ks); LPop; LGet KClass])%list, memo)
                            else Some ((l ++ [LCreate (length ks); LMemo KClass])%list, KClass :: memo)
        end
      else by_name memo.
    (** dumps(cls), dumps(member) [dill/_dill.py:264-290] *)
    Definition dumps_class : option (list lop) := option_map fst (save_class []).
    (** [dill/_dill.py:264-290] *)
    Definition dumps_member (k : nat) : option (list lop) := option_map fst (save_member save_class k []).
    (** dumps of a list of members: what is written for its elements, the opcodes of the list itself left out [CPython Lib/pickle.py:925-963] *)
    Fixpoint save_list (ks : list nat) (memo : list key) : option (list lop * list key) :=
      match ks with
      | [] => Some ([], memo)
      | k :: ks' =>
        match save_member save_class k memo with
        | None => None
        | Some (l, memo) => match save_list ks' memo with None => None | Some (l', memo) => Some ((l ++ l')%list, memo) end
        end
      end.
    (** [dill/_dill.py:264-290] *)
    Definition dumps_list (ks : list nat) : option (list lop) := option_map fst (save_list ks []).
  End Dump.

  (** ** loads *)
  (** [the stack of the unpickler; not in /repo] *)
  Inductive item := IClass (e : enum) | IMember (e : enum) (k : nat) | IValue (v : V).
  (** one opcode, in a process in which the name of the class is [env]; None: an exception [_create_type, dill/_dill.py:601-602; CPython Lib/pickle.py:1187-1216] *)
  Definition lstep (env : option enum) (o : lop) (st : list item * list (key * item)) : option (list item * list (key * item)) :=
    let (s, m) := st in
    match o with
    | LGlobal => match env with Some e => Some (IClass e :: s, m) | None => None end
    | LValue v => Some (IValue (copy v) :: s, m)
    | LCall => match s with
               | IValue v :: IClass e :: s' => match lookup (values e) v with Some k => Some (IMember e k :: s', m) | None => None end
               | _ => None
               end
    | LCreate n => match enum_new PlainDict with Some e => Some (IClass e :: skipn n s, m) | None => None end
    | LMemo x => match s with i :: _ => Some (s, (x, i) :: m) | [] => None end
    | LPop => match s with _ :: s' => Some (s', m) | [] => None end
    | LGet x => match find (fun p => keyb x (fst p)) m with Some (_, i) => Some (i :: s, m) | None => None end
    end.
  (** [Unpickler.load, dill/_dill.py:452-453] *)
  Fixpoint lrun (env : option enum) (l : list lop) (st : list item * list (key * item)) : option (list item * list (key * item)) :=
    match l with [] => Some st | o :: l' => match lstep env o st with Some st' => lrun env l' st' | None => None end end.
  (** loads: what is on top of the stack at the end [dill/_dill.py:300-312] *)
  Definition loads (env : option enum) (l : list lop) : option item :=
    match lrun env l ([], []) with Some (i :: _, _) => Some i | _ => None end.
  (** loads of a list: its elements are what is left on the stack, in order [CPython Lib/pickle.py:1651-1668] *)
  Definition loads_list (env : option enum) (l : list lop) : option (list item) :=
    match lrun env l ([], []) with Some (s, _) => Some (rev s) | None => None end.
End Enum.
