(** The pickling core: which opcodes dill writes for an object graph, and what unpickling them does.
    Models dill/_dill.py: _create_type 601-602, _create_function 604-618, _create_cell 959-962,
    _setitems 1107-1109, _save_with_postproc 1112-1160, save_module_dict (case D2) 1245-1267,
    save_cell 1556-1597, save_type (case T2, no __orig_bases__, not an ABC) 1808-1905, save_function
    (case F1) 1961-2100, and the parts of CPython's pickle.py they run on: Pickler.save, memoize, get,
    put, save_reduce, save_tuple, save_list, _batch_appends, save_dict, _batch_setitems, save_set, save_frozenset and
    Unpickler.load with the load_* methods of the opcodes below.

    Simplifications:
    - one opcode CONST stands for the opcodes writing a constant: scalars (BININT...), strings, and
      objects stored by reference (GLOBAL / STACK_GLOBAL, or dill's Reduce shims), so memo indices are
      those of pickle up to the entries these use themselves; GET/BINGET/LONG_BINGET and
      PUT/BINPUT/LONG_BINPUT are one opcode each; framing (protocol 4+) is left out;
    - the decision by value / by reference is NamesModel's: here an object is either in the source heap
      (by value) or a constant (by reference);
    - a set is the list of its elements in the order they were added (Python gives no order: what is claimed about the order of a set's elements means nothing);
      a set subclass is a reduce value;
    - the list and dict items of a reduce value (subclasses of list and dict, OrderedDict, deque...) are
      appended to and set in the instance as for a list and a dict;
    - an instance's __dict__ (reduce state) is part of the instance, not an object others can refer to;
      an object with __setstate__ has a state that is not a dict or tuple;
    - dictionary keys compare by value if constants and by identity otherwise (Python also has 1 == 1.0 == True);
    - the #458 "lift" at the end of save_function never finds its entry (it looks for a tuple with
      setattr where the list has _shims._setattr), so it is not modelled;
    - an object met again before it is in the memo while on the postproc stack is "saved as a global"
      with a PicklingWarning; here that is the failure [Recursive] (RecModel has the fallback). *)
From Coq Require Import String List Bool Arith NArith ZArith.
From Verif Require Import PyDict.
Import ListNotations.
Local Open Scope string_scope.

Notation oid := nat (only parsing).

(** functions and classes that pickles refer to by name [the callables named at dill/_dill.py:1571, 1574, 1593, 1890, 1893, 2046; copyreg.__newobj__; set and frozenset, CPython Lib/pickle.py:1014, 1037] *)
Inductive glob := GCreateCell | GSetattr | GDelattr | GCreateFunction | GCreateType | GNewobj | GSet | GFrozenset | GUser (name : string).

(** constants [what CPython Lib/pickle.py:740-871, 1056-1120 save; dill/_dill.py:1245-1260, 1571] *)
Inductive atom :=
  | ANone
  | AEmptyTuple
  | AScalar (z : Z)                  (* int: not memoized *)
  | AStr (s : string)                (* memoized *)
  | ACellEmpty                       (* _shims._CELL_EMPTY *)
  | AGlob (g : glob)                 (* by reference, memoized *)
  | AModDict (m : string)            (* a module's dictionary, by reference: D1, D3, D4; not memoized *)
  | ABool (b : bool)                 (* not memoized *)
  | AFloat (bits : N)                (* the 64 bits of an IEEE double; not memoized *)
  | ABytes (s : string).             (* bytes, from protocol 3 on (before, a call of codecs.encode: an ORed); memoized *)

(** [CPython Lib/pickle.py:740-871, 1056-1120] *)
Definition memoized (a : atom) : bool :=
  match a with AStr _ | ABytes _ | ACellEmpty | AGlob _ => true | _ => false end.

(** a value: a constant (the number tells apart equal constants that are distinct objects), or a
    reference [Python objects; not in /repo] *)
Inductive val := VA (a : atom) (i : nat) | VR (o : oid).

(** the state of a reduce value: none, a value for __setstate__, or attributes (and slots) [the state of save_reduce, CPython Lib/pickle.py:621-738; dill/_dill.py:2039-2044] *)
Inductive state := SNone | SVal (v : val) | SAttrs (d : list (val * val)) (slots : option (list (val * val))).

(** the globals of a function: a module's dictionary, or dictionary [g] that will be copied, with the
    function's __module__ [dill/_dill.py:1991-2014] *)
Inductive globals := GRef (a : atom) | GCopy (g : oid) (m : val).

(** [the objects of dill/_dill.py:1245, 1557, 1808, 1962; CPython Lib/pickle.py:535-603, 874-1006] *)
Inductive obj :=
  | OTup (vs : list val)
  | OList (vs : list val)
  | ODict (kvs : list (val * val))
  (* a reduce value: list items (li), dict items (di) and state besides the call *)
  | ORed (newobj : bool) (ctor : val) (args : list val) (li : list val) (di : list (val * val)) (st : state)
  | OFun (code : val) (gl : globals) (name defaults closure : val) (st : state)
  | OType (meta name bases : val) (d : list (val * val)) (qual : val)
  | OCell (contents : option val)
  | OSet (frozen : bool) (vs : list val).

(** ** equality of values and of dictionary keys [decidable equality; not in /repo] *)
Definition glob_eq_dec (x y : glob) : {x = y} + {x <> y}.
Proof. decide equality. apply string_dec. Defined.
(** [decidable equality; not in /repo] *)
Definition atom_eq_dec (x y : atom) : {x = y} + {x <> y}.
Proof. decide equality; try apply string_dec; try apply Z.eq_dec; try apply N.eq_dec; try apply bool_dec; apply glob_eq_dec. Defined.
(** [decidable equality; not in /repo] *)
Definition val_eq_dec (x y : val) : {x = y} + {x <> y}.
Proof. decide equality; try apply Nat.eq_dec; apply atom_eq_dec. Defined.

(** == for dictionary keys [Python dict; not in /repo] *)
Definition keyeq (x y : val) : bool :=
  match x, y with
  | VA a _, VA b _ => if atom_eq_dec a b then true else false
  | VR o, VR o' => Nat.eqb o o'
  | _, _ => false
  end.
(** d[k] = v [Python dict; not in /repo] *)
Fixpoint setitem (d : list (val * val)) (k v : val) : list (val * val) :=
  match d with
  | [] => [(k, v)]
  | (k', v') :: d' => if keyeq k k' then (k', v) :: d' else (k', v') :: setitem d' k v
  end.
(** dest.update(source): _setitems, dill/_dill.py:1107-1109 *)
Definition setitems (d kvs : list (val * val)) : list (val * val) :=
  fold_left (fun d p => setitem d (fst p) (snd p)) kvs d.
(** [Python dict; not in /repo] *)
Fixpoint getitem (d : list (val * val)) (k : val) : option val :=
  match d with [] => None | (k', v) :: d' => if keyeq k k' then Some v else getitem d' k end.

(** s.add(v), s.update(vs) [Python set; not in /repo] *)
Definition set_add (l : list val) (v : val) : list val := if existsb (keyeq v) l then l else (l ++ [v])%list.
(** [Python set; not in /repo] *)
Definition set_adds (l vs : list val) : list val := fold_left set_add vs l.

(** [dill/_dill.py:2000, 2014] *)
Definition sNAME := VA (AStr "__name__") 0.
(** [dill/_dill.py:615-616] *)
Definition sBUILTINS := VA (AStr "__builtins__") 0.
(** [dill/_dill.py:615-616] *)
Definition vBUILTINS := VA (AModDict "builtins") 0.
(** [dill/_dill.py:1574, 1593] *)
Definition sCONTENTS := VA (AStr "cell_contents") 0.
(** [dill/_dill.py:1890] *)
Definition sQUAL := VA (AStr "__qualname__") 0.
(** [_CELL_REF, dill/_dill.py:956] *)
Definition vNone := VA ANone 0.
(** [a callable by reference, CPython Lib/pickle.py:1056-1120] *)
Definition g_ (g : glob) := VA (AGlob g) 0.

(** ** opcodes [CPython Lib/pickle.py:107-190] *)
Inductive op :=
  | PROTO (p : nat) | STOP | MARK | POP | POP_MARK
  | CONST (a : atom) | EMPTY_TUPLE | TUPLE | TUPLEN (n : nat) | EMPTY_LIST | LIST | APPEND | APPENDS
  | EMPTY_DICT | DICT | SETITEM | SETITEMS | GET (i : nat) | PUT (i : nat) | MEMOIZE
  | REDUCE | NEWOBJ | BUILD | EMPTY_SET | ADDITEMS | FROZENSET.

(** ** the pickler *)

(** memo keys: id() of an object, of a constant, of the globals copy made for a function, or of a
    temporary that nothing else refers to [id(obj), the keys of self.memo, CPython Lib/pickle.py:491-512] *)
Inductive key := KObj (o : oid) | KAtom (a : atom) (i : nat) | KGlob (f : oid) | KAnon.
(** [decidable equality; not in /repo] *)
Definition key_eq_dec (x y : key) : {x = y} + {x <> y}.
Proof. decide equality; try apply Nat.eq_dec; apply atom_eq_dec. Defined.

(** deferred updates: (_shims._setattr, (cell, 'cell_contents', f)), (_setitems, (globs, globs_copy)),
    (setattr, (cls, '__qualname__', qualname)) [the entries of postproc_list, dill/_dill.py:1593, 1890, 2023, 2026] *)
Inductive pp := PSetCell (c : oid) | PSetItems (f : oid) | PSetQual (t : oid).

(** [the Pickler: self.memo, CPython Lib/pickle.py:409-474, and self._postproc, dill/_dill.py:373] *)
Record pst := PSt { memo : list key; post : list (oid * list pp) }.

(** [KeyError at dill/_dill.py:1140, 1148; the warning and save_global of 1127-1131] *)
Inductive exn := OutOfFuel | Recursive | KeyErr | Dangling.
(** a result, or an exception and the state the Pickler is left in [not in /repo] *)
Inductive res (A : Type) := Ok (a : A) | Fail (e : exn) (s : pst).
Arguments Ok {A}. Arguments Fail {A}.

(** an action of the pickler: what it writes, and the new state [a call of a method of the Pickler; not in /repo] *)
Definition act := pst -> res (list op * pst).
(** [self.write, CPython Lib/pickle.py:205-245] *)
Definition emit (l : list op) : act := fun s => Ok (l, s).
(** [statements in order, an exception; not in /repo] *)
Definition seq (a b : act) : act := fun s =>
  match a s with
  | Fail e s => Fail e s
  | Ok (l, s) => match b s with Fail e s => Fail e s | Ok (l', s) => Ok ((l ++ l')%list, s) end
  end.
(** [statements in order, an exception; not in /repo] *)
Definition fail (e : exn) : act := fun s => Fail e s.
Notation "a ;; b" := (seq a b) (at level 61, right associativity).
(** [statements in order, an exception; not in /repo] *)
Fixpoint seqs {A} (f : A -> act) (l : list A) : act :=
  match l with [] => emit [] | x :: l' => f x ;; seqs f l' end.

(** [self.memo.get(id(obj)), CPython Lib/pickle.py:545-548] *)
Fixpoint find_key (k : key) (l : list key) (i : nat) : option nat :=
  match l with
  | [] => None
  | k' :: l' => if key_eq_dec k k' then Some i else find_key k l' (S i)
  end.
(** [self.memo.get(id(obj)), CPython Lib/pickle.py:545-548] *)
Definition memo_get (k : key) (s : pst) : option nat :=
  match k with KAnon => None | _ => find_key k (memo s) 0 end.

Section Pickler.
  (** the protocol and the source heap *)
  Variable proto : nat.
  Variable H : oid -> option obj.
  (** [self.bin, CPython Lib/pickle.py:462] *)
  Definition bin : bool := Nat.leb 1 proto.

  (** Pickler.memoize / put [CPython Lib/pickle.py:491-524] *)
  Definition memoize (k : key) : act := fun s =>
    Ok ([if Nat.leb 4 proto then MEMOIZE else PUT (length (memo s))],
        {| memo := (memo s ++ [k])%list; post := post s |}).

  (** [CPython Lib/pickle.py:936] *)
  Definition BATCHSIZE := 1000.

  (** an argument: a value, a temporary dictionary or a temporary list [the arguments given to save_reduce, dill/_dill.py:1893-1895, 2046-2049; list(obj), CPython Lib/pickle.py:1014, 1037] *)
  Inductive arg := AV (v : val) | AD (k : key) (kvs : list (val * val)) | AL (vs : list val).

  Section Save.
    (** Pickler.save, recursively *)
    Variable sv : val -> act.

    (** the loop of _batch_appends / _batch_setitems: batches of 1000 [CPython Lib/pickle.py:938-963, 978-1004] *)
    Fixpoint batches {A} (one : A -> act) (many : list A -> act) (fuel : nat) (l : list A) : act :=
      match fuel with
      | 0 => emit []
      | S fuel =>
        let tmp := firstn BATCHSIZE l in
        (match tmp with
         | [] => emit []
         | [x] => one x
         | _ => many tmp
         end) ;;
        (if Nat.ltb (length tmp) BATCHSIZE then emit [] else batches one many fuel (skipn BATCHSIZE l))
      end.

    (** [CPython Lib/pickle.py:938-963] *)
    Definition batch_appends (vs : list val) : act :=
      if bin then
        batches (fun v => sv v ;; emit [APPEND]) (fun l => emit [MARK] ;; seqs sv l ;; emit [APPENDS])
                (S (length vs)) vs
      else seqs (fun v => sv v ;; emit [APPEND]) vs.

    (** [CPython Lib/pickle.py:978-1004] *)
    Definition save_kv (p : val * val) : act := sv (fst p) ;; sv (snd p).
    (** [CPython Lib/pickle.py:978-1004] *)
    Definition batch_setitems (kvs : list (val * val)) : act :=
      if bin then
        batches (fun p => save_kv p ;; emit [SETITEM]) (fun l => emit [MARK] ;; seqs save_kv l ;; emit [SETITEMS])
                (S (length kvs)) kvs
      else seqs (fun p => save_kv p ;; emit [SETITEM]) kvs.

    (** [CPython Lib/pickle.py:965-975, called at dill/_dill.py:1266] *)
    Definition save_dict (k : key) (kvs : list (val * val)) : act :=
      emit (if bin then [EMPTY_DICT] else [MARK; DICT]) ;; memoize k ;; batch_setitems kvs.

    (** [CPython Lib/pickle.py:925-934] *)
    Definition save_list (k : key) (vs : list val) : act :=
      emit (if bin then [EMPTY_LIST] else [MARK; LIST]) ;; memoize k ;; batch_appends vs.

    (** [CPython Lib/pickle.py:535-603] *)
    Definition save_arg (x : arg) : act :=
      match x with AV v => sv v | AD k kvs => save_dict k kvs | AL vs => save_list KAnon vs end.

    (** [CPython Lib/pickle.py:874-921] *)
    Definition empty_tuple : act := emit (if bin then [EMPTY_TUPLE] else [MARK; TUPLE]).

    (** save_tuple; the tuple may have been saved while saving its elements [CPython Lib/pickle.py:874-921] *)
    Definition save_tuple (k : key) (xs : list arg) : act :=
      match xs with
      | [] => empty_tuple
      | _ =>
        let n := length xs in
        if Nat.leb n 3 && Nat.leb 2 proto then
          seqs save_arg xs ;;
          (fun s => match memo_get k s with
                    | Some i => Ok ((repeat POP n ++ [GET i])%list, s)
                    | None => (emit [TUPLEN n] ;; memoize k) s
                    end)
        else
          emit [MARK] ;; seqs save_arg xs ;;
          (fun s => match memo_get k s with
                    | Some i => Ok (((if bin then [POP_MARK] else repeat POP (S n)) ++ [GET i])%list, s)
                    | None => (emit [TUPLE] ;; memoize k) s
                    end)
      end.

    (** [CPython Lib/pickle.py:724-738] *)
    Definition save_state (st : state) : act :=
      match st with
      | SNone => emit []
      | SVal v => sv v ;; emit [BUILD]
      | SAttrs d None => save_dict KAnon d ;; emit [BUILD]
      | SAttrs d (Some sl) => save_tuple KAnon [AD KAnon d; AD KAnon sl] ;; emit [BUILD]
      end.

    (** save_reduce(func, args, state, obj=obj); [newobj]: func is copyreg.__newobj__ with first
        argument [c] [CPython Lib/pickle.py:621-738] *)
    Definition red_call (newobj : bool) (c : val) (args : list arg) : act :=
      if newobj then
        if Nat.leb 2 proto then sv c ;; save_tuple KAnon args ;; emit [NEWOBJ]
        else sv (g_ GNewobj) ;; save_tuple KAnon (AV c :: args) ;; emit [REDUCE]
      else sv c ;; save_tuple KAnon args ;; emit [REDUCE].
    (** [CPython Lib/pickle.py:621-738] *)
    Definition red_memo (obj : option key) : act :=
      match obj with
      | None => emit []
      | Some k => fun s => match memo_get k s with
                           | Some i => Ok ([POP; GET i], s)
                           | None => memoize k s
                           end
      end.
    (** [CPython Lib/pickle.py:621-738] *)
    Definition save_reduce (newobj : bool) (c : val) (args : list arg) (st : state) (obj : option key) : act :=
      red_call newobj c args ;; red_memo obj ;; save_state st.
    (** save_reduce with listitems and dictitems: they are written even if the object turned out to be in the memo [CPython Lib/pickle.py:621-738] *)
    Definition save_instance (newobj : bool) (c : val) (args : list arg) (li : list val) (di : list (val * val)) (st : state) (k : key) : act :=
      red_call newobj c args ;; red_memo (Some k) ;; batch_appends li ;; batch_setitems di ;; save_state st.

    (** the elements of a set, in batches; one element also gets a MARK [CPython Lib/pickle.py:1020-1030] *)
    Definition add_batch (l : list val) : act := emit [MARK] ;; seqs sv l ;; emit [ADDITEMS].
    (** save_set and save_frozenset [CPython Lib/pickle.py:1009-1051] *)
    Definition save_set (k : key) (frozen : bool) (vs : list val) : act :=
      if Nat.leb 4 proto then
        if frozen then
          emit [MARK] ;; seqs sv vs ;;
          (fun s => match memo_get k s with
                    | Some i => Ok ([POP_MARK; GET i], s)
                    | None => (emit [FROZENSET] ;; memoize k) s
                    end)
        else emit [EMPTY_SET] ;; memoize k ;; batches (fun v => add_batch [v]) add_batch (S (length vs)) vs
      else save_reduce false (g_ (if frozen then GFrozenset else GSet)) [AL vs] SNone (Some k).

    (** the items of the dictionary a function's globals are copied from [globs_copy.items(), dill/_dill.py:1146-1150, 2002] *)
    Definition glob_items (f : oid) : option (list (val * val)) :=
      match H f with
      | Some (OFun _ (GCopy g _) _ _ _ _) => match H g with Some (ODict kvs) => Some kvs | _ => None end
      | _ => None
      end.

    (** the body of the loop at the end of _save_with_postproc, lines 1142-1159 *)
    Definition exec_pp (p : pp) : act :=
      match p with
      | PSetItems f =>
        match glob_items f with
        | None => fail Dangling
        | Some [] => emit []
        | Some kvs => fun s =>
          match memo_get (KGlob f) s with
          | None => Fail KeyErr s
          | Some i => (emit [GET i] ;; batch_setitems kvs ;; emit [POP]) s
          end
        end
      | PSetCell c =>
        match H c with
        | Some (OCell (Some v)) =>
          save_reduce false (g_ GSetattr) [AV (VR c); AV sCONTENTS; AV v] SNone None ;; emit [POP]
        | _ => fail Dangling
        end
      | PSetQual t =>
        match H t with
        | Some (OType _ _ _ _ q) =>
          save_reduce false (VA (AGlob GSetattr) 1) [AV (VR t); AV sQUAL; AV q] SNone None ;; emit [POP]
        | _ => fail Dangling
        end
      end.

    (** _save_with_postproc, lines 1112-1160 *)
    Definition push_post (o : oid) (l : list pp) : act := fun s =>
      Ok ([], {| memo := memo s; post := (post s ++ [(o, l)])%list |}).
    (** [dill/_dill.py:1137-1159] *)
    Definition pop_run (o : oid) : act := fun s =>
      match get o (post s) with
      | None => Fail KeyErr s
      | Some l => seqs exec_pp (rev l) {| memo := memo s; post := del o (post s) |}
      end.
    (** [dill/_dill.py:1112-1160] *)
    Definition save_with_postproc (o : oid) (own : list pp) (reduction : act) : act := fun s =>
      if memb o (map fst (post s)) then Fail Recursive s
      else (push_post o own ;; reduction ;; pop_run o) s.

    (** append to the list of element e [dill/_dill.py:1593, 2023] *)
    Fixpoint append_pp (e : oid) (p : pp) (l : list (oid * list pp)) : list (oid * list pp) :=
      match l with
      | [] => []
      | (e', ps) :: l' => if Nat.eqb e e' then (e', (ps ++ [p])%list) :: l' else (e', ps) :: append_pp e p l'
      end.
    (** [dill/_dill.py:1593, 2023] *)
    Definition add_pp (e : oid) (p : pp) : act := fun s =>
      Ok ([], {| memo := memo s; post := append_pp e p (post s) |}).

    (** save_cell, lines 1556-1599 *)
    Definition save_cell (o : oid) (contents : option val) : act := fun s =>
      match contents with
      | None =>                                                   (* Ce3 *)
        (save_reduce false (g_ GCreateCell) [AV (VA ACellEmpty 0)] SNone (Some (KObj o)) ;;
         save_reduce false (g_ GDelattr) [AV (VR o); AV sCONTENTS] SNone None ;; emit [POP]) s
      | Some v =>
        let dest := match v with
                    | VR f => if memb f (map fst (post s)) then Some f
                              else match post s with [] => None | (e, _) :: _ => Some e end
                    | _ => match post s with [] => None | (e, _) :: _ => Some e end
                    end in
        match dest with
        | Some e =>                                               (* Ce2 *)
          (save_reduce false (g_ GCreateCell) [AV vNone] SNone (Some (KObj o)) ;; add_pp e (PSetCell o)) s
        | None =>                                                 (* Ce1 *)
          save_reduce false (g_ GCreateCell) [AV v] SNone (Some (KObj o)) s
        end
      end.

    (** save_type, case T2, lines 1860-1910; the dictionary is the pruned one (ClassModel) *)
    Definition save_type (o : oid) (meta name bases : val) (d : list (val * val)) : act :=
      save_with_postproc o [PSetQual o]
        (save_reduce false (g_ GCreateType) [AV meta; AV name; AV bases; AD KAnon d] SNone (Some (KObj o))).

    (** save_function, case F1, lines 1963-2066 *)
    Definition first_in (vals : list val) (l : list (oid * list pp)) : option oid :=
      match find (fun p => existsb (fun v => match v with VR o => Nat.eqb o (fst p) | _ => false end) vals) l with
      | Some (e, _) => Some e
      | None => None
      end.
    (** [dill/_dill.py:1961-2066] *)
    Definition save_function (o : oid) (code : val) (gl : globals) (name defaults closure : val) (st : state) : act :=
      match gl with
      | GRef a =>
        save_with_postproc o []
          (save_reduce false (g_ GCreateFunction) [AV code; AV (VA a 0); AV name; AV defaults; AV closure] st (Some (KObj o)))
      | GCopy g m =>
        match H g with
        | Some (ODict kvs) => fun s =>
          let dest := first_in (map snd kvs) (post s) in
          ((match dest with Some e => add_pp e (PSetItems o) | None => emit [] end) ;;
           save_with_postproc o (match dest with Some _ => [] | None => [PSetItems o] end)
             (save_reduce false (g_ GCreateFunction)
                [AV code; AD (KGlob o) [(sNAME, m)]; AV name; AV defaults; AV closure] st (Some (KObj o)))) s
        | _ => fail Dangling
        end
      end.

    (** the dispatch on the type [self.dispatch.get(t), CPython Lib/pickle.py:553-603] *)
    Definition save_obj (o : oid) (b : obj) : act :=
      match b with
      | OTup vs => save_tuple (KObj o) (map AV vs)
      | OList vs => save_list (KObj o) vs
      | ODict kvs => save_dict (KObj o) kvs
      | OSet frozen vs => save_set (KObj o) frozen vs
      | ORed nb c args li di st => save_instance nb c (map AV args) li di st (KObj o)
      | OFun code gl name defaults closure st => save_function o code gl name defaults closure st
      | OType meta name bases d _ => save_type o meta name bases d
      | OCell contents => save_cell o contents
      end.

    (** [CPython Lib/pickle.py:740-871, 1056-1120; dill/_dill.py:1245-1260] *)
    Definition save_atom (a : atom) (i : nat) : act := fun s =>
      match a with
      | AEmptyTuple => empty_tuple s
      | _ => if memoized a then
               match memo_get (KAtom a i) s with
               | Some n => Ok ([GET n], s)
               | None => (emit [CONST a] ;; memoize (KAtom a i)) s
               end
             else Ok ([CONST a], s)
      end.
    (** [CPython Lib/pickle.py:535-603; dill/_dill.py:376-423] *)
    Definition save_val (v : val) : act := fun s =>
      match v with
      | VA a i => save_atom a i s
      | VR o =>
        match memo_get (KObj o) s with
        | Some n => Ok ([GET n], s)
        | None => match H o with Some b => save_obj o b s | None => Fail Dangling s end
        end
      end.
  End Save.

  (** Pickler.save, with at most [fuel] nested calls [CPython Lib/pickle.py:535-603; dill/_dill.py:376-423] *)
  Fixpoint save (fuel : nat) (v : val) : act :=
    match fuel with 0 => fail OutOfFuel | S n => save_val (save n) v end.

  (** Pickler.dump on a Pickler in state s [dill/_dill.py:427-429; CPython Lib/pickle.py:476-489] *)
  Definition dump (fuel : nat) (v : val) (s : pst) : res (list op * pst) :=
    match save fuel v s with
    | Fail e s => Fail e s
    | Ok (l, s) => Ok (((if Nat.leb 2 proto then [PROTO proto] else []) ++ l ++ [STOP])%list, s)
    end.
  (** Pickler.clear_memo [CPython Lib/pickle.py:466-474] *)
  Definition clear_memo (s : pst) : pst := {| memo := []; post := post s |}.
  (** dumps: a new Pickler, one dump [dill/_dill.py:264-290] *)
  Definition dumps (fuel : nat) (v : val) : res (list op) :=
    match dump fuel v {| memo := []; post := [] |} with
    | Fail e s => Fail e s
    | Ok (l, _) => Ok l
    end.
End Pickler.

(** ** the unpickler [the Unpickler, CPython Lib/pickle.py:1187-1216] *)
Record vm := Vm { stk : list val; meta : list (list val); mem : dict nat val; heap : list obj }.

(** [the heap; not in /repo] *)
Fixpoint upd {A} (l : list A) (n : nat) (x : A) : list A :=
  match l, n with
  | [], _ => []
  | _ :: l', 0 => x :: l'
  | y :: l', S n' => y :: upd l' n' x
  end.

(** [self.append, CPython Lib/pickle.py:1198-1200] *)
Definition push (v : val) (m : vm) : vm := {| stk := v :: stk m; meta := meta m; mem := mem m; heap := heap m |}.
(** [self.append, CPython Lib/pickle.py:1198-1200] *)
Definition set_stk (l : list val) (m : vm) : vm := {| stk := l; meta := meta m; mem := mem m; heap := heap m |}.
(** [self.append, CPython Lib/pickle.py:1198-1200] *)
Definition set_heap (h : list obj) (m : vm) : vm := {| stk := stk m; meta := meta m; mem := mem m; heap := h |}.
(** push a new object [self.append, CPython Lib/pickle.py:1198-1200] *)
Definition alloc (o : obj) (m : vm) : vm :=
  {| stk := VR (length (heap m)) :: stk m; meta := meta m; mem := mem m; heap := (heap m ++ [o])%list |}.
(** [CPython Lib/pickle.py:1218-1222] *)
Definition pop_mark (m : vm) : option (list val * vm) :=
  match meta m with
  | [] => None
  | s :: ms => Some (rev (stk m), {| stk := s; meta := ms; mem := mem m; heap := heap m |})
  end.

(** [CPython Lib/pickle.py:1473-1477, 1694-1698] *)
Fixpoint pairs (l : list val) : option (list (val * val)) :=
  match l with
  | [] => Some []
  | k :: v :: l' => match pairs l' with Some d => Some ((k, v) :: d) | None => None end
  | _ => None
  end.
(** [the items of an object on the stack; not in /repo] *)
Definition tuple_items (h : list obj) (v : val) : option (list val) :=
  match v with
  | VA AEmptyTuple _ => Some []
  | VR t => match nth_error h t with Some (OTup vs) => Some vs | _ => None end
  | _ => None
  end.
(** [the items of an object on the stack; not in /repo] *)
Definition dict_items (h : list obj) (v : val) : option (list (val * val)) :=
  match v with
  | VR t => match nth_error h t with Some (ODict kvs) => Some kvs | _ => None end
  | _ => None
  end.
(** [CPython Lib/pickle.py:1430-1449] *)
Definition make_tuple (vs : list val) (m : vm) : vm :=
  match vs with [] => push (VA AEmptyTuple 0) m | _ => alloc (OTup vs) m end.

(** calling a constructor or helper: _create_cell, setattr, delattr, _create_function, _create_type,
    copyreg.__newobj__, set and frozenset of a list, or a user's callable (which makes a new object remembering its arguments) [dill/_dill.py:601-618, 959-962; dill/_shims.py:190-193; CPython Lib/copyreg.py __newobj__; setattr] *)
Definition call (f : val) (args : list val) (m : vm) : option vm :=
  match f with
  | VA (AGlob GCreateCell) _ =>
    match args with
    | [VA ACellEmpty _] => Some (alloc (OCell None) m)
    | [v] => Some (alloc (OCell (Some v)) m)
    | _ => None
    end
  | VA (AGlob GSetattr) _ =>
    match args with
    | [VR a; VA (AStr n) _; v] =>
      match nth_error (heap m) a with
      | Some (OCell _) => if String.eqb n "cell_contents" then Some (push vNone (set_heap (upd (heap m) a (OCell (Some v))) m)) else None
      | Some (OType mt nm bs d _) =>
        if String.eqb n "__qualname__" then Some (push vNone (set_heap (upd (heap m) a (OType mt nm bs d v)) m)) else None
      | _ => None
      end
    | _ => None
    end
  | VA (AGlob GDelattr) _ =>
    match args with
    | [VR a; VA (AStr n) _] =>
      match nth_error (heap m) a with
      | Some (OCell _) => if String.eqb n "cell_contents" then Some (push vNone (set_heap (upd (heap m) a (OCell None)) m)) else None
      | _ => None
      end
    | _ => None
    end
  | VA (AGlob GCreateFunction) _ =>
    match args with
    | [code; VA a _; name; defaults; closure] => Some (alloc (OFun code (GRef a) name defaults closure SNone) m)
    | [code; VR g; name; defaults; closure] =>
      match nth_error (heap m) g with
      | Some (ODict d) =>
        (* "if '__builtins__' not in func.__globals__"; __module__ comes from __name__ *)
        let d' := match getitem d sBUILTINS with Some _ => d | None => (d ++ [(sBUILTINS, vBUILTINS)])%list end in
        let mo := match getitem d sNAME with Some v => v | None => vNone end in
        Some (alloc (OFun code (GCopy g mo) name defaults closure SNone) (set_heap (upd (heap m) g (ODict d')) m))
      | _ => None
      end
    | _ => None
    end
  | VA (AGlob GCreateType) _ =>
    match args with
    | [mt; nm; bs; VR d] =>
      match nth_error (heap m) d with
      | Some (ODict kvs) => Some (alloc (OType mt nm bs kvs nm) m)     (* type() copies the dictionary *)
      | _ => None
      end
    | _ => None
    end
  | VA (AGlob GNewobj) _ =>
    match args with c :: args' => Some (alloc (ORed true c args' [] [] SNone) m) | [] => None end
  | VA (AGlob GSet) _ =>
    match args with
    | [VR l] => match nth_error (heap m) l with Some (OList vs) => Some (alloc (OSet false (set_adds [] vs)) m) | _ => None end
    | _ => None
    end
  | VA (AGlob GFrozenset) _ =>
    match args with
    | [VR l] => match nth_error (heap m) l with Some (OList vs) => Some (alloc (OSet true (set_adds [] vs)) m) | _ => None end
    | _ => None
    end
  | _ => Some (alloc (ORed false f args [] [] SNone) m)
  end.

(** load_build: update the instance's attributes from a dictionary or a pair of dictionaries, else
    __setstate__ [CPython Lib/pickle.py:1712-1733] *)
Definition upd_state (st new : state) : state :=
  match new with
  | SAttrs d sl =>
    let d0 := match st with SAttrs d0 _ => d0 | _ => [] end in
    let s0 := match st with SAttrs _ s0 => s0 | _ => None end in
    SAttrs (setitems d0 d)
           (match sl with Some s => Some (setitems (match s0 with Some s0 => s0 | None => [] end) s) | None => s0 end)
  | _ => new
  end.
(** [CPython Lib/pickle.py:1712-1733] *)
Definition state_arg (h : list obj) (v : val) : state :=
  match dict_items h v with
  | Some d => SAttrs d None
  | None =>
    match tuple_items h v with
    | Some [x; y] => match dict_items h x, dict_items h y with
                     | Some d, Some s => SAttrs d (Some s)
                     | _, _ => SVal v
                     end
    | _ => SVal v
    end
  end.

(** load_append(s): to a list, or through extend/append of an instance; load_setitem(s): in a dict, or through __setitem__ of an instance.
    Simplified: an instance's methods do what list's and dict's do, and every instance has them [CPython Lib/pickle.py:1661-1683] *)
Definition extend (b : option obj) (vs : list val) : option obj :=
  match b with
  | Some (OList l) => Some (OList (l ++ vs)%list)
  | Some (ORed nb c args li di st) => Some (ORed nb c args (li ++ vs)%list di st)
  | _ => None
  end.
(** [CPython Lib/pickle.py:1686-1698] *)
Definition set_all (b : option obj) (kvs : list (val * val)) : option obj :=
  match b with
  | Some (ODict d) => Some (ODict (setitems d kvs))
  | Some (ORed nb c args li di st) => Some (ORed nb c args li (setitems di kvs) st)
  | _ => None
  end.

(** [CPython Lib/pickle.py:1229-1748] *)
Definition step (o : op) (m : vm) : option vm :=
  match o with
  | PROTO p => if Nat.leb p 5 then Some m else None
  | STOP => None
  | MARK => Some {| stk := []; meta := stk m :: meta m; mem := mem m; heap := heap m |}
  | POP => match stk m with
           | _ :: s => Some (set_stk s m)
           | [] => match pop_mark m with Some (_, m') => Some m' | None => None end
           end
  | POP_MARK => match pop_mark m with Some (_, m') => Some m' | None => None end
  | CONST a => Some (push (VA a 0) m)
  | EMPTY_TUPLE => Some (push (VA AEmptyTuple 0) m)
  | TUPLE => match pop_mark m with Some (vs, m') => Some (make_tuple vs m') | None => None end
  | TUPLEN n => if Nat.leb n (length (stk m)) then
                  Some (make_tuple (rev (firstn n (stk m))) (set_stk (skipn n (stk m)) m)) else None
  | EMPTY_LIST => Some (alloc (OList []) m)
  | LIST => match pop_mark m with Some (vs, m') => Some (alloc (OList vs) m') | None => None end
  | APPEND =>
    match stk m with
    | v :: VR a :: s => match extend (nth_error (heap m) a) [v] with
                        | Some b => Some (set_heap (upd (heap m) a b) (set_stk (VR a :: s) m))
                        | None => None end
    | _ => None
    end
  | APPENDS =>
    match pop_mark m with
    | Some (items, m') =>
      match stk m' with
      | VR a :: _ => match extend (nth_error (heap m') a) items with
                     | Some b => Some (set_heap (upd (heap m') a b) m')
                     | None => None end
      | _ => None
      end
    | None => None
    end
  | EMPTY_DICT => Some (alloc (ODict []) m)
  | DICT => match pop_mark m with
            | Some (vs, m') => match pairs vs with Some d => Some (alloc (ODict (setitems [] d)) m') | None => None end
            | None => None end
  | SETITEM =>
    match stk m with
    | v :: k :: VR a :: s => match set_all (nth_error (heap m) a) [(k, v)] with
                             | Some b => Some (set_heap (upd (heap m) a b) (set_stk (VR a :: s) m))
                             | None => None end
    | _ => None
    end
  | SETITEMS =>
    match pop_mark m with
    | Some (items, m') =>
      match stk m' with
      | VR a :: _ => match pairs items with
                     | Some kvs => match set_all (nth_error (heap m') a) kvs with
                                   | Some b => Some (set_heap (upd (heap m') a b) m')
                                   | None => None end
                     | None => None end
      | _ => None
      end
    | None => None
    end
  | GET i => match get i (mem m) with Some v => Some (push v m) | None => None end
  | PUT i => match stk m with
             | v :: _ => Some {| stk := stk m; meta := meta m; mem := set i v (mem m); heap := heap m |}
             | [] => None end
  | MEMOIZE => match stk m with
               | v :: _ => Some {| stk := stk m; meta := meta m; mem := set (length (mem m)) v (mem m); heap := heap m |}
               | [] => None end
  | REDUCE =>
    match stk m with
    | args :: f :: s => match tuple_items (heap m) args with
                        | Some vs => call f vs (set_stk s m)
                        | None => None end
    | _ => None
    end
  | NEWOBJ =>
    match stk m with
    | args :: c :: s => match tuple_items (heap m) args with
                        | Some vs => Some (alloc (ORed true c vs [] [] SNone) (set_stk s m))
                        | None => None end
    | _ => None
    end
  | BUILD =>
    match stk m with
    | v :: VR a :: s =>
      let new := state_arg (heap m) v in
      match nth_error (heap m) a with
      | Some (ORed nb c args li di st) => Some (set_heap (upd (heap m) a (ORed nb c args li di (upd_state st new))) (set_stk (VR a :: s) m))
      | Some (OFun co gl nm de cl st) => Some (set_heap (upd (heap m) a (OFun co gl nm de cl (upd_state st new))) (set_stk (VR a :: s) m))
      | _ => None
      end
    | _ => None
    end
  | EMPTY_SET => Some (alloc (OSet false []) m)
  | ADDITEMS =>
    match pop_mark m with
    | Some (items, m') =>
      match stk m' with
      | VR a :: _ => match nth_error (heap m') a with
                     | Some (OSet false l) => Some (set_heap (upd (heap m') a (OSet false (set_adds l items))) m')
                     | _ => None end
      | _ => None
      end
    | None => None
    end
  | FROZENSET => match pop_mark m with Some (vs, m') => Some (alloc (OSet true (set_adds [] vs)) m') | None => None end
  end.

(** Unpickler.load: run to STOP; what follows is left in the stream [CPython Lib/pickle.py:1187-1216; dill/_dill.py:292-312, 452-453] *)
Fixpoint load (ops : list op) (m : vm) : option (val * vm * list op) :=
  match ops with
  | [] => None                                         (* EOFError *)
  | STOP :: rest => match stk m with v :: _ => Some (v, m, rest) | [] => None end
  | o :: rest => match step o m with Some m' => load rest m' | None => None end
  end.
(** [CPython Lib/pickle.py:1187-1216; dill/_dill.py:292-312, 452-453] *)
Definition loads (ops : list op) : option (val * vm * list op) :=
  load ops {| stk := []; meta := []; mem := []; heap := [] |}.
