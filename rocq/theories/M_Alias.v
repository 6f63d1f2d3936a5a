(** The lists that the objects of the package hold (names, constants), as objects: which attributes
    of which objects are the same list.  The other files treat these lists as values.
    Of an object only its class and its list attributes are modelled; the elements of the lists
    are of any type [A].  exception_table is not modelled: no method hands it on. *)
From Verif Require Import PyBase.
Open Scope list_scope.
Open Scope nat_scope.

(** bytecode.py:35-50, 244 and concrete.py:276-279, cfg.py:466-469: the attributes that are lists of names or constants *)
Inductive attr : Type := Cellvars | Freevars | Argnames | Consts | Names | Varnames.
Inductive cls : Type := CBytecode | CConcrete | CGraph.
Definition has (c : cls) (a : attr) : bool :=
  match a, c with
  | Cellvars, _ | Freevars, _ => true
  | Argnames, CConcrete => false
  | Argnames, _ => true
  | _, CConcrete => true
  | _, _ => false
  end.

(** An object: for each attribute the number of the list it refers to *)
Record obj : Type := mkObj { o_cls : cls; o_slot : attr -> nat }.
Definition slots (rc rf ra rk rn rv : nat) : attr -> nat := fun a =>
  match a with Cellvars => rc | Freevars => rf | Argnames => ra | Consts => rk | Names => rn | Varnames => rv end.
Definition is_attr (a b : attr) : bool :=
  match a, b with
  | Cellvars, Cellvars | Freevars, Freevars | Argnames, Argnames | Consts, Consts | Names, Names | Varnames, Varnames => true
  | _, _ => false
  end.
Definition set_slot (x : obj) (a : attr) (r : nat) : obj :=
  mkObj (o_cls x) (fun b => if is_attr a b then r else o_slot x b).

Section Alias.
  Context {A : Type}.
  Definition lheap : Type := list (list A).
  Record state : Type := mkSt { s_lists : lheap; s_objs : list obj }.

  (** a new list, [list(l)] *)
  Definition alloc (h : lheap) (l : list A) : lheap * nat := (h ++ [l], length h).
  Definition contents (h : lheap) (r : nat) : list A := match nth_error h r with Some l => l | None => [] end.

  (** bytecode.py:35-50 BaseBytecode.__init__ with bytecode.py:244 (Bytecode), cfg.py:466-471 (ControlFlowGraph)
      and concrete.py:264-282 (ConcreteBytecode, which makes lists of the arguments it is given) *)
  Definition init (h : lheap) (c : cls) (consts names varnames : list A) : lheap * obj :=
    let (h, rc) := alloc h [] in
    let (h, rf) := alloc h [] in
    match c with
    | CConcrete =>
        let (h, rk) := alloc h consts in
        let (h, rn) := alloc h names in
        let (h, rv) := alloc h varnames in
        (h, mkObj c (slots rc rf 0 rk rn rv))
    | _ => let (h, ra) := alloc h [] in (h, mkObj c (slots rc rf ra 0 0 0))
    end.

  (** bytecode.py:53-64 BaseBytecode._copy_attr_from, 270-273 Bytecode._copy_attr_from and
      concrete.py:298-303 ConcreteBytecode._copy_attr_from: cellvars and freevars are new lists,
      the other lists are handed on as they are *)
  Definition copy_attr_from (h : lheap) (x y : obj) : lheap * obj :=
    let (h, rc) := alloc h (contents h (o_slot y Cellvars)) in
    let x := set_slot x Cellvars rc in
    let (h, rf) := alloc h (contents h (o_slot y Freevars)) in
    let x := set_slot x Freevars rf in
    (h, match o_cls x, o_cls y with
        | CBytecode, CBytecode => set_slot x Argnames (o_slot y Argnames)
        | CConcrete, CConcrete =>
            set_slot (set_slot (set_slot x Consts (o_slot y Consts)) Names (o_slot y Names)) Varnames (o_slot y Varnames)
        | _, _ => x
        end).

  (** [x.a = list(l)] *)
  Definition set_new (h : lheap) (x : obj) (a : attr) (l : list A) : lheap * obj :=
    let (h, r) := alloc h l in (h, set_slot x a r).

  Definition add_obj (st : state) (p : lheap * obj) : state := mkSt (fst p) (s_objs st ++ [snd p]).

  (** The constructors *)
  Definition construct (st : state) (c : cls) (consts names varnames : list A) : state :=
    add_obj st (init (s_lists st) c consts names varnames).

  (** concrete.py:376-390 ConcreteBytecode.from_code: lists made of the tuples of the code object *)
  Definition from_code (st : state) (names consts varnames freevars cellvars : list A) : state :=
    let (h, x) := init (s_lists st) CConcrete [] [] [] in
    let (h, x) := set_new h x Names names in
    let (h, x) := set_new h x Consts consts in
    let (h, x) := set_new h x Varnames varnames in
    let (h, x) := set_new h x Freevars freevars in
    add_obj st (set_new h x Cellvars cellvars).

  (** bytecode.py:128-141 copy() and slices of Bytecode and ConcreteBytecode; a graph has neither *)
  Definition copy (st : state) (i : nat) : option state :=
    match nth_error (s_objs st) i with
    | Some y => match o_cls y with
                | CGraph => None
                | c => let (h, x) := init (s_lists st) c [] [] [] in Some (add_obj st (copy_attr_from h x y))
                end
    | None => None
    end.

  (** cfg.py:766-768 ControlFlowGraph.from_bytecode *)
  Definition graph_of_bytecode (st : state) (i : nat) : option state :=
    match nth_error (s_objs st) i with
    | Some y => match o_cls y with
                | CBytecode => let (h, x) := init (s_lists st) CGraph [] [] [] in
                               let (h, x) := copy_attr_from h x y in
                               Some (add_obj st (set_new h x Argnames (contents h (o_slot y Argnames))))
                | _ => None
                end
    | None => None
    end.

  (** cfg.py:1041-1043 ControlFlowGraph.to_bytecode *)
  Definition bytecode_of_graph (st : state) (i : nat) : option state :=
    match nth_error (s_objs st) i with
    | Some y => match o_cls y with
                | CGraph => let (h, x) := init (s_lists st) CBytecode [] [] [] in
                            let (h, x) := copy_attr_from h x y in
                            Some (add_obj st (set_new h x Argnames (contents h (o_slot y Argnames))))
                | _ => None
                end
    | None => None
    end.

  (** concrete.py:1129-1138 ConcreteBytecode.to_bytecode; [nargs] is computed from the counts and flags *)
  Definition bytecode_of_concrete (st : state) (i nargs : nat) : option state :=
    match nth_error (s_objs st) i with
    | Some y => match o_cls y with
                | CConcrete => let (h, x) := init (s_lists st) CBytecode [] [] [] in
                               let (h, x) := copy_attr_from h x y in
                               Some (add_obj st (set_new h x Argnames (firstn nargs (contents h (o_slot y Varnames)))))
                | _ => None
                end
    | None => None
    end.

  (** concrete.py:1505-1513, the end of to_concrete_bytecode(); the lists are those of the converter
      (concrete.py:1165-1168), [varnames] beginning with the argument names (concrete.py:1492) *)
  Definition concrete_of_bytecode (st : state) (i : nat) (consts names more : list A) : option state :=
    match nth_error (s_objs st) i with
    | Some y => match o_cls y with
                | CBytecode => let h := s_lists st in
                               let (h, x) := init h CConcrete consts names (contents h (o_slot y Argnames) ++ more) in
                               Some (add_obj st (copy_attr_from h x y))
                | _ => None
                end
    | None => None
    end.

  (** [x.a]: what the user sees *)
  Definition read (st : state) (i : nat) (a : attr) : option (list A) :=
    match nth_error (s_objs st) i with
    | Some x => if has (o_cls x) a then Some (contents (s_lists st) (o_slot x a)) else None
    | None => None
    end.
  (** the user changes the list [x.a] in place: append, del, sort, x.a[0] = ... *)
  Definition edit (st : state) (i : nat) (a : attr) (f : list A -> list A) : option state :=
    match nth_error (s_objs st) i with
    | Some x => if has (o_cls x) a
                then Some (mkSt (upd (o_slot x a) (f (contents (s_lists st) (o_slot x a))) (s_lists st)) (s_objs st))
                else None
    | None => None
    end.
  (** the user assigns a new list: x.a = [...] *)
  Definition assign (st : state) (i : nat) (a : attr) (l : list A) : option state :=
    match nth_error (s_objs st) i with
    | Some x => if has (o_cls x) a
                then let (h, x) := set_new (s_lists st) x a l in Some (mkSt h (upd i x (s_objs st)))
                else None
    | None => None
    end.
End Alias.
Arguments state : clear implicits.
Arguments lheap : clear implicits.
