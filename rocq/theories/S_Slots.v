(** Specification: what CPython reads when it executes an instruction with a given numeric
    argument (documentation of the dis module, and Python/bytecodes.c), in terms of the
    tables of the code object.  Independent of the assembler and of the disassembler. *)
From Verif Require Import PyBase OpTable M_Instr M_Tables M_Concrete S_Args.
Open Scope string_scope.
Open Scope list_scope.
Open Scope Z_scope.

Definition at_ {A} (l : list A) (a : Z) (x : A) : Prop :=
  0 <= a /\ nth_error l (Z.to_nat a) = Some x.

(** Cell variables that are not also local variables (arguments captured by a closure). *)
Definition unshared (locals cells : list string) : list string :=
  filter (fun n => negb (str_mem n locals)) cells.

(** Since 3.11 a frame has one array of slots: the local variables, then the cell variables
    that are not local variables, then the free variables.  A cell variable that is also a
    local variable lives in the slot of the local variable. *)
Inductive frame_slot (cb : cbytecode) : Z -> pyobj -> Prop :=
| fs_local n a : at_ (cb_varnames cb) a n -> frame_slot cb a (OStr n)
| fs_shared n a : In n (m_cellvars (cb_meta cb)) -> at_ (cb_varnames cb) a n ->
    frame_slot cb a (OCell n)
| fs_cell n j : at_ (unshared (cb_varnames cb) (m_cellvars (cb_meta cb))) j n ->
    frame_slot cb (zlen (cb_varnames cb) + j) (OCell n)
| fs_free n j : at_ (m_freevars (cb_meta cb)) j n ->
    frame_slot cb (zlen (cb_varnames cb)
                   + zlen (unshared (cb_varnames cb) (m_cellvars (cb_meta cb))) + j) (OFree n).

(** Before 3.11 the cells, then the free variables, have an array of their own. *)
Inductive old_deref (cb : cbytecode) : Z -> pyobj -> Prop :=
| od_cell n a : at_ (m_cellvars (cb_meta cb)) a n -> old_deref cb a (OCell n)
| od_free n j : at_ (m_freevars (cb_meta cb)) j n ->
    old_deref cb (zlen (m_cellvars (cb_meta cb)) + j) (OFree n).

(** The variable of a LOAD_FAST-like instruction: before 3.13 bytecode only allows local
    variables (by name) there. *)
Definition local_slot (v : pyver) (cb : cbytecode) (a : Z) (x : pyobj) : Prop :=
  frame_slot cb a x /\ (PY313 v = true \/ exists n, x = OStr n).

(** The variable of a LOAD_DEREF-like instruction. *)
Definition deref_slot (v : pyver) (cb : cbytecode) (a : Z) (x : pyobj) : Prop :=
  (forall n, x <> OStr n) /\ if PY311 v then frame_slot cb a x else old_deref cb a x.

(** The comparison selected by the argument of COMPARE_OP; on 3.13, 16 is added when the
    result is converted to bool. *)
Definition comparison (v : pyver) (a : Z) : Z :=
  if PY313 v then a / 32 + (if Z.testbit a 4 then 16 else 0)
  else if PY312 v then a / 16 else a.

Section Reads.
  Variables (v : pyver) (T : optable) (cb : cbytecode) (op : Z).

  Inductive reads : option Z -> pyobj -> Prop :=
  | rd_none : opcode_has_argument v T op = false -> reads None OUnset
  | rd_int a x : plain v T op -> as_int x = Some a -> reads (Some a) x
  | rd_const a x : In op (t_hasconst T) -> at_ (cb_consts cb) a x -> reads (Some a) x
  | rd_local a x : In op (t_haslocal T) -> is_dual v T op = false ->
      local_slot v cb a x -> reads (Some a) x
  | rd_pair a x y : is_dual v T op = true ->
      local_slot v cb (a / 16) x -> local_slot v cb (a mod 16) y -> reads (Some a) (OTuple [x; y])
  | rd_name a n : In op (t_hasname T) -> is_bitflag v T op = false -> is_bitflag2 v T op = false ->
      at_ (cb_names cb) a n -> reads (Some a) (OStr n)
  | rd_flag a (b : bool) n : is_bitflag v T op = true -> at_ (cb_names cb) (a / 2) n ->
      Z.testbit a 0 = b -> reads (Some a) (OTuple [OBool b; OStr n])
  | rd_flag2 a (b c : bool) n : is_bitflag2 v T op = true -> at_ (cb_names cb) (a / 4) n ->
      Z.testbit a 0 = b -> Z.testbit a 1 = c -> reads (Some a) (OTuple [OBool b; OBool c; OStr n])
  | rd_deref a x : In op (t_hasfree T) -> deref_slot v cb a x -> reads (Some a) x
  | rd_compare a : In op (t_hascompare T) -> reads (Some a) (OCompare (comparison v a))
  | rd_intr1 a : is_intrinsic1 v T op = true -> reads (Some a) (OIntr1 a)
  | rd_intr2 a : is_intrinsic2 v T op = true -> reads (Some a) (OIntr2 a).
End Reads.

(** Members of the enumerations Compare, Intrinsic1Op and Intrinsic2Op: the only objects of
    these classes. *)
Definition real_member (v : pyver) (x : pyobj) : Prop :=
  match x with
  | OCompare z => 0 <= z <= 5 \/ (v = V38 /\ 6 <= z <= 10) \/ (v = V313 /\ 16 <= z <= 21)
  | OIntr1 z => 0 <= z <= 11
  | OIntr2 z => 0 <= z <= 4
  | _ => True
  end.

(** The low bits of the argument of COMPARE_OP since 3.12: for which outcomes of comparing
    two numbers the comparison is true. *)
Inductive outcome : Set := Unordered | Less | Greater | Equal.
Definition outcome_bit (o : outcome) : Z :=
  match o with Unordered => 0 | Less => 1 | Greater => 2 | Equal => 3 end.
(** comparison numbers 0 .. 5: <, <=, ==, !=, >, >= *)
Definition holds (cmp : Z) (o : outcome) : bool :=
  match cmp, o with
  | 0, Less => true
  | 1, (Less | Equal) => true
  | 2, Equal => true
  | 3, (Unordered | Less | Greater) => true
  | 4, Greater => true
  | 5, (Greater | Equal) => true
  | _, _ => false
  end.

(** Two arguments that mean the same: equal; the same integer; on 3.13 a cell variable that
    is a local variable, given by its name. *)
Inductive same_arg (v : pyver) (T : optable) (cb : cbytecode) (op : Z) : pyobj -> pyobj -> Prop :=
| sa_eq x : same_arg v T cb op x x
| sa_int x a : plain v T op -> as_int x = Some a -> same_arg v T cb op x (OInt a)
| sa_cell n : PY313 v = true -> In op (t_haslocal T) -> In n (cb_varnames cb) ->
    same_arg v T cb op (OCell n) (OStr n)
| sa_pair x y x' y' : same_arg v T cb op x x' -> same_arg v T cb op y y' ->
    same_arg v T cb op (OTuple [x; y]) (OTuple [x'; y']).

(** ** Tables: elements of [l] at their first occurrence, [seen] coming before. *)
Fixpoint firsts {A} (same : A -> A -> bool) (seen l : list A) : list A :=
  match l with
  | [] => []
  | x :: r => if existsb (same x) seen then firsts same seen r
              else x :: firsts same (seen ++ [x]) r
  end.

(** Constants, names and local variables used by the instructions, in order. *)
Definition const_uses (T : optable) (items : list bitem) : list pyobj :=
  flat_map (fun it => match it with
    | BI i => if z_mem (i_op i) (t_hasconst T) then [i_arg i] else []
    | _ => [] end) items.
Definition name_of (x : pyobj) : list string :=
  match x with OStr s | OTuple [_; OStr s] | OTuple [_; _; OStr s] => [s] | _ => [] end.
Definition name_uses (T : optable) (items : list bitem) : list string :=
  flat_map (fun it => match it with
    | BI i => if z_mem (i_op i) (t_hasname T) then name_of (i_arg i) else []
    | _ => [] end) items.
Definition locals_of (x : pyobj) : list string :=
  match x with OStr s => [s] | OTuple [OStr a; OStr b] => [a; b] | _ => [] end.
Definition local_uses (T : optable) (items : list bitem) : list string :=
  flat_map (fun it => match it with
    | BI i => if z_mem (i_op i) (t_haslocal T) then locals_of (i_arg i) else []
    | _ => [] end) items.
(** Variables of the paired instructions of 3.13, whose indices must be small. *)
Definition pair_uses (v : pyver) (T : optable) (items : list bitem) : list string :=
  flat_map (fun it => match it with
    | BI i => if is_dual v T (i_op i) then locals_of (i_arg i) else []
    | _ => [] end) items.
