(** Model of src/bytecode/flags.py: infer_flags. *)
From Verif Require Import PyBase OpTable CPy M_Instr M_Tables M_Concrete.
Open Scope string_scope.
Open Scope list_scope.
Open Scope Z_scope.

(** flags.py:12-38 CompilerFlags, as integers *)
Definition OPTIMIZED : Z := 0x1.
Definition NEWLOCALS : Z := 0x2.
Definition VARARGS : Z := 0x4.
Definition VARKEYWORDS : Z := 0x8.
Definition NESTED : Z := 0x10.
Definition GENERATOR : Z := 0x20.
Definition NOFREE : Z := 0x40.
Definition COROUTINE : Z := 0x80.
Definition ITERABLE_COROUTINE : Z := 0x100.
Definition ASYNC_GENERATOR : Z := 0x200.
Definition FUTURE_GENERATOR_STOP : Z := 0x800000.
Definition FUTURE_ANNOTATIONS : Z := 0x1000000.

(** What infer_flags sees of an element of the iterated sequence: a pseudo instruction
    (SetLineno, Label, TryBegin, TryEnd), an instruction (abstract or concrete), or one of
    the tuples that ControlFlowGraph._get_instructions uses for TryBegin and TryEnd
    (cfg.py:609-619).  Iterating a Bytecode may also raise (bytecode.py:249-260). *)
Inductive fitem : Type :=
| FPseudo
| FTuple
| FRaise (e : exn)                 (* fetching the element raises *)
| FInstr (name : string) (op : Z) (arg : pyobj).

(** flags.py:41-45 UNOPTIMIZED_OPCODES *)
Definition unoptimized_op (T : optable) (op : Z) : bool :=
  opcode_in T ["STORE_NAME"; "LOAD_NAME"; "DELETE_NAME"] op.

(** flags.py:47-55 ASYNC_OPCODES *)
Definition async_op (v : pyver) (T : optable) (op : Z) : bool :=
  opcode_in T (["GET_AWAITABLE"; "GET_AITER"; "GET_ANEXT"; "BEFORE_ASYNC_WITH"]
               ++ (if PY311 v then [] else ["SETUP_ASYNC_WITH"])
               ++ ["END_ASYNC_FOR"]
               ++ (if PY311 v && negb (PY312 v) then ["ASYNC_GEN_WRAP"] else [])) op.

(** flags.py:57 YIELD_VALUE_OPCODE *)
Definition yield_op (T : optable) (op : Z) : bool := opcode_is T "YIELD_VALUE" op.

(** flags.py:58-61 GENERATOR_LIKE_OPCODES *)
Definition generator_like_op (v : pyver) (T : optable) (op : Z) : bool :=
  opcode_in T ((if PY311 v then [] else ["YIELD_FROM"])
               ++ (if PY311 v then ["RETURN_GENERATOR"] else [])) op.

(** The local variables of the loop (flags.py:104-108) *)
Record fstate : Type := mkF {
  f_optimized : bool; f_has_free : bool; f_async : bool; f_gen : bool; f_possible : bool }.

(** [isinstance(o, CellVar)] *)
Definition is_cell (o : pyobj) : bool := match o with OCell _ => true | _ => false end.
Definition is_cell_or_free (o : pyobj) : bool :=
  match o with OCell _ | OFree _ => true | _ => false end.

(** flags.py:149-153: [instr.arg[0]] and [instr.arg[1]] of a paired instruction (always a
    pair, instr.py:868-878) *)
Definition dual_cell (arg : pyobj) : bool :=
  match arg with
  | OTuple (a :: b :: _) => is_cell a || is_cell b
  | _ => false
  end.

(** flags.py:127-142: the element after YIELD_VALUE on 3.11+, skipping pseudo
    instructions; StopIteration at the end *)
Fixpoint next_real (l : list fitem) : res (fitem * list fitem) :=
  match l with
  | [] => Err StopIteration
  | FPseudo :: l' => next_real l'
  | FRaise e :: _ => Err e
  | x :: l' => Ok (x, l')
  end.

(** flags.py:110-160 the loop.  Every round consumes an element, so the length of the
    sequence is enough fuel. *)
Fixpoint infer_loop (v : pyver) (T : optable) (concrete : bool) (fuel : nat)
  (l : list fitem) (s : fstate) : res fstate :=
  match fuel with
  | O => Ok s
  | S f =>
    match l with
    | [] => Ok s
    | FPseudo :: l' => infer_loop v T concrete f l' s
    | FRaise e :: _ => Err e
    | FTuple :: _ => Err AttributeError            (* instr.opcode of a tuple *)
    | FInstr _ op arg :: l' =>
        let '(mkF opt fr asy gen pos) := s in
        if unoptimized_op T op then infer_loop v T concrete f l' (mkF false fr asy gen pos)
        else if async_op v T op then infer_loop v T concrete f l' (mkF opt fr true gen pos)
        else if yield_op T op then
          if PY311 v then
            ' (ni, l'') <- next_real l' ;;
            match ni with
            | FInstr n _ a =>
                _ <- guard (String.eqb n "RESUME") AssertionError ;;
                (* RESUME has an integer argument *)
                z <- of_option TypeError (as_int a) ;;
                if Z.land z 3 =? 3
                then infer_loop v T concrete f l'' (mkF opt fr true gen pos)
                else infer_loop v T concrete f l'' (mkF opt fr asy true pos)
            | _ => Err AttributeError
            end
          else infer_loop v T concrete f l' (mkF opt fr asy true pos)
        else if generator_like_op v T op then
          infer_loop v T concrete f l' (mkF opt fr asy gen true)
        else if z_mem op (t_hasfree T) then
          infer_loop v T concrete f l' (mkF opt true asy gen pos)
        else if negb concrete && is_dual v T op && dual_cell arg then
          infer_loop v T concrete f l' (mkF opt true asy gen pos)
        else if PY313 v && z_mem op (t_haslocal T) && is_cell_or_free arg then
          infer_loop v T concrete f l' (mkF opt true asy gen pos)
        else infer_loop v T concrete f l' s
    end
  end.

(** [flags & x] as a truth value *)
Definition has_flag (flags x : Z) : bool := negb (Z.land flags x =? 0).

(** flags.py:178-233 the part that depends on is_async *)
Definition kind_flag (flags : Z) (is_async : option bool) (s : fstate) : res Z :=
  let '(mkF _ _ asy gen pos) := s in
  match is_async with
  | None | Some true =>
      let forced := match is_async with Some true => true | _ => false end in
      if has_flag flags COROUTINE || has_flag flags ASYNC_GENERATOR then
        Ok (if gen then ASYNC_GENERATOR else COROUTINE)
      else if has_flag flags ITERABLE_COROUTINE then
        if asy then Err ValueError else Ok ITERABLE_COROUTINE
      else if asy then Ok (if gen then ASYNC_GENERATOR else COROUTINE)
      else if gen || pos then
        Ok (if forced then (if gen then ASYNC_GENERATOR else COROUTINE) else GENERATOR)
      else Ok (if forced then COROUTINE else 0)
  | Some false =>
      if asy then Err ValueError
      else Ok (if gen || pos then GENERATOR else 0)
  end.

(** flags.py:64-237 infer_flags *)
Definition infer_flags (v : pyver) (T : optable) (concrete : bool)
  (cellvars freevars : list string) (flags : Z) (items : list fitem) (is_async : option bool)
  : res Z :=
  let has_free := concrete && (0 <? zlen cellvars) && (0 <? zlen freevars) in
  s <- infer_loop v T concrete (length items) items (mkF true has_free false false false) ;;
  let out := if f_optimized s then Z.lor 0 OPTIMIZED else 0 in
  let out := if f_has_free s then out else Z.lor out NOFREE in
  let out := Z.lor out (Z.land flags
               (Z.lor (Z.lor (Z.lor NEWLOCALS VARARGS) VARKEYWORDS) NESTED)) in
  k <- kind_flag flags is_async s ;;
  let out := Z.lor out k in
  Ok (Z.lor out (Z.land flags FUTURE_GENERATOR_STOP)).

(** The elements of a Bytecode as infer_flags sees them, with the check of
    bytecode.py:249-260; [seen] is the variable seen_try_begin *)
Fixpoint fitems (seen : bool) (l : list bitem) : list fitem :=
  match l with
  | [] => []
  | BTB _ _ _ _ :: l' => if seen then [FRaise RuntimeError] else FPseudo :: fitems true l'
  | BTE _ :: l' => FPseudo :: fitems false l'
  | BI i :: l' => FInstr (i_name i) (i_op i) (i_arg i) :: fitems seen l'
  | _ :: l' => FPseudo :: fitems seen l'
  end.

(** The elements of a ConcreteBytecode *)
Definition fitem_of_citem (x : citem) : fitem :=
  match x with CI c => FInstr (c_name c) (c_op c) (c_pyarg c) | CSet _ => FPseudo end.

(** infer_flags on a Bytecode *)
Definition infer_flags_bytecode (v : pyver) (T : optable) (b : bytecode)
  (is_async : option bool) : res Z :=
  let m := b_meta b in
  infer_flags v T false (m_cellvars m) (m_freevars m) (m_flags m)
    (fitems false (b_items b)) is_async.

(** infer_flags on a ConcreteBytecode *)
Definition infer_flags_concrete (v : pyver) (T : optable) (cb : cbytecode)
  (is_async : option bool) : res Z :=
  let m := cb_meta cb in
  infer_flags v T true (m_cellvars m) (m_freevars m) (m_flags m)
    (map fitem_of_citem (cb_items cb)) is_async.
