(** What the instructions of CPython 3.11 do to the depth of the stack.  Specification: it
    describes CPython, not /repo.  Source: Python/ceval.c and compile.c (stack_effect) of
    3.11; the differences have been compared with [dis.stack_effect] of CPython 3.11.10. *)
From Verif Require Import PyBase OpTable Table311.
Open Scope string_scope.
Open Scope list_scope.
Open Scope Z_scope.

Definition bit (n k : Z) : Z := if Z.testbit n k then 1 else 0.

(** instruction, items it takes or looks at, items it leaves in their place; [n]: the
    argument, [j]: whether it jumps.  As [dis.stack_effect] has it, the arguments of a call
    are taken by PRECALL and not by CALL. *)
Definition stack_use311 : list (string * ((Z -> bool -> Z) * (Z -> bool -> Z))) :=
  let k (a b : Z) : (Z -> bool -> Z) * (Z -> bool -> Z) := (fun _ _ => a, fun _ _ => b) in
  let f (a b : Z -> Z) : (Z -> bool -> Z) * (Z -> bool -> Z) := (fun n _ => a n, fun n _ => b n) in
  [ ("CACHE", k 0 0); ("POP_TOP", k 1 0); ("PUSH_NULL", k 0 1); ("NOP", k 0 0);
    ("UNARY_POSITIVE", k 1 1); ("UNARY_NEGATIVE", k 1 1); ("UNARY_NOT", k 1 1); ("UNARY_INVERT", k 1 1);
    ("BINARY_SUBSCR", k 2 1); ("GET_LEN", k 1 2); ("MATCH_MAPPING", k 1 2); ("MATCH_SEQUENCE", k 1 2);
    ("MATCH_KEYS", k 2 3); ("PUSH_EXC_INFO", k 1 2); ("CHECK_EXC_MATCH", k 2 2); ("CHECK_EG_MATCH", k 2 2);
    ("WITH_EXCEPT_START", k 4 5); ("GET_AITER", k 1 1); ("GET_ANEXT", k 1 2); ("BEFORE_ASYNC_WITH", k 1 2);
    ("BEFORE_WITH", k 1 2); ("END_ASYNC_FOR", k 2 0); ("STORE_SUBSCR", k 3 0); ("DELETE_SUBSCR", k 2 0);
    ("GET_ITER", k 1 1); ("GET_YIELD_FROM_ITER", k 1 1); ("PRINT_EXPR", k 1 0); ("LOAD_BUILD_CLASS", k 0 1);
    ("LOAD_ASSERTION_ERROR", k 0 1); ("RETURN_GENERATOR", k 0 0); ("LIST_TO_TUPLE", k 1 1);
    ("RETURN_VALUE", k 1 0); ("IMPORT_STAR", k 1 0); ("SETUP_ANNOTATIONS", k 0 0); ("YIELD_VALUE", k 1 1);
    ("ASYNC_GEN_WRAP", k 1 1); ("PREP_RERAISE_STAR", k 2 1); ("POP_EXCEPT", k 1 0);
    ("STORE_NAME", k 1 0); ("DELETE_NAME", k 0 0); ("UNPACK_SEQUENCE", f (fun _ => 1) (fun n => n));
    ("FOR_ITER", (fun _ _ => 1, fun _ j => if j : bool then 0 else 2));
    ("UNPACK_EX", f (fun _ => 1) (fun n => 1 + n mod 256 + n / 256));
    ("STORE_ATTR", k 2 0); ("DELETE_ATTR", k 1 0); ("STORE_GLOBAL", k 1 0); ("DELETE_GLOBAL", k 0 0);
    ("SWAP", f (fun n => n) (fun n => n)); ("LOAD_CONST", k 0 1); ("LOAD_NAME", k 0 1);
    ("BUILD_TUPLE", f (fun n => n) (fun _ => 1)); ("BUILD_LIST", f (fun n => n) (fun _ => 1));
    ("BUILD_SET", f (fun n => n) (fun _ => 1)); ("BUILD_MAP", f (fun n => 2 * n) (fun _ => 1));
    ("LOAD_ATTR", k 1 1); ("COMPARE_OP", k 2 1); ("IMPORT_NAME", k 2 1); ("IMPORT_FROM", k 1 2);
    ("JUMP_FORWARD", k 0 0);
    ("JUMP_IF_FALSE_OR_POP", (fun _ _ => 1, fun _ j => if j : bool then 1 else 0));
    ("JUMP_IF_TRUE_OR_POP", (fun _ _ => 1, fun _ j => if j : bool then 1 else 0));
    ("POP_JUMP_FORWARD_IF_FALSE", k 1 0); ("POP_JUMP_FORWARD_IF_TRUE", k 1 0);
    ("LOAD_GLOBAL", f (fun _ => 0) (fun n => 1 + bit n 0)); ("IS_OP", k 2 1); ("CONTAINS_OP", k 2 1);
    ("RERAISE", f (fun n => n + 1) (fun n => n)); ("COPY", f (fun n => n) (fun n => n + 1));
    ("BINARY_OP", k 2 1); ("SEND", (fun _ _ => 2, fun _ j => if j : bool then 1 else 2));
    ("LOAD_FAST", k 0 1); ("STORE_FAST", k 1 0); ("DELETE_FAST", k 0 0);
    ("POP_JUMP_FORWARD_IF_NOT_NONE", k 1 0); ("POP_JUMP_FORWARD_IF_NONE", k 1 0);
    ("RAISE_VARARGS", f (fun n => n) (fun _ => 0)); ("GET_AWAITABLE", k 1 1);
    ("MAKE_FUNCTION", f (fun n => 1 + bit n 0 + bit n 1 + bit n 2 + bit n 3) (fun _ => 1));
    ("BUILD_SLICE", f (fun n => if n =? 3 then 3 else 2) (fun _ => 1));
    ("JUMP_BACKWARD_NO_INTERRUPT", k 0 0); ("MAKE_CELL", k 0 0); ("LOAD_CLOSURE", k 0 1);
    ("LOAD_DEREF", k 0 1); ("STORE_DEREF", k 1 0); ("DELETE_DEREF", k 0 0); ("JUMP_BACKWARD", k 0 0);
    ("CALL_FUNCTION_EX", f (fun n => 3 + bit n 0) (fun _ => 1)); ("EXTENDED_ARG", k 0 0);
    ("LIST_APPEND", f (fun n => n + 1) (fun n => n)); ("SET_ADD", f (fun n => n + 1) (fun n => n));
    ("MAP_ADD", f (fun n => n + 2) (fun n => n)); ("LOAD_CLASSDEREF", k 0 1); ("COPY_FREE_VARS", k 0 0);
    ("RESUME", k 0 0); ("MATCH_CLASS", k 3 1); ("FORMAT_VALUE", f (fun n => 1 + bit n 2) (fun _ => 1));
    ("BUILD_CONST_KEY_MAP", f (fun n => n + 1) (fun _ => 1)); ("BUILD_STRING", f (fun n => n) (fun _ => 1));
    ("LOAD_METHOD", k 1 2); ("LIST_EXTEND", f (fun n => n + 1) (fun n => n));
    ("SET_UPDATE", f (fun n => n + 1) (fun n => n)); ("DICT_MERGE", f (fun n => n + 1) (fun n => n));
    ("DICT_UPDATE", f (fun n => n + 1) (fun n => n)); ("PRECALL", f (fun n => n + 2) (fun _ => 2));
    ("CALL", k 2 1); ("KW_NAMES", k 0 0);
    ("POP_JUMP_BACKWARD_IF_NOT_NONE", k 1 0); ("POP_JUMP_BACKWARD_IF_NONE", k 1 0);
    ("POP_JUMP_BACKWARD_IF_FALSE", k 1 0); ("POP_JUMP_BACKWARD_IF_TRUE", k 1 0) ].

Definition use311 (name : string) := dget String.eqb stack_use311 name.

(** items the instruction needs; how the depth changes *)
Definition needs311 (name : string) (n : Z) (j : bool) : option Z :=
  match use311 name with Some (a, _) => Some (a n j) | None => None end.
Definition effect311 (name : string) (n : Z) (j : bool) : option Z :=
  match use311 name with Some (a, b) => Some (b n j - a n j) | None => None end.

(** [dis.stack_effect(op, oparg, jump=jump)]: ValueError for an unknown opcode, an argument
    where none is allowed and no argument where there has to be one; the larger of the two
    when [jump] is None.  Simplification: no overflow of a C int. *)
Definition dis_effect311 (op : Z) (oparg : option Z) (jump : option bool) : option Z :=
  match opname T311 op with
  | None => None
  | Some name =>
      let e (n : Z) := match jump with
                 | Some j => effect311 name n j
                 | None => match effect311 name n true, effect311 name n false with
                           | Some a, Some b => Some (Z.max a b) | _, _ => None end
                 end in
      match oparg with
      | Some n => if t_have_argument T311 <=? op then e n else None
      | None => if t_have_argument T311 <=? op then None else e 0
      end
  end.

Example all_known : forallb (fun p => match use311 (fst p) with Some _ => true | None => false end) (t_opmap T311) = true.
Proof. vm_compute. reflexivity. Qed.
