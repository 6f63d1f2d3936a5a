(** What the instructions of CPython 3.8 to 3.13 do to the depth of the stack (C34).
    Specification: it describes CPython, not /repo.  Source: ceval.c, compile.c (stack_effect),
    and bytecodes.c from 3.12 on.  The instructions listed are those for which /repo has an entry of
    its own, and the most common among the others. *)
From Verif Require Import PyBase OpTable.
Open Scope string_scope.
Open Scope list_scope.
Open Scope Z_scope.

(** Items an instruction takes or looks at, and items it leaves in their place *)
Inductive use : Type :=
| Fixed (needs leaves : Z)                      (* whatever the argument *)
| Counted (needs leaves : Z -> Z)               (* depends on the argument, a number *)
| Flagged (needs : Z) (leaves : Z -> Z)         (* the flags in the argument add items *)
| Branch (needs leaves_jump leaves_next : Z).   (* depends on whether it jumps *)

Definition needs_of (u : use) (n : Z) : Z :=
  match u with Fixed a _ | Flagged a _ | Branch a _ _ => a | Counted a _ => a n end.
Definition effect_of (u : use) (n : Z) (j : bool) : Z :=
  match u with
  | Fixed a b => b - a
  | Counted a b => b n - a n
  | Flagged a b => b n - a
  | Branch a bj bn => (if j then bj else bn) - a
  end.

Definition flag (n k : Z) : Z := if Z.testbit n k then 1 else 0.

(** first and last minor version, name, use *)
Definition uses_table : list (Z * Z * string * use) := [
  (8, 13, "NOP", Fixed 0 0); (8, 13, "POP_TOP", Fixed 1 0);
  (8, 10, "ROT_TWO", Fixed 2 2); (8, 10, "ROT_THREE", Fixed 3 3); (8, 10, "ROT_FOUR", Fixed 4 4);
  (10, 10, "ROT_N", Counted (fun n => n) (fun n => n));
  (8, 10, "DUP_TOP", Fixed 1 2); (8, 10, "DUP_TOP_TWO", Fixed 2 4);
  (11, 13, "COPY", Counted (fun n => n) (fun n => n + 1)); (11, 13, "SWAP", Counted (fun n => n) (fun n => n));
  (11, 13, "PUSH_NULL", Fixed 0 1);
  (8, 11, "UNARY_POSITIVE", Fixed 1 1); (8, 13, "UNARY_NEGATIVE", Fixed 1 1);
  (8, 13, "UNARY_NOT", Fixed 1 1); (8, 13, "UNARY_INVERT", Fixed 1 1); (13, 13, "TO_BOOL", Fixed 1 1);
  (8, 10, "BINARY_POWER", Fixed 2 1); (8, 10, "BINARY_MULTIPLY", Fixed 2 1);
  (8, 10, "BINARY_MATRIX_MULTIPLY", Fixed 2 1); (8, 10, "BINARY_MODULO", Fixed 2 1);
  (8, 10, "BINARY_ADD", Fixed 2 1); (8, 10, "BINARY_SUBTRACT", Fixed 2 1);
  (8, 10, "BINARY_FLOOR_DIVIDE", Fixed 2 1); (8, 10, "BINARY_TRUE_DIVIDE", Fixed 2 1);
  (8, 10, "BINARY_LSHIFT", Fixed 2 1); (8, 10, "BINARY_RSHIFT", Fixed 2 1);
  (8, 10, "BINARY_AND", Fixed 2 1); (8, 10, "BINARY_XOR", Fixed 2 1); (8, 10, "BINARY_OR", Fixed 2 1);
  (8, 13, "BINARY_SUBSCR", Fixed 2 1); (11, 13, "BINARY_OP", Fixed 2 1); (12, 13, "BINARY_SLICE", Fixed 3 1);
  (8, 10, "INPLACE_POWER", Fixed 2 1); (8, 10, "INPLACE_MULTIPLY", Fixed 2 1);
  (8, 10, "INPLACE_MATRIX_MULTIPLY", Fixed 2 1); (8, 10, "INPLACE_MODULO", Fixed 2 1);
  (8, 10, "INPLACE_ADD", Fixed 2 1); (8, 10, "INPLACE_SUBTRACT", Fixed 2 1);
  (8, 10, "INPLACE_FLOOR_DIVIDE", Fixed 2 1); (8, 10, "INPLACE_TRUE_DIVIDE", Fixed 2 1);
  (8, 10, "INPLACE_LSHIFT", Fixed 2 1); (8, 10, "INPLACE_RSHIFT", Fixed 2 1);
  (8, 10, "INPLACE_AND", Fixed 2 1); (8, 10, "INPLACE_XOR", Fixed 2 1); (8, 10, "INPLACE_OR", Fixed 2 1);
  (8, 13, "COMPARE_OP", Fixed 2 1); (9, 13, "IS_OP", Fixed 2 1); (9, 13, "CONTAINS_OP", Fixed 2 1);
  (8, 13, "STORE_SUBSCR", Fixed 3 0); (8, 13, "DELETE_SUBSCR", Fixed 2 0); (12, 13, "STORE_SLICE", Fixed 4 0);
  (10, 13, "GET_LEN", Fixed 1 2); (8, 13, "GET_ITER", Fixed 1 1); (8, 13, "GET_YIELD_FROM_ITER", Fixed 1 1);
  (8, 13, "GET_AWAITABLE", Fixed 1 1); (8, 13, "GET_AITER", Fixed 1 1); (8, 13, "GET_ANEXT", Fixed 1 2);
  (11, 11, "ASYNC_GEN_WRAP", Fixed 1 1); (11, 13, "PUSH_EXC_INFO", Fixed 1 2);
  (11, 13, "BEFORE_WITH", Fixed 1 2); (8, 13, "BEFORE_ASYNC_WITH", Fixed 1 2);
  (9, 10, "WITH_EXCEPT_START", Fixed 7 8); (11, 13, "WITH_EXCEPT_START", Fixed 4 5);
  (11, 13, "CHECK_EXC_MATCH", Fixed 2 2); (11, 13, "CHECK_EG_MATCH", Fixed 2 2); (11, 11, "PREP_RERAISE_STAR", Fixed 2 1);
  (10, 10, "COPY_DICT_WITHOUT_KEYS", Fixed 2 2);
  (10, 10, "MATCH_CLASS", Fixed 3 2); (11, 13, "MATCH_CLASS", Fixed 3 1);
  (10, 13, "MATCH_MAPPING", Fixed 1 2); (10, 13, "MATCH_SEQUENCE", Fixed 1 2);
  (10, 10, "MATCH_KEYS", Fixed 2 4); (11, 13, "MATCH_KEYS", Fixed 2 3);
  (8, 13, "IMPORT_NAME", Fixed 2 1); (8, 13, "IMPORT_FROM", Fixed 1 2); (8, 11, "IMPORT_STAR", Fixed 1 0);
  (8, 11, "PRINT_EXPR", Fixed 1 0); (12, 13, "CALL_INTRINSIC_1", Fixed 1 1); (12, 13, "CALL_INTRINSIC_2", Fixed 2 1);
  (12, 13, "LOAD_FROM_DICT_OR_GLOBALS", Fixed 1 1); (12, 13, "LOAD_FROM_DICT_OR_DEREF", Fixed 1 1);
  (8, 13, "LOAD_CONST", Fixed 0 1); (8, 13, "LOAD_NAME", Fixed 0 1); (8, 13, "LOAD_FAST", Fixed 0 1);
  (8, 13, "LOAD_DEREF", Fixed 0 1); (8, 12, "LOAD_CLOSURE", Fixed 0 1); (8, 13, "LOAD_BUILD_CLASS", Fixed 0 1);
  (8, 13, "STORE_NAME", Fixed 1 0); (8, 13, "STORE_GLOBAL", Fixed 1 0); (8, 13, "STORE_FAST", Fixed 1 0);
  (8, 13, "STORE_DEREF", Fixed 1 0); (8, 13, "STORE_ATTR", Fixed 2 0); (8, 13, "DELETE_ATTR", Fixed 1 0);
  (8, 13, "DELETE_NAME", Fixed 0 0); (8, 13, "DELETE_GLOBAL", Fixed 0 0); (8, 13, "DELETE_FAST", Fixed 0 0);
  (8, 13, "RETURN_VALUE", Fixed 1 0); (8, 13, "JUMP_FORWARD", Fixed 0 0);
  (8, 10, "POP_JUMP_IF_FALSE", Fixed 1 0); (8, 10, "POP_JUMP_IF_TRUE", Fixed 1 0);
  (12, 13, "POP_JUMP_IF_FALSE", Fixed 1 0); (12, 13, "POP_JUMP_IF_TRUE", Fixed 1 0);
  (12, 13, "POP_JUMP_IF_NONE", Fixed 1 0); (12, 13, "POP_JUMP_IF_NOT_NONE", Fixed 1 0);
  (8, 13, "RAISE_VARARGS", Counted (fun n => n) (fun _ => 0));
  (8, 11, "LOAD_ATTR", Fixed 1 1); (12, 13, "LOAD_ATTR", Flagged 1 (fun n => 1 + flag n 0));
  (12, 13, "LOAD_SUPER_ATTR", Flagged 3 (fun n => 1 + flag n 0));
  (8, 13, "UNPACK_SEQUENCE", Counted (fun _ => 1) (fun n => n));
  (8, 13, "UNPACK_EX", Counted (fun _ => 1) (fun n => 1 + n mod 256 + n / 256));
  (8, 11, "FOR_ITER", Branch 1 0 2); (12, 13, "FOR_ITER", Branch 1 2 2);
  (8, 13, "BUILD_TUPLE", Counted (fun n => n) (fun _ => 1)); (8, 13, "BUILD_LIST", Counted (fun n => n) (fun _ => 1));
  (8, 13, "BUILD_SET", Counted (fun n => n) (fun _ => 1)); (8, 13, "BUILD_STRING", Counted (fun n => n) (fun _ => 1));
  (8, 13, "BUILD_MAP", Counted (fun n => 2 * n) (fun _ => 1));
  (8, 13, "BUILD_CONST_KEY_MAP", Counted (fun n => n + 1) (fun _ => 1));
  (8, 13, "BUILD_SLICE", Counted (fun n => if n =? 3 then 3 else 2) (fun _ => 1));
  (8, 8, "BUILD_TUPLE_UNPACK", Counted (fun n => n) (fun _ => 1)); (8, 8, "BUILD_LIST_UNPACK", Counted (fun n => n) (fun _ => 1));
  (8, 8, "BUILD_SET_UNPACK", Counted (fun n => n) (fun _ => 1)); (8, 8, "BUILD_MAP_UNPACK", Counted (fun n => n) (fun _ => 1));
  (9, 11, "LIST_TO_TUPLE", Fixed 1 1);
  (8, 13, "LIST_APPEND", Counted (fun n => n + 1) (fun n => n)); (8, 13, "SET_ADD", Counted (fun n => n + 1) (fun n => n));
  (8, 13, "MAP_ADD", Counted (fun n => n + 2) (fun n => n));
  (9, 13, "LIST_EXTEND", Counted (fun n => n + 1) (fun n => n)); (9, 13, "SET_UPDATE", Counted (fun n => n + 1) (fun n => n));
  (9, 13, "DICT_UPDATE", Counted (fun n => n + 1) (fun n => n)); (9, 13, "DICT_MERGE", Counted (fun n => n + 1) (fun n => n));
  (8, 12, "FORMAT_VALUE", Counted (fun n => 1 + flag n 2) (fun _ => 1));
  (13, 13, "CONVERT_VALUE", Fixed 1 1); (13, 13, "FORMAT_SIMPLE", Fixed 1 1); (13, 13, "FORMAT_WITH_SPEC", Fixed 2 1);
  (8, 10, "MAKE_FUNCTION", Counted (fun n => 2 + flag n 0 + flag n 1 + flag n 2 + flag n 3) (fun _ => 1));
  (11, 12, "MAKE_FUNCTION", Counted (fun n => 1 + flag n 0 + flag n 1 + flag n 2 + flag n 3) (fun _ => 1));
  (13, 13, "MAKE_FUNCTION", Fixed 1 1); (13, 13, "SET_FUNCTION_ATTRIBUTE", Fixed 2 1);
  (8, 10, "CALL_FUNCTION", Counted (fun n => n + 1) (fun _ => 1)); (8, 10, "CALL_FUNCTION_KW", Counted (fun n => n + 2) (fun _ => 1));
  (8, 10, "CALL_METHOD", Counted (fun n => n + 2) (fun _ => 1));
  (8, 10, "CALL_FUNCTION_EX", Counted (fun n => 2 + flag n 0) (fun _ => 1));
  (11, 13, "CALL_FUNCTION_EX", Counted (fun n => 3 + flag n 0) (fun _ => 1));
  (* on 3.11 the arguments are taken by PRECALL *)
  (11, 11, "CALL", Fixed 2 1); (12, 13, "CALL", Counted (fun n => n + 2) (fun _ => 1));
  (13, 13, "CALL_KW", Counted (fun n => n + 3) (fun _ => 1)) ].

(** the instruction [name] of version [v] is known, with the use [u] *)
Definition uses (v : pyver) (name : string) (u : use) : Prop :=
  exists first last, In (first, last, name, u) uses_table /\ first <= minor v <= last.

(** [T] and [se] describe the interpreter: dis.stack_effect gives the effect (the larger one if jump is
    None), and the instructions with a counted use have an argument which is a mere number. *)
Record describes (v : pyver) (T : optable) (se : Z -> option Z -> option bool -> option Z) : Prop := {
  effects : forall name op u arg jump e, opmap T name = Some op -> uses v name u -> se op arg jump = Some e ->
    let n := match arg with Some n => n | None => 0 end in
    e = match jump with Some j => effect_of u n j | None => Z.max (effect_of u n true) (effect_of u n false) end;
  numbers : forall name op a b, opmap T name = Some op -> uses v name (Counted a b) ->
    opcode_has_argument v T op = true /\ ~ In op (t_hasconst T)
    /\ opmap T "LOAD_GLOBAL" <> Some op /\ opmap T "LOAD_ATTR" <> Some op /\ opmap T "LOAD_SUPER_ATTR" <> Some op }.

(** The instructions that need more than what is said by pre_and_post_stack_effect() *)
Definition understated (v : pyver) (name : string) : bool :=
  str_mem name ["LIST_APPEND"; "SET_ADD"; "MAP_ADD"; "LIST_EXTEND"; "SET_UPDATE"; "DICT_UPDATE"; "DICT_MERGE";
    "BEFORE_WITH"; "CALL_INTRINSIC_1"; "CALL_INTRINSIC_2"; "FORMAT_WITH_SPEC"]
  || (PY312 v && String.eqb name "FOR_ITER").
