(** Excerpts of the opcode tables of other interpreters, used only in examples and
    counterexamples (the theorems hold for every table with [wf_optable]). *)
From Verif Require Import PyBase OpTable.
Open Scope string_scope.
Open Scope Z_scope.

(** Opcodes common to CPython 3.8, 3.9 and 3.10 (excerpt) *)
Definition TPre : optable := {|
  t_opmap := [
    ("POP_TOP", 1); ("ROT_TWO", 2); ("ROT_THREE", 3); ("DUP_TOP", 4); ("NOP", 9);
    ("UNARY_NEGATIVE", 11); ("UNARY_NOT", 12); ("BINARY_MULTIPLY", 20); ("BINARY_ADD", 23);
    ("BINARY_SUBSCR", 25); ("GET_AITER", 50); ("GET_ANEXT", 51); ("BEFORE_ASYNC_WITH", 52);
    ("STORE_SUBSCR", 60); ("GET_ITER", 68); ("GET_YIELD_FROM_ITER", 69); ("YIELD_FROM", 72);
    ("GET_AWAITABLE", 73); ("RETURN_VALUE", 83); ("IMPORT_STAR", 84); ("YIELD_VALUE", 86);
    ("POP_BLOCK", 87); ("POP_EXCEPT", 89); ("STORE_NAME", 90); ("DELETE_NAME", 91);
    ("UNPACK_SEQUENCE", 92); ("FOR_ITER", 93); ("STORE_ATTR", 95); ("STORE_GLOBAL", 97);
    ("LOAD_CONST", 100); ("LOAD_NAME", 101); ("BUILD_TUPLE", 102); ("LOAD_ATTR", 106);
    ("COMPARE_OP", 107); ("IMPORT_NAME", 108); ("JUMP_FORWARD", 110);
    ("JUMP_IF_FALSE_OR_POP", 111); ("JUMP_IF_TRUE_OR_POP", 112); ("JUMP_ABSOLUTE", 113);
    ("POP_JUMP_IF_FALSE", 114); ("POP_JUMP_IF_TRUE", 115); ("LOAD_GLOBAL", 116);
    ("SETUP_FINALLY", 122); ("LOAD_FAST", 124); ("STORE_FAST", 125); ("DELETE_FAST", 126);
    ("RAISE_VARARGS", 130); ("CALL_FUNCTION", 131); ("MAKE_FUNCTION", 132);
    ("LOAD_CLOSURE", 135); ("LOAD_DEREF", 136); ("STORE_DEREF", 137); ("SETUP_WITH", 143);
    ("EXTENDED_ARG", 144); ("LIST_APPEND", 145)];
  t_have_argument := 90; t_hasarg := [];
  t_hasconst := [100]; t_haslocal := [124; 125; 126];
  t_hasname := [90; 91; 95; 97; 101; 106; 108; 116];
  t_hasfree := [135; 136; 137]; t_hascompare := [107];
  t_hasjrel := [93; 110; 122; 143]; t_hasjabs := [111; 112; 113; 114; 115];
  t_extended_arg := 144; t_min_instrumented := 256;
  t_cache_by_op := []; t_cache_by_name := [] |}.

Example TPre_wf : wf_optable V38 TPre && wf_optable V39 TPre && wf_optable V310 TPre = true.
Proof. vm_compute. reflexivity. Qed.

(** Opcodes of CPython 3.13 (excerpt) *)
Definition T313 : optable := {|
  t_opmap := [
    ("CACHE", 0); ("BINARY_SUBSCR", 5); ("END_ASYNC_FOR", 10); ("GET_ANEXT", 18);
    ("GET_AITER", 16); ("GET_ITER", 19); ("NOP", 30); ("POP_TOP", 32); ("PUSH_EXC_INFO", 33);
    ("RETURN_GENERATOR", 35); ("RETURN_VALUE", 36); ("BINARY_OP", 45); ("CALL", 53);
    ("CALL_INTRINSIC_1", 55); ("CALL_INTRINSIC_2", 56); ("COMPARE_OP", 58); ("COPY", 61);
    ("EXTENDED_ARG", 71); ("FOR_ITER", 72); ("GET_AWAITABLE", 73); ("JUMP_BACKWARD", 77);
    ("JUMP_FORWARD", 79); ("LOAD_ATTR", 82); ("LOAD_CONST", 83); ("LOAD_DEREF", 84);
    ("LOAD_FAST", 85); ("LOAD_FAST_LOAD_FAST", 88); ("LOAD_GLOBAL", 91); ("LOAD_NAME", 92);
    ("LOAD_SUPER_ATTR", 93); ("MAKE_CELL", 94); ("POP_JUMP_IF_FALSE", 97);
    ("POP_JUMP_IF_TRUE", 100); ("RAISE_VARARGS", 101); ("RERAISE", 102); ("RETURN_CONST", 103);
    ("STORE_ATTR", 106); ("STORE_DEREF", 107); ("STORE_FAST", 110);
    ("STORE_FAST_LOAD_FAST", 111); ("STORE_FAST_STORE_FAST", 112); ("STORE_NAME", 114);
    ("SWAP", 115); ("YIELD_VALUE", 118); ("RESUME", 149)];
  t_have_argument := 44;
  t_hasarg := [45; 53; 55; 56; 58; 61; 71; 72; 73; 77; 79; 82; 83; 84; 85; 88; 91; 92; 93; 94;
               97; 100; 101; 102; 103; 106; 107; 110; 111; 112; 114; 115; 118; 149];
  t_hasconst := [83; 103]; t_haslocal := [85; 88; 110; 111; 112];
  t_hasname := [82; 91; 92; 93; 106; 114];
  t_hasfree := [84; 94; 107]; t_hascompare := [58];
  t_hasjrel := [72; 77; 79; 97; 100]; t_hasjabs := [];
  t_extended_arg := 71; t_min_instrumented := 236;
  t_cache_by_op := [];
  t_cache_by_name := [("LOAD_GLOBAL", 4); ("BINARY_OP", 1); ("COMPARE_OP", 1);
    ("BINARY_SUBSCR", 1); ("FOR_ITER", 1); ("LOAD_SUPER_ATTR", 1); ("LOAD_ATTR", 9);
    ("STORE_ATTR", 4); ("CALL", 3); ("JUMP_BACKWARD", 1); ("POP_JUMP_IF_TRUE", 1);
    ("POP_JUMP_IF_FALSE", 1)] |}.

Example T313_wf : wf_optable V313 T313 = true.
Proof. vm_compute. reflexivity. Qed.
