(** The opcode table of CPython 3.11, as data.  Source: the standard library module
    [opcode] (Lib/opcode.py) and [dis._inline_cache_entries] of CPython 3.11.10 as
    installed in this sandbox (not /repo).  Used only to show that the hypotheses
    [wf_optable] of the theorems are met by a real interpreter, and in examples. *)
From Verif Require Import PyBase OpTable.
Open Scope string_scope.
Open Scope Z_scope.

Definition T311 : optable := {|
  t_opmap := [
    ("CACHE", 0);
    ("POP_TOP", 1);
    ("PUSH_NULL", 2);
    ("NOP", 9);
    ("UNARY_POSITIVE", 10);
    ("UNARY_NEGATIVE", 11);
    ("UNARY_NOT", 12);
    ("UNARY_INVERT", 15);
    ("BINARY_SUBSCR", 25);
    ("GET_LEN", 30);
    ("MATCH_MAPPING", 31);
    ("MATCH_SEQUENCE", 32);
    ("MATCH_KEYS", 33);
    ("PUSH_EXC_INFO", 35);
    ("CHECK_EXC_MATCH", 36);
    ("CHECK_EG_MATCH", 37);
    ("WITH_EXCEPT_START", 49);
    ("GET_AITER", 50);
    ("GET_ANEXT", 51);
    ("BEFORE_ASYNC_WITH", 52);
    ("BEFORE_WITH", 53);
    ("END_ASYNC_FOR", 54);
    ("STORE_SUBSCR", 60);
    ("DELETE_SUBSCR", 61);
    ("GET_ITER", 68);
    ("GET_YIELD_FROM_ITER", 69);
    ("PRINT_EXPR", 70);
    ("LOAD_BUILD_CLASS", 71);
    ("LOAD_ASSERTION_ERROR", 74);
    ("RETURN_GENERATOR", 75);
    ("LIST_TO_TUPLE", 82);
    ("RETURN_VALUE", 83);
    ("IMPORT_STAR", 84);
    ("SETUP_ANNOTATIONS", 85);
    ("YIELD_VALUE", 86);
    ("ASYNC_GEN_WRAP", 87);
    ("PREP_RERAISE_STAR", 88);
    ("POP_EXCEPT", 89);
    ("STORE_NAME", 90);
    ("DELETE_NAME", 91);
    ("UNPACK_SEQUENCE", 92);
    ("FOR_ITER", 93);
    ("UNPACK_EX", 94);
    ("STORE_ATTR", 95);
    ("DELETE_ATTR", 96);
    ("STORE_GLOBAL", 97);
    ("DELETE_GLOBAL", 98);
    ("SWAP", 99);
    ("LOAD_CONST", 100);
    ("LOAD_NAME", 101);
    ("BUILD_TUPLE", 102);
    ("BUILD_LIST", 103);
    ("BUILD_SET", 104);
    ("BUILD_MAP", 105);
    ("LOAD_ATTR", 106);
    ("COMPARE_OP", 107);
    ("IMPORT_NAME", 108);
    ("IMPORT_FROM", 109);
    ("JUMP_FORWARD", 110);
    ("JUMP_IF_FALSE_OR_POP", 111);
    ("JUMP_IF_TRUE_OR_POP", 112);
    ("POP_JUMP_FORWARD_IF_FALSE", 114);
    ("POP_JUMP_FORWARD_IF_TRUE", 115);
    ("LOAD_GLOBAL", 116);
    ("IS_OP", 117);
    ("CONTAINS_OP", 118);
    ("RERAISE", 119);
    ("COPY", 120);
    ("BINARY_OP", 122);
    ("SEND", 123);
    ("LOAD_FAST", 124);
    ("STORE_FAST", 125);
    ("DELETE_FAST", 126);
    ("POP_JUMP_FORWARD_IF_NOT_NONE", 128);
    ("POP_JUMP_FORWARD_IF_NONE", 129);
    ("RAISE_VARARGS", 130);
    ("GET_AWAITABLE", 131);
    ("MAKE_FUNCTION", 132);
    ("BUILD_SLICE", 133);
    ("JUMP_BACKWARD_NO_INTERRUPT", 134);
    ("MAKE_CELL", 135);
    ("LOAD_CLOSURE", 136);
    ("LOAD_DEREF", 137);
    ("STORE_DEREF", 138);
    ("DELETE_DEREF", 139);
    ("JUMP_BACKWARD", 140);
    ("CALL_FUNCTION_EX", 142);
    ("EXTENDED_ARG", 144);
    ("LIST_APPEND", 145);
    ("SET_ADD", 146);
    ("MAP_ADD", 147);
    ("LOAD_CLASSDEREF", 148);
    ("COPY_FREE_VARS", 149);
    ("RESUME", 151);
    ("MATCH_CLASS", 152);
    ("FORMAT_VALUE", 155);
    ("BUILD_CONST_KEY_MAP", 156);
    ("BUILD_STRING", 157);
    ("LOAD_METHOD", 160);
    ("LIST_EXTEND", 162);
    ("SET_UPDATE", 163);
    ("DICT_MERGE", 164);
    ("DICT_UPDATE", 165);
    ("PRECALL", 166);
    ("CALL", 171);
    ("KW_NAMES", 172);
    ("POP_JUMP_BACKWARD_IF_NOT_NONE", 173);
    ("POP_JUMP_BACKWARD_IF_NONE", 174);
    ("POP_JUMP_BACKWARD_IF_FALSE", 175);
    ("POP_JUMP_BACKWARD_IF_TRUE", 176)];
  t_have_argument := 90;
  t_hasarg := [];
  t_hasconst := [100; 172];
  t_haslocal := [124; 125; 126];
  t_hasname := [90; 91; 95; 96; 97; 98; 101; 106; 108; 109; 116; 160];
  t_hasfree := [135; 136; 137; 138; 139; 148];
  t_hascompare := [107];
  t_hasjrel := [93; 110; 111; 112; 114; 115; 123; 128; 129; 134; 140; 173; 174; 175; 176];
  t_hasjabs := [];
  t_extended_arg := 144;
  t_min_instrumented := 256;
  t_cache_by_op := [(25, 4); (60, 1); (92, 1); (95, 4); (106, 4); (107, 2); (116, 5); (122, 1); (160, 10); (166, 1); (171, 4)];
  t_cache_by_name := []
|}.

Example T311_wf : wf_optable V311 T311 = true.
Proof. vm_compute. reflexivity. Qed.
