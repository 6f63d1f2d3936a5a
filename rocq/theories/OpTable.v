(** The opcode metadata the library reads from the standard modules [opcode] and
    [dis].  It is a parameter of the whole model: nothing in /repo defines it. *)
From Verif Require Import PyBase.
Open Scope string_scope.
Open Scope Z_scope.

Record optable : Type := mkTable {
  t_opmap : list (string * Z);       (* opcode.opmap *)
  t_have_argument : Z;               (* dis.HAVE_ARGUMENT *)
  t_hasarg : list Z;                 (* dis.hasarg (3.12+) *)
  t_hasconst : list Z;
  t_haslocal : list Z;
  t_hasname : list Z;
  t_hasfree : list Z;
  t_hascompare : list Z;
  t_hasjrel : list Z;                (* opcode.hasjrel; on 3.13 = opcode.hasjump *)
  t_hasjabs : list Z;
  t_extended_arg : Z;                (* opcode.EXTENDED_ARG *)
  t_min_instrumented : Z;            (* opcode.MIN_INSTRUMENTED_OPCODE, 256 if absent *)
  t_cache_by_op : list (Z * Z);      (* dis._inline_cache_entries, 3.11 and 3.12 *)
  t_cache_by_name : list (string * Z)(* dis._inline_cache_entries, 3.13 *)
}.

(** [_opcode.opmap[name]] *)
Definition opmap (T : optable) (n : string) : option Z := dget String.eqb (t_opmap T) n.

(** [_opcode.opname[op]]; [None] stands for the placeholder ["<op>"] that CPython
    stores for unassigned numbers (never a key of opmap). *)
Definition opname (T : optable) (op : Z) : option string :=
  match find (fun p => Z.eqb (snd p) op) (t_opmap T) with
  | Some (n, _) => Some n
  | None => None
  end.

(** [op == _opcode.opmap[n]] *)
Definition opcode_is (T : optable) (n : string) (op : Z) : bool :=
  match opmap T n with Some o => Z.eqb o op | None => false end.

Definition opcode_in (T : optable) (ns : list string) (op : Z) : bool :=
  existsb (fun n => opcode_is T n op) ns.

(** instr.py:24-30 BITFLAG_OPCODES *)
Definition is_bitflag (v : pyver) (T : optable) (op : Z) : bool :=
  if PY312 v then opcode_in T ["LOAD_GLOBAL"; "LOAD_ATTR"] op
  else if PY311 v then opcode_in T ["LOAD_GLOBAL"] op
  else false.

(** instr.py:32 BITFLAG2_OPCODES *)
Definition is_bitflag2 (v : pyver) (T : optable) (op : Z) : bool :=
  PY312 v && opcode_in T ["LOAD_SUPER_ATTR"] op.

(** instr.py:35-37 INTRINSIC_1OP, INTRINSIC_2OP, INTRINSIC *)
Definition is_intrinsic1 (v : pyver) (T : optable) (op : Z) : bool :=
  PY312 v && opcode_in T ["CALL_INTRINSIC_1"] op.
Definition is_intrinsic2 (v : pyver) (T : optable) (op : Z) : bool :=
  PY312 v && opcode_in T ["CALL_INTRINSIC_2"] op.
Definition is_intrinsic (v : pyver) (T : optable) (op : Z) : bool :=
  is_intrinsic1 v T op || is_intrinsic2 v T op.

(** instr.py:39-43 HASJABS / HASJREL *)
Definition in_HASJABS (v : pyver) (T : optable) (op : Z) : bool :=
  if PY313 v then false else z_mem op (t_hasjabs T).
Definition in_HASJREL (v : pyver) (T : optable) (op : Z) : bool :=
  z_mem op (t_hasjrel T).

(** instr.py:45-53 DUAL_ARG_OPCODES *)
Definition is_dual (v : pyver) (T : optable) (op : Z) : bool :=
  PY313 v && opcode_in T ["LOAD_FAST_LOAD_FAST"; "STORE_FAST_LOAD_FAST";
                          "STORE_FAST_STORE_FAST"] op.

(** instr.py:54-58 DUAL_ARG_OPCODES_SINGLE_OPS (KeyError when not a dual opcode) *)
Definition dual_single_ops (v : pyver) (T : optable) (op : Z) : option (string * string) :=
  if negb (PY313 v) then None
  else if opcode_is T "STORE_FAST_STORE_FAST" op then Some ("STORE_FAST", "STORE_FAST")
  else if opcode_is T "STORE_FAST_LOAD_FAST" op then Some ("STORE_FAST", "LOAD_FAST")
  else if opcode_is T "LOAD_FAST_LOAD_FAST" op then Some ("LOAD_FAST", "LOAD_FAST")
  else None.

(** instr.py:283-291 opcode_has_argument *)
Definition opcode_has_argument (v : pyver) (T : optable) (op : Z) : bool :=
  if PY312 v then z_mem op (t_hasarg T) else t_have_argument T <=? op.

(** instr.py:785-786 BaseInstr._has_jump *)
Definition op_has_jump (T : optable) (op : Z) : bool :=
  z_mem op (t_hasjrel T) || z_mem op (t_hasjabs T).

(** concrete.py:183-193 ConcreteInstr.use_cache_opcodes.  dis._inline_cache_entries is
    a total list of 256 numbers on 3.11/3.12; entries not listed here are 0. *)
Definition cache_entries (v : pyver) (T : optable) (name : string) (op : Z) : Z :=
  if PY313 v then
    match dget String.eqb (t_cache_by_name T) name with Some n => n | None => 0 end
  else if PY311 v then
    match dget Z.eqb (t_cache_by_op T) op with Some n => n | None => 0 end
  else 0.

(** ** Well-formedness: facts about CPython's tables the library relies on. *)

Fixpoint nodupb {A} (eqb : A -> A -> bool) (l : list A) : bool :=
  match l with
  | [] => true
  | x :: l' => negb (existsb (eqb x) l') && nodupb eqb l'
  end.

(** Base opcodes (the ones the library accepts) of the table. *)
Definition base_ops (T : optable) : list (string * Z) :=
  filter (fun p => snd p <? t_min_instrumented T) (t_opmap T).

Definition wf_optable (v : pyver) (T : optable) : bool :=
  (* names and numbers are in bijection *)
  nodupb String.eqb (map fst (t_opmap T))
  && nodupb Z.eqb (map snd (t_opmap T))
  && (t_min_instrumented T <=? 256)
  && forallb (fun p => 0 <=? snd p) (t_opmap T)
  (* EXTENDED_ARG is an ordinary opcode with argument that is nothing else *)
  && match opmap T "EXTENDED_ARG" with Some o => Z.eqb o (t_extended_arg T) | None => false end
  && (t_extended_arg T <? t_min_instrumented T)
  && opcode_has_argument v T (t_extended_arg T)
  && negb (op_has_jump T (t_extended_arg T))
  && Z.eqb (cache_entries v T "EXTENDED_ARG" (t_extended_arg T)) 0
  (* NOP takes no argument, does not jump *)
  && match opmap T "NOP" with
     | Some o => negb (opcode_has_argument v T o) && (o <? t_min_instrumented T)
                 && Z.eqb (cache_entries v T "NOP" o) 0
     | None => false end
  (* CACHE is opcode 0 on 3.11+, absent before; it has no argument and no cache *)
  && (if PY311 v then
        match opmap T "CACHE" with
        | Some o => Z.eqb o 0 && negb (opcode_has_argument v T 0)
                    && (0 <? t_min_instrumented T)
                    && Z.eqb (cache_entries v T "CACHE" 0) 0
        | None => false end
      else match opmap T "CACHE" with Some _ => false | None => true end)
  && negb (z_mem 0 (map snd (filter (fun p => negb (String.eqb (fst p) "CACHE")) (t_opmap T))))
  (* each base opcode that jumps, or indexes a table, has an argument and belongs to
     one category only *)
  && forallb (fun p =>
       let op := snd p in
       let cats := [op_has_jump T op; z_mem op (t_hasconst T); z_mem op (t_haslocal T);
                    z_mem op (t_hasname T); z_mem op (t_hasfree T);
                    z_mem op (t_hascompare T); is_intrinsic v T op] in
       (Z.of_nat (length (filter (fun b => b) cats)) <=? 1)
       && (negb (existsb (fun b => b) cats) || opcode_has_argument v T op)
       && (negb (z_mem op (t_hasjrel T) && z_mem op (t_hasjabs T)))
       && (negb (PY313 v) || negb (z_mem op (t_hasjabs T)))
       && (0 <=? cache_entries v T (fst p) op) && (cache_entries v T (fst p) op <=? 255)
       && (negb (is_dual v T op) || z_mem op (t_haslocal T))
       && (negb (is_bitflag v T op || is_bitflag2 v T op) || z_mem op (t_hasname T))
       && (negb (is_bitflag v T op && is_bitflag2 v T op))
       && (negb (is_intrinsic1 v T op && is_intrinsic2 v T op)))
     (base_ops T)
  (* the single-variable opcodes used to split 3.13 paired opcodes *)
  && (negb (PY313 v) ||
      forallb (fun n => match opmap T n with
                        | Some o => z_mem o (t_haslocal T) && (o <? t_min_instrumented T)
                                    && negb (is_dual v T o)
                                    && Z.eqb (cache_entries v T n o) 0
                        | None => false end)
              ["LOAD_FAST"; "STORE_FAST"]).
