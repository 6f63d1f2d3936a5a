(** Code objects as a compiler makes them before 3.11 (specification). *)
From Verif Require Import PyBase OpTable CPy M_Instr M_Tables M_Concrete S_Args S_Slots S_Lines S_Round S_Code.
Open Scope string_scope.
Open Scope list_scope.
Open Scope Z_scope.

(** The line that the interpreter gives for a byte offset before 3.11 ([Some None]: no line, from
    3.10; [None]: the table does not reach the offset). *)
Definition line_at (v : pyver) (co : codeobj) (off : Z) : option (option Z) :=
  if PY310 v then linetable_line 0 (co_firstlineno co) off (co_linetable co)
  else Some (Some (addr2line 0 (co_firstlineno co) off (co_linetable co))).

Record as_compiled_before (v : pyver) (T : optable) (co : codeobj) : Prop := {
  ab_code : normal v T 0 false (co_code co);
  (** the line table is made of bytes, has an entry for every byte of code, and gives one line
      for all the bytes of an instruction *)
  ab_table : forall x, In x (co_linetable co) -> 0 <= x < 256;
  ab_lines : forall off, 0 <= off < zlen (co_code co) -> line_at v co off <> None;
  ab_same : forall r off, In r (instructions v T co) -> r_start r <= off < r_end r ->
    line_at v co off = line_at v co (r_start r);
  (** the constants are not objects of this library *)
  ab_consts : forall x, In x (co_consts co) -> constant_object x }.

(** Code objects as a compiler makes them, whatever the version. *)
Definition compiled (v : pyver) (T : optable) (co : codeobj) : Prop :=
  if PY311 v then as_compiled v T co else as_compiled_before v T co.

(** Code objects that the library understands (before 3.11). *)
Record understood_before (v : pyver) (T : optable) (co : codeobj) : Prop := {
  (** opcodes are those of the opcode table; arguments are in range; there is code *)
  ub_known : forall k op, nth_error (co_code co) (2 * k) = Some op -> op < t_min_instrumented T;
  ub_args : forall n op a, In (n, op, a) (executed (t_extended_arg T) 0 0 (co_code co)) -> a <= 2147483647;
  ub_code : co_code co <> [];
  (** jumps go to instructions, relative ones in the direction of their name *)
  ub_jumps : forall r, In r (instructions v T co) -> op_has_jump T (r_op r) = true ->
    exists r', In r' (instructions v T co) /\ r_start r' = goes_to v T r;
  ub_backward : forall r n, In r (instructions v T co) -> In (r_op r) (t_hasjrel T) ->
    opname T (r_op r) = Some n -> str_contains "BACKWARD" n = true -> goes_to v T r < r_end r;
  (** lines are positive *)
  ub_first : 1 <= co_firstlineno co;
  ub_lines : forall off z, 0 <= off < zlen (co_code co) -> line_at v co off = Some (Some z) -> 1 <= z;
  (** the argument of every instruction that is not a jump means something *)
  ub_reads : forall r, In r (instructions v T co) -> op_has_jump T (r_op r) = false ->
    exists x, reads v T (tables co) (r_op r) (r_arg r) x /\ real_member v x;
  (** it is not enormous *)
  ub_size : zlen (instructions v T co) <= 1000000;
  ub_names : zlen (co_varnames co) + zlen (co_cellvars co) + zlen (co_freevars co) <= 2000000000 }.
