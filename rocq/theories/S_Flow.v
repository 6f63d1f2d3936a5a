(** Where CPython goes after an instruction (specification, from Python/ceval.c and
    Lib/opcode.py of each version). *)
From Verif Require Import PyBase OpTable.
Open Scope string_scope.
Open Scope list_scope.
Open Scope Z_scope.

Inductive direction : Set := Absolute | Forward | Backward.

(** The instructions that may go to their target; how the target is told; whether the instruction
    after them may run next.  SETUP_xxx goes there when an exception is raised; CALL_FINALLY goes
    there and END_FINALLY comes back. *)
Definition flow (v : pyver) : list (string * (direction * bool)) :=
  match v with
  | V38 | V39 | V310 =>
      [("FOR_ITER", (Forward, true)); ("JUMP_FORWARD", (Forward, false)); ("SETUP_FINALLY", (Forward, true));
       ("SETUP_WITH", (Forward, true)); ("SETUP_ASYNC_WITH", (Forward, true));
       ("JUMP_IF_FALSE_OR_POP", (Absolute, true)); ("JUMP_IF_TRUE_OR_POP", (Absolute, true));
       ("JUMP_ABSOLUTE", (Absolute, false)); ("POP_JUMP_IF_FALSE", (Absolute, true)); ("POP_JUMP_IF_TRUE", (Absolute, true))]
      ++ match v with V38 => [("CALL_FINALLY", (Forward, true))] | _ => [("JUMP_IF_NOT_EXC_MATCH", (Absolute, true))] end
  | V311 =>
      [("FOR_ITER", (Forward, true)); ("JUMP_FORWARD", (Forward, false)); ("SEND", (Forward, true));
       ("JUMP_IF_FALSE_OR_POP", (Forward, true)); ("JUMP_IF_TRUE_OR_POP", (Forward, true));
       ("POP_JUMP_FORWARD_IF_FALSE", (Forward, true)); ("POP_JUMP_FORWARD_IF_TRUE", (Forward, true));
       ("POP_JUMP_FORWARD_IF_NONE", (Forward, true)); ("POP_JUMP_FORWARD_IF_NOT_NONE", (Forward, true));
       ("POP_JUMP_BACKWARD_IF_FALSE", (Backward, true)); ("POP_JUMP_BACKWARD_IF_TRUE", (Backward, true));
       ("POP_JUMP_BACKWARD_IF_NONE", (Backward, true)); ("POP_JUMP_BACKWARD_IF_NOT_NONE", (Backward, true));
       ("JUMP_BACKWARD", (Backward, false)); ("JUMP_BACKWARD_NO_INTERRUPT", (Backward, false))]
  | V312 | V313 =>
      [("FOR_ITER", (Forward, true)); ("JUMP_FORWARD", (Forward, false)); ("SEND", (Forward, true));
       ("POP_JUMP_IF_FALSE", (Forward, true)); ("POP_JUMP_IF_TRUE", (Forward, true));
       ("POP_JUMP_IF_NONE", (Forward, true)); ("POP_JUMP_IF_NOT_NONE", (Forward, true));
       ("JUMP_BACKWARD", (Backward, false)); ("JUMP_BACKWARD_NO_INTERRUPT", (Backward, false))]
  end.

(** The instructions after which the frame is left for good *)
Definition leaves (v : pyver) : list string :=
  ["RETURN_VALUE"; "RAISE_VARARGS"; "RERAISE"]
  ++ match v with V312 | V313 => ["RETURN_CONST"; "INTERPRETER_EXIT"] | _ => [] end.

Definition jumps_to (v : pyver) (n : string) (d : direction) : Prop := exists on, In (n, (d, on)) (flow v).
Definition may_jump (v : pyver) (n : string) : Prop := exists d, jumps_to v n d.
Definition may_go_on (v : pyver) (n : string) : Prop :=
  ~ In n (leaves v) /\ forall d on, In (n, (d, on)) (flow v) -> on = true.

(** The table of the version lists these jumps: relative or absolute, as they are. *)
Definition flow_table (v : pyver) (T : optable) : Prop :=
  forall n op, opmap T n = Some op -> op < t_min_instrumented T ->
    (In op (t_hasjabs T) <-> jumps_to v n Absolute)
    /\ (In op (t_hasjrel T) <-> jumps_to v n Forward \/ jumps_to v n Backward).
(** The names of the version: BREAK_LOOP and CONTINUE_LOOP are gone since 3.8, RERAISE came with 3.9,
    and only jumps are called so. *)
Definition names_of (v : pyver) (T : optable) : Prop :=
  forall n op, opmap T n = Some op -> op < t_min_instrumented T ->
    ~ In n ["BREAK_LOOP"; "CONTINUE_LOOP"] /\ (n = "RETURN_CONST" -> In n (leaves v))
    /\ (str_contains "JUMP_" n = true -> may_jump v n).
