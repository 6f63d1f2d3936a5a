(** Code objects that the library understands (specification; 3.11+). *)
From Verif Require Import PyBase OpTable CPy M_Instr M_Tables M_Concrete S_Args S_Slots S_Lines S_Code.
Open Scope string_scope.
Open Scope list_scope.
Open Scope Z_scope.

Record understood (v : pyver) (T : optable) (co : codeobj) : Prop := {
  (** opcodes are those of the opcode table, not instrumented ones; arguments are in range *)
  un_known : forall k op, nth_error (co_code co) (2 * k) = Some op -> op < t_min_instrumented T;
  un_args : forall n op a, In (n, op, a) (executed (t_extended_arg T) 0 0 (co_code co)) -> a <= 2147483647;
  (** lines and columns are coherent *)
  un_positions : forall l el c ec, In (l, el, c, ec) (co_positions (co_firstlineno co) (co_linetable co)) ->
    coherent v l el c ec;
  (** the argument of every instruction that is not a jump means something *)
  un_reads : forall r, In r (instructions v T co) -> op_has_jump T (r_op r) = false ->
    exists x, reads v T (tables co) (r_op r) (r_arg r) x /\ real_member v x;
  (** on 3.13 the instructions that take two variables take two local variables *)
  un_pairs : forall r, In r (instructions v T co) -> is_dual v T (r_op r) = true ->
    exists n m, reads v T (tables co) (r_op r) (r_arg r) (OTuple [OStr n; OStr m]);
  (** backward jumps go backward *)
  un_backward : forall r n, In r (instructions v T co) -> In (r_op r) (t_hasjrel T) ->
    opname T (r_op r) = Some n -> str_contains "BACKWARD" n = true -> goes_to v T r < r_end r;
  (** it is not enormous *)
  un_size : zlen (instructions v T co) <= 1000000;
  un_names : zlen (co_varnames co) + zlen (co_cellvars co) + zlen (co_freevars co) <= 2000000000 }.
