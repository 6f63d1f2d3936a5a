(** How deep the stack of a code object gets (specification): a machine that executes the
    instructions of the code object and only knows how many items are on the stack. *)
From Verif Require Import PyBase OpTable M_Instr M_Tables M_Concrete M_Bytecode M_Cfg M_Stack S_Args S_Prog S_Cfg S_Stack S_Code.
Open Scope string_scope.
Open Scope list_scope.
Open Scope Z_scope.

(** The instructions after which the interpreter does not go on with the next instruction. *)
Definition never_next : list string :=
  ["RETURN_VALUE"; "RETURN_CONST"; "RAISE_VARARGS"; "RERAISE"; "BREAK_LOOP"; "CONTINUE_LOOP";
   "JUMP_FORWARD"; "JUMP_ABSOLUTE"; "JUMP_BACKWARD"; "JUMP_BACKWARD_NO_INTERRUPT"].

Section Run.
  (** [effect]: dis.stack_effect(opcode, oparg, jump=...) *)
  Variables (v : pyver) (T : optable) (effect : oracle) (co : codeobj).

  (** instruction number [k] is about to be executed, with [d] items on the stack *)
  Definition pc : Type := (nat * Z)%type.

  Inductive cstep : pc -> pc -> Prop :=
  (** it goes on with the next one *)
  | cs_next k d r n e : nth_error (instructions v T co) k = Some r ->
      opname T (r_op r) = Some n -> ~ In n never_next ->
      effect (r_op r) (r_arg r) (Some false) = Some e -> cstep (k, d) (S k, d + e)
  (** it jumps *)
  | cs_jump k d r k' e : nth_error (instructions v T co) k = Some r ->
      op_has_jump T (r_op r) = true -> begins v T co k' = Some (goes_to v T r) ->
      effect (r_op r) (r_arg r) (Some true) = Some e -> cstep (k, d) (k', d + e)
  (** it raises an exception for which there is a handler: the stack is unwound to the depth of
      the handler; the exception is pushed, and before it the place of the instruction if wanted *)
  | cs_raise k d r u target depth lasti k' : PY311 v = true ->
      nth_error (instructions v T co) k = Some r -> r_at r <= 2 * u < r_end r ->
      find_handler co u = Some (target, depth, lasti) -> begins v T co k' = Some (2 * target) ->
      cstep (k, d) (k', depth + pushed lasti).

  Inductive csteps (c : pc) : pc -> Prop :=
  | cs_refl : csteps c c
  | cs_more c1 c2 : csteps c c1 -> cstep c1 c2 -> csteps c c2.

  (** what can be reached from the start of the code *)
  Definition reached (first : Z) (c : pc) : Prop := csteps (O, first) c.
End Run.

(** What bytecode relies on: dis.stack_effect() only looks at the arguments that are numbers; where
    the argument refers to something (a place, a constant, a name, a variable, a comparison) its
    value does not matter, but for the lowest bit where it is a flag. *)
Definition only_numbers (v : pyver) (T : optable) (effect : oracle) : Prop :=
  forall op a j,
  (is_bitflag v T op || is_bitflag2 v T op = true -> effect op (Some a) j = effect op (Some (a mod 2)) j)
  /\ (is_bitflag v T op || is_bitflag2 v T op = false ->
      In op (t_hasjrel T ++ t_hasjabs T ++ t_hasconst T ++ t_haslocal T ++ t_hasname T ++ t_hasfree T ++ t_hascompare T) ->
      effect op (Some a) j = effect op (Some 0) j).

(** The two numbers of pre_and_post_stack_effect() add up to stack_effect() (C34). *)
Definition adds_up (v : pyver) (T : optable) (effect : oracle) : Prop :=
  forall x j, legal_instr v T x ->
  match stack_effect v T effect x j, pre_and_post v T effect x j with
  | Ok e, Ok (p, q) => p + q = e
  | Err _, Err _ => True
  | _, _ => False
  end.

(** Element [i] of block [n] comes after [k] instructions. *)
Definition numbered (g : cfg) (n i k : nat) : Prop :=
  exists m, nth_error (g_order g) m = Some n /\ k = (before g m + ninstrs (firstn i (k_items (blk g n))))%nat.

(** The instruction of a graph made from a Bytecode is protected by the handler which protects it
    in the Bytecode, that is the block which starts where the handler starts. *)
Definition protected (prog : list (string * parg * loc * option handler)) (g : cfg)
  (n i h : nat) (lasti : bool) : Prop :=
  exists x k a m, elem g n i = Some (BI x) /\ numbered g n i k
  /\ nth_error (map snd prog) k = Some (Some (PTo (Some a), lasti))
  /\ nth_error (g_order g) m = Some h /\ a = before g m.
