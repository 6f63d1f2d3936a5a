(** Which programs can be assembled (specification). *)
From Verif Require Import PyBase OpTable M_Instr M_Tables M_Concrete M_Convert M_Bytecode M_Cfg S_Args S_Asm S_Slots S_Prog S_Cfg S_Ident S_Lines T_Code.
Open Scope string_scope.
Open Scope list_scope.
Open Scope Z_scope.

Definition an_instr (it : bitem) : bool := match it with BI _ => true | _ => false end.

Record buildable (v : pyver) (T : optable) (b : bytecode) : Prop := {
  (** the instructions are what Instr() accepts, the members of enumerations exist *)
  am_legal : forall i, In (BI i) (b_items b) -> legal_instr v T i /\ real_member v (i_arg i);
  (** inline caches are left to the assembler *)
  am_caches : no_cache (b_items b);
  (** jumps and handlers go to labels, which stand in the list; every TryBegin is used once *)
  am_proper : proper T (b_items b);
  (** try blocks are not nested, not empty, and closed *)
  am_blocks : bracketed None (b_items b);
  (** relative jumps go in the direction of their name: instruction number [k] goes to number [t] *)
  am_direction : forall k n t l h op, nth_error (source b) k = Some (n, PTo (Some t), l, h) ->
    opmap T n = Some op -> In op (t_hasjrel T) ->
    if str_contains "BACKWARD" n then (t <= k)%nat else (k < t)%nat;
  (** the variables of closures are declared *)
  am_cells : forall i n, In (BI i) (b_items b) -> ~ In (i_op i) (t_hasconst T) ->
    i_arg i = OCell n -> In n (m_cellvars (b_meta b));
  am_frees : forall i n, In (BI i) (b_items b) -> ~ In (i_op i) (t_hasconst T) ->
    i_arg i = OFree n -> In n (m_freevars (b_meta b));
  (** on 3.13 the instructions that take two variables take two names *)
  am_pairs : forall i, In (BI i) (b_items b) -> is_dual v T (i_op i) = true ->
    exists x y, i_arg i = OTuple [OStr x; OStr y];
  (** the program is not enormous *)
  am_size : zlen (filter an_instr (b_items b)) <= 1000000;
  am_names : zlen (b_argnames b) + zlen (m_cellvars (b_meta b)) + zlen (m_freevars (b_meta b)) <= 2000000000 }.

(** What is missing is the stack depth of every TryBegin; to_code() computes it. *)
Record assemblable (v : pyver) (T : optable) (b : bytecode) : Prop := {
  am_build : buildable v T b;
  am_depths : forall id t la d, In (BTB id t la d) (b_items b) -> exists z, d = Some z }.

(** What can be recorded in the tables of a code object: coherent locations, on 3.11+ none over
    several lines without columns (C13) and no negative stack depth of a handler. *)
Definition locations_fit (v : pyver) (b : bytecode) : Prop :=
  PY311 v = true -> forall n a l h, In (n, a, l, h) (source b) -> coherent_loc v l /\ ~ spans_without_columns l.
Record recordable (v : pyver) (b : bytecode) : Prop := {
  rc_locations : locations_fit v b;
  rc_depths : PY311 v = true -> forall id t la z, In (BTB id t la (Some z)) (b_items b) -> 0 <= z }.
