(** A ConcreteBytecode is written as it stands (C68). *)
From Verif Require Import PyBase OpTable CPy Table311 TablesEx M_Instr M_Tables M_Concrete M_Convert M_Bytecode M_Cfg M_Stack M_Full
  S_Args S_Lines P_Base P_Except P_LinesCode P_Round CPyEffect T_Except T_Lines T_Bytecode.
Open Scope string_scope.
Open Scope list_scope.
Open Scope Z_scope.

(** What the code object made from [cb] as it stands has: the bytes of its instructions, one
    after the other, its own tables in their order, used or not, its exception table, its attributes. *)
Record as_it_stands (v : pyver) (T : optable) (cb : cbytecode) (co : codeobj) : Prop := {
  ai_code : co_code co = flat_map (fun x => match x with CI c => assemble T c | CSet _ => [] end) (cb_items cb);
  ai_consts : co_consts co = cb_consts cb;
  ai_names : co_names co = cb_names cb;
  ai_varnames : co_varnames co = cb_varnames cb;
  ai_nlocals : co_nlocals co = zlen (cb_varnames cb);
  ai_free : co_freevars co = m_freevars (cb_meta cb);
  ai_cell : co_cellvars co = m_cellvars (cb_meta cb);
  ai_table : PY311 v = true -> parse_exception_table (co_exceptiontable co) = cb_ex cb;
  ai_flags : co_flags co = m_flags (cb_meta cb);
  ai_counts : co_argcount co = m_argcount (cb_meta cb) /\ co_posonly co = m_posonly (cb_meta cb) /\ co_kwonly co = m_kwonly (cb_meta cb);
  ai_names2 : co_name co = m_name (cb_meta cb) /\ co_filename co = m_filename (cb_meta cb) /\ (PY311 v = true -> co_qualname co = m_qualname (cb_meta cb));
  ai_line : co_firstlineno co = m_first_lineno (cb_meta cb) }.

Lemma raw_as_it_stands v T cb n co : to_code_raw v T cb n = Ok co -> as_it_stands v T cb co /\ co_stacksize co = n.
Proof.
  unfold to_code_raw. intros E. assert (B : fst (assemble_code v T cb) = flat_map (fun x => match x with CI c => assemble T c | CSet _ => [] end) (cb_items cb)).
  { unfold assemble_code. rewrite loop_bytes. generalize (m_first_lineno (cb_meta cb)). induction (cb_items cb) as [|x r IH]; intros z; [reflexivity|].
    destruct x as [c|y]; cbn; rewrite ?IH; reflexivity. }
  destruct (assemble_code v T cb) as [bytes ls]. cbn [fst] in B.
  apply bind_ok in E. destruct E as (lt & _ & E). apply bind_ok in E. destruct E as (ext & X & E). injection E as <-.
  split; [|reflexivity]. constructor; cbn; auto.
  - intros V. rewrite V in X. now apply C10_exception_table_round_trip.
  - repeat split; auto. intros V. now rewrite V.
Qed.

(** C68, partial.  With a stack size, and (from 3.11 on) without recomputation of the handler
    depths, nothing is changed.  Missing: the other options, for which it is false. *)
Theorem C68_as_it_stands_partial : forall v T se keq s check depths cb co, PY311 v && depths = false ->
  concrete_to_code v T se keq (Some s) check depths cb = Ok co -> as_it_stands v T cb co /\ co_stacksize co = s.
Proof.
  intros v T se keq s check depths cb co D E. unfold concrete_to_code in E. rewrite D in E. cbn [bind] in E.
  now apply raw_as_it_stands.
Qed.

(** With the default options the list is disassembled and assembled again: constants that are
    not used are dropped, and EXTENDED_ARG asked for with extended_args are forgotten. *)
Definition ex_spare : cbytecode := mkCB meta0
  [CI (mkC "LOAD_CONST" 100 (Some 1) None (Some 1) 4); CI (mkC "RETURN_VALUE" 83 None None None 2)]
  [OInt 5; OInt 7] [] [] [].
Theorem C68_default_refuted :
  (~ forall cb co, concrete_to_code V311 T311 dis_effect311 keq0 None true true cb = Ok co -> co_consts co = cb_consts cb)
  /\ (~ forall cb co s, concrete_to_code V311 T311 dis_effect311 keq0 (Some s) true true cb = Ok co ->
        zlen (co_code co) = zlen (flat_map (fun x => match x with CI c => assemble T311 c | CSet _ => [] end) (cb_items cb))).
Proof.
  split; intros H.
  - destruct (concrete_to_code V311 T311 dis_effect311 keq0 None true true ex_spare) as [co|] eqn:E; [|vm_compute in E; discriminate E].
    specialize (H _ _ E). clear - E H. vm_compute in E. injection E as <-. discriminate H.
  - destruct (concrete_to_code V311 T311 dis_effect311 keq0 (Some 4) true true ex_spare) as [co|] eqn:E; [|vm_compute in E; discriminate E].
    specialize (H _ _ _ E). clear - E H. vm_compute in E. injection E as <-. discriminate H.
Qed.

(** The same ConcreteBytecode without recomputation *)
Example C68_ex : exists co, concrete_to_code V311 T311 dis_effect311 keq0 (Some 4) true false ex_spare = Ok co
  /\ co_code co = [144; 0; 100; 1; 83; 0] /\ co_consts co = [OInt 5; OInt 7] /\ co_stacksize co = 4.
Proof. eexists. vm_compute. repeat split. Qed.

Print Assumptions C68_as_it_stands_partial.
Print Assumptions C68_default_refuted.
