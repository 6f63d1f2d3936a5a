(** Property theorems: from_code() returns for the code objects of a compiler (C58). *)
From Verif Require Import PyBase OpTable CPy Table311 TablesEx P_Base P_OpTable M_Instr M_Tables M_Concrete M_Convert M_Cfg M_Bytecode M_Stack M_Full S_Args S_Lines S_Prog S_Slots S_Asm S_Dis S_Cfg S_Ident S_Round S_Code
  P_Round P_Round2 P_Cat P_Args P_Decode P_CfgSeq P_Dis P_Dis5 P_Code2 P_From P_From2 CPyEffect T_Asm T_Instr T_Round T_Args T_Code T_Dis T_Meta T_Full T_From S_Total T_Total S_From P_Total6 P_Total7.
Open Scope string_scope.
Open Scope list_scope.
Open Scope Z_scope.

(** C58.  Bytecode.from_code() of a code object of a compiler returns, whether handler depths are
    conserved or not, and what it returns is a program the library can assemble: C56 and C57 say
    what to_code() then does. *)
Theorem C58_from_code_returns : forall v T conserve co,
  wf_optable v T = true -> PY311 v = true -> as_compiled v T co -> understood v T co ->
  exists b, bytecode_from_code v T true conserve co = Ok b
  /\ buildable v T b /\ locations_fit v b /\ locations_ok v b.
Proof.
  intros v T conserve co wf P11 AC UN. destruct (read_total v T wf P11 co AC UN) as (cb & F).
  destruct (grouped v T wf P11 co cb AC F) as (gs & GS & GR).
  destruct (show_total v T wf P11 co AC UN cb F gs GS GR conserve) as (b & TB).
  assert (FB : bytecode_from_code v T true conserve co = Ok b) by (unfold bytecode_from_code; rewrite F; exact TB).
  exists b. split; [exact FB|]. exact (from_buildable v T wf P11 co AC UN conserve b FB).
Qed.
Print Assumptions C58_from_code_returns.

(** C58.  from_code(conserve_exception_block_stackdepth=True) then to_code() with the stack size
    given and depths left alone: a code object is made, unless the passes allowed are too few, and
    it runs the same program.  Three passes for each jump, and one more, are enough. *)
Theorem C58_code_remade : forall v T se keq passes stacksize check co,
  wf_optable v T = true -> PY311 v = true -> sound_key keq -> as_compiled v T co -> understood v T co ->
  exists b, bytecode_from_code v T true true co = Ok b
  /\ let result := bytecode_to_code v T se keq passes (Some stacksize) check false b in
     (result = Err RuntimeError
        /\ Z.of_nat (passes_of passes) <= 3 * zlen (filter (fun r => op_has_jump T (r_op r)) (instructions v T co)))
     \/ exists co', result = Ok co' /\ co_stacksize co' = stacksize
        /\ (pairs_near v T b (co_varnames co') -> exists program, runs v T co program /\ runs v T co' program).
Proof.
  intros v T se keq passes s check co wf P11 SK AC UN.
  destruct (C58_from_code_returns v T true co wf P11 AC UN) as (b & FB & BB & LF & LO). exists b. split; [exact FB|]. cbv zeta.
  assert (A : assemblable v T b /\ recordable v b) by exact (conserved v T wf P11 co b FB BB LF).
  destruct A as [A R]. pose proof (jump_count v T wf P11 co AC true b FB) as JC.
  destruct (Z_lt_ge_dec (3 * zlen (filter takes_label (b_items b))) (Z.of_nat (passes_of passes))) as [L|L].
  - right. destruct (C56_code_made v T se keq passes s check b wf SK A R LO L) as (co' & E & S' & RN).
    exists co'. split; [exact E|]. split; [exact S'|]. intros PN. exists (source b).
    split; [exact (C52_from_code_shows_program_since_311 v T true co b wf P11 AC FB)|exact (RN PN)].
  - destruct (C56_assembles_or_more_passes v T se keq passes b wf A) as [E|(cb & E)].
    + left. split; [|lia]. unfold bytecode_to_code. rewrite andb_false_r. cbn [bind]. rewrite E. reflexivity.
    + right. unfold to_concrete_bytecode in E. rewrite andb_false_r in E. cbn [bind] in E.
      destruct (P_Total4.record_total v T keq wf (passes_of passes) b cb s A R E) as (co' & E2). exists co'.
      split; [|split].
      * unfold bytecode_to_code, to_concrete_bytecode, concrete_to_code. rewrite andb_false_r. cbn [bind]. rewrite andb_false_r. cbn [bind]. rewrite E. cbn [bind]. exact E2.
      * unfold to_code_raw in E2. destruct (assemble_code v T cb) as [x y]. apply bind_ok in E2. destruct E2 as (? & _ & E2).
        apply bind_ok in E2. destruct E2 as (? & _ & E2). injection E2 as <-. reflexivity.
      * intros PN. exists (source b). split; [exact (C52_from_code_shows_program_since_311 v T true co b wf P11 AC FB)|].
        apply (C51_to_code_runs_program_partial v T se keq passes (Some s) check false b co' wf); auto.
        -- exact (C52_from_code_is_writable_since_311 v T true co b wf P11 AC FB).
        -- unfold bytecode_to_code, to_concrete_bytecode, concrete_to_code. rewrite andb_false_r. cbn [bind]. rewrite andb_false_r. cbn [bind]. rewrite E. cbn [bind]. exact E2.
Qed.
Print Assumptions C58_code_remade.

(** ** Example *)
Definition check_understood (v : pyver) (T : optable) (co : codeobj) : bool :=
  let ins := instructions v T co in
  forallb (fun k => match nth_error (co_code co) (2 * k) with Some op => op <? t_min_instrumented T | None => true end) (seq 0 (length (co_code co)))
  && forallb (fun x => snd x <=? 2147483647) (executed (t_extended_arg T) 0 0 (co_code co))
  && forallb (fun p => match p with (l, el, c, ec) => is_ok (new_location v l el c ec) end) (co_positions (co_firstlineno co) (co_linetable co))
  && forallb (fun r => op_has_jump T (r_op r) || is_ok (decode_arg v T (tables co) (r_op r) (r_arg r))) ins
  && forallb (fun r => match opname T (r_op r) with Some n => r_op r <? t_min_instrumented T | None => false end) ins
  && forallb (fun r => match r_arg r with Some a => 0 <=? a | None => negb (opcode_has_argument v T (r_op r)) end) ins
  && forallb (fun r => negb (is_dual v T (r_op r))) ins
  && forallb (fun r => match opname T (r_op r) with Some n => negb (str_contains "BACKWARD" n) || (goes_to v T r <? r_end r) | None => true end) ins
  && (zlen ins <=? 1000000) && (zlen (co_varnames co) + zlen (co_cellvars co) + zlen (co_freevars co) <=? 2000000000).

Lemma check_understood_ok v T co : wf_optable v T = true -> as_compiled v T co -> check_understood v T co = true -> understood v T co.
Proof.
  intros wf AC X. unfold check_understood in X. cbv zeta in X. do 9 (apply andb_true_iff in X; let H := fresh "Y" in destruct X as [X H]).
  rewrite forallb_forall in *. constructor.
  - intros k op N. assert (K : (2 * k < length (co_code co))%nat) by (apply nth_error_Some; congruence). specialize (X k ltac:(apply in_seq; lia)).
    rewrite N in X. now apply Z.ltb_lt.
  - intros n op a I. specialize (Y7 _ I). now apply Z.leb_le.
  - intros l el c ec I. specialize (Y6 _ I). cbv beta iota in Y6. apply C07_location_accepts_coherent.
    destruct (new_location v l el c ec) eqn:E; [eauto|discriminate].
  - intros r I J. specialize (Y5 r I). rewrite J in Y5. cbn [orb] in Y5. destruct (decode_arg _ _ _ _ _) as [x|] eqn:D; [|discriminate].
    specialize (Y4 r I). destruct (opname T (r_op r)) as [n|] eqn:N; [|discriminate]. apply Z.ltb_lt in Y4.
    exists x. destruct (shown_reads v T (tables co) (r_op r) (r_arg r) x) as [Q|[Q1 Q2]]; auto.
    + apply (category_of v T wf n); [now apply (opmap_opname v T wf)|exact Y4].
    + specialize (Y3 r I). destruct (r_arg r); [now apply Z.leb_le|now apply negb_true_iff].
    + intros _ y I1. exact (ac_free _ _ _ AC y I1).
    + intros _ HF a0 n0 EA AA. exact (ac_deref _ _ _ AC _ a0 n0 I HF EA AA).
    + split; [exact Q2|]. assert (Q3 := Q1). apply z_mem_In in Q1. unfold decode_arg in D. rewrite Q1 in D.
      specialize (Y3 r I). assert (Z0 : 0 <= match r_arg r with Some a => a | None => 0 end) by (destruct (r_arg r); [now apply Z.leb_le|lia]).
      apply (py_index_at _ _ _ Z0) in D. destruct D as [_ D]. apply nth_error_In in D. apply (ac_consts _ _ _ AC) in D. destruct x; try exact Logic.I; destruct D.
  - intros r I D. specialize (Y2 r I). rewrite D in Y2. discriminate.
  - intros r n I _ N B. specialize (Y1 r I). rewrite N, B in Y1. cbn [negb orb] in Y1. now apply Z.ltb_lt.
  - now apply Z.leb_le.
  - now apply Z.leb_le.
Qed.

(** The function of C53 (a loop, exceptions, a closure). *)
Example C58_ex : as_compiled V311 T311 ex53 /\ understood V311 T311 ex53
  /\ 3 * zlen (filter (fun r => op_has_jump T311 (r_op r)) (instructions V311 T311 ex53)) < Z.of_nat (passes_of (Some 20%nat))
  /\ zlen (filter (fun r => op_has_jump T311 (r_op r)) (instructions V311 T311 ex53)) = 5.
Proof.
  assert (AC : as_compiled V311 T311 ex53) by exact (proj1 C52_C53_ex).
  split; [exact AC|]. split; [apply check_understood_ok; [exact T311_wf|exact AC|vm_compute; reflexivity]|]. split; vm_compute; reflexivity.
Qed.
