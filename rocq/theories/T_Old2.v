(** Property theorems: from_code() returns, on every version (C58). *)
From Verif Require Import PyBase OpTable CPy Table311 TablesEx CPyEffect P_Base P_OpTable M_Instr M_Tables M_Concrete M_Convert M_Bytecode M_Cfg M_Stack M_Full
  S_Args S_Lines S_Asm S_Prog S_Slots S_Dis S_Cfg S_Stack S_Ident S_Round S_Code S_Old
  P_Round P_Args P_Cat P_Decode P_Dis P_Dis3 P_Dis5 P_From P_From2 P_Old P_Old2 P_Old3 P_Old4 T_Asm T_Instr T_Args T_Ident T_Code T_Meta T_Full T_From T_Old
  S_Total T_Total S_From P_Total6 P_Total7 T_Total3.
Open Scope string_scope.
Open Scope list_scope.
Open Scope Z_scope.

(** Code objects that the library understands, whatever the version. *)
Definition understandable (v : pyver) (T : optable) (co : codeobj) : Prop :=
  if PY311 v then understood v T co else understood_before v T co.

(** C58.  Whatever the version, from_code() of a code object of a compiler returns, and what it
    returns is a program the library can assemble. *)
Theorem C58_from_code_returns_any_version : forall v T conserve co,
  wf_optable v T = true -> compiled v T co -> understandable v T co ->
  exists b, bytecode_from_code v T true conserve co = Ok b
  /\ buildable v T b /\ locations_fit v b /\ (all_lines v co -> locations_ok v b).
Proof.
  intros v T conserve co wf AC UN. unfold understandable in UN. pose proof AC as AC'. unfold compiled in AC'. destruct (PY311 v) eqn:P11.
  - destruct (C58_from_code_returns v T conserve co wf P11 AC' UN) as (b & A & B & C & D). exists b. auto.
  - destruct (old_read_total v T wf P11 co AC' UN) as (cb & F). destruct (old_show_total v T wf P11 co AC' UN cb F conserve) as (b & TB).
    assert (FB : bytecode_from_code v T true conserve co = Ok b) by (unfold bytecode_from_code; rewrite F; exact TB).
    exists b. split; [exact FB|]. split; [exact (old_buildable v T wf P11 co AC' UN conserve b FB)|]. split; [unfold locations_fit; congruence|].
    intros AL. exact (w_locs _ _ _ (C52_from_code_is_writable v T conserve co b wf AC AL FB)).
Qed.
Print Assumptions C58_from_code_returns_any_version.

Lemma jumps_bound v T co b : (forall i, In (BI i) (b_items b) -> legal_instr v T i) -> runs v T co (source b) ->
  zlen (filter takes_label (b_items b)) <= zlen (filter (fun r => op_has_jump T (r_op r)) (instructions v T co)).
Proof.
  intros W [RL RUN].
  unfold zlen. apply inj_le. rewrite <- (walk_goes (position (b_items b)) (b_items b) None (line_loc (Some (m_first_lineno (b_meta b))))).
  change (S_Ident.located _ _) with (source b). apply filter_count; [now symmetry|].
  intros k [[[n a] l] h] r N NR G. destruct a as [t|]; [|discriminate G].
  destruct (RUN k _ _ _ _ r N NR) as (O & _). apply nth_error_In in N. apply walk_jumps in N. destruct N as (i & m & I & IN & IA).
  pose proof (W i I) as LI. pose proof LI as (O' & _). assert (Q : i_op i = r_op r) by congruence. rewrite <- Q.
  destruct (op_has_jump T (i_op i)) eqn:J; [reflexivity|]. exfalso. exact (legal_not_label v T i m LI J IA).
Qed.

(** C58.  from_code(conserve_exception_block_stackdepth=True) then to_code(stacksize=...,
    compute_exception_stack_depths=False), whatever the version: a code object is made, unless the
    passes allowed are too few, and it runs the same program. *)
Theorem C58_code_remade_any_version : forall v T se keq passes stacksize check co,
  wf_optable v T = true -> sound_key keq -> compiled v T co -> understandable v T co -> all_lines v co ->
  exists b, bytecode_from_code v T true true co = Ok b
  /\ let result := bytecode_to_code v T se keq passes (Some stacksize) check false b in
     (result = Err RuntimeError
        /\ Z.of_nat (passes_of passes) <= 3 * zlen (filter (fun r => op_has_jump T (r_op r)) (instructions v T co)))
     \/ exists co', result = Ok co' /\ co_stacksize co' = stacksize
        /\ (pairs_near v T b (co_varnames co') -> exists program, runs v T co program /\ runs v T co' program).
Proof.
  intros v T se keq passes s check co wf SK AC UN AL.
  destruct (C58_from_code_returns_any_version v T true co wf AC UN) as (b & FB & BB & LF & LO). specialize (LO AL). exists b. split; [exact FB|]. cbv zeta.
  assert (A : assemblable v T b /\ recordable v b).
  { destruct (PY311 v) eqn:P11; [exact (conserved v T wf P11 co b FB BB LF)|].
    pose proof AC as AC'. unfold compiled in AC'. unfold understandable in UN. rewrite P11 in AC', UN.
    split; constructor; auto; [|congruence]. intros id t la d I. exfalso. exact (old_no_try v T wf P11 co AC' true b FB id t la d I). }
  destruct A as [A R]. pose proof (jumps_bound v T co b (fun i I => proj1 (am_legal _ _ _ BB i I)) (C52_from_code_shows_program v T true co b wf AC FB)) as JC.
  destruct (Z_lt_ge_dec (3 * zlen (filter takes_label (b_items b))) (Z.of_nat (passes_of passes))) as [L|L].
  - right. destruct (C56_code_made v T se keq passes s check b wf SK A R LO L) as (co' & E & S' & RN).
    exists co'. split; [exact E|]. split; [exact S'|]. intros PN. exists (source b).
    split; [exact (C52_from_code_shows_program v T true co b wf AC FB)|exact (RN PN)].
  - destruct (C56_assembles_or_more_passes v T se keq passes b wf A) as [E|(cb & E)].
    + left. split; [|lia]. unfold bytecode_to_code. rewrite andb_false_r. cbn [bind]. rewrite E. reflexivity.
    + right. unfold to_concrete_bytecode in E. rewrite andb_false_r in E. cbn [bind] in E.
      destruct (P_Total4.record_total v T keq wf (passes_of passes) b cb s A R E) as (co' & E2).
      assert (EB : bytecode_to_code v T se keq passes (Some s) check false b = Ok co').
      { unfold bytecode_to_code, to_concrete_bytecode, concrete_to_code. rewrite andb_false_r. cbn [bind]. rewrite andb_false_r. cbn [bind]. rewrite E. cbn [bind]. exact E2. }
      exists co'. split; [exact EB|]. split.
      * unfold to_code_raw in E2. destruct (assemble_code v T cb) as [x y]. apply bind_ok in E2. destruct E2 as (? & _ & E2).
        apply bind_ok in E2. destruct E2 as (? & _ & E2). injection E2 as <-. reflexivity.
      * intros PN. eapply C53_round_trip; eauto.
Qed.
Print Assumptions C58_code_remade_any_version.

(** ** Examples *)
Definition check_understood_before (v : pyver) (T : optable) (co : codeobj) : bool :=
  let ins := instructions v T co in
  forallb (fun k => match nth_error (co_code co) (2 * k) with Some op => op <? t_min_instrumented T | None => true end) (seq 0 (length (co_code co)))
  && forallb (fun x => snd x <=? 2147483647) (executed (t_extended_arg T) 0 0 (co_code co))
  && (0 <? zlen (co_code co))
  && forallb (fun r => negb (op_has_jump T (r_op r)) || existsb (fun r' => r_start r' =? goes_to v T r) ins) ins
  && forallb (fun r => match opname T (r_op r) with Some n => negb (str_contains "BACKWARD" n) || (goes_to v T r <? r_end r) | None => true end) ins
  && (1 <=? co_firstlineno co)
  && forallb (fun off => match line_at v co off with Some (Some z) => 1 <=? z | _ => true end) (range 0 (zlen (co_code co)))
  && forallb (fun r => op_has_jump T (r_op r) || is_ok (decode_arg v T (tables co) (r_op r) (r_arg r))) ins
  && forallb (fun r => match opname T (r_op r) with Some n => r_op r <? t_min_instrumented T | None => false end) ins
  && forallb (fun r => match r_arg r with Some a => 0 <=? a | None => negb (opcode_has_argument v T (r_op r)) end) ins
  && (zlen ins <=? 1000000) && (zlen (co_varnames co) + zlen (co_cellvars co) + zlen (co_freevars co) <=? 2000000000).

Lemma check_understood_before_ok v T co : wf_optable v T = true -> PY311 v = false -> as_compiled_before v T co ->
  check_understood_before v T co = true -> understood_before v T co.
Proof.
  intros wf P11 AC X. unfold check_understood_before in X. cbv zeta in X. do 11 (apply andb_true_iff in X; let H := fresh "Y" in destruct X as [X H]).
  rewrite forallb_forall in *. constructor.
  - intros k op N. assert (K : (2 * k < length (co_code co))%nat) by (apply nth_error_Some; congruence). specialize (X k ltac:(apply in_seq; lia)).
    rewrite N in X. now apply Z.ltb_lt.
  - intros n op a I. specialize (Y9 _ I). now apply Z.leb_le.
  - intros Q. rewrite Q in Y8. discriminate.
  - intros r I J. specialize (Y7 r I). rewrite J in Y7. cbn [negb orb] in Y7. apply existsb_exists in Y7. destruct Y7 as (r' & I' & Q). exists r'. split; [exact I'|]. now apply Z.eqb_eq.
  - intros r n I _ N B. specialize (Y6 r I). rewrite N, B in Y6. cbn [negb orb] in Y6. now apply Z.ltb_lt.
  - now apply Z.leb_le.
  - intros off z B Q. specialize (Y4 off (range_In _ _ _ B)). rewrite Q in Y4. now apply Z.leb_le.
  - intros r I J. specialize (Y3 r I). rewrite J in Y3. cbn [orb] in Y3. destruct (decode_arg _ _ _ _ _) as [x|] eqn:D; [|discriminate].
    specialize (Y2 r I). destruct (opname T (r_op r)) as [n|] eqn:N; [|discriminate]. apply Z.ltb_lt in Y2.
    exists x. destruct (shown_reads v T (tables co) (r_op r) (r_arg r) x) as [Q|[Q1 Q2]]; auto.
    + apply (category_of v T wf n); [now apply (opmap_opname v T wf)|exact Y2].
    + specialize (Y1 r I). destruct (r_arg r); [now apply Z.leb_le|now apply negb_true_iff].
    + intros P13. exfalso. clear - P11 P13. destruct v; vm_compute in P11, P13; congruence.
    + intros Q. congruence.
    + split; [exact Q2|]. assert (Q3 := Q1). apply z_mem_In in Q1. unfold decode_arg in D. rewrite Q1 in D.
      specialize (Y1 r I). assert (Z0 : 0 <= match r_arg r with Some a => a | None => 0 end) by (destruct (r_arg r); [now apply Z.leb_le|lia]).
      apply (py_index_at _ _ _ Z0) in D. destruct D as [_ D]. apply nth_error_In in D. apply (ab_consts _ _ _ AC) in D. destruct x; try exact Logic.I; destruct D.
  - now apply Z.leb_le.
  - now apply Z.leb_le.
Qed.

(** The functions of C53, on 3.9 and on 3.10, and the one on 3.10 with instructions without line. *)
Example C58_before_ex : understandable V39 TPre ex39 /\ understandable V310 TPre ex310 /\ understandable V310 TPre ex_no_line
  /\ 3 * zlen (filter (fun r => op_has_jump TPre (r_op r)) (instructions V310 TPre ex310)) < Z.of_nat (passes_of None).
Proof.
  assert (K : forall v co, wf_optable v TPre = true -> PY311 v = false -> check_before v TPre co = true -> check_understood_before v TPre co = true -> understandable v TPre co).
  { intros v co W P A B. unfold understandable. rewrite P. apply check_understood_before_ok; auto. now apply check_before_ok. }
  split; [|split; [|split]]; [apply K; vm_compute; reflexivity..|]. vm_compute. reflexivity.
Qed.
