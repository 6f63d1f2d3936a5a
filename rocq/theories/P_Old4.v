(** What from_code() returns can be assembled (before 3.11). *)
From Verif Require Import PyBase OpTable CPy P_Base P_OpTable M_Instr M_Tables M_Concrete M_Convert M_Cfg M_Bytecode S_Args S_Lines S_Prog S_Slots S_Asm S_Dis S_Cfg S_Ident S_Round S_Code S_Old
  P_Asm P_Except P_Instr P_Round P_Round2 P_Conv2 P_Cat P_Args P_Decode P_CfgSeq P_Cfg P_Dis P_Dis2 P_Dis3 P_Dis4 P_Dis5 P_Dis6 P_Jumps P_Jumps2 P_Ident P_Code P_Code2 P_From P_From2 P_Old P_Old2 P_Old3
  T_Instr T_Round T_Code T_Dis M_Full T_Full T_From T_Old S_Total S_From P_Total6 P_Total7.
Open Scope string_scope.
Open Scope list_scope.
Open Scope Z_scope.

Lemma firstn_S_snoc {A} (l : list A) : forall k x, nth_error l k = Some x -> firstn (S k) l = firstn k l ++ [x].
Proof. induction l as [|y l IH]; intros [|k] x H; cbn in H; try discriminate; [now injection H as ->|]. change (y :: firstn (S k) l = y :: firstn k l ++ [x]). f_equal. auto. Qed.

Section OldBuild.
  Variables (v : pyver) (T : optable).
  Hypothesis wf : wf_optable v T = true.
  Hypothesis P11 : PY311 v = false.
  Variable co : codeobj.
  Hypothesis AC : as_compiled_before v T co.
  Hypothesis UN : understood_before v T co.
  Variables (conserve : bool) (b : bytecode).
  Hypothesis FB : bytecode_from_code v T true conserve co = Ok b.

  Lemma old_vars a x : old_deref (tables co) a x ->
    (forall n, x = OCell n -> In n (co_cellvars co)) /\ (forall n, x = OFree n -> In n (co_freevars co)).
  Proof.
    intros FS. split; intros n ->; inversion FS; subst; cbn [tables cb_meta m_cellvars m_freevars cb_varnames] in *;
      match goal with H : S_Slots.at_ _ _ n |- _ => destruct H as [_ H]; now apply nth_error_In in H end.
  Qed.

  Lemma old_buildable : buildable v T b.
  Proof.
    pose proof FB as E. apply bind_ok in E. destruct E as (cb & F & TB).
    destruct (old_writable v T wf P11 co cb AC F conserve b TB) as (W1 & W2 & W3 & W4 & W5 & W6 & W7).
    assert (AC' : compiled v T co) by (unfold compiled; rewrite P11; exact AC).
    pose proof (C52_from_code_shows_program v T conserve co b wf AC' FB) as [RL RUN].
    destruct (C52_attributes v T true conserve co b wf FB) as (_ & _ & _ & _ & _ & _ & _ & _ & MF & MC & (more & AN) & _).
    pose proof (from_code_ordinary v T wf co cb F) as OR.
    assert (AT : forall i, In (BI i) (b_items b) -> op_has_jump T (i_op i) = false -> exists r, In r (instructions v T co) /\ r_op r = i_op i
        /\ reads v T (tables co) (i_op i) (r_arg r) (i_arg i)).
    { intros i I NJ. destruct (walk_has (position (b_items b)) (b_items b) i I None (line_loc (Some (m_first_lineno (b_meta b))))) as (k & l & h & N).
      change (S_Ident.located _ _) with (source b) in N. pose proof (nth_some_lt _ _ _ N) as L. rewrite <- RL in L.
      destruct (nth_error (instructions v T co) k) as [r|] eqn:NR; [|apply nth_error_None in NR; lia].
      destruct (RUN k _ _ _ _ r N NR) as (O & A & _). pose proof (W1 i I) as LI. destruct LI as (O' & _).
      exists r. split; [eapply nth_error_In; eauto|]. assert (RO : r_op r = i_op i) by congruence. split; [exact RO|]. rewrite <- RO.
      assert (NL : forall n, i_arg i <> OLabel n) by (intros n; apply (legal_not_label v T i n (W1 i I) NJ)).
      destruct (i_arg i) eqn:IA; try exact A. exfalso. eapply NL; reflexivity. }
    assert (VARS : forall i, In (BI i) (b_items b) -> ~ In (i_op i) (t_hasconst T) ->
       (forall n, i_arg i = OCell n -> In n (co_cellvars co)) /\ (forall n, i_arg i = OFree n -> In n (co_freevars co))).
    { intros i I NK. destruct (W1 i I) as (O & B & _ & DA).
      destruct (op_has_jump T (i_op i)) eqn:J.
      { pose proof (category_of v T wf _ _ O B) as CAT. destruct CAT as [C C1|C|C|C|C|C|C|C]; destruct C as (E1 & E2 & E3 & E4 & E5 & E6 & E7); try congruence.
        split; intros n Q; rewrite Q in DA; inversion DA; subst; try contradiction;
          try (match goal with H : In _ (t_hasfree T) |- _ => apply z_mem_In in H; congruence end);
          try (match goal with H : In _ (t_haslocal T) |- _ => apply z_mem_In in H; congruence end);
          match goal with H : as_int _ = Some _ |- _ => discriminate H end. }
      destruct (AT i I J) as (r & IR & RO & RD). split; intros n Q; rewrite Q in RD; inversion RD; subst; try contradiction;
        try (match goal with H : as_int _ = Some _ |- _ => discriminate H end);
        try (match goal with H : local_slot _ _ _ _ |- _ => destruct H as [_ [H|(? & H)]]; [exfalso; clear - P11 H; destruct v; vm_compute in P11, H; congruence|discriminate H] end);
        match goal with H : deref_slot _ _ _ _ |- _ => destruct H as [_ H]; rewrite P11 in H; now apply (old_vars _ _ H) end. }
    pose proof (old_pos v T wf P11 co cb AC F) as PP. pose proof (old_count v T wf P11 co cb AC F) as CNT. pose proof (ub_pos v T wf P11) as UP.
    constructor.
    - intros i I. split; [now apply W1|now apply W2].
    - exact W3.
    - exact W4.
    - exact W5.
    - intros k n t l h op N O J. pose proof (nth_some_lt _ _ _ N) as L. rewrite <- RL in L.
      destruct (nth_error (instructions v T co) k) as [r|] eqn:NR; [|apply nth_error_None in NR; lia].
      destruct (RUN k _ _ _ _ r N NR) as (O' & BG & _). assert (RO : r_op r = op) by congruence. clear O'.
      pose proof (nth_error_In _ _ NR) as IR. rewrite CNT in L.
      destruct (nth_error (instrs_of (cb_items cb)) k) as [c|] eqn:NC; [|apply nth_error_None in NC; lia].
      pose proof (old_ran v T wf P11 co cb AC F k c NC) as RK. rewrite NR in RK. injection RK as RK.
      assert (JB : op_has_jump T (r_op r) = true). { unfold op_has_jump. rewrite RO. apply orb_true_iff. left. now apply z_mem_In. }
      destruct (ub_jumps _ _ _ UN r IR JB) as (r' & IR' & ER').
      destruct (old_ran_inv v T wf P11 co AC cb F r' IR') as (p & c' & NP & _ & RQ').
      assert (PT : p = t).
      { unfold begins in BG. destruct (nth_error (instructions v T co) t) as [rt|] eqn:NT.
        - pose proof (nth_some_lt _ _ _ NT) as LT. rewrite CNT in LT. destruct (nth_error (instrs_of (cb_items cb)) t) as [ct|] eqn:NCT; [|apply nth_error_None in NCT; lia].
          pose proof (old_ran v T wf P11 co cb AC F t ct NCT) as RT. rewrite NT in RT. injection RT as RT.
          assert (QQ : offset_of v (instrs_of (cb_items cb)) p = offset_of v (instrs_of (cb_items cb)) t).
          { assert (X : r_start rt = r_start r') by congruence. rewrite RT, RQ' in X. cbn [r_start] in X. symmetry. apply (Z.mul_reg_l _ _ (ub v)); [lia|exact X]. }
          pose proof (nth_some_lt _ _ _ NP) as LP0. assert (p <= length (instrs_of (cb_items cb)))%nat as LP1 by (clear - LP0; lia). assert (t <= length (instrs_of (cb_items cb)))%nat as LP2 by (clear - LT; lia). pose proof (off_lt_iff v (instrs_of (cb_items cb)) p t PP ltac:(lia) ltac:(lia)). pose proof (off_lt_iff v (instrs_of (cb_items cb)) t p PP ltac:(lia) ltac:(lia)). lia.
        - exfalso. destruct (Nat.eqb_spec t (length (instructions v T co))) as [Q|Q]; [|discriminate BG].
          assert (X : r_start r' = zlen (co_code co)) by congruence. rewrite RQ' in X. cbn [r_start] in X.
          pose proof (nth_some_lt _ _ _ NP) as LP. pose proof (proj2 (off_lt_iff v (instrs_of (cb_items cb)) p (length (instrs_of (cb_items cb))) PP ltac:(lia) ltac:(lia)) LP) as Y.
          pose proof (old_off v T wf P11 co cb AC F (length (instrs_of (cb_items cb)))) as Z0. rewrite firstn_all in Z0.
          destruct (old_facts v T wf P11 co cb AC F) as (_ & _ & CO & _). rewrite CO in Z0. nia. }
      subst p. pose proof (nth_some_lt _ _ _ NP) as LP. rewrite RQ' in ER'. cbn [r_start] in ER'.
      assert (RE : r_end r = ub v * offset_of v (instrs_of (cb_items cb)) (S k)).
      { rewrite RK. cbn [r_end]. rewrite (old_off v T wf P11 co cb AC F k), (old_off v T wf P11 co cb AC F (S k)).
        destruct (old_facts v T wf P11 co cb AC F) as (_ & OK & _). rewrite Forall_forall in OK. rewrite (proj2 (OK c (nth_error_In _ _ NC))).
        rewrite (firstn_S_snoc _ _ _ NC), code_app, zlen_app. f_equal. change (code T [c]) with (assemble T c ++ []). now rewrite app_nil_r. }
      pose proof (off_lt_iff v (instrs_of (cb_items cb)) t (S k) PP ltac:(lia) ltac:(lia)) as M1.
      assert (ON : opname T (r_op r) = Some n) by (rewrite RO; now apply (opmap_opname v T wf)).
      assert (JR : z_mem (r_op r) (t_hasjrel T) = true) by (rewrite RO; now apply z_mem_In).
      destruct (str_contains "BACKWARD" n) eqn:BW.
      + pose proof (ub_backward _ _ _ UN r n IR ltac:(now rewrite RO) ON BW) as GB. rewrite <- ER', RE in GB.
        assert (TK : (t < S k)%nat) by (apply M1; clear - GB UP; nia). clear - TK; lia.
      + assert (GT : r_end r <= goes_to v T r).
        { unfold goes_to. rewrite JR, ON, BW. rewrite RK. cbn [r_arg r_end].
          pose proof (OR c (nth_error_In _ _ NC)) as ((_ & _ & A & _) & _). change (if PY310 v then 2 else 1) with (ub v).
          destruct (c_arg c) as [z|]; [|lia]. assert (0 <= z) by (clear - A; lia). nia. }
        rewrite <- ER', RE in GT. destruct (le_lt_dec t k) as [X|X]; [|exact X]. exfalso. assert (t < S k)%nat as Y by lia. apply M1 in Y. nia.
    - intros i n I NK Q. rewrite MC. now apply (VARS i I NK).
    - intros i n I NK Q. rewrite MF. now apply (VARS i I NK).
    - intros i I D. rewrite (no_dual v T wf P11 co AC UN) in D. discriminate D.
    - unfold zlen. rewrite <- (walk_count (position (b_items b)) (b_items b) None (line_loc (Some (m_first_lineno (b_meta b))))).
      change (S_Ident.located _ _) with (source b). rewrite <- RL. exact (ub_size _ _ _ UN).
    - rewrite MC, MF. pose proof (ub_names _ _ _ UN) as U. rewrite AN, zlen_app in U. pose proof (zlen_nonneg more). lia.
  Qed.

  Lemma old_no_try id t la d : ~ In (BTB id t la d) (b_items b).
  Proof.
    intros I. apply bind_ok in FB. destruct FB as (cb & F & TB).
    destruct (C49_markers v T cb true conserve b id t la d wf (from_code_ordinary v T wf co cb F) TB I) as (e & IE & _).
    destruct (old_facts v T wf P11 co cb AC F) as (_ & _ & _ & _ & _ & _ & _ & _ & EX & _). rewrite EX in IE. exact IE.
  Qed.
End OldBuild.
