(** from_code() of every code object of a compiler returns, and what it returns can be assembled
    (before 3.11). *)
From Verif Require Import PyBase OpTable CPy P_Base P_OpTable M_Instr M_Tables M_Concrete M_Convert M_Cfg M_Bytecode S_Args S_Lines S_Prog S_Slots S_Asm S_Dis S_Cfg S_Ident S_Round S_Code S_Old
  P_Asm P_Except P_Instr P_Round P_Round2 P_Conv2 P_Cat P_Args P_Decode P_CfgSeq P_Cfg P_Dis P_Dis2 P_Dis3 P_Dis4 P_Dis5 P_Dis6 P_Jumps P_Jumps2 P_Ident P_Code P_Code2 P_From P_From2 P_Old P_Old2
  T_Instr T_Round T_Code T_Dis M_Full T_Full T_From S_Total S_From P_Total6 P_Total7.
Open Scope string_scope.
Open Scope list_scope.
Open Scope Z_scope.

Section Below.
  Variable len : Z.
  Lemma starts_below tab : forall addr line last q z, addr < len -> In (q, z) (findlinestarts len addr line last tab) -> q < len.
  Proof.
    assert (E : forall (c : bool) (addr line q z : Z), addr < len -> In (q, z) (if c then [(addr, line)] else []) -> q < len).
    { intros c addr line q z L I. destruct c; [|destruct I]. destruct I as [I|[]]. injection I as <- _. exact L. }
    induction tab as [|x|da dl r IH] using pairs_ind; intros addr line last q z L I; cbn [findlinestarts] in I; [eapply E; eauto..|].
    destruct (da =? 0); [eapply IH; eauto|]. apply in_app_or in I. destruct I as [I|I]; [eapply E; eauto|].
    destruct (Z.leb_spec len (addr + da)); [destruct I|]. eapply IH; eauto.
  Qed.
  Lemma lines_below tab : forall addr line q z, addr < len -> In (q, z) (co_lines len addr line tab) -> q < len.
  Proof.
    induction tab as [|x|da dl r IH] using pairs_ind; intros addr line q z L I; cbn [co_lines] in I; [destruct I..|].
    destruct (da =? 0); [eapply IH; eauto|]. destruct I as [I|I]; [injection I as <- _; exact L|].
    destruct (Z.leb_spec len (addr + da)); [destruct I|]. eapply IH; eauto.
  Qed.
End Below.

Lemma asc_ge {A} (l : list (Z * A)) : forall lo q z, asc lo l -> In (q, z) l -> lo <= q.
Proof. induction l as [|[q z] r IH]; intros lo q0 z0 H I; [destruct I|]. cbn in H. destruct H as [H1 H2]. destruct I as [I|I]; [injection I as <- _; exact H1|]. pose proof (IH _ _ _ H2 I). lia. Qed.
Lemma asc_here {A} (l : list (Z * A)) : forall lo d q z, asc lo l -> In (q, z) l -> last_start l q d = z.
Proof.
  induction l as [|[q z] r IH]; intros lo d q0 z0 H I; [destruct I|]. cbn in H. destruct H as [H1 H2].
  change (last_start r q0 (if q <=? q0 then z else d) = z0). destruct I as [I|I].
  - injection I as <- <-. rewrite Z.leb_refl. apply (asc_above r q (q + 1)); [lia|exact H2].
  - exact (IH _ _ _ _ H2 I).
Qed.

Section OldTotal.
  Variables (v : pyver) (T : optable).
  Hypothesis wf : wf_optable v T = true.
  Hypothesis P11 : PY311 v = false.
  Variable co : codeobj.
  Hypothesis AC : as_compiled_before v T co.
  Hypothesis UN : understood_before v T co.

  Lemma no_dual op : is_dual v T op = false.
  Proof. unfold is_dual. destruct v; vm_compute in P11; try discriminate P11; reflexivity. Qed.
  Lemma old_apart cb : frees_apart v cb.
  Proof. intros P13. exfalso. clear - P11 P13. destruct v; vm_compute in P11, P13; congruence. Qed.

  Lemma old_read_total : exists cb, from_code v T co false = Ok cb.
  Proof.
    apply C03_code_accepted_partial; auto.
    - exact (ab_code _ _ _ AC).
    - exact (ub_known _ _ _ UN).
    - intros _. exact (ub_args _ _ _ UN).
    - congruence.
    - intros _. split; [exact (ub_first _ _ _ UN)|]. intros q z I.
      assert (LEN : 0 < zlen (co_code co)). { pose proof (ub_code _ _ _ UN) as X. destruct (co_code co); [congruence|]. rewrite zlen_cons. pose proof (zlen_nonneg l). lia. }
      destruct (starts_of v co (ab_table _ _ _ AC)) as (starts & ES & SA & SL). rewrite ES in I. apply in_rev in I.
      assert (Q : 0 <= q < zlen (co_code co)).
      { split; [exact (asc_ge _ _ _ _ SA I)|]. apply in_rev in I. rewrite <- ES in I. unfold line_starts in I. destruct (PY310 v); apply in_rev in I; [eapply lines_below; eauto|].
        apply in_map_iff in I. destruct I as ([q' z'] & E & I). cbn in E. injection E as -> _. eapply starts_below; eauto. }
      apply (ub_lines _ _ _ UN q z Q). destruct (line_at v co q) as [w|] eqn:Y; [|exfalso; exact (ab_lines _ _ _ AC q Q Y)].
      f_equal. rewrite <- (SL q w Q Y). exact (asc_here starts 0 _ q _ SA I).
  Qed.

  Variable cb : cbytecode.
  Hypothesis F : from_code v T co false = Ok cb.
  Notation cs := (instrs_of (cb_items cb)).

  Lemma old_goes p c : nth_error cs p = Some c -> forall r, nth_error (instructions v T co) p = Some r ->
    goes_to v T r = ub v * jumps_to v T c (offset_of v cs p).
  Proof.
    intros N r R. rewrite (old_ran v T wf P11 co cb AC F p c N) in R. injection R as <-.
    pose proof (from_code_ordinary v T wf co cb F c (nth_error_In _ _ N)) as ((O & _) & _).
    unfold goes_to, jumps_to. cbn [r_op r_arg r_end]. rewrite (proj1 (opmap_opname v T wf _ _) O), (no_caches_before v T wf _ _ P11), Z.add_0_r.
    change (if PY310 v then 2 else 1) with (ub v). destruct (z_mem (c_op c) (t_hasjrel T)); [|reflexivity].
    pose proof (old_pos v T wf P11 co cb AC F) as PP. rewrite Forall_forall in PP. destruct (PP c (nth_error_In _ _ N)) as [Q1 Q2].
    pose proof (ub_units v (c_size c) Q2) as US. destruct (str_contains "BACKWARD" (c_name c)); rewrite ?Z.mul_sub_distr_l, ?Z.mul_add_distr_l, US; reflexivity.
  Qed.
  Lemma ub_pos : 0 < ub v.
  Proof. unfold ub. destruct (PY310 v); lia. Qed.
  Lemma old_ran_inv r : In r (instructions v T co) -> exists p c, nth_error cs p = Some c /\ nth_error (instructions v T co) p = Some r
    /\ r = mkRan (ub v * offset_of v cs p) (ub v * offset_of v cs p + c_size c - 2) (ub v * offset_of v cs p + c_size c) (c_op c) (c_arg c).
  Proof.
    intros I. apply In_nth_error in I. destruct I as (p & N). pose proof (nth_some_lt _ _ _ N) as L. rewrite (old_count v T wf P11 co cb AC F) in L.
    destruct (nth_error cs p) as [c|] eqn:NC; [|apply nth_error_None in NC; lia]. exists p, c. split; [exact NC|]. split; [exact N|].
    rewrite (old_ran v T wf P11 co cb AC F p c NC) in N. congruence.
  Qed.

  Lemma old_show_total conserve : exists b, to_bytecode v T cb true conserve = Ok b.
  Proof.
    pose proof (from_code_ordinary v T wf co cb F) as OR.
    destruct (old_facts v T wf P11 co cb AC F) as (OI & OK & CO & FC & FN & FV & FCE & FFR & EX & LO).
    apply (C22_accepted v T cb true conserve wf OR).
    - intros pre c post E K.
      assert (N : nth_error cs (length (instrs_of pre)) = Some c).
      { rewrite E. unfold instrs_of. rewrite flat_map_app, nth_error_app2, Nat.sub_diag by lia. reflexivity. }
      pose proof (nth_error_In _ _ (old_ran v T wf P11 co cb AC F _ c N)) as IR.
      pose proof (OR c (nth_error_In _ _ N)) as OC. pose proof (not_cache v T wf P11 c OC) as NC. pose proof OC as ((O & B & A & _) & _). pose proof (category_of v T wf _ _ O B) as CAT.
      destruct (LO _ c N) as (z & EL & _). split; [|congruence]. intros OJ.
      assert (DC : deref_is_cell v T cb (c_op c) (c_arg c)) by (intros Q; congruence).
      destruct (ub_reads _ _ _ UN _ IR OJ) as (x & R & M). cbn [r_op r_arg] in R.
      assert (RX : reads v T cb (c_op c) (c_arg c) x) by (revert R; apply reads_tables; unfold tables; cbn; auto).
      assert (AR : match c_arg c with Some a => 0 <= a <= 2147483647 /\ opcode_has_argument v T (c_op c) = true | None => opcode_has_argument v T (c_op c) = false end).
      { destruct (c_arg c); [|exact A]. destruct A as [A [A'|A']]; [auto|]. exfalso. apply NC. rewrite A' in O. exact (wf_op0 v T wf _ O). }
      assert (KC : forall x, In x (cb_consts cb) -> constant_object x) by (rewrite FC; exact (ab_consts _ _ _ AC)).
      destruct (reads_shown v T cb (c_op c) (c_arg c) x CAT RX M (old_apart cb)) as (y & DY & SY). exists y. split; [exact DY|].
      assert (RY : reads v T cb (c_op c) (c_arg c) y).
      { destruct (shown_reads v T cb (c_op c) (c_arg c) y CAT OJ) as [[Q _]|[_ Q]]; auto; [destruct (c_arg c); [lia|exact AR]|apply old_apart]. }
      apply (reads_doc v T cb (c_op c) (c_arg c) y CAT OJ RY KC); [destruct (c_arg c); auto|]. rewrite no_dual. discriminate.
    - rewrite EX. constructor.
    - intros k c N J. pose proof (old_ran v T wf P11 co cb AC F k c N) as RK.
      destruct (ub_jumps _ _ _ UN _ (nth_error_In _ _ RK) J) as (r' & I' & E'). rewrite (old_goes k c N _ RK) in E'.
      destruct (old_ran_inv r' I') as (q & c' & N' & _ & ->). cbn [r_start] in E'.
      exists q. split; [exact (nth_some_lt _ _ _ N')|]. pose proof ub_pos. nia.
    - rewrite EX. intros e [].
  Qed.
End OldTotal.
