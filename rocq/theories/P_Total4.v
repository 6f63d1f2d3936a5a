(** Proofs: the assembled program is recorded in a code object. *)
From Verif Require Import PyBase OpTable CPy M_Instr M_Tables M_Concrete M_Convert P_Base S_Args
  P_OpTable P_Asm P_Conv P_Conv2 S_Asm P_Jumps P_Jumps2 P_Layout P_Layout2 P_Try P_Converge P_AsmProps S_Slots P_Args
  S_Prog M_Bytecode M_Cfg S_Cfg S_Ident P_Cfg P_Cfg2 P_CfgSeq P_CfgFrom P_Ident P_Ident2 P_Ident3 P_Full S_Lines P_Except P_Code P_Code2 T_Code T_Lines P_LinesCode S_Total P_Total P_Total2 P_Total3.
Open Scope string_scope.
Open Scope list_scope.
Open Scope Z_scope.

Section S.
  Variables (v : pyver) (T : optable) (keq : pyobj -> pyobj -> bool).
  Hypothesis wf : wf_optable v T = true.

  Lemma flat_bracketed items : forall st, bracketed st items ->
    S_Asm.flat_try (match st with Some _ => true | None => false end) items.
  Proof.
    induction items as [|it items IH]; intros st B; [exact Logic.I|].
    destruct it; cbn [bracketed S_Asm.flat_try] in *.
    - specialize (IH _ B). destruct st; exact IH.
    - exact (IH _ B).
    - exact (IH _ B).
    - destruct B as [-> B]. split; [reflexivity|]. exact (IH _ B).
    - destruct B as [-> B]. exact (IH _ B).
  Qed.

  Theorem assemble_ok passes b : assemblable v T b -> 3 * zlen (filter takes_label (b_items b)) < Z.of_nat passes ->
    exists cb, to_concrete v T keq passes b = Ok cb.
  Proof.
    intros A L. pose proof (am_build _ _ _ A) as AB. destruct (assemble_total v T keq wf passes b A) as [E|E]; [|exact E].
    destruct (enough_passes v T keq wf passes b L) as [X _]. exfalso. apply X; [apply AB| |exact E].
    apply (flat_bracketed _ None). apply AB.
  Qed.

  Theorem record_total passes b cb st : assemblable v T b -> recordable v b -> to_concrete v T keq passes b = Ok cb ->
    exists co, to_code_raw v T cb st = Ok co.
  Proof.
    intros [AM _] [RL RD] H. destruct (to_concrete_assembled v T keq wf passes b cb H) as (vn & K0 & gs0 & Kf & gs & en & A).
    pose proof (proj1 (cb_is v T keq _ _ _ _ _ _ _ _ A)) as CB.
    assert (SZ : Forall (sized T) (cb_items cb)) by (rewrite CB; exact (all_sized v T keq wf _ _ _ _ _ _ _ _ A)).
    destruct (PY311 v) eqn:P11.
    2:{ destruct (PY310 v) eqn:P10.
        - assert (v = V310) by (destruct v; try reflexivity; discriminate). subst v. now apply linetable_code_total.
        - destruct (C11_lnotab_lines v T cb st P10 SZ) as (co & E & _). eauto. }
    assert (HL : forall i, In (BI i) (b_items b) -> legal_instr v T i) by (intros i I; apply (am_legal _ _ _ AM i I)).
    assert (LOC : forall c, In c (concat gs) -> exists l, c_loc c = Some l /\ coherent_loc v l /\ ~ spans_without_columns l).
    { intros c I. apply In_nth_error in I. destruct I as [k I]. destruct (concat_inv gs k c I) as (p & g & j & G & J & _).
      assert (LO : laid_out v T (b_items b) gs) by (eapply (proj2 (assembled_laid v T keq wf _ _ _ _ _ _ _ _ A (fun i Ii => proj1 (HL i Ii))))).
      apply laid_nth in LO. destruct LO as [LG PR].
      destruct (nth_error (b_items b) p) as [it|] eqn:Hp; [|apply nth_error_None in Hp; apply nth_some_lt in G; lia].
      specialize (PR p _ _ Hp G). destruct it; cbn in PR; try (subst g; now destruct j).
      eexists. split; [eapply (loc_fold v T keq wf); eauto; exists g; split; [exact G|eapply nth_error_In; eauto]|].
      eapply (RL P11). eapply nth_error_In. unfold source. eapply source_nth. exact Hp. }
    destruct (C13_location_table v T cb st P11 SZ) as (co & E & _).
    - rewrite CB. apply Forall_map, Forall_forall. intros c I. destruct (LOC c I) as (l & L1 & L2 & _). exists l. auto.
    - intros pre c post l E L. assert (I : In (CI c) (cb_items cb)) by (rewrite E; apply in_or_app; right; now left).
      rewrite CB in I. apply in_map_iff in I. destruct I as (c' & X & I). injection X as ->.
      destruct (LOC c I) as (l' & L1 & _ & L2). congruence.
    - destruct (blocks_proper (b_items b) (conj (proj1 (paired_nodup _ None [] (S_Cfg.proper_try _ _ (am_proper _ _ _ AM)))) (am_blocks _ _ _ AM))) as [ND PB].
      destruct (try_entries v T keq wf _ _ _ _ _ _ _ _ A (conj ND PB)) as [LE TE].
      assert (EX : cb_ex cb = en) by (apply (cb_is v T keq _ _ _ _ _ _ _ _ A)).
      rewrite EX. apply Forall_forall. intros e I. apply In_nth_error in I. destruct I as (n & In_).
      destruct (nth_error (tb_ids (b_items b)) n) as [id|] eqn:Hn; [|apply nth_error_None in Hn; apply nth_some_lt in In_; lia].
      pose proof (nth_error_In _ _ Hn) as Iid. apply tb_ids_in in Iid. destruct Iid as (p & t & la & d & Hp).
      destruct (PB _ _ _ _ _ Hp) as (q & Lpq & Hq & _).
      destruct (TE _ _ _ _ _ _ _ Hn Hp Hq) as (e' & l & ql & E1 & _ & _ & E2 & E3 & _ & E4 & E5 & E6 & E7).
      rewrite In_ in E1. injection E1 as <-.
      pose proof (POS v T keq wf _ _ _ _ _ _ _ _ A) as PG.
      pose proof (start_le gs q) as SL. change (instrs_before gs) with (start gs) in *.
      assert (EXE : forall k, (k < length (concat gs))%nat -> 0 <= executed_at v (concat gs) k).
      { intros k Hk. destruct (nth_error (concat gs) k) as [c|] eqn:Ec; [|apply nth_error_None in Ec; lia].
        unfold executed_at. rewrite Ec. pose proof (off_nonneg v _ k PG).
        rewrite Forall_forall in PG. destruct (PG c (nth_error_In _ _ Ec)) as [P1 P2].
        unfold in_units. destruct v; zdm. }
      unfold entry_ok. split; [rewrite E5; apply EXE; lia|]. split.
      + destruct (E7 (start gs p) ltac:(lia)) as [_ X]. rewrite <- E5 in X. specialize (X ltac:(lia)). lia.
      + split; [rewrite E2; apply off_nonneg; exact PG|]. eapply (RD eq_refl id t la). eapply nth_error_In. rewrite <- E3. exact Hp.
    - eauto.
  Qed.
End S.
