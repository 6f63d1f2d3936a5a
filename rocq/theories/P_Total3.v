(** Proofs: every well-formed program assembles. *)
From Verif Require Import PyBase OpTable CPy M_Instr M_Tables M_Concrete M_Convert P_Base S_Args
  P_OpTable P_Asm P_Conv P_Conv2 S_Asm P_Jumps P_Jumps2 P_Layout P_Layout2 P_Try P_Converge P_AsmProps S_Slots P_Args
  S_Prog M_Bytecode M_Cfg S_Cfg S_Ident P_Cfg P_Cfg2 P_CfgSeq P_CfgFrom P_Ident P_Full T_Code S_Total P_Total P_Total2.
Open Scope string_scope.
Open Scope list_scope.
Open Scope Z_scope.

Lemma ninstrs_mono items q p : (q <= p)%nat -> (ninstrs (firstn q items) <= ninstrs (firstn p items))%nat.
Proof.
  intros L. replace p with (q + (p - q))%nat by lia. generalize (p - q)%nat as d. clear. revert q.
  induction items as [|x items IH]; intros q d; [rewrite !firstn_nil; lia|].
  destruct q as [|q]; [cbn; lia|]. cbn [firstn Nat.add].
  change (x :: firstn q items) with ([x] ++ firstn q items). change (x :: firstn (q + d) items) with ([x] ++ firstn (q + d) items).
  rewrite !ninstrs_app. specialize (IH q d). lia.
Qed.
Lemma ninstrs_lt items p q i : nth_error items p = Some (BI i) -> (p < q)%nat -> (ninstrs (firstn p items) < ninstrs (firstn q items))%nat.
Proof.
  intros N L. pose proof (ninstrs_mono items (S p) q L) as M. rewrite (firstn_S_nth _ _ _ N), ninstrs_app in M. cbn in M. lia.
Qed.

Section S.
  Variables (v : pyver) (T : optable) (keq : pyobj -> pyobj -> bool).
  Hypothesis wf : wf_optable v T = true.

  Lemma made_small c : made v T c -> c_size c <= 8.
  Proof.
    intros [V X]. rewrite (vc_size _ _ _ V), X. pose proof (vc_arg _ _ _ V) as A. destruct (c_arg c) as [a|].
    - apply asize_le8. apply A.
    - cbn. lia.
  Qed.

  Lemma laid_size items gs : laid_out v T items gs -> Forall (made v T) (concat gs) ->
    zlen (concat gs) <= 257 * zlen (filter an_instr items).
  Proof.
    induction 1 as [|it items g gs P L IH]; intros F; [cbn; lia|].
    cbn [concat] in F |- *. apply Forall_app in F. destruct F as [Fg F]. specialize (IH F). rewrite zlen_app. cbn [filter].
    destruct it as [i| | | |]; cbn [an_instr produced] in *; [|subst g; change (zlen (@nil cinstr)) with 0; lia..].
    rewrite zlen_cons. destruct P as (bf & c & E & B).
    assert (Mc : made v T c) by (rewrite Forall_forall in Fg; apply Fg; rewrite E; apply in_app_iff; right; now left).
    destruct Mc as [V _]. pose proof (cache_nonneg v T wf _ _ (vc_op _ _ _ V) (vc_base _ _ _ V)) as CN.
    assert (LB : zlen bf <= 1) by (destruct B as [(-> & _)|(c1 & -> & _)]; cbn; lia).
    rewrite E, zlen_app, zlen_cons.
    assert (LC : zlen (if explicit_cache (hd_error items) then [] else repeat (cache_at (c_loc c)) (Z.to_nat (cache_entries v T (c_name c) (c_op c)))) <= 255).
    { destruct (explicit_cache _); [cbn; lia|]. unfold zlen. rewrite repeat_length. lia. }
    lia.
  Qed.

  Theorem assemble_total passes b : assemblable v T b ->
    to_concrete v T keq passes b = Err RuntimeError \/ exists cb, to_concrete v T keq passes b = Ok cb.
  Proof.
    intros [[A1 A2 A3 A4 A5 A6 A7 A8 A10 A11] A9].
    set (items := b_items b) in *. set (m := b_meta b) in *. set (n := zlen (filter an_instr items)) in *.
    assert (Zn : 0 <= n) by apply zlen_nonneg.
    pose proof (proper_try _ _ A3) as PT.
    unfold to_concrete. fold m items.
    set (co := match m_docstring m with OUnset => [] | d => fst (add_const keq [] d) end).
    assert (Lco : zlen co <= 1).
    { subst co. destruct (m_docstring m); cbn; lia. }
    assert (PS : exists vn, prescan v T (b_argnames b) items = Ok vn /\ zlen vn <= zlen (b_argnames b) + 2 * n).
    { unfold prescan. destruct (PY313 v); [|eexists; split; [reflexivity|lia]].
      destruct (prescan_total v T items (b_argnames b) false [] None PT eq_refl A8) as (r & E & L). rewrite E. cbn [bind]. eauto. }
    destruct PS as (vn & PS & Lvn).
    set (K0 := mkK [] [] [] [] 0 false co [] vn (line_loc (Some (m_first_lineno m))) [] [] false).
    destruct (conv_fold_total v T keq m wf items None [] K0 PT) as (K1 & op' & F1 & R1 & V1).
    { constructor; cbn; auto; try lia. discriminate. }
    { intros it I. destruct it as [i|l|z|id t la d|id]; cbn [item_ok]; auto.
      - destruct (A1 i I) as [X1 X2]. split; [exact X1|]. split; [apply A2; exact I|]. split; [exact X2|]. split; [apply (proper_args _ _ A3 _ I)|].
        split; [intros; eapply A6; eauto|]. split; [intros; eapply A7; eauto|]. apply A8; exact I.
      - eapply A9; eauto. }
    { subst K0; cbn [k_consts k_names k_varnames]; cbv zeta; fold n. pose proof (zlen_nonneg (m_cellvars m)). pose proof (zlen_nonneg (m_freevars m)). change (zlen (@nil string)) with 0. clear - Lco Lvn A10 A11 H H0 Zn. lia. }
    destruct (flush_total v T wf op' K1 None R1 eq_refl) as (Kf & F2 & _ & _ & _ & _ & V2).
    destruct (run_trace v T keq m items K0 Kf) as (tr & Ks & gs & HF & HT).
    { unfold conv_run. rewrite F1. exact F2. }
    assert (HKs : Ks = mkK [] [] [] [] 0 false co [] vn (line_loc (Some (m_first_lineno m))) [] [] tr).
    { cbn [with_try K0] in HF. unfold flush_caches in HF. destruct (is_cache (hd_error items)).
      - discriminate HF.
      - cbn in HF. injection HF as <-. reflexivity. }
    assert (N1 : k_instrs Ks = []) by (subst Ks; reflexivity).
    assert (N2 : k_jumps Ks = []) by (subst Ks; reflexivity).
    assert (N3 : k_cells Ks = []) by (subst Ks; reflexivity).
    assert (N4 : k_frees Ks = []) by (subst Ks; reflexivity).
    assert (N5 : k_ex Ks = []) by (subst Ks; reflexivity).
    assert (N6 : k_req Ks = 0) by (subst Ks; reflexivity).
    clear HKs.
    destruct (fix_vars_total v T keq m wf items Ks gs Kf HT N1 N3 N4 A2) as (ins & FV).
    { rewrite V2. change (k_varnames K0) with vn in V1. fold n in V1. clear - V1 Lvn A10 A11 Zn. lia. }
    assert (CI : concrete_instructions v T keq m co (b_argnames b) items = Ok (Kf, ins)).
    { unfold concrete_instructions. rewrite PS. cbn [bind]. fold K0. rewrite F1. cbn [bind]. rewrite F2. cbn [bind]. rewrite FV. reflexivity. }
    rewrite CI. cbn [bind].
    destruct (before_jumps v T keq wf _ _ _ _ _ _ CI) as (NDJ & _ & INV & J2).
    pose proof (ins_gs _ _ _ _ _ _ _ _ HT N1) as HI.
    assert (HM : Forall (made v T) (k_instrs Kf)) by (eapply trace_made; eauto; rewrite N1; constructor).
    pose proof (disjoint v T keq wf _ _ _ _ _ HT N1 N2 N3 N4) as DJ.
    destruct (fix_vars_inv v T wf _ _ _ FV (cells_nodup v T keq wf _ _ _ _ _ HT N3)
      (frees_nodup v T keq wf _ _ _ _ _ HT N4)) as (W1 & W2 & W3 & _ & _).
    { intros k. apply (DJ k). }
    { exact HM. }
    { intros k I. apply (cells_In _ _ _ _ _ _ _ _ HT N1 N3) in I. destruct I as (p & i & Hp & EK & ->).
      destruct (var_slot v T keq m wf items Ks gs Kf HT A2 p i Hp) as (c & _ & _ & X & _); [congruence|].
      rewrite HI. eapply nth_some_lt; eauto. }
    rewrite HI in *.
    assert (LO : laid_out v T items gs).
    { eapply trace_laid; eauto. intros i I. apply (A1 i I). }
    assert (LAB : forall l, In (BLabel l) items -> exists q, label_position l items q /\ dget Nat.eqb (k_labels Kf) l = Some (start gs q)).
    { intros l I. destruct (last_label_dec l items) as [(q & Q)|N]; [|tauto]. exists q. split; [exact Q|].
      destruct (trace_labels _ _ _ _ _ _ _ _ HT l) as [X _]. rewrite (X q Q), N1. reflexivity. }
    assert (ST : steady v T (k_labels Kf) (k_jumps Kf) ins).
    { constructor.
      - exact INV.
      - apply Forall_forall. intros c Hc. apply In_nth_error in Hc. destruct Hc as (k & Hk).
        destruct (nth_same_length _ (concat gs) _ _ W1 Hk) as (c0 & Hc0).
        destruct (W3 _ _ Hc0) as (c' & B1 & _ & _ & _ & B2). rewrite Hk in B1. injection B1 as <-. now apply made_small.
      - pose proof (laid_size _ _ LO HM). fold n in H. unfold zlen in *. rewrite W1. lia.
      - intros k l Ik. pose proof (jump_slot v T keq wf _ _ _ _ _ _ _ HT N1 N2 Ik) as (c & B1 & B2 & B3 & _).
        assert (Ikk : In k (map fst (k_jumps Kf))) by (apply in_map_iff; exists (k, l); now split).
        pose proof Ik as Ik'. apply (jumps_In _ _ _ _ _ _ _ _ HT N1 N2) in Ik'. destruct Ik' as (p & i & Hp & Ea & ->).
        assert (Ii : In (BI i) items) by (eapply nth_error_In; eauto).
        destruct (LAB l) as (q & Q & DL).
        { apply (proper_labels _ _ A3 (BI i) l Ii). cbn. rewrite Ea. now left. }
        exists (start gs q), c. split; [exact DL|]. split; [rewrite W1; apply start_le|].
        split; [rewrite W2 by apply (proj1 (DJ _) Ikk); exact B1|].
        apply laid_nth in LO. destruct LO as [LG PR].
        destruct (nth_error gs p) as [g|] eqn:Eg; [|apply nth_error_None in Eg; apply nth_some_lt in Hp; lia].
        specialize (PR p _ _ Hp Eg). cbn [produced] in PR. destruct PR as (bf & d & G & D).
        assert (EX : explicit_cache (nth_error items (S p)) = false).
        { unfold explicit_cache. destruct (nth_error items (S p)) as [[j| | | |]|] eqn:En; try reflexivity.
          apply nth_error_In in En. apply String.eqb_neq. now apply A2. }
        rewrite EX in G. destruct D as [(-> & D1 & D2)|(c1 & _ & D1 & _)].
        2:{ destruct (A8 i Ii D1) as (x & y & X). congruence. }
        cbn [app] in G.
        assert (d = c).
        { pose proof (nth_concat gs p g 0 Eg) as X. rewrite G in X. rewrite Nat.add_0_r in X. specialize (X ltac:(cbn; lia)). cbn in X. congruence. }
        subst d. split.
        { eapply (not_cache_settable v T wf c); eauto; congruence. }
        assert (IJ : In (i_op i) (t_hasjrel T) -> if str_contains "BACKWARD" (i_name i) then (q < p)%nat else (p < q)%nat).
        { intros J.
          pose proof (source_nth items p i (line_loc (Some (m_first_lineno m))) Hp) as SN.
          rewrite Ea in SN. cbn [arg_of] in SN. rewrite (position_label items l q Q) in SN.
          specialize (A5 _ _ _ _ _ (i_op i) SN (proj1 (proj1 (A1 i Ii))) J).
          assert (NE : p <> q) by (intros ->; destruct Q as [Q _]; congruence).
          assert (LT : (p < q)%nat -> (ninstrs (firstn p items) < ninstrs (firstn q items))%nat).
          { intros L. apply ninstrs_lt with (i := i); assumption. }
          assert (LE : (q <= p)%nat -> (ninstrs (firstn q items) <= ninstrs (firstn p items))%nat) by (apply ninstrs_mono).
          destruct (str_contains "BACKWARD" (i_name i)); lia. }
        unfold aimed, is_forward_rel_jump, is_backward_rel_jump. rewrite D1, D2. split; intros X; apply andb_prop in X; destruct X as [X1 X2].
        + apply z_mem_In in X1. specialize (IJ X1). apply negb_true_iff in X2. rewrite X2 in IJ.
          pose proof (start_lt gs p q g Eg IJ) as SL. rewrite G in SL. cbn [length] in SL. rewrite repeat_length in SL.
          unfold use_cache_opcodes. lia.
        + apply z_mem_In in X1. specialize (IJ X1). rewrite X2 in IJ. apply start_mono. lia. }
    destruct (compute_total v T wf (k_labels Kf) (k_jumps Kf) NDJ (k_ex Kf) passes ins ST) as [E|([r en] & E)].
    2:{ rewrite E. left. reflexivity. }
    2:{ rewrite E. right. cbn [bind]. eauto. }
    (* the exception table *)
    intros a' La.
    destruct (blocks_proper items (conj (proj1 (paired_nodup items None [] PT)) A4)) as [ND PB].
    pose proof (trace_ex_keys _ _ _ _ _ _ _ _ HT) as KE. rewrite N5 in KE. cbn [map app] in KE. specialize (KE ND).
    assert (EN : forall x, In x (k_ex Kf) -> exists e, fix_entry v (instruction_offsets v 0 a') (label_offsets v 0 a') (k_labels Kf) (snd x) = Ok e).
    { intros [id x] Ix. cbn [snd].
      assert (Iid : In id (tb_ids items)) by (rewrite <- KE; apply in_map_iff; exists (id, x); now split).
      apply tb_ids_in in Iid. destruct Iid as (p & t & la & d & Hp).
      destruct (PB _ _ _ _ _ Hp) as (q & L & Hq & Uq & r & i & Hr & Hi).
      destruct (trace_ex2 _ _ _ _ _ _ _ _ id p q t la d HT Hp) as (dep & Hd & Hx); auto.
      { intros p' t' la' d' H. eapply unique_tb; eauto. }
      rewrite N1 in Hx. change (zlen (@nil cinstr)) with 0 in Hx.
      apply In_nth_error in Ix. destruct Ix as (k & Ix).
      assert (X : dget Nat.eqb (k_ex Kf) id = Some x) by (eapply dget_nth; [rewrite KE; exact ND|exact Ix]).
      rewrite Hx in X. injection X as <-.
      assert (It : In (BTB id t la d) items) by (eapply nth_error_In; eauto).
      destruct (proper_args _ _ A3 _ It) as (l & ->).
      destruct (LAB l) as (ql & Q & DL).
      { apply (proper_labels _ _ A3 _ l It). cbn. now left. }
      assert (SL : (start gs p < start gs q)%nat).
      { destruct (trace_nth _ _ _ _ _ _ _ _ HT _ _ Hi) as (? & bo & ? & ? & ? & ca & _ & G & _).
        pose proof (trace_nonempty _ _ _ _ _ _ _ _ _ _ _ HT Hi G) as X.
        pose proof (start_lt gs r q _ G ltac:(lia)) as Y. pose proof (start_mono gs p r ltac:(lia)).
        destruct (bo ++ ca); [congruence|]. cbn in Y. lia. }
      pose proof (start_le gs q) as LE. pose proof (start_le gs ql) as LE2.
      assert (LA : length a' = length (concat gs)) by (rewrite La; exact W1).
      assert (NI : forall k, (k < length a')%nat -> exists o, nth_error (instruction_offsets v 0 a') k = Some o).
      { intros k0 Hk. destruct (nth_error (instruction_offsets v 0 a') k0) as [o|] eqn:Ec; [eauto|].
        apply nth_error_None in Ec. rewrite instruction_offsets_length in Ec. lia. }
      unfold fix_entry. cbn [xi_start xi_stop xi_target xi_depth xi_lasti].
      destruct (NI (start gs p) ltac:(lia)) as (o1 & O1). destruct (NI (start gs q - 1)%nat ltac:(lia)) as (o2 & O2).
      rewrite ?Z.add_0_l, (py_index_nat _ _ _ O1). cbn [bind].
      replace (Z.of_nat (start gs q) - 1) with (Z.of_nat (start gs q - 1)) by lia. rewrite (py_index_nat _ _ _ O2). cbn [bind].
      rewrite DL. cbn [of_option bind]. rewrite label_offsets_nth by lia. cbn [of_option bind]. eauto. }
    clear - EN. induction (k_ex Kf) as [|x l IH]; cbn [mapM]; [eauto|].
    destruct (EN x (or_introl eq_refl)) as (e & ->). cbn [bind].
    destruct IH as (en & ->); [intros y I; apply EN; now right|]. cbn [bind]. eauto.
  Qed.
End S.
