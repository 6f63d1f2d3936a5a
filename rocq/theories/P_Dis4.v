(** The program shown by the disassembler, main lemma (C22). *)
From Verif Require Import PyBase OpTable P_Base P_OpTable M_Instr M_Tables M_Concrete S_Args S_Lines S_Asm S_Prog S_Dis
  M_Bytecode M_Cfg S_Cfg P_Cfg P_CfgSeq P_CfgTo2 P_Instr P_Instr2 P_Jumps P_Jumps2 P_AsmProps P_Dis P_Dis2 P_Dis3.
Open Scope string_scope.
Open Scope list_scope.
Open Scope Z_scope.

Section Main.
  Variables (v : pyver) (T : optable).
  Hypothesis wf : wf_optable v T = true.

  Lemma dis_created cb prune conserve targets L : Forall pos (map snd L) -> tidy v (map snd L) (cb_ex cb) ->
    forall created o l ps cr, dis v T cb prune conserve targets created o l ps cr ->
    forall a, L = a ++ l -> o = offset_of v (map snd L) (length a) -> inv cb created o -> inv cb cr (offset_of v (map snd L) (length L)).
  Proof.
    intros P TD. induction 1 as [created o|created o ln c l tb cr1 body ends cr2 ps cr3 TB BO EE D IH]; intros a EL EO IV.
    - rewrite app_nil_r in EL. subst a. now rewrite <- EO.
    - assert (NC : nth_error (map snd L) (length a) = Some c).
      { rewrite EL, map_app, nth_error_app2; rewrite map_length; [|lia]. now rewrite Nat.sub_diag. }
      assert (KL : (length a < length (map snd L))%nat) by (apply nth_error_Some; congruence).
      assert (PC : pos c) by (rewrite Forall_forall in P; apply P; eapply nth_error_In; eauto).
      assert (CUR : o + in_units v (c_size c - 2) = executed_at v (map snd L) (length a)) by (unfold executed_at; rewrite NC, EO; reflexivity).
      assert (ON : o + in_units v (c_size c - 2) + in_units v 2 = offset_of v (map snd L) (S (length a))).
      { rewrite (offset_of_S v (map snd L) _ c NC), EO. pose proof (cut_unit v c PC). clear - H. lia. }
      rewrite CUR in EE. rewrite EO in IV, TB.
      destruct (step_tb v T cb conserve L wf P (fun _ => PTo None) created (length a) tb cr1 TD KL IV TB) as [_ S2].
      destruct (step_ends v T cb conserve L wf P (fun _ => PTo None) cr1 (length a) ends cr2 TD KL S2 EE) as [_ ->].
      apply (IH (a ++ [(ln, c)])).
      + rewrite EL, <- app_assoc. reflexivity.
      + rewrite ON, app_length. cbn [length]. now rewrite Nat.add_1_r.
      + now rewrite ON.
  Qed.

  Theorem to_bytecode_shown cb prune conserve b : plain_code v T (cb_items cb) -> to_bytecode v T cb prune conserve = Ok b ->
    shown v T cb prune (b_items b).
  Proof.
    intros PC H. destruct (to_bytecode_dis v T wf cb prune conserve b PC H) as (targets & ps & cr & DS).
    destruct DS as [DI DT DD D DJ DH DM DA]. set (L := normalize_lineno (m_first_lineno (cb_meta cb)) (cb_items cb)) in *.
    assert (SN : map snd L = instrs_of (cb_items cb)) by (apply normalize_snd).
    assert (P : Forall pos (map snd L)) by (rewrite SN; apply (plain_pos v T _ PC)).
    unfold shown. rewrite <- SN in *. set (cs := map snd L) in *.
    assert (LL : length L = length cs) by (unfold cs; now rewrite map_length).
    set (f := arg_of (position (b_items b))).
    destruct (dis_walk v T cb prune conserve targets L wf P f _ _ _ _ _ D [] None eq_refl) as (prs & W & LP & N).
    { symmetry. apply offset_of_0. }
    assert (PR : program (b_items b) = concat prs).
    { unfold program. rewrite <- wg_walk. fold f. rewrite DI. exact W. }
    (* offsets of jump targets *)
    assert (INDEX : forall t, In t (offsets_from v 0 cs) -> exists k', (k' < length cs)%nat /\ offset_of v cs k' = t).
    { intros t I. rewrite (offsets_from_nth v T wf cs P) in I. apply in_map_iff in I. destruct I as (k' & E & I). apply in_seq in I. exists k'. split; lia. }
    assert (POS : forall k' t, (k' < length cs)%nat -> offset_of v cs k' = t -> In t targets -> f (label_at t) = PTo (Some (kept_before prune cs k'))).
    { intros k' t K E I. unfold f, label_at. cbn [arg_of]. f_equal. rewrite DI, <- E.
      apply (label_positions v T wf cb prune conserve targets L ps cr k' D P); [lia|]. apply z_mem_In. fold cs. now rewrite E. }
    assert (INST : forall pre c post, cb_items cb = pre ++ CI c :: post -> let k := length (instrs_of pre) in
      nth_error L k = Some (current_line (m_first_lineno (cb_meta cb)) (pre ++ [CI c]), c)).
    { intros pre c post E. exact (normalize_line _ _ pre c post E). }
    assert (LEN : forall k c pr, nth_error cs k = Some c -> nth_error prs k = Some pr -> length pr = if kept prune c then 1%nat else 0%nat).
    { intros k c pr NC NP. unfold cs in NC. rewrite nth_error_map in NC. destruct (nth_error L k) as [[ln d]|] eqn:NL; [|discriminate]. injection NC as ->.
      destruct (N k ln c NL) as (body & hj & E & BO & _). assert (pr = wg f hj body) by congruence. subst pr. unfold body_of in BO. unfold kept.
      destruct (prune && String.eqb (c_name c) "CACHE"); [now destruct BO as [-> _]|]. destruct BO as (i & x & -> & _). reflexivity. }
    destruct (concat_units prs prune cs) as [C1 C2]; [rewrite LP; exact LL|exact LEN|].
    split; [rewrite PR; exact C1|].
    intros pre c post E KP. specialize (INST pre c post E). cbv zeta in INST |- *. set (k := length (instrs_of pre)) in *.
    destruct (N k _ c INST) as (body & hj & NP & BO & HJ). cbn [length Nat.add] in BO, HJ.
    assert (NC : nth_error cs k = Some c) by (unfold cs; rewrite nth_error_map, INST; reflexivity).
    assert (KL : (k < length cs)%nat) by (apply nth_error_Some; congruence).
    unfold body_of in BO. unfold kept in KP. destruct (prune && String.eqb (c_name c) "CACHE"); [discriminate KP|].
    fold cs in HJ. destruct BO as (i & x & -> & LG & NI & DE & AI & LI). fold cs in AI. cbn [wg] in NP.
    exists (f (i_arg i)), hj. split; [|split; [|split]].
    - rewrite PR, <- C2, (nth_split_concat prs k _ NP). rewrite nth_error_app2, Nat.sub_diag by lia. cbn [app nth_error]. now rewrite NI, LI.
    - intros J. pose proof (PC c) as PCc. rewrite <- SN in PCc. destruct (PCc (nth_error_In _ _ NC)) as (OM & _ & _ & AR).
      destruct (c_arg c) as [a|] eqn:AC; [|now destruct (AR J)].
      assert (LT : c_op c < t_min_instrumented T).
      { destruct LG as (OM' & LT & _). rewrite NI, OM in OM'. injection OM' as E'. now rewrite E'. }
      assert (GJ := jump_target_is v T wf c (offset_of v cs k) a OM LT AC J). rewrite GJ in AI.
      assert (IN : In (jumps_to v T c (offset_of v cs k)) (jump_targets_of v T 0 cs)).
      { apply (jump_targets_in v T cs 0 k c _ NC). exact GJ. }
      destruct (INDEX _ (DJ _ IN)) as (k' & K' & E'). exists k'. split; [exact K'|]. split; [exact E'|]. rewrite AI.
      apply (POS k'); auto. rewrite DT. apply in_or_app. now left.
    - intros J. rewrite (no_jump_target v T c _ J) in AI. exists x. split; [exact DE|]. unfold f. rewrite AI.
      assert (X : forall l, x <> OLabel l).
      { intros l. rewrite <- AI. apply (legal_not_label v T); [exact LG|]. destruct LG as (OM' & _).
        pose proof (PC c) as PCc. rewrite <- SN in PCc. destruct (PCc (nth_error_In _ _ NC)) as (OM & _). rewrite NI, OM in OM'. injection OM' as <-. exact J. }
      destruct x; try reflexivity. now destruct (X n).
    - intros TD. assert (IV0 : inv cb [] 0).
      { intros n e NE. split; [intros []|]. intros S0. destruct TD as [TD _]. destruct (TD e (nth_error_In _ _ NE)) as (s & t & B & ES & _).
        rewrite ES in S0. pose proof (off_nonneg v cs s P). lia. }
      assert (IVN := dis_created cb prune conserve targets L P TD _ _ _ _ _ D [] eq_refl (eq_sym (offset_of_0 v _)) IV0).
      assert (OPEN0 : open_at cb 0 = None).
      { unfold open_at. apply find_all_false. intros e I. apply not_true_iff_false. rewrite andb_true_iff, Z.ltb_lt. intros [S0 _].
        apply In_nth_error in I. destruct I as (n & NE). now apply (IV0 n e NE) in S0. }
      replace (covering v cs (cb_ex cb) k) with (in_at cb (offset_of v cs k)) by (symmetry; exact (covering_in v T cb L wf P k TD KL)). rewrite HJ; [|exact TD|exact IV0|now rewrite OPEN0].
      destruct (in_at cb (offset_of v cs k)) as [e|] eqn:IA; [|reflexivity]. cbn [hl option_map].
      unfold in_at in IA. apply find_some in IA. destruct IA as [IA _]. pose proof IA as IE. apply In_nth_error in IE. destruct IE as (n & NE).
      assert (INC : In n cr).
      { apply (IVN n e NE). destruct TD as [TD _]. destruct (TD e IA) as (s & t & B & ES & _). rewrite ES. rewrite LL. apply (off_lt_iff v cs); [exact P|lia..]. }
      destruct (INDEX _ (DH n e INC NE)) as (k' & K' & E'). exists k'. split; [exact K'|]. split; [exact E'|].
      rewrite (POS k' _ K' E'); [reflexivity|]. rewrite DT. apply in_or_app. right. apply in_map_iff. eauto.
  Qed.
End Main.
