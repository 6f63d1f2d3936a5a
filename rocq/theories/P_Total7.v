(** What from_code() returns can be assembled. *)
From Verif Require Import PyBase OpTable CPy P_Base P_OpTable M_Instr M_Tables M_Concrete M_Convert M_Cfg M_Bytecode S_Args S_Lines S_Prog S_Slots S_Asm S_Dis S_Cfg S_Ident S_Round S_Code
  P_Asm P_Except P_Instr P_Round P_Round2 P_Conv2 P_Cat P_Args P_Decode P_CfgSeq P_Cfg P_Dis P_Dis2 P_Dis3 P_Dis4 P_Dis5 P_Dis6 P_Jumps P_Jumps2 P_Ident P_Code P_Code2 P_From P_From2
  T_Instr T_Round T_Code T_Dis M_Full T_Full T_From S_Total S_From P_Total6.
Open Scope string_scope.
Open Scope list_scope.
Open Scope Z_scope.

(** the program shows every instruction *)
Lemma walk_has f items i : In (BI i) items -> forall h cur, exists k l h', nth_error (S_Ident.located cur (walk f h items)) k = Some (i_name i, arg_of f (i_arg i), l, h').
Proof.
  induction items as [|it items IH]; intros I h cur; [destruct I|]. destruct I as [->|I].
  - cbn [walk S_Ident.located]. exists O. eexists _, _. reflexivity.
  - destruct it; cbn [walk S_Ident.located]; try exact (IH I _ _).
    destruct (IH I h (match i_loc i0 with Some x => x | None => cur end)) as (k & l & h' & E). exists (S k), l, h'. exact E.
Qed.
Lemma walk_count f items : forall h cur, length (S_Ident.located cur (walk f h items)) = length (filter an_instr items).
Proof.
  induction items as [|it items IH]; intros h cur; [reflexivity|]. destruct it; cbn [walk S_Ident.located filter an_instr]; try apply IH. cbn [length]. now rewrite IH.
Qed.

Lemma pair_shown v T cb op x y z : same_arg v T cb op (OTuple [OStr x; OStr y]) z -> exists n m, z = OTuple [OStr n; OStr m].
Proof.
  intros SY. inversion SY; subst.
  - eauto.
  - match goal with H : as_int _ = Some _ |- _ => discriminate H end.
  - match goal with H : same_arg _ _ _ _ (OStr x) _ |- _ => inversion H; subst end; try (match goal with H : as_int _ = Some _ |- _ => discriminate H end).
    match goal with H : same_arg _ _ _ _ (OStr y) _ |- _ => inversion H; subst end; try (match goal with H : as_int _ = Some _ |- _ => discriminate H end). eauto.
Qed.

(** the location of every instruction is a position of the code object *)
Lemma from_locs v T : wf_optable v T = true -> forall co cb, PY311 v = true -> normal v T 0 false (co_code co) ->
  (2 * length (co_positions (co_firstlineno co) (co_linetable co)) = length (co_code co))%nat -> from_code v T co false = Ok cb ->
  forall c lo, In c (instrs_of (cb_items cb)) -> c_loc c = Some lo ->
  exists p, In p (co_positions (co_firstlineno co) (co_linetable co)) /\ loc_of_pos p = Some lo.
Proof.
  intros wf co cb P N LP F c lo I Q. unfold from_code in F. apply bind_ok in F. destruct F as (l & D & F). apply bind_ok in F. destruct F as (l' & R & F). injection F as <-.
  cbn [cb_items] in I. unfold disassemble_code in D. rewrite P in D.
  assert (EV := normal_even v T wf _ (co_code co) _ _ (Nat.le_refl _) N).
  assert (LU := dis_units_len v T wf _ (co_code co) 0 0 (Nat.le_refl _) EV).
  destruct (from_units_locs v T wf _ _ l D ltac:(lia)) as (ML & LL & AL).
  destruct (remove_located v T l 0 None l' LL R) as [_ IN'].
  assert (IC : In (CI c) l').
  { unfold instrs_of in I. apply in_flat_map in I. destruct I as ([c'|z] & I1 & I2); cbn in I2; [|contradiction]. destruct I2 as [->|[]]. exact I1. }
  destruct (IN' c lo IC Q) as (d & ID & QD).
  assert (X : In (c_loc d) (map c_loc (instrs_of l))).
  { apply in_map. unfold instrs_of. apply in_flat_map. exists (CI d). cbn. auto. }
  rewrite ML in X. apply in_map_iff in X. destruct X as (p & A & I2). exists p. split; [|congruence].
  rewrite <- (firstn_skipn (length (dis_units v T 0 0 (co_code co)))). apply in_or_app. now left.
Qed.

Section Build.
  Variables (v : pyver) (T : optable).
  Hypothesis wf : wf_optable v T = true.
  Hypothesis P11 : PY311 v = true.
  Variable co : codeobj.
  Hypothesis AC : as_compiled v T co.
  Hypothesis UN : understood v T co.
  Variables (conserve : bool) (b : bytecode).
  Hypothesis FB : bytecode_from_code v T true conserve co = Ok b.

  Lemma frame_vars a x : frame_slot (tables co) a x ->
    (forall n, x = OCell n -> In n (co_cellvars co)) /\ (forall n, x = OFree n -> In n (co_freevars co)).
  Proof.
    intros FS. split; intros n ->; inversion FS; subst; cbn [tables cb_meta m_cellvars m_freevars cb_varnames] in *; try assumption.
    - match goal with H : at_ _ _ n |- _ => destruct H as [_ H]; apply nth_error_In in H; unfold unshared in H; apply filter_In in H; tauto end.
    - match goal with H : at_ _ _ n |- _ => destruct H as [_ H]; now apply nth_error_In in H end.
  Qed.

  Lemma from_buildable : buildable v T b /\ locations_fit v b /\ locations_ok v b.
  Proof.
    pose proof (C52_from_code_is_writable_since_311 v T conserve co b wf P11 AC FB) as W.
    pose proof (C52_from_code_shows_program_since_311 v T conserve co b wf P11 AC FB) as [RL RUN].
    destruct (C52_attributes v T true conserve co b wf FB) as (_ & _ & _ & _ & _ & _ & _ & _ & MF & MC & (more & AN) & _).
    pose proof FB as E. apply bind_ok in E. destruct E as (cb & F & TB).
    destruct (from_code_writable v T wf P11 co cb conserve b AC F TB) as (_ & _ & _ & _ & _ & _ & LOCS).
    destruct (grouped v T wf P11 co cb AC F) as (gs & GS & GR).
    pose proof (from_code_ordinary v T wf co cb F) as OR.
    assert (AT : forall i, In (BI i) (b_items b) -> op_has_jump T (i_op i) = false -> exists r, In r (instructions v T co) /\ r_op r = i_op i
        /\ reads v T (tables co) (i_op i) (r_arg r) (i_arg i)).
    { intros i I NJ. destruct (walk_has (position (b_items b)) (b_items b) i I None (line_loc (Some (m_first_lineno (b_meta b))))) as (k & l & h & N).
      change (S_Ident.located _ _) with (source b) in N. pose proof (nth_some_lt _ _ _ N) as L. rewrite <- RL in L.
      destruct (nth_error (instructions v T co) k) as [r|] eqn:NR; [|apply nth_error_None in NR; lia].
      destruct (RUN k _ _ _ _ r N NR) as (O & A & _). pose proof (w_legal _ _ _ W i I) as LI. destruct LI as (O' & _).
      exists r. split; [eapply nth_error_In; eauto|]. assert (RO : r_op r = i_op i) by congruence. split; [exact RO|]. rewrite <- RO.
      assert (NL : forall n, i_arg i <> OLabel n) by (intros n; apply (legal_not_label v T i n (w_legal _ _ _ W i I) NJ)).
      destruct (i_arg i) eqn:IA; try exact A. exfalso. eapply NL; reflexivity. }
    assert (VARS : forall i, In (BI i) (b_items b) -> ~ In (i_op i) (t_hasconst T) ->
       (forall n, i_arg i = OCell n -> In n (co_cellvars co)) /\ (forall n, i_arg i = OFree n -> In n (co_freevars co))).
    { intros i I NK. destruct (w_legal _ _ _ W i I) as (O & B & _ & DA).
      destruct (op_has_jump T (i_op i)) eqn:J.
      { pose proof (category_of v T wf _ _ O B) as CAT. destruct CAT as [C C1|C|C|C|C|C|C|C]; destruct C as (E1 & E2 & E3 & E4 & E5 & E6 & E7); try congruence.
        split; intros n Q; rewrite Q in DA; inversion DA; subst; try contradiction;
          try (match goal with H : In _ (t_hasfree T) |- _ => apply z_mem_In in H; congruence end);
          try (match goal with H : In _ (t_haslocal T) |- _ => apply z_mem_In in H; congruence end);
          match goal with H : as_int _ = Some _ |- _ => discriminate H end. }
      destruct (AT i I J) as (r & IR & RO & RD). split; intros n Q; rewrite Q in RD; inversion RD; subst; try contradiction;
        try (match goal with H : as_int _ = Some _ |- _ => discriminate H end);
        try (match goal with H : local_slot _ _ _ _ |- _ => destruct H as [H _]; now apply (frame_vars _ _ H) end);
        match goal with H : deref_slot _ _ _ _ |- _ => destruct H as [_ H]; rewrite P11 in H; now apply (frame_vars _ _ H) end. }
    split; [|split; [|exact (w_locs _ _ _ W)]].
    - constructor.
      + intros i I. split; [now apply W|now apply W].
      + apply W.
      + apply W.
      + apply W.
      + intros k n t l h op N O J. pose proof (nth_some_lt _ _ _ N) as L. rewrite <- RL in L.
        destruct (nth_error (instructions v T co) k) as [r|] eqn:NR; [|apply nth_error_None in NR; lia].
        destruct (RUN k _ _ _ _ r N NR) as (O' & BG & _). assert (RO : r_op r = op) by congruence. clear O'.
        pose proof (nth_error_In _ _ NR) as IR.
        destruct (ran_inv v T wf P11 co cb AC F gs GS GR r IR) as (p & c & ks & G & _ & RQ & NP).
        pose proof (rans_length v T gs GR 0) as LG. rewrite <- (instrs_rans v T wf P11 co cb AC F gs GS GR) in LG.
        assert (p = k).
        { pose proof (nth_some_lt _ _ _ G). pose proof (off_mono v T wf P11 co cb AC F gs GS GR) as OM.
          destruct (nth_error gs k) as [g|] eqn:Gk; [|apply nth_error_None in Gk; lia].
          pose proof GR as GR'. rewrite Forall_forall in GR'. destruct (GR' g (nth_error_In _ _ Gk)) as (c0 & ks0 & -> & _).
          pose proof (ran_at v T wf P11 co cb AC F gs GS GR k c0 ks0 Gk) as RK. rewrite NR in RK. rewrite RQ in RK.
          assert (QQ : offset_of v (instrs_of (cb_items cb)) (start gs p) = offset_of v (instrs_of (cb_items cb)) (start gs k)) by (apply (f_equal (fun o => match o with Some r => r_start r | None => 0 end)) in RK; cbn [r_start] in RK; lia).
          pose proof (OM p k ltac:(lia) ltac:(lia)). pose proof (OM k p ltac:(lia) ltac:(lia)). lia. }
        subst p. pose proof (nth_some_lt _ _ _ G) as LK.
        assert (LT : (t <= length gs)%nat).
        { unfold begins in BG. destruct (nth_error (instructions v T co) t) eqn:X; [apply nth_some_lt in X; lia|].
          destruct (Nat.eqb_spec t (length (instructions v T co))); [lia|discriminate]. }
        rewrite (begins_off v T wf P11 co cb AC F gs GS GR t LT) in BG. assert (BG2 : 2 * offset_of v (instrs_of (cb_items cb)) (start gs t) = goes_to v T r) by congruence. clear BG. rename BG2 into BG.
        pose proof (off_mono v T wf P11 co cb AC F gs GS GR t (S k) LT ltac:(lia)) as M1.
        assert (RE : r_end r = 2 * offset_of v (instrs_of (cb_items cb)) (start gs (S k))) by (rewrite RQ; reflexivity).
        assert (ON : opname T (r_op r) = Some n) by (rewrite RO; now apply (opmap_opname v T wf)).
        assert (JR : z_mem (r_op r) (t_hasjrel T) = true) by (rewrite RO; now apply z_mem_In).
        destruct (str_contains "BACKWARD" n) eqn:BW.
        * pose proof (un_backward _ _ _ UN r n IR ltac:(now rewrite RO) ON BW) as GB. rewrite <- BG, RE in GB.
          assert (TK : (t < S k)%nat) by (apply M1; clear - GB; lia). clear - TK; lia.
        * assert (GT : r_end r <= goes_to v T r).
          { unfold goes_to. rewrite JR, ON, BW. replace (PY310 v) with true by (destruct v; vm_compute in P11; try discriminate P11; reflexivity).
            rewrite RQ. cbn [r_arg r_end]. pose proof (OR c (nth_error_In _ _ (head_at cb gs GS k c ks G))) as ((_ & _ & A & _) & _). destruct (c_arg c); [|lia]. lia. }
          rewrite <- BG, RE in GT. destruct (le_lt_dec t k) as [X|X]; [|exact X]. exfalso. assert (t < S k)%nat as Y by lia. apply M1 in Y. lia.
      + intros i n I NK Q. rewrite MC. now apply (VARS i I NK).
      + intros i n I NK Q. rewrite MF. now apply (VARS i I NK).
      + intros i I D. destruct (w_legal _ _ _ W i I) as (O & B & _ & DA).
        assert (J : op_has_jump T (i_op i) = false).
        { pose proof (category_of v T wf _ _ O B) as CAT. destruct CAT as [C C1 C2|C C1 C2|C|C C1 C2|C|C|C|C]; destruct C as (E1 & _); try congruence. }
        destruct (LOCS i I) as (c & l & IC & _ & _ & NM & DEC).
        pose proof (OR c IC) as ((Oc & Bc & _) & _). assert (EO : c_op c = i_op i) by congruence.
        rewrite EO in *. specialize (DEC J).
        assert (NC : c_name c <> "CACHE") by (rewrite <- NM; exact (w_caches _ _ _ W i I)).
        apply In_nth_error in IC. destruct IC as (k & NK). destruct (head_of v T wf P11 cb gs GS GR k c NK NC) as (p & ks & G & _).
        pose proof (nth_error_In _ _ (ran_at v T wf P11 co cb AC F gs GS GR p c ks G)) as IR.
        destruct (un_pairs _ _ _ UN _ IR ltac:(cbn [r_op]; now rewrite EO)) as (x & y & RX). cbn [r_op r_arg] in RX. rewrite EO in RX.
        destruct (from_facts v T wf P11 co cb AC F) as (_ & _ & _ & FC & FN & FV & FCE & FFR & _).
        assert (TR : reads v T cb (i_op i) (c_arg c) (OTuple [OStr x; OStr y])) by (revert RX; apply reads_tables; unfold tables; cbn; auto).
        destruct (reads_shown v T cb (i_op i) (c_arg c) _ (category_of v T wf _ _ O B) TR Logic.I) as (z & DZ & SZ).
        { intros _ n0 I1. rewrite FFR in I1. rewrite FV. exact (ac_free _ _ _ AC n0 I1). }
        rewrite DZ in DEC. injection DEC as <-. eapply pair_shown; exact SZ.
      + unfold zlen. rewrite <- (walk_count (position (b_items b)) (b_items b) None (line_loc (Some (m_first_lineno (b_meta b))))).
        change (S_Ident.located _ _) with (source b). rewrite <- RL. exact (un_size _ _ _ UN).
      + rewrite MC, MF. pose proof (un_names _ _ _ UN) as U. rewrite AN, zlen_app in U. pose proof (zlen_nonneg more). lia.
    - intros _ n a l h I. destruct (w_locs _ _ _ W n a l h I) as [CL _]. split; [exact CL|].
      apply walk_own in I; [|intros i J; destruct (LOCS i J) as (c & l' & _ & _ & Q & _); eauto].
      destruct I as (i & I & Q). destruct (LOCS i I) as (c & l' & IC & QC & QI & _). assert (l' = l) by congruence. subst l'.
      destruct (from_locs v T wf co cb P11 (ac_code _ _ _ AC) (ac_positions _ _ _ AC) F c l IC QC) as (p & IP & LP).
      pose proof (ac_lines _ _ _ AC p IP) as SP. destruct p as [[[a0 b0] c0] ec]. cbn [loc_of_pos] in LP. injection LP as <-.
      intros (SC & el & SE1 & SE2). cbn in SC, SE1, SE2. subst. destruct a0 as [a0|]; [congruence|].
      exact (no_line_no_end _ _ _ _ _ CL).
  Qed.
End Build.

(** handler depths are kept *)
Lemma conserved v T : wf_optable v T = true -> PY311 v = true -> forall co b, bytecode_from_code v T true true co = Ok b ->
  buildable v T b -> locations_fit v b -> assemblable v T b /\ recordable v b.
Proof.
  intros wf P11 co b FB BB LF. apply bind_ok in FB. destruct FB as (cb & F & TB).
  pose proof (from_code_ordinary v T wf co cb F) as OR.
  assert (D : forall id t la d, In (BTB id t la d) (b_items b) -> exists e, In e (cb_ex cb) /\ d = Some (e_depth e)).
  { intros id t la d I. destruct (C49_markers v T cb true true b id t la d wf OR TB I) as (e & IE & _ & Q). eauto. }
  assert (EX : Forall P_Except.entry_ok (cb_ex cb)).
  { unfold from_code in F. apply bind_ok in F. destruct F as (l & _ & F). apply bind_ok in F. destruct F as (l' & _ & F). injection F as <-.
    cbn [cb_ex]. rewrite P11. apply parsed_entries_ok. }
  rewrite Forall_forall in EX. split; constructor; auto.
  - intros id t la d I. destruct (D _ _ _ _ I) as (e & _ & ->). eauto.
  - intros _ id t la z I. destruct (D _ _ _ _ I) as (e & IE & Q). injection Q as ->. apply (EX e IE).
Qed.

(** jumps of the program are jumps of the code *)
Lemma filter_count {A B} (f : A -> bool) (g : B -> bool) : forall l m, length l = length m ->
  (forall k x y, nth_error l k = Some x -> nth_error m k = Some y -> f x = true -> g y = true) ->
  (length (filter f l) <= length (filter g m))%nat.
Proof.
  induction l as [|x l IH]; intros [|y m] L H; cbn in L; try discriminate; [cbn; lia|].
  assert (X : (length (filter f l) <= length (filter g m))%nat) by (apply IH; [lia|]; intros k; exact (H (S k))).
  specialize (H O x y eq_refl eq_refl). cbn [filter]. destruct (f x); [rewrite H by reflexivity|destruct (g y)]; cbn [length]; lia.
Qed.
Definition goes (x : string * parg * loc * option handler) : bool := match x with (_, PTo _, _, _) => true | _ => false end.
Lemma walk_goes f items : forall h cur, length (filter goes (S_Ident.located cur (walk f h items))) = length (filter takes_label items).
Proof.
  induction items as [|it items IH]; intros h cur; [reflexivity|]. destruct it; cbn [walk S_Ident.located filter takes_label]; try apply IH.
  unfold goes at 1. destruct (i_arg i); cbn [arg_of length]; rewrite IH; reflexivity.
Qed.
Lemma walk_jumps f items : forall h cur n t l h', In (n, PTo t, l, h') (S_Ident.located cur (walk f h items)) ->
  exists i m, In (BI i) items /\ i_name i = n /\ i_arg i = OLabel m.
Proof.
  induction items as [|it items IH]; intros h cur n t l h' I; [destruct I|].
  destruct it; cbn [walk S_Ident.located] in I; try (destruct (IH _ _ _ _ _ _ I) as (j & m & J & Q); exists j, m; split; [now right|exact Q]).
  destruct I as [I|I]; [|destruct (IH _ _ _ _ _ _ I) as (j & m & J & Q); exists j, m; split; [now right|exact Q]].
  destruct (i_arg i) eqn:A; cbn [arg_of] in I; try discriminate I. injection I as Q _ _ _. exists i, n0. split; [now left|auto].
Qed.

Lemma jump_count v T : wf_optable v T = true -> PY311 v = true -> forall co, as_compiled v T co -> forall conserve b,
  bytecode_from_code v T true conserve co = Ok b ->
  zlen (filter takes_label (b_items b)) <= zlen (filter (fun r => op_has_jump T (r_op r)) (instructions v T co)).
Proof.
  intros wf P11 co AC conserve b FB.
  pose proof (C52_from_code_is_writable_since_311 v T conserve co b wf P11 AC FB) as W.
  pose proof (C52_from_code_shows_program_since_311 v T conserve co b wf P11 AC FB) as [RL RUN].
  unfold zlen. apply inj_le. rewrite <- (walk_goes (position (b_items b)) (b_items b) None (line_loc (Some (m_first_lineno (b_meta b))))).
  change (S_Ident.located _ _) with (source b). apply filter_count; [now symmetry|].
  intros k [[[n a] l] h] r N NR G. destruct a as [t|]; [|discriminate G].
  destruct (RUN k _ _ _ _ r N NR) as (O & _). apply nth_error_In in N. apply walk_jumps in N. destruct N as (i & m & I & IN & IA).
  pose proof (w_legal _ _ _ W i I) as LI. pose proof LI as (O' & _). assert (Q : i_op i = r_op r) by congruence. rewrite <- Q.
  destruct (op_has_jump T (i_op i)) eqn:J; [reflexivity|]. exfalso. exact (legal_not_label v T i m LI J IA).
Qed.
