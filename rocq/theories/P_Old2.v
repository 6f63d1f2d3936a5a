(** The Bytecode made of a code object is the program that the code object runs (before 3.11). *)
From Verif Require Import PyBase OpTable CPy P_Base P_OpTable M_Instr M_Tables M_Concrete M_Convert M_Cfg S_Args S_Lines S_Prog S_Slots S_Asm S_Dis S_Cfg S_Ident S_Round S_Code S_Old
  P_Asm P_Except P_LinesCode P_Round P_Round2 P_Conv2 P_Cat P_Decode P_CfgSeq P_Dis P_Dis2 P_Dis3 P_Dis4 P_Dis5 P_Dis6 P_Jumps P_Jumps2 P_Layout P_Layout2 P_Ident P_Ident2 P_Ident3 P_Code P_Code2 P_From P_From2 P_Old.
Open Scope string_scope.
Open Scope list_scope.
Open Scope Z_scope.

Section Old.
  Variables (v : pyver) (T : optable).
  Hypothesis wf : wf_optable v T = true.
  Hypothesis P11 : PY311 v = false.
  Notation E := (t_extended_arg T).

  Lemma not_cache c : ordinary v T c -> c_name c <> "CACHE".
  Proof. intros ((O & _) & _) Q. rewrite Q in O. pose proof (wf_cache_absent v T wf P11). congruence. Qed.


  Lemma old_listing cs : Forall (okc v T) cs -> forall off p, nth_error (listing v T off None 0 (code T cs)) p =
    option_map (fun c => let s := off + zlen (code T (firstn p cs)) in mkRan s (s + c_size c - 2) (s + c_size c) (c_op c) (c_arg c)) (nth_error cs p).
  Proof.
    induction 1 as [|c cs M FC IH]; intros off p; [destruct p; reflexivity|].
    change (code T (c :: cs)) with (assemble T c ++ code T cs). rewrite (listing_okc v T wf c off _ M (not_cache c (proj1 M))).
    rewrite (no_caches_before v T wf _ _ P11). destruct p as [|p]; cbn [nth_error option_map].
    - cbn [firstn]. change (zlen (code T [])) with 0. cbv zeta. f_equal. f_equal; lia.
    - rewrite IH. cbn [firstn]. change (code T (c :: firstn p cs)) with (assemble T c ++ code T (firstn p cs)). rewrite zlen_app, <- (proj2 M).
      destruct (nth_error cs p) as [d|]; [|reflexivity]. cbn [option_map]. cbv zeta. f_equal. f_equal; lia.
  Qed.

  (** the instruction that a byte belongs to *)
  Lemma covered cs : Forall (okc v T) cs -> forall off, 0 <= off < zlen (code T cs) ->
    exists p c, nth_error cs p = Some c /\ zlen (code T (firstn p cs)) <= off < zlen (code T (firstn p cs)) + c_size c.
  Proof.
    induction 1 as [|c cs M FC IH]; intros off L; [cbn in L; lia|].
    change (code T (c :: cs)) with (assemble T c ++ code T cs) in L. rewrite zlen_app in L. pose proof (proj2 M) as SZ.
    destruct (Z_lt_ge_dec off (c_size c)) as [X|X].
    - exists 0%nat, c. split; [reflexivity|]. cbn [firstn]. change (zlen (code T [])) with 0. lia.
    - destruct (IH (off - c_size c)) as (p & d & N & B); [lia|]. exists (S p), d. split; [exact N|]. cbn [firstn].
      change (code T (c :: firstn p cs)) with (assemble T c ++ code T (firstn p cs)). rewrite zlen_app, <- SZ. lia.
  Qed.

  Lemma spell_nth es rest j : (j < length es)%nat -> nth_error (spell E es ++ rest) (2 * j) = Some E.
  Proof.
    revert j. induction es as [|e es IH]; intros j L; [cbn in L; lia|]. change (spell E (e :: es)) with (E :: e :: spell E es).
    destruct j as [|j]; [reflexivity|]. replace (2 * S j)%nat with (S (S (2 * j))) by lia. cbn [app nth_error]. apply IH. cbn in L. lia.
  Qed.
  Lemma spell_after es op b rest : nth_error (spell E es ++ op :: b :: rest) (2 * length es) = Some op.
  Proof.
    induction es as [|e es IH]; [reflexivity|]. change (spell E (e :: es)) with (E :: e :: spell E es). cbn [length].
    replace (2 * S (length es))%nat with (S (S (2 * length es))) by lia. cbn [app nth_error]. exact IH.
  Qed.

  (** an EXTENDED_ARG and what follows it belong to one instruction *)
  Lemma ext_inside cs p c j : Forall (okc v T) cs -> nth_error cs p = Some c -> nth_error (code T cs) (2 * j) = Some E ->
    let s := zlen (code T (firstn p cs)) in s <= 2 * Z.of_nat j < s + c_size c -> 2 * Z.of_nat j + 2 < s + c_size c.
  Proof.
    intros F N NE s B. pose proof (proj1 (Forall_forall _ _) F c (nth_error_In _ _ N)) as M. destruct (okc_bytes v T wf c M) as (es & _ & S & Q & _).
    assert (EV : s mod 2 = 0).
    { subst s. clear - wf. generalize (firstn p cs) as l. induction l as [|d l IH]; [reflexivity|]. change (code T (d :: l)) with (assemble T d ++ code T l).
      rewrite zlen_app. pose proof (assemble_even T d). clear - IH H. zdm. }
    destruct (Z_lt_ge_dec (2 * Z.of_nat j + 2) (s + c_size c)) as [X|X]; [exact X|exfalso].
    assert (J : 2 * Z.of_nat j = s + 2 * zlen es) by (clear - X B EV S; zdm).
    assert (SP : code T cs = code T (firstn p cs) ++ assemble T c ++ code T (skipn (Datatypes.S p) cs)).
    { rewrite (nth_split' _ _ _ N) at 1. rewrite code_app. reflexivity. }
    rewrite SP, nth_error_app2 in NE by (subst s; unfold zlen in *; lia).
    replace (2 * j - length (code T (firstn p cs)))%nat with (2 * length es)%nat in NE by (subst s; unfold zlen in *; lia).
    rewrite Q, <- app_assoc in NE. cbn [app] in NE. rewrite spell_after in NE. injection NE as NE. exact (okc_not_ext v T wf c M NE).
  Qed.

  Lemma unit_locs_app a b : unit_locs T (a ++ b) = unit_locs T a ++ unit_locs T b.
  Proof. unfold unit_locs. apply flat_map_app. Qed.
  Lemma unit_locs_len l : 2 * zlen (unit_locs T l) = zlen (code T l).
  Proof.
    induction l as [|c l IH]; [reflexivity|]. change (code T (c :: l)) with (assemble T c ++ code T l). change (unit_locs T (c :: l)) with (repeat (c_loc c) (Z.to_nat (zlen (assemble T c) / 2)) ++ unit_locs T l).
    rewrite !zlen_app. pose proof (assemble_even T c) as H. unfold zlen at 1. rewrite repeat_length. pose proof (zlen_nonneg (assemble T c)) as P. rewrite Z2Nat.id by (clear - P; zdm). clear - IH H. zdm.
  Qed.

  Variables (co : codeobj) (cb : cbytecode).
  Hypothesis AC : as_compiled_before v T co.
  Hypothesis F : from_code v T co false = Ok cb.
  Notation cs := (instrs_of (cb_items cb)).
  Notation at_ p := (zlen (code T (firstn p cs))).

  Lemma old_facts : cb_items cb = map CI cs /\ Forall (okc v T) cs /\ code T cs = co_code co
    /\ cb_consts cb = co_consts co /\ cb_names cb = co_names co /\ cb_varnames cb = co_varnames co
    /\ m_cellvars (cb_meta cb) = co_cellvars co /\ m_freevars (cb_meta cb) = co_freevars co
    /\ cb_ex cb = []
    /\ (forall p c, nth_error cs p = Some c -> exists z, c_loc c = Some (line_loc z) /\ coherent_loc v (line_loc z) /\ line_at v co (at_ p) = Some z).
  Proof.
    pose proof (from_code_ordinary v T wf co cb F) as OR. pose proof (ab_code _ _ _ AC) as N.
    pose proof F as F0. unfold from_code in F0. apply bind_ok in F0. destruct F0 as (l & D & H). apply bind_ok in H. destruct H as (l' & R & H). injection H as <-.
    cbn [cb_items cb_consts cb_names cb_varnames cb_meta cb_ex m_cellvars m_freevars] in *. rewrite P11.
    destruct (disassemble_bytes v T wf _ _ N D) as [B U].
    pose proof (remove_sized v T wf l [] l' (Forall_nil _) U R) as SZ. pose proof (remove_bytes v T wf l [] l' (Forall_nil _) U R) as RB.
    assert (CO : code T (instrs_of l') = co_code co).
    { unfold bytes_of in RB, B. unfold code. cbn [spell map concat app] in RB. rewrite RB. exact B. }
    destruct (starts_of v co (ab_table _ _ _ AC)) as (starts & ES & SA & SL).
    unfold disassemble_code in D. rewrite P11, ES in D.
    assert (OI0 : (forall it, In it l -> exists c, it = CI c) -> l' = map CI (instrs_of l')) by (intros AL; exact (remove_only_instrs v T l 0 None l' AL R)).
    assert (OK0 : (forall it, In it l -> exists c, it = CI c) -> Forall (okc v T) (instrs_of l')).
    { intros AL. apply Forall_forall. intros c I. split; [now apply OR|]. rewrite Forall_forall in SZ. apply (SZ (CI c)). rewrite (OI0 AL). now apply in_map. }
    (* all the bytes of an instruction *)
    assert (WHOLE : Forall (okc v T) (instrs_of l') -> forall p c off, nth_error (instrs_of l') p = Some c ->
      let s := zlen (code T (firstn p (instrs_of l'))) in s <= off < s + c_size c ->
      line_at v co off = line_at v co s /\ 0 <= s /\ s + c_size c <= zlen (co_code co)).
    { intros OK p c off NP s L. pose proof (old_listing _ OK 0 p) as X. rewrite NP in X. cbn [option_map] in X. cbv zeta in X. rewrite CO in X. fold (instructions v T co) in X.
      apply nth_error_In in X. rewrite Z.add_0_l in X. fold s in X. split; [exact (ab_same _ _ _ AC _ off X L)|]. subst s. split; [apply zlen_nonneg|].
      rewrite <- CO. rewrite (nth_split' _ _ _ NP) at 2. rewrite code_app, zlen_app. change (code T (c :: ?r)) with (assemble T c ++ code T r). rewrite zlen_app.
      rewrite Forall_forall in OK. rewrite (proj2 (OK c (nth_error_In _ _ NP))). pose proof (zlen_nonneg (code T (skipn (S p) (instrs_of l')))). lia. }
    assert (LINE : forall p z, 0 <= p < zlen (co_code co) -> last_start starts p (Some (co_firstlineno co)) = z -> line_at v co p = Some z).
    { intros p z L Q. pose proof (ab_lines _ _ _ AC p L) as X. destruct (line_at v co p) as [w|] eqn:Y; [|congruence]. rewrite (SL p w L Y) in Q. congruence. }
    assert (AL : forall it, In it l -> exists c, it = CI c).
    { clear - D. revert D. generalize (Some (co_firstlineno co)) 0 (length (co_code co)). intros ln o fuel. revert ln o l. induction fuel as [|f IH]; intros ln o l D; cbn [from_bytes] in D.
      - injection D as <-. intros it [].
      - destruct (o <? _); [|injection D as <-; intros it []]. apply bind_ok in D. destruct D as (c & _ & D). apply bind_ok in D. destruct D as (r & D & Q). injection Q as <-.
        intros it [<-|I]; [eauto|]. exact (IH _ _ _ D it I). }
    specialize (OI0 AL). specialize (OK0 AL). specialize (WHOLE OK0).
    destruct (from_bytes_locs v T wf P11 starts (Some (co_firstlineno co)) (zlen (co_code co)) SA) with (fuel := length (co_code co)) (pre := @nil Z) (rest := co_code co) (k := 0) (ext := false)
      (ln := Some (co_firstlineno co)) (l := l) as [_ LOC].
    { intros j J0 J1. assert (EV : zlen (co_code co) mod 2 = 0) by (rewrite <- CO; clear; generalize (instrs_of l') as m; induction m as [|d m IH]; [reflexivity|];
        change (code T (d :: m)) with (assemble T d ++ code T m); rewrite zlen_app; pose proof (assemble_even T d); clear - IH H; zdm).
      destruct (covered (instrs_of l') OK0 (2 * j)) as (p & c & NP & L); [rewrite CO; lia|].
      assert (L2 : zlen (code T (firstn p (instrs_of l'))) <= 2 * j + 1 < zlen (code T (firstn p (instrs_of l'))) + c_size c).
      { assert (E1 : zlen (code T (firstn p (instrs_of l'))) mod 2 = 0) by (clear; generalize (firstn p (instrs_of l')) as m; induction m as [|d m IH]; [reflexivity|];
          change (code T (d :: m)) with (assemble T d ++ code T m); rewrite zlen_app; pose proof (assemble_even T d); clear - IH H; zdm).
        assert (E2 : c_size c mod 2 = 0) by (rewrite Forall_forall in OK0; rewrite (proj2 (OK0 c (nth_error_In _ _ NP))); apply (assemble_even T c)). clear - L E1 E2. zdm. }
      destruct (WHOLE p c _ NP L) as (W1 & W2 & W3). destruct (WHOLE p c _ NP L2) as (W4 & _). cbv zeta in *.
      pose proof (LINE (2 * j) _ ltac:(lia) eq_refl) as Q1. pose proof (LINE (2 * j + 1) _ ltac:(lia) eq_refl) as Q2. rewrite W1 in Q1. rewrite W4 in Q2. congruence. }
    { apply Nat.le_refl. }
    { reflexivity. }
    { exact N. }
    { reflexivity. }
    { symmetry. apply (asc_above starts _ 0); [lia|exact SA]. }
    { cbn [app]. replace (units v (2 * 0)) with 0 by (unfold units; destruct (OFFSET_AS_INSTRUCTION v); reflexivity). exact D. }
    assert (UF : Forall (unit_instr v T) (instrs_of l)).
    { clear - U. revert U. generalize false. induction (instrs_of l) as [|c r IH]; intros e U; constructor; cbn [unit_list] in U; [tauto|]. apply (IH _ (proj2 (proj2 U))). }
    assert (UL : unit_locs T (instrs_of l') = map c_loc (instrs_of l)).
    { rewrite <- (flat_map_unit v T _ UF). rewrite (remove_locs v T wf l [] l' None (Forall_nil _) U); [reflexivity| |exact R].
      apply same_loc_nth; [exact Logic.I|]. intros k c d NC ND EQ. destruct (LOC k c NC) as (L1 & _ & L3). destruct (LOC (S k) d ND) as (L4 & _ & L6). rewrite L1, L4.
      rewrite Forall_forall in UF. pose proof (proj1 (UF c (nth_error_In _ _ NC))) as V. assert (OE : c_op c = E) by (pose proof (vc_op _ _ _ V) as Q; rewrite EQ, (wf_ext v T wf) in Q; congruence).
      rewrite OE, <- CO in L3. rewrite <- CO in L6.
      assert (KL : (2 * k < length (code T (instrs_of l')))%nat) by (apply nth_error_Some; congruence).
      destruct (covered (instrs_of l') OK0 (2 * Z.of_nat k)) as (p & c' & NP & L); [unfold zlen; lia|].
      pose proof (ext_inside (instrs_of l') p c' k OK0 NP L3 L) as L'.
      destruct (WHOLE p c' _ NP L) as (W1 & W2 & W3). destruct (WHOLE p c' (2 * Z.of_nat k + 2) NP ltac:(lia)) as (W4 & _).
      pose proof (LINE (2 * Z.of_nat k) _ ltac:(lia) eq_refl) as Q1. pose proof (LINE (2 * Z.of_nat k + 2) _ ltac:(lia) eq_refl) as Q2.
      rewrite W1 in Q1. rewrite W4 in Q2. rewrite !Z.add_0_l. replace (2 * Z.of_nat (S k)) with (2 * Z.of_nat k + 2) by lia. congruence. }
    split; [exact OI0|]. split; [exact OK0|]. split; [exact CO|]. repeat (split; [reflexivity|]).
    intros p c NP. set (s := zlen (code T (firstn p (instrs_of l')))).
    pose proof (unit_locs_len (firstn p (instrs_of l'))) as LEN. fold s in LEN.
    assert (NTH : nth_error (unit_locs T (instrs_of l')) (length (unit_locs T (firstn p (instrs_of l')))) = Some (c_loc c)).
    { rewrite (nth_split' _ _ _ NP) at 1. rewrite unit_locs_app, nth_error_app2, Nat.sub_diag by lia.
      change (unit_locs T (c :: ?r)) with (repeat (c_loc c) (Z.to_nat (zlen (assemble T c) / 2)) ++ unit_locs T r).
      rewrite Forall_forall in OK0. destruct (okc_bytes v T wf c (OK0 c (nth_error_In _ _ NP))) as (es & _ & S1 & _).
      rewrite <- (proj2 (OK0 c (nth_error_In _ _ NP))), S1. replace ((2 * zlen es + 2) / 2) with (zlen es + 1) by zdm. unfold zlen. replace (Z.to_nat (Z.of_nat (length es) + 1)) with (S (length es)) by lia. reflexivity. }
    rewrite UL in NTH. rewrite nth_error_map in NTH. destruct (nth_error (instrs_of l) _) as [u|] eqn:NU; [|discriminate NTH]. injection NTH as NTH.
    destruct (LOC _ u NU) as (L1 & L2 & _). unfold zlen in LEN. rewrite Z.add_0_l, LEN in L1, L2. fold s in L1, L2.
    eexists. split; [rewrite <- NTH; exact L1|]. split; [exact L2|].
    destruct (WHOLE p c s NP) as (_ & W2 & W3); [|fold s in W2, W3].
    { fold s. rewrite Forall_forall in OK0. destruct (okc_bytes v T wf c (OK0 c (nth_error_In _ _ NP))) as (es & _ & S1 & _). pose proof (zlen_nonneg es). lia. }
    apply LINE; [|reflexivity]. rewrite Forall_forall in OK0. destruct (okc_bytes v T wf c (OK0 c (nth_error_In _ _ NP))) as (es & _ & S1 & _). pose proof (zlen_nonneg es). lia.
  Qed.

  Lemma old_pos : Forall pos cs.
  Proof.
    destruct old_facts as (_ & OK & _). eapply Forall_impl; [|exact OK]. intros c [_ Q]. unfold pos. rewrite Q.
    split; [|apply (assemble_even T c)]. apply (assemble_even T c).
  Qed.
  Lemma old_off k : ub v * offset_of v cs k = at_ k.
  Proof. apply (offset_bytes v T wf). destruct old_facts as (_ & OK & _). eapply Forall_impl; [|exact OK]. intros c [_ Q]. exact Q. Qed.
  Lemma old_ran p c : nth_error cs p = Some c -> nth_error (instructions v T co) p
    = Some (mkRan (ub v * offset_of v cs p) (ub v * offset_of v cs p + c_size c - 2) (ub v * offset_of v cs p + c_size c) (c_op c) (c_arg c)).
  Proof.
    intros N. destruct old_facts as (_ & OK & CO & _). unfold instructions. rewrite <- CO, (old_listing cs OK 0 p), N. cbn [option_map]. rewrite Z.add_0_l, old_off. reflexivity.
  Qed.
  Lemma old_count : length (instructions v T co) = length cs.
  Proof.
    assert (X : forall p, nth_error (instructions v T co) p = None <-> nth_error cs p = None).
    { intros p. destruct old_facts as (_ & OK & CO & _). unfold instructions. rewrite <- CO, (old_listing cs OK 0 p). destruct (nth_error cs p); cbn; split; congruence. }
    assert (L : forall n, (length (instructions v T co) <= n <-> length cs <= n)%nat) by (intros n; rewrite <- !nth_error_None; apply X).
    pose proof (proj1 (L _) (Nat.le_refl _)). pose proof (proj2 (L _) (Nat.le_refl _)). lia.
  Qed.
  Lemma old_begins k : (k < length cs)%nat -> begins v T co k = Some (ub v * offset_of v cs k).
  Proof. intros L. unfold begins. destruct (nth_error cs k) as [c|] eqn:N; [|apply nth_error_None in N; lia]. now rewrite (old_ran k c N). Qed.
  Lemma old_kept k : (k <= length cs)%nat -> kept_before true cs k = k.
  Proof.
    intros L. unfold kept_before. pose proof (from_code_ordinary v T wf co cb F) as OR.
    replace (filter (kept true) (firstn k cs)) with (firstn k cs); [rewrite firstn_length; lia|]. symmetry. apply filter_id. intros c I.
    unfold kept. rewrite (proj2 (String.eqb_neq _ _)); [reflexivity|]. apply not_cache, OR. rewrite <- (firstn_skipn k cs). apply in_or_app. now left.
  Qed.

  Variables (conserve : bool) (b : bytecode).
  Hypothesis TB : to_bytecode v T cb true conserve = Ok b.

  Theorem old_runs cur : runs v T co (located cur (program (b_items b))).
  Proof.
    pose proof (from_code_ordinary v T wf co cb F) as OR.
    destruct (to_bytecode_shown v T wf cb true conserve b (ordinary_plain v T wf _ OR) TB) as [SL SH].
    destruct old_facts as (OI & OK & CO & FC & FN & FV & FCE & FFR & EX & LO).
    rewrite (old_kept _ (Nat.le_refl _)) in SL.
    assert (AT : forall p, (p < length cs)%nat -> exists c z arg h, nth_error cs p = Some c /\ c_loc c = Some (line_loc z) /\ line_at v co (at_ p) = Some z /\ ordinary v T c
       /\ nth_error (program (b_items b)) p = Some (PInstr (c_name c) arg (Some (line_loc z)) h)
       /\ (op_has_jump T (c_op c) = true -> exists k', (k' < length cs)%nat
             /\ offset_of v cs k' = jumps_to v T c (offset_of v cs p) /\ arg = PTo (Some k'))
       /\ (op_has_jump T (c_op c) = false -> exists x, decode_arg v T cb (c_op c) (c_arg c) = Ok x /\ arg = PObj x)).
    { intros p L. destruct (nth_error cs p) as [c|] eqn:N; [|apply nth_error_None in N; lia].
      destruct (instrs_split _ _ _ N) as (pre & post & EQ & LP). pose proof (OR c (nth_error_In _ _ N)) as OC.
      destruct (SH pre c post EQ) as (arg & h & B1 & B2 & B3 & _).
      { unfold kept. rewrite (proj2 (String.eqb_neq _ _) (not_cache c OC)). reflexivity. }
      rewrite LP in *. destruct (LO p c N) as (z & EL & _ & LZ). rewrite EL in B1. rewrite old_kept in B1 by lia.
      exists c, z, arg, h. split; [reflexivity|]. split; [exact EL|]. split; [exact LZ|]. split; [exact OC|]. split; [exact B1|]. split; [|exact B3].
      intros J. destruct (B2 J) as (k' & K1 & K2 & ->). exists k'. split; [exact K1|]. split; [exact K2|]. now rewrite old_kept by lia. }
    assert (OWN : forall k, (k < length (program (b_items b)))%nat -> exists n a lo h, nth_error (program (b_items b)) k = Some (PInstr n a (Some lo) h)).
    { intros k L. rewrite SL in L. destruct (AT k L) as (c & z & arg & h & _ & _ & _ & _ & Q & _). eauto. }
    destruct (located_own _ OWN cur) as [LO1 LO2].
    split; [rewrite LO1, SL; apply old_count|].
    intros p n a l h r X R. pose proof (nth_some_lt _ _ _ X) as L. rewrite LO1, SL in L.
    destruct (AT p L) as (c & z & arg & h' & N & EL & LZ & OC & EQ & J & NJ). rewrite (LO2 _ _ _ _ _ EQ) in X. injection X as <- <- <- <-.
    pose proof OC as ((O & B & A & _) & _). pose proof (nth_error_In _ _ R) as I. rewrite (old_ran p c N) in R.
    injection R as <-. cbn [r_start r_at r_end r_op r_arg].
    split; [exact O|]. split; [|split].
    - destruct (op_has_jump T (c_op c)) eqn:OJ.
      + destruct (J eq_refl) as (k' & K1 & K2 & ->). rewrite (old_begins k' K1), K2. f_equal.
        unfold goes_to, jumps_to. cbn [r_op r_arg r_end]. rewrite (proj1 (opmap_opname v T wf _ _) O), (no_caches_before v T wf _ _ P11), Z.add_0_r.
        change (if PY310 v then 2 else 1) with (ub v). destruct (z_mem (c_op c) (t_hasjrel T)); [|reflexivity].
        pose proof old_pos as PP. rewrite Forall_forall in PP. destruct (PP c (nth_error_In _ _ N)) as [Q1 Q2].
        pose proof (ub_units v (c_size c) Q2) as US. destruct (str_contains "BACKWARD" (c_name c)); rewrite ?Z.mul_sub_distr_l, ?Z.mul_add_distr_l, US; reflexivity.
      + destruct (NJ eq_refl) as (x & D & ->).
        assert (RD : reads v T cb (c_op c) (c_arg c) x).
        { destruct (shown_reads v T cb (c_op c) (c_arg c) x (category_of v T wf _ _ O B) OJ) as [[Q _]|[_ Q]]; auto.
          - destruct (c_arg c); [|exact A]. clear - A. lia.
          - intros P13. exfalso. clear - P11 P13. destruct v; vm_compute in P11, P13; congruence.
          - intros P11'. congruence. }
        eapply reads_tables; [..|exact RD]; unfold tables; cbn; auto.
    - intros off B'. unfold reports. rewrite P11. rewrite old_off in B'.
      assert (Q : line_at v co off = Some z).
      { pose proof (ab_same _ _ _ AC _ off I) as Q. cbn [r_start r_end] in Q. rewrite old_off in Q. rewrite (Q B'). exact LZ. }
      unfold line_at in Q. destruct (PY310 v); [exact Q|]. cbn [l_lineno line_loc]. intros y EY. congruence.
    - intros Q. congruence.
  Qed.

  Lemma old_writable :
    (forall i, In (BI i) (b_items b) -> legal_instr v T i)
    /\ (forall i, In (BI i) (b_items b) -> real_member v (i_arg i))
    /\ no_cache (b_items b) /\ S_Cfg.proper T (b_items b) /\ bracketed None (b_items b)
    /\ (forall n a l h cur, In (n, a, l, h) (S_Ident.located cur (program (b_items b))) -> coherent_loc v l)
    /\ (forall i, In (BI i) (b_items b) -> exists c l, In c cs /\ c_loc c = Some l /\ i_loc i = Some l
         /\ i_name i = c_name c /\ (op_has_jump T (c_op c) = false -> decode_arg v T cb (c_op c) (c_arg c) = Ok (i_arg i))).
  Proof.
    destruct old_facts as (OI & OK & CO & FC & FN & FV & FCE & FFR & EX & LO).
    apply (shown_writable v T wf cb conserve b (from_code_ordinary v T wf co cb F)); try (rewrite EX; intros e; intros; exfalso; match goal with H : In _ [] |- _ => destruct H end).
    - rewrite EX. split; [intros e []|]. intros m n e f _ Q. destruct m; discriminate Q.
    - rewrite FC. exact (ab_consts _ _ _ AC).
    - intros P13. exfalso. clear - P11 P13. destruct v; vm_compute in P11, P13; congruence.
    - intros c _ _ Q. congruence.
    - intros c I. apply In_nth_error in I. destruct I as (p & N). destruct (LO p c N) as (z & Q1 & Q2 & _). eauto.
    - exact TB.
  Qed.
End Old.
