(** from_code() of every code object of a compiler returns, and what it returns can be assembled. *)
From Verif Require Import PyBase OpTable CPy P_Base P_OpTable M_Instr M_Tables M_Concrete M_Convert M_Cfg S_Args S_Lines S_Prog S_Slots S_Asm S_Dis S_Cfg S_Ident S_Round S_Code
  P_Asm P_Except P_Instr P_Round P_Round2 P_Conv2 P_Cat P_Args P_Decode P_CfgSeq P_Cfg P_Dis P_Dis2 P_Dis3 P_Dis4 P_Dis5 P_Dis6 P_Jumps P_Jumps2 P_Ident P_Code P_Code2 P_From P_From2
  T_Instr T_Round T_Code T_Dis M_Full T_Full T_From S_Total S_From.
Open Scope string_scope.
Open Scope list_scope.
Open Scope Z_scope.

Section Doc.
  Variables (v : pyver) (T : optable) (cb : cbytecode).
  Lemma reads_doc op arg x : category v T op -> op_has_jump T op = false -> reads v T cb op arg x ->
    (forall c, In c (cb_consts cb) -> constant_object c) ->
    match arg with Some a => 0 <= a <= 2147483647 /\ opcode_has_argument v T op = true | None => True end ->
    (is_dual v T op = true -> exists n m, x = OTuple [OStr n; OStr m]) -> doc_arg v T op x.
  Proof.
    intros C NJ R KC AR DU.
    assert (IT : forall l, In op l -> z_mem op l = true) by (intros; now apply z_mem_In).
    destruct R.
    - now apply doc_none.
    - destruct AR. eapply doc_int; eauto.
    - apply doc_const; [exact H| | |]; destruct H0 as [_ H0]; apply nth_error_In in H0; apply KC in H0; intros; intro Q; rewrite Q in H0; exact H0.
    - apply IT in H.
      assert (SN : simple_name v T op).
      { split; [left; now apply z_mem_In|]. destruct C as [C HA C1 C2 C3|C HA C1 C2 C3|C HA C2 C3|C HA C1 C2|C HA C1 C2 C3|C HA C1 C2 C3|C HA C1 C2 C3 C4|C C1 C2 C3]; destruct C as (E1 & E2 & E3 & E4 & _); try congruence. auto. }
      apply z_mem_In in H. destruct H1 as [FS [P|(n & ->)]]; [|now apply doc_str].
      destruct FS; [now apply doc_str|now apply doc_local_cell|now apply doc_local_cell|now apply doc_local_free].
    - destruct (DU H) as (n & m & Q). injection Q as -> ->. apply doc_pair; eauto.
    - apply doc_str. apply IT in H. split; [right; now apply z_mem_In|]. split; [assumption|]. split; [assumption|].
      destruct C as [C HA C1 C2 C3|C HA C1 C2 C3|C HA C2 C3|C HA C1 C2|C HA C1 C2 C3|C HA C1 C2 C3|C HA C1 C2 C3 C4|C C1 C2 C3]; destruct C as (E1 & E2 & E3 & E4 & _); try congruence.
    - apply doc_flag; [|assumption]. apply z_mem_In.
      destruct C as [C HA C1 C2 C3|C HA C1 C2 C3|C HA C2 C3|C HA C1 C2|C HA C1 C2 C3|C HA C1 C2 C3|C HA C1 C2 C3 C4|C C1 C2 C3]; destruct C as (E1 & E2 & E3 & E4 & _); try congruence.
    - apply doc_flag2; [|assumption]. apply z_mem_In.
      destruct C as [C HA C1 C2 C3|C HA C1 C2 C3|C HA C2 C3|C HA C1 C2|C HA C1 C2 C3|C HA C1 C2 C3|C HA C1 C2 C3 C4|C C1 C2 C3]; destruct C as (E1 & E2 & E3 & E4 & _); try congruence.
    - destruct H0 as [NS D]. destruct (PY311 v); destruct D; try (exfalso; now eapply NS); now apply doc_cell || now apply doc_free.
    - now apply doc_compare.
    - now apply doc_intr1.
    - now apply doc_intr2.
  Qed.
End Doc.

Section Total.
  Variables (v : pyver) (T : optable).
  Hypothesis wf : wf_optable v T = true.
  Hypothesis P11 : PY311 v = true.
  Variable co : codeobj.
  Hypothesis AC : as_compiled v T co.
  Hypothesis UN : understood v T co.

  Lemma read_total : exists cb, from_code v T co false = Ok cb.
  Proof.
    apply C03_code_accepted_partial; auto.
    - exact (ac_code _ _ _ AC).
    - exact (un_known _ _ _ UN).
    - intros _. exact (un_args _ _ _ UN).
    - intros _ l el c ec I. apply C07_location_accepts_coherent. exact (un_positions _ _ _ UN _ _ _ _ I).
    - congruence.
  Qed.

  Variable cb : cbytecode.
  Hypothesis F : from_code v T co false = Ok cb.
  Notation cs := (instrs_of (cb_items cb)).
  Variable gs : list (list cinstr).
  Hypothesis GS : cs = concat gs.
  Hypothesis GR : Forall (grp v T) gs.
  Notation off p := (offset_of v cs (start gs p)).

  Lemma goes_jumps p c ks : nth_error gs p = Some (c :: ks) ->
    goes_to v T (mkRan (2 * off p) (2 * off p + c_size c - 2) (2 * off (S p)) (c_op c) (c_arg c)) = 2 * jumps_to v T c (off p).
  Proof.
    intros G. assert (IU2 : forall s, in_units v s = s / 2) by (intros s; destruct v; vm_compute in P11; try discriminate P11; reflexivity).
    unfold goes_to, jumps_to. cbn [r_op r_arg r_end].
    pose proof GR as GR'. rewrite Forall_forall in GR'. destruct (GR' _ (nth_error_In _ _ G)) as (c0 & ks0 & Q0 & M & NC & LK & FK). injection Q0 as <- <-.
    pose proof M as [((O & _) & _) _].
    rewrite (proj1 (opmap_opname v T wf _ _) O).
    replace (PY310 v) with true by (destruct v; vm_compute in P11; try discriminate P11; reflexivity).
    destruct (z_mem (c_op c) (t_hasjrel T)); [|lia]. rewrite (IU2 _).
    assert (E2 : 2 * off (S p) = 2 * off p + c_size c + 2 * cache_entries v T (c_name c) (c_op c)).
    { rewrite <- !(off_code v T wf P11 co cb AC F gs GS), (firstn_S_nth _ _ _ G), concat_app, code_app, zlen_app by exact wf. cbn [concat]. rewrite app_nil_r, (grp_len v T wf c ks M LK FK). lia. }
    pose proof (poss v T wf P11 co cb AC F) as PP. rewrite Forall_forall in PP. destruct (PP c (nth_error_In _ _ (head_at cb gs GS p c ks G))) as [Q1 Q2].
    rewrite E2. destruct (str_contains "BACKWARD" (c_name c)); clear - Q1 Q2; zdm.
  Qed.

  (** instructions other than caches are heads of groups *)
  Lemma head_of k c : nth_error cs k = Some c -> c_name c <> "CACHE" -> exists p ks, nth_error gs p = Some (c :: ks) /\ k = start gs p.
  Proof.
    intros N NC. rewrite GS in N. destruct (P_Conv2.concat_inv gs k c N) as (p & g & j & G & J & K).
    pose proof GR as GR'. rewrite Forall_forall in GR'. destruct (GR' g (nth_error_In _ _ G)) as (c0 & ks & -> & _ & _ & _ & FK).
    destruct j as [|j]; cbn in J.
    - injection J as ->. exists p, ks. split; [exact G|lia].
    - exfalso. rewrite Forall_forall in FK. destruct (FK c (nth_error_In _ _ J)) as (Q & _). contradiction.
  Qed.
  Lemma jump_not_cache c : ordinary v T c -> op_has_jump T (c_op c) = true -> c_name c <> "CACHE".
  Proof.
    intros ((O & B & _) & _) J Q. rewrite Q in O. destruct (wf_cache_op0 v T wf P11) as (X & Y & _). rewrite X in O. assert (O0 : c_op c = 0) by congruence. rewrite O0 in *.
    pose proof (category_of v T wf _ _ X B) as C. destruct C as [C HA|C|C|C|C|C|C|C]; [congruence|..]; destruct C as (E1 & _); congruence.
  Qed.

  Lemma show_total conserve : exists b, to_bytecode v T cb true conserve = Ok b.
  Proof.
    pose proof (from_code_ordinary v T wf co cb F) as OR.
    destruct (from_facts v T wf P11 co cb AC F) as (OI & OK & CO & FC & FN & FV & FCE & FFR & FL & EX & LO).
    apply (C22_accepted v T cb true conserve wf OR).
    - intros pre c post E K. assert (NC : c_name c <> "CACHE").
      { unfold kept in K. cbn [andb] in K. destruct (String.eqb_spec (c_name c) "CACHE"); [discriminate|assumption]. }
      assert (N : nth_error cs (length (instrs_of pre)) = Some c).
      { rewrite E. unfold instrs_of. rewrite flat_map_app, nth_error_app2, Nat.sub_diag by lia. reflexivity. }
      destruct (head_of _ _ N NC) as (p & ks & G & _). pose proof (nth_error_In _ _ (ran_at v T wf P11 co cb AC F gs GS GR p c ks G)) as IR.
      pose proof (OR c (nth_error_In _ _ N)) as ((O & B & A & _) & _). pose proof (category_of v T wf _ _ O B) as CAT.
      destruct (LO c (nth_error_In _ _ N)) as (l & EL & _). split; [|congruence]. intros OJ.
      assert (FA : frees_apart v cb). { intros _ y I1. rewrite FFR in I1. rewrite FV. exact (ac_free _ _ _ AC y I1). }
      assert (DC : deref_is_cell v T cb (c_op c) (c_arg c)).
      { intros _ HF a0 n0 EA AA. rewrite FV in AA. rewrite FCE. exact (ac_deref _ _ _ AC _ a0 n0 IR HF EA AA). }
      assert (TR : forall x, reads v T (tables co) (c_op c) (c_arg c) x -> reads v T cb (c_op c) (c_arg c) x).
      { intros x. apply reads_tables; unfold tables; cbn; auto. }
      assert (AR : match c_arg c with Some a => 0 <= a <= 2147483647 /\ opcode_has_argument v T (c_op c) = true | None => opcode_has_argument v T (c_op c) = false end).
      { destruct (c_arg c); [|exact A]. destruct A as [A [A'|A']]; [auto|]. exfalso. apply NC. rewrite A' in O. exact (wf_op0 v T wf _ O). }
      assert (KC : forall x, In x (cb_consts cb) -> constant_object x) by (rewrite FC; exact (ac_consts _ _ _ AC)).
      assert (DOC : forall x, reads v T cb (c_op c) (c_arg c) x -> real_member v x -> (is_dual v T (c_op c) = true -> exists n m, x = OTuple [OStr n; OStr m]) ->
        exists y, decode_arg v T cb (c_op c) (c_arg c) = Ok y /\ doc_arg v T (c_op c) y).
      { intros x RX MX DX. destruct (reads_shown v T cb (c_op c) (c_arg c) x CAT RX MX FA) as (y & DY & SY). exists y. split; [exact DY|].
        assert (RY : reads v T cb (c_op c) (c_arg c) y).
        { destruct (shown_reads v T cb (c_op c) (c_arg c) y CAT OJ) as [[Q _]|[_ Q]]; auto. destruct (c_arg c); [lia|exact AR]. }
        apply (reads_doc v T cb (c_op c) (c_arg c) y CAT OJ RY KC); [destruct (c_arg c); auto|].
        intros D. destruct (DX D) as (n & m & ->). inversion SY; subst.
        - eauto.
        - match goal with H : as_int _ = Some _ |- _ => discriminate H end.
        - match goal with H : same_arg _ _ _ _ (OStr n) _ |- _ => inversion H; subst end; try (match goal with H : as_int _ = Some _ |- _ => discriminate H end).
          match goal with H : same_arg _ _ _ _ (OStr m) _ |- _ => inversion H; subst end; try (match goal with H : as_int _ = Some _ |- _ => discriminate H end). eauto. }
      destruct (is_dual v T (c_op c)) eqn:DU.
      + destruct (un_pairs _ _ _ UN _ IR DU) as (n & m & R). cbn [r_op r_arg] in R. apply (DOC (OTuple [OStr n; OStr m])); [now apply TR|exact Logic.I|eauto].
      + destruct (un_reads _ _ _ UN _ IR OJ) as (x & R & M). cbn [r_op r_arg] in R. apply (DOC x); [now apply TR|exact M|discriminate].
    - pose proof (entries_apart v T wf P11 co cb AC F) as EA. pose proof (entry_at v T wf P11 co cb AC F gs GS GR) as ET.
      assert (SE : forall e, In e (cb_ex cb) -> e_start e <= e_stop e).
      { intros e I. destruct (ET e I) as (p & q & h & PQ & _ & E1 & E2 & _). rewrite E1, E2.
        pose proof (proj2 (off_mono v T wf P11 co cb AC F gs GS GR p (S q) ltac:(lia) ltac:(lia)) ltac:(lia)). lia. }
      clear - EA SE. apply NoDup_nth_error. intros i j L E. rewrite map_length in L. rewrite !nth_error_map in E.
      destruct (nth_error (cb_ex cb) i) as [e|] eqn:N1; [|apply nth_error_None in N1; lia].
      destruct (nth_error (cb_ex cb) j) as [f|] eqn:N2; [|discriminate]. cbn in E. injection E as E.
      pose proof (SE e (nth_error_In _ _ N1)). pose proof (SE f (nth_error_In _ _ N2)).
      destruct (Nat.lt_trichotomy i j) as [X|[X|X]]; [|exact X|].
      + pose proof (EA i j e f X N1 N2). lia.
      + pose proof (EA j i f e X N2 N1). lia.
    - intros k c N J. pose proof (jump_not_cache c (OR c (nth_error_In _ _ N)) J) as NC.
      destruct (head_of k c N NC) as (p & ks & G & ->). pose proof (nth_error_In _ _ (ran_at v T wf P11 co cb AC F gs GS GR p c ks G)) as IR.
      destruct (ac_jumps _ _ _ AC _ IR J) as (r' & I' & E'). rewrite (goes_jumps p c ks G) in E'.
      destruct (ran_inv v T wf P11 co cb AC F gs GS GR r' I') as (q & c' & ks' & G' & _ & -> & _). cbn [r_start] in E'.
      exists (start gs q). split; [|lia]. exact (nth_some_lt _ _ _ (head_at cb gs GS q c' ks' G')).
    - intros e I. destruct (entry_at v T wf P11 co cb AC F gs GS GR e I) as (p & q & h & _ & LH & _ & _ & E3).
      destruct (nth_error gs h) as [g|] eqn:G; [|apply nth_error_None in G; lia].
      pose proof GR as GR'. rewrite Forall_forall in GR'. destruct (GR' g (nth_error_In _ _ G)) as (c0 & ks & -> & _).
      exists (start gs h). split; [|auto]. exact (nth_some_lt _ _ _ (head_at cb gs GS h c0 ks G)).
  Qed.
End Total.
