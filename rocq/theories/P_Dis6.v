(** When the disassembler succeeds (C22, C23). *)
From Verif Require Import PyBase OpTable CPy P_Base P_OpTable P_Asm P_Cat M_Instr M_Tables M_Concrete S_Args S_Lines S_Asm S_Prog S_Dis
  P_Instr P_Instr2 P_Jumps P_Jumps2 P_AsmProps P_Dis P_Dis2 P_Dis3 P_Dis4 P_Dis5.
Open Scope string_scope.
Open Scope list_scope.
Open Scope Z_scope.

Lemma wf_cache_absent v T : wf_optable v T = true -> PY311 v = false -> opmap T "CACHE" = None.
Proof.
  intros W V. unfold wf_optable in W.
  repeat (apply andb_prop in W; let X := fresh "X" in destruct W as [W X]).
  rewrite V in *. destruct (opmap T "CACHE"); [discriminate|reflexivity].
Qed.

Section Main.
  Variables (v : pyver) (T : optable).
  Hypothesis wf : wf_optable v T = true.

  Lemma jump_decode cb n op a : opmap T n = Some op -> op < t_min_instrumented T -> op_has_jump T op = true ->
    exists x, decode_arg v T cb op a = Ok x.
  Proof.
    intros OM LT J. assert (C := category_of v T wf n op OM LT). unfold decode_arg.
    destruct C as [C|C|C|C|C|C|C|C]; destruct C as (E1 & E2 & E3 & E4 & E5 & E6 & E7); try congruence.
    rewrite E2, E3, E4, E5, E6. unfold is_intrinsic in E7. apply orb_false_iff in E7. destruct E7 as [E7 E8]. rewrite E7, E8. eauto.
  Qed.

  Lemma cache_no_jump c o : c_name c = "CACHE" -> opmap T (c_name c) = Some (c_op c) -> c_op c < t_min_instrumented T ->
    get_jump_target v T c o = None.
  Proof.
    intros E OM LT. apply no_jump_target. pose proof (wf_base v T wf _ _ OM LT) as W. cbv zeta in W. destruct W as (_ & W & _). cbn [existsb] in W.
    destruct (op_has_jump T (c_op c)); [|reflexivity]. cbn in W. rewrite E in OM.
    assert (X : c_op c = 0 /\ opcode_has_argument v T 0 = false).
    { clear - wf OM. destruct (PY311 v) eqn:V.
      - destruct (wf_cache_op0 v T wf V) as (X & Y & _). rewrite X in OM. injection OM as <-. auto.
      - exfalso. pose proof (wf_cache_absent v T wf V). congruence. }
    destruct X as [X0 X]. rewrite X0 in W. congruence.
  Qed.

  (** each instruction can be shown *)
  Definition showable (cb : cbytecode) (prune : bool) : Prop :=
    forall pre c post, cb_items cb = pre ++ CI c :: post -> kept prune c = true ->
      (op_has_jump T (c_op c) = false -> exists x, decode_arg v T cb (c_op c) (c_arg c) = Ok x /\ doc_arg v T (c_op c) x)
      /\ (c_loc c = None -> (if PY311 v then 0 else 1) <= current_line (m_first_lineno (cb_meta cb)) (pre ++ [CI c])).

  Lemma loop_total cb prune conserve targets l : forall created o,
    (forall j ln c, nth_error l j = Some (ln, c) -> opmap T (c_name c) = Some (c_op c) /\ c_op c < t_min_instrumented T /\ c_name c <> "EXTENDED_ARG"
       /\ (op_has_jump T (c_op c) = true -> c_arg c <> None)
       /\ (kept prune c = true -> (op_has_jump T (c_op c) = false -> exists x, decode_arg v T cb (c_op c) (c_arg c) = Ok x /\ doc_arg v T (c_op c) x)
           /\ (c_loc c = None -> (if PY311 v then 0 else 1) <= ln))) ->
    exists out labels cr, to_bytecode_loop v T cb prune conserve targets created o l = Ok (out, labels, cr).
  Proof.
    induction l as [|[ln c] l IH]; intros created o H; cbn [to_bytecode_loop]; [eauto|].
    destruct (match ex_start_at 0 o (cb_ex cb) with Some (n, e) => _ | None => _ end) as [tb cr1].
    destruct (H 0%nat ln c eq_refl) as (OM & LT & NX & AR & K). unfold kept in K.
    match goal with |- exists out labels cr, bind ?x _ = _ => assert (B : exists body, x = Ok body) end.
    { destruct (prune && String.eqb (c_name c) "CACHE") eqn:Q.
      - apply andb_true_iff in Q. destruct Q as [_ Q]. apply String.eqb_eq in Q. rewrite (cache_no_jump c o Q OM LT). eauto.
      - destruct (K eq_refl) as [K1 K2].
        assert (D : exists x, decode_arg v T cb (c_op c) (c_arg c) = Ok x /\ (op_has_jump T (c_op c) = false -> doc_arg v T (c_op c) x)).
        { destruct (op_has_jump T (c_op c)) eqn:J; [|destruct (K1 eq_refl) as (x & X1 & X2); eauto].
          destruct (jump_decode cb _ _ (c_arg c) OM LT J) as (x & X). exists x. split; [exact X|discriminate]. }
        destruct D as (x & D1 & D2). rewrite D1. cbn [bind].
        assert (LO : exists lo, match c_loc c with Some x => Ok x | None => new_location v (Some ln) None None None end = Ok lo).
        { destruct (c_loc c); [eauto|]. apply new_location_line. now apply K2. }
        destruct LO as (lo & LO). rewrite LO. cbn [bind].
        assert (NI : exists i, new_instr v T (c_name c) (match get_jump_target v T c o with Some t => label_at t | None => x end) LUnset (Some lo) = Ok i).
        { apply (new_instr_iff v T wf). split; [|discriminate]. exists (c_op c). repeat split; auto.
          destruct (op_has_jump T (c_op c)) eqn:J.
          - destruct (c_arg c) as [a|] eqn:A; [|now destruct (AR eq_refl)]. rewrite (jump_target_is v T wf c o a OM LT A J).
            apply doc_label. unfold op_has_jump in J. apply orb_true_iff in J. destruct J as [J|J]; apply z_mem_In in J; [now left|now right].
          - rewrite (no_jump_target v T c o J). auto. }
        destruct NI as (i & NI). rewrite NI. cbn [bind]. eauto. }
    destruct B as (body & B). rewrite B. cbn [bind]. destruct (emit_ends _ _ _) as [ends cr2].
    destruct (IH cr2 (o + (if OFFSET_AS_INSTRUCTION v then c_size c / 2 - 1 else c_size c - 2) + (if OFFSET_AS_INSTRUCTION v then 1 else 2))) as (r & lb & cr3 & E).
    { intros j ln' c' N. apply (H (S j) ln' c' N). }
    rewrite E. cbn [bind]. eauto.
  Qed.

  Theorem to_bytecode_total cb prune conserve : (forall c, In c (instrs_of (cb_items cb)) -> ordinary v T c) -> showable cb prune ->
    NoDup (map e_start (cb_ex cb)) ->
    let cs := instrs_of (cb_items cb) in
    (forall k c, nth_error cs k = Some c -> op_has_jump T (c_op c) = true ->
       exists k', (k' < length cs)%nat /\ offset_of v cs k' = jumps_to v T c (offset_of v cs k)) ->
    (forall e, In e (cb_ex cb) -> exists k', (k' < length cs)%nat /\ offset_of v cs k' = e_target e) ->
    exists b, to_bytecode v T cb prune conserve = Ok b.
  Proof.
    intros O SH ND cs JT HT. assert (PC := ordinary_plain v T wf _ O). assert (P : Forall pos cs) by (exact (plain_pos v T _ PC)).
    unfold to_bytecode. rewrite remove_none by (intros c I; apply (PC c I)). cbn [bind]. fold cs.
    assert (G1 : ex_starts_distinct (cb_ex cb) = true) by (unfold ex_starts_distinct; apply NoDup_nodupb; [intros; apply Z.eqb_eq|exact ND]). rewrite G1. cbn [guard bind].
    match goal with |- exists b, bind (to_bytecode_loop _ _ _ _ _ ?tg _ _ ?l) _ = _ => destruct (loop_total cb prune conserve tg l [] 0) as (out & labels & cr & E) end.
    { intros j ln c N.
      assert (I : In c cs). { unfold cs. rewrite <- (normalize_snd (cb_items cb) (m_first_lineno (cb_meta cb))). apply in_map_iff. exists (ln, c). split; [reflexivity|]. eapply nth_error_In; eauto. }
      destruct (PC c I) as (OM & _ & NX & AR). destruct (O c I) as ((_ & LT & _) & _).
      repeat (split; [assumption|]). intros K.
      assert (SP : exists pre post, cb_items cb = pre ++ CI c :: post /\ length (instrs_of pre) = j).
      { clear - N. revert N. generalize (m_first_lineno (cb_meta cb)). revert j. induction (cb_items cb) as [|it items IH]; intros j z N; [destruct j; discriminate N|].
        destruct it as [d|w]; cbn [normalize_lineno] in N.
        - destruct j as [|j]; cbn [nth_error] in N.
          + injection N as _ ->. exists [], items. auto.
          + destruct (IH j _ N) as (pre & post & -> & L). exists (CI d :: pre), post. split; [reflexivity|]. cbn. now f_equal.
        - destruct (IH j _ N) as (pre & post & -> & L). exists (CSet w :: pre), post. split; [reflexivity|]. exact L. }
      destruct SP as (pre & post & EP & EL). pose proof (normalize_line _ (m_first_lineno (cb_meta cb)) pre c post EP) as NL. rewrite EL, N in NL. injection NL as ->.
      exact (SH pre c post EP K). }
    rewrite E. cbn [bind]. destruct (loop_dis v T cb prune conserve _ wf _ _ _ _ _ _ E) as (ps & _ & _ & LB). rewrite normalize_snd in LB. fold cs in LB.
    assert (ST : forall k', (k' < length cs)%nat -> In (offset_of v cs k') (offsets_from v 0 cs)).
    { intros k' K. rewrite (offsets_from_nth v T wf cs P). apply in_map_iff. exists k'. split; [lia|]. apply in_seq. lia. }
    assert (JI : forall t, In t (jump_targets_of v T 0 cs) -> In t (offsets_from v 0 cs)).
    { intros t I. assert (X : exists k c, nth_error cs k = Some c /\ get_jump_target v T c (0 + offset_of v cs k) = Some t).
      { clear - I. revert I. generalize 0. induction cs as [|c l IH]; intros o I; cbn [jump_targets_of] in I; [destruct I|].
        apply in_app_or in I. destruct I as [I|I].
        - exists 0%nat, c. split; [reflexivity|]. rewrite offset_of_0, Z.add_0_r. destruct (get_jump_target v T c o); [|destruct I]. now destruct I as [->|[]].
        - destruct (IH _ I) as (k & d & N & G). exists (S k), d. split; [exact N|]. rewrite offset_of_cons. rewrite <- G. f_equal. rewrite units_in. lia. }
      destruct X as (k & c & N & G). cbn [Z.add] in G. assert (IC : In c cs) by (eapply nth_error_In; eauto).
      destruct (op_has_jump T (c_op c)) eqn:J; [|rewrite (no_jump_target v T c _ J) in G; discriminate].
      destruct (PC c IC) as (OM & _ & _ & AR). destruct (O c IC) as ((_ & LT & _) & _). destruct (c_arg c) as [a|] eqn:A; [|now destruct (AR J)].
      rewrite (jump_target_is v T wf c _ a OM LT A J) in G. injection G as <-. destruct (JT k c N J) as (k' & K & <-). now apply ST. }
    assert (G2 : forallb (fun t => z_mem t labels) (jump_targets_of v T 0 cs) = true).
    { apply forallb_forall. intros t I. apply z_mem_In. rewrite LB. apply filter_In. split; [now apply JI|]. apply z_mem_In, in_or_app. now left. }
    rewrite G2. cbn [guard bind].
    match goal with |- context [guard ?x KeyError] => assert (G3 : x = true) end.
    { apply forallb_forall. intros n I. destruct (nth_error (cb_ex cb) n) as [e|] eqn:N; [|reflexivity]. assert (IE : In e (cb_ex cb)) by (eapply nth_error_In; eauto).
      apply z_mem_In. rewrite LB. apply filter_In. split.
      - destruct (HT e IE) as (k' & K & <-). now apply ST.
      - apply z_mem_In, in_or_app. right. apply in_map_iff. eauto. }
    rewrite G3. cbn [guard bind]. eauto.
  Qed.
End Main.
