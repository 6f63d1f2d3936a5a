(** Disassembly: the elements made for each concrete instruction (C22, C23). *)
From Verif Require Import PyBase OpTable P_Base P_OpTable M_Instr M_Tables M_Concrete S_Args S_Lines S_Asm S_Prog S_Dis
  P_Instr P_Instr2 P_Jumps P_Jumps2 P_AsmProps.
Open Scope string_scope.
Open Scope list_scope.
Open Scope Z_scope.

Section Dis.
  Variables (v : pyver) (T : optable) (cb : cbytecode) (prune conserve : bool) (targets : list Z).
  Hypothesis wf : wf_optable v T = true.

  (** the kept instruction made for [c] *)
  Definition body_of (lineno : Z) (c : cinstr) (offset : Z) (body : list bitem) : Prop :=
    if prune && String.eqb (c_name c) "CACHE" then body = [] /\ get_jump_target v T c offset = None
    else exists i x, body = [BI i] /\ legal_instr v T i /\ i_name i = c_name c
      /\ decode_arg v T cb (c_op c) (c_arg c) = Ok x
      /\ i_arg i = match get_jump_target v T c offset with Some t => label_at t | None => x end
      /\ i_loc i = Some (match c_loc c with Some l => l | None => line_loc (Some lineno) end).

  Definition tb_here (created : list nat) (offset : Z) : list bitem * list nat :=
    match ex_start_at 0 offset (cb_ex cb) with
    | Some (n, e) => if nat_mem n created then ([], created) else ([make_tb conserve n e], n :: created)
    | None => ([], created)
    end.

  Inductive dis : list nat -> Z -> list (Z * cinstr) -> list (list bitem) -> list nat -> Prop :=
  | dis_nil created o : dis created o [] [] created
  | dis_cons created o lineno c l tb cr1 body ends cr2 ps cr3 :
      tb_here created o = (tb, cr1) -> body_of lineno c o body ->
      emit_ends conserve cr1 (rev (ex_ends_at 0 (o + in_units v (c_size c - 2)) (cb_ex cb))) = (ends, cr2) ->
      dis cr2 (o + in_units v (c_size c - 2) + in_units v 2) l ps cr3 ->
      dis created o ((lineno, c) :: l)
        (((if z_mem o targets then [BLabel (Z.to_nat o)] else []) ++ tb ++ body ++ ends) :: ps) cr3.

  Fixpoint offsets_from (o : Z) (l : list cinstr) : list Z :=
    match l with [] => [] | c :: r => o :: offsets_from (o + in_units v (c_size c - 2) + in_units v 2) r end.

  Lemma in_units_div z : (if OFFSET_AS_INSTRUCTION v then z / 2 - 1 else z - 2) = in_units v (z - 2).
  Proof. destruct v; cbn; try lia; zdm. Qed.

  Lemma loop_dis l : forall created o out labels cr,
    to_bytecode_loop v T cb prune conserve targets created o l = Ok (out, labels, cr) ->
    exists ps, out = concat ps /\ dis created o l ps cr
      /\ labels = filter (fun z => z_mem z targets) (offsets_from o (map snd l)).
  Proof.
    induction l as [|[lineno c] l IH]; intros created o out labels cr H; cbn [to_bytecode_loop] in H.
    - injection H as <- <- <-. exists []. repeat split. constructor.
    - change (match ex_start_at 0 o (cb_ex cb) with Some (n, e) => _ | None => _ end) with (tb_here created o) in H.
      destruct (tb_here created o) as [tb cr1] eqn:TB.
      apply bind_ok in H. destruct H as (body & HB & H).
      rewrite in_units_div in H.
      replace (if OFFSET_AS_INSTRUCTION v then 1 else 2) with (in_units v 2) in H by (destruct v; reflexivity).
      destruct (emit_ends conserve cr1 (rev (ex_ends_at 0 (o + in_units v (c_size c - 2)) (cb_ex cb)))) as [ends cr2] eqn:EE.
      apply bind_ok in H. destruct H as ([[r labels'] cr'] & HR & H). injection H as <- <- <-.
      destruct (IH _ _ _ _ _ HR) as (ps & -> & D & ->).
      exists (((if z_mem o targets then [BLabel (Z.to_nat o)] else []) ++ tb ++ body ++ ends) :: ps).
      split; [cbn [concat]; now rewrite <- !app_assoc|]. split.
      + econstructor; eauto. unfold body_of. destruct (prune && String.eqb (c_name c) "CACHE").
        * destruct (get_jump_target v T c o); [discriminate|]. injection HB as <-. auto.
        * apply bind_ok in HB. destruct HB as (x & DA & HB). apply bind_ok in HB. destruct HB as (lo & LO & HB).
          apply bind_ok in HB. destruct HB as (i & NI & HB). injection HB as <-.
          apply (new_instr_val v T wf) in NI. destruct NI as (L & N1 & N2 & N3 & _).
          exists i, x. repeat split; auto; try (apply L). rewrite (N3 lo eq_refl). f_equal.
          destruct (c_loc c); [congruence|]. unfold new_location in LO. inv_ok. reflexivity.
      + cbn [map snd offsets_from filter]. destruct (z_mem o targets); reflexivity.
  Qed.
End Dis.

Lemma normalize_snd l : forall z, map snd (normalize_lineno z l) = instrs_of l.
Proof. induction l as [|[c|w] r IH]; intros z; cbn [normalize_lineno map instrs_of flat_map app]; auto. cbn [snd]. now rewrite IH. Qed.
Lemma normalize_line l : forall z pre c post, l = pre ++ CI c :: post ->
  nth_error (normalize_lineno z l) (length (instrs_of pre)) = Some (current_line z (pre ++ [CI c]), c).
Proof.
  induction l as [|it l IH]; intros z pre c post E; [destruct pre; discriminate E|].
  destruct pre as [|it' pre].
  - injection E as -> ->. cbn [normalize_lineno instrs_of flat_map length nth_error app]. unfold current_line. cbn [fold_left].
    unfold loc_lineno. destruct (c_loc c) as [lo|]; [|reflexivity]. destruct (l_lineno lo); reflexivity.
  - injection E as -> E. destruct it' as [d|w].
    + cbn [normalize_lineno instrs_of flat_map app length nth_error]. change (flat_map _ pre) with (instrs_of pre).
      rewrite (IH _ pre c post E). unfold current_line. cbn [fold_left]. unfold loc_lineno. destruct (c_loc d) as [lo|]; [|reflexivity]. destruct (l_lineno lo); reflexivity.
    + cbn [normalize_lineno instrs_of flat_map app length nth_error]. change (flat_map _ pre) with (instrs_of pre).
      rewrite (IH _ pre c post E). reflexivity.
Qed.

Section Facts.
  Variables (v : pyver) (T : optable).
  Hypothesis wf : wf_optable v T = true.

  Lemma offsets_from_nth cs : Forall pos cs -> forall o, offsets_from v o cs = map (fun k => o + offset_of v cs k) (seq 0 (length cs)).
  Proof.
    induction 1 as [|c cs P F IH]; intros o; [reflexivity|]. cbn [offsets_from length seq map]. rewrite offset_of_0, Z.add_0_r. f_equal.
    rewrite IH. rewrite <- seq_shift, map_map. apply map_ext. intros k. rewrite offset_of_cons.
    assert (in_units v (c_size c - 2) + in_units v 2 = in_units v (c_size c)); [|lia].
    destruct P as [P1 P2]. clear - P1 P2. destruct v; cbn; try lia; zdm.
  Qed.

  Lemma cut_unit c : pos c -> in_units v (c_size c - 2) + in_units v 2 = in_units v (c_size c).
  Proof. intros [P1 P2]. clear - P1 P2. destruct v; cbn; try lia; zdm. Qed.

  (** the pieces one by one *)
  Lemma dis_nth cb prune conserve targets created o l ps cr : dis v T cb prune conserve targets created o l ps cr ->
    Forall pos (map snd l) -> length ps = length l /\
    forall k lineno c, nth_error l k = Some (lineno, c) ->
    exists tb body ends, nth_error ps k = Some ((if z_mem (o + offset_of v (map snd l) k) targets
         then [BLabel (Z.to_nat (o + offset_of v (map snd l) k))] else []) ++ tb ++ body ++ ends)
      /\ body_of v T cb prune lineno c (o + offset_of v (map snd l) k) body
      /\ (forall it, In it (tb ++ ends) -> match it with BTB _ _ _ _ | BTE _ => True | _ => False end).
  Proof.
    assert (ENDS : forall es cr ends cr', emit_ends conserve cr es = (ends, cr') ->
      forall it, In it ends -> match it with BTB _ _ _ _ | BTE _ => True | _ => False end).
    { induction es as [|[n e] es IH]; intros cr0 ends cr' H it I; cbn [emit_ends] in H.
      - injection H as <- <-. destruct I.
      - destruct (nat_mem n cr0).
        + destruct (emit_ends conserve cr0 es) eqn:Q. injection H as <- <-. destruct I as [<-|I]; [exact Logic.I|exact (IH _ _ _ Q it I)].
        + destruct (emit_ends conserve (n :: cr0) es) eqn:Q. injection H as <- <-. destruct I as [<-|[<-|I]]; [exact Logic.I..|exact (IH _ _ _ Q it I)]. }
    induction 1 as [|created o lineno c l tb cr1 body ends cr2 ps cr3 TB BO EE D IH]; intros F.
    - split; [reflexivity|]. intros [|k] ? ? H; discriminate H.
    - cbn [map snd] in F. inversion F as [|? ? P F']; subst. destruct (IH F') as [L N]. split; [cbn; now rewrite L|].
      intros [|k] ln d H; cbn [nth_error map snd] in *.
      + injection H as <- <-. rewrite offset_of_0, Z.add_0_r. exists tb, body, ends. split; [reflexivity|]. split; [exact BO|].
        intros it I. apply in_app_or in I. destruct I as [I|I]; [|eapply ENDS; eauto].
        unfold tb_here in TB. destruct (ex_start_at 0 o (cb_ex cb)) as [[n e]|]; [destruct (nat_mem n created)|]; injection TB as <- <-; [destruct I|destruct I as [<-|[]]; exact Logic.I|destruct I].
      + rewrite offset_of_cons. destruct (N k ln d H) as (tb' & body' & ends' & A & B & C).
        replace (o + in_units v (c_size c - 2) + in_units v 2) with (o + in_units v (c_size c)) in * by (assert (Q := cut_unit c P); lia).
        rewrite <- Z.add_assoc in A, B. exists tb', body', ends'. auto.
  Qed.

  Lemma jump_target_is c o a : opmap T (c_name c) = Some (c_op c) -> c_op c < t_min_instrumented T ->
    c_arg c = Some a -> op_has_jump T (c_op c) = true ->
    get_jump_target v T c o = Some (jumps_to v T c o).
  Proof.
    intros OM LT A J. pose proof (wf_base v T wf _ _ OM LT) as W. cbv zeta in W. destruct W as (_ & _ & _ & W & _).
    unfold get_jump_target, jumps_to. rewrite A. unfold is_forward_rel_jump, is_backward_rel_jump, is_abs_jump, in_HASJREL, in_HASJABS, use_cache_opcodes.
    rewrite units_in. unfold op_has_jump in J.
    destruct (z_mem (c_op c) (t_hasjrel T)) eqn:R.
    - destruct (str_contains "BACKWARD" (c_name c)); cbn; f_equal; lia.
    - cbn [orb] in J. rewrite J in *. cbn in *. destruct (PY313 v); [discriminate W|reflexivity].
  Qed.
  Lemma no_jump_target c o : op_has_jump T (c_op c) = false -> get_jump_target v T c o = None.
  Proof.
    intros J. unfold get_jump_target. unfold is_forward_rel_jump, is_backward_rel_jump, is_abs_jump, in_HASJREL, in_HASJABS.
    unfold op_has_jump in J. apply orb_false_iff in J. destruct J as [-> ->]. destruct (c_arg c); [|reflexivity]. cbn. destruct (PY313 v); reflexivity.
  Qed.

  Lemma jump_targets_in cs : forall o k c t, nth_error cs k = Some c -> get_jump_target v T c (o + offset_of v cs k) = Some t ->
    In t (jump_targets_of v T o cs).
  Proof.
    induction cs as [|d cs IH]; intros o k c t N G; [destruct k; discriminate N|]. cbn [jump_targets_of]. apply in_or_app.
    destruct k as [|k]; cbn in N.
    - injection N as ->. rewrite offset_of_0, Z.add_0_r in G. rewrite G. left. now left.
    - right. rewrite offset_of_cons in G. rewrite units_in. apply (IH _ k c t N). now rewrite <- Z.add_assoc.
  Qed.
End Facts.

(** Input: instructions the setters can make, without EXTENDED_ARG *)
Definition plain_code (v : pyver) (T : optable) (items : list citem) : Prop :=
  forall c, In c (instrs_of items) -> opmap T (c_name c) = Some (c_op c) /\ pos c /\ c_name c <> "EXTENDED_ARG"
    /\ (op_has_jump T (c_op c) = true -> c_arg c <> None).

Section Main.
  Variables (v : pyver) (T : optable).
  Hypothesis wf : wf_optable v T = true.

  Lemma remove_none items : (forall c, In c (instrs_of items) -> c_name c <> "EXTENDED_ARG") ->
    forall nb, remove_extended_args v T nb None items = Ok items.
  Proof.
    induction items as [|[c|z] r IH]; intros H nb; cbn [remove_extended_args]; [reflexivity| |].
    - cbn [instrs_of flat_map] in H. change (flat_map _ r) with (instrs_of r) in H.
      assert (N : c_name c <> "EXTENDED_ARG") by (apply H; cbn; auto). apply String.eqb_neq in N. rewrite N.
      rewrite IH; [reflexivity|]. intros d I. apply H. cbn. auto.
    - rewrite IH; [reflexivity|]. intros d I. apply H. exact I.
  Qed.

  Record disassembled (cb : cbytecode) (prune conserve : bool) (b : bytecode) (targets : list Z) (ps : list (list bitem)) (cr : list nat) : Prop := {
    ds_items : b_items b = concat ps;
    ds_targets : targets = jump_targets_of v T 0 (instrs_of (cb_items cb)) ++ map e_target (cb_ex cb);
    ds_distinct : ex_starts_distinct (cb_ex cb) = true;
    ds_dis : dis v T cb prune conserve targets [] 0 (normalize_lineno (m_first_lineno (cb_meta cb)) (cb_items cb)) ps cr;
    ds_jumps : forall t, In t (jump_targets_of v T 0 (instrs_of (cb_items cb))) -> In t (offsets_from v 0 (instrs_of (cb_items cb)));
    ds_handlers : forall n e, In n cr -> nth_error (cb_ex cb) n = Some e -> In (e_target e) (offsets_from v 0 (instrs_of (cb_items cb)));
    ds_meta : b_meta b = mkMeta (m_argcount (cb_meta cb)) (m_posonly (cb_meta cb)) (m_kwonly (cb_meta cb)) (m_first_lineno (cb_meta cb))
             (m_name (cb_meta cb)) (m_qualname (cb_meta cb)) (m_filename (cb_meta cb)) (set_docstring (m_docstring (cb_meta cb)) (cb_consts cb))
             (m_cellvars (cb_meta cb)) (m_freevars (cb_meta cb)) (m_flags (cb_meta cb));
    ds_argnames : b_argnames b = firstn (Z.to_nat (nargs_of (cb_meta cb))) (cb_varnames cb) }.

  Lemma to_bytecode_dis cb prune conserve b : plain_code v T (cb_items cb) -> to_bytecode v T cb prune conserve = Ok b ->
    exists targets ps cr, disassembled cb prune conserve b targets ps cr.
  Proof.
    intros PC H. unfold to_bytecode in H. rewrite remove_none in H by (intros c I; apply (PC c I)). cbn [bind] in H.
    apply bind_ok in H. destruct H as (u & G & H). apply guard_ok in G. apply bind_ok in H. destruct H as ([[out labels] cr] & L & H).
    apply bind_ok in H. destruct H as (u2 & G2 & H). apply guard_ok in G2. apply bind_ok in H. destruct H as (u3 & G3 & H). apply guard_ok in G3.
    injection H as <-. destruct (loop_dis v T cb prune conserve _ wf _ _ _ _ _ _ L) as (ps & -> & D & ->).
    rewrite normalize_snd in G2, G3. rewrite forallb_forall in G2, G3.
    eexists. exists ps, cr. split; cbn; try reflexivity; auto.
    - intros t I. specialize (G2 t I). apply z_mem_In in G2. apply filter_In in G2. tauto.
    - intros n e I N. specialize (G3 n I). rewrite N in G3. apply z_mem_In in G3. apply filter_In in G3. tauto.
  Qed.
End Main.
