(** Property theorems: the stack depth of handlers, given or conserved (C73). *)
From Verif Require Import PyBase OpTable Table311 CPyEffect P_Base M_Instr M_Tables M_Concrete M_Convert M_Bytecode M_Cfg M_Stack M_Full
  S_Args S_Asm S_Slots S_Lines S_Prog S_Ident S_Dis S_Cfg S_Round S_Code P_Asm P_Except P_CfgSeq P_CfgTo2 P_Dis P_Dis2 P_Dis3 P_Dis4 P_Layout P_Layout2 P_Ident P_Ident2 P_Ident3
  P_Dis5 P_Conv2  P_Code P_Code2 P_From P_From2 P_DisDepth P_Stack4 P_Full T_Asm T_Args T_Code T_Full T_From T_Cfg2 T_Depths.
Open Scope string_scope.
Open Scope list_scope.
Open Scope Z_scope.

(** ** Specification *)

(** An exception raised by any code unit of instruction number [k] unwinds the stack to the depth
    [d] ([None]: no handler is found). *)
Definition unwinds (v : pyver) (T : optable) (co : codeobj) (k : nat) (d : option Z) : Prop :=
  forall r u, nth_error (instructions v T co) k = Some r -> r_at r <= 2 * u < r_end r ->
    option_map (fun h => snd (fst h)) (find_handler co u) = d.

(** ** Proofs *)
Lemma depth_handler l : forall pos o c k x, (o = None <-> c = None) -> nth_error (try_depths c l) k = Some x ->
  forall cur y, nth_error (located cur (walk pos o l)) k = Some y -> (snd y = None <-> x = None).
Proof.
  induction l as [|it l IH]; intros pos o c k x OC E cur y N; [destruct k; discriminate|].
  destruct it as [i|n|z|id t la d|id]; cbn [try_depths walk located] in *.
  - destruct k as [|k]; cbn in *.
    + injection E as <-. destruct (i_loc i); injection N as <-; exact OC.
    + destruct (i_loc i); eapply IH; eauto.
  - eapply IH; eauto.
  - eapply IH; eauto.
  - eapply IH; [|exact E|exact N]. split; discriminate.
  - eapply IH; [|exact E|exact N]. tauto.
Qed.
Lemma depths_len l : forall c pos o cur, length (try_depths c l) = length (located cur (walk pos o l)).
Proof. induction l as [|it l IH]; intros; [reflexivity|]. destruct it; cbn; [destruct (i_loc i); cbn; f_equal; apply IH|apply IH..]. Qed.

(** the depths in the code object are those of the TryBegins of the list that is assembled *)
Lemma written v T keq passes b cb n co : wf_optable v T = true -> PY311 v = true -> sound_key keq -> writable v T b ->
  to_concrete v T keq passes b = Ok cb -> to_code_raw v T cb n = Ok co -> pairs_near v T b (co_varnames co) ->
  forall k x, nth_error (try_depths None (b_items b)) k = Some x -> unwinds v T co k (match x with Some d => d | None => None end).
Proof.
  intros wf P11 HK W E1 E2 HP k x D.
  assert (VN : co_varnames co = cb_varnames cb).
  { unfold to_code_raw in E2. destruct (assemble_code v T cb) as [code ln]. inv_ok. reflexivity. }
  rewrite VN in HP. pose proof (writable_blocks _ _ _ W) as WB.
  assert (RUN : runs v T co (source b)) by (destruct W; eapply C50_code_runs_program_partial; eauto).
  destruct (to_concrete_assembled v T keq wf passes b cb E1) as (vn & K0 & gs0 & Kf & gs & en & A).
  pose proof (code_depths v T keq wf b cb vn K0 gs0 Kf gs en A (w_legal _ _ _ W) (w_members _ _ _ W) HK (w_caches _ _ _ W) WB HP co n E2 (w_locs _ _ _ W) P11) as CD.
  destruct RUN as [LEN RUN].
  assert (KL : (k < length (source b))%nat).
  { unfold source, program. rewrite <- (depths_len (b_items b) None). apply nth_error_Some. congruence. }
  destruct (nth_error (source b) k) as [[[[nm a] lo] h]|] eqn:SN; [|apply nth_error_None in SN; lia].
  assert (HX := depth_handler _ (position (b_items b)) None None k x ltac:(tauto) D _ _ SN). cbn [snd] in HX.
  intros r u R U. destruct x as [d|].
  - destruct (CD k r u d R U D) as (target & z & lasti & FH & ->). now rewrite FH.
  - destruct (RUN _ _ _ _ _ _ SN R) as (_ & _ & _ & RH). specialize (RH P11 u U). rewrite (proj2 HX eq_refl) in RH. now rewrite RH.
Qed.

(** ** C73 *)

(** C73.  to_code(stacksize=s, compute_exception_stack_depths=False): an exception raised in a try
    block unwinds the stack to the stack_depth of its TryBegin, outside of try blocks it is not
    caught. *)
Theorem C73_written_partial : forall v T se keq passes s check b co,
  wf_optable v T = true -> PY311 v = true -> sound_key keq -> writable v T b ->
  bytecode_to_code v T se keq passes (Some s) check false b = Ok co -> pairs_near v T b (co_varnames co) ->
  forall k x, nth_error (try_depths None (b_items b)) k = Some x ->
    unwinds v T co k (match x with Some d => d | None => None end).
Proof.
  intros v T se keq passes s check b co wf P11 HK W E HP k x D.
  destruct (to_code_split _ _ _ _ _ _ _ _ _ _ E) as (b' & cb & n & E1 & E2 & [[[X|X] _]|(-> & _)]);
    [discriminate|rewrite andb_false_r in X; discriminate|].
  eapply written; eauto.
Qed.

(** C73.  from_code(): for every instruction, the TryBegin before it has the stack depth to which
    the interpreter unwinds, if it is asked to keep it, and otherwise none. *)
Theorem C73_shown : forall v T conserve co b,
  wf_optable v T = true -> PY311 v = true -> as_compiled v T co ->
  bytecode_from_code v T true conserve co = Ok b ->
  length (try_depths None (b_items b)) = length (instructions v T co)
  /\ forall k x, nth_error (try_depths None (b_items b)) k = Some x ->
     exists d, unwinds v T co k d /\ x = option_map (fun z => if conserve then Some z else None) d.
Proof.
  intros v T conserve co b wf P11 AC E. apply bind_ok in E. destruct E as (cb & F & TB).
  destruct (grouped v T wf P11 co cb AC F) as (gs & GS & GR).
  pose proof (from_code_ordinary v T wf co cb F) as OR.
  pose proof (is_tidy v T wf P11 co cb AC F gs GS GR) as TD.
  destruct (to_bytecode_depths v T wf cb true conserve b (ordinary_plain v T wf _ OR) TB TD) as [LN NTH].
  set (cs := instrs_of (cb_items cb)) in *.
  assert (LEN : length (try_depths None (b_items b)) = length gs).
  { rewrite LN. replace (length cs) with (start gs (length gs)) by (unfold start; now rewrite firstn_all, <- GS).
    rewrite GS. now apply (kept_start v T). }
  split; [rewrite LEN, (instrs_rans v T wf P11 co cb AC F gs GS GR); symmetry; apply (rans_length v T gs GR)|].
  intros p x D. assert (L : (p < length gs)%nat) by (rewrite <- LEN; apply nth_error_Some; congruence).
  destruct (nth_error gs p) as [g|] eqn:G; [|apply nth_error_None in G; lia].
  pose proof GR as GR'. rewrite Forall_forall in GR'. destruct (GR' g (nth_error_In _ _ G)) as (c & ks & -> & M & NC & LK & FK).
  pose proof (head_at cb gs GS p c ks G) as N.
  assert (KP : kept_before true cs (start gs p) = p) by (rewrite GS; apply (kept_start v T); auto; now apply Nat.lt_le_incl).
  assert (NT := NTH (start gs p) c N). rewrite KP, D in NT.
  assert (KC : kept true c = true) by (unfold kept; rewrite (proj2 (String.eqb_neq _ _) NC); reflexivity).
  specialize (NT KC). injection NT as ->.
  exists (option_map e_depth (covering v cs (cb_ex cb) (start gs p))). split.
  - intros r u R U. rewrite (ran_at v T wf P11 co cb AC F gs GS GR p c ks G) in R. injection R as <-. cbn [r_at r_end] in U.
    rewrite (unit_handler v T wf P11 co cb AC F gs GS GR p c ks u G U). fold cs. now destruct (covering v cs (cb_ex cb) (start gs p)).
  - unfold hd. now destruct (covering v cs (cb_ex cb) (start gs p)).
Qed.

(** C73.  So from_code(conserve_exception_block_stackdepth=True) then to_code(stacksize=s,
    compute_exception_stack_depths=False) keeps every depth. *)
Theorem C73_round_trip_partial : forall v T se keq passes s check co b co',
  wf_optable v T = true -> PY311 v = true -> sound_key keq -> as_compiled v T co ->
  bytecode_from_code v T true true co = Ok b ->
  bytecode_to_code v T se keq passes (Some s) check false b = Ok co' ->
  pairs_near v T b (co_varnames co') ->
  length (instructions v T co') = length (instructions v T co)
  /\ forall k, exists d, unwinds v T co k d /\ unwinds v T co' k d.
Proof.
  intros v T se keq passes s check co b co' wf P11 HK AC F E HP.
  assert (W : writable v T b) by (eapply C52_from_code_is_writable_since_311; eauto).
  destruct (C73_shown v T true co b wf P11 AC F) as [LEN SH].
  assert (L' : length (instructions v T co') = length (instructions v T co)).
  { assert (RUN := C51_to_code_runs_program_partial v T se keq passes (Some s) check false b co' wf HK W E HP).
    destruct RUN as [RUN _]. rewrite RUN, <- LEN. symmetry. apply depths_len. }
  split; [exact L'|]. intros k. destruct (nth_error (try_depths None (b_items b)) k) as [x|] eqn:D.
  - destruct (SH k x D) as (d & U & ->). exists d. split; [exact U|].
    assert (X := C73_written_partial v T se keq passes s check b co' wf P11 HK W E HP k _ D). destruct d; exact X.
  - apply nth_error_None in D. exists None.
    split; intros r u R; exfalso; apply nth_error_Some in R || (assert (R' := proj1 (nth_error_Some _ _) (ltac:(rewrite R; discriminate) : nth_error _ k <> None)); clear R; lia).
Qed.

(** C73.  ControlFlowGraph.to_code(stacksize=s) of a graph made from a Bytecode, whose try blocks with
    the same handler have the same depth: every instruction keeps the depth it has in the graph,
    whatever the other options. *)
Theorem C73_graph_partial : forall v T se keq s check depths b g co,
  wf_optable v T = true -> PY311 v = true -> sound_key keq -> writable v T b ->
  made_from T b g -> one_depth (all_items g) ->
  cfg_to_code v T se keq (Some s) check depths g = Ok co -> pairs_near v T b (co_varnames co) ->
  forall k x, nth_error (piece_depths None (all_items g)) k = Some x ->
    unwinds v T co k (match x with Some d => d | None => None end).
Proof.
  intros v T se keq s check depths b g co wf P11 HK W MF OD E HP k x D. unfold cfg_to_code in E. cbn [bind] in E.
  apply bind_ok in E. destruct E as (b' & ET & E).
  rewrite <- (C71_computed_kept T b g b' MF ET OD) in D.
  destruct MF as (PR & g0 & EF & (M & A & O & _ & B) & LEN).
  assert (X1 : Forall2 like (g_heap g0) (g_heap g)).
  { rewrite <- (blk_nth g), <- (blk_nth g0), LEN.
    clear - B. induction (seq 0 (length (g_heap g0))) as [|n r IH]; cbn [map]; [constructor|]. constructor; [exact (B n)|exact IH]. }
  assert (RW : rewritten v T b b') by (apply rewritten_ok; [exact W|]; eapply back_ok; eauto).
  destruct RW as (W' & _ & _ & _ & PN).
  eapply C73_written_partial; [exact wf|exact P11|exact HK|exact W'|exact E|now apply PN|exact D].
Qed.

(** C73.  A TryBegin whose depth is not known is not written: to_code(stacksize=s,
    compute_exception_stack_depths=False) raises. *)
Theorem C73_unset : forall v T se keq passes s check b id t la,
  In (BTB id t la None) (b_items b) ->
  forall co, bytecode_to_code v T se keq passes (Some s) check false b <> Ok co.
Proof.
  intros v T se keq passes s check b id t la J co E.
  destruct (to_code_split _ _ _ _ _ _ _ _ _ _ E) as (b' & cb & n & E1 & _ & [[[X|X] _]|(-> & _)]);
    [discriminate|rewrite andb_false_r in X; discriminate|].
  unfold to_concrete in E1. apply bind_ok in E1. destruct E1 as ([K ins] & E1 & _).
  unfold concrete_instructions in E1. apply bind_ok in E1. destruct E1 as (vn & _ & E1). apply bind_ok in E1. destruct E1 as (K1 & E1 & _). clear - J E1.
  revert E1. match goal with |- foldM _ _ ?K = _ -> _ => generalize K end. revert J.
  induction (b_items b) as [|it l IH]; intros J K0 E1; [destruct J|]. cbn [foldM] in E1. apply bind_ok in E1. destruct E1 as (K2 & E0 & E1).
  destruct J as [->|J]; [|eapply IH; eauto]. unfold conv_item in E0. apply bind_ok in E0. destruct E0 as (tr & _ & E0). destruct K0.
  apply bind_ok in E0. destruct E0 as (K3 & _ & E0). destruct K3. discriminate.
Qed.

(** So a graph with try blocks whose depths have not been computed cannot be written with a given stack size,
    although compute_exception_stack_depths=True is the default: cfg.py:1056-1060 computes the depths
    only together with the size.  The Bytecode it was made from can. *)
Theorem C73_graph_given_size_refuted : exists b g, writable V311 T311 b
  /\ from_bytecode T311 b = Ok g
  /\ cfg_to_code V311 T311 dis_effect311 keq0 (Some 6) true true g = Err AssertionError
  /\ is_ok (cfg_to_code V311 T311 dis_effect311 keq0 None true true g) = true
  /\ is_ok (bytecode_to_code V311 T311 dis_effect311 keq0 None (Some 6) true true b) = true.
Proof.
  assert (W := fun b => C52_from_code_is_writable_since_311 V311 T311 false ex53 b T311_wf eq_refl (proj1 C52_C53_ex)).
  let r := eval vm_compute in (bytecode_from_code V311 T311 true false ex53) in match r with Ok ?b => exists b end.
  match goal with |- exists g, writable _ _ ?b /\ _ => specialize (W b); let r := eval vm_compute in (from_bytecode T311 b) in match r with Ok ?g => exists g end end.
  split; [apply W; vm_compute; reflexivity|]. repeat (split; [vm_compute; reflexivity|]). vm_compute; reflexivity.
Qed.

(** *** Non-vacuity: the code object of C53 (handlers with the depths 1 and 2) *)
Example C73_ex : as_compiled V311 T311 ex53 /\ exists b co',
  bytecode_from_code V311 T311 true true ex53 = Ok b
  /\ bytecode_to_code V311 T311 dis_effect311 keq0 None (Some 6) true false b = Ok co'
  /\ pairs_near V311 T311 b (co_varnames co')
  /\ map (fun u => option_map (fun h => snd (fst h)) (find_handler co' u)) [8; 9; 18; 28; 40; 50; 65; 76]
     = [None; Some 1; Some 2; Some 2; Some 2; None; None; None].
Proof.
  split; [exact (proj1 C52_C53_ex)|].
  do 2 eexists. split; [vm_compute; reflexivity|]. split; [vm_compute; reflexivity|].
  split; [intros i n _ D; exfalso; unfold is_dual in D; discriminate D|]. vm_compute. reflexivity.
Qed.

(** the graph of C71, with the depth 1 in its TryBegins *)
Example C73_graph_ex : exists g co, writable V311 T311 b_loop /\ made_from T311 b_loop g /\ one_depth (all_items g)
  /\ cfg_to_code V311 T311 dis_effect311 keq0 (Some 4) true true g = Ok co
  /\ piece_depths None (all_items g) = [None] ++ repeat (Some (Some 1)) 7 ++ [None; None; None].
Proof.
  let r := eval vm_compute in (from_bytecode T311 b_loop) in match r with Ok ?g => exists (with_depth 1 g) end.
  eexists. split; [apply check_writable_ok; [exact T311_wf|vm_compute; reflexivity]|].
  split; [|split; [|split; [vm_compute; reflexivity|vm_compute; reflexivity]]].
  - split; [apply ex_proper|]. eexists. split; [vm_compute; reflexivity|]. split; [|reflexivity]. repeat split; cbn; repeat (destruct n as [|n]; try reflexivity).
  - intros id t la d id' d' A B. vm_compute in A, B.
    repeat (destruct A as [A|A]; [try discriminate A|]); try contradiction;
    repeat (destruct B as [B|B]; [try discriminate B|]); try contradiction; congruence.
Qed.

Print Assumptions C73_written_partial.
Print Assumptions C73_shown.
Print Assumptions C73_round_trip_partial.
Print Assumptions C73_graph_partial.
Print Assumptions C73_unset.
Print Assumptions C73_graph_given_size_refuted.
