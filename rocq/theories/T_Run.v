(** Property theorems: the stack of a code object (C54), effects of instructions (C55). *)
From Coq Require Import Lia.
From Verif Require Import PyBase OpTable CPy Table311 TablesEx CPyEffect P_Base M_Instr M_Tables M_Concrete M_Convert M_Bytecode M_Cfg M_Stack M_Full
  S_Args S_Lines S_Asm S_Prog S_Slots S_Dis S_Cfg S_Stack S_Ident S_Code S_Run
  P_CfgFrom2 P_CfgFrom4 P_Full P_StackGrow P_Stack P_Stack4 P_Effect P_Effect2 P_OpTable P_StackEx P_Run P_Run2 P_RunEx T_Asm T_Args T_Ident T_Code T_Cfg2 T_Full T_Stack.
Open Scope string_scope.
Open Scope list_scope.
Open Scope Z_scope.

(** ** C54 *)

(** to_code() computes the stack size. *)
Lemma computing v T se keq passes stacksize check depths b co : stacksize = None \/ PY311 v && depths = true ->
  bytecode_to_code v T se keq passes stacksize check depths b = Ok co ->
  exists b' cb n, through_graph v T se check depths b = Ok (b', n) /\ to_concrete v T keq (passes_of passes) b' = Ok cb
    /\ to_code_raw v T cb n = Ok co /\ co_stacksize co = n.
Proof.
  intros ST E. destruct (to_code_split _ _ _ _ _ _ _ _ _ _ E) as (b' & cb & n & E1 & E2 & [[_ D]|(_ & D1 & D2)]).
  - exists b', cb, n. repeat (split; [assumption|]). eapply size_is. exact E2.
  - destruct ST as [ST|ST]; congruence.
Qed.

(** C54, without try blocks.  Every version; blocks may be entered with different depths, as long
    as coming back to an instruction never finds more items there than before. *)
Theorem C54_stacksize_enough_partial : forall v T se keq passes stacksize check depths b co,
  let first := first_depth v (m_flags (b_meta b)) in
  wf_optable v T = true -> sound_key keq -> writable v T b ->
  only_numbers v T se -> (check = true -> adds_up v T se) ->
  stacksize = None \/ PY311 v && depths = true ->
  (forall id t la d, ~ In (BTB id t la d) (b_items b)) ->
  bytecode_to_code v T se keq passes stacksize check depths b = Ok co ->
  pairs_near v T b (co_varnames co) ->
  (forall k d d', reached v T se co first (k, d) -> csteps v T se co (k, d) (k, d') -> d' <= d) ->
  forall k d, reached v T se co first (k, d) -> d <= Z.max (co_stacksize co) first.
Proof.
  intros v T se keq passes st check depths b co first wf HK WR ON AU ST NT E PN NG k d R.
  destruct (computing _ _ _ _ _ _ _ _ _ _ ST E) as (b' & cb & n & TG & TC & CO & ->).
  destruct (through_split _ _ _ _ _ _ _ _ TG) as (g & g' & FR & EC & _).
  destruct (known v T b g WR FR) as (WF & OR & _ & FD). fold first in FD.
  assert (RUN : runs v T co (source b)) by (eapply C51_to_code_runs_program_partial; eauto).
  assert (NB : forall n i id t la sd, elem g n i <> Some (BTB id t la sd)).
  { intros m i id t la sd X. apply nth_error_In in X. apply in_heap in X.
    destruct (from_ok T b (w_proper _ _ _ WR)) as (g1 & lk & E1 & _ & Q & _). rewrite FR in E1. injection E1 as <-.
    destruct (Q _ _ _ _ X) as (id' & t' & d' & J & _). exact (NT _ _ _ _ J). }
  pose proof (w_proper _ _ _ WR) as PR. pose proof (w_legal _ _ _ WR) as HL.
  assert (ENT : forall m l, g_order g = m :: l -> numbered g m 0 0).
  { intros m l O0. exists O. split; [now rewrite O0|reflexivity]. }
  (* from the code to the graph *)
  assert (X : exists n i o, at_ T (eff v T se check) g first (fun _ => 0) (fun _ _ _ _ => False) (n, i, d, o) /\ numbered g n i k).
  { eapply (reached_at v T se check b co g wf ON AU HL PR WF OR RUN); [intros ? ? ? ? []| |exact R].
    intros m i d0 o x k0 r u tg dp la _ EL N RR P U F. exfalso.
    pose proof RUN as [_ R2]. destruct (in_code v T se check b co g wf AU HL WF OR RUN _ _ _ _ EL N) as (y & l & h & r' & _ & SN & RR' & _).
    rewrite RR in RR'. injection RR' as <-. destruct (R2 _ _ _ _ _ _ SN RR) as (_ & _ & _ & Q). specialize (Q P u U).
    assert (h = None) as ->; [|congruence].
    assert (NH : forall x, In x (source b) -> snd x = None).
    { unfold source, program. generalize (line_loc (Some (m_first_lineno (b_meta b)))). generalize (position (b_items b)). clear - NT.
      intros f. induction (b_items b) as [|it its IH]; intros l0 x J; [destruct J|].
      assert (NT' : forall id t la d, ~ In (BTB id t la d) its) by (intros id t la d K; apply (NT id t la d); now right).
      destruct it; cbn in J; eauto.
      - destruct J as [<-|J]; [reflexivity|eauto].
      - exfalso. eapply NT. left. reflexivity. }
    exact (NH _ (nth_error_In _ _ SN)). }
  destruct X as (m & i & o & A & N).
  assert (REACH : exists m0 l, g_order g = m0 :: l /\ steps T (eff v T se check) g (m0, O, first, None) (m, i, d, o)).
  { assert (GEN : forall c, at_ T (eff v T se check) g first (fun _ => 0) (fun _ _ _ _ => False) c ->
      snd c = None /\ exists m0 l, g_order g = m0 :: l /\ steps T (eff v T se check) g (m0, O, first, None) c).
    { induction 1 as [m0 l O|c c' _ IH S|c h la _ IH M].
      - split; [reflexivity|]. exists m0, l. split; [exact O|apply ss_refl].
      - destruct IH as (SN & m0 & l & O & S0). split; [|exists m0, l; split; [exact O|eapply ss_step; eauto]].
        inversion S; subst; cbn in *; subst; auto; try (exfalso; eapply NB; eauto; fail). now destruct (is_final x && _).
      - exfalso. destruct IH as (SN & _). destruct c as [[[m1 i1] d1] o1]. cbn in SN. subst o1. destruct M as [(id & M)|[]]. discriminate. }
    apply (GEN _ A). }
  rewrite <- FD in *. eapply (C30_varying_depths_partial v T se check depths g g' n NB); [| |exact EC|exact REACH].
  - intros m1 d1 d2 o1 o2 (m0 & l & O & S1) S2.
    destruct (steps_code v T se check b co g wf ON AU HL PR WF OR RUN _ _ _ _ _ _ S1 (ENT _ _ O)) as (a1 & a2 & a3 & a4 & k1 & Q & N1 & C1).
    injection Q as <- <- <- <-.
    destruct (steps_code v T se check b co g wf ON AU HL PR WF OR RUN _ _ _ _ _ _ S2 N1) as (a1 & a2 & a3 & a4 & k2 & Q & N2 & C2).
    injection Q as <- <- <- <-. apply (numbered_is v T se check g wf AU OR) in N1, N2. destruct N1 as [_ ->]. destruct N2 as [_ ->].
    eapply NG; [exact C1|exact C2].
  - intros m1 i1 d1 o1 m2 _ _ _ EI. destruct (k_next (blk g m2)) as [m3|] eqn:NX; [|reflexivity]. exfalso.
    destruct (Nat.lt_ge_cases m2 (length (g_order g))) as [L|L].
    + apply (wf_next _ _ _ WF m2 m2 m3 (order_lt v T se check g wf AU OR m2 L)) in NX. destruct NX as (_ & a & x & c & NX & _). rewrite EI in NX. destruct a; discriminate.
    + rewrite OR, seq_length in L. unfold blk in NX. replace (nth_error (g_heap g) m2) with (@None block) in NX; [discriminate|].
      symmetry. now apply nth_error_None.
Qed.
Print Assumptions C54_stacksize_enough_partial.

(** C54, with try blocks (3.11+).  What handlers do when they run depends on the depth to which the
    stack is unwound; [H h] is to be that depth for the block [h] of the graph. *)
Theorem C54_handlers_partial : forall v T se keq passes stacksize check b g co H,
  let first := first_depth v (m_flags (b_meta b)) in
  let cover := protected (source b) g in
  let At := at_ T (eff v T se check) g first H cover in
  wf_optable v T = true -> PY311 v = true -> sound_key keq -> writable v T b ->
  only_numbers v T se -> (check = true -> adds_up v T se) ->
  from_bytecode T b = Ok g ->
  regular T (eff v T se check) g first H cover ->
  (forall n i id h la sd, elem g n i = Some (BTB id (OBlock h) la sd) -> exists d o, At (n, i, d, o)) ->
  bytecode_to_code v T se keq passes stacksize check true b = Ok co ->
  pairs_near v T b (co_varnames co) ->
  forall k d, reached v T se co first (k, d) ->
    d <= Z.max (co_stacksize co) first
    /\ forall r u target depth lasti, nth_error (instructions v T co) k = Some r -> r_at r <= 2 * u < r_end r ->
         find_handler co u = Some (target, depth, lasti) ->
         0 <= depth <= d /\ depth + pushed lasti <= Z.max (co_stacksize co) first.
Proof.
  intros v T se keq passes st check b g co H first cover At wf P311 HK WR ON AU FR REG MET E PN k d R.
  destruct (computing v T se keq passes st check true b co ltac:(right; now rewrite P311) E) as (b' & cb & n & TG & TC & CO & ->).
  destruct (known v T b g WR FR) as (WF & OR & _ & FD). fold first in FD.
  assert (RUN : runs v T co (source b)) by (eapply C51_to_code_runs_program_partial; eauto).
  pose proof (w_proper _ _ _ WR) as PR. pose proof (w_legal _ _ _ WR) as HL.
  assert (COV : forall n i h la, cover n i h la -> (h < length (g_order g))%nat).
  { intros m i h la (x & k0 & a & j & _ & _ & _ & O & _). rewrite (order_nth g OR _ _ O). apply nth_error_Some. congruence. }
  pose proof (handlers v T se keq check (passes_of passes) b b' cb n co g H wf HK WR FR TG TC CO PN P311 REG MET) as HAND.
  destruct (computed v T se check b b' n g H WR FR TG P311 REG) as (g' & _ & _ & OUT). unfold outcome in OUT. rewrite FD in OUT. destruct OUT as (BND & _).
  destruct (reached_at v T se check b co g wf ON AU HL PR WF OR RUN first H cover COV HAND k d R) as (m & i & o & A & N).
  split; [eapply BND; exact A|]. intros r u tg dp la RR U F.
  assert (K : (k < ninstrs (all_items g))%nat). { rewrite <- (total v T b co g WF RUN). apply nth_error_Some. congruence. }
  destruct (advance v T se check b co g wf AU HL PR WF OR RUN first H cover COV _ _ _ _ _ A N K) as (m' & i' & o' & x & A' & N' & EL).
  destruct (HAND _ _ _ _ _ _ _ _ _ _ _ A' EL N' RR P311 U F) as (h & C & -> & _).
  split; [split; [apply (reg_depth _ _ _ _ _ _ REG)|eapply (reg_cov _ _ _ _ _ _ REG); eauto]|].
  eapply (BND h O). eapply at_raise; [exact A'|right; exact C].
Qed.
Print Assumptions C54_handlers_partial.

(** For CPython 3.11, whose numbers are known, nothing has to be supposed about them. *)
Theorem C54_stacksize_enough_311_partial : forall keq passes stacksize check depths b co,
  let first := first_depth V311 (m_flags (b_meta b)) in
  let reached := reached V311 T311 dis_effect311 co first in
  sound_key keq -> writable V311 T311 b -> stacksize = None \/ depths = true ->
  (forall id t la d, ~ In (BTB id t la d) (b_items b)) ->
  bytecode_to_code V311 T311 dis_effect311 keq passes stacksize check depths b = Ok co ->
  (forall k d d', reached (k, d) -> csteps V311 T311 dis_effect311 co (k, d) (k, d') -> d' <= d) ->
  forall k d, reached (k, d) -> d <= Z.max (co_stacksize co) first.
Proof.
  intros keq passes st check depths b co first rc HK WR ST NT E NG k d R.
  eapply (C54_stacksize_enough_partial V311 T311 dis_effect311 keq passes st check depths b co T311_wf HK WR only_numbers311 (fun _ => adds_up311) ST NT E);
    [|exact NG|exact R].
  intros i n _ D. discriminate D.
Qed.
Print Assumptions C54_stacksize_enough_311_partial.

(** and every instruction finds the items it needs ([needs311]), except for 15 instructions whose
    needs are not fully counted ([undercounted], C31) *)
Theorem C54_needs_met_311_partial : forall keq passes stacksize b g co H,
  let first := first_depth V311 (m_flags (b_meta b)) in
  let cover := protected (source b) g in
  let At := at_ T311 cpy g first H cover in
  sound_key keq -> writable V311 T311 b -> from_bytecode T311 b = Ok g ->
  regular T311 cpy g first H cover -> complete T311 cpy g ->
  (forall n i id h la sd, elem g n i = Some (BTB id (OBlock h) la sd) -> exists d o, At (n, i, d, o)) ->
  bytecode_to_code V311 T311 dis_effect311 keq passes stacksize true true b = Ok co ->
  forall k d r name j m, reached V311 T311 dis_effect311 co first (k, d) ->
    nth_error (instructions V311 T311 co) k = Some r -> opname T311 (r_op r) = Some name ->
    (if j : bool then op_has_jump T311 (r_op r) = true else ~ In name never_next \/ op_has_jump T311 (r_op r) = false) ->
    undercounted name = false ->
    needs311 name (match r_arg r with Some a => a | None => 0 end) j = Some m -> m <= d \/ m = 0.
Proof.
  intros keq passes st b g co H first cover At HK WR FR REG COM MET E k d r name j m R RR NM J U N.
  assert (PN : pairs_near V311 T311 b (co_varnames co)) by (intros i n _ D; discriminate D).
  destruct (computing V311 T311 dis_effect311 keq passes st true true b co (or_intror eq_refl) E) as (b' & cb & n & TG & TC & CO & <-).
  destruct (known V311 T311 b g WR FR) as (WF & OR & COH & FD). fold first in FD.
  assert (RUN : runs V311 T311 co (source b)) by (eapply C51_to_code_runs_program_partial; eauto using T311_wf).
  pose proof (w_proper _ _ _ WR) as PR. pose proof (w_legal _ _ _ WR) as HL.
  assert (COV : forall n i h la, cover n i h la -> (h < length (g_order g))%nat).
  { intros m0 i h la (x & k0 & a & j0 & _ & _ & _ & O & _). rewrite (order_nth g OR _ _ O). apply nth_error_Some. congruence. }
  pose proof (fun _ : true = true => adds_up311) as AU.
  pose proof (handlers V311 T311 dis_effect311 keq true (passes_of passes) b b' cb _ co g H T311_wf HK WR FR TG TC CO PN eq_refl REG MET) as HAND.
  destruct (computed V311 T311 dis_effect311 true b b' _ g H WR FR TG eq_refl REG) as (g' & EC & _).
  destruct (reached_at V311 T311 dis_effect311 true b co g T311_wf only_numbers311 AU HL PR WF OR RUN first H cover COV HAND k d R) as (m1 & i & o & A & NU).
  assert (K : (k < ninstrs (all_items g))%nat). { rewrite <- (total V311 T311 b co g WF RUN). apply nth_error_Some. congruence. }
  destruct (advance V311 T311 dis_effect311 true b co g T311_wf AU HL PR WF OR RUN first H cover COV _ _ _ _ _ A NU K) as (m' & i' & o' & x & A' & NU' & EL).
  destruct (in_code V311 T311 dis_effect311 true b co g T311_wf AU HL WF OR RUN _ _ _ _ EL NU') as (y & l & h & r' & JY & _ & RR' & OP & NM' & _ & SA & LX & RD).
  rewrite RR in RR'. injection RR' as <-. rewrite NM in NM'. injection NM' as ->.
  destruct (needs_argument co x r j LX (nth_error_In _ _ RR) OP RD) as [SAME [POS|Z0]].
  { pose proof (w_members _ _ _ WR y JY) as MB. unfold same_argument in SA. destruct (i_arg y); try (rewrite SA; exact MB). destruct SA as (? & ? & _ & -> & _). exact Logic.I. }
  2:{ right. rewrite SAME in N. congruence. }
  rewrite SAME in N. subst first. rewrite <- FD in *.
  eapply (C31_needs_met_partial true g g' _ H cover REG COH COM EC); eauto.
  - exact (proj1 LX).
  - destruct j; unfold has_jump; rewrite <- OP; [exact J|]. destruct J as [J|J]; [right|left; exact J].
    apply not_true_iff_false. intros X. apply J. unfold is_uncond_jump_name in X. apply str_mem_In in X. revert X. clear. cbn. intuition.
Qed.
Print Assumptions C54_needs_met_311_partial.

(** *** Examples *)

(** A loop whose body is protected; the handler drops the exception and goes on with the loop. *)
Definition ex54 : bytecode := mkB meta0 ["x"]
  [ins "RESUME" (OInt 0); ins "LOAD_FAST" (OStr "x"); ins "GET_ITER" OUnset; BLabel 1; ins "FOR_ITER" (OLabel 2);
   BTB 7 (OLabel 3) true None; ins "LOAD_GLOBAL" (OTuple [OBool true; OStr "f"]); ins "LOAD_CONST" ONone; ins "PRECALL" (OInt 1); ins "CALL" (OInt 1);
   ins "POP_TOP" OUnset; BTE 7; ins "POP_TOP" OUnset; ins "JUMP_BACKWARD" (OLabel 1);
   BLabel 2; ins "LOAD_CONST" ONone; ins "RETURN_VALUE" OUnset;
   BLabel 3; ins "PUSH_EXC_INFO" OUnset; ins "POP_TOP" OUnset; ins "POP_EXCEPT" OUnset; ins "POP_TOP" OUnset; ins "POP_TOP" OUnset; ins "JUMP_BACKWARD" (OLabel 1)].
Definition ex54_graph : cfg := Eval vm_compute in match from_bytecode T311 ex54 with Ok g => g | Err _ => graph [] end.
Definition ex54_code : option codeobj := Eval vm_compute in
  match bytecode_to_code V311 T311 dis_effect311 keq0 None None true true ex54 with Ok co => Some co | Err _ => None end.
Definition ex54_depth (h : nat) : Z := if Nat.eqb h 4 then 2 else 0.
Definition ex54_cover := [(2, 1, 4, true); (2, 2, 4, true); (2, 3, 4, true); (2, 4, 4, true); (2, 5, 4, true)]%nat.
Example C54_ex : writable V311 T311 ex54 /\ from_bytecode T311 ex54 = Ok ex54_graph
  /\ regular T311 cpy ex54_graph 0 ex54_depth (protected (source ex54) ex54_graph)
  /\ complete T311 cpy ex54_graph
  /\ (forall n i id h la sd, elem ex54_graph n i = Some (BTB id (OBlock h) la sd) ->
       exists d o, at_ T311 cpy ex54_graph 0 ex54_depth (protected (source ex54) ex54_graph) (n, i, d, o))
  /\ exists co, bytecode_to_code V311 T311 dis_effect311 keq0 None None true true ex54 = Ok co
     /\ co_stacksize co = 5 /\ find_handler co 4 = Some (23, 2, true)
     /\ reached V311 T311 dis_effect311 co 0 (6%nat, 5) /\ reached V311 T311 dis_effect311 co 0 (13%nat, 4).
Proof.
  split; [apply check_writable_ok; [exact T311_wf|]; vm_compute; reflexivity|].
  split; [vm_compute; reflexivity|].
  split. { apply (regular_mono _ _ _ _ _ _ (cov ex54_cover)); [apply protectedb_ok; vm_compute; reflexivity|].
    apply (regularb_ok _ _ _ _ _ _ 40); [vm_compute; reflexivity|]. intros h. unfold ex54_depth. destruct (Nat.eqb h 4); lia. }
  split; [apply check_complete; vm_compute; reflexivity|].
  split; [apply (metb_ok _ _ _ _ _ _ 40); vm_compute; reflexivity|].
  eexists. split; [vm_compute; reflexivity|]. split; [reflexivity|]. split; [vm_compute; reflexivity|].
  split; apply (exploreb_reached _ _ _ _ 15); vm_compute; reflexivity.
Qed.

(** Without try blocks, a place that is reached with one item and with two. *)
Definition ex54b : bytecode := mkB meta0 ["x"]
  [ins "RESUME" (OInt 0); ins "LOAD_FAST" (OStr "x"); ins "LOAD_FAST" (OStr "x"); ins "POP_JUMP_FORWARD_IF_FALSE" (OLabel 1);
   ins "LOAD_CONST" ONone; ins "LOAD_CONST" ONone; BLabel 1; ins "LOAD_CONST" ONone; ins "POP_TOP" OUnset;
   ins "LOAD_FAST" (OStr "x"); ins "POP_JUMP_BACKWARD_IF_TRUE" (OLabel 1); ins "RETURN_VALUE" OUnset].
Example C54_ex2 : writable V311 T311 ex54b /\ (forall id t la d, ~ In (BTB id t la d) (b_items ex54b))
  /\ exists co, bytecode_to_code V311 T311 dis_effect311 keq0 None None true true ex54b = Ok co
     /\ (forall k d d', reached V311 T311 dis_effect311 co 0 (k, d) -> csteps V311 T311 dis_effect311 co (k, d) (k, d') -> d' <= d)
     /\ co_stacksize co = 4 /\ reached V311 T311 dis_effect311 co 0 (7%nat, 4) /\ reached V311 T311 dis_effect311 co 0 (7%nat, 2).
Proof.
  split; [apply check_writable_ok; [exact T311_wf|]; vm_compute; reflexivity|].
  split. { intros id t la d J. cbn in J. repeat (destruct J as [J|J]; [discriminate J|]). exact J. }
  eexists. split; [vm_compute; reflexivity|]. split; [apply (nothing_grows_ok _ _ _ _ _ 20); vm_compute; reflexivity|]. split; [reflexivity|].
  split; apply (exploreb_reached _ _ _ _ 15); vm_compute; reflexivity.
Qed.

(** What does not hold.  After a return inside a try block, two more blocks of code in the same try
    block, never entered: their pieces get the depth 32768 (C33), and when the pieces are put
    together only the last two are compared (C71), so that 32768 is written for the whole try
    block: the handler of the first instruction unwinds to a depth the stack does not have. *)
Definition ex54c : bytecode := mkB meta0 []
  [ins "LOAD_CONST" ONone; ins "LOAD_CONST" ONone; BTB 0 (OLabel 7) false None; ins "NOP" OUnset; ins "RETURN_VALUE" OUnset;
   ins "NOP" OUnset; ins "RETURN_VALUE" OUnset; ins "NOP" OUnset; ins "RETURN_VALUE" OUnset; BTE 0;
   BLabel 7; ins "POP_TOP" OUnset; ins "RETURN_VALUE" OUnset].
Theorem C54_dead_code_refuted : ~ forall b co,
  writable V311 T311 b -> bytecode_to_code V311 T311 dis_effect311 keq0 None None true true b = Ok co ->
  forall k d r u target depth lasti, reached V311 T311 dis_effect311 co 0 (k, d) ->
    nth_error (instructions V311 T311 co) k = Some r -> r_at r <= 2 * u < r_end r ->
    find_handler co u = Some (target, depth, lasti) -> depth <= d.
Proof.
  intros X. assert (W : writable V311 T311 ex54c) by (apply check_writable_ok; [exact T311_wf|]; vm_compute; reflexivity).
  destruct (bytecode_to_code V311 T311 dis_effect311 keq0 None None true true ex54c) as [co|] eqn:E; [|vm_compute in E; discriminate E].
  specialize (X _ _ W E). vm_compute in E. injection E as <-.
  specialize (fun r u t dp la => X 2%nat 2 r u t dp la). eassert (Q := X _ 2 8 32768 false _ eq_refl _ eq_refl). vm_compute in Q. congruence.
  Unshelve.
  - apply (exploreb_reached _ _ _ _ 10). vm_compute. reflexivity.
  - vm_compute. split; [intros Q; discriminate Q|reflexivity].
Qed.
Print Assumptions C54_dead_code_refuted.

(** ** C55 *)

(** C55.  The number stack_effect() gives for an instruction of a Bytecode is the one
    dis.stack_effect() gives for the instruction that stands in its place in the code object, with
    its real argument; ValueError is raised for the same. *)
Theorem C55_effect_of_assembled : forall v T se keq passes stacksize check depths b co,
  wf_optable v T = true -> sound_key keq -> writable v T b -> only_numbers v T se ->
  bytecode_to_code v T se keq passes stacksize check depths b = Ok co -> pairs_near v T b (co_varnames co) ->
  length (instructions v T co) = ninstrs (b_items b)
  /\ forall k x r, nth_error (filter is_instr (b_items b)) k = Some (BI x) -> nth_error (instructions v T co) k = Some r ->
     r_op r = i_op x
     /\ forall jump, match se (r_op r) (r_arg r) jump with
        | Some e => stack_effect v T se x jump = Ok e
        | None => stack_effect v T se x jump = Err ValueError
        end.
Proof.
  intros v T se keq passes st check depths b co wf HK WR ON E PN.
  destruct (C51_to_code_runs_program_partial v T se keq passes st check depths b co wf HK WR E PN) as [R1 R2].
  split; [rewrite R1; apply source_length|].
  intros k x r NX NR. destruct (filter_nth _ _ _ NX) as (p & y & Q & NP & ->). injection Q as ->.
  pose proof (Verif.P_Ident.source_nth (b_items b) p y (line_loc (Some (m_first_lineno (b_meta b)))) NP) as SN. fold (source b) in SN.
  destruct (R2 _ _ _ _ _ _ SN NR) as (Q1 & Q2 & _). pose proof (w_legal _ _ _ WR y (nth_error_In _ _ NP)) as L.
  assert (OP : r_op r = i_op y). { destruct L as (L1 & _). congruence. }
  split; [exact OP|]. intros j. rewrite (effect_real v T se wf ON co y r j L (nth_error_In _ _ NR) OP).
  - now destruct (se (r_op r) (r_arg r) j).
  - destruct (i_arg y) eqn:A; try (right; exact Q2). left. eauto.
Qed.
Print Assumptions C55_effect_of_assembled.

(** For CPython 3.11. *)
Theorem C55_effect_of_assembled_311 : forall keq passes stacksize check depths b co,
  sound_key keq -> writable V311 T311 b ->
  bytecode_to_code V311 T311 dis_effect311 keq passes stacksize check depths b = Ok co ->
  forall k x r, nth_error (filter is_instr (b_items b)) k = Some (BI x) -> nth_error (instructions V311 T311 co) k = Some r ->
  forall name jump, opname T311 (r_op r) = Some name ->
    i_name x = name
    /\ forall e, effect311 name (match r_arg r with Some a => a | None => 0 end) jump = Some e ->
       stack_effect V311 T311 dis_effect311 x (Some jump) = Ok e.
Proof.
  intros keq passes st check depths b co HK WR E k x r NX NR name j NM.
  assert (PN : pairs_near V311 T311 b (co_varnames co)) by (intros i n _ D; discriminate D).
  destruct (C55_effect_of_assembled V311 T311 dis_effect311 keq passes st check depths b co T311_wf HK WR only_numbers311 E PN) as (_ & X).
  destruct (X _ _ _ NX NR) as (OP & X2).
  assert (L : legal_instr V311 T311 x).
  { apply (w_legal _ _ _ WR). apply nth_error_In in NX. apply filter_In in NX. apply NX. }
  split. { destruct L as (L1 & _). apply (opmap_opname V311 T311 T311_wf) in L1. rewrite OP in NM. congruence. }
  intros e EE. specialize (X2 (Some j)).
  assert (D : dis_effect311 (r_op r) (r_arg r) (Some j) = Some e).
  { unfold dis_effect311. rewrite NM. pose proof (instruction_arg V311 T311 co r (nth_error_In _ _ NR)) as A.
    assert (HA : opcode_has_argument V311 T311 (r_op r) = (t_have_argument T311 <=? r_op r)) by reflexivity. rewrite <- HA.
    destruct (opcode_has_argument V311 T311 (r_op r)); [destruct A as (a & A)|]; rewrite A in *; exact EE. }
  now rewrite D in X2.
Qed.
Print Assumptions C55_effect_of_assembled_311.

(** LOAD_GLOBAL with NULL has effect 2, a call with one argument takes it. *)
Example C55_ex : match bytecode_to_code V311 T311 dis_effect311 keq0 None None true true ex54 with
  | Ok co => map (fun r => (r_op r, r_arg r, dis_effect311 (r_op r) (r_arg r) (Some false))) (firstn 4 (skipn 3 (instructions V311 T311 co)))
             = [(93, Some 17, Some 1); (116, Some 1, Some 2); (100, Some 0, Some 1); (166, Some 1, Some (-1))]
  | Err _ => False end
  /\ map (fun it => match it with BI x => stack_effect V311 T311 dis_effect311 x (Some false) | _ => Err ValueError end)
       (firstn 4 (skipn 3 (filter is_instr (b_items ex54)))) = [Ok 1; Ok 2; Ok 1; Ok (-1)].
Proof. vm_compute. split; reflexivity. Qed.
