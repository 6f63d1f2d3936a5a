(** Property theorems: to_code() with its stack size computed returns (C57). *)
From Coq Require Import Lia.
From Verif Require Import PyBase OpTable CPy Table311 TablesEx CPyEffect P_Base P_OpTable M_Instr M_Tables M_Concrete M_Convert M_Bytecode M_Cfg M_Stack M_Full
  S_Args S_Lines S_Asm S_Prog S_Slots S_Dis S_Cfg S_Stack S_Ident S_Code S_Run
  P_CfgTo2 P_Full P_Stack P_StackEx P_RunEx T_Asm T_Args T_Ident T_Code T_Meta T_Full T_Stack T_Run S_Total P_Total3 P_Total4 P_Total5 T_Total.
Open Scope string_scope.
Open Scope list_scope.
Open Scope Z_scope.

Lemma buildable_renamed v T b b' : buildable v T b -> writable v T b' -> source b' = source b -> b_meta b' = b_meta b -> b_argnames b' = b_argnames b ->
  Forall2 renamed (filter is_instr (b_items b)) (filter is_instr (b_items b')) -> buildable v T b'.
Proof.
  intros A [W1 W2 W3 W4 W5 W6] SO ME AR RN.
  assert (BACK : forall i, In (BI i) (b_items b') -> exists i0, In (BI i0) (b_items b) /\ i_op i = i_op i0
    /\ (i_arg i = i_arg i0 \/ exists m, i_arg i = OLabel m /\ forall x, i_arg i0 <> OTuple x)).
  { intros i J. destruct (renamed_in _ _ _ RN J) as (i0 & J0 & _ & O & _ & R). exists i0. split; [exact J0|]. split; [exact O|].
    destruct (i_arg i0); auto; destruct R as (m & R); right; exists m; split; auto; congruence. }
  constructor; auto.
  - intros k n t l h op N. rewrite SO in N. eapply (am_direction _ _ _ A). exact N.
  - intros i n J NC E. destruct (BACK i J) as (i0 & J0 & O & [Q|(m & Q & _)]); [|congruence]. rewrite ME. apply (am_cells _ _ _ A i0 n J0); congruence.
  - intros i n J NC E. destruct (BACK i J) as (i0 & J0 & O & [Q|(m & Q & _)]); [|congruence]. rewrite ME. apply (am_frees _ _ _ A i0 n J0); congruence.
  - intros i J D. destruct (BACK i J) as (i0 & J0 & O & Q). rewrite O in D. destruct (am_pairs _ _ _ A i0 J0 D) as (x & y & P).
    destruct Q as [Q|(m & _ & Q)]; [exists x, y; congruence|]. destruct (Q _ P).
  - assert (EQ : forall l, filter an_instr l = filter is_instr l) by (intros l; apply filter_ext; intros []; reflexivity).
    pose proof (am_size _ _ _ A) as S1. rewrite EQ in S1 |- *. unfold zlen in *.
    replace (length (filter is_instr (b_items b'))) with (length (filter is_instr (b_items b))); [exact S1|].
    clear - RN. induction RN; cbn; congruence.
  - rewrite ME, AR. apply A.
Qed.
Lemma same_jumps T b b' : proper T (b_items b) -> Forall2 renamed (filter is_instr (b_items b)) (filter is_instr (b_items b')) ->
  length (filter takes_label (b_items b')) = length (filter takes_label (b_items b)).
Proof.
  intros PR RN.
  assert (EQ : forall l, filter takes_label l = filter takes_label (filter is_instr l)).
  { induction l as [|x l IH]; [reflexivity|]. destruct x; cbn; rewrite IH; auto. }
  rewrite EQ, (EQ (b_items b)). assert (P : forall i n, In (BI i) (filter is_instr (b_items b)) -> i_arg i <> OBlock n).
  { intros i n J E. apply filter_In in J. destruct J as [J _]. pose proof (S_Cfg.proper_args _ _ PR _ J) as F. unfold arg_fits in F.
    destruct (has_jump T i); [destruct F; congruence|]. destruct (F n). congruence. }
  revert P. induction RN as [|x y l l' R RN IH]; intros P; [reflexivity|].
  destruct x as [i| | | |], y as [j| | | |]; cbn in R; try contradiction. destruct R as (_ & _ & _ & R).
  assert (IHL := IH (fun i n J => P i n (or_intror J))). cbn [filter takes_label].
  destruct (i_arg i) eqn:Q; try (rewrite R; exact IHL).
  - destruct R as (m & ->). cbn. now rewrite IHL.
  - destruct (P i n (or_introl eq_refl) Q).
Qed.

(** C57.  The stack size is computed: the program goes through a control flow graph [g], in which
    the depth of the stack is the same whenever a block is entered ([regular]: C30, C33), and every
    instruction is known to dis.stack_effect().  Every TryBegin is reached, or stands in dead code
    and had no depth.  Then to_code() returns, unless some instruction can take more items than are on the
    stack ([underflow]), in which case it raises RuntimeError. *)
Theorem C57_to_code_returns : forall v T se keq passes stacksize check depths b g H,
  let first := first_depth v (m_flags (b_meta b)) in
  let cover := protected (source b) g in
  let At := at_ T (eff v T se check) g first H cover in
  wf_optable v T = true -> sound_key keq -> buildable v T b -> locations_fit v b -> locations_ok v b ->
  stacksize = None \/ PY311 v && depths = true ->
  3 * zlen (filter takes_label (b_items b)) < Z.of_nat (passes_of passes) ->
  from_bytecode T b = Ok g -> regular T (eff v T se check) g first H cover ->
  (forall i j, In (BI i) (b_items b) -> exists e, used_effect v T se check i j = Ok e) ->
  (forall n i id t la sd, elem g n i = Some (BTB id t la sd) -> (PY311 v = true /\ depths = true)
     /\ ((exists d o, At (n, i, d, o)) \/ (sd = None /\ forall d o, ~ At (n, O, d, o)))) ->
  let result := bytecode_to_code v T se keq passes stacksize check depths b in
  (underflow T (eff v T se check) g first H cover /\ result = Err RuntimeError)
  \/ (~ underflow T (eff v T se check) g first H cover
      /\ exists co, result = Ok co /\ (pairs_near v T b (co_varnames co) -> runs v T co (source b))).
Proof.
  intros v T se keq passes st check depths b g H first cover At wf SK A LF LO ST PA FR REG EF MET result.
  assert (W : writable v T b).
  { constructor; try apply A; [intros i I; apply (am_legal _ _ _ A i I)|intros i I; apply (am_legal _ _ _ A i I)|exact LO]. }
  assert (TK : try_known v g).
  { unfold try_known. destruct (PY311 v) eqn:P; [now left|right]. intros n i id t la sd EL. destruct (MET _ _ _ _ _ _ EL) as [[X _] _]. discriminate. }
  assert (RES : forall x, through_graph v T se check depths b = x -> result =
    (' (b', n) <- x;; cb <- to_concrete v T keq (passes_of passes) b';; to_code_raw v T cb n)).
  { intros x <-. subst result.
    assert (GO : forall b0 size, (cb <- to_concrete_bytecode v T se keq passes false b0;; concrete_to_code v T se keq (Some size) true false cb)
      = (cb <- to_concrete v T keq (passes_of passes) b0;; to_code_raw v T cb size)).
    { intros b0 size. unfold to_concrete_bytecode, concrete_to_code. rewrite andb_false_r. cbn [bind].
      destruct (to_concrete v T keq (passes_of passes) b0); cbn [bind]; rewrite ?andb_false_r; reflexivity. }
    unfold bytecode_to_code.
    destruct st as [s|]; [destruct ST as [ST|ST]; [discriminate|]; rewrite ST|];
      destruct (through_graph v T se check depths b) as [[b0 size]|e]; cbn [bind]; auto. }
  destruct (through_total v T se check depths b g H cover (am_proper _ _ _ A) FR REG EF MET TK) as [(U & E)|(U & b' & n & E & D)].
  - left. split; [exact U|]. rewrite (RES _ E). reflexivity.
  - right. split; [exact U|]. rewrite (RES _ E). cbn [bind].
    pose proof (through_writable v T se check depths b b' n W E) as RW. destruct RW as (W' & SO & ME & AR & PN).
    destruct (through_ok v T se check depths b b' n (am_proper _ _ _ A) E) as (_ & _ & _ & _ & _ & RN).
    pose proof (buildable_renamed v T b b' A W' SO ME AR RN) as A'.
    assert (AS : assemblable v T b').
    { constructor; [exact A'|]. intros id t la d J. destruct (D _ _ _ _ J) as (z & -> & _). eauto. }
    assert (RC : recordable v b').
    { constructor; [unfold locations_fit; rewrite SO; exact LF|]. intros _ id t la z J. destruct (D _ _ _ _ J) as (z' & Q & P). injection Q as ->. exact P. }
    destruct (assemble_ok v T keq wf (passes_of passes) b' AS) as (cb & E1).
    { unfold zlen in *. now rewrite (same_jumps T b b' (am_proper _ _ _ A) RN). }
    rewrite E1. cbn [bind]. destruct (record_total v T keq wf (passes_of passes) b' cb n AS RC E1) as (co & E2).
    exists co. split; [exact E2|]. intros PN'. eapply (write_ok v T keq (passes_of passes) b b' cb n co wf SK); eauto.
    split; [exact W'|]. auto.
Qed.
Print Assumptions C57_to_code_returns.

(** The loop with a handler of C54: the hypotheses are met (and the code object returned is that of
    C54); without the first LOAD_FAST, GET_ITER finds nothing, and RuntimeError is raised. *)
Example C57_ex :
  buildable V311 T311 ex54 /\ locations_fit V311 ex54 /\ locations_ok V311 ex54
  /\ 3 * zlen (filter takes_label (b_items ex54)) < Z.of_nat (passes_of None)
  /\ (forall i j, In (BI i) (b_items ex54) -> exists e, used_effect V311 T311 dis_effect311 true i j = Ok e)
  /\ bytecode_to_code V311 T311 dis_effect311 keq0 None None true true
       (mkB meta0 ["x"] (match b_items ex54 with x :: y :: r => x :: r | l => l end)) = Err RuntimeError.
Proof.
  destruct (check_buildable_ok V311 T311 ex54 T311_wf) as (A & B & C); [vm_compute; reflexivity|].
  split; [exact A|]. split; [exact B|]. split; [exact C|]. split; [vm_compute; reflexivity|]. split; [|vm_compute; reflexivity].
  intros i j J. assert (X : forallb (fun it => match it with BI i =>
      match used_effect V311 T311 dis_effect311 true i true, used_effect V311 T311 dis_effect311 true i false with Ok _, Ok _ => true | _, _ => false end
      | _ => true end) (b_items ex54) = true) by (vm_compute; reflexivity).
  rewrite forallb_forall in X. specialize (X _ J). cbv beta iota in X.
  destruct (used_effect V311 T311 dis_effect311 true i true) eqn:E1; [|discriminate].
  destruct (used_effect V311 T311 dis_effect311 true i false) eqn:E2; [|discriminate]. destruct j; eauto.
Qed.
(** the other hypotheses are met too ([C54_ex]), so that the theorem applies *)
Example C57_ex2 : exists co, bytecode_to_code V311 T311 dis_effect311 keq0 None None true true ex54 = Ok co /\ runs V311 T311 co (source ex54).
Proof.
  destruct C57_ex as (A & LF & LO & PA & EF & _). destruct C54_ex as (_ & FR & REG & _ & MET & _).
  assert (SK : sound_key keq0) by apply keq0_sound.
  destruct (C57_to_code_returns V311 T311 dis_effect311 keq0 None None true true ex54 ex54_graph ex54_depth T311_wf SK A LF LO (or_introl eq_refl) PA FR REG EF)
    as [(_ & E)|(_ & co & E & R)].
  - intros n i id t la sd EL. split; [auto|]. left.
    assert (OB : exists h, t = OBlock h).
    { destruct (graph_facts T311 ex54 ex54_graph (am_proper _ _ _ A) FR) as (lk & _ & WF & O & _).
      assert (IN : In n (g_order ex54_graph)).
      { rewrite O. apply in_seq. unfold elem, blk in EL. destruct (nth_error (g_heap ex54_graph) n) eqn:Q; [|destruct i; discriminate].
        assert (nth_error (g_heap ex54_graph) n <> None) as NN by congruence. apply nth_error_Some in NN. lia. }
      destruct (wf_handlers _ _ _ WF _ _ _ _ (in_items _ n _ IN (nth_error_In _ _ EL))) as (_ & _ & h & -> & _). eauto. }
    destruct OB as (h & ->). eapply MET. exact EL.
  - vm_compute in E. discriminate E.
  - exists co. split; [exact E|]. apply R. intros i n _ D. discriminate D.
Qed.
