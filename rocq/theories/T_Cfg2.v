(** Properties of ControlFlowGraph.from_bytecode (C27) and of the round trip through a
    graph (C28, C29). *)
From Verif Require Import PyBase OpTable Table311 P_Base M_Instr M_Concrete M_Convert M_Bytecode M_Cfg S_Prog S_Cfg P_Cfg
  P_CfgSeq P_CfgFrom P_CfgFrom2 P_CfgFrom3 P_CfgFrom4 P_CfgTo P_CfgTo2 T_Cfg.
Open Scope string_scope.
Open Scope list_scope.
Open Scope Z_scope.

Lemma last_instr_split l i : last_instr_of l = Some i <-> exists a c, l = a ++ BI i :: c /\ ninstrs c = 0%nat.
Proof.
  split.
  - induction l as [|x r IH]; [discriminate|]. intros E.
    assert (G : last_instr_of r = Some i -> exists a c, x :: r = a ++ BI i :: c /\ ninstrs c = 0%nat).
    { intros Q. destruct (IH Q) as (a & c & -> & N). exists (x :: a), c. auto. }
    destruct x; cbn in E; auto. destruct (last_instr_of r) as [j|] eqn:Q; [apply G; congruence|].
    injection E as ->. exists [], r. split; [reflexivity|]. now apply last_instr_ninstrs.
  - intros (a & c & -> & N). assert (LC : last_instr_of c = None).
    { destruct (last_instr_of c) as [j|] eqn:Q; [|reflexivity]. apply last_instr_in in Q.
      assert (X : In (BI j) (filter is_instr c)) by (apply filter_In; auto). unfold ninstrs in N.
      destruct (filter is_instr c); [contradiction|discriminate]. }
    induction a as [|y r IH]; cbn; [now rewrite LC|]. rewrite IH. destruct y; reflexivity.
Qed.

Lemma graph_well_formed T l hs lk g : graph_of T l hs lk -> g_heap g = hs -> g_order g = seq 0 (length hs) -> well_formed T l g.
Proof.
  intros G H O.
  assert (AI : forall k, flat_map (fun n => k_items (blk g n)) (firstn k (g_order g)) = flat (firstn k hs)).
  { intros k. rewrite O, <- H. transitivity (flat (firstn k (map (blk g) (seq 0 (length (g_heap g)))))); [|now rewrite blk_nth].
    rewrite firstn_map. unfold flat. now rewrite flat_map_concat_map, (flat_map_concat_map k_items), map_map. }
  assert (AL : all_items g = flat hs).
  { unfold all_items. specialize (AI (length hs)). rewrite O in *. rewrite !firstn_all2 in AI by (rewrite ?seq_length; lia). exact AI. }
  assert (LKP : forall n k, lk n = Some k -> nth_error (g_order g) k = Some k /\ position l n = Some (before g k)).
  { intros n k D. destruct (q_lk _ _ _ _ G n k D) as [LK P]. split; [rewrite O; now rewrite nth_seq|]. unfold before. now rewrite AI. }
  assert (NB : forall n, In n (g_order g) -> nth_error hs n = Some (blk g n)).
  { intros n J. rewrite O in J. apply in_seq in J. unfold blk. rewrite H. destruct (nth_error hs n) eqn:Q; [reflexivity|].
    apply nth_error_None in Q. lia. }
  assert (NS : forall k n, nth_error (g_order g) k = Some n -> n = k /\ (k < length hs)%nat).
  { intros k n E. assert (LK : (k < length hs)%nat).
    { rewrite <- (seq_length (length hs) 0), <- O. apply nth_error_Some. congruence. }
    split; [|exact LK]. rewrite O, nth_seq in E by exact LK. cbn in E. congruence. }
  constructor.
  - rewrite AL. assert (Q := q_ins _ _ _ _ G). revert Q. generalize (filter is_instr (flat hs)).
    assert (NBL : forall x, In x (filter is_instr l) -> is_instr x = true) by (intros x J; apply filter_In in J; tauto).
    revert NBL. generalize (filter is_instr l). intros a NBL c Q. induction Q as [|x y a c R _ IH]; constructor.
    + assert (X := NBL x (or_introl eq_refl)). destruct x as [i| | | |]; try discriminate. cbn in R. destruct R as [-> R]. cbn.
      repeat split. unfold same_argument. destruct (i_arg i) eqn:A; try reflexivity.
      specialize (R n eq_refl). destruct (lk n) as [k|] eqn:D; [|congruence]. exists k, k. destruct (LKP n k D). auto.
    + apply IH. intros z J. apply NBL. now right.
  - intros id t la d J. rewrite AL in J. apply (q_fits _ _ _ _ G) in J. cbn in J. destruct J as (n & k & D & ->).
    destruct (LKP n k D). exists n, k, k. auto.
  - intros n J. apply NB in J. eapply block_iter_ok; [eapply (q_init _ _ _ _ G); exact J|].
    intros x JX. apply (q_fits _ _ _ _ G). apply in_flat_map. exists (blk g n). split; [eapply nth_error_In; exact J|exact JX].
  - split; [rewrite O; assert (X := q_ne _ _ _ _ G); destruct hs; [congruence|discriminate]|].
    intros k n m E1 E2. destruct (NS _ _ E1) as [-> L1]. destruct (NS _ _ E2) as [-> L2].
    destruct (q_sealed _ _ _ _ G k (blk g k)) as (li & LI & _); [apply NB; eapply nth_error_In; exact E1|exact L2|].
    exists li. now apply last_instr_in.
  - intros n a i c J E ST. apply NB in J. assert (IO := q_init _ _ _ _ G n _ J). rewrite E in IO. clear - IO ST.
    induction a as [|x r IH]; cbn in IO.
    + apply andb_true_iff in IO. destruct IO as [IO _]. rewrite existsb_BI in IO.
      destruct (last_instr_of c) eqn:Q; [|now apply last_instr_ninstrs].
      exfalso. unfold stops in IO. destruct ST as [ST|ST]; rewrite ST in IO; rewrite ?orb_true_r in IO; discriminate.
    + destruct x; auto. apply andb_true_iff in IO. now apply IH.
  - intros k n t E. destruct (NS _ _ E) as [-> LK].
    assert (JB := NB k (nth_error_In _ _ E)).
    destruct (Nat.ltb (S k) (length hs)) eqn:Q.
    + apply Nat.ltb_lt in Q. destruct (q_sealed _ _ _ _ G k _ JB Q) as (li & LI & _ & NX). rewrite NX.
      assert (EO : nth_error (g_order g) (S k) = Some (S k)) by (rewrite O; now rewrite nth_seq). rewrite EO. split.
      * intros Y. destruct (is_final li) eqn:FI; [discriminate|]. split; [congruence|].
        apply last_instr_split in LI. destruct LI as (a & c & A & B). exists a, li, c. auto.
      * intros (Y & a & i & c & A & B & C). assert (X : last_instr_of (k_items (blk g k)) = Some i) by (apply last_instr_split; eauto).
        assert (i = li) by congruence. subst i. now rewrite C.
    + apply Nat.ltb_ge in Q. assert (KP : k = pred (length hs)) by lia.
      assert (NX : k_next (blk g k) = None) by (apply (q_last _ _ _ _ G); rewrite <- KP; exact JB).
      rewrite NX. split; [discriminate|]. intros (Y & _). exfalso. apply NS in Y. lia.
Qed.

(** C27.  For every instruction list in which try blocks are paired, jumps have labels and
    these stand in the list, the graph is made and it is well formed. *)
Theorem C27_from_bytecode T b : proper T (b_items b) ->
  exists g, from_bytecode T b = Ok g /\ well_formed T (b_items b) g.
Proof.
  intros PR. destruct (from_ok T b PR) as (g & lk & E & G & _ & O & _). exists g. split; [exact E|].
  eapply graph_well_formed; [exact G|reflexivity|exact O].
Qed.

(** C28, C29.  The list made back from the graph is the same program: the same
    instructions in the same order with the same locations and line marks, every jump goes
    to the same instruction, every instruction is protected by the same handler with the
    same push_lasti.  It is proper again (so that a graph can be made of it again), and the
    attributes are kept.  Missing: to_bytecode may raise AssertionError instead, when some
    TryBegin have a stack depth (see below); it does not if none has. *)
Theorem C28_round_trip_partial T b g : proper T (b_items b) -> from_bytecode T b = Ok g ->
  (forall b', cfg_to_bytecode T g = Ok b' ->
     program (b_items b') = program (b_items b) /\ proper T (b_items b')
     /\ b_meta b' = b_meta b /\ b_argnames b' = b_argnames b)
  /\ (no_depths (b_items b) -> exists b', cfg_to_bytecode T g = Ok b')
  /\ (forall e, cfg_to_bytecode T g = Err e -> e = AssertionError).
Proof.
  intros PR E. destruct (from_ok T b PR) as (g' & lk & E' & G & QD & O & M & A). rewrite E in E'. injection E' as <-.
  assert (CM : forall m, copy_attr m = m) by (intros []; reflexivity).
  destruct (to_ok T _ _ lk g G eq_refl O) as [(EE & id & t & la & z & J & _)|(out & EO & P & PO & _)].
  - rewrite EE. split; [discriminate|]. split; [|congruence]. intros ND. exfalso.
    destruct (QD _ _ _ _ J) as (id' & t' & d' & D & [Q|Q]); [discriminate|]. apply ND in D. congruence.
  - rewrite EO. split; [|split; [eauto|discriminate]]. intros b' EB. injection EB as <-. cbn.
    rewrite M, A, !CM. auto.
Qed.

(** The handlers alone: what protects the [k]-th instruction *)
Definition protections (l : list bitem) : list (option handler) :=
  flat_map (fun x => match x with PInstr _ _ _ h => [h] | PSet _ => [] end) (program l).

Theorem C29_coverage_partial T b g b' : proper T (b_items b) -> from_bytecode T b = Ok g -> cfg_to_bytecode T g = Ok b' ->
  protections (b_items b') = protections (b_items b).
Proof.
  intros PR E E'. destruct (C28_round_trip_partial T b g PR E) as [H _]. destruct (H b' E') as [P _].
  unfold protections. now rewrite P.
Qed.

(** Two adjacent try blocks with the same handler, the second with a stack depth (as
    disassembled code has) and the first without: to_bytecode() raises AssertionError on the
    graph that from_bytecode() made. *)
Definition b_depths : bytecode := mkB meta0 []
  [BTB 0 (OLabel 7) true None; nop; BTE 0; BTB 1 (OLabel 7) true (Some 3); nop; BTE 1; ret; BLabel 7; ret].
Theorem C28_depths_refuted : exists g, proper T311 (b_items b_depths) /\ from_bytecode T311 b_depths = Ok g
  /\ cfg_to_bytecode T311 g = Err AssertionError.
Proof.
  eexists. split; [|split; reflexivity]. constructor; [reflexivity| |].
  - intros it J. cbn in J. decompose [or] J; subst; try contradiction; cbn; eauto; intros; split; discriminate.
  - intros it n J N. cbn in J. decompose [or] J; subst; cbn in N; try contradiction; destruct N as [<-|[]]; cbn; tauto.
Qed.

(** A list with a loop, a try block with a return in it (so that its range is cut in two in
    the graph), a jump out of it and a line mark: it is proper, without depths, the graph
    has seven blocks, and it is made back. *)
Definition b_loop : bytecode := mkB meta0 ["x"]
  [BSet 3; BLabel 1; nop; BTB 4 (OLabel 2) false None; nop; ret; nop; instr0 "POP_JUMP_FORWARD_IF_TRUE" 115 (OLabel 3);
   nop; instr0 "JUMP_FORWARD" 110 (OLabel 5); nop; BTE 4; BLabel 5; nop;
   BLabel 3; instr0 "JUMP_BACKWARD" 140 (OLabel 1); BLabel 2; ret].
Example ex_proper : proper T311 (b_items b_loop) /\ no_depths (b_items b_loop).
Proof.
  split; [constructor; [reflexivity| |]|].
  - intros it J. cbn in J. decompose [or] J; subst; try contradiction; cbn; eauto; intros; split; discriminate.
  - intros it n J N. cbn in J. decompose [or] J; subst; cbn in N; try contradiction; destruct N as [<-|[]]; cbn; tauto.
  - intros id t la d J. cbn in J. decompose [or] J; try discriminate; try contradiction. congruence.
Qed.
Example ex_round_trip : match from_bytecode T311 b_loop with
  | Ok g => map k_next (g_heap g) = [None; Some 2; None; Some 4; Some 5; None; None]%nat
     /\ ninstrs (all_items g) = ninstrs (b_items b_loop) /\ length (filter is_try (all_items g)) = 6%nat
     /\ match cfg_to_bytecode T311 g with
        | Ok b' => program (b_items b') = program (b_items b_loop)
          /\ protections (b_items b') = [None] ++ repeat (Some (PTo (Some 10%nat), false)) 7 ++ [None; None; None]
          /\ length (filter is_try (b_items b')) = 2%nat
        | Err _ => False end
  | Err _ => False end.
Proof. vm_compute. repeat split. Qed.

Print Assumptions C27_from_bytecode.
Print Assumptions C28_round_trip_partial.
Print Assumptions C29_coverage_partial.
Print Assumptions C28_depths_refuted.
