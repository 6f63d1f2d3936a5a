(** ControlFlowGraph.to_bytecode() on graphs made in any way (C78): with blocks split, removed,
    added, as well as those that from_bytecode makes.  [listable], [graph_program]: S_List.v. *)
From Coq Require Import Lia.
From Verif Require Import PyBase OpTable Table311 P_Base M_Instr M_Concrete M_Convert M_Bytecode M_Cfg S_Prog S_Cfg S_List P_Cfg P_Cfg2 P_CfgSeq P_List P_List2 P_List3 T_Cfg T_Cfg2.
Open Scope string_scope.
Open Scope list_scope.
Open Scope Z_scope.

(** The list that to_bytecode() makes of a listable graph is the program of the graph; it is
    made unless some TryBegin have a stack depth and some have none. *)
Theorem C78_listed T g : listable T g ->
  (cfg_to_bytecode T g = Err AssertionError /\ ~ depths_alike g)
  \/ exists b, cfg_to_bytecode T g = Ok b /\ b_meta b = g_meta g /\ b_argnames b = g_argnames g
     /\ program (b_items b) = graph_program g /\ proper T (b_items b).
Proof.
  intros L. assert (CM : forall m, copy_attr m = m) by (intros []; reflexivity).
  destruct (list_ok T g L) as [(E & id & t & la & z & J & id' & t' & la' & J')|(out & E & P & Q)].
  - left. split; [exact E|]. intros [D|D]; [apply D in J; discriminate|apply D in J'; congruence].
  - right. eexists. split; [exact E|]. cbn. rewrite CM. auto.
Qed.
Theorem C78_no_assertion T g : listable T g -> depths_alike g ->
  exists b, cfg_to_bytecode T g = Ok b /\ program (b_items b) = graph_program g.
Proof. intros L D. destruct (C78_listed T g L) as [[_ N]|(b & E & _ & _ & P & _)]; [contradiction|eauto]. Qed.

(** ** Which graphs are listable *)
Theorem C78_made T b g : proper T (b_items b) -> from_bytecode T b = Ok g ->
  listable T g /\ graph_program g = program (b_items b).
Proof. apply made_listable. Qed.

(** A split changes nothing in the program. *)
Theorem C78_split T g n index g' b : history T g -> listable T g -> split_block T g n index = Ok (g', b) ->
  listable T g' /\ graph_program g' = graph_program g.
Proof.
  intros H L E. destruct (C25_split_partial T g n index H) as [_ S]. destruct (S g' b E) as (AI & k & K & C).
  destruct C as [(_ & -> & _)|[(_ & -> & _)|W]]; auto. eapply split_listable; eassumption.
Qed.

(** Removing a block [n] that nothing refers to and in which no try block begins or ends takes
    its instructions out of the program, and nothing else. *)
Theorem C78_delete T g n g' : history T g -> listable T g -> unreferred g n -> no_try (k_items (blk g n)) ->
  delitem_block g n = Ok g' ->
  let c := ninstrs (k_items (blk g n)) in
  listable T g' /\ exists p op a z, place g (g_order g) n = Some p
    /\ length (filter (fun x => match x with PInstr _ _ _ _ => true | PSet _ => false end) a) = p
    /\ graph_program g = a ++ shown g op (k_items (blk g n)) ++ z
    /\ graph_program g' = map (moved p c) (a ++ z).
Proof.
  intros H L U N E. destruct (C24_by_block_partial T g H) as [B1 B2].
  destruct (in_dec Nat.eq_dec n (g_order g)) as [J|J]; [|destruct (B2 n J) as [_ X]; congruence].
  apply In_nth_error in J. destruct J as (k & K). destruct (B1 k n K) as [_ (g2 & E2 & O & HP & _)]. rewrite E in E2. injection E2 as <-.
  destruct (del_listable T g g' n k L U N K O HP) as (L' & a & z & p & op & P & NI & G & A & G').
  split; [exact L'|]. exists p, op, a, z. split; [exact P|]. split; [|auto].
  rewrite A, <- NI. generalize (@None (nat * handler)). generalize (flat_map (fun m => k_items (blk g m)) (firstn k (g_order g))).
  clear. induction l as [|x l IH]; intros o; [reflexivity|]. rewrite ninstrs_cons. destruct x; cbn [shown filter is_instr length]; rewrite ?IH; reflexivity.
Qed.

(** A block added at the end leaves the program so far as it was, whatever is in the block. *)
Theorem C78_add T g items : history T g -> listable T g ->
  exists more, graph_program (fst (add_block g items)) = graph_program g ++ more.
Proof. intros H L. eapply add_program; [exact L|]. apply (ginv_history T g H). Qed.

(** ** Any number of splits between from_bytecode() and to_bytecode() *)
Inductive splits (T : optable) : cfg -> cfg -> Prop :=
| s_none g : splits T g g
| s_more g n i g' b g2 : split_block T g n i = Ok (g', b) -> splits T g' g2 -> splits T g g2.
Theorem C78_split_and_back T b g g' b' : proper T (b_items b) -> from_bytecode T b = Ok g -> splits T g g' ->
  cfg_to_bytecode T g' = Ok b' -> program (b_items b') = program (b_items b).
Proof.
  intros PR E SP E'. destruct (C78_made T b g PR E) as [L G].
  assert (X : forall h h', splits T h h' -> history T h -> listable T h -> listable T h' /\ graph_program h' = graph_program h).
  { clear. induction 1 as [g|g n i g' b g2 SB _ IH]; intros H L; [auto|].
    destruct (C78_split T g n i g' b H L SB) as [L' P]. destruct (IH (h_split T g n i g' b H SB) L') as [L2 P2]. split; [exact L2|congruence]. }
  destruct (X g g' SP (h_from T b g E) L) as [L' G']. destruct (C78_listed T g' L') as [[A _]|(b2 & E2 & _ & _ & P & _)]; congruence.
Qed.

(** ** Examples *)
(** The graph of [b_loop] (a loop, a try block in two parts, jumps out of it), split in two places *)
Definition made (b : bytecode) : cfg := match from_bytecode T311 b with Ok g => g | Err _ => new_cfg end.
Definition cut (g : cfg) (n : nat) (i : Z) : cfg := match split_block T311 g n i with Ok (g', _) => g' | Err _ => g end.
Definition g_loop : cfg := Eval vm_compute in made b_loop.
Definition g_loop1 : cfg := Eval vm_compute in cut g_loop 1 1.
Definition g_loop2 : cfg := Eval vm_compute in cut g_loop1 0 1.
Example ex_split_back : proper T311 (b_items b_loop) /\ from_bytecode T311 b_loop = Ok g_loop /\ splits T311 g_loop g_loop2
  /\ g_order g_loop2 = [0; 8; 1; 7; 2; 3; 4; 5; 6]%nat /\ depths_alike g_loop2
  /\ exists b', cfg_to_bytecode T311 g_loop2 = Ok b' /\ program (b_items b') = program (b_items b_loop).
Proof.
  split; [apply ex_proper|]. split; [vm_compute; reflexivity|]. split.
  - eapply (s_more T311 g_loop 1 1 g_loop1 7); [vm_compute; reflexivity|]. eapply (s_more T311 g_loop1 0 1 g_loop2 8); [vm_compute; reflexivity|]. apply s_none.
  - split; [vm_compute; reflexivity|]. split.
    + left. intros id t la d J. vm_compute in J. decompose [or] J; try discriminate; try contradiction; congruence.
    + assert (L : listable T311 g_loop2 /\ graph_program g_loop2 = program (b_items b_loop)).
      { assert (F : from_bytecode T311 b_loop = Ok g_loop) by (vm_compute; reflexivity).
        destruct (C78_made T311 b_loop g_loop (proj1 ex_proper) F) as [L G].
        assert (E1 : split_block T311 g_loop 1 1 = Ok (g_loop1, 7%nat)) by (vm_compute; reflexivity).
        assert (E2 : split_block T311 g_loop1 0 1 = Ok (g_loop2, 8%nat)) by (vm_compute; reflexivity).
        destruct (C78_split T311 _ _ _ _ _ (h_from T311 _ _ F) L E1) as [L1 G1].
        destruct (C78_split T311 _ _ _ _ _ (h_split T311 _ _ _ _ _ (h_from T311 _ _ F) E1) L1 E2) as [L2 G2]. split; [exact L2|congruence]. }
      destruct L as [L G]. destruct (C78_no_assertion T311 g_loop2 L) as (b' & E & P); [|exists b'; split; [exact E|congruence]].
      left. intros id t la d J. vm_compute in J. decompose [or] J; try discriminate; try contradiction; congruence.
Qed.
(** A graph with a dead block, which is removed: the jump over it still goes to the same instruction *)
Definition b_dead : bytecode := mkB meta0 []
  [nop; instr0 "POP_JUMP_FORWARD_IF_TRUE" 115 (OLabel 3); nop; ret; nop; nop; ret; BLabel 3; nop; ret].
Definition g_dead : cfg := Eval vm_compute in made b_dead.
Definition g_dead' : cfg := Eval vm_compute in match delitem_block g_dead 2 with Ok g => g | Err _ => g_dead end.
Definition jump_of (g : cfg) : option parg :=
  match nth_error (g_heap g) 0 with Some (mkBlk [_; BI i] _) => Some (shown_arg g (i_arg i)) | _ => None end.
Example ex_delete : from_bytecode T311 b_dead = Ok g_dead /\ delitem_block g_dead 2 = Ok g_dead'
  /\ unreferred g_dead 2 /\ no_try (k_items (blk g_dead 2)) /\ ninstrs (k_items (blk g_dead 2)) = 3%nat
  /\ place g_dead (g_order g_dead) 2 = Some 4%nat
  /\ jump_of g_dead = Some (PTo (Some 7%nat)) /\ jump_of g_dead' = Some (PTo (Some 4%nat)).
Proof.
  split; [vm_compute; reflexivity|]. split; [vm_compute; reflexivity|]. split; [|split].
  - split.
    + intros m i J N JX. vm_compute in J. decompose [or] J; subst; try contradiction; vm_compute in JX; decompose [or] JX; try contradiction;
        try discriminate; match goal with H : BI _ = BI _ |- _ => injection H as <- end; discriminate.
    + intros m id la d J N JX. vm_compute in J. decompose [or] J; subst; try contradiction; vm_compute in JX; decompose [or] JX; try contradiction; discriminate.
  - intros x J. vm_compute in J. decompose [or] J; subst; try contradiction; exact Logic.I.
  - split; [vm_compute; reflexivity|]. split; [vm_compute; reflexivity|]. split; vm_compute; reflexivity.
Qed.
(** The two TryBegin of [b_depths], one with a depth and one without, are refused. *)
Example ex_mixed : exists g, proper T311 (b_items b_depths) /\ from_bytecode T311 b_depths = Ok g
  /\ listable T311 g /\ ~ depths_alike g /\ cfg_to_bytecode T311 g = Err AssertionError.
Proof.
  destruct C28_depths_refuted as (g & P & E & A). exists g. split; [exact P|]. split; [exact E|].
  destruct (C78_made T311 b_depths g P E) as [L _]. split; [exact L|]. split; [|exact A].
  intros D. destruct (C78_no_assertion T311 g L D) as (b & X & _). congruence.
Qed.

Print Assumptions C78_listed.
Print Assumptions C78_no_assertion.
Print Assumptions C78_made.
Print Assumptions C78_split.
Print Assumptions C78_delete.
Print Assumptions C78_add.
Print Assumptions C78_split_and_back.
