(** Properties of ControlFlowGraph as a list of blocks: indices (C24), split_block (C25),
    get_dead_blocks (C26), legalize (C36). *)
From Verif Require Import PyBase OpTable Table311 M_Instr M_Concrete M_Bytecode M_Cfg S_Prog S_Legal S_Cfg P_Cfg P_Cfg2 P_Bytecode.
Open Scope string_scope.
Open Scope list_scope.
Open Scope Z_scope.

(** C24.  After any history of a graph in which blocks are added, deleted (as objects or by
    an index that is not negative), split and edited, the index of every block is its place.
    Missing: deletion with a negative index, refuted below. *)
Theorem C24_index_partial T g : history T g -> indexed g.
Proof. intros H. apply ginv_indexed. eapply ginv_history; eassumption. Qed.

(** [del cfg[-1]] on any graph of two blocks or more: the first block is still cfg[0], but
    its index becomes negative.  On a graph of one block, it raises. *)
Theorem C24_negative_index_refuted T g : history T g ->
  (forall b0 b1 rest, g_order g = b0 :: b1 :: rest ->
     exists g' k, delitem g (-1) = Ok g' /\ getitem g' 0 = Ok b0 /\ get_block_index g' b0 = Ok k /\ k < 0)
  /\ (forall b0, g_order g = [b0] -> delitem g (-1) = Err IndexError).
Proof.
  intros H. apply ginv_history in H. split; intros.
  - eapply delitem_last; eassumption.
  - eapply delitem_only; eassumption.
Qed.

(** A block stands for its place: cfg[block] is the block itself, del cfg[block] removes it and
    leaves the other blocks, in their order and as they were, and both are refused for a block
    that is not in the graph. *)
Theorem C24_by_block_partial T g : history T g ->
  (forall k b, nth_error (g_order g) k = Some b ->
     getitem_block g b = Ok b
     /\ exists g', delitem_block g b = Ok g' /\ g_order g' = firstn k (g_order g) ++ skipn (S k) (g_order g)
        /\ g_heap g' = g_heap g /\ indexed g')
  /\ (forall b, ~ In b (g_order g) -> getitem_block g b = Err ValueError /\ delitem_block g b = Err ValueError).
Proof.
  intros H. pose proof (ginv_history T g H) as G. destruct (ginv_indexed g G) as [I1 I2]. split.
  - intros k b N. destruct (I1 k b N) as [GI BI']. unfold getitem_block, delitem_block. rewrite BI'. cbn [bind]. split; [exact GI|].
    destruct (ginv_del g k b G N) as (g' & D & G' & O & HP). exists g'. split; [exact D|]. split; [exact O|]. split; [exact HP|]. now apply ginv_indexed.
  - intros b N. unfold getitem_block, delitem_block. rewrite (I2 b N). split; reflexivity.
Qed.

Definition instr0 (name : string) (op : Z) (arg : pyobj) : bitem := BI (mkInstr name op arg None).
Definition nop : bitem := instr0 "NOP" 9 OUnset.
Definition ret : bitem := instr0 "RETURN_VALUE" 83 OUnset.

Definition g1 : cfg := fst (add_block (fst (add_block new_cfg [nop; nop; nop])) [ret]).
Definition g2 : res (cfg * nat) := split_block (T311) g1 1 2.
Example ex_history : exists g b, g2 = Ok (g, b) /\ history (T311) g
  /\ g_order g = [0; 1; 3; 2]%nat /\ get_block_index g 2 = Ok 3
  /\ exists g', delitem g 1 = Ok g' /\ g_order g' = [0; 3; 2]%nat /\ get_block_index g' 2 = Ok 2
     /\ get_block_index g' 1 = Err ValueError.
Proof.
  eexists _, _. split; [reflexivity|]. split.
  - eapply h_split with (g := g1) (n := 1%nat) (i := 2); [|reflexivity]. unfold g1. apply h_add. apply h_add. apply h_new.
  - split; [reflexivity|]. split; [reflexivity|]. eexists. split; [reflexivity|]. repeat split.
Qed.
Example ex_negative : exists g', delitem g1 (-1) = Ok g' /\ get_block_index g' 0 = Ok (-1).
Proof. eexists. split; reflexivity. Qed.

(** C25.  A split keeps the sequence of all elements; the block is cut at [index] (or, when
    one part would be empty, nothing is changed), and nothing else changes.  Blocks not in
    the graph and indices outside the block are refused. *)
Theorem C25_split_partial T g n index : history T g ->
  (~ In n (g_order g) \/ index < 0 \/ zlen (k_items (blk g n)) < index -> split_block T g n index = Err ValueError)
  /\ forall g' b, split_block T g n index = Ok (g', b) ->
     all_items g' = all_items g
     /\ exists k, nth_error (g_order g) k = Some n /\
        ((index = 0 /\ g' = g /\ b = n)
         \/ (index = zlen (k_items (blk g n)) /\ g' = g /\ nth_error (g_order g) (S k) = Some b)
         \/ was_split g g' k n index b).
Proof.
  intros H. apply ginv_history in H. destruct (split_errors T g n index H) as [E1 E2]. split.
  - intros [J|J]; [auto|]. destruct (in_dec Nat.eq_dec n (g_order g)); auto.
  - intros g' b E. destruct (split_was T g n index g' b H E) as (k & K & I & C).
    destruct C as [(-> & -> & ->)|[(-> & -> & X)|(W & _)]].
    + split; [reflexivity|]. exists k. split; [exact K|]. left. auto.
    + split; [reflexivity|]. exists k. split; [exact K|]. right. left. auto.
    + split; [eapply was_split_items; eassumption|]. exists k. auto.
Qed.

(** The fall-through successor is not kept: the new block never has a successor, whatever
    the successor of the split block was. *)
Theorem C25_successor_refuted T g n index g' b k : history T g ->
  split_block T g n index = Ok (g', b) -> was_split g g' k n index b ->
  forall s, falls g n s -> ~ falls g' b s.
Proof.
  intros H E W s _. apply ginv_history in H. destruct (split_was T g n index g' b H E) as (k' & K & I & C).
  unfold falls. destruct C as [(-> & -> & ->)|[(-> & -> & X)|(_ & ->)]]; [| |discriminate].
  - destruct W as (W & _). apply nth_error_In in K. contradiction.
  - destruct W as (W & _). apply nth_error_In in X. contradiction.
Qed.

(** two blocks, the first falls through to the second, split in its middle *)
Definition b3 : bytecode := mkB meta0 [] [nop; nop; BLabel 5; ret; instr0 "JUMP_BACKWARD" 140 (OLabel 5)].
Example ex_split : exists g g' b, from_bytecode T311 b3 = Ok g /\ split_block T311 g 0 1 = Ok (g', b)
  /\ was_split g g' 0 0 1 b /\ falls g 0 1 /\ k_next (blk g' b) = None.
Proof.
  eexists _, _, _. split; [reflexivity|]. split; [reflexivity|]. split; [|split; reflexivity].
  split; [cbn; intuition discriminate|]. repeat split. intros m J NM. cbn in J. destruct J as [<-|[<-|[<-|[]]]]; [congruence|reflexivity..].
Qed.

(** C26.  get_dead_blocks terminates and returns exactly the blocks of the graph that
    cannot be reached from the first one through jumps and exception handlers.  Missing:
    fall-through, refuted below. *)
Theorem C26_dead_partial T g s r : iterable T g -> g_order g = s :: r ->
  exists dead, get_dead_blocks T g = Ok dead
    /\ forall n, In n dead <-> In n (g_order g) /\ ~ reaches (refers g) s n.
Proof. apply dead_blocks_ok. Qed.

Lemma reaches_mono (e e' : nat -> nat -> Prop) s n : (forall a b, e a b -> e' a b) -> reaches e s n -> reaches e' s n.
Proof. intros M. induction 1; [constructor|]. eapply r_step; eauto. Qed.

(** so what execution cannot reach at all is always in the list *)
Theorem C26_unreachable_found_partial T g s r dead n : iterable T g -> g_order g = s :: r ->
  get_dead_blocks T g = Ok dead -> In n (g_order g) ->
  ~ reaches (fun a b => refers g a b \/ falls g a b) s n -> In n dead.
Proof.
  intros IT O E J NR. destruct (dead_blocks_ok T g s r IT O) as (d & E' & D). rewrite E' in E. injection E as <-.
  apply D. split; [exact J|]. intros R. apply NR. eapply reaches_mono; [|exact R]. auto.
Qed.

(** A block that is only reached by fall-through is called dead, although the program
    executes it: in a graph made by from_bytecode, a block that ends with a conditional
    jump falls through to the next one. *)
Definition b4 : bytecode := mkB meta0 []
  [nop; instr0 "POP_JUMP_FORWARD_IF_FALSE" 114 (OLabel 5); nop; BLabel 5; ret].
Theorem C26_fall_through_refuted : exists g dead, from_bytecode T311 b4 = Ok g
  /\ get_dead_blocks T311 g = Ok dead
  /\ exists n, falls g 0 n /\ In n dead.
Proof. eexists _, _. split; [reflexivity|]. split; [reflexivity|]. exists 1%nat. split; [reflexivity|now left]. Qed.

Definition g5 : cfg := mkG meta0 []
  [mkBlk [nop; BTB 0 (OBlock 2) true None; instr0 "JUMP_FORWARD" 110 (OBlock 0); BTE 0] None; mkBlk [ret] None; mkBlk [ret] None]
  [0; 1; 2]%nat [(0%nat, 0); (1%nat, 1); (2%nat, 2)].
Example ex_dead : iterable T311 g5 /\ get_dead_blocks T311 g5 = Ok [1%nat].
Proof. split; [|reflexivity]. intros [|[|[|[|n]]]]; reflexivity. Qed.

(** C36.  legalize() removes every SetLineno of every block, keeps all the other elements
    in their blocks, gives instructions the lines prescribed by [legalized], and each block
    inherits the line in force at the end of the previous one.  Partial as C35: when no
    instruction with a detailed location comes after a SetLineno of its block. *)
Theorem C36_legalize_partial v T g : history T g -> iterable T g ->
  (forall n, In n (g_order g) -> no_detail_after_set bview (k_items (blk g n)) /\ lines_ok bview v (k_items (blk g n))) ->
  min_lineno v <= m_first_lineno (g_meta g) ->
  exists g', cfg_legalize v T g = (g', Ok tt) /\ g_order g' = g_order g /\ g_meta g' = g_meta g
    /\ legalized_graph g g'.
Proof.
  intros H IT C M. apply ginv_history in H. destruct H as (N & F & _).
  destruct (cfg_loop_ok v T (g_order g) (g_heap g) (m_first_lineno (g_meta g)) N F) as (h' & E & L & _ & lines & Z & P).
  { intros n J. split; [|now apply C]. assert (X := IT n). unfold blk, hblk in *.
    destruct (block_iter T _) as [[]|]; [reflexivity|discriminate]. }
  { exact M. }
  unfold cfg_legalize. rewrite E. eexists. split; [reflexivity|]. repeat split.
  exists lines. split; [exact Z|]. intros k n Q. exact (P k n Q).
Qed.

Definition at_line (z : Z) : bitem := BI (mkInstr "NOP" 9 OUnset (Some (line_loc (Some z)))).
Definition g6 : cfg := fst (add_block (fst (add_block new_cfg [nop; at_line 4; BSet 7; nop; at_line 9])) [nop; at_line 12; nop]).
Example ex_legalize : exists g', cfg_legalize V311 T311 g6 = (g', Ok tt)
  /\ map (fun n => k_items (blk g' n)) (g_order g')
     = [[]; [at_line 1; at_line 4; at_line 7; at_line 7]; [at_line 7; at_line 12; at_line 12]].
Proof. eexists. split; reflexivity. Qed.
Example ex_legalize_hyps : history T311 g6 /\ iterable T311 g6
  /\ (forall n, In n (g_order g6) -> no_detail_after_set bview (k_items (blk g6 n)) /\ lines_ok bview V311 (k_items (blk g6 n))).
Proof.
  split; [unfold g6; apply h_add, h_add, h_new|]. split; [intros [|[|[|[|n]]]]; reflexivity|].
  intros n J. cbn in J.
  assert (X : forall l, accepted bview None l = true -> (forallb (fun x => match bview x with VSetLine z => 1 <=? z
    | VInstr (Some lo) => match l_lineno lo with Some z => 1 <=? z | None => true end | _ => true end) l = true) ->
    no_detail_after_set bview l /\ lines_ok bview V311 l).
  { intros l A B. split; [now apply accepted_iff|]. rewrite forallb_forall in B. intros x Jx. specialize (B x Jx).
    destruct (bview x) as [z|[lo|]|]; try exact Logic.I; [cbn; lia|]. intros z E. rewrite E in B. cbn. lia. }
  destruct J as [<-|[<-|[<-|[]]]]; apply X; reflexivity.
Qed.

Print Assumptions C24_index_partial.
Print Assumptions C24_by_block_partial.
Print Assumptions C24_negative_index_refuted.
Print Assumptions C25_split_partial.
Print Assumptions C25_successor_refuted.
Print Assumptions C26_dead_partial.
Print Assumptions C26_unreachable_found_partial.
Print Assumptions C26_fall_through_refuted.
Print Assumptions C36_legalize_partial.
