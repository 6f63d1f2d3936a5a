(** Property theorems: when legalize() of a graph raises (C36). *)
From Verif Require Import PyBase OpTable Table311 M_Instr M_Concrete M_Bytecode M_Cfg S_Prog S_Legal S_Cfg P_Cfg P_Cfg2 P_Bytecode T_Cfg.
Open Scope string_scope.
Open Scope list_scope.
Open Scope Z_scope.

Lemma no_detail_dec (l : list bitem) : no_detail_after_set bview l \/ ~ no_detail_after_set bview l.
Proof.
  rewrite <- (accepted_iff bview l). destruct (accepted bview None l); [now left|right; discriminate].
Qed.
Lemma block_refused v T first l : block_iter T l = Ok tt -> ~ no_detail_after_set bview l -> lines_ok bview v l ->
  min_lineno v <= first -> exists l', block_legalize v T first l = (l', Err RuntimeError).
Proof.
  intros B D L F. destruct (legalize_refused bview bset_loc v first l [] None D L F) as (l' & E).
  unfold legalize in E. destruct (block_loop_eq v T l None first B) as (o & EB & I & ER).
  destruct (legalize_loop bview bset_loc v None first l) as [l1 [u|e]] eqn:LE; [discriminate|].
  injection E as _ ->. cbn in EB, I, ER. destruct o as [c|e]; [discriminate|]. injection (ER e eq_refl) as ->.
  unfold block_legalize. rewrite EB. eauto.
Qed.

Lemma cfg_loop_refused v T order : forall h first, NoDup order -> Forall (fun n => (n < length h)%nat) order ->
  (forall n, In n order -> block_iter T (k_items (hblk h n)) = Ok tt /\ lines_ok bview v (k_items (hblk h n))) ->
  min_lineno v <= first ->
  (exists n, In n order /\ ~ no_detail_after_set bview (k_items (hblk h n))) ->
  exists h', cfg_legalize_loop v T first h order = (h', Err RuntimeError).
Proof.
  induction order as [|m r IH]; intros h first N F H M (n0 & J0 & D0); [destruct J0|].
  inversion N as [|? ? N1 N2]; subst. inversion F as [|? ? F1 F2]; subst.
  destruct (H m (or_introl eq_refl)) as (B & L). cbn [cfg_legalize_loop]. fold (hblk h m).
  destruct (no_detail_dec (k_items (hblk h m))) as [D|D].
  2:{ destruct (block_refused v T first _ B D L M) as (l' & E). rewrite E. eauto. }
  destruct (block_legalize_ok v T first _ B D L M) as (l' & c & E & G & NS & EL). rewrite E.
  set (h1 := set_heap h m (mkBlk l' (k_next (hblk h m)))).
  assert (HB : forall n, hblk h1 n = if Nat.eqb n m then mkBlk l' (k_next (hblk h m)) else hblk h n).
  { intros n. unfold hblk, h1. now apply blk_upd. }
  assert (NE : forall n, In n r -> Nat.eqb n m = false) by (intros n J; apply Nat.eqb_neq; congruence).
  apply IH; [exact N2|unfold h1, set_heap; now rewrite upd_length| | |].
  - intros n J. rewrite HB, NE by exact J. apply H. now right.
  - eapply end_line_min; eauto.
  - destruct J0 as [->|J0]; [contradiction|]. exists n0. rewrite HB, NE by exact J0. auto.
Qed.

(** C36.  On every graph with good lines, one instruction with a detailed location after a
    SetLineno of its block is enough for legalize() to raise RuntimeError... *)
Theorem C36_detailed_refuted : forall v T g, history T g -> iterable T g ->
  (forall n, In n (g_order g) -> lines_ok bview v (k_items (blk g n))) -> min_lineno v <= m_first_lineno (g_meta g) ->
  (exists n, In n (g_order g) /\ ~ no_detail_after_set bview (k_items (blk g n))) ->
  exists g', cfg_legalize v T g = (g', Err RuntimeError).
Proof.
  intros v T g H IT LO M X. apply ginv_history in H. destruct H as (N & F & _).
  destruct (cfg_loop_refused v T (g_order g) (g_heap g) (m_first_lineno (g_meta g)) N F) as (h' & E); [|exact M|exact X|].
  { intros n J. split; [|now apply LO]. assert (Y := IT n). unfold blk, hblk in *.
    destruct (block_iter T _) as [[]|]; [reflexivity|discriminate]. }
  unfold cfg_legalize. rewrite E. eauto.
Qed.

(** ... and nothing else makes it raise. *)
Theorem C36_returns_iff : forall v T g, history T g -> iterable T g ->
  (forall n, In n (g_order g) -> lines_ok bview v (k_items (blk g n))) -> min_lineno v <= m_first_lineno (g_meta g) ->
  ((exists g', cfg_legalize v T g = (g', Ok tt))
   <-> forall n, In n (g_order g) -> no_detail_after_set bview (k_items (blk g n))).
Proof.
  intros v T g H IT LO M. split.
  - intros (g' & E) n J. destruct (no_detail_dec (k_items (blk g n))) as [D|D]; [exact D|]. exfalso.
    destruct (C36_detailed_refuted v T g H IT LO M) as (g2 & E2); [eauto|congruence].
  - intros D. destruct (C36_legalize_partial v T g H IT) as (g' & E & _); [intros n J; split; [apply D|apply LO]; exact J|exact M|eauto].
Qed.

(** *** Non-vacuity: a graph with such an instruction in its second block *)
Definition detailed_nop : bitem := BI (mkInstr "NOP" 9 OUnset (Some (mkLoc (Some 4) (Some 4) (Some 0) (Some 3)))).
Definition g7 : cfg := fst (add_block (fst (add_block new_cfg [BSet 2; nop; detailed_nop])) [nop]).
Example C36_detailed_ex : history T311 g7 /\ iterable T311 g7
  /\ (forall n, In n (g_order g7) -> lines_ok bview V311 (k_items (blk g7 n)))
  /\ exists n, In n (g_order g7) /\ ~ no_detail_after_set bview (k_items (blk g7 n)).
Proof.
  split; [unfold g7; apply h_add, h_add, h_new|]. split; [intros [|[|[|[|n]]]]; reflexivity|]. split.
  - intros n J x I. cbn in J. repeat (destruct J as [<-|J]); try contradiction; cbn in I;
    repeat (destruct I as [<-|I]); try contradiction; cbn; try exact Logic.I; try (vm_compute; congruence);
    intros z Q; injection Q as <-; vm_compute; congruence.
  - exists 1%nat. split; [right; now left|]. intros D. eapply (D [] (BSet 2) [nop] detailed_nop []); [reflexivity..|].
    eexists. split; [reflexivity|]. left. discriminate.
Qed.

Print Assumptions C36_detailed_refuted.
Print Assumptions C36_returns_iff.
