(** ControlFlowGraph.to_bytecode on a graph made in any way: C78. *)
From Coq Require Import Lia.
From Verif Require Import PyBase OpTable P_Base M_Instr M_Concrete M_Convert M_Bytecode M_Cfg S_Prog S_Cfg S_List P_Cfg P_CfgSeq P_CfgFrom P_CfgFrom2 P_CfgFrom3 P_CfgFrom4 P_CfgTo P_CfgTo2.
Open Scope list_scope.
Open Scope Z_scope.

Definition gl (used : list nat) (g : cfg) (order : list nat) : list bitem := flat_map (fun n => lab used n ++ k_items (blk g n)) order.

Lemma iter_in T l : block_iter T l = Ok tt -> forall x, In x l ->
  match x with
  | BLabel _ => False
  | BI i => has_jump T i = true -> last_instr_of l = Some i /\ exists t, i_arg i = OBlock t
  | BTB _ t _ _ => exists b, t = OBlock b
  | _ => True
  end.
Proof.
  induction l as [|y r IH]; intros B x J; [contradiction|]. cbn [block_iter] in B. apply bind_ok in B. destruct B as (u & E & B).
  destruct J as [->|J].
  - destruct x as [i|n|z|id t la d|id]; cbn in E; try discriminate; try exact Logic.I.
    + intros HJ. rewrite HJ, existsb_BI in E. cbn. destruct (last_instr_of r); [discriminate|]. split; [reflexivity|].
      destruct (i_arg i); try discriminate. eauto.
    + destruct t; try discriminate. eauto.
  - specialize (IH B x J). destruct x as [i|n|z|id t la d|id]; auto. intros HJ. destruct (IH HJ) as [LI A]. split; [|exact A].
    destruct y; cbn; auto. now rewrite LI.
Qed.
Lemma iter_jump T l : block_iter T l = Ok tt -> exists j, get_jump T l = Ok j
  /\ forall i t, In (BI i) l -> has_jump T i = true -> i_arg i = OBlock t -> j = Some t.
Proof.
  intros B. unfold get_jump. destruct (last_instr_of l) as [li|] eqn:LI.
  - destruct (has_jump T li) eqn:HJ.
    + destruct (iter_in T l B (BI li) (last_instr_in _ _ LI) HJ) as (_ & t & A). rewrite A. eexists. split; [reflexivity|].
      intros i t' J H A'. destruct (iter_in T l B (BI i) J H) as (L' & _). congruence.
    + eexists. split; [reflexivity|]. intros i t' J H A'. destruct (iter_in T l B (BI i) J H) as (L' & _). congruence.
  - eexists. split; [reflexivity|]. intros i t' J H A'. destruct (iter_in T l B (BI i) J H) as (L' & _). congruence.
Qed.

Lemma gl_nolab used g order : (forall n m, In n order -> ~ In (BLabel m) (k_items (blk g n))) ->
  nolab (gl used g order) = flat_map (fun n => k_items (blk g n)) order.
Proof.
  induction order as [|n r IH]; intros H; [reflexivity|]. cbn [gl flat_map]. unfold nolab. rewrite !filter_app. f_equal; [|].
  - assert (E : filter (fun x => negb (is_label x)) (lab used n) = []) by (unfold lab; now destruct (nat_mem n used)).
    rewrite E. cbn [app]. apply nolab_id. intros m. apply H. now left.
  - apply IH. intros m k J. apply H. now right.
Qed.
Lemma gl_in used g order x : In x (gl used g order) -> (exists n, In n order /\ In x (k_items (blk g n))) \/ exists n, x = BLabel n /\ In n used /\ In n order.
Proof.
  intros J. apply in_flat_map in J. destruct J as (n & N & J). apply in_app_iff in J. destruct J as [J|J]; [|eauto].
  right. unfold lab in J. destruct (nat_mem n used) eqn:M; [|contradiction]. destruct J as [<-|[]]. exists n. apply nat_mem_In in M. auto.
Qed.
Lemma gl_has used g order t : In t order -> In t used -> In (BLabel t) (gl used g order).
Proof. intros O U. apply in_flat_map. exists t. split; [exact O|]. apply in_app_iff. left. unfold lab. apply nat_mem_In in U. rewrite U. now left. Qed.
Lemma gl_place used g t : In t used -> forall order, (forall n m, In n order -> ~ In (BLabel m) (k_items (blk g n))) -> NoDup order ->
  position (gl used g order) t = place g order t.
Proof.
  intros U. induction order as [|n r IH]; intros H N; [reflexivity|]. inversion N as [|? ? N1 N2]; subst.
  assert (H' : forall m k, In m r -> ~ In (BLabel k) (k_items (blk g m))) by (intros m k J; apply H; now right).
  cbn [gl flat_map place]. fold (gl used g r). rewrite !position_app, (IH H' N2). 
  assert (NK : ninstrs (lab used n) = 0%nat) by (unfold lab; now destruct (nat_mem n used)).
  rewrite (position_none (k_items (blk g n))) by (apply H; now left).
  destruct (Nat.eqb_spec n t) as [->|NE].
  - assert (P : place g r t = None).
    { rewrite <- (IH H' N2). apply position_none. intros J. destruct (gl_in _ _ _ _ J) as [(m & M & J')|(m & E & _ & M)]; [exact (H' m t M J')|]. injection E as <-. contradiction. }
    rewrite P. unfold lab. apply nat_mem_In in U. rewrite U. cbn. now rewrite Nat.eqb_refl.
  - destruct (place g r t) as [p|]; cbn [option_map]; [f_equal; rewrite ninstrs_app, NK; lia|].
    unfold lab. destruct (nat_mem n used); [|reflexivity]. cbn. apply Nat.eqb_neq in NE. rewrite Nat.eqb_sym, NE. reflexivity.
Qed.
Lemma gl_instr used g order : filter is_instr (gl used g order) = filter is_instr (flat_map (fun n => k_items (blk g n)) order).
Proof.
  induction order as [|n r IH]; [reflexivity|]. cbn [gl flat_map]. fold (gl used g r). rewrite !filter_app, IH. unfold lab. destruct (nat_mem n used); reflexivity.
Qed.
Lemma place_some g order t : In t order -> exists p, place g order t = Some p.
Proof.
  induction order as [|n r IH]; intros J; [contradiction|]. cbn. destruct (Nat.eqb_spec n t); [eauto|]. destruct J as [->|J]; [congruence|].
  destruct (IH J) as (p & ->). cbn. eauto.
Qed.

(** The reading of a graph, and the sequence without repeated TryEnd *)
Lemma pairs_dd l : forall op used seen, try_paired op used l = true ->
  (forall k, In k used -> In k seen \/ op = Some k) -> (forall k, In k seen -> In k used /\ op <> Some k) -> (forall k, op = Some k -> In k used) ->
  paired op used (dd seen l) = true.
Proof.
  induction l as [|x r IH]; intros op used seen H A B O; [reflexivity|]. destruct x as [i|n|z|id t la d|id]; cbn [try_paired dd paired] in *; auto.
  - apply andb_true_iff in H. destruct H as [H1 H]. rewrite H1. cbn [andb]. apply andb_true_iff in H1. destruct H1 as [H1 H2].
    destruct op; [discriminate|]. apply negb_true_iff in H2.
    assert (NI : ~ In id used) by (intros J; apply nat_mem_In in J; congruence).
    apply IH; [exact H| | |].
    + intros k [->|J]; [now right|]. left. destruct (A k J); [assumption|discriminate].
    + intros k J. destruct (B k J) as [J' _]. split; [now right|]. intros E. injection E as ->. contradiction.
    + intros k E. injection E as ->. now left.
  - assert (OUT : forall o', op = o' -> (match o' with Some id' => Nat.eqb id id' | None => false end) = false -> nat_mem id used && try_paired op used r = true ->
        paired op used (if nat_mem id seen then dd seen r else BTE id :: dd (id :: seen) r) = true).
    { intros o' E0 N H'. apply andb_true_iff in H'. destruct H' as [M H']. apply nat_mem_In in M. destruct (A id M) as [J|E].
      - apply nat_mem_In in J. rewrite J. apply IH; assumption.
      - subst op o'. rewrite Nat.eqb_refl in N. discriminate. }
    destruct op as [id'|]; [|apply (OUT None eq_refl eq_refl H)]. destruct (Nat.eqb id id') eqn:Q; [|apply (OUT _ eq_refl Q H)].
    apply Nat.eqb_eq in Q. subst id'. assert (NS : nat_mem id seen = false).
    { destruct (nat_mem id seen) eqn:M; [|reflexivity]. apply nat_mem_In in M. destruct (B id M) as [_ X]. congruence. }
    rewrite NS. cbn [paired]. rewrite Nat.eqb_refl. cbn [andb]. apply IH; [exact H| | |].
    + intros k J. left. destruct (A k J) as [J'|E]; [now right|]. injection E as ->. now left.
    + intros k [<-|J]; [split; [now apply O|discriminate]|]. split; [apply B, J|discriminate].
    + discriminate.
Qed.
Lemma shown_wg g l : forall op used seen, try_paired (option_map fst op) used l = true ->
  (forall k, In k used -> In k seen \/ option_map fst op = Some k) -> (forall k, In k seen -> In k used /\ option_map fst op <> Some k) -> (forall k, option_map fst op = Some k -> In k used) ->
  wg (shown_arg g) (option_map snd op) (dd seen l) = shown g op l.
Proof.
  induction l as [|x r IH]; intros op used seen H A B O; [reflexivity|]. destruct x as [i|n|z|id t la d|id]; cbn [try_paired dd shown wg] in *.
  - f_equal. eapply IH; eassumption.
  - eapply IH; eassumption.
  - f_equal. eapply IH; eassumption.
  - apply andb_true_iff in H. destruct H as [H1 H]. apply andb_true_iff in H1. destruct H1 as [H1 H2].
    destruct op; [discriminate|]. apply negb_true_iff in H2. cbn [option_map] in *.
    assert (NI : ~ In id used) by (intros J; apply nat_mem_In in J; congruence).
    apply (IH (Some (id, (shown_arg g t, la))) (id :: used) seen); cbn [option_map fst]; [exact H| | |].
    + intros k [->|J]; [now right|]. left. destruct (A k J); [assumption|discriminate].
    + intros k J. destruct (B k J) as [J' _]. split; [now right|]. intros E. injection E as ->. contradiction.
    + intros k E. injection E as ->. now left.
  - destruct op as [[id' h]|]; cbn [option_map fst snd] in *.
    + destruct (Nat.eqb id id') eqn:Q.
      * apply Nat.eqb_eq in Q. subst id'. assert (NS : nat_mem id seen = false).
        { destruct (nat_mem id seen) eqn:M; [|reflexivity]. apply nat_mem_In in M. destruct (B id M) as [_ X]. congruence. }
        rewrite NS. cbn [wg]. apply (IH None used (id :: seen)); cbn [option_map]; [exact H| | |].
        -- intros k J. left. destruct (A k J) as [J'|E]; [now right|]. injection E as ->. now left.
        -- intros k [<-|J]; [split; [now apply O|discriminate]|]. split; [apply B, J|discriminate].
        -- discriminate.
      * apply andb_true_iff in H. destruct H as [M H]. apply nat_mem_In in M. destruct (A id M) as [J|E].
        -- apply nat_mem_In in J. rewrite J. apply (IH (Some (id', h)) used seen); assumption.
        -- injection E as ->. rewrite Nat.eqb_refl in Q. discriminate.
    + apply andb_true_iff in H. destruct H as [M H]. apply nat_mem_In in M. destruct (A id M) as [J|E]; [|discriminate].
      apply nat_mem_In in J. rewrite J. apply (IH None used seen); assumption.
Qed.

Lemma all_in g x : In x (all_items g) <-> exists n, In n (g_order g) /\ In x (k_items (blk g n)).
Proof. apply in_flat_map. Qed.

Section List.
  Context (T : optable) (g : cfg).
  Hypothesis LS : listable T g.

  Lemma used_list : exists used, used_blocks T g = Ok used /\
    forall n x k, In n (g_order g) -> In x (k_items (blk g n)) -> refers_to x k -> In k used /\ In k (g_order g).
  Proof.
    unfold used_blocks.
    destruct (mapM_ok (fun n => let items := k_items (blk g n) in
               j <- get_jump T items ;;
               _ <- block_iter T items ;;
               Ok (match j with Some t => [t] | None => [] end
                   ++ flat_map (fun it => match it with BTB _ (OBlock t) _ _ => [t] | _ => [] end) items))
     (fun n y => forall x k, In x (k_items (blk g n)) -> refers_to x k -> In k y /\ In k (g_order g)) (g_order g)) as (us & E & R).
    - intros n J. cbv zeta. pose proof (ls_iter _ _ LS n J) as BI. destruct (iter_jump T _ BI) as (j & EJ & HJ). rewrite EJ, BI. cbn [bind].
      eexists. split; [reflexivity|]. intros x k JX RX. rewrite in_app_iff. destruct x as [i|m|z|id t la d|id]; cbn in RX; try contradiction.
      + pose proof (ls_args _ _ LS n i J JX) as A. rewrite RX in A. destruct A as [A1 A2]. split; [|exact A2]. left. rewrite (HJ i k JX A1 RX). now left.
      + destruct (ls_handlers _ _ LS n id t la d J JX) as (b & TB & IB). split; [|congruence]. right. apply in_flat_map. exists (BTB id t la d).
        split; [exact JX|]. subst t. now left.
    - exists (concat us). split; [match goal with |- bind ?m _ = _ => replace m with (Ok us) end; reflexivity|].
      intros n x k JN JX RX. destruct (In_nth_error _ _ JN) as (q & NQ). destruct (Forall2_nth1 _ _ _ _ _ R NQ) as (y & NY & RY).
      destruct (RY x k JX RX) as [K1 K2]. split; [|exact K2]. apply in_concat. exists y. split; [eapply nth_error_In; eassumption|exact K1].
  Qed.
  Lemma no_labels n m : In n (g_order g) -> ~ In (BLabel m) (k_items (blk g n)).
  Proof. intros J K. exact (iter_in T _ (ls_iter _ _ LS n J) _ K). Qed.

  Lemma list_ok :
    (cfg_to_bytecode T g = Err AssertionError /\ exists id t la z, In (BTB id t la (Some z)) (all_items g) /\ exists id' t' la', In (BTB id' t' la' None) (all_items g))
    \/ exists out, cfg_to_bytecode T g = Ok (mkB (copy_attr (g_meta g)) (g_argnames g) out)
       /\ program out = graph_program g /\ proper T out.
  Proof.
    unfold cfg_to_bytecode. destruct used_list as (used & EU & HU). rewrite EU. cbn [bind].
    set (L := gl used g (g_order g)).
    assert (NLL : nolab L = all_items g) by (apply gl_nolab; exact no_labels).
    assert (TBL : forall S n, to_block g used S n = foldM (to_elem g) (lab used n ++ k_items (blk g n)) S).
    { intros S n. unfold to_block, lab. destruct (nat_mem n used); [|reflexivity]. now destruct S. }
    assert (EL : forall S, foldM (to_block g used) (g_order g) S = foldM (to_elem g) L S).
    { intros S. rewrite (foldM_ext _ (fun s n => foldM (to_elem g) (lab used n ++ k_items (blk g n)) s)) by (intros; apply TBL).
      now rewrite (foldM_flat (to_elem g) (fun n => lab used n ++ k_items (blk g n))). }
    rewrite EL. clear EL TBL.
    assert (INL : forall x, In x L -> (exists n, In n (g_order g) /\ In x (k_items (blk g n))) \/ exists n, x = BLabel n /\ In n used /\ In n (g_order g)) by apply gl_in.
    assert (PDD : paired None [] (dd [] (all_items g)) = true).
    { apply pairs_dd; [exact (ls_pairs _ _ LS)| | |]; try contradiction; discriminate. }
    destruct (to_all (shown_arg g) g L) with (rest := L) (p := @nil bitem) (S := mkTS [] [] [] 0 None None) as [(E & id & t & la & z & J & id' & t' & la' & J2)|(S & E & V)].
    { now rewrite <- nolab_paired, NLL. }
    { intros id. now rewrite <- NLL, nolab_find. }
    { intros id t la d J. destruct (INL _ J) as [(n & N & J')|(n & ? & _)]; [|discriminate].
      destruct (ls_handlers _ _ LS _ _ _ _ _ N J') as (b & -> & _). eauto. }
    { apply to_init. } { reflexivity. }
    { left. rewrite E. split; [reflexivity|]. destruct (INL _ J) as [(n & N & J')|(n & ? & _)]; [|discriminate].
      destruct (INL _ J2) as [(n2 & N2 & J2')|(n2 & ? & _)]; [|discriminate].
      exists id, t, la, z. split; [apply all_in; eauto|]. exists id', t', la'. apply all_in; eauto. }
    right. rewrite E. cbn [bind].
    assert (TOUT : forall x, In x (t_out S) -> is_try x = false -> In x L).
    { intros x J T0. apply skel_in; [exact T0|]. rewrite <- (o_skel _ _ _ _ V). now apply skel_in. }
    assert (REF : forall x k, In x (t_out S) -> refers_to x k -> In k used /\ In k (g_order g)).
    { intros x k J RX. destruct x as [i|n|z|id t la d|id]; cbn in RX; try contradiction.
      - destruct (INL _ (TOUT _ J eq_refl)) as [(n & N & J')|(n & ? & _)]; [|discriminate]. eapply HU; [exact N|exact J'|exact RX].
      - destruct (o_known _ _ _ _ V _ _ _ _ J) as (_ & id' & d' & JL). subst t.
        destruct (INL _ JL) as [(n & N & J')|(n & ? & _)]; [|discriminate]. eapply HU; [exact N|exact J'|reflexivity]. }
    assert (LABD : forall k, In k used -> In k (g_order g) -> nat_mem k (filter (fun n => nat_mem n used) (g_order g)) = true).
    { intros k J O. apply nat_mem_In, filter_In. split; [exact O|]. now apply nat_mem_In. }
    destruct (mapM_ok (unresolve_item (filter (fun n => nat_mem n used) (g_order g)) (map snd (t_tbs S))) un1 (t_out S)) as (out & EM & R).
    { intros x J. assert (RX := REF x). destruct x as [i|n|z|id t la d|id]; cbn [unresolve_item un1]; try (eexists; split; reflexivity).
      - destruct (i_arg i) eqn:Q; try (eexists; split; [reflexivity|]; destruct i; cbn in *; congruence).
        destruct (RX n J) as [U LK]; [cbn; exact Q|]. rewrite (LABD n U LK). eexists. split; reflexivity.
      - destruct (o_known _ _ _ _ V _ _ _ _ J) as (KN & id' & d' & JL). apply nat_mem_In in KN. rewrite KN.
        destruct (INL _ JL) as [(n & N & J')|(n & ? & _)]; [|discriminate].
        destruct (ls_handlers _ _ LS _ _ _ _ _ N J') as (k & -> & _).
        destruct (RX k J) as [U LK]; [reflexivity|]. rewrite (LABD k U LK). eexists. split; [reflexivity|]. eauto. }
    exists out. split; [match goal with |- bind ?m _ = _ => replace m with (Ok out) end; reflexivity|].
    assert (POS : forall k, In k used -> position out k = place g (g_order g) k).
    { intros k U. rewrite (un1_position _ _ _ R), <- skel_position, (o_skel _ _ _ _ V), skel_position.
      apply gl_place; [exact U|exact no_labels|exact (ls_order _ _ LS)]. }
    assert (INS : forall i, In (BI i) (t_out S) -> (has_jump T i = true -> exists t, i_arg i = OBlock t)
              /\ match i_arg i with OLabel _ => False | OBlock t => has_jump T i = true | _ => True end).
    { intros i J. destruct (INL _ (TOUT _ J eq_refl)) as [(n & N & J')|(n & ? & _)]; [|discriminate]. split.
      - intros HJ. exact (proj2 (iter_in T _ (ls_iter _ _ LS n N) _ J' HJ)).
      - pose proof (ls_args _ _ LS n i N J') as A. destruct (i_arg i); auto. apply A. }
    split.
    - unfold program, graph_program. rewrite <- !wg_walk. rewrite (un1_wg (shown_arg g) (arg_of (position out)) _ _ R).
      + rewrite (o_walk _ _ _ _ V), <- nolab_wg, NLL. apply (shown_wg g _ None [] []); cbn; try contradiction; try discriminate. exact (ls_pairs _ _ LS).
      + intros x k J RX. cbn. destruct (REF x k J RX) as [U _]. now rewrite (POS k U).
      + intros i J NB. destruct (INS i J) as [_ A]. destruct (i_arg i); try reflexivity; [contradiction|destruct (NB n eq_refl)].
    - constructor.
      + rewrite (un1_paired _ _ R). exact (o_pair _ _ _ _ V).
      + intros y J. destruct (Forall2_in2 _ _ _ _ R J) as (x & JX & RX).
        destruct x as [i|n|z|id t la d|id]; cbn in RX; try (subst y; exact Logic.I).
        * subst y. destruct (INS i JX) as [A1 A2]. cbn. unfold has_jump in *. cbn [i_op i_arg]. destruct (op_has_jump T (i_op i)).
          -- destruct (A1 eq_refl) as (t & ->). eauto.
          -- intros n. destruct (i_arg i) eqn:Q; try (split; congruence); contradiction.
        * destruct RX as (n & -> & ->). cbn. eauto.
      + intros y n J TN. destruct (Forall2_in2 _ _ _ _ R J) as (x & JX & RX).
        assert (RF : refers_to x n).
        { destruct x as [i|m|z|id t la d|id]; cbn in RX; try (subst y; contradiction).
          - subst y. cbn in TN. destruct (INS i JX) as [_ A]. cbn. destruct (i_arg i) eqn:Q; cbn in TN; try contradiction.
            destruct TN as [->|[]]. reflexivity.
          - destruct RX as (m & -> & ->). cbn in TN. destruct TN as [->|[]]. reflexivity. }
        destruct (REF x n JX RF) as [U O].
        assert (JL : In (BLabel n) (t_out S)).
        { apply (skel_in (BLabel n)); [reflexivity|]. rewrite (o_skel _ _ _ _ V). apply (skel_in (BLabel n)); [reflexivity|]. now apply gl_has. }
        clear - JL R. induction R as [|x y l l' RX _ IH]; [contradiction|]. destruct JL as [->|JL]; [left; exact RX|right; auto].
  Qed.
End List.
