(** The way through the graph returns. *)
From Coq Require Import Lia.
From Verif Require Import PyBase OpTable CPy P_Base M_Instr M_Tables M_Concrete M_Convert M_Bytecode M_Cfg M_Stack M_Full
  S_Args S_Lines S_Asm S_Prog S_Slots S_Cfg S_Stack S_Ident
  P_CfgSeq P_CfgFrom P_CfgFrom2 P_CfgFrom3 P_CfgFrom4 P_CfgTo P_CfgTo2 P_CfgTo3 P_Full P_Stack P_Stack2 P_Stack4 P_StackFuel P_Run2 T_Cfg2 T_Code S_Total.
Open Scope string_scope.
Open Scope list_scope.
Open Scope Z_scope.

(** ** Effects *)
Lemma effect_same v T se check i j jump : i_name j = i_name i -> i_op j = i_op i ->
  (i_arg j = i_arg i \/ exists n m, i_arg i = OLabel n /\ i_arg j = OBlock m) ->
  used_effect v T se check j jump = used_effect v T se check i jump.
Proof.
  intros N O A. unfold used_effect, pre_and_post, stack_effect, dynamic_effect. rewrite N, O.
  destruct A as [->|(n & m & -> & ->)]; reflexivity.
Qed.

(** ** The graph is complete *)
Lemma paired_end l : forall op u id, paired op u l = true -> In (BTE id) l -> op = Some id \/ exists t la d, In (BTB id t la d) l.
Proof.
  induction l as [|x l IH]; intros op u id P J; [destruct J|]. destruct x as [i|n|z|id' t la d|id']; cbn in P.
  - destruct J as [J|J]; [discriminate|]. destruct (IH _ _ _ P J) as [->|(t & la & d & K)]; [now left|right; exists t, la, d; now right].
  - destruct J as [J|J]; [discriminate|]. destruct (IH _ _ _ P J) as [->|(t & la & d & K)]; [now left|right; exists t, la, d; now right].
  - destruct J as [J|J]; [discriminate|]. destruct (IH _ _ _ P J) as [->|(t & la & d & K)]; [now left|right; exists t, la, d; now right].
  - destruct J as [J|J]; [discriminate|]. apply andb_true_iff in P. destruct P as [_ P].
    destruct (IH _ _ _ P J) as [Q|(t' & la' & d' & K)].
    + injection Q as <-. right. exists t, la, d. now left.
    + right. exists t', la', d'. now right.
  - apply andb_true_iff in P. destruct P as [P1 P2]. destruct J as [J|J].
    + injection J as ->. destruct op; [|discriminate]. apply Nat.eqb_eq in P1. left. congruence.
    + destruct (IH _ _ _ P2 J) as [Q|(t' & la' & d' & K)]; [discriminate|]. right. exists t', la', d'. now right.
Qed.
Lemma dd_end l : forall s id, In (BTE id) l -> nat_mem id s = true \/ In (BTE id) (dd s l).
Proof.
  induction l as [|x l IH]; intros s id J; [destruct J|]. destruct x as [i|n|z|id' t la d|id']; cbn;
    try (destruct J as [J|J]; [discriminate|]; destruct (IH s id J); [now left|right; now right]).
  destruct (nat_mem id' s) eqn:M.
  - destruct J as [J|J]; [injection J as ->; now left|]. apply IH. exact J.
  - destruct J as [J|J]; [injection J as ->; right; now left|]. destruct (IH (id' :: s) id J) as [K|K]; [|right; now right].
    cbn in K. apply orb_true_iff in K. destruct K as [K|K]; [|now left]. apply Nat.eqb_eq in K. subst. right. now left.
Qed.
Lemma dd_incl l : forall s x, In x (dd s l) -> In x l.
Proof.
  induction l as [|y l IH]; intros s x J; [destruct J|]. destruct y as [i|n|z|id' t la d|id']; cbn in J;
    try (destruct J as [J|J]; [now left|right; eapply IH; exact J]).
  destruct (nat_mem id' s); [right; eapply IH; exact J|]. destruct J as [J|J]; [now left|right; eapply IH; exact J].
Qed.

Section G.
  Variables (v : pyver) (T : optable) (se : oracle) (check : bool) (b : bytecode) (g : cfg).
  Hypothesis PR : proper T (b_items b).
  Hypothesis FR : from_bytecode T b = Ok g.

  Lemma graph_facts : exists lk, graph_of T (b_items b) (g_heap g) lk /\ well_formed T (b_items b) g
    /\ g_order g = seq 0 (length (g_heap g)) /\ coherent g /\ g_meta g = b_meta b.
  Proof using PR FR.
    destruct (C27_from_bytecode T b PR) as (g1 & E1 & WF). rewrite FR in E1. injection E1 as <-.
    destruct (from_ok T b PR) as (g1 & lk & E1 & G & _ & O & M & _). rewrite FR in E1. injection E1 as <-.
    exists lk. split; [exact G|]. split; [exact WF|]. split; [exact O|]. split; [eapply graph_coherent; exact G|].
    rewrite M. destruct (b_meta b). reflexivity.
  Qed.

  Lemma in_items n it : In n (g_order g) -> In it (k_items (blk g n)) -> In it (all_items g).
  Proof. intros I J. unfold all_items. apply in_flat_map. eauto. Qed.
  Lemma item_block it : In it (all_items g) -> exists n, In n (g_order g) /\ In it (k_items (blk g n)).
  Proof. intros J. unfold all_items in J. apply in_flat_map in J. destruct J as (n & I & J). eauto. Qed.

  Lemma graph_complete : (forall i j, In (BI i) (b_items b) -> exists e, used_effect v T se check i j = Ok e) ->
    complete T (eff v T se check) g.
  Proof using PR FR.
    intros EF. destruct graph_facts as (lk & G & [WS WH WI WB WP WN] & O & _).
    constructor.
    - exact WI.
    - intros n m I [[(i & J & A)|(id & la & d & J)]|FA].
      + pose proof (in_items _ _ I J) as JA. assert (JF : In (BI i) (filter is_instr (all_items g))) by (apply filter_In; auto).
        destruct (Forall2_in2 _ _ _ _ WS JF) as (x & JX & R). destruct x as [i0| | | |]; cbn in R; try contradiction.
        destruct R as (_ & _ & _ & R). apply filter_In in JX. destruct JX as [JX _].
        pose proof (S_Cfg.proper_args _ _ PR _ JX) as FI. unfold arg_fits in FI.
        destruct (has_jump T i0).
        * destruct FI as (k & FI). rewrite FI in R. destruct R as (k' & t & NK & AT & _). rewrite A in AT. injection AT as ->. eapply nth_error_In; eauto.
        * destruct (i_arg i0) eqn:Q; cbn in R; try congruence.
          -- destruct R as (k' & t & NK & AT & _). rewrite A in AT. injection AT as ->. eapply nth_error_In; eauto.
          -- exfalso. destruct (FI m). congruence.
      + destruct (WH _ _ _ _ (in_items _ _ I J)) as (n0 & k & t & Q & NK & _). injection Q as ->. eapply nth_error_In; eauto.
      + apply In_nth_error in I. destruct I as (k & NK). apply (proj1 (WN k n m NK)) in FA. destruct FA as [FA _]. eapply nth_error_In; eauto.
    - intros n x j I J. pose proof (in_items _ _ I J) as JA. assert (JF : In (BI x) (filter is_instr (all_items g))) by (apply filter_In; auto).
      destruct (Forall2_in2 _ _ _ _ WS JF) as (y & JX & R). destruct y as [i0| | | |]; cbn in R; try contradiction.
      destruct R as (N & OP & _ & R). apply filter_In in JX. destruct JX as [JX _]. destruct (EF i0 j JX) as (e & E).
      unfold eff. rewrite (effect_same v T se check i0 x j N OP), E; [discriminate|].
      destruct (i_arg i0) eqn:Q; cbn in R; auto. destruct R as (k' & t & _ & AT & _). right. eauto.
    - intros n id I J. pose proof (in_items _ _ I J) as JA. rewrite (all_flat g O) in JA.
      destruct (dd_end _ [] _ JA) as [Q|Q]; [discriminate|].
      destruct (paired_end _ _ _ _ (q_pair _ _ _ _ G) Q) as [X|(t & la & d & X)]; [discriminate|].
      apply dd_incl in X. rewrite <- (all_flat g O) in X. destruct (item_block _ X) as (n' & I' & J'). eauto 8.
  Qed.
End G.

(** ** The depths *)
Lemma flat_unique (hs : list block) : NoDup (tb_ids (flat hs)) -> forall n m a c id t la d t' la' d',
  nth_error hs n = Some a -> nth_error hs m = Some c ->
  In (BTB id t la d) (k_items a) -> In (BTB id t' la' d') (k_items c) -> n = m.
Proof.
  assert (IDS : forall l id t la d, In (BTB id t la d) l -> In id (tb_ids l)).
  { intros l id t la d J. unfold tb_ids. apply in_flat_map. exists (BTB id t la d). split; [exact J|now left]. }
  assert (FL : forall hs n a x, nth_error hs n = Some a -> In x (k_items a) -> In x (flat hs)).
  { intros hs' n a x N J. unfold flat. apply in_flat_map. exists a. split; [eapply nth_error_In; eauto|exact J]. }
  induction hs as [|h hs IH]; intros ND n m a c id t la d t' la' d' N M J J'; [destruct n; discriminate|].
  change (flat (h :: hs)) with (k_items h ++ flat hs) in ND. unfold tb_ids in ND. rewrite flat_map_app in ND.
  fold (tb_ids (k_items h)) in ND. fold (tb_ids (flat hs)) in ND.
  assert (DJ : forall id, In id (tb_ids (k_items h)) -> ~ In id (tb_ids (flat hs))).
  { intros i. revert ND. generalize (tb_ids (k_items h)) (tb_ids (flat hs)). induction l as [|y l IHl]; intros l2 ND; [intros []|].
    cbn in ND. inversion ND as [|? ? NI ND']; subst. intros [->|J1]; [intros J2; apply NI; apply in_app_iff; now right|].
    now apply IHl. }
  destruct n as [|n], m as [|m]; cbn in N, M; [reflexivity| | |].
  - injection N as ->. exfalso. apply (DJ id); [eapply IDS; exact J|eapply IDS, FL; eauto].
  - injection M as ->. exfalso. apply (DJ id); [eapply IDS; exact J'|eapply IDS, FL; eauto].
  - f_equal. eapply IH; eauto. clear - ND. induction (tb_ids (k_items h)) as [|y l IHl]; [exact ND|]. inversion ND; auto.
Qed.

Section D.
  Variables (v : pyver) (T : optable) (se : oracle) (check depths : bool) (b : bytecode) (g g' : cfg) (H : nat -> Z)
    (cov : nat -> nat -> nat -> bool -> Prop) (size : Z).
  Hypothesis PR : proper T (b_items b).
  Hypothesis FR : from_bytecode T b = Ok g.
  Let first := first_depth v (m_flags (g_meta g)).
  Let At := at_ T (eff v T se check) g first H cov.
  Hypothesis REG : regular T (eff v T se check) g first H cov.
  Hypothesis OUT : outcome v T se check depths g H cov (g', size).
  Hypothesis LK : Forall2 like (g_heap g) (g_heap g').
  (** every TryBegin is reached, or stands in a dead block and has no depth yet *)
  Hypothesis MET : forall n i id t la sd, elem g n i = Some (BTB id t la sd) -> depths = true
    /\ ((exists d o, At (n, i, d, o)) \/ (sd = None /\ forall d o, ~ At (n, O, d, o))).

  Lemma opened_at c : At c -> forall n i d id h la, c = (n, i, d, Some (id, h, la)) ->
    exists n' i' d' o' sd, At (n', i', d', o') /\ elem g n' i' = Some (BTB id (OBlock h) la sd).
  Proof.
    intros A. unfold At in A. induction A as [m l E|c c' A IH S|c h la A IH R]; intros n i d id hh la0 Q; try discriminate.
    inversion S; subst; try (match goal with E : (_, _, _, _) = (_, _, _, _) |- _ => injection E; clear E; intros; subst end).
    - eapply IH; reflexivity.
    - exists n, i0, d, o. eexists. split; [exact A|eassumption].
    - destruct o as [((id', hx), lax)|]; cbn in *; [|discriminate]. destruct (Nat.eqb id0 id'); [discriminate|].
      match goal with E : Some _ = Some _ |- _ => injection E; clear E; intros; subst end. eapply IH; reflexivity.
    - eapply IH; reflexivity.
    - match goal with E : (if ?c then _ else _) = _ |- _ => destruct c; [discriminate E|subst] end. eapply IH; reflexivity.
    - eapply IH; reflexivity.
  Qed.
  Lemma entered c : At c -> forall n i d o, c = (n, i, d, o) -> exists d' o', At (n, O, d', o').
  Proof.
    intros A. unfold At in A. induction A as [m l E|c c' A IH S|c h la A IH R]; intros n i d o Q.
    - injection Q as <- <- <- <-. exists first, None. eapply at_entry; eauto.
    - pose proof (at_step _ _ _ _ _ _ _ _ A S) as A'. inversion S; subst;
        match goal with E : (_, _, _, _) = (_, _, _, _) |- _ => injection E; clear E; intros; subst end; eauto.
    - injection Q as <- <- <- <-. eexists _, _. eapply at_raise; eauto.
  Qed.

  Lemma depths_set id t la d : In (BTB id t la d) (flat (g_heap g')) -> exists z, d = Some z /\ 0 <= z.
  Proof.
    intros J. destruct (graph_facts T b g PR FR) as (lk & G & WF & O & CO & _).
    assert (ND := graph_nodup _ _ _ _ G).
    unfold flat in J. apply in_flat_map in J. destruct J as (a' & JA & J).
    assert (X : exists n i sd, elem g n i = Some (BTB id t la sd) /\ In n (g_order g)).
    { pose proof LK as L. apply In_nth_error in JA. destruct JA as (n & JA).
      assert (LA : exists a, nth_error (g_heap g) n = Some a /\ like a a').
      { clear - L JA. revert n JA. induction L as [|x y l l' R L IH]; intros [|n] E; cbn in E; try discriminate; [|exact (IH n E)].
        injection E as ->. exists x. auto. }
      destruct LA as (a & NA & _ & LA). apply In_nth_error in J. destruct J as (i & J).
      assert (Q : nth_error (map no_depth (k_items a)) i = Some (BTB id t la None)).
      { rewrite <- LA, nth_error_map, J. reflexivity. }
      rewrite nth_error_map in Q. destruct (nth_error (k_items a) i) as [y|] eqn:Y; [|discriminate]. cbn in Q.
      destruct y as [?|?|?|id0 t0 la0 d0|?]; cbn in Q; try discriminate. injection Q as -> -> ->. exists n, i, d0. split; [unfold elem, blk; now rewrite NA|].
      rewrite O. apply in_seq. assert (nth_error (g_heap g) n <> None) as NN by congruence. apply nth_error_Some in NN. lia. }
    destruct X as (n & i & sd & EL & IN). destruct (MET _ _ _ _ _ _ EL) as (DT & M).
    destruct OUT as (_ & _ & G3 & _ & G5).
    destruct (WF) as [_ WH _ _ _ _]. destruct (WH _ _ _ _ (in_items g n _ IN (nth_error_In _ _ EL))) as (_ & _ & h & -> & _ & _).
    destruct M as [(d0 & o0 & A)|(-> & DEAD)].
    - exists (H h). split; [|apply (reg_depth _ _ _ _ _ _ REG)]. apply (G3 DT _ _ _ _ _ _ _ _ A EL _ _ _ _ JA J).
    - exists 32768. split; [|lia]. refine (G5 id n (OBlock h) la _ IN (nth_error_In _ _ EL) DEAD _ _ _ _ JA J).
      intros n1 i1 d1 h1 la1 A1. destruct (opened_at _ A1 _ _ _ _ _ _ eq_refl) as (n2 & i2 & d2 & o2 & sd2 & A2 & EL2).
      destruct (entered _ A2 _ _ _ _ eq_refl) as (d3 & o3 & A3).
      assert (n2 = n).
      { unfold elem, blk in EL, EL2. destruct (nth_error (g_heap g) n) as [x|] eqn:Q; [|destruct i; discriminate].
        destruct (nth_error (g_heap g) n2) as [y|] eqn:Q2; [|destruct i2; discriminate].
        eapply (flat_unique _ ND); [exact Q2|exact Q|eapply nth_error_In; exact EL2|eapply nth_error_In; exact EL]. }
      subst. exact (DEAD _ _ A3).
  Qed.
End D.

(** ** Through the graph *)
Section W.
  Variables (v : pyver) (T : optable) (se : oracle) (check depths : bool) (b : bytecode) (g : cfg) (H : nat -> Z)
    (cov : nat -> nat -> nat -> bool -> Prop).
  Hypothesis PR : proper T (b_items b).
  Hypothesis FR : from_bytecode T b = Ok g.
  Let first := first_depth v (m_flags (b_meta b)).
  Let At := at_ T (eff v T se check) g first H cov.
  Hypothesis REG : regular T (eff v T se check) g first H cov.
  Hypothesis EF : forall i j, In (BI i) (b_items b) -> exists e, used_effect v T se check i j = Ok e.
  Hypothesis MET : forall n i id t la sd, elem g n i = Some (BTB id t la sd) -> (PY311 v = true /\ depths = true)
    /\ ((exists d o, At (n, i, d, o)) \/ (sd = None /\ forall d o, ~ At (n, O, d, o))).
  Hypothesis TK : try_known v g.

  Theorem through_total :
    (underflow T (eff v T se check) g first H cov /\ through_graph v T se check depths b = Err RuntimeError)
    \/ (~ underflow T (eff v T se check) g first H cov /\ exists b' n, through_graph v T se check depths b = Ok (b', n)
        /\ forall id t la d, In (BTB id t la d) (b_items b') -> exists z, d = Some z /\ 0 <= z).
  Proof.
    destruct (graph_facts T b g PR FR) as (lk & G & WF & O & CO & ME).
    pose proof (graph_complete v T se check b g PR FR EF) as COM.
    assert (FD : first_depth v (m_flags (g_meta g)) = first) by now rewrite ME.
    assert (GOOD := compute_good v T se check depths g H cov). rewrite FD in GOOD. specialize (GOOD REG CO TK).
    assert (NT := compute_stops v T se check depths g).
    unfold through_graph. rewrite FR. cbn [bind].
    destruct (compute_stacksize v T se check depths g) as [[g' n]|e] eqn:EC; cbn [good] in GOOD.
    2:{ left. destruct GOOD as [G1 G2]. destruct (G2 COM) as [->| ->]; [|congruence]. split; [now apply G1|reflexivity]. }
    right. split. { destruct GOOD as (_ & U & _). now rewrite FD in U. }
    cbn [bind fst snd].
    destruct (compute_heap _ _ _ _ _ _ _ _ EC) as (L & O' & M' & A').
    assert (DS : forall id t la d, In (BTB id t la d) (flat (g_heap g')) -> exists z, d = Some z /\ 0 <= z).
    { intros id t la d. eapply (depths_set v T se check depths b g g' H cov n PR FR); rewrite ?FD; auto.
      intros n0 i0 id0 t0 la0 sd0 EL. destruct (MET _ _ _ _ _ _ EL) as ((_ & D) & M). auto. }
    pose proof (graph_like _ _ _ _ _ G L) as G'. assert (LEN := Forall2_len _ _ _ L).
    assert (OR : g_order g' = seq 0 (length (g_heap g'))) by (rewrite O', O; now rewrite LEN).
    destruct (to_ok T _ _ lk g' G' eq_refl OR) as [(_ & _ & _ & _ & _ & _ & id & t & la & J)|(out & EO & _ & PO & _)].
    { destruct (DS _ _ _ _ J) as (z & Q & _). discriminate. }
    rewrite EO. cbn [bind]. eexists _, n. split; [reflexivity|]. cbn [b_items].
    intros id t la d J. assert (TL : exists k, t = OLabel k) by (apply (S_Cfg.proper_args _ _ PO _ J)).
    destruct TL as (k & ->).
    destruct (to_depths T g' (mkB (copy_attr (g_meta g')) (g_argnames g') out)) with (id := id) (n := k) (la := la) (d := d) as (id' & J'); auto.
    - intros i0 t0 la0 d0 X. rewrite (all_flat g' OR) in *. exists d0. apply tb_find; [eapply graph_nodup; exact G'|exact X].
    - intros i0 t0 la0 d0 X. rewrite (all_flat g' OR) in X. apply (q_fits _ _ _ _ G') in X. cbn in X. destruct X as (n0 & k0 & _ & ->). eauto.
    - rewrite (all_flat g' OR) in J'. eapply DS. exact J'.
  Qed.
End W.
