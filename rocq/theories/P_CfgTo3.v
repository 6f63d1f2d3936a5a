(** ControlFlowGraph.to_bytecode: the stack depth of every TryBegin it makes is the one of some
    TryBegin of the graph with the same handler and push_lasti. *)
From Verif Require Import PyBase OpTable P_Base M_Instr M_Concrete M_Convert M_Bytecode M_Cfg S_Prog S_Cfg P_Cfg P_CfgSeq P_CfgTo P_CfgTo2.
Open Scope list_scope.
Open Scope Z_scope.

Lemma block_eqb_eq a b : block_eqb a b = true -> a = b.
Proof. destruct a, b; cbn; try discriminate. intros E. apply Nat.eqb_eq in E. now subst. Qed.
Lemma remove_last_in l x : In x (remove_last_end l) -> In x l.
Proof.
  induction l as [|y r IH]; [auto|]. cbn. destruct (existsb _ r).
  - intros [->|J]; auto.
  - destruct y; cbn; intuition.
Qed.
Lemma find_tb_in' id l t la d : find_tb id l = Some (t, la, d) -> In (BTB id t la d) l.
Proof.
  induction l as [|y r IH]; [discriminate|]. destruct y; cbn; auto. destruct (Nat.eqb id id0) eqn:Q; auto.
  apply Nat.eqb_eq in Q. intros E. injection E as <- <- <-. subst. now left.
Qed.
Lemma set_depth_inv k d l x : In x (set_depth k d l) ->
  (In x l /\ forall t la d', x <> BTB k t la d') \/ exists t la d', In (BTB k t la d') l /\ x = BTB k t la d.
Proof.
  unfold set_depth. rewrite in_map_iff. intros (y & E & J). destruct y as [i|n|z|id t la d'|id]; try (left; subst; split; [exact J|discriminate]).
  destruct (Nat.eqb k id) eqn:Q.
  - apply Nat.eqb_eq in Q. subst. right. eauto.
  - left. subst. split; [exact J|]. intros t' la' d2 E. injection E as <- <- <- <-. rewrite Nat.eqb_refl in Q. discriminate.
Qed.
Lemma depth_min_cases a b d : depth_min a b = Ok d -> d = a \/ d = b.
Proof.
  destruct a as [x|], b as [y|]; cbn; try discriminate; intros E; injection E as <-.
  - destruct (y <? x); auto.
  - destruct (0 <? x); auto.
  - destruct (y <? 0); auto.
Qed.

Section Depths.
  Variable g : cfg.
  Notation A := (all_items g).
  Hypothesis U : forall id t la d, In (BTB id t la d) A -> exists d', find_tb id A = Some (t, la, d').

  Record dinv (S : tstate) : Prop := {
    di_new : forall id k, dget Nat.eqb (t_tbs S) id = Some k -> (k < t_fresh S)%nat;
    di_out : forall k t la d, In (BTB k t la d) (t_out S) -> (k < t_fresh S)%nat /\ exists id, In (BTB id t la d) A;
    di_same : forall id k t la d t' la' d', dget Nat.eqb (t_tbs S) id = Some k -> find_tb id A = Some (t, la, d) ->
      In (BTB k t' la' d') (t_out S) -> t' = t /\ la' = la;
    di_lte : forall e k r, t_lte S = Some (e, k, r) -> dget Nat.eqb (t_tbs S) e = Some k;
    di_ltb : forall t la k t' la' d', t_ltb S = Some (t, la, k) -> In (BTB k t' la' d') (t_out S) -> t' = t /\ la' = la;
    di_ltb_new : forall t la k, t_ltb S = Some (t, la, k) -> (k < t_fresh S)%nat }.

  Lemma dinv_plain out tbs seen fresh ltb lte id t la d : dinv (mkTS out tbs seen fresh ltb lte) -> In (BTB id t la d) A ->
    dinv (mkTS (out ++ [BTB fresh t la d]) (dset Nat.eqb tbs id fresh) seen (fresh + 1)%nat (Some (t, la, fresh)) None).
  Proof.
    intros [Vn Vo Vs Ve Vl Vm] J. cbn in *. constructor; cbn.
    - intros id' k. rewrite dg_set. destruct (Nat.eqb id' id); intros E; [injection E as <-; lia|]. apply Vn in E. lia.
    - intros k t' la' d' K. apply in_app_iff in K. destruct K as [K|[K|[]]].
      + apply Vo in K. destruct K as [K X]. split; [lia|exact X].
      + injection K as <- <- <- <-. split; [lia|eauto].
    - intros id' k t1 la1 d1 t' la' d'. rewrite dg_set. destruct (Nat.eqb id' id) eqn:Q; intros E F K; apply in_app_iff in K.
      + injection E as <-. apply Nat.eqb_eq in Q. subst. destruct (U _ _ _ _ J) as (d2 & F'). rewrite F' in F. injection F as <- <- <-.
        destruct K as [K|[K|[]]]; [apply Vo in K; lia|]. injection K as <- <-. auto.
      + destruct K as [K|[K|[]]]; [eapply Vs; eauto|]. injection K as <- <- <- <-. apply Vn in E. lia.
    - discriminate.
    - intros t1 la1 k t' la' d' E K. injection E as <- <- <-. apply in_app_iff in K. destruct K as [K|[K|[]]]; [apply Vo in K; lia|].
      injection K as <- <-. auto.
    - intros t1 la1 k E. injection E as <- <- <-. lia.
  Qed.

  Lemma dinv_depth out tbs seen fresh ltb lte k d : dinv (mkTS out tbs seen fresh ltb lte) ->
    (forall t la d', In (BTB k t la d') out -> exists id, In (BTB id t la d) A) ->
    dinv (mkTS (set_depth k d out) tbs seen fresh ltb lte).
  Proof.
    intros [Vn Vo Vs Ve Vl Vm] H. cbn in *. constructor; cbn; auto.
    - intros k' t la d' K. destruct (set_depth_inv _ _ _ _ K) as [[K' _]|(t1 & la1 & d1 & K' & E)]; [eauto|].
      injection E as -> -> -> ->. split; [eapply Vo; eauto|eauto].
    - intros id k' t1 la1 d1 t' la' d' E F K. destruct (set_depth_inv _ _ _ _ K) as [[K' _]|(t2 & la2 & d2 & K' & E2)]; [eauto|].
      injection E2 as -> -> -> ->. eauto.
    - intros t1 la1 k' t' la' d' E K. destruct (set_depth_inv _ _ _ _ K) as [[K' _]|(t2 & la2 & d2 & K' & E2)]; [eauto|].
      injection E2 as -> -> -> ->. eauto.
  Qed.

  Lemma dinv_sub out out' tbs seen seen' fresh ltb ltb' lte lte' : dinv (mkTS out tbs seen fresh ltb lte) ->
    (forall k t la d, In (BTB k t la d) out' -> In (BTB k t la d) out) ->
    (ltb' = ltb \/ ltb' = None) ->
    (forall e k r, lte' = Some (e, k, r) -> dget Nat.eqb tbs e = Some k) ->
    dinv (mkTS out' tbs seen' fresh ltb' lte').
  Proof.
    intros [Vn Vo Vs Ve Vl Vm] H HB HE. cbn in *. constructor; cbn.
    - exact Vn.
    - eauto.
    - eauto.
    - exact HE.
    - intros t1 la1 k' t' la' d' E K. destruct HB as [->|HB]; [eauto|congruence].
    - intros t1 la1 k' E. destruct HB as [->|HB]; [eauto|congruence].
  Qed.

  Lemma dinv_step S it S' : dinv S -> (forall id t la d, it = BTB id t la d -> In it A) -> to_elem g S it = Ok S' -> dinv S'.
  Proof.
    destruct S as [out tbs seen fresh ltb lte]. intros V J E.
    destruct it as [i|n|z|id t la d|id]; cbn [to_elem] in E.
    - injection E as <-. eapply dinv_sub; [exact V| |left; reflexivity|discriminate].
      intros k t la d K. apply in_app_iff in K. destruct K as [K|[K|[]]]; [exact K|discriminate].
    - injection E as <-. eapply dinv_sub; [exact V| |left; reflexivity|exact (di_lte _ V)].
      intros k t la d K. apply in_app_iff in K. destruct K as [K|[K|[]]]; [exact K|discriminate].
    - injection E as <-. eapply dinv_sub; [exact V| |left; reflexivity|exact (di_lte _ V)].
      intros k t la d K. apply in_app_iff in K. destruct K as [K|[K|[]]]; [exact K|discriminate].
    - specialize (J _ _ _ _ eq_refl). apply bind_ok in E. destruct E as (out1 & E1 & E).
      assert (V1 : dinv (mkTS out1 tbs seen fresh ltb lte)).
      { destruct ltb as [((t', la'), k)|]; [|injection E1 as <-; exact V].
        apply bind_ok in E1. destruct E1 as ([] & G1 & E1). apply bind_ok in E1. destruct E1 as ([] & G2 & E1).
        apply bind_ok in E1. destruct E1 as ([[tk lk] dk] & G3 & E1). apply bind_ok in E1. destruct E1 as (d' & G4 & E1). injection E1 as <-.
        apply guard_ok in G1. apply block_eqb_eq in G1. apply guard_ok in G2. apply eqb_prop in G2. subst t' la'.
        apply of_option_ok in G3. apply find_tb_in' in G3.
        destruct (di_ltb _ V _ _ _ _ _ _ eq_refl G3) as [-> ->].
        apply dinv_depth; [exact V|]. intros t2 la2 d2 K. destruct (di_ltb _ V _ _ _ _ _ _ eq_refl K) as [-> ->].
        destruct (depth_min_cases _ _ _ G4) as [->| ->]; [|eauto]. apply (di_out _ V) in G3. tauto. }
      clear E1 V. rename V1 into V.
      assert (PL := dinv_plain _ _ _ _ _ _ id t la d V J).
      destruct lte as [((e, k), removed)|]; [|injection E as <-; exact PL].
      apply bind_ok in E. destruct E as ([[te lae] de] & FE & E). apply of_option_ok in FE.
      destruct (block_eqb te t && Bool.eqb lae la) eqn:SM; [|injection E as <-; exact PL].
      apply andb_true_iff in SM. destruct SM as [S1 S2]. apply block_eqb_eq in S1. apply eqb_prop in S2. subst te lae.
      apply bind_ok in E. destruct E as (d' & DP & E). destruct removed; [discriminate|]. injection E as <-.
      assert (DE : dget Nat.eqb tbs e = Some k) by exact (di_lte _ V _ _ _ eq_refl).
      assert (KO : forall t2 la2 d2, In (BTB k t2 la2 d2) out1 -> t2 = t /\ la2 = la) by (intros t2 la2 d2 K; exact (di_same _ V _ _ _ _ _ _ _ _ DE FE K)).
      assert (V2 : dinv (mkTS (set_depth k d' (remove_last_end out1)) tbs seen fresh ltb (Some (e, k, true)))).
      { apply dinv_depth.
        - eapply dinv_sub; [exact V| |left; reflexivity|].
          + intros. now apply remove_last_in.
          + intros e' k' r' Q. injection Q as <- <- <-. exact DE.
        - intros t2 la2 d2 K. destruct (KO _ _ _ (remove_last_in _ _ K)) as [-> ->].
          destruct de as [ze|].
          + destruct (depth_min_cases _ _ _ DP) as [->| ->]; [|eauto]. exists e. now apply find_tb_in'.
          + destruct d; [discriminate|]. injection DP as <-. eauto. }
      assert (KO2 : forall t2 la2 d2, In (BTB k t2 la2 d2) (set_depth k d' (remove_last_end out1)) -> t2 = t /\ la2 = la).
      { intros t2 la2 d2 K. destruct (set_depth_inv _ _ _ _ K) as [[K' _]|(t1 & la1 & d1 & K' & EQ)].
        - eapply KO, remove_last_in, K'.
        - injection EQ as -> -> ->. eapply KO, remove_last_in, K'. }
      destruct V2 as [Vn Vo Vs Ve Vl Vm]. cbn in *. constructor; cbn; auto.
      + intros id' k'. rewrite dg_set. destruct (Nat.eqb id' id); intros Q; [injection Q as <-|]; eauto.
      + intros id' k' t1 la1 d1 t' la' d2. rewrite dg_set. destruct (Nat.eqb id' id) eqn:Q; intros Q1 F K; [|eauto].
        injection Q1 as <-. apply Nat.eqb_eq in Q. subst. destruct (U _ _ _ _ J) as (d3 & F'). rewrite F' in F. injection F as <- <- <-. eapply KO2, K.
      + intros e' k' r' Q. injection Q as <- <- <-. rewrite dg_set. destruct (Nat.eqb e id); [reflexivity|exact DE].
    - destruct (nat_mem id seen); [injection E as <-; exact V|].
      apply bind_ok in E. destruct E as (k & DK & E). apply of_option_ok in DK. injection E as <-.
      eapply dinv_sub; [exact V| |right; reflexivity|].
      + intros k' t la d K. apply in_app_iff in K. destruct K as [K|[K|[]]]; [exact K|discriminate].
      + intros e' k' r' Q. injection Q as <- <- <-. exact DK.
  Qed.

  Lemma dinv_items l : forall S S', (forall it, In it l -> In it A) -> dinv S -> foldM (to_elem g) l S = Ok S' -> dinv S'.
  Proof.
    induction l as [|x r IH]; intros S S' H V E; cbn in E; [injection E as <-; exact V|].
    apply bind_ok in E. destruct E as (S1 & E1 & E). eapply IH; [|eapply dinv_step; [exact V| |exact E1]|exact E]; auto with datatypes.
  Qed.
  Lemma dinv_blocks used l : forall S S', (forall n, In n l -> In n (g_order g)) -> dinv S -> foldM (to_block g used) l S = Ok S' -> dinv S'.
  Proof.
    induction l as [|n r IH]; intros S S' H V E; cbn in E; [injection E as <-; exact V|].
    apply bind_ok in E. destruct E as (S1 & E1 & E). eapply IH; [auto with datatypes| |exact E]. unfold to_block in E1.
    eapply dinv_items; [| |exact E1].
    - intros it J. unfold all_items. apply in_flat_map. exists n. split; [apply H; now left|exact J].
    - destruct (nat_mem n used); [|exact V]. destruct S as [out tbs seen fresh ltb lte]. cbn.
      eapply dinv_sub; [exact V| |left; reflexivity|exact (di_lte _ V)].
      intros k t la d K. apply in_app_iff in K. destruct K as [K|[K|[]]]; [exact K|discriminate].
  Qed.
End Depths.

Lemma to_depths T g b' : (forall id t la d, In (BTB id t la d) (all_items g) -> exists d', find_tb id (all_items g) = Some (t, la, d')) ->
  (forall id t la d, In (BTB id t la d) (all_items g) -> exists n, t = OBlock n) ->
  cfg_to_bytecode T g = Ok b' ->
  forall id n la d, In (BTB id (OLabel n) la d) (b_items b') -> exists id', In (BTB id' (OBlock n) la d) (all_items g).
Proof.
  intros U F E. unfold cfg_to_bytecode in E. apply bind_ok in E. destruct E as (used & _ & E). apply bind_ok in E. destruct E as (S & ES & E).
  apply bind_ok in E. destruct E as (out & EM & E). injection E as <-. cbn [b_items].
  assert (V : dinv g S).
  { eapply (dinv_blocks g U); [| |exact ES]; [auto|]. constructor; cbn; try discriminate; contradiction. }
  intros id n la d J. revert EM. generalize (di_out _ _ V). generalize (t_out S). intros l. revert out J.
  induction l as [|x r IH]; intros out J H EM; cbn in EM; [injection EM as <-; contradiction|].
  apply bind_ok in EM. destruct EM as (y & EY & EM). apply bind_ok in EM. destruct EM as (out' & EM & Q). injection Q as <-.
  destruct J as [->|J]; [|eapply IH; eauto with datatypes].
  destruct x as [i|m|z|id0 t la0 d0|id0]; cbn in EY; try discriminate.
  - destruct (i_arg i); try discriminate. destruct (nat_mem _ _); discriminate.
  - destruct (H _ _ _ _ (or_introl eq_refl)) as (_ & id1 & J1). destruct (F _ _ _ _ J1) as (m & ->).
    destruct (nat_mem id0 _); [|discriminate]. destruct (nat_mem m _); [|discriminate]. injection EY as -> -> -> ->. eauto.
Qed.
