(** ControlFlowGraph.to_bytecode on a graph made by from_bytecode: the whole function. *)
From Verif Require Import PyBase OpTable P_Base M_Instr M_Concrete M_Convert M_Bytecode M_Cfg S_Prog S_Cfg P_Cfg P_CfgSeq P_CfgFrom P_CfgFrom2 P_CfgFrom3 P_CfgFrom4 P_CfgTo.
Open Scope list_scope.
Open Scope Z_scope.

Lemma foldM_app {A B} (f : A -> B -> res A) a b : forall s, foldM f (a ++ b) s = bind (foldM f a s) (foldM f b).
Proof. induction a as [|x r IH]; intros s; [reflexivity|]. cbn. destruct (f s x); cbn; auto. Qed.
Lemma foldM_flat {A B C} (f : A -> B -> res A) (h : C -> list B) l : forall s,
  foldM (fun s c => foldM f (h c) s) l s = foldM f (flat_map h l) s.
Proof.
  induction l as [|x r IH]; intros s; [reflexivity|]. cbn [foldM flat_map]. rewrite foldM_app.
  destruct (foldM f (h x) s); cbn; auto.
Qed.

(** labels in front of the blocks that are used *)
Definition lab (used : list nat) (n : nat) : list bitem := if nat_mem n used then [BLabel n] else [].
Definition is_label (x : bitem) : bool := match x with BLabel _ => true | _ => false end.
Definition nolab (l : list bitem) : list bitem := filter (fun x => negb (is_label x)) l.

Lemma nolab_wg f l : forall o s, wg f o (dd s (nolab l)) = wg f o (dd s l).
Proof.
  unfold nolab. induction l as [|x r IH]; intros o s; [reflexivity|].
  destruct x as [i|n|z|id t la d|id]; cbn; rewrite ?IH; auto. destruct (nat_mem id s); cbn; auto.
Qed.
Lemma nolab_paired l : forall op u s, paired op u (dd s (nolab l)) = paired op u (dd s l).
Proof.
  unfold nolab. induction l as [|x r IH]; intros op u s; [reflexivity|].
  destruct x as [i|n|z|id t la d|id]; cbn; rewrite ?IH; auto. destruct (nat_mem id s); cbn; rewrite ?IH; auto.
Qed.
Lemma nolab_find id l : find_tb id (nolab l) = find_tb id l.
Proof.
  unfold nolab. induction l as [|x r IH]; [reflexivity|].
  destruct x as [i|n|z|id' t la d|id']; cbn; rewrite ?IH; auto.
Qed.
Lemma nolab_id l : (forall n, ~ In (BLabel n) l) -> nolab l = l.
Proof.
  unfold nolab. induction l as [|x r IH]; intros H; [reflexivity|].
  assert (E : filter (fun x => negb (is_label x)) r = r) by (apply IH; intros n J; apply (H n); now right).
  destruct x as [i|n|z|id t la d|id]; cbn; rewrite ?E; auto. destruct (H n). now left.
Qed.

Fixpoint labelled (used : list nat) (s : nat) (hs : list block) : list bitem :=
  match hs with [] => [] | b :: r => lab used s ++ k_items b ++ labelled used (S s) r end.

Lemma labelled_nolab used hs : (forall n, ~ In (BLabel n) (flat hs)) -> forall s, nolab (labelled used s hs) = flat hs.
Proof.
  induction hs as [|b r IH]; intros H s; [reflexivity|]. cbn [labelled flat flat_map].
  unfold nolab in *. rewrite !filter_app. fold (flat r).
  rewrite IH by (intros n J; apply (H n); cbn [flat flat_map]; apply in_app_iff; now right).
  assert (E : filter (fun x => negb (is_label x)) (lab used s) = []) by (unfold lab; now destruct (nat_mem s used)).
  rewrite E. cbn [app]. f_equal. apply nolab_id. intros n J. apply (H n). cbn [flat flat_map]. apply in_app_iff. now left.
Qed.
Lemma labelled_in used hs x : forall s, In x (labelled used s hs) -> In x (flat hs) \/ exists n, x = BLabel n /\ In n used.
Proof.
  induction hs as [|b r IH]; intros s J; [contradiction|]. cbn [labelled flat flat_map] in *. rewrite !in_app_iff in *.
  destruct J as [J|[J|J]].
  - right. unfold lab in J. destruct (nat_mem s used) eqn:M; [|contradiction]. destruct J as [<-|[]]. exists s. split; [reflexivity|now apply nat_mem_In].
  - auto.
  - destruct (IH (S s) J); auto.
Qed.
Lemma labelled_has used hs : forall s k, (k < length hs)%nat -> In (s + k)%nat used -> In (BLabel (s + k)) (labelled used s hs).
Proof.
  induction hs as [|b r IH]; intros s k L J; [cbn in L; lia|]. cbn [labelled]. rewrite !in_app_iff. destruct k as [|k].
  - left. unfold lab. rewrite Nat.add_0_r in *. apply nat_mem_In in J. rewrite J. now left.
  - right. right. replace (s + S k)%nat with (S s + k)%nat in * by lia. apply IH; [cbn in L; lia|exact J].
Qed.

Lemma position_app a b n : position (a ++ b) n = match position b n with Some k => Some (ninstrs a + k)%nat | None => position a n end.
Proof.
  induction a as [|x r IH]; cbn [position app]; [now destruct (position b n)|]. rewrite IH.
  destruct (position b n) as [k|]; [|reflexivity]. change (x :: r) with ([x] ++ r). rewrite ninstrs_app. f_equal. lia.
Qed.
Lemma position_none l n : ~ In (BLabel n) l -> position l n = None.
Proof.
  induction l as [|x r IH]; intros H; [reflexivity|]. cbn. rewrite IH by (intros J; apply H; now right).
  destruct x; try reflexivity. destruct (Nat.eqb n n0) eqn:Q; [|reflexivity]. apply Nat.eqb_eq in Q. subst. destruct H. now left.
Qed.
Lemma labelled_later used hs n : (forall m, ~ In (BLabel m) (flat hs)) -> forall s, (n < s)%nat -> ~ In (BLabel n) (labelled used s hs).
Proof.
  induction hs as [|b r IH]; intros H s L J; [contradiction|]. cbn [labelled] in J. rewrite !in_app_iff in J. destruct J as [J|[J|J]].
  - unfold lab in J. destruct (nat_mem s used); [|contradiction]. destruct J as [J|[]]. injection J as ->. lia.
  - apply (H n). cbn. apply in_app_iff. now left.
  - apply (IH (fun m Q => H m (proj2 (in_app_iff _ _ _) (or_intror Q))) (S s)); [lia|exact J].
Qed.
Lemma labelled_ninstrs used hs : forall s, ninstrs (labelled used s hs) = ninstrs (flat hs).
Proof.
  induction hs as [|b r IH]; intros s; [reflexivity|]. cbn [labelled flat flat_map]. rewrite !ninstrs_app, IH.
  unfold lab. destruct (nat_mem s used); reflexivity.
Qed.
Lemma labelled_position used hs : (forall m, ~ In (BLabel m) (flat hs)) -> forall s k, (k < length hs)%nat -> In (s + k)%nat used ->
  position (labelled used s hs) (s + k) = Some (ninstrs (flat (firstn k hs))).
Proof.
  induction hs as [|b r IH]; intros H s k L J; [cbn in L; lia|]. cbn [labelled].
  assert (H' : forall m, ~ In (BLabel m) (flat r)) by (intros m Q; apply (H m); cbn; apply in_app_iff; now right).
  assert (HB : forall m, ~ In (BLabel m) (k_items b)) by (intros m Q; apply (H m); cbn; apply in_app_iff; now left).
  assert (NL : ninstrs (lab used s) = 0%nat) by (unfold lab; now destruct (nat_mem s used)).
  rewrite !position_app. destruct k as [|k].
  - rewrite Nat.add_0_r in *. rewrite (position_none (labelled used (S s) r)) by (apply labelled_later; [exact H'|lia]).
    rewrite (position_none (k_items b)) by apply HB. unfold lab. apply nat_mem_In in J. rewrite J. cbn. now rewrite Nat.eqb_refl.
  - replace (s + S k)%nat with (S s + k)%nat in * by lia. rewrite (IH H' (S s) k) by (try assumption; cbn in L; lia).
    cbn [firstn flat flat_map]. f_equal. rewrite ninstrs_app, NL. fold (flat (firstn k r)). lia.
Qed.

(** ** The blocks that are used *)
Lemma init_ok_in T l i : init_ok T l = true -> In (BI i) l -> stops T i = true -> last_instr_of l = Some i.
Proof.
  induction l as [|x r IH]; intros I J S; [contradiction|]. destruct J as [->|J].
  - cbn in I. apply andb_true_iff in I. destruct I as [I _]. rewrite existsb_BI in I. cbn.
    destruct (last_instr_of r); [rewrite S in I; discriminate|reflexivity].
  - destruct x; cbn in *; auto. apply andb_true_iff in I. destruct I as [_ I]. now rewrite (IH I J S).
Qed.

Lemma block_iter_ok T lk l : init_ok T l = true -> (forall x, In x l -> fits_graph T lk x) -> block_iter T l = Ok tt.
Proof.
  induction l as [|x r IH]; intros I H; [reflexivity|]. cbn [block_iter].
  assert (HX := H x (or_introl eq_refl)). assert (HR : forall y, In y r -> fits_graph T lk y) by (intros; apply H; now right).
  destruct x as [i|n|z|id t la d|id]; cbn in *; auto.
  - apply andb_true_iff in I. destruct I as [I0 I]. rewrite (IH I HR). destruct (has_jump T i) eqn:J; [|reflexivity].
    unfold stops in I0. rewrite J in I0. cbn in I0. destruct (existsb is_BI r); [discriminate|].
    destruct HX as (n & k & _ & ->). reflexivity.
  - contradiction.
  - destruct HX as (n & k & _ & ->). cbn. auto.
Qed.

(** [x] refers to block [k] *)
Definition refers_to (x : bitem) (k : nat) : Prop :=
  match x with BI i => i_arg i = OBlock k | BTB _ t _ _ => t = OBlock k | _ => False end.

Lemma blk_nth g : map (blk g) (seq 0 (length (g_heap g))) = g_heap g.
Proof.
  unfold blk. generalize (g_heap g). intros h. 
  assert (G : forall pre l, h = pre ++ l -> map (fun n => match nth_error h n with Some b => b | None => mkBlk [] None end) (seq (length pre) (length l)) = l).
  { intros pre l. revert pre. induction l as [|x r IH]; intros pre E; [reflexivity|]. cbn. f_equal.
    - rewrite E, nth_error_app2, Nat.sub_diag by lia. reflexivity.
    - specialize (IH (pre ++ [x])). rewrite app_length in IH. cbn in IH. rewrite Nat.add_1_r in IH. apply IH.
      now rewrite <- app_assoc. }
  apply (G [] h eq_refl).
Qed.

Lemma nth_seq i : forall s n, (i < n)%nat -> nth_error (seq s n) i = Some (s + i)%nat.
Proof. induction i as [|i IH]; intros s [|n] L; try lia; cbn; [f_equal; lia|]. rewrite IH by lia. f_equal. lia. Qed.

Lemma used_ok T l hs lk g : graph_of T l hs lk -> g_heap g = hs -> g_order g = seq 0 (length hs) ->
  exists used, used_blocks T g = Ok used /\ forall x k, In x (flat hs) -> refers_to x k -> In k used.
Proof.
  intros G H O. unfold used_blocks.
  destruct (mapM_ok (fun n => let items := k_items (blk g n) in
               j <- get_jump T items ;;
               _ <- block_iter T items ;;
               Ok (match j with Some t => [t] | None => [] end
                   ++ flat_map (fun it => match it with BTB _ (OBlock t) _ _ => [t] | _ => [] end) items))
     (fun n y => forall x k, In x (k_items (blk g n)) -> refers_to x k -> In k y) (g_order g)) as (us & E & R).
  - intros n J. rewrite O in J. apply in_seq in J. cbn in J.
    assert (NB : nth_error hs n = Some (blk g n)).
    { unfold blk. rewrite H. destruct (nth_error hs n) eqn:Q; [reflexivity|]. apply nth_error_None in Q. lia. }
    set (items := k_items (blk g n)) in *. cbv zeta.
    assert (FI : forall x, In x items -> fits_graph T lk x).
    { intros x JX. apply (q_fits _ _ _ _ G). apply in_flat_map. exists (blk g n). split; [eapply nth_error_In; eassumption|exact JX]. }
    assert (IN := q_init _ _ _ _ G n (blk g n) NB). fold items in IN.
    rewrite (block_iter_ok T lk items IN FI).
    assert (GJ : exists j, get_jump T items = Ok j /\ forall i k, In (BI i) items -> i_arg i = OBlock k -> j = Some k).
    { unfold get_jump. destruct (last_instr_of items) as [li|] eqn:LI.
      - assert (FL := FI _ (last_instr_in _ _ LI)). cbn in FL. destruct (has_jump T li) eqn:HJ.
        + destruct FL as (m & k & _ & AE). rewrite AE. eexists. split; [reflexivity|]. intros i k' JI AI.
          assert (FJ := FI _ JI). cbn in FJ. destruct (has_jump T i) eqn:HJ'; [|destruct (FJ k'); congruence].
          assert (X : last_instr_of items = Some i) by (eapply init_ok_in; eauto; unfold stops; now rewrite HJ').
          congruence.
        + eexists. split; [reflexivity|]. intros i k' JI AI.
          assert (FJ := FI _ JI). cbn in FJ. destruct (has_jump T i) eqn:HJ'; [|destruct (FJ k'); congruence].
          assert (X : last_instr_of items = Some i) by (eapply init_ok_in; eauto; unfold stops; now rewrite HJ'). congruence.
      - eexists. split; [reflexivity|]. intros i k' JI AI. exfalso.
        assert (Z : existsb is_BI items = true) by (apply existsb_exists; exists (BI i); auto). rewrite existsb_BI, LI in Z. discriminate. }
    destruct GJ as (j & EJ & HJ). rewrite EJ. cbn [bind]. eexists. split; [reflexivity|].
    intros x k JX RX. apply in_app_iff. destruct x as [i|m|z|id t la d|id]; cbn in RX; try contradiction.
    + left. rewrite (HJ i k JX RX). now left.
    + right. apply in_flat_map. exists (BTB id t la d). split; [exact JX|]. subst t. now left.
  - exists (concat us). split.
    { match goal with |- bind ?m _ = _ => replace m with (Ok us) end. reflexivity. }
    intros x k J RX. apply in_flat_map in J. destruct J as (b & JB & JX).
    destruct (In_nth_error _ _ JB) as (n & NB).
    assert (JO : nth_error (g_order g) n = Some n).
    { rewrite O, nth_seq; [reflexivity|]. apply nth_error_Some. rewrite NB. discriminate. }
    destruct (Forall2_nth1 _ _ _ _ _ R JO) as (y & NY & RY).
    apply in_concat. exists y. split; [eapply nth_error_In; eassumption|]. apply (RY x k); [|exact RX].
    unfold blk. rewrite H, NB. exact JX.
Qed.

(** ** Blocks replaced by labels *)
Definition un1 (x y : bitem) : Prop :=
  match x with
  | BI i => y = BI (mkInstr (i_name i) (i_op i) (match i_arg i with OBlock n => OLabel n | o => o end) (i_loc i))
  | BTB id t la d => exists n, t = OBlock n /\ y = BTB id (OLabel n) la d
  | x => y = x
  end.

Lemma un1_position l l' n : Forall2 un1 l l' -> position l' n = position l n.
Proof.
  induction 1 as [|x y l l' R _ IH]; [reflexivity|]. cbn [position]. rewrite IH.
  destruct x as [i|m|z|id t la d|id]; cbn in R; try (subst y; reflexivity). destruct R as (m & -> & ->). reflexivity.
Qed.
Lemma un1_paired l l' : Forall2 un1 l l' -> forall op u, paired op u l' = paired op u l.
Proof.
  induction 1 as [|x y l l' R _ IH]; intros op u; [reflexivity|].
  destruct x as [i|m|z|id t la d|id]; cbn in R; try (subst y; cbn; now rewrite ?IH). destruct R as (m & -> & ->). cbn. now rewrite IH.
Qed.
Lemma un1_wg f f2 l l' : Forall2 un1 l l' ->
  (forall x k, In x l -> refers_to x k -> f2 (OLabel k) = f (OBlock k)) ->
  (forall i, In (BI i) l -> (forall k, i_arg i <> OBlock k) -> f2 (i_arg i) = f (i_arg i)) ->
  forall o, wg f2 o l' = wg f o l.
Proof.
  induction 1 as [|x y l l' R _ IH]; intros H1 H2 o; [reflexivity|].
  assert (E : forall o, wg f2 o l' = wg f o l).
  { apply IH; [intros; apply (H1 x0); [now right|assumption]|intros; apply H2; [now right|assumption]]. }
  destruct x as [i|m|z|id t la d|id]; cbn in R.
  - subst y. cbn. rewrite E. f_equal. f_equal. specialize (H1 (BI i)). specialize (H2 i (or_introl eq_refl)).
    destruct (i_arg i) eqn:Q; try (apply H2; intros; discriminate). apply H1; [now left|]. exact Q.
  - subst y. apply E.
  - subst y. cbn. now rewrite E.
  - destruct R as (m & -> & ->). cbn. rewrite E, (H1 _ m (or_introl eq_refl)); reflexivity.
  - subst y. apply E.
Qed.

Lemma skel_position l n : position (skel l) n = position l n.
Proof.
  unfold skel. induction l as [|x r IH]; [reflexivity|]. destruct x as [i|m|z|id t la d|id]; cbn in *; rewrite ?IH; auto;
    destruct (position r n); reflexivity.
Qed.
Lemma skel_in x l : is_try x = false -> In x (skel l) <-> In x l.
Proof. intros H. unfold skel. rewrite filter_In, H. cbn. tauto. Qed.

(** the same instruction, but for the number of the label *)
Definition renamed (x y : bitem) : Prop :=
  match x, y with
  | BI i, BI j => i_name j = i_name i /\ i_op j = i_op i /\ i_loc j = i_loc i
      /\ match i_arg i with OLabel _ | OBlock _ => exists m, i_arg j = OLabel m | a => i_arg j = a end
  | _, _ => False
  end.
Lemma un1_brs l l' : Forall2 un1 l l' -> forall st, brs st l' = brs st l.
Proof.
  induction 1 as [|x y l l' R _ IH]; intros st; [reflexivity|].
  destruct x as [i|m|z|id t la d|id]; cbn in R; try (subst y; cbn; try (destruct (bstep st _)); auto; fail).
  - destruct R as (m & -> & ->). cbn. destruct st; auto.
  - subst y. cbn. destruct st as [(n, [])|]; auto. destruct (Nat.eqb id n); auto.
Qed.
Lemma un1_filter l l' : Forall2 un1 l l' -> Forall2 un1 (filter is_instr l) (filter is_instr l').
Proof.
  induction 1 as [|x y l l' R _ IH]; [constructor|].
  assert (R' := R). destruct x as [i|n|z|id t la d|id]; cbn in R; try (subst y; exact IH).
  - subst y. cbn. now constructor.
  - destruct R as (m & -> & ->). exact IH.
Qed.
Lemma skel_instr l : filter is_instr (skel l) = filter is_instr l.
Proof. unfold skel. induction l as [|x r IH]; [reflexivity|]. destruct x; cbn; rewrite ?IH; auto. Qed.
Lemma labelled_instr used hs : forall s, filter is_instr (labelled used s hs) = filter is_instr (flat hs).
Proof.
  induction hs as [|b r IH]; intros s; [reflexivity|]. cbn [labelled flat flat_map]. rewrite !filter_app, IH.
  unfold lab. destruct (nat_mem s used); reflexivity.
Qed.
Lemma nolab_trun f l : forall st s, trun f st (dd s (nolab l)) = trun f st (dd s l).
Proof.
  unfold nolab. induction l as [|x r IH]; intros st s; [reflexivity|].
  destruct x as [i|n|z|id t la d|id]; cbn; rewrite ?IH; auto; try (destruct st; rewrite ?IH; auto; fail).
  destruct (nat_mem id s); cbn; rewrite ?IH; auto. destruct st as [|h []]; auto.
Qed.

Lemma to_ok T l hs lk g : graph_of T l hs lk -> g_heap g = hs -> g_order g = seq 0 (length hs) ->
  (cfg_to_bytecode T g = Err AssertionError /\ exists id t la z, In (BTB id t la (Some z)) (flat hs) /\ exists id' t' la', In (BTB id' t' la' None) (flat hs))
  \/ exists out, cfg_to_bytecode T g = Ok (mkB (copy_attr (g_meta g)) (g_argnames g) out)
     /\ program out = program l /\ proper T out
     /\ (brs None l = Some None -> brs None out = Some None)
     /\ Forall2 renamed (filter is_instr l) (filter is_instr out)
     /\ (forall k, In (BLabel k) out -> position out k = Some (ninstrs (flat (firstn k hs)))).
Proof.
  intros G H O. unfold cfg_to_bytecode. destruct (used_ok T l hs lk g G H O) as (used & EU & HU). rewrite EU. cbn [bind].
  assert (NL : forall n, ~ In (BLabel n) (flat hs)) by (intros n J; apply (q_fits _ _ _ _ G) in J; exact J).
  set (L := labelled used 0 hs).
  assert (NLL : nolab L = flat hs) by (apply labelled_nolab; exact NL).
  assert (TBL : forall S n, to_block g used S n = foldM (to_elem g) (lab used n ++ k_items (blk g n)) S).
  { intros S n. unfold to_block, lab. destruct (nat_mem n used); [|reflexivity]. now destruct S. }
  assert (EL : forall S, foldM (to_block g used) (g_order g) S = foldM (to_elem g) L S).
  { intros S. rewrite (foldM_ext _ (fun s n => foldM (to_elem g) (lab used n ++ k_items (blk g n)) s)) by (intros; apply TBL).
    rewrite (foldM_flat (to_elem g) (fun n => lab used n ++ k_items (blk g n))). f_equal. rewrite O. unfold L.
    assert (X : forall r s pre, hs = pre ++ r -> length pre = s -> flat_map (fun n => lab used n ++ k_items (blk g n)) (seq s (length r)) = labelled used s r).
    { induction r as [|b r IH]; intros s pre E LP; [reflexivity|]. cbn [length seq flat_map labelled].
      rewrite (IH (Datatypes.S s) (pre ++ [b])); [|now rewrite <- app_assoc|rewrite app_length; cbn; lia].
      rewrite <- app_assoc. f_equal. f_equal. unfold blk. rewrite H, E, nth_error_app2, LP, Nat.sub_diag by lia. reflexivity. }
    apply (X hs 0%nat []); reflexivity. }
  rewrite EL.
  assert (AI : all_items g = flat hs).
  { unfold all_items. rewrite O, <- H. transitivity (flat (map (blk g) (seq 0 (length (g_heap g))))); [|now rewrite blk_nth].
    unfold flat. now rewrite flat_map_concat_map, (flat_map_concat_map k_items), map_map. }
  set (f := fun o => match o with OBlock k => PTo (Some (ninstrs (flat (firstn k hs)))) | o => arg_of (position l) o end).
  destruct (to_all f g L) with (rest := L) (p := @nil bitem) (S := mkTS [] [] [] 0 None None) as [(E & id & t & la & z & J & id' & t' & la' & J2)|(S & E & V)].
  { rewrite <- nolab_paired, NLL. exact (q_pair _ _ _ _ G). }
  { intros id. now rewrite AI, <- NLL, nolab_find. }
  { intros id t la d J. destruct (labelled_in _ _ _ _ J) as [J'|(n & ? & _)]; [|discriminate].
    assert (FY := q_fits _ _ _ _ G _ J'). cbn in FY. destruct FY as (n & k & _ & ->). eauto. }
  { apply to_init. } { reflexivity. }
  { left. rewrite E. split; [reflexivity|]. destruct (labelled_in _ _ _ _ J) as [J'|(n & ? & _)]; [|discriminate].
    destruct (labelled_in _ _ _ _ J2) as [J2'|(n & ? & _)]; [eauto 12|discriminate]. }
  right. rewrite E. cbn [bind].
  assert (TOUT : forall x, In x (t_out S) -> is_try x = false -> In x L).
  { intros x J T0. apply skel_in; [exact T0|]. rewrite <- (o_skel _ _ _ _ V). now apply skel_in. }
  assert (REF : forall x k, In x (t_out S) -> refers_to x k -> In k used /\ (k < length hs)%nat).
  { intros x k J RX.
    assert (F : exists y, In y (flat hs) /\ refers_to y k).
    { destruct x as [i|n|z|id t la d|id]; cbn in RX; try contradiction.
      - assert (JL := TOUT _ J eq_refl). destruct (labelled_in _ _ _ _ JL) as [J'|(n & ? & _)]; [|discriminate]. exists (BI i). auto.
      - destruct (o_known _ _ _ _ V _ _ _ _ J) as (_ & id' & d' & JL). subst t.
        destruct (labelled_in _ _ _ _ JL) as [J'|(n & ? & _)]; [|discriminate]. exists (BTB id' (OBlock k) la d'). split; [exact J'|reflexivity]. }
    destruct F as (y & Jy & Ry). split; [eapply HU; eassumption|].
    assert (FY := q_fits _ _ _ _ G y Jy). destruct y as [i|n|z|id t la d|id]; cbn in Ry; try contradiction; cbn in FY.
    - destruct (has_jump T i); [|destruct (FY k); congruence]. destruct FY as (n & k' & D & Q).
      assert (k' = k) by congruence. subst k'. now apply (q_lk _ _ _ _ G) in D.
    - destruct FY as (n & k' & D & Q). assert (k' = k) by congruence. subst k'. now apply (q_lk _ _ _ _ G) in D. }
  assert (LABD : forall k, In k used -> (k < length hs)%nat -> nat_mem k (filter (fun n => nat_mem n used) (g_order g)) = true).
  { intros k J LK. apply nat_mem_In. apply filter_In. split; [|now apply nat_mem_In]. rewrite O. apply in_seq. lia. }
  destruct (mapM_ok (unresolve_item (filter (fun n => nat_mem n used) (g_order g)) (map snd (t_tbs S))) un1 (t_out S)) as (out & EM & R).
  { intros x J. assert (RX := REF x). destruct x as [i|n|z|id t la d|id]; cbn [unresolve_item un1]; try (eexists; split; reflexivity).
    - destruct (i_arg i) eqn:Q; try (eexists; split; [reflexivity|]; destruct i; cbn in *; congruence).
      destruct (RX n J) as [U LK]; [cbn; exact Q|]. rewrite (LABD n U LK). eexists. split; reflexivity.
    - destruct (o_known _ _ _ _ V _ _ _ _ J) as (KN & id' & d' & JL). apply nat_mem_In in KN. rewrite KN.
      destruct (labelled_in _ _ _ _ JL) as [J'|(n & ? & _)]; [|discriminate].
      assert (FY := q_fits _ _ _ _ G _ J'). cbn in FY. destruct FY as (n & k & D & ->).
      destruct (RX k J) as [U LK]; [reflexivity|]. rewrite (LABD k U LK). eexists. split; [reflexivity|]. eauto. }
  exists out. split.
  { match goal with |- bind ?m _ = _ => replace m with (Ok out) end. reflexivity. }
  assert (POS : forall k, In k used -> (k < length hs)%nat -> position out k = Some (ninstrs (flat (firstn k hs)))).
  { intros k U LK. rewrite (un1_position _ _ _ R), <- skel_position, (o_skel _ _ _ _ V), skel_position.
    apply (labelled_position used hs NL 0 k LK U). }
  assert (NOL : forall i, In (BI i) (t_out S) -> fits_graph T lk (BI i)).
  { intros i J. apply (q_fits _ _ _ _ G). assert (JL := TOUT _ J eq_refl). destruct (labelled_in _ _ _ _ JL) as [J'|(n & ? & _)]; [exact J'|discriminate]. }
  split; [|split; [|split; [|split]]].
  - unfold program. rewrite <- !wg_walk. rewrite (un1_wg f (arg_of (position out)) _ _ R).
    + rewrite (o_walk _ _ _ _ V), <- nolab_wg, NLL. apply (q_walk _ _ _ _ G). split.
      * intros n k D. cbn. apply (q_lk _ _ _ _ G) in D. now destruct D as [_ ->].
      * intros o _ NB. unfold f. destruct o; try reflexivity. destruct (NB n eq_refl).
    + intros x k J RX. cbn. destruct (REF x k J RX) as [U LK]. now rewrite (POS k U LK).
    + intros i J NB. specialize (NOL i J). cbn in NOL. destruct (has_jump T i).
      * destruct NOL as (n & k & _ & Q). destruct (NB k Q).
      * unfold f. destruct (i_arg i) eqn:Q; try reflexivity; [destruct (NOL n); congruence|destruct (NB n eq_refl)].
  - constructor.
    + rewrite (un1_paired _ _ R). exact (o_pair _ _ _ _ V).
    + intros y J. destruct (Forall2_in2 _ _ _ _ R J) as (x & JX & RX).
      destruct x as [i|n|z|id t la d|id]; cbn in RX; try (subst y; exact Logic.I).
      * subst y. specialize (NOL i JX). cbn in NOL |- *. unfold has_jump in *. cbn [i_op i_arg]. destruct (op_has_jump T (i_op i)).
        -- destruct NOL as (n & k & _ & ->). eauto.
        -- intros n. destruct (NOL n) as [A1 A2]. destruct (i_arg i) eqn:Q; try (split; congruence).
      * destruct RX as (n & -> & ->). cbn. eauto.
    + intros y n J TN. destruct (Forall2_in2 _ _ _ _ R J) as (x & JX & RX).
      assert (RF : refers_to x n).
      { destruct x as [i|m|z|id t la d|id]; cbn in RX; try (subst y; contradiction).
        - subst y. cbn in TN. specialize (NOL i JX). cbn in NOL. cbn. destruct (i_arg i) eqn:Q; cbn in TN; try contradiction.
          + destruct (has_jump T i); [destruct NOL as (? & ? & _ & ?); discriminate|destruct (NOL n0); congruence].
          + destruct TN as [->|[]]. reflexivity.
        - destruct RX as (m & -> & ->). cbn in TN. destruct TN as [->|[]]. reflexivity. }
      destruct (REF x n JX RF) as [U LK].
      assert (JL : In (BLabel n) (t_out S)).
      { apply (skel_in (BLabel n)); [reflexivity|]. rewrite (o_skel _ _ _ _ V). apply (skel_in (BLabel n)); [reflexivity|].
        apply (labelled_has used hs 0 n LK U). }
      clear - JL R. induction R as [|x y l l' RX _ IH]; [contradiction|]. destruct JL as [->|JL]; [left; exact RX|right; auto].
  - intros HB. destruct (q_br _ _ _ _ G HB) as (m & TM).
    destruct (o_br _ _ _ _ V (TC m)) as (st & BS & R0).
    { now rewrite <- nolab_trun, NLL. }
    rewrite (un1_brs _ _ R), BS. destruct st; [contradiction|reflexivity].
  - assert (X1 := q_ins _ _ _ _ G). assert (X2 := un1_filter _ _ R).
    rewrite <- (skel_instr (t_out S)), (o_skel _ _ _ _ V), skel_instr in X2. unfold L in X2. rewrite labelled_instr in X2.
    assert (NB : forall x, In x (filter is_instr (flat hs)) -> fits_graph T lk x).
    { intros x J. apply filter_In in J. apply (q_fits _ _ _ _ G). tauto. }
    assert (IA : forall x, In x (filter is_instr l) -> is_instr x = true) by (intros x J; apply filter_In in J; tauto).
    clear - X1 X2 NB IA. revert X1 X2 NB IA.
    generalize (filter is_instr (flat hs)) as b, (filter is_instr l) as a, (filter is_instr out) as c.
    intros b a c X1. revert c. induction X1 as [|x z a b RS _ IH]; intros c X2 NB IA; inversion X2 as [|? y ? c' RU X2']; subst; constructor.
    2:{ apply IH; auto; intros; [apply NB|apply IA]; now right. }
    assert (XI := IA x (or_introl eq_refl)). assert (FZ := NB z (or_introl eq_refl)).
    destruct x as [i|n|q|id t la d|id]; try discriminate. cbn in RS. destruct RS as [-> RS]. cbn in RU, FZ. subst y. cbn.
    repeat split. unfold has_jump in FZ. cbn [i_op] in FZ. 
    destruct (i_arg i) eqn:Q; try reflexivity.
    + destruct (lk n) eqn:LK; [eauto|]. destruct (RS n eq_refl LK).
    + eauto.
  - intros k J. destruct (Forall2_in2 _ _ _ _ R J) as (x & JX & RX).
    assert (x = BLabel k).
    { destruct x as [i|m|z|id t la d|id]; cbn in RX; try congruence. destruct RX as (m & _ & RX). discriminate. }
    subst x. assert (JL : In (BLabel k) L) by (now apply TOUT). destruct (labelled_in _ _ _ _ JL) as [J'|(n & E1 & E2)].
    { destruct (NL k J'). }
    injection E1 as <-. apply POS; [exact E2|].
    assert (X : forall r s0, In (BLabel k) (labelled used s0 r) -> ~ In (BLabel k) (flat r) -> (s0 <= k < s0 + length r)%nat).
    { clear. induction r as [|b r IH]; intros s0 J N; [contradiction|]. cbn [labelled flat flat_map length] in *.
      rewrite !in_app_iff in *. destruct J as [J|[J|J]].
      - unfold lab in J. destruct (nat_mem s0 used); [|contradiction]. destruct J as [J|[]]. injection J as ->. lia.
      - tauto.
      - specialize (IH (Datatypes.S s0) J ltac:(tauto)). lia. }
    specialize (X hs 0%nat JL (NL k)). lia.
Qed.
