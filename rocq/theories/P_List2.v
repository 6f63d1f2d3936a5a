(** to_bytecode() on edited graphs: C78. *)
From Coq Require Import Lia.
From Verif Require Import PyBase OpTable P_Base M_Instr M_Concrete M_Convert M_Bytecode M_Cfg S_Prog S_Cfg S_List P_Cfg P_Cfg2 P_CfgSeq P_CfgFrom P_CfgFrom2 P_CfgFrom3 P_CfgFrom4 P_CfgTo P_CfgTo2 P_List.
Open Scope list_scope.
Open Scope Z_scope.

(** *** A graph made by from_bytecode is listable. *)
Lemma dd_pairs l : forall op used seen, paired op used (dd seen l) = true ->
  (forall k, In k seen -> In k used /\ op <> Some k) -> (forall k, op = Some k -> In k used) -> try_paired op used l = true.
Proof.
  induction l as [|x r IH]; intros op used seen H B O; [reflexivity|]. destruct x as [i|n|z|id t la d|id]; cbn [try_paired dd paired] in *; eauto.
  - apply andb_true_iff in H. destruct H as [H1 H]. rewrite H1. cbn [andb]. apply andb_true_iff in H1. destruct H1 as [H1 H2].
    destruct op; [discriminate|]. apply negb_true_iff in H2.
    assert (NI : ~ In id used) by (intros J; apply nat_mem_In in J; congruence).
    eapply IH; [exact H| |].
    + intros k J. destruct (B k J) as [J' _]. split; [now right|]. intros E. injection E as ->. contradiction.
    + intros k E. injection E as ->. now left.
  - destruct (nat_mem id seen) eqn:M.
    + apply nat_mem_In in M. destruct (B id M) as [U N]. assert (X : nat_mem id used = true) by (now apply nat_mem_In). rewrite X. cbn [andb].
      assert (Y : try_paired op used r = true) by (eapply IH; eassumption). destruct op as [id'|]; [|exact Y].
      destruct (Nat.eqb_spec id id') as [->|]; [congruence|exact Y].
    + cbn [paired] in H. apply andb_true_iff in H. destruct H as [H1 H]. destruct op as [id'|]; [|discriminate]. rewrite H1.
      apply Nat.eqb_eq in H1. subst id'. eapply IH; [exact H| |].
      * intros k [<-|J]; [split; [now apply O|discriminate]|]. split; [apply B, J|discriminate].
      * discriminate.
Qed.
Lemma flat_blocks g : g_order g = seq 0 (length (g_heap g)) -> all_items g = flat (g_heap g).
Proof.
  intros O. unfold all_items. rewrite O. transitivity (flat (map (blk g) (seq 0 (length (g_heap g))))); [|now rewrite blk_nth].
  unfold flat. now rewrite flat_map_concat_map, (flat_map_concat_map k_items), map_map.
Qed.
Lemma made_listable T b g : proper T (b_items b) -> from_bytecode T b = Ok g -> listable T g /\ graph_program g = program (b_items b).
Proof.
  intros PR E. destruct (from_ok T b PR) as (g' & lk & E' & G & QD & O & _). rewrite E in E'. injection E' as <-.
  pose proof (flat_blocks g O) as AI.
  assert (BN : forall n, In n (g_order g) -> nth_error (g_heap g) n = Some (blk g n)).
  { intros n J. rewrite O in J. apply in_seq in J. unfold blk. destruct (nth_error (g_heap g) n) eqn:Q; [reflexivity|]. apply nth_error_None in Q. lia. }
  assert (FI : forall n x, In n (g_order g) -> In x (k_items (blk g n)) -> fits_graph T lk x).
  { intros n x J JX. apply (q_fits _ _ _ _ G). apply in_flat_map. exists (blk g n). split; [eapply nth_error_In, BN, J|exact JX]. }
  assert (LK : forall m k, lk m = Some k -> In k (g_order g)).
  { intros m k D. apply (q_lk _ _ _ _ G) in D. rewrite O. apply in_seq. lia. }
  assert (LS : listable T g).
  { constructor.
    - rewrite O. apply seq_NoDup.
    - intros n J. eapply block_iter_ok; [eapply (q_init _ _ _ _ G), BN, J|intros x JX; exact (FI n x J JX)].
    - intros n i J JX. pose proof (FI n _ J JX) as F. cbn in F. destruct (has_jump T i) eqn:HJ.
      + destruct F as (m & k & D & ->). split; [reflexivity|]. eapply LK, D.
      + destruct (i_arg i) eqn:A; auto; [destruct (F n0) as [X _]|destruct (F n0) as [_ X]]; congruence.
    - intros n id t la d J JX. pose proof (FI n _ J JX) as F. cbn in F. destruct F as (m & k & D & ->). exists k. split; [reflexivity|]. eapply LK, D.
    - rewrite AI. apply (dd_pairs _ None [] []); [exact (q_pair _ _ _ _ G)| |]; [contradiction|discriminate]. }
  split; [exact LS|].
  unfold graph_program. rewrite <- (shown_wg g _ None [] []); cbn; try contradiction; try discriminate; [|exact (ls_pairs _ _ LS)].
  rewrite AI. unfold program. rewrite <- wg_walk. apply (q_walk _ _ _ _ G). split.
  - intros n k D. cbn. apply (q_lk _ _ _ _ G) in D. destruct D as [L ->]. f_equal. rewrite O. clear - L.
    assert (X : forall hs s q, (forall j, (j < length hs)%nat -> nth_error hs j = Some (blk g (s + j))) -> (q < length hs)%nat ->
      place g (seq s (length hs)) (s + q) = Some (ninstrs (flat (firstn q hs)))).
    { induction hs as [|b hs IH]; intros s q H L'; [cbn in L'; lia|]. cbn [length seq place].
      pose proof (H 0%nat ltac:(cbn; lia)) as H0. cbn in H0. injection H0 as H0. rewrite Nat.add_0_r in H0.
      destruct q as [|q]; [rewrite Nat.add_0_r, Nat.eqb_refl; reflexivity|].
      destruct (Nat.eqb_spec s (s + S q)) as [X|_]; [lia|]. replace (s + S q)%nat with (S s + q)%nat by lia. rewrite IH.
      - cbn [option_map firstn flat flat_map]. rewrite ninstrs_app, <- H0. reflexivity.
      - intros j J. specialize (H (S j) ltac:(cbn; lia)). cbn in H. now replace (S s + j)%nat with (s + S j)%nat by lia.
      - cbn in L'. lia. }
    apply (X (g_heap g) 0%nat k); [|exact L]. intros j J. unfold blk. cbn. destruct (nth_error (g_heap g) j) eqn:Q; [reflexivity|]. apply nth_error_None in Q. lia.
  - intros o NL NB. unfold shown_arg, arg_of. destruct o; try reflexivity; [|destruct (NB n eq_refl)]. exfalso. eapply NL. reflexivity.
Qed.

(** *** Splits *)
Lemma shown_ext g g' l : (forall x, In x l -> match x with BI i => shown_arg g' (i_arg i) = shown_arg g (i_arg i) | BTB _ t _ _ => shown_arg g' t = shown_arg g t | _ => True end) ->
  forall op, shown g' op l = shown g op l.
Proof.
  induction l as [|x r IH]; intros H op; [reflexivity|].
  assert (H0 := H x (or_introl eq_refl)). assert (HR : forall op, shown g' op r = shown g op r) by (apply IH; intros y J; apply H; now right).
  destruct x; cbn [shown]; rewrite ?HR, ?H0; reflexivity.
Qed.
Lemma iter_firstn T n l : block_iter T l = Ok tt -> block_iter T (firstn n l) = Ok tt.
Proof.
  revert n. induction l as [|x l IH]; intros [|n] B; cbn [firstn block_iter]; auto. cbn [block_iter] in B. apply bind_ok in B. destruct B as (u & E & B).
  rewrite (IH n B). destruct x as [i|m|z|id t la d|id]; cbn [elem_check bind] in *; try reflexivity; try discriminate.
  - destruct (has_jump T i); [|reflexivity]. destruct (existsb is_BI l) eqn:X; [discriminate|].
    assert (Y : existsb is_BI (firstn n l) = false).
    { apply Bool.not_true_iff_false. intros Y. apply existsb_exists in Y. destruct Y as (y & J & Y). rewrite <- Bool.not_true_iff_false in X. apply X.
      apply existsb_exists. exists y. split; [|exact Y]. rewrite <- (firstn_skipn n l). apply in_app_iff. now left. }
    rewrite Y. destruct (i_arg i); try discriminate. reflexivity.
  - destruct t; try discriminate. reflexivity.
Qed.
Lemma iter_skip T n l : block_iter T l = Ok tt -> block_iter T (skipn n l) = Ok tt.
Proof.
  revert n. induction l as [|x l IH]; intros [|n] B; cbn [skipn]; auto. cbn [block_iter] in B. apply bind_ok in B. destruct B as (u & _ & B). auto.
Qed.
Lemma place_app g a c t : place g (a ++ c) t = match place g a t with Some x => Some x
   | None => option_map (Nat.add (ninstrs (flat_map (fun n => k_items (blk g n)) a))) (place g c t) end.
Proof.
  induction a as [|n a IH]; [cbn; now destruct (place g c t)|]. cbn [app place flat_map]. destruct (Nat.eqb n t); [reflexivity|]. rewrite IH.
  destruct (place g a t); [reflexivity|]. rewrite ninstrs_app. destruct (place g c t); cbn; [f_equal; lia|reflexivity].
Qed.
Lemma place_same g g' order t : (forall n, In n order -> k_items (blk g' n) = k_items (blk g n)) -> place g' order t = place g order t.
Proof.
  induction order as [|n r IH]; intros H; [reflexivity|]. cbn. rewrite (H n (or_introl eq_refl)), IH; [reflexivity|]. intros m J. apply H. now right.
Qed.
Lemma in_all_iff g g' : all_items g' = all_items g -> forall x, (exists n, In n (g_order g') /\ In x (k_items (blk g' n))) <-> (exists n, In n (g_order g) /\ In x (k_items (blk g n))).
Proof. intros E x. rewrite <- !all_in. now rewrite E. Qed.

Lemma split_listable T g g' k n index b : listable T g -> nth_error (g_order g) k = Some n -> was_split g g' k n index b -> all_items g' = all_items g ->
  listable T g' /\ graph_program g' = graph_program g.
Proof.
  intros LS H (NB & O & I1 & I2 & _ & OTH & _) AI.
  assert (ND := ls_order _ _ LS). destruct (nth_error_split _ _ H) as (p & s & E & LP).
  assert (O' : g_order g' = p ++ n :: b :: s).
  { rewrite O, E. assert (F : firstn (S k) (p ++ n :: s) = p ++ [n]).
    { rewrite <- LP. replace (S (length p)) with (length (p ++ [n])) by (rewrite app_length; cbn; lia).
      replace (p ++ n :: s) with ((p ++ [n]) ++ s) by (now rewrite <- app_assoc). rewrite firstn_app, Nat.sub_diag, firstn_all, app_nil_r. reflexivity. }
    assert (F2 : skipn (S k) (p ++ n :: s) = s).
    { rewrite <- LP. replace (S (length p)) with (length (p ++ [n])) by (rewrite app_length; cbn; lia).
      replace (p ++ n :: s) with ((p ++ [n]) ++ s) by (now rewrite <- app_assoc). rewrite skipn_app, Nat.sub_diag, skipn_all. reflexivity. }
    rewrite F, F2, <- app_assoc. reflexivity. }
  assert (IN : In n (g_order g)) by (eapply nth_error_In, H).
  assert (NDE : NoDup (p ++ n :: s)) by (now rewrite <- E).
  assert (NP : ~ In n p /\ ~ In n s). { apply NoDup_remove_2 in NDE. rewrite in_app_iff in NDE. tauto. }
  assert (SUB : forall t, In t (g_order g) -> In t (g_order g')).
  { intros t J. rewrite O', in_app_iff. rewrite E, in_app_iff in J. cbn in *. tauto. }
  assert (SP : forall m, In m p -> k_items (blk g' m) = k_items (blk g m)).
  { intros m J. rewrite OTH; [reflexivity|rewrite E, in_app_iff; tauto|intros ->; tauto]. }
  assert (SS : forall m, In m s -> k_items (blk g' m) = k_items (blk g m)).
  { intros m J. rewrite OTH; [reflexivity|rewrite E, in_app_iff; cbn; tauto|intros ->; tauto]. }
  assert (PLC : forall t, In t (g_order g) -> place g' (g_order g') t = place g (g_order g) t).
  { intros t J. rewrite O', E, !place_app. rewrite (place_same g g' p t SP).
    destruct (place g p t); [reflexivity|].
    assert (FP : flat_map (fun m => k_items (blk g' m)) p = flat_map (fun m => k_items (blk g m)) p).
    { clear - SP. induction p as [|m p IH]; [reflexivity|]. cbn. rewrite (SP m (or_introl eq_refl)), IH; [reflexivity|]. intros x J. apply SP. now right. }
    rewrite FP. f_equal. cbn [place]. destruct (Nat.eqb n t); [reflexivity|]. destruct (Nat.eqb_spec b t) as [->|_]; [contradiction|].
    rewrite (place_same g g' s t SS), I1, I2. rewrite <- (firstn_skipn (Z.to_nat index) (k_items (blk g n))) at 3. rewrite ninstrs_app.
    destruct (place g s t); cbn; [f_equal; lia|reflexivity]. }
  split.
  - constructor.
    + rewrite O'. apply NoDup_remove in NDE as X. destruct X as [X1 X2]. 
      assert (NBI : ~ In b (p ++ n :: s)) by (now rewrite <- E).
      replace (p ++ n :: b :: s) with ((p ++ [n]) ++ b :: s) by (now rewrite <- app_assoc).
      apply NoDup_Add with (a := b) (l := (p ++ [n]) ++ s); [apply Add_app|]. split; rewrite <- app_assoc; assumption.
    + intros m J. rewrite O', in_app_iff in J. destruct J as [J|[<-|[<-|J]]].
      * rewrite (SP m J). apply (ls_iter _ _ LS). rewrite E, in_app_iff. tauto.
      * rewrite I1. apply iter_firstn, (ls_iter _ _ LS), IN.
      * rewrite I2. apply iter_skip, (ls_iter _ _ LS), IN.
      * rewrite (SS m J). apply (ls_iter _ _ LS). rewrite E, in_app_iff. cbn. tauto.
    + intros m i J JX. destruct (proj1 (in_all_iff g g' AI (BI i)) (ex_intro _ m (conj J JX))) as (m0 & J0 & JX0).
      pose proof (ls_args _ _ LS m0 i J0 JX0) as A. destruct (i_arg i); auto. split; [apply A|apply SUB, A].
    + intros m id t la d J JX. destruct (proj1 (in_all_iff g g' AI _) (ex_intro _ m (conj J JX))) as (m0 & J0 & JX0).
      destruct (ls_handlers _ _ LS m0 id t la d J0 JX0) as (c & -> & C). eauto.
    + rewrite AI. exact (ls_pairs _ _ LS).
  - unfold graph_program. rewrite AI. apply shown_ext. intros x J. apply all_in in J. destruct J as (m & J & JX).
    destruct x as [i|q|z|id t la d|id]; auto.
    + pose proof (ls_args _ _ LS m i J JX) as A. destruct (i_arg i); try reflexivity. cbn. f_equal. apply PLC, A.
    + destruct (ls_handlers _ _ LS m id t la d J JX) as (c & -> & C). cbn. f_equal. apply PLC, C.
Qed.
