(** The graph round trip after the stack size computation, and the composed conversions. *)
From Verif Require Import PyBase OpTable P_Base M_Instr M_Concrete M_Convert M_Bytecode M_Cfg M_Stack M_Full
  S_Args S_Asm S_Prog S_Ident S_Slots S_Cfg S_Stack P_Cfg P_CfgSeq P_CfgFrom P_CfgFrom2 P_CfgFrom3 P_CfgFrom4 P_CfgTo P_CfgTo2 P_Stack4.
Open Scope string_scope.
Open Scope list_scope.
Open Scope Z_scope.

(** ** The computation changes only depths *)
Lemma compute_heap v T se check depths g g' n : compute_stacksize v T se check depths g = Ok (g', n) ->
  Forall2 like (g_heap g) (g_heap g') /\ g_order g' = g_order g /\ g_meta g' = g_meta g /\ g_argnames g' = g_argnames g.
Proof.
  unfold compute_stacksize, compute_nested. destruct (g_order g) as [|m l] eqn:EO.
  { intros E. injection E as <- <-. repeat split; [apply like_refl|exact EO]. }
  intros E. apply bind_ok in E. destruct E as ([r C] & _ & E). apply bind_ok in E. destruct E as (dead & _ & E).
  match type of E with bind ?x _ = _ => destruct x as [h'|] eqn:F; [|discriminate E] end. cbn [bind] in E. injection E as <- <-.
  cbn. repeat split. destruct depths.
  - eapply like_trans; [apply fold_store_like|]. eapply foldM_store_like. exact F.
  - injection F as <-. apply fold_store_like.
Qed.

(** ** Nothing but the depths depends on the depths *)
Definition nd (l : list bitem) : list bitem := map no_depth l.
Lemma nd_wg f l : forall o, wg f o (nd l) = wg f o l.
Proof. unfold nd; induction l as [|x r IH]; intros o; [reflexivity|]. destruct x; cbn; now rewrite ?IH. Qed.
Lemma nd_dd l : forall s, dd s (nd l) = nd (dd s l).
Proof.
  unfold nd; induction l as [|x r IH]; intros s; [reflexivity|]. destruct x; cbn; rewrite ?IH; try reflexivity.
  destruct (nat_mem id s); cbn; now rewrite ?IH.
Qed.
Lemma nd_paired l : forall op o, paired op o (nd l) = paired op o l.
Proof. unfold nd; induction l as [|x r IH]; intros op o; [reflexivity|]. destruct x; cbn; now rewrite ?IH. Qed.
Lemma nd_trun f l : forall st, trun f st (nd l) = trun f st l.
Proof.
  unfold nd; induction l as [|x r IH]; intros st; [reflexivity|]. cbn [map trun].
  assert (E : tstep f st (no_depth x) = tstep f st x) by (destruct x; reflexivity). rewrite E. destruct (tstep f st x); auto.
Qed.
Lemma nd_ninstrs l : ninstrs (nd l) = ninstrs l.
Proof. unfold ninstrs, nd in *; induction l as [|x r IH]; [reflexivity|]. destruct x; cbn; auto. Qed.
Lemma nd_filter l : filter is_instr (nd l) = filter is_instr l.
Proof. unfold nd; induction l as [|x r IH]; [reflexivity|]. destruct x; cbn; now rewrite ?IH. Qed.
Lemma nd_last l : last_instr_of (nd l) = last_instr_of l.
Proof. unfold nd; induction l as [|x r IH]; [reflexivity|]. destruct x; cbn; now rewrite ?IH. Qed.
Lemma nd_init T l : init_ok T (nd l) = init_ok T l.
Proof. unfold nd; induction l as [|x r IH]; [reflexivity|]. destruct x; cbn; rewrite ?IH, ?existsb_BI; fold (nd r); rewrite ?nd_last; reflexivity. Qed.
Lemma nd_fits T lk x : fits_graph T lk (no_depth x) <-> fits_graph T lk x.
Proof. destruct x; cbn; tauto. Qed.
Lemma nd_app a b : nd (a ++ b) = nd a ++ nd b. Proof. apply map_app. Qed.

Lemma like_flat hs hs' : Forall2 like hs hs' -> nd (flat hs') = nd (flat hs).
Proof. induction 1 as [|b b' hs hs' [_ E] _ IH]; [reflexivity|]. cbn [flat flat_map]. rewrite !nd_app. unfold nd at 1 3. rewrite E. now f_equal. Qed.
Lemma like_nth hs hs' k b' : Forall2 like hs hs' -> nth_error hs' k = Some b' -> exists b, nth_error hs k = Some b /\ like b b'.
Proof. intros H. revert k. induction H as [|b c hs hs' L _ IH]; intros [|k] E; cbn in *; try discriminate; [injection E as <-; eauto|auto]. Qed.

Lemma graph_like T l hs hs' lk : graph_of T l hs lk -> Forall2 like hs hs' -> graph_of T l hs' lk.
Proof.
  intros G L. assert (LEN := Forall2_len _ _ _ L). assert (FL := like_flat _ _ L).
  assert (EQ : forall (X : Type) (F : list bitem -> X), (forall x, F (nd x) = F x) -> F (flat hs') = F (flat hs)).
  { intros X F I. rewrite <- (I (flat hs')), FL. apply I. }
  constructor.
  - intros ->. inversion L; subst. now apply (q_ne _ _ _ _ G).
  - intros f f2 S. rewrite <- (q_walk _ _ _ _ G f f2 S). apply (EQ _ (fun x => wg f None (dd [] x))). intros x. now rewrite nd_dd, nd_wg.
  - rewrite <- (q_pair _ _ _ _ G). apply (EQ _ (fun x => paired None [] (dd [] x))). intros x. now rewrite nd_dd, nd_paired.
  - intros B. destruct (q_br _ _ _ _ G B) as (m & E). exists m. rewrite <- E. apply (EQ _ (fun x => trun fblk (TC None) (dd [] x))).
    intros x. now rewrite nd_dd, nd_trun.
  - intros n k E. destruct (q_lk _ _ _ _ G n k E) as [A B]. split; [congruence|]. rewrite B. f_equal.
    rewrite <- (nd_ninstrs (flat (firstn k hs))), <- (nd_ninstrs (flat (firstn k hs'))). f_equal. symmetry. apply like_flat. now apply Forall2_firstn.
  - apply (q_targets _ _ _ _ G).
  - intros k b' E LT. destruct (like_nth _ _ _ _ L E) as (b & EB & N & I). destruct (q_sealed _ _ _ _ G k b EB) as (li & A & B & C); [congruence|].
    exists li. rewrite N. fold (nd (k_items b')) (nd (k_items b)) in I. rewrite <- nd_last, I, nd_last, <- (nd_init T (k_items b')), I, nd_init. auto.
  - intros k b' E. destruct (like_nth _ _ _ _ L E) as (b & EB & _ & I). fold (nd (k_items b')) (nd (k_items b)) in I.
    rewrite <- nd_init, I, nd_init. eapply (q_init _ _ _ _ G). exact EB.
  - intros b' E. rewrite <- LEN in E. destruct (like_nth _ _ _ _ L E) as (b & EB & N & _). rewrite N. now apply (q_last _ _ _ _ G).
  - intros x J. apply nd_fits. assert (J' : In (no_depth x) (nd (flat hs'))) by now apply in_map. rewrite FL in J'.
    apply in_map_iff in J'. destruct J' as (y & E & J'). rewrite <- E. apply nd_fits. now apply (q_fits _ _ _ _ G).
  - assert (Q := q_ins _ _ _ _ G). rewrite (EQ _ (filter is_instr) nd_filter). exact Q.
Qed.

(** ** Bracketing *)
Lemma bracketed_brs l : forall st, bracketed st l <-> brs st l = Some None.
Proof.
  induction l as [|x r IH]; intros st; cbn.
  - split; [now intros ->|now intros E; injection E].
  - destruct x; cbn; try apply IH.
    + destruct st; cbn; [split; [intros [E _]|]; discriminate|]. rewrite <- IH. tauto.
    + destruct st as [(k, [])|]; cbn.
      * destruct (Nat.eqb id k) eqn:Q; [apply Nat.eqb_eq in Q; subst k; rewrite <- IH; tauto|].
        split; [|discriminate]. intros [E _]. injection E as <-. rewrite Nat.eqb_refl in Q. discriminate.
      * split; [intros [E _]|]; discriminate.
      * split; [intros [E _]|]; discriminate.
Qed.
Lemma paired_nodup l : forall op o, paired op o l = true -> NoDup (tb_ids l) /\ forall n, In n o -> ~ In n (tb_ids l).
Proof.
  induction l as [|x r IH]; intros op o P; [split; [constructor|auto]|].
  destruct x; cbn in *; eauto.
  - apply andb_true_iff in P. destruct P as [P1 P]. apply andb_true_iff in P1. destruct P1 as [_ P1].
    destruct (IH _ _ P) as [A B]. apply negb_true_iff in P1. split.
    + constructor; [apply B; now left|exact A].
    + intros n J [->|K]; [apply nat_mem_In in J; congruence|]. apply (B n); [now right|exact K].
  - apply andb_true_iff in P. destruct P as [_ P]. eauto.
Qed.

(** ** Instructions *)
Lemma renamed_in l l' i' : Forall2 renamed (filter is_instr l) (filter is_instr l') -> In (BI i') l' ->
  exists i, In (BI i) l /\ renamed (BI i) (BI i').
Proof.
  intros F J. assert (J' : In (BI i') (filter is_instr l')) by (apply filter_In; auto).
  destruct (Forall2_in2 _ _ _ _ F J') as (x & JX & R). apply filter_In in JX. destruct JX as [JX IX].
  destruct x as [i| | | |]; try discriminate. eauto.
Qed.
Lemma renamed_legal v T i i' : renamed (BI i) (BI i') -> legal_instr v T i -> legal_instr v T i'.
Proof.
  intros (N & O & _ & A) (L1 & L2 & L3 & L4). unfold legal_instr. rewrite N, O. repeat (split; [assumption|]).
  destruct (i_arg i) eqn:Q; try (rewrite A; exact L4).
  - destruct A as (m & ->). inversion L4; subst; try (now apply doc_label); try congruence; try discriminate.
  - destruct A as (m & ->). inversion L4; subst; try (now apply doc_label); try congruence; try discriminate.
Qed.

(** ** Through the graph *)
Lemma back_ok T b g g' b' : proper T (b_items b) -> from_bytecode T b = Ok g -> Forall2 like (g_heap g) (g_heap g') ->
  g_order g' = g_order g -> g_meta g' = g_meta g -> g_argnames g' = g_argnames g -> cfg_to_bytecode T g' = Ok b' ->
  program (b_items b') = program (b_items b) /\ proper T (b_items b') /\ b_meta b' = b_meta b /\ b_argnames b' = b_argnames b
  /\ (bracketed None (b_items b) -> try_blocks (b_items b'))
  /\ Forall2 renamed (filter is_instr (b_items b)) (filter is_instr (b_items b')).
Proof.
  intros PR EF L O' M' A' ET. destruct (from_ok T b PR) as (g0 & lk & EF' & G & _ & O & M & A).
  rewrite EF in EF'. injection EF' as <-. assert (LEN := Forall2_len _ _ _ L).
  destruct (to_ok T _ _ lk g' (graph_like _ _ _ _ _ G L) eq_refl) as [(EE & _)|(out & EO & P & PO & B & R & _)].
  { rewrite O', O. now rewrite LEN. }
  { congruence. }
  rewrite ET in EO. injection EO as ->. cbn [b_items b_meta b_argnames].
  assert (CM : forall m, copy_attr m = m) by (intros []; reflexivity).
  rewrite M', M, A', A, !CM. repeat (split; [assumption || reflexivity|]). split; [|exact R].
  intros BR. apply bracketed_brs in BR. split; [|apply bracketed_brs; auto].
  apply (paired_nodup out None []). apply (S_Cfg.proper_try _ _ PO).
Qed.

Lemma through_split v T se check depths b b' n : through_graph v T se check depths b = Ok (b', n) ->
  exists g g', from_bytecode T b = Ok g /\ compute_stacksize v T se check depths g = Ok (g', n) /\ cfg_to_bytecode T g' = Ok b'.
Proof.
  unfold through_graph. intros E. apply bind_ok in E. destruct E as (g & EF & E). apply bind_ok in E. destruct E as ([g' k] & EC & E). cbn [fst snd] in E.
  apply bind_ok in E. destruct E as (b2 & ET & E). injection E as <- <-. eauto.
Qed.
Lemma through_ok v T se check depths b b' n : proper T (b_items b) -> through_graph v T se check depths b = Ok (b', n) ->
  program (b_items b') = program (b_items b) /\ proper T (b_items b') /\ b_meta b' = b_meta b /\ b_argnames b' = b_argnames b
  /\ (bracketed None (b_items b) -> try_blocks (b_items b'))
  /\ Forall2 renamed (filter is_instr (b_items b)) (filter is_instr (b_items b')).
Proof.
  intros PR E. destruct (through_split _ _ _ _ _ _ _ _ E) as (g & g' & EF & EC & ET).
  destruct (compute_heap _ _ _ _ _ _ _ _ EC) as (L & O' & M' & A'). eapply back_ok; eauto.
Qed.
