(** ControlFlowGraph.to_bytecode on a graph made by from_bytecode. *)
From Verif Require Import PyBase OpTable P_Base M_Instr M_Concrete M_Convert M_Bytecode M_Cfg S_Prog S_Cfg P_Cfg P_CfgSeq P_CfgFrom P_CfgFrom2 P_CfgFrom3 P_CfgFrom4.
Open Scope list_scope.
Open Scope Z_scope.

Definition is_try (x : bitem) : bool := match x with BTB _ _ _ _ | BTE _ => true | _ => false end.
Definition skel (l : list bitem) : list bitem := filter (fun x => negb (is_try x)) l.
Lemma skel_app a b : skel (a ++ b) = skel a ++ skel b. Proof. apply filter_app. Qed.

Lemma find_tb_app id a b : find_tb id (a ++ b) = match find_tb id a with Some x => Some x | None => find_tb id b end.
Proof.
  induction a as [|x r IH]; [reflexivity|]. destruct x; cbn; auto. destruct (Nat.eqb id id0); auto.
Qed.
Lemma find_tb_dd id l : forall s, find_tb id (dd s l) = find_tb id l.
Proof.
  induction l as [|x r IH]; intros s; [reflexivity|]. destruct x; cbn; auto.
  - destruct (Nat.eqb id id0); auto.
  - destruct (nat_mem id0 s); cbn; auto.
Qed.
Lemma find_tb_none id a : (forall t la d, ~ In (BTB id t la d) a) -> find_tb id a = None.
Proof.
  induction a as [|x r IH]; intros H; [reflexivity|].
  assert (H' : forall t la d, ~ In (BTB id t la d) r) by (intros t la d J; apply (H t la d); now right).
  destruct x as [i|n|z|id0 t la d|id0]; cbn; auto. destruct (Nat.eqb id id0) eqn:Q; auto. apply Nat.eqb_eq in Q. subst. destruct (H t la d). now left.
Qed.

Lemma set_depth_wg f k d l : forall o, wg f o (set_depth k d l) = wg f o l.
Proof.
  induction l as [|x r IH]; intros o; [reflexivity|]. destruct x; cbn; rewrite ?IH; auto. destruct (Nat.eqb k id); cbn; auto.
Qed.
Lemma set_depth_og f k d l : forall o, og f o (set_depth k d l) = og f o l.
Proof.
  induction l as [|x r IH]; intros o; [reflexivity|]. destruct x; cbn; rewrite ?IH; auto. destruct (Nat.eqb k id); cbn; auto.
Qed.
Lemma set_depth_skel k d l : skel (set_depth k d l) = skel l.
Proof.
  unfold skel, set_depth. induction l as [|x r IH]; [reflexivity|]. destruct x as [i|n|z|id t la dd|id]; cbn; rewrite ?IH; auto. destruct (Nat.eqb k id); cbn; auto.
Qed.
Lemma set_depth_paired k d l : forall op u, paired op u (set_depth k d l) = paired op u l.
Proof.
  induction l as [|x r IH]; intros op u; [reflexivity|]. destruct x; cbn; rewrite ?IH; auto. destruct (Nat.eqb k id); cbn; now rewrite IH.
Qed.
Lemma set_depth_pst k d l : forall op u, pst op u (set_depth k d l) = pst op u l.
Proof.
  induction l as [|x r IH]; intros op u; [reflexivity|]. destruct x; cbn; rewrite ?IH; auto. destruct (Nat.eqb k id); cbn; auto.
Qed.
Lemma set_depth_in k d l x : In x (set_depth k d l) -> In x l \/ exists id t la d', In (BTB id t la d') l /\ x = BTB id t la d.
Proof.
  intros J. apply in_map_iff in J. destruct J as (y & E & J). destruct y; try (left; subst; exact J).
  destruct (Nat.eqb k id); [|left; subst; exact J]. right. eauto 10.
Qed.

Definition quiet (x : bitem) : Prop := match x with BSet _ | BLabel _ => True | _ => False end.
Lemma quiet_wg f l o : (forall x, In x l -> quiet x) -> wg f o l = wg f None l.
Proof.
  revert o. induction l as [|x r IH]; intros o Q; [reflexivity|].
  assert (E : wg f o r = wg f None r) by (apply IH; intros; apply Q; now right).
  assert (X := Q x (or_introl eq_refl)). destruct x; cbn in X; try contradiction; cbn; now rewrite ?E.
Qed.
Lemma quiet_og f l o : (forall x, In x l -> quiet x) -> og f o l = o.
Proof.
  induction l as [|x r IH]; intros Q; [reflexivity|].
  assert (E : og f o r = o) by (apply IH; intros; apply Q; now right).
  assert (X := Q x (or_introl eq_refl)). destruct x; cbn in X; try contradiction; exact E.
Qed.
Lemma quiet_pst l op u : (forall x, In x l -> quiet x) -> pst op u l = (op, u).
Proof.
  induction l as [|x r IH]; intros Q; [reflexivity|].
  assert (E : pst op u r = (op, u)) by (apply IH; intros; apply Q; now right).
  assert (X := Q x (or_introl eq_refl)). destruct x; cbn in X; try contradiction; exact E.
Qed.
Lemma quiet_paired l op u : (forall x, In x l -> quiet x) -> paired op u l = true.
Proof.
  induction l as [|x r IH]; intros Q; [reflexivity|].
  assert (E : paired op u r = true) by (apply IH; intros; apply Q; now right).
  assert (X := Q x (or_introl eq_refl)). destruct x; cbn in X; try contradiction; exact E.
Qed.
Lemma remove_last k Y : (forall x, In x Y -> quiet x) -> forall X, remove_last_end (X ++ BTE k :: Y) = X ++ Y.
Proof.
  intros Q. assert (N : existsb (fun y => match y with BTE _ => true | _ => false end) Y = false).
  { apply not_true_is_false. intros E. apply existsb_exists in E. destruct E as (x & J & E). specialize (Q x J). destruct x; cbn in Q; try contradiction; discriminate. }
  induction X as [|x r IH]; cbn.
  - rewrite N. reflexivity.
  - rewrite existsb_app. cbn. rewrite orb_true_r. now rewrite IH.
Qed.

Lemma ends_in l k : In k (flat_map (fun x => match x with BTE k => [k] | _ => [] end) (rev l)) <-> In (BTE k) l.
Proof.
  rewrite in_flat_map. split.
  - intros (x & J & E). apply in_rev in J. destruct x; try contradiction. destruct E as [<-|[]]. exact J.
  - intros J. exists (BTE k). split; [now apply -> in_rev|now left].
Qed.

(** the elements of [l] that end a try block *)
Definition ends_of (l : list bitem) : list nat := flat_map (fun x => match x with BTE k => [k] | _ => [] end) (rev l).

Lemma dd_snoc p x : dd [] (p ++ [x]) = dd [] p ++ (match x with BTE k => if nat_mem k (ends_of p) then [] else [x] | _ => [x] end).
Proof. rewrite dd_app, app_nil_r. fold (ends_of p). destruct x; reflexivity. Qed.
Lemma ends_snoc p x : ends_of (p ++ [x]) = match x with BTE k => k :: ends_of p | _ => ends_of p end.
Proof. unfold ends_of. rewrite rev_app_distr. cbn. destruct x; reflexivity. Qed.

Lemma brs_pst l : forall st s op u, brs st l = Some s -> op = option_map fst st -> fst (pst op u l) = option_map fst s.
Proof.
  induction l as [|x r IH]; intros st s op u H E; cbn in *; [congruence|].
  destruct (bstep st x) as [s1|] eqn:B; [|discriminate].
  destruct x as [i|n|z|id t la d|id]; cbn in B |- *.
  - injection B as <-. eapply IH; [exact H|]. rewrite E. now destruct st.
  - injection B as <-. eapply IH; eauto.
  - injection B as <-. eapply IH; eauto.
  - destruct st; [discriminate|]. injection B as <-. eapply IH; [exact H|reflexivity].
  - destruct st as [(?, [])|]; try discriminate. destruct (Nat.eqb id n); [|discriminate]. injection B as <-. eapply IH; [exact H|reflexivity].
Qed.
Lemma set_depth_brs k d l : forall st, brs st (set_depth k d l) = brs st l.
Proof.
  induction l as [|x r IH]; intros st; [reflexivity|]. cbn [set_depth map].
  destruct x as [i|n|z|id t la d0|id]; try (destruct (Nat.eqb k id)); cbn; try (destruct (bstep st _)); try apply IH; try reflexivity; destruct st as [(?, [])|]; try apply IH; try reflexivity.
  all: try (destruct (Nat.eqb id n); [apply IH|reflexivity]).
Qed.
Lemma quiet_brs l st : (forall x, In x l -> quiet x) -> brs st l = Some st.
Proof.
  induction l as [|x r IH]; intros Q; [reflexivity|].
  assert (E : brs st r = Some st) by (apply IH; intros; apply Q; now right).
  assert (X := Q x (or_introl eq_refl)). destruct x; cbn in X; try contradiction; exact E.
Qed.
Lemma find_tb_in id l t la d : find_tb id l = Some (t, la, d) -> In (BTB id t la d) l.
Proof.
  induction l as [|x r IH]; [discriminate|]. destruct x as [i|n|z|id' t' la' d'|id']; cbn; auto.
  destruct (Nat.eqb id id') eqn:Q; [|auto]. apply Nat.eqb_eq in Q. intros E. injection E as <- <- <-. subst. now left.
Qed.

Section To.
  Context (f : pyobj -> parg) (g : cfg) (L : list bitem).
  Hypothesis PL : paired None [] (dd [] L) = true.
  Hypothesis FT : forall id, find_tb id (all_items g) = find_tb id L.
  Hypothesis FB : forall id t la d, In (BTB id t la d) L -> exists n, t = OBlock n.

  Record toinv (p : list bitem) (S : tstate) : Prop := {
    o_walk : wg f None (t_out S) = wg f None (dd [] p);
    o_open : og f None (t_out S) = og f None (dd [] p);
    o_skel : skel (t_out S) = skel p;
    o_seen : forall k, In k (t_seen S) <-> In (BTE k) p;
    o_dom : forall id, dget Nat.eqb (t_tbs S) id <> None <-> In id (snd (pst None [] (dd [] p)));
    o_ltb : fst (pst None [] (dd [] p)) = None -> t_ltb S = None;
    o_cur : forall id, fst (pst None [] (dd [] p)) = Some id ->
      exists t la d, find_tb id L = Some (t, la, d) /\ og f None (dd [] p) = Some (f t, la);
    o_lte : forall e k r, t_lte S = Some (e, k, r) ->
      if r : bool then fst (pst None [] (dd [] p)) <> None
      else exists X Y t la d, t_out S = X ++ BTE k :: Y /\ (forall x, In x Y -> quiet x)
           /\ find_tb e L = Some (t, la, d) /\ og f None X = Some (f t, la) /\ fst (pst None [] X) = Some k;
    o_br : forall u, trun fblk (TC None) (dd [] p) = Some u -> exists st, brs None (t_out S) = Some st
      /\ match u, st with
         | TC m, None => forall h, m = Some h -> exists e k t la d, t_lte S = Some (e, k, false) /\ find_tb e L = Some (t, la, d) /\ h = (fblk t, la)
         | TO h ok, Some (_, fl) => (ok = true -> fl = true)
             /\ exists id t la d, fst (pst None [] (dd [] p)) = Some id /\ find_tb id L = Some (t, la, d) /\ h = (fblk t, la)
         | _, _ => False
         end;
    o_pair : paired None [] (t_out S) = true;
    o_pst : fst (pst None [] (t_out S)) = match fst (pst None [] (dd [] p)) with Some id => dget Nat.eqb (t_tbs S) id | None => None end;
    o_fresh : forall n, In n (snd (pst None [] (t_out S))) -> (n < t_fresh S)%nat;
    o_known : forall id t la d, In (BTB id t la d) (t_out S) -> In id (map snd (t_tbs S)) /\ exists id' d', In (BTB id' t la d') p }.

  Lemma to_init : toinv [] (mkTS [] [] [] 0 None None).
  Proof.
    constructor; cbn; try reflexivity; try discriminate; try contradiction; try tauto.
    intros u H. injection H as <-. exists None. split; [reflexivity|]. discriminate.
  Qed.

  Lemma dset_new {B} (d : list (nat * B)) k v : dget Nat.eqb d k = None -> dset Nat.eqb d k v = d ++ [(k, v)].
  Proof.
    induction d as [|(a, x) r IH]; [reflexivity|]. cbn. destruct (Nat.eqb k a); [discriminate|]. intros H. f_equal. auto.
  Qed.

  Lemma to_step p x rest S : toinv p S -> L = p ++ x :: rest ->
    (to_elem g S x = Err AssertionError /\ exists id t la z, In (BTB id t la (Some z)) L /\ exists id' t' la', In (BTB id' t' la' None) L)
    \/ exists S', to_elem g S x = Ok S' /\ toinv (p ++ [x]) S'.
  Proof.
    intros V E. destruct S as [out tbs seen fresh ltb lte].
    assert (PD : paired None [] (dd [] p ++ match x with BTE k => if nat_mem k (ends_of p) then [] else [x] | _ => [x] end) = true).
    { assert (X := PL). rewrite E in X. change (p ++ x :: rest) with (p ++ [x] ++ rest) in X. rewrite app_assoc, dd_app in X.
      rewrite paired_app in X. apply andb_true_iff in X. destruct X as [X _]. now rewrite dd_snoc in X. }
    destruct V as [Vw Vo Vk Vs Vd Vl Vc Ve Vb Vp Vq Vf Vn]. cbn [t_out t_tbs t_seen t_fresh t_ltb t_lte] in *.
    destruct x as [i|n|z|id t la d|id].
    - (* instruction *)
      right. eexists. split; [reflexivity|]. constructor; cbn [t_out t_tbs t_seen t_fresh t_ltb t_lte]; rewrite ?dd_snoc, ?pst_app; cbn [pst fst snd].
      + now rewrite !wg_app, Vw, Vo.
      + now rewrite !og_app, Vo.
      + now rewrite !skel_app, Vk.
      + intros k. rewrite Vs, in_app_iff. cbn. intuition discriminate.
      + exact Vd. + exact Vl.
      + intros id H. destruct (Vc id H) as (t & la & d & A & B). exists t, la, d. split; [exact A|]. now rewrite og_app.
      + discriminate.
      + intros u H. rewrite trun_app in H. destruct (trun fblk (TC None) (dd [] p)) as [u0|]; [|discriminate].
        destruct (Vb u0 eq_refl) as (st & BS & R). rewrite brs_app, BS. cbn. eexists. split; [reflexivity|].
        destruct u0 as [m|h ok], st as [(k, fl)|]; cbn in H; try contradiction; injection H as <-; cbn; [discriminate|]. split; [auto|apply R].
      + now rewrite paired_app, Vp.
      + exact Vq. + exact Vf.
      + intros id t la d J. apply in_app_iff in J. destruct J as [J|[J|[]]]; [|discriminate].
        destruct (Vn id t la d J) as (A & id' & d' & B). split; [exact A|]. exists id', d'. apply in_app_iff. now left.
    - (* label *)
      right. eexists. split; [reflexivity|]. constructor; cbn [t_out t_tbs t_seen t_fresh t_ltb t_lte]; rewrite ?dd_snoc, ?pst_app; cbn [pst fst snd].
      + rewrite !wg_app, Vw, Vo. reflexivity.
      + now rewrite !og_app, Vo.
      + now rewrite !skel_app, Vk.
      + intros k. rewrite Vs, in_app_iff. cbn. intuition discriminate.
      + exact Vd. + exact Vl.
      + intros id H. destruct (Vc id H) as (t & la & d & A & B). exists t, la, d. split; [exact A|]. now rewrite og_app.
      + intros e k r H. specialize (Ve e k r H). destruct r; [exact Ve|].
        destruct Ve as (X & Y & t & la & d & A & B & C). exists X, (Y ++ [BLabel n]), t, la, d.
        split; [rewrite A, <- app_assoc; reflexivity|]. split; [|exact C].
        intros y J. apply in_app_iff in J. destruct J as [J|[<-|[]]]; [now apply B|exact Logic.I].
      + intros u H. rewrite trun_app in H. destruct (trun fblk (TC None) (dd [] p)) as [u0|]; [|discriminate].
        destruct (Vb u0 eq_refl) as (st & BS & R). rewrite brs_app, BS. cbn. exists st. split; [reflexivity|].
        assert (u0 = u) by (destruct u0; cbn in H; congruence). subst u0. exact R.
      + now rewrite paired_app, Vp.
      + exact Vq. + exact Vf.
      + intros id t la d J. apply in_app_iff in J. destruct J as [J|[J|[]]]; [|discriminate].
        destruct (Vn id t la d J) as (A & id' & d' & B). split; [exact A|]. exists id', d'. apply in_app_iff. now left.
    - (* line *)
      right. eexists. split; [reflexivity|]. constructor; cbn [t_out t_tbs t_seen t_fresh t_ltb t_lte]; rewrite ?dd_snoc, ?pst_app; cbn [pst fst snd].
      + rewrite !wg_app, Vw, Vo. reflexivity.
      + now rewrite !og_app, Vo.
      + now rewrite !skel_app, Vk.
      + intros k. rewrite Vs, in_app_iff. cbn. intuition discriminate.
      + exact Vd. + exact Vl.
      + intros id H. destruct (Vc id H) as (t & la & d & A & B). exists t, la, d. split; [exact A|]. now rewrite og_app.
      + intros e k r H. specialize (Ve e k r H). destruct r; [exact Ve|].
        destruct Ve as (X & Y & t & la & d & A & B & C). exists X, (Y ++ [BSet z]), t, la, d.
        split; [rewrite A, <- app_assoc; reflexivity|]. split; [|exact C].
        intros y J. apply in_app_iff in J. destruct J as [J|[<-|[]]]; [now apply B|exact Logic.I].
      + intros u H. rewrite trun_app in H. destruct (trun fblk (TC None) (dd [] p)) as [u0|]; [|discriminate].
        destruct (Vb u0 eq_refl) as (st & BS & R). rewrite brs_app, BS. cbn. exists st. split; [reflexivity|].
        assert (u0 = u) by (destruct u0; cbn in H; congruence). subst u0. exact R.
      + now rewrite paired_app, Vp.
      + exact Vq. + exact Vf.
      + intros id t la d J. apply in_app_iff in J. destruct J as [J|[J|[]]]; [|discriminate].
        destruct (Vn id t la d J) as (A & id' & d' & B). split; [exact A|]. exists id', d'. apply in_app_iff. now left.
    - (* TryBegin *)
      rewrite paired_app in PD. apply andb_true_iff in PD. destruct PD as [PD1 PD]. cbn [paired] in PD.
      rewrite andb_true_r in PD. apply andb_true_iff in PD. destruct PD as [PO PN]. apply negb_true_iff in PN.
      assert (ON : fst (pst None [] (dd [] p)) = None) by (destruct (fst (pst None [] (dd [] p))); [discriminate|reflexivity]).
      assert (LN := Vl ON). rewrite ON in Vq. 
      assert (TN : dget Nat.eqb tbs id = None).
      { destruct (dget Nat.eqb tbs id) eqn:Q; [|reflexivity]. assert (X : dget Nat.eqb tbs id <> None) by congruence.
        apply Vd in X. apply nat_mem_In in X. congruence. }
      assert (FI : find_tb id L = Some (t, la, d)).
      { rewrite E, find_tb_app. cbn. rewrite Nat.eqb_refl.
        rewrite find_tb_none; [reflexivity|]. intros t' la' d' J.
        assert (X : In id (snd (pst None [] (dd [] p)))).
        { apply pst_ids. right. exists t', la', d'. clear - J. revert J. generalize (@nil nat).
          induction p as [|y r IH]; intros s J; [contradiction|]. destruct J as [->|J]; [now left|].
          destruct y; cbn; try (right; apply IH; exact J). destruct (nat_mem id0 s); [|right]; apply IH; exact J. }
        apply nat_mem_In in X. congruence. }
      assert (DOM : forall k id', dget Nat.eqb (dset Nat.eqb tbs id k) id' <> None <-> In id' (id :: snd (pst None [] (dd [] p)))).
      { intros k id'. rewrite dg_set. destruct (Nat.eqb id' id) eqn:Q.
        - apply Nat.eqb_eq in Q. subst. split; [now left|discriminate].
        - rewrite Vd. cbn. apply Nat.eqb_neq in Q. intuition congruence. }
      cbn [to_elem]. rewrite LN. cbn [bind].
      assert (PLAIN : (forall e k te lae de, lte = Some (e, k, false) -> find_tb e L = Some (te, lae, de) -> block_eqb te t && Bool.eqb lae la = false) -> toinv (p ++ [BTB id t la d])
         (mkTS (out ++ [BTB fresh t la d]) (dset Nat.eqb tbs id fresh) seen (fresh + 1)%nat (Some (t, la, fresh)) None)).
      { intros NM. constructor; cbn [t_out t_tbs t_seen t_fresh t_ltb t_lte]; rewrite ?dd_snoc, ?pst_app; cbn [pst fst snd].
        - rewrite !wg_app, Vw. reflexivity.
        - now rewrite !og_app.
        - now rewrite !skel_app, Vk.
        - intros k. rewrite Vs, in_app_iff. cbn. intuition discriminate.
        - apply DOM.
        - discriminate.
        - intros id' H. injection H as <-. exists t, la, d. split; [exact FI|]. now rewrite og_app.
        - discriminate.
        - intros u H. rewrite trun_app in H. destruct (trun fblk (TC None) (dd [] p)) as [u0|]; [|discriminate].
          destruct (Vb u0 eq_refl) as (st & BS & R). rewrite brs_app, BS.
          destruct u0 as [m|h ok]; cbn in H; [|discriminate]. injection H as <-. destruct st; [contradiction|]. cbn.
          eexists. split; [reflexivity|]. split; [|exists id, t, la, d; auto]. intros SH. exfalso. destruct m as [h|]; [|discriminate].
          destruct (R h eq_refl) as (e & k & te & lae & de & LE & FE & ->). specialize (NM e k te lae de LE FE).
          destruct (FB e te lae de (find_tb_in _ _ _ _ _ FE)) as (n & ->).
          destruct (FB id t la d (find_tb_in _ _ _ _ _ FI)) as (n' & ->). unfold same_h in SH. cbn in SH, NM. congruence.
        - rewrite paired_app, Vp, Vq. cbn.
          destruct (nat_mem fresh (snd (pst None [] out))) eqn:M; [|reflexivity]. apply nat_mem_In in M. apply Vf in M. lia.
        - now rewrite dg_set, Nat.eqb_refl.
        - intros n [<-|J]; [lia|]. apply Vf in J. lia.
        - intros id' t' la' d' J. apply in_app_iff in J. rewrite dset_new, map_app, in_app_iff by exact TN.
          destruct J as [J|[J|[]]].
          + destruct (Vn id' t' la' d' J) as (A & id2 & d2 & B). split; [now left|]. exists id2, d2. apply in_app_iff. now left.
          + injection J as <- <- <- <-. split; [right; now left|]. exists id, d. apply in_app_iff. right. now left. }
      destruct lte as [((e, k), removed)|]; [|right; eexists; split; [reflexivity|apply PLAIN; discriminate]].
      specialize (Ve e k removed eq_refl). destruct removed; [congruence|].
      destruct Ve as (X & Y & te & lae & de & OUT & QY & FE & OX & PX).
      rewrite FT, FE. cbn [of_option bind].
      destruct (block_eqb te t && Bool.eqb lae la) eqn:SAME; [|right; eexists; split; [reflexivity|apply PLAIN; intros e' k' te' lae' de' Q1 Q2; injection Q1 as <- <-; congruence]].
      apply andb_true_iff in SAME. destruct SAME as [S1 S2]. apply eqb_prop in S2. subst lae.
      assert (S3 : te = t).
      { destruct te, t; cbn in S1; try discriminate. apply Nat.eqb_eq in S1. congruence. }
      subst te.
      assert (DP : (exists d', match de with None => match d with None => Ok None | Some _ => Err AssertionError end | Some _ => depth_min de d end = Ok d')
         \/ (match de with None => match d with None => Ok None | Some _ => Err AssertionError end | Some _ => depth_min de d end = Err AssertionError
            /\ exists z, d = Some z /\ de = None)).
      { destruct de as [z|], d as [z'|]; cbn; eauto. }
      destruct DP as [(d' & DP)|(DP & z & DZ & DE)].
      2:{ left. rewrite DP. split; [reflexivity|]. exists id, t, la, z. split; [rewrite E, DZ; apply in_app_iff; right; now left|].
        exists e, t, la. rewrite <- DE. exact (find_tb_in _ _ _ _ _ FE). }
      right. rewrite DP. cbn [bind]. eexists. split; [reflexivity|].
      rewrite OUT, remove_last by exact QY.
      assert (WX : wg f None (X ++ Y) = wg f None (dd [] p)).
      { rewrite <- Vw, OUT, !wg_app, OX. f_equal. cbn. now apply quiet_wg. }
      assert (PX' : paired None [] X = true).
      { rewrite OUT, paired_app in Vp. now apply andb_true_iff in Vp. }
      constructor; cbn [t_out t_tbs t_seen t_fresh t_ltb t_lte]; rewrite ?dd_snoc, ?set_depth_wg, ?set_depth_og, ?set_depth_skel, ?set_depth_paired, ?set_depth_pst, ?pst_app; cbn [pst fst snd].
      + rewrite WX, wg_app. cbn. now rewrite app_nil_r.
      + rewrite !og_app. cbn. rewrite quiet_og by exact QY. exact OX.
      + rewrite (skel_app p). rewrite <- Vk, OUT, !skel_app. cbn. now rewrite app_nil_r.
      + intros k'. rewrite Vs, in_app_iff. cbn. intuition discriminate.
      + apply DOM.
      + discriminate.
      + intros id' H. injection H as <-. exists t, la, d. split; [exact FI|]. now rewrite og_app.
      + intros e' k' r' H. injection H as <- <- <-. discriminate.
      + intros u H. rewrite trun_app in H. destruct (trun fblk (TC None) (dd [] p)) as [u0|]; [|discriminate].
        destruct (Vb u0 eq_refl) as (st & BS & R). rewrite set_depth_brs, brs_app.
        destruct u0 as [m|h ok]; cbn in H; [|discriminate]. injection H as <-. destruct st; [contradiction|].
        rewrite OUT, brs_app in BS. destruct (brs None X) as [sx|]; [|discriminate]. cbn in BS.
        destruct sx as [(kx, [])|]; try discriminate. rewrite quiet_brs by exact QY. eexists. split; [reflexivity|].
        cbn. split; [auto|]. exists id, t, la, d. auto.
      + now rewrite paired_app, PX', quiet_paired by exact QY.
      + rewrite quiet_pst by exact QY. cbn. now rewrite PX, dg_set, Nat.eqb_refl.
      + intros n J. apply Vf. rewrite OUT, pst_app. rewrite quiet_pst in J by exact QY. cbn [snd] in J.
        cbn [pst]. rewrite quiet_pst by exact QY. exact J.
      + intros id' t' la' dx J. rewrite dset_new, map_app, in_app_iff by exact TN.
        assert (J2 : exists dy, In (BTB id' t' la' dy) out).
        { assert (J3 : exists dy, In (BTB id' t' la' dy) (X ++ Y)).
          { destruct (set_depth_in _ _ _ _ J) as [J'|(i1 & t1 & l1 & d1 & J' & EQ)]; [eauto|]. injection EQ as -> -> -> ->. eauto. }
          destruct J3 as (dy & J3). exists dy. rewrite OUT. rewrite in_app_iff in *. cbn. tauto. }
        destruct J2 as (dy & J2). destruct (Vn id' t' la' dy J2) as (A & id2 & d2 & B). split; [now left|].
        exists id2, d2. apply in_app_iff. now left.
    - (* TryEnd *)
      right. cbn [to_elem].
      assert (MS : nat_mem id seen = nat_mem id (ends_of p)).
      { apply eq_true_iff_eq. rewrite !nat_mem_In. unfold ends_of. rewrite ends_in. apply Vs. }
      rewrite MS. destruct (nat_mem id (ends_of p)) eqn:M.
      + eexists. split; [reflexivity|]. rewrite app_nil_r in PD.
        constructor; cbn [t_out t_tbs t_seen t_fresh t_ltb t_lte]; rewrite ?dd_snoc, ?M, ?app_nil_r; auto.
        * rewrite skel_app. cbn. now rewrite app_nil_r.
        * intros k. rewrite Vs, in_app_iff. cbn. apply nat_mem_In in M. unfold ends_of in M. rewrite ends_in in M.
          split; [auto|]. intros [J|[J|[]]]; [exact J|]. injection J as <-. exact M.
        * intros id' t la d J. destruct (Vn id' t la d J) as (A & id2 & d2 & B). split; [exact A|]. exists id2, d2. apply in_app_iff. now left.
      + rewrite paired_app in PD. apply andb_true_iff in PD. destruct PD as [PD1 PD]. cbn [paired] in PD.
        rewrite andb_true_r in PD. destruct (fst (pst None [] (dd [] p))) as [a|] eqn:OP; [|discriminate]. apply Nat.eqb_eq in PD. subst a.
        assert (DI : dget Nat.eqb tbs id <> None).
        { apply Vd. apply pst_open_in; [discriminate|exact OP]. }
        destruct (dget Nat.eqb tbs id) as [k|] eqn:DK; [|congruence]. cbn [of_option bind].
        eexists. split; [reflexivity|]. destruct (Vc id eq_refl) as (t & la & d & FI & OG).
        constructor; cbn [t_out t_tbs t_seen t_fresh t_ltb t_lte]; rewrite ?dd_snoc, ?M, ?pst_app; cbn [pst fst snd].
        * now rewrite !wg_app, Vw.
        * now rewrite !og_app.
        * now rewrite !skel_app, Vk.
        * intros k'. cbn. rewrite Vs, in_app_iff. cbn. split; [intros [->|J]; auto|]. intros [J|[J|[]]]; [auto|left; congruence].
        * exact Vd.
        * reflexivity.
        * discriminate.
        * intros e' k' r' H. injection H as <- <- <-. exists out, [], t, la, d. split; [reflexivity|]. split; [intros y []|].
          split; [exact FI|]. split; [congruence|exact Vq].
        * intros u H. rewrite trun_app in H. destruct (trun fblk (TC None) (dd [] p)) as [u0|]; [|discriminate].
          destruct (Vb u0 eq_refl) as (st & BS & R). rewrite brs_app, BS.
          destruct u0 as [m|h []]; cbn in H; try discriminate. injection H as <-. destruct st as [(k0, fl)|]; [|contradiction].
          destruct R as [R (id1 & t1 & la1 & d1 & Q1 & Q2 & ->)]. rewrite (R eq_refl). injection Q1 as <-.
          assert (KK := brs_pst _ _ _ None [] BS eq_refl). rewrite Vq in KK. cbn in KK. injection KK as ->.
          cbn. rewrite Nat.eqb_refl. eexists. split; [reflexivity|]. intros h Q. injection Q as <-. exists id, k0, t1, la1, d1. auto.
        * rewrite paired_app, Vp, Vq. cbn. now rewrite Nat.eqb_refl.
        * reflexivity.
        * exact Vf.
        * intros id' t' la' d' J. apply in_app_iff in J. destruct J as [J|[J|[]]]; [|discriminate].
          destruct (Vn id' t' la' d' J) as (A & id2 & d2 & B). split; [exact A|]. exists id2, d2. apply in_app_iff. now left.
  Qed.

  Lemma to_all rest : forall p S, toinv p S -> L = p ++ rest ->
    (foldM (to_elem g) rest S = Err AssertionError /\ exists id t la z, In (BTB id t la (Some z)) L /\ exists id' t' la', In (BTB id' t' la' None) L)
    \/ exists S', foldM (to_elem g) rest S = Ok S' /\ toinv L S'.
  Proof.
    induction rest as [|x r IH]; intros p S V E.
    - right. exists S. split; [reflexivity|]. now rewrite app_nil_r in E; subst.
    - cbn [foldM]. destruct (to_step p x r S V E) as [(E1 & H)|(S' & E1 & V')].
      + left. rewrite E1. auto.
      + rewrite E1. cbn [bind]. apply (IH (p ++ [x]) S' V'). now rewrite <- app_assoc.
  Qed.
End To.
