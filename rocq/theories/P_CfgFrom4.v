(** The graph built by from_bytecode. *)
From Verif Require Import PyBase OpTable P_Base M_Instr M_Concrete M_Convert M_Bytecode M_Cfg S_Prog S_Cfg P_Cfg P_Bytecode P_CfgSeq P_CfgFrom P_CfgFrom2 P_CfgFrom3.
Open Scope list_scope.
Open Scope Z_scope.

Lemma iterate_paired l : forall op u, paired op u l = true ->
  iterate (match op with Some _ => true | None => false end) l = (l, None).
Proof.
  induction l as [|x r IH]; intros op u P; [reflexivity|]. cbn [iterate].
  destruct x as [i|n|z|id t la d|id]; cbn [iter_check paired] in *.
  1-3: now rewrite (IH op u P).
  - apply andb_true_iff in P. destruct P as [P1 P]. apply andb_true_iff in P1. destruct P1 as [P1 _].
    destruct op; [discriminate|]. cbn. now rewrite (IH _ _ P).
  - apply andb_true_iff in P. destruct P as [P1 P]. now rewrite (IH _ _ P).
Qed.

Definition fits_graph (T : optable) (lk : nat -> option nat) (x : bitem) : Prop :=
  match x with
  | BI i => if has_jump T i then exists n k, lk n = Some k /\ i_arg i = OBlock k
            else forall n, i_arg i <> OLabel n /\ i_arg i <> OBlock n
  | BTB _ t _ _ => exists n k, lk n = Some k /\ t = OBlock k
  | BLabel _ => False
  | _ => True
  end.

(** the number of a block *)
Definition fblk (o : pyobj) : nat := match o with OBlock k => k | _ => 0%nat end.

Record graph_of (T : optable) (l : list bitem) (hs : list block) (lk : nat -> option nat) : Prop := {
  q_ne : hs <> [];
  q_walk : forall f f2, same_args lk f f2 -> wg f None (dd [] (flat hs)) = wg f2 None l;
  q_pair : paired None [] (dd [] (flat hs)) = true;
  q_br : brs None l = Some None -> exists m, trun fblk (TC None) (dd [] (flat hs)) = Some (TC m);
  q_lk : forall n k, lk n = Some k -> (k < length hs)%nat /\ position l n = Some (ninstrs (flat (firstn k hs)));
  q_targets : forall it n, In it l -> In n (target it) -> lk n <> None;
  q_sealed : forall k b, nth_error hs k = Some b -> (S k < length hs)%nat -> sealed T k b;
  q_init : forall k b, nth_error hs k = Some b -> init_ok T (k_items b) = true;
  q_last : forall b, nth_error hs (pred (length hs)) = Some b -> k_next b = None;
  q_fits : forall x, In x (flat hs) -> fits_graph T lk x;
  q_ins : Forall2 (res1 lk) (filter is_instr l) (filter is_instr (flat hs)) }.

Lemma init_ok_ends T ks l : init_ok T (map BTE ks ++ l) = init_ok T l.
Proof. now induction ks. Qed.
Lemma last_instr_ends ks l : last_instr_of (map BTE ks ++ l) = last_instr_of l.
Proof. now induction ks. Qed.
Lemma filter_ends ks l : filter is_instr (map BTE ks ++ l) = filter is_instr l.
Proof. now induction ks. Qed.

Lemma res1_last lk l l' : Forall2 (res1 lk) l l' ->
  match last_instr_of l, last_instr_of l' with
  | None, None => True
  | Some i, Some j => i_op j = i_op i /\ i_name j = i_name i
  | _, _ => False
  end.
Proof.
  induction 1 as [|x y l l' R _ IH]; [exact Logic.I|].
  destruct x as [i|n|z|id t la d|id]; cbn in R.
  - destruct R as [-> _]. cbn. destruct (last_instr_of l), (last_instr_of l'); try contradiction; auto.
  - subst y. exact IH.
  - subst y. exact IH.
  - destruct R as (n & k & _ & _ & ->). exact IH.
  - subst y. exact IH.
Qed.
Lemma res1_stops T (i j : instr) : i_op j = i_op i -> i_name j = i_name i -> stops T j = stops T i.
Proof. unfold stops, has_jump, is_final. now intros -> ->. Qed.
Lemma res1_init T lk l l' : Forall2 (res1 lk) l l' -> init_ok T l' = init_ok T l.
Proof.
  induction 1 as [|x y l l' R H IH]; [reflexivity|].
  destruct x as [i|n|z|id t la d|id]; cbn in R; try (subst y; exact IH).
  - destruct R as [-> _]. cbn [init_ok]. rewrite IH, !existsb_BI. f_equal.
    assert (L := res1_last _ _ _ H). 
    destruct (last_instr_of l), (last_instr_of l'); try contradiction; reflexivity.
  - destruct R as (n & k & _ & _ & ->). exact IH.
Qed.
Lemma res1_filter lk l l' : Forall2 (res1 lk) l l' -> Forall2 (res1 lk) (filter is_instr l) (filter is_instr l').
Proof.
  induction 1 as [|x y l l' R H IH]; [constructor|].
  assert (R' := R). destruct x as [i|n|z|id t la d|id]; cbn in R; try (subst y; exact IH).
  - destruct R as [-> _]. cbn. constructor; [exact R'|exact IH].
  - destruct R as (n & k & _ & _ & ->). exact IH.
Qed.
Lemma res1_ninstrs lk l l' : Forall2 (res1 lk) l l' -> ninstrs l' = ninstrs l.
Proof. intros H. apply res1_filter in H. symmetry. exact (Forall2_len _ _ _ H). Qed.
Lemma Forall2_firstn {A B} (R : A -> B -> Prop) l l' n : Forall2 R l l' -> Forall2 R (firstn n l) (firstn n l').
Proof. intros H. revert n. induction H; intros [|n]; cbn; constructor; auto. Qed.
Lemma Forall2_in2 {A B} (R : A -> B -> Prop) l l' y : Forall2 R l l' -> In y l' -> exists x, In x l /\ R x y.
Proof.
  induction 1 as [|a b l l' HR _ IH]; [intros []|]. intros [<-|J]; [exists a; split; [now left|exact HR]|].
  destruct (IH J) as (x & JX & RX). exists x. split; [now right|exact RX].
Qed.

Lemma ext_filter bs bs' : Forall2 ext bs bs' -> filter is_instr (flat bs') = filter is_instr (flat bs).
Proof.
  induction 1 as [|b b' bs bs' (N & ks & E) _ IH]; [reflexivity|]. cbn [flat flat_map]. rewrite !filter_app, E, filter_ends.
  f_equal. exact IH.
Qed.
Lemma ext_in bs bs' x : Forall2 ext bs bs' -> In x (flat bs') -> In x (flat bs) \/ exists k, x = BTE k.
Proof.
  induction 1 as [|b b' bs bs' (N & ks & E) _ IH]; [now left|]. cbn [flat flat_map]. rewrite !in_app_iff, E, in_app_iff, in_map_iff.
  intros [[(k & <- & _)|J]|J]; [eauto|auto|]. destruct (IH J) as [J'|J']; auto.
Qed.

Lemma ninstrs_firstn e i (l : list bitem) : (e <= i)%nat -> (ninstrs (firstn e l) <= ninstrs (firstn i l))%nat.
Proof.
  intros L. replace i with (e + (i - e))%nat by lia. clear.
  assert (X : firstn (e + (i - e)) l = firstn e l ++ firstn (i - e) (skipn e l)).
  { generalize (i - e)%nat. clear. revert l. induction e as [|e IH]; intros [|x l] k; cbn; [now destruct k|reflexivity|now destruct k|now rewrite IH]. }
  rewrite X, ninstrs_app. lia.
Qed.

Lemma from_ok T b : proper T (b_items b) -> exists g lk, from_bytecode T b = Ok g
  /\ graph_of T (b_items b) (g_heap g) lk
  /\ (forall id t la d, In (BTB id t la d) (flat (g_heap g)) -> exists id' t' d', In (BTB id' t' la d') (b_items b) /\ (d = None \/ d = d'))
  /\ g_order g = seq 0 (length (g_heap g)) /\ g_meta g = copy_attr (b_meta b) /\ g_argnames g = b_argnames b.
Proof.
  intros PR. set (l := b_items b) in *. unfold from_bytecode. fold l.
  rewrite (iterate_paired l None []) by apply PR.
  destruct (pass1_ok T l (proper_args _ _ PR) 0 (mkP1 [] [] [])) as (P & EP & PJ & PL & PE).
  rewrite EP. cbn [bind].
  assert (PL' : forall n, dget Nat.eqb (p_labels P) n = lastidx (is_lab n) l).
  { intros n. rewrite PL. now destruct (lastidx (is_lab n) l). }
  assert (PE' : forall n, dget Nat.eqb (p_ends P) n = lastidx (is_end n) l).
  { intros n. rewrite PE. now destruct (lastidx (is_end n) l). }
  clear PL PE EP. cbn [p_jumps app] in PJ.
  assert (TG : forall n, In n (flat_map target l) -> dget Nat.eqb (p_labels P) n <> None).
  { intros n J. apply in_flat_map in J. destruct J as (it & J & N). rewrite PL'.
    eapply lastidx_none; [eapply (proper_labels _ _ PR); eassumption|]. cbn. apply Nat.eqb_refl. }
  destruct (starts_ok (p_labels P) (p_jumps P)) as (starts & ES & ST).
  { intros n. rewrite PJ. apply TG. }
  { intros n m i. rewrite !PL'. intros A B. apply lastidx_lab in A, B. congruence. }
  rewrite ES. cbn [bind].
  destruct (loop_ok T P l starts PR PL' PE' (fun i n H => proj2 (proj1 (ST i n) H)) l [] [] [] [] [] 0 [] None false None)
    as (done & cur & labels & tbs & fresh & add & active & ins & lst & EL & V & B).
  { reflexivity. }
  { constructor; try reflexivity; try (intros; cbn in *; contradiction); try discriminate; try (cbn; constructor).
    all: intros a H; cbn in H; try congruence. intros E. injection E as <-. eexists. split; [reflexivity|exact Logic.I]. }
  { constructor; try discriminate; try reflexivity; try (intros; exfalso; cbn in *; lia).
    intros k x H. destruct k; discriminate. }
  { constructor; discriminate. }
  cbn [length app] in EL. cbn [app] in EL. rewrite EL. cbn [bind f_labels f_add f_blocks f_tbs].
  set (bs0 := done ++ [mkBlk cur None]) in *.
  assert (F0 : flat bs0 = flat done ++ cur) by (unfold bs0; rewrite flat_app; cbn; now rewrite app_nil_r).
  rewrite <- F0 in V.
  assert (LK : forall it n, In it l -> In n (target it) -> dget Nat.eqb labels n <> None).
  { intros it n J N. assert (JF : In n (flat_map target l)) by (apply in_flat_map; eauto).
    specialize (TG n JF). destruct (dget Nat.eqb (p_labels P) n) as [i|] eqn:Q; [|congruence].
    apply (b_complete _ _ _ _ _ _ _ _ B i n).
    - rewrite PL' in Q. apply lastidx_lab in Q. apply nth_error_Some. congruence.
    - apply ST. rewrite PJ. auto. }
  assert (LB : length bs0 = S (length done)) by (unfold bs0; rewrite app_length; cbn; lia).
  assert (FD : forall m, (m <= length done)%nat -> firstn m bs0 = firstn m done).
  { intros m L. unfold bs0. rewrite firstn_app. replace (m - length done)%nat with 0%nat by lia. cbn. apply app_nil_r. }
  destruct (ins_all (flat bs0) bs0 labels add bs0) as (bs & EB & N).
  { intros lab tes J. 
    assert (D : dget Nat.eqb add lab = Some tes).
    { assert (ND := v_adds _ _ _ _ _ _ _ _ _ V). clear - J ND. induction add as [|(a, x) r IH]; [contradiction|]. cbn in *.
      inversion ND as [|? ? NI ND']; subst. destruct J as [E|J].
      - injection E as -> ->. now rewrite Nat.eqb_refl.
      - destruct (Nat.eqb lab a) eqn:Q; [|now apply IH]. apply Nat.eqb_eq in Q. subst. destruct NI. apply in_map_iff. exists (a, tes). auto. }
    destruct tes as [|k tes].
    - destruct (v_addk _ _ _ _ _ _ _ _ _ V lab [] D eq_refl).
    - destruct (v_add _ _ _ _ _ _ _ _ _ V lab _ k D (or_introl eq_refl)) as (a & e & i & (y & Jy & Ny) & _).
      assert (Q := LK y lab Jy Ny). destruct (dget Nat.eqb labels lab) as [m|] eqn:DL; [|congruence].
      exists m. split; [reflexivity|]. destruct (b_labels _ _ _ _ _ _ _ _ B lab m DL) as [LM _]. lia. }
  { constructor.
    - rewrite (dd_paired (flat bs0) [] None []); [exact (v_pair _ _ _ _ _ _ _ _ _ V)|intros n []|discriminate|exact (v_pair _ _ _ _ _ _ _ _ _ V)].
    - intros f. rewrite (dd_paired (flat bs0) [] None []); [reflexivity|intros n []|discriminate|exact (v_pair _ _ _ _ _ _ _ _ _ V)].
    - intros f st. rewrite (dd_paired (flat bs0) [] None []); [reflexivity|intros n []|discriminate|exact (v_pair _ _ _ _ _ _ _ _ _ V)].
    - clear. induction bs0 as [|x r IH]; constructor; [|exact IH]. split; [reflexivity|]. now exists [].
    - intros m k (lab & tes & J & JK & DL).
      assert (D : dget Nat.eqb add lab = Some tes).
      { assert (ND := v_adds _ _ _ _ _ _ _ _ _ V). clear - J ND. induction add as [|(a, x) r IH]; [contradiction|]. cbn in *.
        inversion ND as [|? ? NI ND']; subst. destruct J as [E|J].
        - injection E as -> ->. now rewrite Nat.eqb_refl.
        - destruct (Nat.eqb lab a) eqn:Q; [|now apply IH]. apply Nat.eqb_eq in Q. subst. destruct NI. apply in_map_iff. exists (a, tes). auto. }
      destruct (v_add _ _ _ _ _ _ _ _ _ V lab tes k D JK) as (a & e & i & _ & AE & AI & LE & (a1 & t1 & la1 & d1 & b1 & A1 & N1) & A2).
      destruct (b_labels _ _ _ _ _ _ _ _ B lab m DL) as [LM (i' & I' & NI)]. rewrite AI in I'. injection I' as <-.
      destruct A2 as [(a2 & b2 & A2 & N2)|(_ & t & la & AC)].
      2:{ exfalso. assert (X : (length l <= e)%nat).
          { eapply (end_later T P l PR PE' l []); [now rewrite app_nil_r| |exact AE]. rewrite (v_act _ _ _ _ _ _ _ _ _ V), AC. reflexivity. }
          rewrite PE' in AE. apply lastidx_end in AE. assert (Y : (e < length l)%nat) by (apply nth_error_Some; congruence). lia. }
      unfold cover. assert (LI := ninstrs_firstn e i l LE).
      eapply (ended_by_count k _ _ a1 b1 a2 b2 t1 la1 d1 None []); rewrite <- ?flat_cut; [exact (v_pair _ _ _ _ _ _ _ _ _ V)|discriminate|exact A1| |exact A2|];
        rewrite (FD m LM), NI; lia. }
  rewrite EB. cbn [bind].
  assert (NI := n_ext _ _ _ _ N).
  destruct (resolve_ok T labels (flat_map snd tbs) bs) as (hs & EH & R).
  { intros x J. destruct (ext_in _ _ _ NI J) as [J'|(k & ->)]; [now apply (v_fits _ _ _ _ _ _ _ _ _ V)|exact Logic.I]. }
  { intros x n J TN. destruct (ext_in _ _ _ NI J) as [J'|(k & ->)]; [|contradiction].
    destruct (v_targets _ _ _ _ _ _ _ _ _ V x n J' TN) as (y & Jy & Ny). eapply LK; eassumption. }
  { intros id t la d J. destruct (ext_in _ _ _ NI J) as [J'|(k & ?)]; [|discriminate]. eapply (v_known _ _ _ _ _ _ _ _ _ V); eassumption. }
  rewrite EH. cbn [bind]. exists (mkG (copy_attr (b_meta b)) (b_argnames b) hs (seq 0 (length hs)) (map (fun n => (n, Z.of_nat n)) (seq 0 (length hs)))), (dget Nat.eqb labels).
  split; [reflexivity|]. cbn [g_heap g_order g_meta g_argnames].
  assert (RF := Forall2_flat _ _ _ R).
  assert (LH : length hs = S (length done)).
  { rewrite <- (Forall2_len _ _ _ R), <- (Forall2_len _ _ _ NI). exact LB. }
  assert (BLK : forall k h, nth_error hs k = Some h -> exists b0, nth_error bs0 k = Some b0 /\ k_next h = k_next b0
     /\ init_ok T (k_items h) = init_ok T (k_items b0)
     /\ match last_instr_of (k_items b0), last_instr_of (k_items h) with
        | None, None => True | Some i, Some j => i_op j = i_op i /\ i_name j = i_name i | _, _ => False end).
  { intros k h H. destruct (Forall2_nth _ _ _ _ _ R H) as (b1 & H1 & N1 & R1).
    destruct (Forall2_nth _ _ _ _ _ NI H1) as (b0 & H0 & N0 & ks & E0).
    exists b0. split; [exact H0|]. split; [congruence|]. split.
    - rewrite (res1_init T _ _ _ R1), E0. apply init_ok_ends.
    - assert (X := res1_last _ _ _ R1). rewrite E0, last_instr_ends in X. exact X. }
  split; [|split; [|auto]].
  2:{ intros id t la d J. destruct (Forall2_in2 _ _ _ _ RF J) as (y & Jy & Ry).
    destruct (ext_in _ _ _ NI Jy) as [J'|(k & ->)]; [|discriminate].
    destruct y as [i|n|z|id' t' la' d'|id']; cbn in Ry; try discriminate; [destruct Ry; discriminate|].
    destruct Ry as (n & k & -> & D & E). injection E as -> -> -> ->.
    destruct (v_depth _ _ _ _ _ _ _ _ _ V id' _ la' d' J') as (id2 & d2 & Q & QD). eauto. }
  constructor.
  - intros ->. discriminate.
  - intros f f2 SA. rewrite (wg_res1 (dget Nat.eqb labels) f f2 (dd [] (flat bs)) (dd [] (flat hs)) SA).
    + rewrite (n_walk _ _ _ _ N). apply (v_walk _ _ _ _ _ _ _ _ _ V).
    + intros x J. assert (J2 : In x (flat bs)).
      { revert J. generalize (@nil nat). clear. induction (flat bs) as [|y r IH]; intros s J; [exact J|].
        destruct y; cbn in J; try (destruct J as [J|J]; [now left|right; eapply IH; eassumption]).
        destruct (nat_mem id s); [right; eapply IH; eassumption|]. destruct J as [J|J]; [now left|right; eapply IH; eassumption]. }
      destruct (ext_in _ _ _ NI J2) as [J'|(k & ->)]; [|exact Logic.I]. eapply fits_no_block. now apply (v_fits _ _ _ _ _ _ _ _ _ V).
    + now apply dd_res1.
  - rewrite (paired_res1 _ _ _ (dd_res1 _ _ _ RF [])). exact (n_pair _ _ _ _ N).
  - intros H. set (f2 := fun o => match o with OLabel n => match dget Nat.eqb labels n with Some k => k | None => 0%nat end | _ => 0%nat end).
    rewrite (trun_res1 (dget Nat.eqb labels) fblk f2 (dd [] (flat bs)) (dd [] (flat hs))).
    + rewrite (n_br _ _ _ _ N). destruct (v_br _ _ _ _ _ _ _ _ _ V f2 None H) as (u & TU & R0). rewrite TU.
      destruct u; [eauto|contradiction].
    + intros n k D. cbn. now rewrite D.
    + now apply dd_res1.
  - intros n k D. destruct (b_labels _ _ _ _ _ _ _ _ B n k D) as [LM (i & DI & EI)]. split; [lia|].
    rewrite position_last, <- PL', DI. cbn [option_map]. f_equal. rewrite <- EI, <- (FD k LM).
    assert (X1 := Forall2_firstn _ _ _ k R). apply Forall2_flat in X1. rewrite (res1_ninstrs _ _ _ X1).
    assert (X2 := Forall2_firstn _ _ _ k NI). apply ext_filter in X2. unfold ninstrs. now rewrite X2.
  - exact LK.
  - intros k h H L. destruct (BLK k h H) as (b0 & H0 & N0 & I0 & L0).
    assert (HD : nth_error done k = Some b0).
    { unfold bs0 in H0. rewrite nth_error_app1 in H0 by lia. exact H0. }
    destruct (b_sealed _ _ _ _ _ _ _ _ B k b0 HD) as (li & L1 & I1 & N1). rewrite L1 in L0.
    destruct (last_instr_of (k_items h)) as [li'|] eqn:LQ; [|contradiction]. destruct L0 as [O1 O2].
    exists li'. split; [exact LQ|]. split; [congruence|]. rewrite N0, N1. unfold is_final. now rewrite O2.
  - intros k h H. destruct (BLK k h H) as (b0 & H0 & N0 & I0 & L0). rewrite I0.
    destruct (Nat.ltb k (length done)) eqn:Q.
    + apply Nat.ltb_lt in Q. unfold bs0 in H0. rewrite nth_error_app1 in H0 by exact Q.
      destruct (b_sealed _ _ _ _ _ _ _ _ B k b0 H0) as (li & L1 & I1 & N1). exact I1.
    + apply Nat.ltb_ge in Q. unfold bs0 in H0. rewrite nth_error_app2 in H0 by exact Q.
      destruct (k - length done)%nat as [|j]; [|destruct j; discriminate]. injection H0 as <-. exact (b_init _ _ _ _ _ _ _ _ B).
  - intros h H. destruct (BLK _ h H) as (b0 & H0 & N0 & I0 & L0). rewrite LH in H0. cbn in H0.
    unfold bs0 in H0. rewrite nth_error_app2, Nat.sub_diag in H0 by lia. injection H0 as <-. exact N0.
  - intros x J. destruct (Forall2_in2 _ _ _ _ RF J) as (y & Jy & Ry).
    destruct (ext_in _ _ _ NI Jy) as [J'|(k & ->)]; [|cbn in Ry; subst x; exact Logic.I].
    assert (FY := v_fits _ _ _ _ _ _ _ _ _ V y J').
    destruct y as [i|n|z|id t la d|id]; cbn in Ry.
    + destruct Ry as [-> Ry]. cbn in FY |- *. unfold has_jump in *. cbn [i_op i_arg] in *. destruct (op_has_jump T (i_op i)).
      * destruct FY as (n & Q). rewrite Q. specialize (Ry n Q). destruct (dget Nat.eqb labels n) as [k|] eqn:D; [|congruence]. eauto.
      * intros n. destruct (i_arg i) eqn:Q; try apply FY. exfalso. destruct (FY n0). congruence.
    + subst x. destruct (v_nolab _ _ _ _ _ _ _ _ _ V n J').
    + subst x. exact Logic.I.
    + destruct Ry as (n & k & -> & D & ->). cbn. eauto.
    + subst x. exact Logic.I.
  - assert (X := res1_filter _ _ _ RF). rewrite (ext_filter _ _ NI), (v_ins _ _ _ _ _ _ _ _ _ V) in X. exact X.
Qed.
