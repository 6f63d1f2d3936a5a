(** Properties of assembled code, derived from the layout. *)
From Verif Require Import PyBase OpTable CPy M_Instr M_Tables M_Concrete M_Convert P_Base S_Args
  P_OpTable P_Asm S_Asm P_Conv P_Conv2 P_Jumps P_Jumps2 P_Layout P_Layout2 P_Try.
Open Scope string_scope.
Open Scope list_scope.
Open Scope Z_scope.

Lemma dget_nth {V} (d : list (nat * V)) n k x : NoDup (map fst d) -> nth_error d n = Some (k, x) ->
  dget Nat.eqb d k = Some x.
Proof.
  revert n. induction d as [|[a y] d IH]; intros n ND H; [now destruct n|]. cbn [dget].
  cbn in ND. apply NoDup_cons_iff in ND. destruct ND as [NI ND].
  destruct n as [|n]; cbn in H.
  - injection H as -> ->. now rewrite Nat.eqb_refl.
  - destruct (Nat.eqb_spec k a) as [->|]; [|eauto]. exfalso. apply NI. apply in_map_iff. exists (a, x).
    split; [reflexivity|]. eapply nth_error_In; eauto.
Qed.

Lemma py_index_nat {A} (l : list A) k x : nth_error l k = Some x -> py_index l (Z.of_nat k) = Ok x.
Proof.
  intros H. pose proof (nth_some_lt _ _ _ H). unfold py_index, zlen.
  destruct (Z.ltb_spec (Z.of_nat k) 0); [lia|].
  destruct (Z.leb_spec (Z.of_nat (length l)) (Z.of_nat k)); [lia|].
  destruct (Z.ltb_spec (Z.of_nat k) 0); [lia|]. cbn. now rewrite Nat2Z.id, H.
Qed.

Lemma in_units_mono v a b : a <= b -> in_units v a <= in_units v b.
Proof. destruct v; cbn; intros; try lia; apply Z.div_le_mono; lia. Qed.

Lemma executed_S v cs k c : nth_error cs k = Some c -> pos c ->
  executed_at v cs k = offset_of v cs (S k) - in_units v 2.
Proof.
  intros H [P1 P2]. unfold executed_at. rewrite H, (offset_of_S v cs k c H).
  assert (c_size c = 2 * (c_size c / 2)) by zdm. destruct v; cbn; lia || (rewrite H0; zdm).
Qed.

Lemma offset_strict v cs j k : Forall pos cs -> (j < k)%nat -> (k <= length cs)%nat ->
  offset_of v cs j < offset_of v cs k.
Proof.
  intros P L Lk. induction k as [|k IH]; [lia|].
  destruct (nth_error cs k) as [c|] eqn:E; [|apply nth_error_None in E; lia].
  rewrite (offset_of_S v cs k c E). rewrite Forall_forall in P.
  destruct (P c (nth_error_In _ _ E)) as [P1 P2].
  assert (0 < in_units v (c_size c)). { destruct v; cbn; try lia; zdm. }
  destruct (Nat.eq_dec j k) as [->|]; [lia|]. specialize (IH ltac:(lia) ltac:(lia)). lia.
Qed.

Lemma executed_le v cs j k : Forall pos cs -> (j < length cs)%nat -> (k < length cs)%nat ->
  (executed_at v cs j <= executed_at v cs k <-> (j <= k)%nat).
Proof.
  intros P Lj Lk.
  destruct (nth_error cs j) as [c|] eqn:E; [|apply nth_error_None in E; lia].
  destruct (nth_error cs k) as [d|] eqn:F; [|apply nth_error_None in F; lia].
  pose proof P as P'. rewrite Forall_forall in P'.
  rewrite (executed_S v cs j c E), (executed_S v cs k d F) by (eapply P', nth_error_In; eauto).
  destruct (Nat.lt_trichotomy j k) as [L|[->|L]].
  - pose proof (offset_strict v cs (S j) (S k) P ltac:(lia) ltac:(lia)). split; lia.
  - split; lia.
  - pose proof (offset_strict v cs (S k) (S j) P ltac:(lia) ltac:(lia)). split; lia.
Qed.

Section S.
  Variables (v : pyver) (T : optable) (keq : pyobj -> pyobj -> bool).
  Hypothesis wf : wf_optable v T = true.

  Lemma dget_label b cb vn K0 gs0 Kf gs en l ti : assembled v T keq b cb vn K0 gs0 Kf gs en ->
    dget Nat.eqb (k_labels Kf) l = Some ti ->
    exists q, label_position l (b_items b) q /\ ti = instrs_before gs q.
  Proof.
    intros A D. destruct (as_K0 _ _ _ _ _ _ _ _ _ _ _ A) as [tr E].
    destruct (trace_labels _ _ _ _ _ _ _ _ (as_trace _ _ _ _ _ _ _ _ _ _ _ A) l) as [L1 L2].
    destruct (last_label_dec l (b_items b)) as [(q & Hq)|N].
    - exists q. split; [exact Hq|]. rewrite (L1 _ Hq), E in D. injection D as <-. cbn.
      symmetry. apply start_lengths. apply A.
    - rewrite (L2 N), E in D. discriminate.
  Qed.

  Lemma label_dget b cb vn K0 gs0 Kf gs en l q : assembled v T keq b cb vn K0 gs0 Kf gs en ->
    label_position l (b_items b) q -> dget Nat.eqb (k_labels Kf) l = Some (instrs_before gs q).
  Proof.
    intros A Hq. destruct (as_K0 _ _ _ _ _ _ _ _ _ _ _ A) as [tr E].
    destruct (trace_labels _ _ _ _ _ _ _ _ (as_trace _ _ _ _ _ _ _ _ _ _ _ A) l) as [L1 L2].
    rewrite (L1 _ Hq), E. cbn. f_equal. symmetry. apply start_lengths. apply A.
  Qed.

  Lemma label_position_unique l items q q' : label_position l items q -> label_position l items q' -> q = q'.
  Proof.
    intros [A1 A2] [B1 B2]. destruct (Nat.lt_trichotomy q q') as [L|[->|L]]; [|reflexivity|].
    - now apply A2 in B1.
    - now apply B2 in A1.
  Qed.

  Lemma in_jumps b cb vn K0 gs0 Kf gs en k l : assembled v T keq b cb vn K0 gs0 Kf gs en ->
    In (k, l) (k_jumps Kf) <->
    exists p i, nth_error (b_items b) p = Some (BI i) /\ i_arg i = OLabel l /\ k = instrs_before gs p.
  Proof.
    intros A. destruct (as_K0 _ _ _ _ _ _ _ _ _ _ _ A) as [tr E].
    rewrite (jumps_In v T keq _ _ _ _ _ (as_trace _ _ _ _ _ _ _ _ _ _ _ A)) by now rewrite E.
    change (instrs_before gs) with (start gs).
    split; intros (p & i & H1 & H2 & ->); exists p, i; repeat split; auto;
      [symmetry|]; apply start_lengths; apply A.
  Qed.

  Lemma opmap_of_legal items : (forall i, In (BI i) items -> legal_instr v T i) ->
    forall i, In (BI i) items -> opmap T (i_name i) = Some (i_op i).
  Proof. intros H i I. apply (H i I). Qed.

  Lemma pos_gs b cb vn K0 gs0 Kf gs en : assembled v T keq b cb vn K0 gs0 Kf gs en ->
    Forall pos (concat gs).
  Proof.
    intros A. eapply Forall_impl; [|apply (as_made _ _ _ _ _ _ _ _ _ _ _ A)]. intros c. now apply made_pos.
  Qed.

  Theorem labels_resolve b cb vn K0 gs0 Kf gs en p i l : assembled v T keq b cb vn K0 gs0 Kf gs en ->
    (forall i, In (BI i) (b_items b) -> legal_instr v T i) ->
    nth_error (b_items b) p = Some (BI i) -> i_arg i = OLabel l ->
    exists q c rest, label_position l (b_items b) q
      /\ nth_error gs p = Some (c :: rest) /\ c_name c = i_name i /\ c_op c = i_op i
      /\ jumps_to v T c (offset_of v (concat gs) (instrs_before gs p))
         = offset_of v (concat gs) (instrs_before gs q).
  Proof.
    intros A HL Hp Ea.
    assert (J : In (instrs_before gs p, l) (k_jumps Kf)) by (apply (in_jumps _ _ _ _ _ _ _ _ _ _ A); eauto).
    destruct (as_jump _ _ _ _ _ _ _ _ _ _ _ A _ _ J) as (ti & c & D1 & D2 & D3 & D4).
    destruct (dget_label _ _ _ _ _ _ _ _ _ _ A D1) as (q & Hq & ->).
    destruct (assembled_laid v T keq wf _ _ _ _ _ _ _ _ A (opmap_of_legal _ HL)) as [_ LO].
    apply laid_nth in LO. destruct LO as [LL LO].
    destruct (nth_same_length (b_items b) gs p _ (eq_sym LL) Hp) as (g & Hg).
    specialize (LO _ _ _ Hp Hg). cbn [produced] in LO. destruct LO as (before & c' & Eg & Q).
    assert (DU : is_dual v T (i_op i) = true -> False).
    { intros D. destruct (HL i (nth_error_In _ _ Hp)) as (_ & _ & _ & DA). rewrite Ea in DA.
      destruct (HL i (nth_error_In _ _ Hp)) as (O1 & O2 & _).
      pose proof (dual_no_jump v T wf _ _ O1 O2 D) as NJ. unfold op_has_jump in NJ.
      apply orb_false_iff in NJ. destruct NJ as [J1 J2].
      assert (JJ : S_Args.jumps T (i_op i)).
      { inversion DA; subst; try assumption; exfalso;
          try (match goal with H : forall n, OLabel _ <> OLabel n |- _ => now apply (H l) end); discriminate. }
      destruct JJ as [I|I]; apply z_mem_In in I; congruence. }
    destruct Q as [(-> & Q1 & Q2)|(c1 & _ & D & _)]; [|now destruct (DU D)].
    cbn [app] in Eg. subst g.
    assert (c = c').
    { pose proof (nth_concat gs p _ 0 Hg ltac:(cbn; lia)) as X. rewrite Nat.add_0_r in X.
      change (start gs p) with (instrs_before gs p) in X. rewrite D3 in X. now injection X. }
    subst c'. eauto 10.
  Qed.

  (** *** Minimal sizes *)
  Lemma asize_fits a k : 0 <= a < 256 ^ k -> 1 <= k -> asize a <= 2 * k.
  Proof.
    intros H K. destruct (asize_digits a) as (k' & -> & _ & _ & M); [lia|]. specialize (M k K (proj2 H)). lia.
  Qed.

  Theorem minimal_sizes b cb vn K0 gs0 Kf gs en es : assembled v T keq b cb vn K0 gs0 Kf gs en ->
    encodes v T (b_items b) gs es ->
    forall k c e, nth_error (concat gs) k = Some c -> nth_error es k = Some e -> c_size c <= c_size e.
  Proof.
    intros A (L & E1 & E2). apply (as_least _ _ _ _ _ _ _ _ _ _ _ A); [|exact L| |].
    - apply Forall_forall. intros e He. apply In_nth_error in He. destruct He as (k & He).
      destruct (nth_same_length es (concat gs) k e L He) as (c & Hc).
      destruct (E1 _ _ _ Hc He) as (_ & _ & B1 & B2 & _). now split.
    - intros k c e Hc He. destruct (E1 _ _ _ Hc He) as (B1 & B2 & _ & _ & B3).
      split; [congruence|]. split; [congruence|]. intros N. apply B3. intros p i l Hp Ha ->. apply N.
      apply in_map_iff. exists (instrs_before gs p, l). split; [reflexivity|].
      apply (in_jumps _ _ _ _ _ _ _ _ _ _ A). eauto.
    - intros k l ti x J D Hx. apply (in_jumps _ _ _ _ _ _ _ _ _ _ A) in J. destruct J as (p & i & Hp & Ha & ->).
      destruct (dget_label _ _ _ _ _ _ _ _ _ _ A D) as (q & Hq & ->).
      destruct (E2 _ _ _ _ _ Hp Ha Hq Hx) as (a & Ea & Ra & J).
      destruct (nth_same_length es (concat gs) _ x L Hx) as (c & Hc).
      destruct (E1 _ _ _ Hc Hx) as (_ & _ & B1 & B2 & _).
      assert (X : jarg v T x (offset_of v es (instrs_before gs p)) (offset_of v es (instrs_before gs q)) = a).
      { unfold jumps_to in J. rewrite Ea in J.
        unfold jarg, is_forward_rel_jump, is_backward_rel_jump, in_HASJREL, use_cache_opcodes.
        rewrite !units_in. destruct (z_mem (c_op x) (t_hasjrel T)); cbn [andb] in *; [|congruence].
        destruct (str_contains "BACKWARD" (c_name x)); cbn [negb andb] in *; lia. }
      rewrite X. split; [lia|]. pose proof (asize_fits a (c_size x / 2) Ra ltac:(zdm)). zdm.
  Qed.

  Lemma encodes_self b cb vn K0 gs0 Kf gs en : assembled v T keq b cb vn K0 gs0 Kf gs en ->
    (forall i, In (BI i) (b_items b) -> legal_instr v T i) ->
    encodes v T (b_items b) gs (concat gs).
  Proof.
    intros A HL. split; [reflexivity|]. split.
    - intros k c e Hc He. rewrite Hc in He. injection He as <-.
      pose proof (pos_gs _ _ _ _ _ _ _ _ A) as P. rewrite Forall_forall in P.
      destruct (P c (nth_error_In _ _ Hc)). repeat split; auto. lia.
    - intros p i l q e Hp Ha Hq He.
      destruct (labels_resolve _ _ _ _ _ _ _ _ _ _ _ A HL Hp Ha) as (q' & c & rest & Hq' & Hg & _ & OP & J).
      rewrite <- (label_position_unique _ _ _ _ Hq Hq') in J.
      pose proof (nth_concat gs p _ 0 Hg ltac:(cbn; lia)) as X. rewrite Nat.add_0_r in X.
      change (start gs p) with (instrs_before gs p) in X. rewrite He in X. cbn in X. injection X as <-.
      assert (M : made v T e).
      { pose proof (as_made _ _ _ _ _ _ _ _ _ _ _ A) as M. rewrite Forall_forall in M. apply M. eapply nth_error_In; eauto. }
      destruct M as [V X]. pose proof (assemble_size_auto v T wf e V X) as (_ & k & S & D1 & D2 & _).
      assert (SA : exists a, c_arg e = Some a).
      { assert (JJ : In (instrs_before gs p, l) (k_jumps Kf)) by (apply (in_jumps _ _ _ _ _ _ _ _ _ _ A); eauto).
        destruct (HL i (nth_error_In _ _ Hp)) as (O1 & O2 & _ & DA). rewrite Ha in DA.
        assert (J2 : S_Args.jumps T (i_op i)).
        { inversion DA; subst; try assumption; exfalso;
            try (match goal with H : forall n, OLabel _ <> OLabel n |- _ => now apply (H l) end); discriminate. }
        destruct (c_arg e) as [a|] eqn:Ea; [eauto|]. exfalso.
        pose proof (vc_arg _ _ _ V) as VA. rewrite Ea in VA.
        assert (JO : op_has_jump T (i_op i) = true).
        { unfold op_has_jump. apply orb_true_iff. destruct J2 as [I|I]; apply z_mem_In in I; auto. }
        destruct (wf_base v T wf _ _ O1 O2) as (_ & W & _). rewrite JO in W. cbn in W. congruence. }
      destruct SA as (a & SA). rewrite SA in D2. exists a. split; [exact SA|]. split; [|exact J].
      pose proof (vc_arg _ _ _ V) as VA. rewrite SA in VA. rewrite S. split; [lia|].
      replace (2 * k / 2) with k by zdm. exact D2.
  Qed.

  (** *** Locations *)
  Lemma fold_in_force first items : forall p, (p < length items)%nat ->
    in_force first items p (fold_left next_loc (firstn (S p) items) (line_loc (Some first))).
  Proof.
    induction p as [|p IH]; intros L.
    - destruct items as [|it items]; [cbn in L; lia|]. cbn [firstn fold_left].
      destruct it; cbn [next_loc];
        try (right; split; [|reflexivity]; intros r Hr; assert (r = 0%nat) by lia; subst; reflexivity).
      + destruct (i_loc i) as [l|] eqn:El.
        * left. exists 0%nat. split; [lia|]. split; [exact El|]. intros; lia.
        * right. split; [|reflexivity]. intros r Hr. assert (r = 0%nat) by lia. subst. exact El.
      + left. exists 0%nat. split; [lia|]. split; [reflexivity|]. intros; lia.
    - specialize (IH ltac:(lia)).
      destruct (nth_error items (S p)) as [it|] eqn:E; [|apply nth_error_None in E; lia].
      assert (F : firstn (S (S p)) items = firstn (S p) items ++ [it]).
      { clear -E. revert E. generalize (S p). clear p. induction items as [|x items IHi]; intros [|n] E; try discriminate.
        - injection E as ->. reflexivity.
        - cbn in E. change (firstn (S (S n)) (x :: items)) with (x :: firstn (S n) items).
          rewrite (IHi n E). reflexivity. }
      rewrite F, fold_left_app. cbn [fold_left]. set (lo := fold_left next_loc (firstn (S p) items) _) in *.
      assert (KEEP : sets_location (Some it) = None -> in_force first items (S p) lo).
      { intros N. destruct IH as [(r & R1 & R2 & R3)|[R1 R2]].
        - left. exists r. split; [lia|]. split; [exact R2|]. intros r' H.
          destruct (Nat.eq_dec r' (S p)) as [->|]; [now rewrite E|]. apply R3. lia.
        - right. split; [|exact R2]. intros r H.
          destruct (Nat.eq_dec r (S p)) as [->|]; [now rewrite E|]. apply R1. lia. }
      assert (NEW : forall l, sets_location (Some it) = Some l -> in_force first items (S p) l).
      { intros l N. left. exists (S p). split; [lia|]. split; [now rewrite E|]. intros; lia. }
      destruct it; cbn [next_loc]; try (apply KEEP; reflexivity).
      + destruct (i_loc i) as [l|] eqn:El; [apply NEW|apply KEEP]; exact El.
      + apply NEW. reflexivity.
  Qed.

  Lemma loc_fold b cb vn K0 gs0 Kf gs en p i c : assembled v T keq b cb vn K0 gs0 Kf gs en ->
    (forall i, In (BI i) (b_items b) -> legal_instr v T i) ->
    nth_error (b_items b) p = Some (BI i) -> (exists g, nth_error gs p = Some g /\ In c g) ->
    c_loc c = Some (fold_left next_loc (firstn (S p) (b_items b)) (line_loc (Some (m_first_lineno (b_meta b))))).
  Proof.
    intros A HL Hp (g & Hg & Ic). destruct (as_K0 _ _ _ _ _ _ _ _ _ _ _ A) as [tr E].
    destruct (trace_nth_loc _ _ _ _ _ _ _ _ (as_trace _ _ _ _ _ _ _ _ _ _ _ A) p i Hp)
      as (body & caches & K1 & K2 & G & He & NE & F).
    rewrite E in F. cbn [k_loc] in F.
    destruct (assembled_laid v T keq wf _ _ _ _ _ _ _ _ A (opmap_of_legal _ HL)) as [_ LO].
    apply laid_nth in LO. destruct LO as [LL LO]. specialize (LO _ _ _ Hp Hg). cbn [produced] in LO.
    destruct LO as (before & c' & Eg & Q).
    destruct g as [|x g]; [destruct Ic|].
    assert (X : c_loc x = Some (fold_left next_loc (firstn (S p) (b_items b)) (line_loc (Some (m_first_lineno (b_meta b)))))).
    { destruct body as [|y body]; [congruence|].
      pose proof (nth_group _ _ _ 0%nat y G eq_refl) as N. 
      destruct (as_same _ _ _ _ _ _ _ _ _ _ _ A _ _ N) as (x' & N1 & _ & _ & N2).
      rewrite <- (start_lengths gs0 gs p (as_len _ _ _ _ _ _ _ _ _ _ _ A)) in N1.
      rewrite (nth_concat gs p _ 0 Hg) in N1 by (cbn; lia). cbn in N1. injection N1 as <-.
      rewrite N2. now inversion F. }
    assert (Y : c_loc c = c_loc x).
    { destruct Q as [(-> & _)|(c1 & -> & _ & _ & Q)]; cbn [app] in Eg; injection Eg as <- Eg; subst g.
      - destruct Ic as [<-|Ic]; [reflexivity|]. destruct (explicit_cache _); [destruct Ic|].
        apply repeat_spec in Ic. subst c. reflexivity.
      - destruct Ic as [<-|[<-|Ic]]; [reflexivity|congruence|]. destruct (explicit_cache _); [destruct Ic|].
        apply repeat_spec in Ic. subst c. cbn. congruence. }
    congruence.
  Qed.

  Theorem locations_in_force b cb vn K0 gs0 Kf gs en p i c : assembled v T keq b cb vn K0 gs0 Kf gs en ->
    (forall i, In (BI i) (b_items b) -> legal_instr v T i) ->
    nth_error (b_items b) p = Some (BI i) -> (exists g, nth_error gs p = Some g /\ In c g) ->
    exists l, c_loc c = Some l /\ in_force (m_first_lineno (b_meta b)) (b_items b) p l.
  Proof.
    intros A HL Hp Hg. eexists. split; [eapply loc_fold; eauto|]. apply fold_in_force. eapply nth_some_lt; eauto.
  Qed.

  (** *** Caches *)
  Lemma single_names op n1 n2 : dual_single_ops v T op = Some (n1, n2) ->
    PY313 v = true /\ In n1 ["LOAD_FAST"; "STORE_FAST"] /\ In n2 ["LOAD_FAST"; "STORE_FAST"].
  Proof.
    unfold dual_single_ops. destruct (PY313 v); [|discriminate]. cbn [negb].
    repeat match goal with |- context [if ?b then _ else _] => destruct b end; intros H; try discriminate;
      injection H as <- <-; cbn; auto.
  Qed.

  Theorem caches_complete b cb vn K0 gs0 Kf gs en k : assembled v T keq b cb vn K0 gs0 Kf gs en ->
    (forall i, In (BI i) (b_items b) -> legal_instr v T i) -> no_cache (b_items b) ->
    caches_after v T (concat gs) k.
  Proof.
    intros A HL NC c Hc Nc n. subst n.
    destruct (assembled_laid v T keq wf _ _ _ _ _ _ _ _ A (opmap_of_legal _ HL)) as [_ LO].
    assert (FIRST : forall items gs', (forall i, In (BI i) items -> i_name i <> "CACHE") -> laid_out v T items gs' ->
      forall d r, concat gs' = d :: r -> c_name d <> "CACHE").
    { induction 2 as [|it items' g gs' P L IH]; intros d r Er; [discriminate|].
      assert (IHn : forall i, In (BI i) items' -> i_name i <> "CACHE") by (intros i I; apply H; now right).
      destruct it; cbn [produced] in P; try (subst g; cbn [concat app] in Er; eauto).
      destruct P as (before & c' & -> & Q).
      destruct Q as [(-> & Q1 & Q2)|(c1 & -> & Q1 & Q2 & Q3)]; cbn [concat app] in Er; injection Er as <- _.
      - rewrite Q1. apply H. now left.
      - apply single_names in Q2. destruct Q2 as (_ & [<-|[<-|[]]] & _); discriminate. }
    assert (AO : forall c, In c (concat gs) -> opmap T (c_name c) = Some (c_op c)).
    { intros x Ix. pose proof (as_made _ _ _ _ _ _ _ _ _ _ _ A) as M. rewrite Forall_forall in M.
      destruct (M x Ix) as [V _]. apply V. }
    clear A. unfold no_cache in NC. revert k Hc AO.
    induction LO as [|it items g gs P L IH]; intros k Hc AO; [destruct k; discriminate|].
    assert (NC' : forall i, In (BI i) items -> i_name i <> "CACHE") by (intros i I; apply NC; now right).
    assert (HL' : forall i, In (BI i) items -> legal_instr v T i) by (intros i I; apply HL; now right).
    specialize (IH HL' NC').
    assert (LATE : (length g <= k)%nat ->
       (forall j, (j < Z.to_nat (cache_entries v T (c_name c) (c_op c)))%nat ->
          nth_error (concat (g :: gs)) (S k + j) = Some (cache_at (c_loc c)))
       /\ (forall d, nth_error (concat (g :: gs)) (S k + Z.to_nat (cache_entries v T (c_name c) (c_op c))) = Some d ->
          c_name d <> "CACHE")).
    { intros Lk. cbn [concat] in *. rewrite nth_error_app2 in Hc by lia.
      destruct (IH (k - length g)%nat Hc) as [I1 I2]; [intros x Ix; apply AO; apply in_app_iff; now right|].
      split.
      - intros j Hj. rewrite nth_error_app2 by lia. rewrite <- (I1 j Hj). f_equal. lia.
      - intros d. rewrite nth_error_app2 by lia. intros Hd. apply I2. rewrite <- Hd. f_equal. lia. }
    destruct (le_lt_dec (length g) k) as [Lk|Lk]; [exact (LATE Lk)|].
    destruct it; cbn [produced] in P; try (subst g; cbn in Lk; lia).
    destruct P as (before & c' & Eg & Q).
    assert (EX : explicit_cache (hd_error items) = false).
    { destruct items as [|it' items]; [reflexivity|]. destruct it'; try reflexivity. cbn.
      destruct (String.eqb_spec (i_name i0) "CACHE") as [E|]; [|reflexivity]. exfalso.
      apply (NC' i0); [now left|exact E]. }
    rewrite EX in Eg.
    set (nc := Z.to_nat (cache_entries v T (c_name c') (c_op c'))) in *.
    assert (NX : forall m' d, nth_error (concat gs) m' = Some d -> m' = 0%nat -> c_name d <> "CACHE").
    { intros m' d Hd ->. destruct (concat gs) as [|d' r] eqn:Ec; [discriminate|]. injection Hd as <-.
      eapply FIRST; eauto. }
    assert (MAIN : k = length before -> c = c' /\
       (forall j, (j < nc)%nat -> nth_error (concat (g :: gs)) (S k + j) = Some (cache_at (c_loc c')))
       /\ (forall d, nth_error (concat (g :: gs)) (S k + nc) = Some d -> c_name d <> "CACHE")).
    { intros ->. cbn [concat] in *. subst g.
      split; [|split].
      - rewrite <- app_assoc, nth_error_app2, Nat.sub_diag in Hc by lia. cbn in Hc. congruence.
      - intros j Hj. rewrite <- app_assoc, nth_error_app2 by lia. cbn [app].
        replace (S (length before) + j - length before)%nat with (S j) by lia. cbn [nth_error].
        rewrite nth_error_app1 by (rewrite repeat_length; lia). now apply nth_error_repeat.
      - intros d. rewrite <- app_assoc, nth_error_app2 by lia. cbn [app].
        replace (S (length before) + nc - length before)%nat with (S nc) by lia. cbn [nth_error].
        rewrite nth_error_app2 by (rewrite repeat_length; lia). rewrite repeat_length, Nat.sub_diag.
        intros Hd. eapply NX; eauto. }
    assert (CACHE : (length before < k)%nat -> False).
    { intros H. cbn [concat] in Hc. rewrite nth_error_app1 in Hc by lia. subst g.
      rewrite nth_error_app2 in Hc by lia.
      destruct (k - length before)%nat as [|j] eqn:Ej; [lia|]. cbn [nth_error] in Hc.
      apply nth_error_In, repeat_spec in Hc. subst c. now apply Nc. }
    destruct Q as [(-> & Q1 & Q2)|(c1 & -> & Q1 & Q2 & Q3)].
    - destruct k as [|k]; [|exfalso; apply CACHE; cbn; lia].
      destruct MAIN as (-> & M1 & M2); [reflexivity|]. now split.
    - destruct k as [|[|k]]; [| |exfalso; apply CACHE; cbn; lia].
      + cbn [concat] in Hc, AO |- *. subst g. cbn in Hc. injection Hc as <-.
        apply single_names in Q2. destruct Q2 as (P3 & I1 & I2).
        destruct (wf_singles v T wf _ P3 I1) as (o & O1 & _ & _ & _ & O2).
        assert (opmap T (c_name c1) = Some (c_op c1)) as O3 by (apply AO; cbn; now left).
        assert (o = c_op c1) by congruence. subst o. rewrite O2. cbn. split; [intros; lia|].
        intros d Hd. injection Hd as <-. destruct I2 as [<-|[<-|[]]]; discriminate.
      + destruct MAIN as (-> & M1 & M2); [reflexivity|]. now split.
  Qed.

  (** *** Try ranges *)
  Lemma unique_tb items : NoDup (tb_ids items) -> forall p q id t la d t' la' d',
    nth_error items p = Some (BTB id t la d) -> nth_error items q = Some (BTB id t' la' d') -> p = q.
  Proof.
    intros ND.
    assert (IN : forall items p id t la d, nth_error items p = Some (BTB id t la d) -> In id (tb_ids items)).
    { intros its p id t la d H. apply in_flat_map. exists (BTB id t la d). split; [eapply nth_error_In; eauto|now left]. }
    induction items as [|it items IH]; intros p q id t la d t' la' d' Hp Hq; [destruct p; discriminate|].
    cbn [tb_ids flat_map] in ND. fold (tb_ids items) in ND.
    assert (ND' : NoDup (tb_ids items)).
    { destruct it; cbn in ND; auto. now inversion ND. }
    destruct p as [|p], q as [|q]; cbn in Hp, Hq; auto.
    - injection Hp as ->. cbn in ND. inversion ND as [|? ? N _]. exfalso. eauto.
    - injection Hq as ->. cbn in ND. inversion ND as [|? ? N _]. exfalso. eauto.
    - f_equal. eapply IH; eauto.
  Qed.

  Theorem try_entries b cb vn K0 gs0 Kf gs en : assembled v T keq b cb vn K0 gs0 Kf gs en ->
    proper_try (b_items b) ->
    length en = length (tb_ids (b_items b))
    /\ forall n id p q t la d, nth_error (tb_ids (b_items b)) n = Some id ->
      nth_error (b_items b) p = Some (BTB id t la d) -> nth_error (b_items b) q = Some (BTE id) ->
      exists e l ql, nth_error en n = Some e /\ t = OLabel l /\ label_position l (b_items b) ql
        /\ e_target e = offset_of v (concat gs) (instrs_before gs ql)
        /\ d = Some (e_depth e) /\ e_lasti e = la
        /\ (instrs_before gs p < instrs_before gs q)%nat
        /\ e_start e = executed_at v (concat gs) (instrs_before gs p)
        /\ e_stop e = executed_at v (concat gs) (instrs_before gs q - 1)
        /\ forall k, (k < length (concat gs))%nat ->
             (e_start e <= executed_at v (concat gs) k <= e_stop e
              <-> (instrs_before gs p <= k < instrs_before gs q)%nat).
  Proof.
    intros A [ND PT]. destruct (as_K0 _ _ _ _ _ _ _ _ _ _ _ A) as [tr E].
    pose proof (as_trace _ _ _ _ _ _ _ _ _ _ _ A) as HT.
    pose proof (trace_ex_keys _ _ _ _ _ _ _ _ HT) as KE. rewrite E in KE. cbn [k_ex map app] in KE. specialize (KE ND).
    destruct (mapM_nth _ _ _ (as_entries _ _ _ _ _ _ _ _ _ _ _ A)) as [M1 M2].
    split. { rewrite M1, <- KE, map_length. reflexivity. }
    intros n id p q t la d Hn Hp Hq.
    destruct (PT _ _ _ _ _ Hp) as (q' & L & Hq' & Uq & r & i & Hr & Hi).
    assert (q = q') by (apply Uq; assumption). subst q'.
    destruct (trace_ex2 _ _ _ _ _ _ _ _ id p q t la d HT Hp) as (dep & Hd & Hx); auto.
    { intros p' t' la' d' H. eapply unique_tb; eauto. }
    rewrite E in Hx. cbn [k_instrs] in Hx. change (zlen (@nil cinstr)) with 0 in Hx.
    rewrite <- KE in Hn. rewrite nth_error_map in Hn.
    destruct (nth_error (k_ex Kf) n) as [[id' x]|] eqn:Ex; [|discriminate]. cbn in Hn. injection Hn as ->.
    assert (X : dget Nat.eqb (k_ex Kf) id = Some x) by (eapply dget_nth; [rewrite KE; exact ND|exact Ex]).
    rewrite Hx in X. injection X as <-.
    destruct (M2 _ _ Ex) as (e & He & Hf). cbn [snd] in Hf. unfold fix_entry in Hf.
    cbn [xi_start xi_stop xi_target xi_depth xi_lasti] in Hf.
    pose proof (pos_gs _ _ _ _ _ _ _ _ A) as PG.
    pose proof (start_lengths gs0 gs p (as_len _ _ _ _ _ _ _ _ _ _ _ A)) as Sp.
    pose proof (start_lengths gs0 gs q (as_len _ _ _ _ _ _ _ _ _ _ _ A)) as Sq.
    rewrite <- Sp, <- Sq in Hf.
    assert (SL : (start gs p < start gs q)%nat).
    { destruct (trace_nth _ _ _ _ _ _ _ _ HT _ _ Hi) as (? & bo & ? & ? & ? & ca & _ & G & _).
      pose proof (trace_nonempty _ _ _ _ _ _ _ _ _ _ _ HT Hi G) as X.
      pose proof (start_lt gs0 r q _ G ltac:(lia)) as Y. pose proof (start_mono gs0 p r ltac:(lia)).
      rewrite Sp, Sq. destruct (bo ++ ca); [congruence|]. cbn in Y. lia. }
    pose proof (start_le gs q) as LE.
    assert (NI : forall k, (k < length (concat gs))%nat ->
       nth_error (instruction_offsets v 0 (concat gs)) k = Some (executed_at v (concat gs) k)).
    { intros k Hk. destruct (nth_error (concat gs) k) as [c|] eqn:Ec; [|apply nth_error_None in Ec; lia].
      rewrite (instruction_offsets_nth v _ 0 k c Ec). unfold executed_at. rewrite Ec. f_equal. }
    apply bind_ok in Hf. destruct Hf as (s1 & F1 & Hf).
    apply bind_ok in Hf. destruct Hf as (s2 & F2 & Hf).
    apply bind_ok in Hf. destruct Hf as (l & F3 & Hf).
    apply bind_ok in Hf. destruct Hf as (ti & F4 & Hf).
    apply bind_ok in Hf. destruct Hf as (tg & F5 & Hf). injection Hf as <-.
    rewrite ?Z.add_0_l in F1, F2.
    rewrite (py_index_nat _ _ _ (NI (start gs p) ltac:(lia))) in F1. injection F1 as <-.
    replace (Z.of_nat (start gs q) - 1) with (Z.of_nat (start gs q - 1)) in F2 by lia.
    rewrite (py_index_nat _ _ _ (NI (start gs q - 1)%nat ltac:(lia))) in F2. injection F2 as <-.
    assert (T' : t = OLabel l) by (destruct t; try discriminate F3; injection F3 as ->; reflexivity).
    apply of_option_ok in F4. destruct (dget_label _ _ _ _ _ _ _ _ _ _ A F4) as (ql & Hql & ->).
    apply of_option_ok in F5. change (instrs_before gs ql) with (start gs ql) in F5.
    rewrite label_offsets_nth in F5 by apply start_le. injection F5 as <-.
    eexists _, l, ql. split; [exact He|]. split; [exact T'|]. split; [exact Hql|].
    cbn [e_target e_depth e_lasti e_start e_stop].
    split; [reflexivity|]. split; [exact Hd|]. split; [reflexivity|]. split; [exact SL|].
    split; [reflexivity|]. split; [reflexivity|].
    intros k Hk. change (instrs_before gs) with (start gs).
    rewrite (executed_le v _ (start gs p) k PG) by lia.
    rewrite (executed_le v _ k (start gs q - 1) PG) by lia. lia.
  Qed.

  Theorem try_ranges b cb vn K0 gs0 Kf gs en : assembled v T keq b cb vn K0 gs0 Kf gs en ->
    proper_try (b_items b) ->
    length en = length (tb_ids (b_items b))
    /\ forall n id p q t la d, nth_error (tb_ids (b_items b)) n = Some id ->
      nth_error (b_items b) p = Some (BTB id t la d) -> nth_error (b_items b) q = Some (BTE id) ->
      exists e l ql, nth_error en n = Some e /\ t = OLabel l /\ label_position l (b_items b) ql
        /\ e_target e = offset_of v (concat gs) (instrs_before gs ql)
        /\ d = Some (e_depth e) /\ e_lasti e = la
        /\ (instrs_before gs p < instrs_before gs q)%nat
        /\ forall k, (k < length (concat gs))%nat ->
             (e_start e <= executed_at v (concat gs) k <= e_stop e
              <-> (instrs_before gs p <= k < instrs_before gs q)%nat).
  Proof.
    intros A PT. destruct (try_entries _ _ _ _ _ _ _ _ A PT) as [L H]. split; [exact L|].
    intros n id p q t la d Hn Hp Hq. destruct (H n id p q t la d Hn Hp Hq) as (e & l & ql & H1 & H2 & H3 & H4 & H5 & H6 & H7 & _ & _ & H8).
    exists e, l, ql. auto 12.
  Qed.
End S.
