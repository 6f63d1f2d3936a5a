(** Arguments survive assembly: the assembled code. *)
From Verif Require Import PyBase OpTable CPy M_Instr M_Tables M_Concrete M_Convert P_Base S_Args
  P_OpTable P_Cat P_Asm S_Asm S_Slots P_Conv P_Conv2 P_Jumps P_Jumps2 P_Layout P_Layout2 P_AsmProps P_Args.
Open Scope string_scope.
Open Scope list_scope.
Open Scope Z_scope.

Lemma nth_ext_error {A} (a b : list A) : length a = length b ->
  (forall j, (j < length a)%nat -> nth_error a j = nth_error b j) -> a = b.
Proof.
  revert b. induction a as [|x a IH]; intros [|y b] L H; try discriminate; [reflexivity|].
  assert (E := H 0%nat ltac:(cbn; lia)). cbn in E. injection E as ->. f_equal.
  apply IH; [now injection L|]. intros j Hj. apply (H (S j)). cbn. lia.
Qed.

(** the index given to a name is its first one *)
Lemma str_index_le x l n : str_index x l = Some n -> forall k, nth_error l k = Some x -> (n <= k)%nat.
Proof.
  revert n. induction l as [|y l IH]; intros n H k N; [discriminate|]. cbn in H.
  destruct (String.eqb_spec x y) as [->|NE]; [injection H as <-; lia|].
  destruct (str_index x l) as [m|]; [|discriminate]. injection H as <-. destruct k as [|k]; cbn in N; [congruence|].
  specialize (IH m eq_refl k N). lia.
Qed.
Lemma add_name_low l x l' j l2 (n : nat) : add_name l x = (l', j) -> extends l' l2 -> In x (firstn n l2) -> j < Z.of_nat n.
Proof.
  unfold add_name. intros H E I. apply In_nth_error in I. destruct I as [k N].
  assert (K : (k < n)%nat /\ nth_error l2 k = Some x).
  { pose proof (nth_some_lt _ _ _ N) as L. rewrite firstn_length in L. split; [lia|].
    rewrite <- (firstn_skipn n l2), nth_error_app1; [exact N|]. rewrite firstn_length. lia. }
  clear N. destruct K as [K N]. destruct E as [l3 ->]. destruct (str_index x l) as [m|] eqn:S.
  - injection H as <- <-. destruct (le_lt_dec (length l) k) as [L|L].
    + apply str_index_nth in S. apply nth_some_lt in S. lia.
    + rewrite nth_error_app1 in N by assumption. pose proof (str_index_le _ _ _ S _ N). lia.
  - injection H as <- <-. apply str_index_none in S. unfold zlen. destruct (le_lt_dec (length l) k) as [L|L]; [lia|].
    exfalso. apply S. rewrite <- app_assoc, nth_error_app1 in N by assumption. eapply nth_error_In; eauto.
Qed.

Section A.
  Variables (v : pyver) (T : optable) (keq : pyobj -> pyobj -> bool).
  Hypothesis wf : wf_optable v T = true.

  Lemma step_at b cb vn K0 gs0 Kf gs en p i : assembled v T keq b cb vn K0 gs0 Kf gs en ->
    nth_error (b_items b) p = Some (BI i) ->
    exists K1 body K2 caches, nth_error gs0 p = Some (body ++ caches)
      /\ item_effect v T keq (b_meta b) K1 (BI i) body K2
      /\ extends (k_consts K2) (cb_consts cb) /\ extends (k_names K2) (cb_names cb)
      /\ extends (k_varnames K2) (cb_varnames cb)
      /\ extends vn (k_varnames K1).
  Proof.
    intros A Hp. pose proof (as_trace _ _ _ _ _ _ _ _ _ _ _ A) as HT.
    destruct (trace_nth _ _ _ _ _ _ _ _ HT _ _ Hp)
      as (K1 & body & K2 & tr & K3 & caches & _ & Hg & He & _ & _ & _ & T0 & T1 & _).
    exists K1, body, K2, caches. split; [exact Hg|]. split; [exact He|].
    rewrite (as_cb _ _ _ _ _ _ _ _ _ _ _ A). cbn [cb_consts cb_names cb_varnames].
    destruct T1 as (X1 & X2 & X3). repeat (split; [assumption|]).
    destruct T0 as (_ & _ & X). destruct (as_K0 _ _ _ _ _ _ _ _ _ _ _ A) as (tr0 & E). rewrite E in X. exact X.
  Qed.

  Lemma group_same b cb vn K0 gs0 Kf gs en p i g0 : assembled v T keq b cb vn K0 gs0 Kf gs en ->
    nth_error (b_items b) p = Some (BI i) -> nth_error gs0 p = Some g0 ->
    (forall l, i_arg i <> OLabel l) -> var_kind v T i = VNone ->
    nth_error gs p = Some g0.
  Proof.
    intros A Hp Hg0 NL VK. pose proof (as_trace _ _ _ _ _ _ _ _ _ _ _ A) as HT.
    destruct (as_K0 _ _ _ _ _ _ _ _ _ _ _ A) as (tr0 & E0).
    assert (N1 : k_instrs K0 = []) by (now rewrite E0). assert (N2 : k_jumps K0 = []) by (now rewrite E0).
    assert (N3 : k_cells K0 = []) by (now rewrite E0). assert (N4 : k_frees K0 = []) by (now rewrite E0).
    destruct (nth_lengths gs0 gs p g0 (as_len _ _ _ _ _ _ _ _ _ _ _ A) Hg0) as (g & Hg & Lg).
    rewrite Hg. f_equal. apply nth_ext_error; [exact Lg|]. intros j Hj.
    rewrite <- (nth_concat gs p g j Hg Hj), <- (nth_concat gs0 p g0 j Hg0) by lia.
    rewrite (start_lengths gs0 gs p (as_len _ _ _ _ _ _ _ _ _ _ _ A)).
    assert (ST : forall q i', nth_error (b_items b) q = Some (BI i') -> (start gs0 p + j)%nat = start gs0 q -> q = p).
    { intros q i' Hq E.
      pose proof (proj2 (trace_instrs _ _ _ _ _ _ _ _ HT)) as L0.
      destruct (nth_same_length (b_items b) gs0 q _ (eq_sym L0) Hq) as (gq & Hgq).
      pose proof (trace_nonempty _ _ _ _ _ _ _ _ _ _ _ HT Hq Hgq) as NE.
      destruct (start_inj gs0 p q g0 gq j 0 Hg0 Hgq) as [X _]; [lia| |lia|congruence].
      destruct gq; [congruence|cbn; lia]. }
    apply (as_other _ _ _ _ _ _ _ _ _ _ _ A).
    - intros I. apply in_map_iff in I. destruct I as ([k l] & E & I). cbn in E. subst k.
      apply (jumps_In v T keq _ _ _ _ _ HT N1 N2) in I. destruct I as (q & i' & Hq & EL & E).
      apply (ST q i' Hq) in E. subst q. rewrite Hp in Hq. injection Hq as <-. now apply (NL l).
    - intros I. apply (cells_In v T keq _ _ _ _ _ HT N1 N3) in I. destruct I as (q & i' & Hq & EL & E).
      apply (ST q i' Hq) in E. subst q. rewrite Hp in Hq. injection Hq as <-. congruence.
    - intros I. apply (frees_In v T keq _ _ _ _ _ HT N1 N4) in I. destruct I as (q & i' & Hq & EL & E).
      apply (ST q i' Hq) in E. subst q. rewrite Hp in Hq. injection Hq as <-. congruence.
  Qed.

  Lemma group_head b cb vn K0 gs0 Kf gs en p c0 r0 : assembled v T keq b cb vn K0 gs0 Kf gs en ->
    nth_error gs0 p = Some (c0 :: r0) ->
    exists c rest, nth_error gs p = Some (c :: rest) /\ nth_error (concat gs) (start gs0 p) = Some c
      /\ nth_error (concat gs0) (start gs0 p) = Some c0
      /\ c_name c = c_name c0 /\ c_op c = c_op c0.
  Proof.
    intros A H. pose proof (as_len _ _ _ _ _ _ _ _ _ _ _ A) as L.
    destruct (nth_lengths gs0 gs p _ L H) as (g & Hg & Lg). destruct g as [|c rest]; [discriminate|].
    exists c, rest. split; [exact Hg|].
    pose proof (nth_concat gs0 p _ 0 H ltac:(cbn; lia)) as X0.
    pose proof (nth_concat gs p _ 0 Hg ltac:(cbn; lia)) as X1.
    rewrite Nat.add_0_r in X0, X1. rewrite (start_lengths gs0 gs p L) in X1. cbn in X0, X1.
    split; [exact X1|]. split; [exact X0|].
    destruct (as_same _ _ _ _ _ _ _ _ _ _ _ A _ _ X0) as (c' & Y & Y1 & Y2 & _). rewrite X1 in Y. injection Y as <-.
    now split.
  Qed.

  Hypothesis keq_eq : forall x y, keq x y = true -> x = y.

  Theorem args_read b cb vn K0 gs0 Kf gs en p i : assembled v T keq b cb vn K0 gs0 Kf gs en ->
    nth_error (b_items b) p = Some (BI i) -> legal_instr v T i -> real_member v (i_arg i) ->
    (forall l, i_arg i <> OLabel l) -> is_dual v T (i_op i) = false ->
    exists c rest, nth_error gs p = Some (c :: rest) /\ c_name c = i_name i /\ c_op c = i_op i
      /\ reads v T cb (i_op i) (c_arg c) (i_arg i).
  Proof.
    intros A Hp (L1 & L2 & L3 & L4) RM NL ND.
    destruct (step_at _ _ _ _ _ _ _ _ _ _ A Hp) as (K1 & body & K2 & caches & Hg & He & X1 & X2 & X3 & _).
    cbn [item_effect] in He.
    destruct He as (co & na & va & first & name & arg & kind & c0 & E & Hc & Hb & E1 & E2 & E3 & _).
    rewrite E1 in X1. rewrite E2 in X2. rewrite E3 in X3.
    pose proof (category_of v T wf _ _ L1 L2) as C.
    pose proof (encode_kind v T keq _ _ _ _ _ _ _ _ _ _ E) as [VK _].
    destruct (encode_reads v T keq (b_meta b) wf keq_eq _ _ _ _ _ _ _ _ _ cb E C L4 NL ND RM X1 X2 X3)
      as (-> & -> & R). subst body.
    apply new_cinstr_ok in Hc. destruct Hc as (V & C1 & C2 & _ & _).
    assert (C3 : c_op c0 = i_op i).
    { pose proof (vc_op _ _ _ V) as O. rewrite C1, L1 in O. congruence. }
    cbn [app] in Hg.
    destruct (group_head _ _ _ _ _ _ _ _ _ _ _ A Hg) as (c & rest & G1 & G2 & G3 & G4 & G5).
    exists c, rest. split; [exact G1|]. split; [congruence|]. split; [congruence|].
    destruct (as_K0 _ _ _ _ _ _ _ _ _ _ _ A) as (tr0 & E0).
    assert (N1 : k_instrs K0 = []) by (now rewrite E0).
    assert (N3 : k_cells K0 = []) by (now rewrite E0). assert (N4 : k_frees K0 = []) by (now rewrite E0).
    pose proof (as_trace _ _ _ _ _ _ _ _ _ _ _ A) as HT.
    pose proof (as_cb _ _ _ _ _ _ _ _ _ _ _ A) as HCB.
    destruct kind.
    - rewrite (group_same _ _ _ _ _ _ _ _ _ _ _ A Hp Hg NL (eq_sym VK)) in G1. injection G1 as <- <-.
      now rewrite C2.
    - destruct R as (n & j & R1 & R2 & R3 & R4). subst arg.
      assert (IC : In (start gs0 p) (k_cells Kf)).
      { apply (cells_In v T keq _ _ _ _ _ HT N1 N3). exists p, i. auto. }
      destruct (as_cell _ _ _ _ _ _ _ _ _ _ _ A _ IC) as (d0 & d & D1 & D2 & D3).
      rewrite G3 in D1. injection D1 as <-. rewrite G2 in D2. injection D2 as <-.
      rewrite C2 in D3. cbn [carg_of is_unset as_int] in D3. rewrite R1.
      assert (CA : (PY311 v = true /\ exists a, c_arg c = Some a /\ frame_slot cb a (OCell n))
                   \/ (PY311 v = false /\ c_arg c = Some (Z.of_nat j))).
      { destruct (PY311 v).
        - left. split; [reflexivity|]. rewrite Nat2Z.id in D3. rewrite (shared_nth _ _ _ _ _ R3) in D3.
          eexists. split; [symmetry; exact D3|].
          destruct (str_index n (k_varnames Kf)) as [k|] eqn:ES.
          + apply fs_shared.
            * rewrite HCB. cbn. eapply nth_error_In; eauto.
            * rewrite HCB. cbn. split; [lia|]. rewrite Nat2Z.id. now apply str_index_nth.
          + rewrite Z.add_0_r.
            replace (k_varnames Kf) with (cb_varnames cb) by (rewrite HCB; reflexivity).
            apply fs_cell. split; [apply zlen_nonneg|]. unfold zlen. rewrite Nat2Z.id.
            rewrite HCB. cbn [cb_varnames cb_meta]. unfold unshared. apply filter_firstn; [exact R3|].
            destruct (str_mem n (k_varnames Kf)) eqn:X; [|reflexivity].
            apply str_mem_In in X. apply str_index_none in ES. tauto.
        - right. split; [reflexivity|]. rewrite D3. exact C2. }
      destruct CA as [(P & a & CA & FS)|(P & CA)].
      + rewrite CA. destruct R4 as [R4|[P3 R4]].
        * apply rd_deref; [exact R4|]. split; [discriminate|]. rewrite P. exact FS.
        * apply rd_local; [exact R4|exact ND|]. split; [exact FS|]. left. exact P3.
      + rewrite CA. destruct R4 as [R4|[P3 R4]].
        * apply rd_deref; [exact R4|]. split; [discriminate|]. rewrite P. apply od_cell.
          rewrite HCB. cbn. split; [lia|]. now rewrite Nat2Z.id.
        * exfalso. revert P P3. unfold PY311, PY313. destruct v; cbn; discriminate.
    - destruct R as (n & j & R1 & R2 & R3 & R4). subst arg.
      assert (IC : In (start gs0 p) (k_frees Kf)).
      { apply (frees_In v T keq _ _ _ _ _ HT N1 N4). exists p, i. auto. }
      destruct (as_free _ _ _ _ _ _ _ _ _ _ _ A _ IC) as (d0 & d & D1 & D2 & D3).
      rewrite G3 in D1. injection D1 as <-. rewrite G2 in D2. injection D2 as <-.
      rewrite C2 in D3. cbn [carg_of is_unset as_int] in D3. rewrite R1, D3.
      assert (AJ : at_ (m_freevars (cb_meta cb)) (Z.of_nat j) n).
      { rewrite HCB. cbn. split; [lia|]. now rewrite Nat2Z.id. }
      assert (FS : PY311 v = true -> frame_slot cb (Z.of_nat j + (zlen (k_varnames Kf) + zlen (m_cellvars (b_meta b)) -
             zlen (filter (fun n : string => str_mem n (k_varnames Kf)) (m_cellvars (b_meta b))))) (OFree n)).
      { intros P.
        replace (Z.of_nat j + _) with (zlen (cb_varnames cb)
                   + zlen (unshared (cb_varnames cb) (m_cellvars (cb_meta cb))) + Z.of_nat j).
        - apply fs_free. exact AJ.
        - rewrite HCB. cbn [cb_varnames cb_meta]. unfold unshared.
          pose proof (filter_negb (fun n => str_mem n (k_varnames Kf)) (m_cellvars (b_meta b))) as FN. cbv beta in FN. lia. }
      destruct R4 as [R4|[P3 R4]].
      + apply rd_deref; [exact R4|]. split; [discriminate|]. destruct (PY311 v).
        * now apply FS.
        * replace (Z.of_nat j + _) with (zlen (m_cellvars (cb_meta cb)) + Z.of_nat j).
          -- now apply od_free.
          -- rewrite HCB. cbn [cb_meta]. lia.
      + assert (P : PY311 v = true) by (revert P3; unfold PY311, PY313; destruct v; cbn; auto).
        rewrite P. apply rd_local; [exact R4|exact ND|]. split; [now apply FS|]. now left.
  Qed.

  (** ** Paired instructions of 3.13 *)
  Theorem pairs_read b cb vn K0 gs0 Kf gs en p i : assembled v T keq b cb vn K0 gs0 Kf gs en ->
    nth_error (b_items b) p = Some (BI i) -> legal_instr v T i -> is_dual v T (i_op i) = true ->
    exists x y, i_arg i = OTuple [OStr x; OStr y] /\
    ((exists c rest, nth_error gs p = Some (c :: rest) /\ c_name c = i_name i /\ c_op c = i_op i
        /\ (nth_error (cb_varnames cb) 16 <> Some y \/ In y (firstn 16 (cb_varnames cb)) ->
            reads v T cb (i_op i) (c_arg c) (i_arg i)))
     \/ (exists c1 c2 rest, nth_error gs p = Some (c1 :: c2 :: rest)
        /\ (~ In x (firstn 17 (cb_varnames cb)) \/ ~ In y (firstn 17 (cb_varnames cb)))
        /\ dual_single_ops v T (i_op i) = Some (c_name c1, c_name c2)
        /\ reads v T cb (c_op c1) (c_arg c1) (OStr x) /\ reads v T cb (c_op c2) (c_arg c2) (OStr y))).
  Proof.
    intros A Hp (L1 & L2 & L3 & L4) D.
    destruct (step_at _ _ _ _ _ _ _ _ _ _ A Hp) as (K1 & body & K2 & caches & Hg & He & _ & _ & X3 & _).
    cbn [item_effect] in He.
    destruct He as (co & na & va & first & name & arg & kind & c0 & E & Hc & Hb & _ & _ & E3 & _).
    rewrite E3 in X3.
    pose proof (category_of v T wf _ _ L1 L2) as C.
    assert (CL : z_mem (i_op i) (t_hasconst T) = false /\ z_mem (i_op i) (t_haslocal T) = true
                 /\ op_has_jump T (i_op i) = false).
    { destruct C as [C|C|C|C|C|C|C|C]; destruct C as (E1 & E2 & E4 & _); try congruence; auto. }
    destruct CL as (C1 & C2 & C3).
    assert (NL : forall l, i_arg i <> OLabel l).
    { intros l EL. rewrite EL in L4. inversion L4; subst; try congruence.
      - unfold op_has_jump in C3. apply orb_false_iff in C3. destruct C3 as [C3 C4].
        match goal with H : jumps _ _ |- _ => destruct H as [J|J]; apply z_mem_In in J; congruence end.
      - match goal with H : as_int (OLabel _) = _ |- _ => discriminate H end. }
    pose proof (encode_kind v T keq _ _ _ _ _ _ _ _ _ _ E) as [VK _].
    assert (VK' : var_kind v T i = VNone).
    { unfold var_kind. rewrite C1, C2, D. destruct (i_arg i); reflexivity. }
    rewrite VK' in VK. subst kind.
    unfold encode_arg in E.
    assert (E' : exists x y, i_arg i = OTuple [OStr x; OStr y] /\
       (let '(varnames, j1) := add_name (k_varnames K1) x in
            let '(varnames, j2) := add_name varnames y in
            if (16 <? j1) || (16 <? j2) then
              match dual_single_ops v T (i_op i) with
              | Some (n1, n2) =>
                  Ok (k_consts K1, k_names K1, varnames, Some (n1, j1), n2, OInt j2, VNone)
              | None => Err KeyError
              end
            else Ok (k_consts K1, k_names K1, varnames, None, i_name i, OInt (Z.shiftl j1 4 + j2), VNone))
       = Ok (co, na, va, first, name, arg, VNone)).
    { rewrite C1, C2, D in E. destruct (i_arg i) as [| | | |l| | | | | | | | |]; try discriminate E; [|exfalso; eapply NL; reflexivity].
      destruct l as [|y1 l]; try discriminate E. destruct y1; try discriminate E.
      destruct l as [|y2 l]; try discriminate E. destruct y2; try discriminate E.
      destruct l; try discriminate E. eexists _, _. split; [reflexivity|exact E]. }
    destruct E' as (x & y & Ea & E'). exists x, y. split; [exact Ea|].
    destruct (add_name (k_varnames K1) x) as [va1 j1] eqn:A1.
    destruct (add_name va1 y) as [va2 j2] eqn:A2.
    pose proof (add_name_nth _ _ _ _ A1) as [J1 N1]. pose proof (add_name_nth _ _ _ _ A2) as [J2 N2].
    pose proof A2 as A2'. apply add_name_ext in A2.
    pose proof (group_same _ _ _ _ _ _ _ _ _ _ _ A Hp Hg NL VK') as G.
    assert (P3 : PY313 v = true).
    { unfold is_dual in D. now destruct (PY313 v). }
    destruct ((16 <? j1) || (16 <? j2))%bool eqn:B.
    - destruct (dual_single_ops v T (i_op i)) as [[n1 n2]|] eqn:DS; [|discriminate E'].
      injection E' as <- <- <- <- <- <-. destruct Hb as (c1 & H1 & ->).
      right. exists c1, c0, caches. split; [exact G|]. split.
      { apply orb_true_iff in B. rewrite !Z.ltb_lt in B. destruct B as [B|B]; [left|right]; intros I.
        - pose proof (add_name_low _ _ _ _ _ 17 A1 (extends_trans _ _ _ A2 X3) I). lia.
        - pose proof (add_name_low _ _ _ _ _ 17 A2' X3 I). lia. }
      apply new_cinstr_ok in H1, Hc. destruct H1 as (V1 & F1 & F2 & _), Hc as (V0 & F3 & F4 & _).
      split; [congruence|].
      destruct (single_names v T _ _ _ DS) as (_ & S1 & S2).
      destruct (wf_singles v T wf _ P3 S1) as (o1 & O1 & O2 & O3 & O4 & _).
      destruct (wf_singles v T wf _ P3 S2) as (o2 & Q1 & Q2 & Q3 & Q4 & _).
      pose proof (vc_op _ _ _ V1) as W1. pose proof (vc_op _ _ _ V0) as W2.
      rewrite F1, O1 in W1. rewrite F3, Q1 in W2. injection W1 as W1. injection W2 as W2.
      rewrite F2, F4, <- W1, <- W2. cbn [carg_of is_unset as_int]. split.
      + apply rd_local; auto. split; [|right; eauto]. apply fs_local. eapply at_ext; [| |exact N1]; auto.
        eapply extends_trans; eauto.
      + apply rd_local; auto. split; [|right; eauto]. apply fs_local. eapply at_ext; [| |exact N2]; auto.
    - apply orb_false_iff in B. destruct B as [B1 B2]. apply Z.ltb_ge in B1, B2.
      remember (Z.shiftl j1 4 + j2) as a eqn:EA in E'.
      injection E' as <- <- <- <- <- <-. subst body. left. exists c0, caches. split; [exact G|].
      apply new_cinstr_ok in Hc. destruct Hc as (V0 & F3 & F4 & _).
      split; [exact F3|]. split.
      { pose proof (vc_op _ _ _ V0) as O. rewrite F3, L1 in O. congruence. }
      intros NY. rewrite F4, Ea. cbn [carg_of is_unset as_int].
      rewrite EA, Z.shiftl_mul_pow2 by lia. change (2 ^ 4) with 16.
      assert (at_ (cb_varnames cb) j1 x) by (eapply at_ext; [| |exact N1]; auto; eapply extends_trans; eauto).
      assert (Y2 : at_ (cb_varnames cb) j2 y) by (eapply at_ext; [| |exact N2]; auto).
      assert (j2 <> 16). { intros ->. destruct Y2 as [_ Y2]. destruct NY as [NY|NY]; [now apply NY|].
        pose proof (add_name_low _ _ _ _ _ 16 A2' X3 NY). lia. }
      apply rd_pair; auto.
      + replace ((j1 * 16 + j2) / 16) with j1 by (clear - J2 B2 H0; zdm). split; [now apply fs_local|now left].
      + replace ((j1 * 16 + j2) mod 16) with j2 by (clear - J2 B2 H0; zdm). split; [now apply fs_local|now left].
  Qed.
End A.

(** ** Corollaries *)
Section B.
  Variables (v : pyver) (T : optable) (cb : cbytecode) (op : Z).

  Lemma reads_var arg x : category v T op -> reads v T cb op arg x ->
    (exists n, x = OCell n \/ x = OFree n) -> z_mem op (t_hasconst T) = false ->
    exists a, arg = Some a /\ (if PY311 v then frame_slot cb a x else old_deref cb a x).
  Proof.
    intros C R (n & X) NC. destruct R; try (destruct X as [X|X]; discriminate X).
    - destruct X as [-> | ->]; discriminate.
    - apply z_mem_In in H. congruence.
    - exists a. split; [reflexivity|]. destruct H1 as [S P].
      destruct (PY311 v) eqn:P1; [exact S|]. destruct P as [P|(k & ->)].
      + exfalso. revert P P1. unfold PY311, PY313. destruct v; cbn; discriminate.
      + destruct X as [X|X]; discriminate X.
    - exists a. split; [reflexivity|]. destruct H0 as [_ D]. exact D.
  Qed.

  Lemma reads_compare arg z : category v T op -> z_mem op (t_hasconst T) = false ->
    plain v T op \/ reads v T cb op arg (OCompare z) ->
    z_mem op (t_hascompare T) = true -> exists a, arg = Some a /\ z = comparison v a.
  Proof.
    intros C NC R HC. assert (HI : In op (t_hascompare T)) by now apply z_mem_In.
    destruct R as [P|R]; [destruct P as (_ & _ & _ & _ & _ & N & _); tauto|].
    inversion R; subst.
    - destruct H as (_ & _ & _ & _ & _ & N & _); tauto.
    - apply z_mem_In in H. congruence.
    - destruct H1 as [S _]. inversion S.
    - destruct H0 as [_ D]. destruct (PY311 v); inversion D.
    - eauto.
  Qed.

  Lemma mask_bits z o : real_member v (OCompare z) -> PY312 v = true ->
    Z.testbit (encode_compare v z) (outcome_bit o) = holds (z mod 16) o.
  Proof.
    cbn [real_member]. intros R P. unfold encode_compare.
    destruct v; try discriminate P; cbn [PY313 PY312 minor Z.leb Z.compare Pos.compare Pos.compare_cont].
    - assert (Z : z = 0 \/ z = 1 \/ z = 2 \/ z = 3 \/ z = 4 \/ z = 5) by (destruct R as [R|[[R _]|[R _]]]; [lia|discriminate|discriminate]).
      repeat (destruct Z as [->|Z]; [destruct o; reflexivity|]). subst. destruct o; reflexivity.
    - assert (Z : z = 0 \/ z = 1 \/ z = 2 \/ z = 3 \/ z = 4 \/ z = 5 \/ z = 16 \/ z = 17 \/ z = 18 \/ z = 19 \/ z = 20 \/ z = 21)
        by (destruct R as [R|[[R _]|[_ R]]]; [lia|discriminate|lia]).
      repeat (destruct Z as [->|Z]; [destruct o; reflexivity|]). subst. destruct o; reflexivity.
  Qed.
End B.

(** The argument of an assembled comparison. *)
Theorem compare_arg v T keq (wf : wf_optable v T = true) b cb vn K0 gs0 Kf gs en p i z :
  assembled v T keq b cb vn K0 gs0 Kf gs en ->
  nth_error (b_items b) p = Some (BI i) -> legal_instr v T i -> In (i_op i) (t_hascompare T) ->
  i_arg i = OCompare z ->
  exists c rest, nth_error gs p = Some (c :: rest) /\ c_op c = i_op i /\ c_arg c = Some (encode_compare v z).
Proof.
  intros A Hp (L1 & L2 & L3 & L4) HC Ea.
  destruct (step_at v T keq _ _ _ _ _ _ _ _ _ _ A Hp) as (K1 & body & K2 & caches & Hg & He & _).
  cbn [item_effect] in He.
  destruct He as (co & na & va & first & name & arg & kind & c0 & E & Hc & Hb & _).
  pose proof (category_of v T wf _ _ L1 L2) as C. apply z_mem_In in HC.
  destruct C as [C|C|C|C|C|C|C|C]; destruct C as (E1 & E2 & E3 & E4 & E5 & E6 & E7); try congruence.
  assert (VK : var_kind v T i = VNone) by (unfold var_kind; now rewrite Ea).
  unfold encode_arg in E. rewrite Ea, E2, E3, E4, E5, E6 in E.
  remember (encode_compare v z) as a eqn:EA in E. injection E as <- <- <- <- <- <- <-. subst body.
  exists c0, caches. split.
  - apply (group_same v T keq wf _ _ _ _ _ _ _ _ _ _ _ A Hp Hg); [rewrite Ea; discriminate|exact VK].
  - apply new_cinstr_ok in Hc. destruct Hc as (V & F1 & F2 & _). split.
    + pose proof (vc_op _ _ _ V) as O. rewrite F1, L1 in O. congruence.
    + rewrite F2, EA. reflexivity.
Qed.
