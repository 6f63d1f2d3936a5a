(** The tables of assembled code: proofs. *)
From Verif Require Import PyBase OpTable CPy M_Instr M_Tables M_Concrete M_Convert P_Base S_Args
  P_OpTable P_Cat P_Asm S_Asm S_Slots P_Conv P_Conv2 P_Jumps P_Jumps2 P_Layout P_Layout2 P_AsmProps P_Args.
Open Scope string_scope.
Open Scope list_scope.
Open Scope Z_scope.

Lemma firsts_app {A} (same : A -> A -> bool) a : forall seen b,
  firsts same seen (a ++ b) = firsts same seen a ++ firsts same (seen ++ firsts same seen a) b.
Proof.
  induction a as [|x a IH]; intros seen b; cbn [app firsts]; [now rewrite app_nil_r|].
  destruct (existsb (same x) seen); [apply IH|]. cbn [app]. f_equal. rewrite IH. do 2 f_equal.
  now rewrite <- app_assoc.
Qed.

Lemma add_name_firsts l x : fst (add_name l x) = l ++ firsts String.eqb l [x].
Proof.
  unfold add_name. cbn [firsts]. destruct (str_index x l) as [n|] eqn:E.
  - apply str_index_nth, nth_error_In in E. assert (M : str_mem x l = true) by now apply str_mem_In.
    unfold str_mem in M. rewrite M. cbn. now rewrite app_nil_r.
  - apply str_index_none in E. destruct (existsb (String.eqb x) l) eqn:M; [|reflexivity].
    exfalso. apply E. now apply str_mem_In.
Qed.
Lemma add_const_firsts keq l x : fst (add_const keq l x) = l ++ firsts keq l [x].
Proof.
  unfold add_const. cbn [firsts].
  assert (X : existsb (keq x) l = match const_index keq x l with Some _ => true | None => false end).
  { clear. induction l as [|y l IH]; [reflexivity|]. cbn. destruct (keq x y); [reflexivity|]. cbn. rewrite IH.
    now destruct (const_index keq x l). }
  rewrite X. destruct (const_index keq x l); cbn; [now rewrite app_nil_r|reflexivity].
Qed.

Section Tab.
  Variables (v : pyver) (T : optable) (keq : pyobj -> pyobj -> bool).
  Hypothesis wf : wf_optable v T = true.

  Definition uses_c (it : bitem) : list pyobj := const_uses T [it].
  Definition uses_n (it : bitem) : list string := name_uses T [it].
  Definition uses_l (it : bitem) : list string := local_uses T [it].

  Lemma encode_tables m K i co na va first name arg kind :
    encode_arg v T keq m K i = Ok (co, na, va, first, name, arg, kind) -> legal_instr v T i ->
    co = k_consts K ++ firsts keq (k_consts K) (uses_c (BI i))
    /\ na = k_names K ++ firsts String.eqb (k_names K) (uses_n (BI i))
    /\ va = k_varnames K ++ firsts String.eqb (k_varnames K) (uses_l (BI i)).
  Proof.
    intros E (L1 & L2 & L3 & L4). pose proof (category_of v T wf _ _ L1 L2) as C.
    unfold uses_c, uses_n, uses_l, const_uses, name_uses, local_uses. cbn [flat_map]. rewrite !app_nil_r.
    assert (LB : forall l, i_arg i = OLabel l -> op_has_jump T (i_op i) = true).
    { intros l El. rewrite El in L4. unfold op_has_jump. inversion L4; subst; try congruence.
      - unfold jumps in *. rewrite <- !z_mem_In in *. now apply orb_true_iff.
      - discriminate. }
    destruct C as [C HA C1 C2 C3|C HA C1 C2 C3|C HA C2 C3|C HA C1 C2|C HA C1 C2 C3|C HA C1 C2 C3|C HA C1 C2 C3 C4|C C1 C2 C3];
      destruct C as (E1 & E2 & E3 & E4 & E5 & E6 & E7); rewrite E2, E3, E4;
      unfold encode_arg in E; rewrite ?E2, ?E3, ?E4, ?E5, ?E6, ?E7 in E.
    - cbn [firsts]. rewrite !app_nil_r.
      repeat match type of E with context [match ?x with _ => _ end] => destruct x; try discriminate E end; inv_ok; auto.
    - cbn [firsts]. rewrite !app_nil_r.
      assert (E' : (let '(consts, j) := add_const keq (k_consts K) (i_arg i) in
        Ok (consts, k_names K, k_varnames K, None, i_name i, OInt j, VNone)) = Ok (co, na, va, first, name, arg, kind)).
      { destruct (i_arg i); try exact E. specialize (LB n eq_refl). congruence. }
      pose proof (add_const_firsts keq (k_consts K) (i_arg i)) as X.
      destruct (add_const keq (k_consts K) (i_arg i)) as [cs j]. cbn [fst firsts] in X. inv_ok. auto.
    - cbn [firsts]. rewrite !app_nil_r.
      destruct (is_dual v T (i_op i)).
      + destruct (i_arg i) as [| | | |l| | | | | | | | |] eqn:Ea; try discriminate E; [|specialize (LB _ eq_refl); congruence].
        destruct l as [|y1 l]; try discriminate E. destruct y1; try discriminate E.
        destruct l as [|y2 l]; try discriminate E. destruct y2; try discriminate E.
        destruct l; try discriminate E.
        pose proof (add_name_firsts (k_varnames K) s) as X.
        destruct (add_name (k_varnames K) s) as [va1 j1] eqn:A1. cbn [fst] in X.
        pose proof (add_name_firsts va1 s0) as Y. destruct (add_name va1 s0) as [va2 j2] eqn:A2. cbn [fst] in Y.
        assert (Z : va2 = k_varnames K ++ firsts String.eqb (k_varnames K) (locals_of (OTuple [OStr s; OStr s0]))).
        { cbn [locals_of]. change [s; s0] with ([s] ++ [s0]). rewrite firsts_app, app_assoc, <- X. exact Y. }
        clear A1 A2 X Y.
        repeat match type of E with context [match ?x with _ => _ end] => destruct x; try discriminate E end; inv_ok; auto.
      + destruct (i_arg i) as [| | |s| | | | |s|s| | | |] eqn:Ea; try discriminate E.
        * pose proof (add_name_firsts (k_varnames K) s) as X.
          destruct (add_name (k_varnames K) s) as [va1 j1] eqn:A1. cbn [fst] in X.
          cbn [locals_of]. inv_ok. auto.
        * specialize (LB _ eq_refl). congruence.
        * cbn [locals_of firsts]. rewrite app_nil_r.
          repeat match type of E with context [match ?x with _ => _ end] => destruct x; try discriminate E end; inv_ok; auto.
        * cbn [locals_of firsts]. rewrite app_nil_r.
          repeat match type of E with context [match ?x with _ => _ end] => destruct x; try discriminate E end; inv_ok; auto.
    - cbn [firsts]. rewrite !app_nil_r.
      assert (ND : exists s, name_of (i_arg i) = [s] /\ fst (add_name (k_names K) s) = na /\ co = k_consts K /\ va = k_varnames K).
      { destruct (is_bitflag v T (i_op i)); [|destruct (is_bitflag2 v T (i_op i))];
        (destruct (i_arg i) as [| | |s|l| | | | | | | | |] eqn:Ea; try discriminate E; try (specialize (LB _ eq_refl); congruence));
        repeat match type of E with
          | context [match ?x with _ => _ end] => match x with add_name _ _ => fail 1 | _ => destruct x; try discriminate E end
          end;
        match type of E with context [add_name ?a ?b] => exists b; destruct (add_name a b) eqn:A1; inv_ok; auto end. }
      destruct ND as (s & -> & <- & -> & ->). rewrite add_name_firsts. auto.
    - cbn [firsts]. rewrite !app_nil_r.
      repeat match type of E with context [match ?x with _ => _ end] => destruct x; try discriminate E end; inv_ok; auto.
    - cbn [firsts]. rewrite !app_nil_r.
      repeat match type of E with context [match ?x with _ => _ end] => destruct x; try discriminate E end; inv_ok; auto.
    - cbn [firsts]. rewrite !app_nil_r.
      repeat match type of E with context [match ?x with _ => _ end] => destruct x; try discriminate E end; inv_ok; auto.
    - cbn [firsts]. rewrite !app_nil_r.
      repeat match type of E with context [match ?x with _ => _ end] => destruct x; try discriminate E end; inv_ok; auto.
  Qed.

  Lemma trace_tables m items K gs Kf : trace v T keq m items K gs Kf ->
    (forall i, In (BI i) items -> legal_instr v T i) ->
    k_consts Kf = k_consts K ++ firsts keq (k_consts K) (const_uses T items)
    /\ k_names Kf = k_names K ++ firsts String.eqb (k_names K) (name_uses T items)
    /\ k_varnames Kf = k_varnames K ++ firsts String.eqb (k_varnames K) (local_uses T items).
  Proof.
    induction 1 as [|it items K1 body K2 tr K3 caches gs Kf HB Hb He HF Hc HT IH]; intros HL.
    { cbn. rewrite !app_nil_r. auto. }
    destruct IH as (I1 & I2 & I3). { intros i I. apply HL. now right. }
    assert (S2 : k_consts K2 = k_consts K1 ++ firsts keq (k_consts K1) (uses_c it)
        /\ k_names K2 = k_names K1 ++ firsts String.eqb (k_names K1) (uses_n it)
        /\ k_varnames K2 = k_varnames K1 ++ firsts String.eqb (k_varnames K1) (uses_l it)).
    { destruct it; cbn [item_effect] in He.
      - destruct He as (co & na & va & first & name & arg & kind & c & E & _ & _ & -> & -> & -> & _).
        eapply encode_tables; eauto. apply HL. now left.
      - destruct He as (_ & -> & -> & -> & _). cbn. now rewrite !app_nil_r.
      - destruct He as (_ & -> & -> & -> & _). cbn. now rewrite !app_nil_r.
      - destruct He as (_ & -> & -> & -> & _). cbn. now rewrite !app_nil_r.
      - destruct He as (_ & -> & -> & -> & _). cbn. now rewrite !app_nil_r. }
    destruct (flush_inv _ _ _ _ _ HF) as (cs & _ & _ & _ & _ & F1 & F2 & F3 & _).
    assert (W : k_consts (with_try K2 tr) = k_consts K2 /\ k_names (with_try K2 tr) = k_names K2
                /\ k_varnames (with_try K2 tr) = k_varnames K2) by (destruct K2; auto).
    destruct W as (W1 & W2 & W3). rewrite W1 in F1. rewrite W2 in F2. rewrite W3 in F3.
    destruct S2 as (S1 & S2 & S3).
    change (const_uses T (it :: items)) with (flat_map (fun it => match it with
      | BI i => if z_mem (i_op i) (t_hasconst T) then [i_arg i] else [] | _ => [] end) ([it] ++ items)).
    change (name_uses T (it :: items)) with (flat_map (fun it => match it with
      | BI i => if z_mem (i_op i) (t_hasname T) then name_of (i_arg i) else [] | _ => [] end) ([it] ++ items)).
    change (local_uses T (it :: items)) with (flat_map (fun it => match it with
      | BI i => if z_mem (i_op i) (t_haslocal T) then locals_of (i_arg i) else [] | _ => [] end) ([it] ++ items)).
    rewrite !flat_map_app, !firsts_app, !app_assoc.
    fold (const_uses T items) (name_uses T items) (local_uses T items).
    fold (const_uses T [it]) (name_uses T [it]) (local_uses T [it]).
    fold (uses_c it) (uses_n it) (uses_l it). rewrite <- S1, <- S2, <- S3, <- F1, <- F2, <- F3. auto.
  Qed.

  Lemma prescan_names items : forall names r, PY313 v = true ->
    (forall i, In (BI i) items -> legal_instr v T i) ->
    forall seen, foldM (prescan_item v T) items (names, seen) = Ok r ->
    fst r = names ++ firsts String.eqb names (pair_uses v T items).
  Proof.
    induction items as [|it items IH]; intros names r P HL seen H; cbn [foldM] in H.
    { injection H as <-. cbn. now rewrite app_nil_r. }
    apply bind_ok in H. destruct H as ([names' seen'] & H1 & H).
    specialize (IH names' r P). rewrite (IH) with (seen := seen'); [|intros i I; apply HL; now right|exact H].
    change (pair_uses v T (it :: items)) with (flat_map (fun it => match it with
      | BI i => if is_dual v T (i_op i) then locals_of (i_arg i) else [] | _ => [] end) ([it] ++ items)).
    rewrite flat_map_app, firsts_app. fold (pair_uses v T items) (pair_uses v T [it]). rewrite app_assoc.
    enough (X : names' = names ++ firsts String.eqb names (pair_uses v T [it])) by now rewrite <- X.
    unfold prescan_item in H1. apply bind_ok in H1. destruct H1 as (sn & _ & H1).
    unfold pair_uses. cbn [flat_map].
    destruct it; try (injection H1 as <- <-; cbn; now rewrite app_nil_r).
    destruct (is_dual v T (i_op i)) eqn:D; [|injection H1 as <- <-; cbn; now rewrite app_nil_r].
    rewrite app_nil_r.
    assert (L4 : doc_arg v T (i_op i) (i_arg i)) by (apply HL; now left).
    destruct (HL i (or_introl eq_refl)) as (L1 & L2 & _).
    destruct (i_arg i) as [| | | |l| | | | | | | | |] eqn:Ea; try discriminate H1.
    pose proof (category_of v T wf _ _ L1 L2) as C.
    assert (CC : z_mem (i_op i) (t_hasconst T) = false /\ is_bitflag v T (i_op i) = false /\ is_bitflag2 v T (i_op i) = false).
    { destruct C as [C|C|C|C|C|C|C|C]; destruct C as (E1 & E2 & E3 & _); try congruence; auto. }
    destruct CC as (CC1 & CC2 & CC3).
    assert (LL : exists x y, l = [x; y]).
    { inversion L4; subst; try congruence; eauto.
      - match goal with X : In _ (t_hasconst T) |- _ => apply z_mem_In in X; congruence end.
      - match goal with X : as_int _ = _ |- _ => discriminate X end. }
    destruct LL as (x & y & ->). cbn [foldM] in H1.
    destruct x; try discriminate H1. cbn [bind] in H1. destruct y; try discriminate H1. cbn [bind] in H1.
    injection H1 as <- _. cbn [locals_of]. rewrite !add_name_firsts.
    change [s; s0] with ([s] ++ [s0]). rewrite firsts_app, app_assoc. reflexivity.
  Qed.

  Theorem tables b cb vn K0 gs0 Kf gs en : assembled v T keq b cb vn K0 gs0 Kf gs en ->
    (forall i, In (BI i) (b_items b) -> legal_instr v T i) ->
    cb_consts cb = firsts keq [] ((match m_docstring (b_meta b) with OUnset => [] | d => [d] end)
                                  ++ const_uses T (b_items b))
    /\ cb_names cb = firsts String.eqb [] (name_uses T (b_items b))
    /\ cb_varnames cb = b_argnames b ++ firsts String.eqb (b_argnames b)
         (pair_uses v T (b_items b) ++ local_uses T (b_items b)).
  Proof.
    intros A HL. destruct (as_K0 _ _ _ _ _ _ _ _ _ _ _ A) as (tr0 & E0).
    destruct (trace_tables _ _ _ _ _ (as_trace _ _ _ _ _ _ _ _ _ _ _ A) HL) as (T1 & T2 & T3).
    rewrite E0 in T1, T2, T3. cbn [k_consts k_names k_varnames] in *.
    rewrite (as_cb _ _ _ _ _ _ _ _ _ _ _ A). cbn [cb_consts cb_names cb_varnames].
    split; [|split].
    - rewrite T1, firsts_app. destruct (m_docstring (b_meta b)); reflexivity.
    - exact T2.
    - pose proof (as_prescan _ _ _ _ _ _ _ _ _ _ _ A) as P. unfold prescan in P.
      assert (V : vn = b_argnames b ++ firsts String.eqb (b_argnames b) (pair_uses v T (b_items b))).
      { destruct (PY313 v) eqn:P3.
        - apply bind_ok in P. destruct P as (r & P & X). injection X as <-.
          eapply prescan_names; eauto.
        - injection P as <-. replace (pair_uses v T (b_items b)) with (@nil string); [cbn; now rewrite app_nil_r|].
          unfold pair_uses, is_dual. rewrite P3. cbn [andb]. clear. induction (b_items b) as [|it l IH]; [reflexivity|].
          cbn. rewrite <- IH. destruct it; reflexivity. }
      rewrite T3, firsts_app, app_assoc, <- V. reflexivity.
  Qed.
End Tab.
