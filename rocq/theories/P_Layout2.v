(** The layout of assembled code. *)
From Verif Require Import PyBase OpTable CPy M_Instr M_Tables M_Concrete M_Convert P_Base S_Args
  P_OpTable P_Asm S_Asm P_Conv P_Conv2 P_Jumps P_Jumps2 P_Layout.
Open Scope string_scope.
Open Scope list_scope.
Open Scope Z_scope.

Section S.
  Variables (v : pyver) (T : optable) (keq : pyobj -> pyobj -> bool).
  Hypothesis wf : wf_optable v T = true.

  Lemma encode_name m K i co na va first name arg kind :
    encode_arg v T keq m K i = Ok (co, na, va, first, name, arg, kind) ->
    match first with
    | None => name = i_name i
    | Some (n1, _) => is_dual v T (i_op i) = true /\ dual_single_ops v T (i_op i) = Some (n1, name)
    end.
  Proof.
    unfold encode_arg. intros H.
    destruct (i_arg i) eqn:Ea;
    repeat match type of H with
    | context [match ?x with _ => _ end] =>
        match x with
        | add_name _ _ => destruct x
        | add_const _ _ _ => destruct x
        | _ => let E := fresh "E" in destruct x eqn:E; try discriminate H
        end
    end; inv_ok; try reflexivity; split; assumption || reflexivity.
  Qed.

  Lemma cache_made l c : new_cinstr v T "CACHE" (OInt 0) l None = Ok c -> PY311 v = true -> c = cache_at l.
  Proof.
    intros H P. destruct (wf_cache_op0 v T wf P) as (O & _ & _ & _).
    pose proof H as H'. apply new_cinstr_ok in H'. destruct H' as (V & A1 & A2 & A3 & A4).
    pose proof (vc_op _ _ _ V) as O'. rewrite A1, O in O'. injection O' as O'.
    pose proof (vc_size _ _ _ V) as S. rewrite A2, A4 in S. cbn in S.
    destruct c; cbn in *. subst. reflexivity.
  Qed.

  Lemma cache_entries_pre n op : PY311 v = false -> cache_entries v T n op = 0.
  Proof.
    intros P. unfold cache_entries. rewrite P. destruct (PY313 v) eqn:Q; [|reflexivity].
    exfalso. revert P Q. unfold PY311, PY313. destruct v; cbn; discriminate.
  Qed.

  Lemma trace_laid m items K gs Kf : trace v T keq m items K gs Kf ->
    (forall i, In (BI i) items -> opmap T (i_name i) = Some (i_op i)) ->
    (is_cache (hd_error items) = false -> k_req K = 0) ->
    (PY311 v = false -> k_req K = 0) ->
    laid_out v T items gs.
  Proof.
    induction 1 as [|it items K1 body K2 tr K3 caches gs Kf HB Hb He HF Hc HT IH]; intros HL R1 R2;
      [constructor|].
    assert (Q : exists ce, k_req K2 = ce /\ 0 <= ce /\ (PY311 v = false -> ce = 0) /\
      match it with
      | BI i => exists before c, body = before ++ [c] /\ ce = cache_entries v T (c_name c) (c_op c)
         /\ ((before = [] /\ c_name c = i_name i /\ c_op c = i_op i)
            \/ exists c1, before = [c1] /\ is_dual v T (i_op i) = true
               /\ dual_single_ops v T (i_op i) = Some (c_name c1, c_name c)
               /\ c_loc c1 = c_loc c)
      | _ => body = [] /\ ce = 0
      end).
    { destruct it; cbn [item_effect] in He.
      - destruct He as (co & na & va & first & name & arg & kind & c & E & Hn & Hf & _ & _ & _ & _ & _ & _ & _ & _ & _ & Hr & _).
        pose proof (encode_name _ _ _ _ _ _ _ _ _ _ E) as En.
        pose proof Hn as Hn'. apply new_cinstr_ok in Hn'. destruct Hn' as (V & B1 & _ & B3 & _).
        assert (EC : k_req K2 = cache_entries v T (c_name c) (c_op c)).
        { rewrite Hr. destruct (PY311 v) eqn:P; [reflexivity|]. rewrite cache_entries_pre by assumption. auto. }
        exists (cache_entries v T (c_name c) (c_op c)).
        split; [exact EC|]. split.
        { apply (cache_nonneg v T wf); apply V. }
        split; [intros P; now apply cache_entries_pre|].
        destruct first as [[n1 j1]|].
        + destruct Hf as (c1 & H1 & ->). destruct En as [En1 En2].
          apply new_cinstr_ok in H1. destruct H1 as (_ & C1 & _ & C3 & _).
          exists [c1], c. repeat (split; [reflexivity|]). right. exists c1.
          repeat split; auto; congruence.
        + subst body. exists [], c. repeat (split; [reflexivity|]). left. rewrite En in B1.
          pose proof (vc_op _ _ _ V) as O. rewrite B1, (HL i (or_introl eq_refl)) in O.
          repeat split; congruence.
      - exists 0. destruct He as (-> & _ & _ & _ & _ & _ & _ & Hr & _). rewrite Hr, R1 by reflexivity.
        repeat split; lia.
      - exists 0. destruct He as (-> & _ & _ & _ & _ & _ & _ & Hr & _). rewrite Hr, R1 by reflexivity.
        repeat split; lia.
      - exists 0. destruct He as (-> & _ & _ & _ & _ & _ & _ & Hr & _). rewrite Hr, R1 by reflexivity.
        repeat split; lia.
      - exists 0. destruct He as (-> & _ & _ & _ & _ & _ & _ & Hr & _). rewrite Hr, R1 by reflexivity.
        repeat split; lia. }
    destruct Q as (ce & Q1 & Q2 & Q3 & Q4).
    destruct (flush_inv _ _ _ _ _ HF) as (cs & E' & _ & _ & _ & _ & _ & _ & _ & _ & _ & _ & F).
    assert (EK : k_instrs (with_try K2 tr) = k_instrs K2 /\ k_req (with_try K2 tr) = k_req K2)
      by (destruct K2; now split).
    destruct EK as [EK1 EK2]. rewrite EK1 in E'. rewrite EK2, Q1 in F. rewrite Hc in E'. apply app_inv_head in E'. subst cs.
    rewrite EK1 in F.
    assert (FC : caches = if is_cache (hd_error items) then [] else
       match it with BI _ => repeat (cache_at (match rev body with c :: _ => c_loc c | [] => None end)) (Z.to_nat ce)
                | _ => [] end).
    { destruct (is_cache (hd_error items)); [tauto|].
      destruct F as (_ & [(F1 & -> & _)|(F1 & _ & _ & last & c & F2 & F3 & ->)]).
      - rewrite F1. destruct it; reflexivity.
      - assert (P : PY311 v = true) by (destruct (PY311 v); auto; exfalso; auto).
        apply cache_made in F3; [|assumption]. subst c.
        destruct it; try (destruct Q4; congruence).
        destruct Q4 as (before & c & -> & _). rewrite rev_app_distr. cbn [rev app].
        f_equal. f_equal. rewrite Hb in F2. rewrite !app_assoc in F2.
        rewrite app_length in F2. cbn [length] in F2. rewrite Nat.add_1_r in F2. cbn [pred] in F2.
        rewrite nth_error_app2, Nat.sub_diag in F2 by lia. cbn in F2. congruence. }
    constructor.
    - unfold produced. change (explicit_cache (hd_error items)) with (is_cache (hd_error items)).
      destruct it; try (destruct Q4 as [-> Q4]; rewrite FC; cbn; now destruct (is_cache _)).
      destruct Q4 as (before & c & -> & -> & Q5). exists before, c. split; [|exact Q5].
      rewrite rev_app_distr in FC. cbn [rev app] in FC. rewrite FC, <- app_assoc. reflexivity.
    - apply IH.
      + intros i I. apply HL. now right.
      + intros X. rewrite X in F. tauto.
      + intros P. destruct (is_cache (hd_error items)).
        * rewrite (Q3 P) in F. destruct F as (_ & F & _). congruence.
        * tauto.
  Qed.

  (** Transfer of the layout to instructions that differ only in arguments. *)
  Lemma laid_nth items gs : laid_out v T items gs <->
    length gs = length items /\
    forall p it g, nth_error items p = Some it -> nth_error gs p = Some g ->
      produced v T it (explicit_cache (nth_error items (S p))) g.
  Proof.
    split.
    - induction 1 as [|it items g gs H HL [IH1 IH2]]; [split; [reflexivity|]; intros [|p]; discriminate|].
      split; [cbn; congruence|]. intros [|p] it' g' Hi Hg; cbn in Hi, Hg.
      + injection Hi as <-. injection Hg as <-. cbn [nth_error]. now destruct items.
      + cbn [nth_error]. apply IH2; assumption.
    - revert gs. induction items as [|it items IH]; intros [|g gs] [L H]; try discriminate; constructor.
      + specialize (H 0%nat it g eq_refl eq_refl). cbn [nth_error] in H. now destruct items.
      + apply IH. split; [now injection L|]. intros p it' g' Hi Hg. apply (H (S p)); assumption.
  Qed.

  Lemma laid_length items gs : laid_out v T items gs -> length gs = length items.
  Proof. intros H. now apply laid_nth in H. Qed.

  Lemma nth_group {A} (gs : list (list A)) p g j x : nth_error gs p = Some g -> nth_error g j = Some x ->
    nth_error (concat gs) (start gs p + j) = Some x.
  Proof. intros H E. rewrite (nth_concat gs p g j H); [exact E|]. eapply nth_some_lt; eauto. Qed.

  Lemma assembled_laid b cb vn K0 gs0 Kf gs en :
    assembled v T keq b cb vn K0 gs0 Kf gs en ->
    (forall i, In (BI i) (b_items b) -> opmap T (i_name i) = Some (i_op i)) ->
    laid_out v T (b_items b) gs0 /\ laid_out v T (b_items b) gs.
  Proof.
    intros A HL. destruct A as [A1 [tr A2] A3 A4 A5 A6 A7 A8 A9 _ _ _ _ _].
    assert (N1 : k_instrs K0 = []) by now rewrite A2.
    assert (N2 : k_jumps K0 = []) by now rewrite A2.
    assert (N3 : k_cells K0 = []) by now rewrite A2.
    assert (N4 : k_frees K0 = []) by now rewrite A2.
    assert (L0 : laid_out v T (b_items b) gs0).
    { eapply trace_laid; eauto; intros; rewrite A2; reflexivity. }
    split; [exact L0|]. apply laid_nth in L0. destruct L0 as [L0 P0]. apply laid_nth.
    assert (LG : length gs = length gs0) by (apply (f_equal (@length _)) in A6; now rewrite !map_length in A6).
    split; [congruence|].
    intros p it g Hp Hg.
    destruct (nth_same_length gs gs0 p g LG Hg) as (g0 & Hg0).
    destruct (nth_lengths gs0 gs p g0 A6 Hg0) as (g' & Hg' & Lg). rewrite Hg in Hg'. injection Hg' as <-.
    specialize (P0 _ _ _ Hp Hg0). unfold produced in *.
    destruct it; try (subst g0; destruct g; [reflexivity|discriminate]).
    assert (IX : forall j, (0 < j < length g0)%nat -> nth_error g j = nth_error g0 j).
    { intros j Hj. rewrite <- (nth_concat gs p g j Hg) by lia. rewrite <- (nth_concat gs0 p g0 j Hg0) by lia.
      rewrite (start_lengths gs0 gs p A6). apply A9.
      - intros I. apply in_map_iff in I. destruct I as ([k l] & E & I). cbn in E. subst k.
        apply (jumps_In v T keq _ _ _ _ _ A4 N1 N2) in I. destruct I as (q & i' & Hq & _ & E).
        destruct (nth_same_length (b_items b) gs0 q _ (eq_sym L0) Hq) as (gq & Hgq).
        pose proof (trace_nonempty _ _ _ _ _ _ _ _ _ _ _ A4 Hq Hgq) as NE.
        destruct (start_inj gs0 p q g0 gq j 0 Hg0 Hgq) as [_ X]; try lia.
        destruct gq; [congruence|cbn; lia].
      - intros I. apply (cells_In v T keq _ _ _ _ _ A4 N1 N3) in I. destruct I as (q & i' & Hq & _ & E).
        destruct (nth_same_length (b_items b) gs0 q _ (eq_sym L0) Hq) as (gq & Hgq).
        pose proof (trace_nonempty _ _ _ _ _ _ _ _ _ _ _ A4 Hq Hgq) as NE.
        destruct (start_inj gs0 p q g0 gq j 0 Hg0 Hgq) as [_ X]; try lia.
        destruct gq; [congruence|cbn; lia].
      - intros I. apply (frees_In v T keq _ _ _ _ _ A4 N1 N4) in I. destruct I as (q & i' & Hq & _ & E).
        destruct (nth_same_length (b_items b) gs0 q _ (eq_sym L0) Hq) as (gq & Hgq).
        pose proof (trace_nonempty _ _ _ _ _ _ _ _ _ _ _ A4 Hq Hgq) as NE.
        destruct (start_inj gs0 p q g0 gq j 0 Hg0 Hgq) as [_ X]; try lia.
        destruct gq; [congruence|cbn; lia]. }
    assert (SM : forall j c, nth_error g0 j = Some c -> exists c', nth_error g j = Some c'
       /\ c_name c' = c_name c /\ c_op c' = c_op c /\ c_loc c' = c_loc c).
    { intros j c Hj. pose proof (nth_group _ _ _ _ _ Hg0 Hj) as X.
      destruct (A8 _ _ X) as (c' & Y1 & Y2). exists c'. split; [|exact Y2].
      rewrite <- Y1. symmetry. rewrite <- (start_lengths gs0 gs p A6). apply nth_concat; [exact Hg|].
      rewrite Lg. eapply nth_some_lt; eauto. }
    destruct P0 as (before & c & E0 & Q).
    destruct g as [|x g].
    { exfalso. rewrite E0, app_length in Lg. cbn in Lg. lia. }
    assert (TL : forall before' r', g0 = before' :: r' -> g = r').
    { intros y r' ->. clear -IX Lg. cbn in Lg. injection Lg as Lg.
      apply nth_ext with (d := x) (d' := x); [exact Lg|]. intros n Hn.
      assert (nth_error g n = nth_error r' n) as E.
      { apply (IX (S n)). cbn. lia. }
      rewrite !nth_error_nth' with (d := x) in E by lia. congruence. }
    destruct Q as [(-> & Q1 & Q2)|(c1 & -> & Q1 & Q2 & Q3)].
    - cbn [app] in E0. subst g0. rewrite (TL _ _ eq_refl) in *.
      destruct (SM 0%nat c eq_refl) as (x' & X1 & X2 & X3 & X4). cbn in X1. injection X1 as <-.
      exists [], x. split.
      + cbn [app]. rewrite X2, X3, X4. reflexivity.
      + left. repeat split; congruence.
    - cbn [app] in E0. subst g0. rewrite (TL _ _ eq_refl) in *.
      destruct (SM 0%nat c1 eq_refl) as (x' & X1 & X2 & X3 & X4). cbn in X1. injection X1 as <-.
      exists [x], c. split; [reflexivity|]. right. exists x. repeat split; congruence.
  Qed.
End S.
