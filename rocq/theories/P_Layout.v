(** From a successful assembly to the layout of its result. *)
From Verif Require Import PyBase OpTable CPy M_Instr M_Tables M_Concrete M_Convert P_Base S_Args
  P_OpTable P_Asm S_Asm P_Conv P_Conv2 P_Jumps P_Jumps2.
Open Scope string_scope.
Open Scope list_scope.
Open Scope Z_scope.

(** ** Lists cut into groups *)
Lemma regroup {A B} (gs : list (list A)) (r : list B) : length r = length (concat gs) ->
  exists gs', concat gs' = r /\ map (@length B) gs' = map (@length A) gs.
Proof.
  revert r. induction gs as [|g gs IH]; intros r L; cbn [concat] in L.
  - exists []. destruct r; [now split|discriminate].
  - rewrite app_length in L. destruct (IH (skipn (length g) r)) as (gs' & E1 & E2).
    { rewrite skipn_length. lia. }
    exists (firstn (length g) r :: gs'). cbn. rewrite E1, E2, firstn_skipn, firstn_length.
    split; [reflexivity|]. f_equal. lia.
Qed.

Lemma start_lengths {A B} (gs : list (list A)) (gs' : list (list B)) p :
  map (@length B) gs' = map (@length A) gs -> start gs' p = start gs p.
Proof.
  revert gs' p. induction gs as [|g gs IH]; intros [|g' gs'] p E; try discriminate.
  - unfold start. now rewrite !firstn_nil.
  - cbn in E. injection E as E1 E2. destruct p; [now rewrite !start_0|].
    rewrite !start_cons, E1, (IH gs' p E2). reflexivity.
Qed.

Lemma nth_lengths {A B} (gs : list (list A)) (gs' : list (list B)) p g :
  map (@length B) gs' = map (@length A) gs -> nth_error gs p = Some g ->
  exists g', nth_error gs' p = Some g' /\ length g' = length g.
Proof.
  intros E H. pose proof (map_nth_error (@length A) _ _ H) as M. rewrite <- E in M.
  destruct (nth_error gs' p) as [g'|] eqn:E'.
  - exists g'. split; [reflexivity|]. rewrite (map_nth_error _ _ _ E') in M. congruence.
  - exfalso. assert (nth_error (map (@length B) gs') p = None); [|congruence].
    apply nth_error_None. rewrite map_length. now apply nth_error_None.
Qed.

(** ** Argument rewriting at given places *)
Lemma map_arg_fold v T f l : forall ins ins', NoDup l ->
  foldM (map_arg_at v T f) l ins = Ok ins' ->
  length ins' = length ins
  /\ (forall k, ~ In k l -> nth_error ins' k = nth_error ins k)
  /\ (forall k, In k l -> exists c a c', nth_error ins k = Some c
        /\ f (match c_arg c with Some a => a | None => 0 end) = Ok a
        /\ set_arg v T c a = Ok c' /\ nth_error ins' k = Some c').
Proof.
  induction l as [|n l IH]; intros ins ins' ND H; cbn [foldM] in H.
  - injection H as <-. repeat split; auto. intros k [].
  - apply bind_ok in H. destruct H as (ins1 & H1 & H). apply NoDup_cons_iff in ND. destruct ND as [Nn ND].
    unfold map_arg_at in H1. inv_ok. rename x into c, x0 into a, x1 into c'.
    destruct (IH _ _ ND H) as (L & O & M). rewrite upd_length in L.
    pose proof (nth_some_lt _ _ _ E) as Ln.
    split; [exact L|]. split.
    + intros k N. cbn in N. rewrite O by tauto. apply nth_upd_other. tauto.
    + intros k [<-|I].
      * exists c, a, c'. repeat split; auto. rewrite O by assumption. now apply nth_upd_same.
      * destruct (M k I) as (d & a' & d' & A1 & A2 & A3 & A4). exists d, a', d'. repeat split; auto.
        rewrite <- A1. symmetry. apply nth_upd_other. intros ->. now apply Nn.
Qed.

(** ** All instructions come from the constructor *)
Definition made (v : pyver) (T : optable) (c : cinstr) : Prop :=
  valid_cinstr v T c /\ c_ext c = None.

Lemma new_made v T n a l c : new_cinstr v T n a l None = Ok c -> made v T c.
Proof. intros H. apply new_cinstr_ok in H. unfold made. tauto. Qed.

Lemma made_pos v T c : wf_optable v T = true -> made v T c -> pos c.
Proof.
  intros wf [V X]. destruct (assemble_size_auto v T wf c V X) as (_ & k & E & K & _).
  unfold pos. rewrite E. split; [lia|]. zdm.
Qed.

Lemma set_arg_made v T c a c' : made v T c -> set_arg v T c a = Ok c' ->
  made v T c' /\ c_name c' = c_name c /\ c_op c' = c_op c /\ c_loc c' = c_loc c
  /\ c_arg c' = Some a /\ c_size c' = asize a /\ 0 <= a <= 2147483647.
Proof.
  intros [V X] H. apply set_arg_ok in H.
  destruct H as (A1 & A2 & A3 & A4 & A5 & A6 & A7 & A8 & A9).
  pose proof (vc_op _ _ _ V) as O. assert (c_op c' = c_op c) by congruence.
  repeat split; auto; try congruence; try lia.
  - rewrite A6. split; [lia|exact A8].
  - rewrite A9, X. reflexivity.
Qed.

Section Layout.
  Variables (v : pyver) (T : optable) (keq : pyobj -> pyobj -> bool) (m : meta).
  Hypothesis wf : wf_optable v T = true.
  Notation trace := (trace v T keq m).
  Notation item_effect := (item_effect v T keq m).

  Lemma effect_made K it body K' : item_effect K it body K' -> Forall (made v T) body.
  Proof.
    destruct it; cbn [P_Conv.item_effect].
    - intros (co & na & va & first & name & arg & kind & c & _ & Hc & Hb & _).
      destruct first as [[n1 j1]|]; [destruct Hb as (c1 & H1 & ->)|subst body];
        repeat constructor; eapply new_made; eauto.
    - intros [-> _]. constructor.
    - intros [-> _]. constructor.
    - intros [-> _]. constructor.
    - intros [-> _]. constructor.
  Qed.

  Lemma flush_caches_made K it K' caches : flush_caches v T K it = Ok K' ->
    k_instrs K' = k_instrs K ++ caches -> Forall (made v T) caches.
  Proof.
    intros H E. destruct (flush_inv _ _ _ _ _ H) as (cs & E' & _ & _ & _ & _ & _ & _ & _ & _ & _ & _ & F).
    rewrite E in E'. apply app_inv_head in E'. subst cs.
    destruct (is_cache it); [destruct F as [-> _]; constructor|].
    destruct F as (_ & [(_ & -> & _)|(_ & _ & _ & last & c & _ & Hc & ->)]); [constructor|].
    apply Forall_forall. intros x I. apply repeat_spec in I. subst. eapply new_made; eauto.
  Qed.

  Lemma trace_made items K gs Kf : trace items K gs Kf ->
    Forall (made v T) (k_instrs K) -> Forall (made v T) (k_instrs Kf).
  Proof.
    induction 1 as [|it items K1 body K2 tr K3 caches gs Kf HB Hb He HF Hc HT IH]; intros F; [assumption|].
    apply IH. rewrite Hc. apply Forall_app. split.
    - rewrite Hb. apply Forall_app. split; [assumption|]. eapply effect_made; eauto.
    - eapply flush_caches_made; [exact HF|]. rewrite Hc. destruct K2; reflexivity.
  Qed.
End Layout.

Lemma off_same_sizes v a b : map c_size a = map c_size b -> forall k, offset_of v a k = offset_of v b k.
Proof.
  revert b. induction a as [|x a IH]; intros [|y b] E k; try discriminate; [reflexivity|].
  cbn in E. injection E as E1 E2. destruct k; [reflexivity|]. rewrite !offset_of_cons, E1, (IH b E2). reflexivity.
Qed.
Lemma label_offsets_same v a b : map c_size a = map c_size b -> forall o, label_offsets v o a = label_offsets v o b.
Proof.
  revert b. induction a as [|x a IH]; intros [|y b] E o; try discriminate; [reflexivity|].
  cbn in E. injection E as E1 E2. cbn [label_offsets]. now rewrite E1, (IH b E2).
Qed.
Lemma instruction_offsets_same v a b : map c_size a = map c_size b -> forall o, instruction_offsets v o a = instruction_offsets v o b.
Proof.
  revert b. induction a as [|x a IH]; intros [|y b] E o; try discriminate; [reflexivity|].
  cbn in E. injection E as E1 E2. cbn [instruction_offsets]. now rewrite E1, (IH b E2).
Qed.
Lemma map_size_nth (a b : list cinstr) : length a = length b ->
  (forall k c c', nth_error a k = Some c -> nth_error b k = Some c' -> c_size c' = c_size c) ->
  map c_size a = map c_size b.
Proof.
  revert b. induction a as [|x a IH]; intros [|y b] L H; try discriminate; [reflexivity|].
  cbn. f_equal.
  - symmetry. apply (H 0%nat); reflexivity.
  - apply IH; [now injection L|]. intros k c c' A B. apply (H (S k)); assumption.
Qed.

Definition jump_at v T labels jumps cs k := 
  forall l, In (k, l) jumps ->
     exists ti c, dget Nat.eqb labels l = Some ti /\ (ti <= length cs)%nat
       /\ nth_error cs k = Some c
       /\ jumps_to v T c (offset_of v cs k) = offset_of v cs ti.

(** Everything known about a successful assembly. *)
Record assembled (v : pyver) (T : optable) (keq : pyobj -> pyobj -> bool) (b : bytecode)
  (cb : cbytecode) (vn : list string) (K0 : conv) (gs0 : list (list cinstr)) (Kf : conv)
  (gs : list (list cinstr)) (en : list exentry) : Prop := {
  as_prescan : prescan v T (b_argnames b) (b_items b) = Ok vn;
  as_K0 : exists tr, K0 = mkK [] [] [] [] 0 false
            (match m_docstring (b_meta b) with OUnset => [] | d => fst (add_const keq [] d) end)
            [] vn (line_loc (Some (m_first_lineno (b_meta b)))) [] [] tr;
  as_first : is_cache (hd_error (b_items b)) = false;
  as_trace : trace v T keq (b_meta b) (b_items b) K0 gs0 Kf;
  as_cb : cb = mkCB (b_meta b) (map CI (concat gs)) (k_consts Kf) (k_names Kf) (k_varnames Kf) en;
  as_len : map (@length _) gs = map (@length _) gs0;
  as_made : Forall (made v T) (concat gs);
  as_same : forall k c, nth_error (concat gs0) k = Some c ->
    exists c', nth_error (concat gs) k = Some c' /\ c_name c' = c_name c /\ c_op c' = c_op c
               /\ c_loc c' = c_loc c;
  as_other : forall k, ~ In k (map fst (k_jumps Kf)) -> ~ In k (k_cells Kf) -> ~ In k (k_frees Kf) ->
    nth_error (concat gs) k = nth_error (concat gs0) k;
  as_cell : forall k, In k (k_cells Kf) -> exists c c', nth_error (concat gs0) k = Some c
    /\ nth_error (concat gs) k = Some c'
    /\ let a := match c_arg c with Some a => a | None => 0 end in
       if PY311 v
       then nth_error (shared_indexes (k_varnames Kf) 0 (m_cellvars (b_meta b))) (Z.to_nat a) = c_arg c'
       else c' = c;
  as_free : forall k, In k (k_frees Kf) -> exists c c', nth_error (concat gs0) k = Some c
    /\ nth_error (concat gs) k = Some c'
    /\ c_arg c' = Some (match c_arg c with Some a => a | None => 0 end
        + if PY311 v then zlen (k_varnames Kf) + zlen (m_cellvars (b_meta b))
                         - zlen (filter (fun n => str_mem n (k_varnames Kf)) (m_cellvars (b_meta b)))
          else zlen (m_cellvars (b_meta b)));
  as_jump : forall k, jump_at v T (k_labels Kf) (k_jumps Kf) (concat gs) k;
  as_least : forall es, Forall pos es -> length es = length (concat gs) ->
    (forall k c e, nth_error (concat gs) k = Some c -> nth_error es k = Some e ->
       c_name c = c_name e /\ c_op c = c_op e
       /\ (~ In k (map fst (k_jumps Kf)) -> c_size c <= c_size e)) ->
    (forall k l ti x, In (k, l) (k_jumps Kf) -> dget Nat.eqb (k_labels Kf) l = Some ti ->
       nth_error es k = Some x ->
       0 <= jarg v T x (offset_of v es k) (offset_of v es ti)
       /\ asize (jarg v T x (offset_of v es k) (offset_of v es ti)) <= c_size x) ->
    forall k c e, nth_error (concat gs) k = Some c -> nth_error es k = Some e ->
    c_size c <= c_size e;
  as_entries : mapM (fun x => fix_entry v (instruction_offsets v 0 (concat gs))
                     (label_offsets v 0 (concat gs)) (k_labels Kf) (snd x)) (k_ex Kf) = Ok en }.

Section Main.
  Variables (v : pyver) (T : optable) (keq : pyobj -> pyobj -> bool).
  Hypothesis wf : wf_optable v T = true.

  (** Indices of jumps, cells and frees. *)
  Section Lists.
    Variables (m : meta) (items : list bitem) (K0 : conv) (gs : list (list cinstr)) (Kf : conv).
    Hypothesis HT : trace v T keq m items K0 gs Kf.
    Hypothesis N1 : k_instrs K0 = [].
    Hypothesis N2 : k_jumps K0 = [].
    Hypothesis N3 : k_cells K0 = [].
    Hypothesis N4 : k_frees K0 = [].

    Lemma len_gs : length gs = length items.
    Proof. now destruct (trace_instrs _ _ _ _ _ _ _ _ HT). Qed.
    Lemma ins_gs : k_instrs Kf = concat gs.
    Proof. destruct (trace_instrs _ _ _ _ _ _ _ _ HT) as [H _]. now rewrite H, N1. Qed.

    Lemma jumps_In k l : In (k, l) (k_jumps Kf) <->
      exists p i, nth_error items p = Some (BI i) /\ i_arg i = OLabel l /\ k = start gs p.
    Proof.
      rewrite (trace_jumps _ _ _ _ _ _ _ _ HT), N2, N1. cbn [app length].
      rewrite (gather_In jumps_at items gs 0 (k, l) len_gs). cbn [Nat.add]. split.
      - intros (p & it & Hp & I). destruct it; cbn [jumps_at] in I; try contradiction.
        destruct (i_arg i) eqn:Ea; cbn in I; try contradiction. destruct I as [I|[]].
        injection I as <- <-. exists p, i. auto.
      - intros (p & i & Hp & Ea & ->). exists p, (BI i). split; [exact Hp|].
        cbn [jumps_at]. rewrite Ea. now left.
    Qed.

    Lemma cells_In k : In k (k_cells Kf) <->
      exists p i, nth_error items p = Some (BI i) /\ var_kind v T i = VCell /\ k = start gs p.
    Proof.
      rewrite (trace_cells _ _ _ _ _ _ _ _ HT), N3, N1. cbn [app length].
      rewrite (gather_In _ items gs 0 k len_gs). cbn [Nat.add]. split.
      - intros (p & it & Hp & I). destruct it; cbn [cells_at] in I; try contradiction.
        destruct (var_kind v T i) eqn:Ea; cbn in I; try contradiction. destruct I as [<-|[]].
        exists p, i. auto.
      - intros (p & i & Hp & Ea & ->). exists p, (BI i). split; [exact Hp|].
        cbn [cells_at]. rewrite Ea. now left.
    Qed.

    Lemma frees_In k : In k (k_frees Kf) <->
      exists p i, nth_error items p = Some (BI i) /\ var_kind v T i = VFree /\ k = start gs p.
    Proof.
      rewrite (trace_frees _ _ _ _ _ _ _ _ HT), N4, N1. cbn [app length].
      rewrite (gather_In _ items gs 0 k len_gs). cbn [Nat.add]. split.
      - intros (p & it & Hp & I). destruct it; cbn [frees_at] in I; try contradiction.
        destruct (var_kind v T i) eqn:Ea; cbn in I; try contradiction. destruct I as [<-|[]].
        exists p, i. auto.
      - intros (p & i & Hp & Ea & ->). exists p, (BI i). split; [exact Hp|].
        cbn [frees_at]. rewrite Ea. now left.
    Qed.

    Lemma nonempty_side {A} (g : nat -> bitem -> list A) :
      (forall n it, (forall i, it <> BI i) -> g n it = []) ->
      forall p it x, nth_error items p = Some it -> nth_error gs p = Some x ->
      x = [] -> forall n, g n it = [].
    Proof.
      intros H p it x Hp Hg -> n. destruct it; try (apply H; intros ? E; discriminate E).
      exfalso. eapply trace_nonempty; eauto.
    Qed.

    Lemma jumps_nodup : NoDup (map fst (k_jumps Kf)).
    Proof.
      rewrite (trace_jumps _ _ _ _ _ _ _ _ HT), N2. cbn [app].
      apply gather_NoDup.
      - apply nonempty_side. intros n it H. destruct it; try reflexivity. exfalso. eapply H; eauto.
      - intros n it. destruct it; cbn; try (split; [lia|intros ? []]).
        destruct (i_arg i); cbn; split; try lia; intros ? I; destruct I as [<-|[]]; reflexivity.
    Qed.
    Lemma cells_nodup : NoDup (k_cells Kf).
    Proof.
      rewrite (trace_cells _ _ _ _ _ _ _ _ HT), N3. cbn [app]. rewrite <- (map_id (gather _ _ _ _)).
      apply gather_NoDup.
      - apply nonempty_side. intros n it H. destruct it; try reflexivity. exfalso. eapply H; eauto.
      - intros n it. destruct it; cbn; try (split; [lia|intros ? []]).
        destruct (var_kind v T i); cbn; split; try lia; intros ? I; destruct I as [<-|[]]; reflexivity.
    Qed.
    Lemma frees_nodup : NoDup (k_frees Kf).
    Proof.
      rewrite (trace_frees _ _ _ _ _ _ _ _ HT), N4. cbn [app]. rewrite <- (map_id (gather _ _ _ _)).
      apply gather_NoDup.
      - apply nonempty_side. intros n it H. destruct it; try reflexivity. exfalso. eapply H; eauto.
      - intros n it. destruct it; cbn; try (split; [lia|intros ? []]).
        destruct (var_kind v T i); cbn; split; try lia; intros ? I; destruct I as [<-|[]]; reflexivity.
    Qed.

    Lemma start_item_inj p q i j : nth_error items p = Some (BI i) -> nth_error items q = Some (BI j) ->
      start gs p = start gs q -> p = q.
    Proof.
      intros Hp Hq E.
      destruct (trace_nth _ _ _ _ _ _ _ _ HT _ _ Hp) as (? & b1 & ? & ? & ? & c1 & _ & G1 & _).
      destruct (trace_nth _ _ _ _ _ _ _ _ HT _ _ Hq) as (? & b2 & ? & ? & ? & c2 & _ & G2 & _).
      pose proof (trace_nonempty _ _ _ _ _ _ _ _ _ _ _ HT Hp G1) as X1.
      pose proof (trace_nonempty _ _ _ _ _ _ _ _ _ _ _ HT Hq G2) as X2.
      apply (start_inj gs p q _ _ 0%nat 0%nat G1 G2).
      - destruct (b1 ++ c1); [congruence|cbn; lia].
      - destruct (b2 ++ c2); [congruence|cbn; lia].
      - lia.
    Qed.

    Lemma disjoint k : (In k (map fst (k_jumps Kf)) -> ~ In k (k_cells Kf) /\ ~ In k (k_frees Kf))
      /\ (In k (k_cells Kf) -> ~ In k (k_frees Kf)).
    Proof.
      split.
      - intros I. apply in_map_iff in I. destruct I as ([k' l] & E & I). cbn in E. subst k'.
        apply jumps_In in I. destruct I as (p & i & Hp & Ea & ->). split; intros C.
        + apply cells_In in C. destruct C as (q & j & Hq & Ej & E).
          pose proof (start_item_inj _ _ _ _ Hp Hq E). subst q. rewrite Hp in Hq. injection Hq as <-.
          unfold var_kind in Ej. rewrite Ea in Ej. discriminate.
        + apply frees_In in C. destruct C as (q & j & Hq & Ej & E).
          pose proof (start_item_inj _ _ _ _ Hp Hq E). subst q. rewrite Hp in Hq. injection Hq as <-.
          unfold var_kind in Ej. rewrite Ea in Ej. discriminate.
      - intros C F. apply cells_In in C. destruct C as (p & i & Hp & Ei & ->).
        apply frees_In in F. destruct F as (q & j & Hq & Ej & E).
        pose proof (start_item_inj _ _ _ _ Hp Hq E). subst q. rewrite Hp in Hq. injection Hq as <-.
        congruence.
    Qed.
  End Lists.

  Lemma fix_vars_inv m K ins : fix_vars v T m K = Ok ins -> NoDup (k_cells K) -> NoDup (k_frees K) ->
    (forall k, In k (k_cells K) -> ~ In k (k_frees K)) -> Forall (made v T) (k_instrs K) ->
    (forall k, In k (k_cells K) -> (k < length (k_instrs K))%nat) ->
    length ins = length (k_instrs K)
    /\ (forall k, ~ In k (k_cells K) -> ~ In k (k_frees K) -> nth_error ins k = nth_error (k_instrs K) k)
    /\ (forall k c, nth_error (k_instrs K) k = Some c -> exists c', nth_error ins k = Some c'
          /\ c_name c' = c_name c /\ c_op c' = c_op c /\ c_loc c' = c_loc c /\ made v T c')
    /\ (forall k, In k (k_cells K) -> exists c c', nth_error (k_instrs K) k = Some c
         /\ nth_error ins k = Some c'
         /\ let a := match c_arg c with Some a => a | None => 0 end in
            if PY311 v
            then nth_error (shared_indexes (k_varnames K) 0 (m_cellvars m)) (Z.to_nat a) = c_arg c'
            else c' = c)
    /\ (forall k, In k (k_frees K) -> exists c c', nth_error (k_instrs K) k = Some c
        /\ nth_error ins k = Some c'
        /\ c_arg c' = Some (match c_arg c with Some a => a | None => 0 end
            + if PY311 v then zlen (k_varnames K) + zlen (m_cellvars m)
                             - zlen (filter (fun n => str_mem n (k_varnames K)) (m_cellvars m))
              else zlen (m_cellvars m))).
  Proof.
    intros H NC NF D M R. unfold fix_vars in H. apply bind_ok in H. destruct H as (ins1 & H1 & H2).
    destruct (map_arg_fold _ _ _ _ _ _ NF H2) as (LF & OF & FF). clear H2.
    assert (S1 : length ins1 = length (k_instrs K)
      /\ (forall k, ~ In k (k_cells K) -> nth_error ins1 k = nth_error (k_instrs K) k)
      /\ (forall k, In k (k_cells K) -> exists c c', nth_error (k_instrs K) k = Some c
         /\ nth_error ins1 k = Some c' /\ c_name c' = c_name c /\ c_op c' = c_op c /\ c_loc c' = c_loc c
         /\ made v T c'
         /\ let a := match c_arg c with Some a => a | None => 0 end in
            if PY311 v
            then nth_error (shared_indexes (k_varnames K) 0 (m_cellvars m)) (Z.to_nat a) = c_arg c'
            else c' = c)).
    { destruct (PY311 v).
      - destruct (map_arg_fold _ _ _ _ _ _ NC H1) as (LC & OC & CC).
        split; [exact LC|]. split; [exact OC|]. intros k I.
        destruct (CC k I) as (c & a & c' & A1 & A2 & A3 & A4). exists c, c'.
        assert (Mc : made v T c) by (rewrite Forall_forall in M; apply M; eapply nth_error_In; eauto).
        destruct (set_arg_made _ _ _ _ _ Mc A3) as (B1 & B2 & B3 & B4 & B5 & _).
        repeat (split; [assumption|]). rewrite B5. apply of_option_ok in A2. exact A2.
      - injection H1 as <-. split; [reflexivity|]. split; [auto|]. intros k I.
        destruct (nth_error (k_instrs K) k) as [c|] eqn:E;
          [|apply nth_error_None in E; specialize (R k I); lia].
        exists c, c. repeat (split; [reflexivity|]). split; [|reflexivity].
        rewrite Forall_forall in M. apply M. eapply nth_error_In; eauto. }
    destruct S1 as (L1 & O1 & C1).
    split; [congruence|]. split; [|split; [|split]].
    - intros k A B. rewrite OF, O1; auto.
    - intros k c Hc.
      assert (X : exists c1, nth_error ins1 k = Some c1 /\ c_name c1 = c_name c /\ c_op c1 = c_op c
                 /\ c_loc c1 = c_loc c /\ made v T c1).
      { destruct (in_dec Nat.eq_dec k (k_cells K)) as [I|N].
        - destruct (C1 k I) as (c0 & c' & A1 & A2 & A3 & A4 & A5 & A6 & _).
          rewrite Hc in A1. injection A1 as <-. exists c'. auto.
        - rewrite O1 by assumption. exists c. repeat split; auto;
          rewrite Forall_forall in M; apply M; eapply nth_error_In; eauto. }
      destruct X as (c1 & X1 & X2 & X3 & X4 & X5).
      destruct (in_dec Nat.eq_dec k (k_frees K)) as [I|N].
      + destruct (FF k I) as (c0 & a & c' & A1 & A2 & A3 & A4). rewrite X1 in A1. injection A1 as <-.
        destruct (set_arg_made _ _ _ _ _ X5 A3) as (B1 & B2 & B3 & B4 & _).
        exists c'. repeat split; congruence || apply B1.
      + rewrite OF by assumption. exists c1. auto.
    - intros k I. destruct (C1 k I) as (c & c' & A1 & A2 & _ & _ & _ & _ & A7).
      exists c, c'. rewrite OF by auto. auto.
    - intros k I. destruct (FF k I) as (c & a & c' & A1 & A2 & A3 & A4).
      rewrite O1 in A1.
      + exists c, c'. apply set_arg_ok in A3. destruct A3 as (_ & _ & _ & _ & _ & -> & _).
        injection A2 as <-. auto.
      + intros X. exact (D _ X I).
  Qed.

  Lemma jump_slot m items K0 gs Kf k l :
    trace v T keq m items K0 gs Kf -> k_instrs K0 = [] -> k_jumps K0 = [] ->
    In (k, l) (k_jumps Kf) ->
    exists c, nth_error (concat gs) k = Some c /\ made v T c /\ c_arg c = Some 0 /\ c_size c = 2.
  Proof.
    intros HT N1 N2 I. apply (jumps_In _ _ _ _ _ HT N1 N2) in I. destruct I as (p & i & Hp & Ea & ->).
    destruct (trace_nth _ _ _ _ _ _ _ _ HT _ _ Hp)
      as (K1 & body & K2 & tr & K3 & caches & _ & Hg & He & _).
    cbn [P_Conv.item_effect] in He.
    destruct He as (co & na & va & first & name & arg & kind & c & E & Hc & Hb & _).
    destruct (encode_jump _ _ _ _ _ _ _ _ _ _ _ _ _ _ E Ea) as (-> & -> & -> & _). subst body.
    exists c. rewrite <- (Nat.add_0_r (start gs p)). rewrite (nth_concat gs p _ 0 Hg) by (cbn; lia).
    split; [reflexivity|]. pose proof (new_made _ _ _ _ _ _ Hc) as M. split; [exact M|].
    apply new_cinstr_ok in Hc. destruct Hc as (V & _ & A & _ & X). cbn in A. split; [exact A|].
    rewrite (vc_size _ _ _ V), A, X. reflexivity.
  Qed.

  Theorem to_concrete_assembled passes b cb : to_concrete v T keq passes b = Ok cb ->
    exists vn K0 gs0 Kf gs en, assembled v T keq b cb vn K0 gs0 Kf gs en.
  Proof.
    unfold to_concrete. intros H. apply bind_ok in H. destruct H as ([K ins] & HC & H).
    apply bind_ok in H. destruct H as ([r en] & HJ & H). injection H as <-.
    unfold concrete_instructions in HC. apply bind_ok in HC. destruct HC as (vn & Hvn & HC).
    apply bind_ok in HC. destruct HC as (Ka & HA & HC).
    apply bind_ok in HC. destruct HC as (Kf & HB & HC).
    apply bind_ok in HC. destruct HC as (ins' & HV & HC). injection HC as -> ->.
    set (co := match m_docstring (b_meta b) with OUnset => [] | d => fst (add_const keq [] d) end) in *.
    destruct (run_trace v T keq (b_meta b) (b_items b)
      (mkK [] [] [] [] 0 false co [] vn (line_loc (Some (m_first_lineno (b_meta b)))) [] [] false) K)
      as (tr & K0 & gs0 & HF & HT).
    { unfold conv_run. rewrite HA. exact HB. }
    clear HA HB.
    assert (HK0 : is_cache (hd_error (b_items b)) = false /\
      K0 = mkK [] [] [] [] 0 false co [] vn (line_loc (Some (m_first_lineno (b_meta b)))) [] [] tr).
    { cbn [with_try] in HF. unfold flush_caches in HF. destruct (is_cache (hd_error (b_items b))).
      - discriminate HF.
      - cbn in HF. injection HF as <-. now split. }
    destruct HK0 as [HK1 HK0].
    assert (N1 : k_instrs K0 = []) by (subst; reflexivity).
    assert (N2 : k_jumps K0 = []) by (subst; reflexivity).
    assert (N3 : k_cells K0 = []) by (subst; reflexivity).
    assert (N4 : k_frees K0 = []) by (subst; reflexivity).
    pose proof (ins_gs _ _ _ _ _ HT N1) as HI.
    assert (HM : Forall (made v T) (k_instrs K)).
    { eapply trace_made; eauto. rewrite N1. constructor. }
    pose proof (jumps_nodup _ _ _ _ _ HT N2) as NDJ.
    pose proof (disjoint _ _ _ _ _ HT N1 N2 N3 N4) as DJ.
    destruct (fix_vars_inv _ _ _ HV (cells_nodup _ _ _ _ _ HT N3)
      (frees_nodup _ _ _ _ _ HT N4)) as (V1 & V2 & V3 & V4 & V5).
    { intros k. apply (DJ k). }
    { exact HM. }
    { intros k I. apply (cells_In _ _ _ _ _ HT N1 N3) in I. destruct I as (p & i & Hp & _ & ->).
      destruct (trace_nth _ _ _ _ _ _ _ _ HT _ _ Hp) as (? & bo & ? & ? & ? & ca & _ & G & _).
      pose proof (trace_nonempty _ _ _ _ _ _ _ _ _ _ _ HT Hp G) as X.
      rewrite HI. assert (L : (0 < length (bo ++ ca))%nat) by (destruct (bo ++ ca); [congruence|cbn; lia]).
      pose proof (nth_concat gs0 p _ 0 G L) as Y. rewrite Nat.add_0_r in Y.
      apply nth_error_Some. rewrite Y. apply nth_error_Some. exact L. }
    rewrite HI in *.
    assert (JS : forall k l, In (k, l) (k_jumps K) -> exists c, nth_error ins k = Some c /\ made v T c /\ c_size c = 2).
    { intros k l I. destruct (jump_slot _ _ _ _ _ _ _ HT N1 N2 I) as (c & A1 & A2 & A3 & A4).
      exists c. split; [|now split].
      assert (Ik : In k (map fst (k_jumps K))) by (apply in_map_iff; exists (k, l); now split).
      rewrite V2; [exact A1| |]; apply (proj1 (DJ k) Ik). }
    assert (INV : inv T (k_jumps K) ins).
    { split.
      - apply Forall_forall. intros c Hc. apply In_nth_error in Hc. destruct Hc as (k & Hk).
        destruct (nth_same_length _ (concat gs0) _ _ V1 Hk) as (c0 & Hc0).
        destruct (V3 _ _ Hc0) as (c' & A1 & _ & _ & _ & A2). rewrite Hk in A1. injection A1 as <-.
        now apply (made_pos v T).
      - intros k c I Hk. apply in_map_iff in I. destruct I as ([k' l] & E & I). cbn in E. subst k'.
        destruct (JS _ _ I) as (c' & A1 & [A2 A3] & A4). rewrite Hk in A1. injection A1 as <-.
        unfold jump_ok. rewrite A4. repeat split; auto; try apply A2. lia. }
    destruct (compute_jumps_ok v T wf (k_labels K) (k_jumps K) NDJ (k_ex K) passes ins r en INV HJ)
      as (bb & P & Ib & Ir & Sz & Lb & Or & Jr & Er).
    assert (Lr : length r = length (concat gs0)).
    { rewrite (pa_len _ _ _ _ _ _ P). congruence. }
    assert (SZ : map c_size bb = map c_size r).
    { apply map_size_nth; [symmetry; apply P|exact Sz]. }
    destruct (regroup gs0 r Lr) as (gs & Eg & El). subst r.
    assert (SAME : forall k c, nth_error (concat gs0) k = Some c ->
      exists c', nth_error (concat gs) k = Some c' /\ c_name c' = c_name c /\ c_op c' = c_op c
                 /\ c_loc c' = c_loc c /\ made v T c').
    { intros k c Hc. destruct (V3 _ _ Hc) as (c1 & A1 & A2 & A3 & A4 & A5).
      destruct (in_dec Nat.eq_dec k (map fst (k_jumps K))) as [I|N].
      - destruct (Jr k I c1 A1) as (c' & B1 & B2 & B3 & B4 & B5). exists c'.
        repeat split; try congruence.
        + pose proof (vc_op _ _ _ (proj1 A5)). congruence.
        + rewrite B3. apply A5.
        + apply in_map_iff in I. destruct I as ([k' l] & E & I). cbn in E. subst k'.
          destruct (passed_jump v T wf _ _ _ _ _ _ P Ib I) as (ti & d & d' & _ & _ & D1 & D2 & D3 & D4 & _ & D5 & D6 & _ & D7 & D8 & D9).
          rewrite B1 in D2. injection D2 as <-. rewrite D8. split; [lia|].
          destruct (pa_jump _ _ _ _ _ _ P _ _ I) as (ti' & e1 & e2 & F1 & F2 & F3 & F4 & F5).
          apply set_arg_ok in F5. destruct F5 as (_ & _ & _ & _ & _ & _ & _ & F6 & _).
          rewrite B1 in F4. injection F4 as <-. exact F6.
        + apply in_map_iff in I. destruct I as ([k' l] & E & I). cbn in E. subst k'.
          destruct (passed_jump v T wf _ _ _ _ _ _ P Ib I) as (ti & d & d' & _ & _ & D1 & D2 & D3 & D4 & _ & D5 & D6 & _ & D7 & D8 & D9).
          rewrite B1 in D2. injection D2 as <-. rewrite D8, D9, B5. reflexivity.
      - exists c1. rewrite Or by assumption. auto. }
    exists vn, K0, gs0, K, gs, en. split; auto.
    - exists tr. exact HK0.
    - apply Forall_forall. intros c Hc. apply In_nth_error in Hc. destruct Hc as (k & Hk).
      destruct (nth_same_length _ (concat gs0) _ _ Lr Hk) as (c0 & Hc0).
      destruct (SAME _ _ Hc0) as (c' & A1 & _ & _ & _ & A2). congruence.
    - intros k c Hc. destruct (SAME _ _ Hc) as (c' & A). exists c'. tauto.
    - intros k A B C. rewrite Or by assumption. now apply V2.
    - intros k I. destruct (V4 k I) as (c & c' & A1 & A2 & A3). exists c, c'.
      split; [exact A1|]. split; [|exact A3]. rewrite Or; [exact A2|]. intros X. now apply (DJ k) in X.
    - intros k I. destruct (V5 k I) as (c & c' & A1 & A2 & A3). exists c, c'.
      split; [exact A1|]. split; [|exact A3]. rewrite Or; [exact A2|]. intros X. apply (DJ k) in X. tauto.
    - intros k l I.
      destruct (passed_jump v T wf _ _ _ _ _ _ P Ib I) as (ti & d & d' & D0 & D0' & D1 & D2 & D3 & D4 & _ & D5 & D6 & _ & D7 & D8 & D9).
      exists ti, d'. split; [exact D0|]. split; [rewrite (pa_len _ _ _ _ _ _ P); exact D0'|]. split; [exact D2|].
      rewrite <- !(off_same_sizes v _ _ SZ). unfold jumps_to. rewrite D8, D5, D6, (Sz _ _ _ D1 D2).
      unfold jarg, is_forward_rel_jump, is_backward_rel_jump, in_HASJREL, use_cache_opcodes.
      rewrite !units_in. destruct (z_mem (c_op d) (t_hasjrel T)); cbn [andb]; [|reflexivity].
      destruct (str_contains "BACKWARD" (c_name d)); cbn [negb andb]; lia.
    - intros es Pe Le Ho Hj.
      enough (X : le_n (concat gs) es) by (intros k c e H1 H2; apply (proj2 X _ _ _ H1 H2)).
      eapply (compute_jumps_least v T wf (k_labels K) (k_jumps K) NDJ (k_ex K) passes es ins); eauto.
      split; [congruence|]. intros k c e Hc He.
      destruct (nth_same_length _ (concat gs0) _ _ V1 Hc) as (c0 & Hc0).
      destruct (V3 _ _ Hc0) as (c1 & A1 & A2 & A3 & _). rewrite Hc in A1. injection A1 as <-.
      destruct (SAME _ _ Hc0) as (c' & B1 & B2 & B3 & _).
      destruct (Ho _ _ _ B1 He) as (C1 & C2 & C3). split; [congruence|]. split; [congruence|].
      destruct (in_dec Nat.eq_dec k (map fst (k_jumps K))) as [I|N].
      + apply in_map_iff in I. destruct I as ([k' l] & E & I). cbn in E. subst k'.
        destruct (JS _ _ I) as (d & D1 & _ & D2). rewrite Hc in D1. injection D1 as <-. rewrite D2.
        rewrite Forall_forall in Pe. apply (Pe e). eapply nth_error_In; eauto.
      + rewrite Or, Hc in B1 by assumption. injection B1 as <-. auto.
    - rewrite <- (label_offsets_same v _ _ SZ), <- (instruction_offsets_same v _ _ SZ). exact Er.
  Qed.
End Main.
