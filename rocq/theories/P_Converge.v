(** Convergence of the jump passes, seen from to_concrete_bytecode. *)
From Verif Require Import PyBase OpTable CPy M_Instr M_Tables M_Concrete M_Convert P_Base S_Args
  P_OpTable P_Asm S_Asm P_Conv P_Conv2 P_Jumps P_Jumps2 P_Layout P_Layout2.
Open Scope string_scope.
Open Scope list_scope.
Open Scope Z_scope.

Lemma of_option_err {A} e (o : option A) e' : of_option e o = Err e' -> e' = e.
Proof. destruct o; cbn; congruence. Qed.

Ltac step H := match type of H with bind ?x _ = _ =>
  let y := fresh "y" in let e := fresh "e" in let E := fresh "E" in
  destruct x as [y|e] eqn:E; cbn [bind] in H end.

Lemma check_arg_int_err a e : check_arg_int a = Err e -> e <> RuntimeError.
Proof.
  unfold check_arg_int. destruct (as_int a); [|congruence]. destruct (_ && _); congruence.
Qed.

Lemma new_cinstr_err v T n a l x e : new_cinstr v T n a l x = Err e -> e <> RuntimeError.
Proof.
  unfold new_cinstr. intros H. step H.
  - step H; [discriminate|]. injection H as ->.
    unfold c_check_arg in E0. destruct (opcode_has_argument v T y).
    + destruct (is_unset a); [congruence|]. eapply check_arg_int_err; eauto.
    + destruct (y =? 0); [eapply check_arg_int_err; eauto|]. destruct (is_unset a); congruence.
  - injection H as ->. unfold resolve_name in E. destruct (opmap T n); [|congruence].
    destruct (_ <=? _); congruence.
Qed.

Lemma encode_arg_err v T keq m K i e : encode_arg v T keq m K i = Err e -> e <> RuntimeError.
Proof.
  unfold encode_arg. intros H.
  destruct (i_arg i) eqn:Ea;
    repeat match type of H with
    | context [match ?x with _ => _ end] =>
        match x with
        | add_name _ _ => destruct x
        | add_const _ _ _ => destruct x
        | _ => let E := fresh "E" in destruct x eqn:E; try discriminate H
        end
    end; try congruence; inversion H; subst; discriminate.
Qed.

Section S.
  Variables (v : pyver) (T : optable) (keq : pyobj -> pyobj -> bool).
  Hypothesis wf : wf_optable v T = true.

  Lemma flush_err K it e : is_cache it = false -> k_manual K = false ->
    flush_caches v T K it = Err e -> e <> RuntimeError.
  Proof.
    destruct K as [ins0 jumps0 labels0 ex0 req0 manual0 co0 na0 va0 lo0 ce0 fr0 tr0]; cbn [k_manual]. intros C -> H. unfold flush_caches in H. rewrite C in H.
    destruct (req0 =? 0); [discriminate|].
    step H; [step H; [discriminate|]|].
    - injection H as ->. eapply new_cinstr_err; eauto.
    - injection H as ->. destruct (nth_error _ _); discriminate || (injection E as <-; discriminate).
  Qed.

  Lemma flush_manual K it K' : is_cache it = false -> k_manual K = false ->
    flush_caches v T K it = Ok K' -> k_manual K' = false /\ k_try K' = k_try K.
  Proof.
    destruct K as [ins0 jumps0 labels0 ex0 req0 manual0 co0 na0 va0 lo0 ce0 fr0 tr0]; cbn [k_manual k_try]. intros C -> H. unfold flush_caches in H. rewrite C in H.
    destruct (req0 =? 0); [injection H as <-; now split|].
    step H; [|discriminate]. step H; [|discriminate]. injection H as <-. now split.
  Qed.

  Lemma body_err m K it e : conv_body v T keq m K it = Err e -> e <> RuntimeError.
  Proof.
    destruct K as [ins0 jumps0 labels0 ex0 req0 manual0 co0 na0 va0 lo0 ce0 fr0 tr0]. unfold conv_body. intros H. destruct it.
    - step H; [|injection H as ->; eapply encode_arg_err; eauto].
      destruct y as [[[[[[co na] va] first] name] arg] kind].
      step H.
      + destruct y as [ins p]. step H; [discriminate|]. injection H as ->. eapply new_cinstr_err; eauto.
      + injection H as ->. destruct first as [[n1 j1]|]; [|discriminate]. step E0; [discriminate|].
        injection E0 as ->. eapply new_cinstr_err; eauto.
    - discriminate.
    - discriminate.
    - step H; [discriminate|]. injection H as ->. destruct depth; [discriminate|injection E as <-; discriminate].
    - step H; [discriminate|]. injection H as ->.
      destruct (dget _ _ _); [discriminate|injection E as <-; discriminate].
  Qed.

  Lemma body_keep m K it K' : conv_body v T keq m K it = Ok K' -> k_manual K = false ->
    k_manual K' = false /\ k_try K' = k_try K.
  Proof.
    destruct K as [ins0 jumps0 labels0 ex0 req0 manual0 co0 na0 va0 lo0 ce0 fr0 tr0]. unfold conv_body. cbn [k_manual k_try]. intros H ->. destruct it.
    - step H; [|discriminate]. destruct y as [[[[[[co na] va] first] name] arg] kind].
      step H; [|discriminate]. destruct y as [ins p]. step H; [|discriminate]. injection H as <-. cbn.
      now destruct (PY311 v).
    - injection H as <-. now split.
    - injection H as <-. now split.
    - step H; [|discriminate]. injection H as <-. now split.
    - step H; [|discriminate]. injection H as <-. now split.
  Qed.

  Lemma conv_fold_err m items : forall K e, k_manual K = false ->
    (forall i, In (BI i) items -> i_name i <> "CACHE") -> flat_try (k_try K) items ->
    foldM (conv_item v T keq m) items K = Err e -> e <> RuntimeError.
  Proof.
    induction items as [|it items IH]; intros K e HM HN HF H; cbn [foldM] in H; [discriminate|].
    assert (C : is_cache (Some it) = false).
    { destruct it; try reflexivity. cbn. destruct (String.eqb_spec (i_name i) "CACHE"); [|reflexivity].
      exfalso. apply (HN i); [now left|assumption]. }
    assert (I : exists tr, iter_check (k_try K) it = Ok tr /\ flat_try tr items).
    { destruct it; cbn in HF |- *; try (eexists; split; [reflexivity|assumption]).
      destruct HF as [-> HF]. eauto. }
    destruct I as (tr & I & HF').
    step H.
    - unfold conv_item in E. rewrite I in E. cbn [bind] in E. destruct K as [ins0 jumps0 labels0 ex0 req0 manual0 co0 na0 va0 lo0 ce0 fr0 tr0]. cbn [k_manual] in HM. subst.
      step E; [|discriminate]. apply flush_manual in E0; [|assumption|reflexivity]. cbn in E0. destruct E0 as [M1 M2].
      apply body_keep in E; [|assumption]. destruct E as [E1 E2]. eapply IH; [exact E1| | |exact H].
      + intros i Hi. apply HN. now right.
      + now rewrite E2, M2.
    - injection H as ->. unfold conv_item in E. rewrite I in E. cbn [bind] in E.
      destruct K as [ins0 jumps0 labels0 ex0 req0 manual0 co0 na0 va0 lo0 ce0 fr0 tr0]. cbn [k_manual] in HM. subst.
      step E; [eapply body_err; eauto|]. injection E as ->.
      eapply flush_err; [| |exact E0]; [assumption|reflexivity].
  Qed.

  Lemma conv_fold_manual m items : forall K K', k_manual K = false ->
    (forall i, In (BI i) items -> i_name i <> "CACHE") -> 
    foldM (conv_item v T keq m) items K = Ok K' -> k_manual K' = false.
  Proof.
    induction items as [|it items IH]; intros K K' HM HN H; cbn [foldM] in H; [injection H as <-; exact HM|].
    assert (C : is_cache (Some it) = false).
    { destruct it; try reflexivity. cbn. destruct (String.eqb_spec (i_name i) "CACHE"); [|reflexivity].
      exfalso. apply (HN i); [now left|assumption]. }
    step H; [|discriminate]. eapply (IH y); [| |exact H].
    - unfold conv_item in E. step E; [|discriminate]. destruct K as [ins0 jumps0 labels0 ex0 req0 manual0 co0 na0 va0 lo0 ce0 fr0 tr0]. cbn [k_manual] in HM. subst.
      step E; [|discriminate]. apply flush_manual in E1; [|assumption|reflexivity]. destruct E1 as [M1 _].
      now apply body_keep in E.
    - intros i Hi. apply HN. now right.
  Qed.

  Lemma prescan_err names items e : flat_try false items -> prescan v T names items = Err e -> e <> RuntimeError.
  Proof.
    unfold prescan. intros F H. destruct (PY313 v); [|discriminate]. step H; [discriminate|]. injection H as ->.
    revert names E. generalize false F. clear. induction items as [|it items IH]; intros tr F names H; cbn [foldM] in H;
      [discriminate|].
    assert (I : exists tr', iter_check tr it = Ok tr' /\ flat_try tr' items).
    { destruct it; cbn in F |- *; try (eexists; split; [reflexivity|assumption]).
      destruct F as [-> F]. eauto. }
    destruct I as (tr' & I & F').
    assert (X : (exists n', prescan_item v T (names, tr) it = Ok (n', tr'))
                \/ exists e, prescan_item v T (names, tr) it = Err e /\ e <> RuntimeError).
    { unfold prescan_item. rewrite I. cbn [bind]. destruct it; eauto.
      destruct (is_dual v T (i_op i)); eauto. destruct (i_arg i); try (right; eexists; split; [reflexivity|discriminate]).
      match goal with |- context [foldM ?f ?l ?x] => destruct (foldM f l x) as [n'|e'] eqn:Ef end; cbn [bind]; eauto.
      right. exists e'. split; [reflexivity|]. clear -Ef. revert names Ef. induction l as [|o l IHl]; intros names Ef;
        cbn [foldM] in Ef; [discriminate|].
      destruct o; cbn [bind] in Ef; try (injection Ef as <-; discriminate). eapply IHl; eauto. }
    destruct X as [(n' & X)|(e' & X & N)]; rewrite X in H; cbn [bind] in H.
    - eapply IH; eauto.
    - injection H as <-. exact N.
  Qed.

  Lemma set_arg_err' c a e : set_arg v T c a = Err e -> e <> RuntimeError.
  Proof.
    unfold set_arg, c_set. intros H. destruct (resolve_name T (c_name c)) as [op|e'] eqn:R.
    - destruct (c_check_arg v T op (OInt a)) eqn:C; [discriminate|]. injection H as ->.
      unfold c_check_arg in C. destruct (opcode_has_argument v T op).
      + exact (check_arg_int_err (OInt a) e C).
      + destruct (op =? 0); [exact (check_arg_int_err (OInt a) e C)|]. cbn in C. congruence.
    - injection H as ->. unfold resolve_name in R. destruct (opmap T (c_name c)); [|congruence].
      destruct (_ <=? _); congruence.
  Qed.

  Lemma map_arg_err f l e : (forall a e, f a = Err e -> e <> RuntimeError) -> forall ins,
    foldM (map_arg_at v T f) l ins = Err e -> e <> RuntimeError.
  Proof.
    intros Hf. induction l as [|n l IH]; intros ins H; cbn [foldM] in H; [discriminate|].
    step H; [eapply IH; eauto|]. injection H as ->. unfold map_arg_at in E.
    step E; [|injection E as ->; destruct (nth_error _ _); [discriminate|injection E0 as <-; discriminate]].
    step E; [|injection E as ->; eapply Hf; eauto].
    step E; [discriminate|]. injection E as ->. eapply set_arg_err'; eauto.
  Qed.

  Lemma fix_vars_err m K e : fix_vars v T m K = Err e -> e <> RuntimeError.
  Proof.
    unfold fix_vars. intros H. step H.
    - eapply map_arg_err; [|exact H]. discriminate.
    - injection H as ->. destruct (PY311 v); [|discriminate]. eapply map_arg_err; [|exact E].
      cbv beta. intros a e' X. apply of_option_err in X. subst. discriminate.
  Qed.

  Lemma concrete_instructions_err m co vn items e : no_cache items -> flat_try false items ->
    concrete_instructions v T keq m co vn items = Err e -> e <> RuntimeError.
  Proof.
    intros N F H. unfold concrete_instructions in H.
    step H; [|injection H as ->; eapply prescan_err; eauto].
    step H; [|injection H as ->; eapply conv_fold_err; [| | |exact E0]; auto].
    step H.
    - step H; [discriminate|]. injection H as ->. eapply fix_vars_err; eauto.
    - injection H as ->. eapply flush_err; [| |exact E1]; [reflexivity|].
      eapply conv_fold_manual; [| |exact E0]; auto.
  Qed.

  Lemma gather_jumps_length items : forall n (gs : list (list cinstr)), length gs = length items ->
    length (gather jumps_at n items gs) = length (filter takes_label items).
  Proof.
    induction items as [|it items IH]; intros n [|g gs] L; try discriminate; [reflexivity|].
    injection L as L. cbn [gather filter]. rewrite app_length, (IH _ _ L).
    destruct it; try reflexivity. cbn. destruct (i_arg i); reflexivity.
  Qed.

  (** The instructions before the jump passes. *)
  Lemma before_jumps m co vn items K ins : concrete_instructions v T keq m co vn items = Ok (K, ins) ->
    NoDup (map fst (k_jumps K)) /\ length (k_jumps K) = length (filter takes_label items)
    /\ inv T (k_jumps K) ins
    /\ (forall k l, In (k, l) (k_jumps K) -> exists c, nth_error ins k = Some c /\ c_size c = 2).
  Proof.
    intros HC.
    unfold concrete_instructions in HC. apply bind_ok in HC. destruct HC as (vn' & Hvn & HC).
    apply bind_ok in HC. destruct HC as (Ka & HA & HC).
    apply bind_ok in HC. destruct HC as (Kf & HB & HC).
    apply bind_ok in HC. destruct HC as (ins' & HV & HC). injection HC as -> ->.
    destruct (run_trace v T keq m items
      (mkK [] [] [] [] 0 false co [] vn' (line_loc (Some (m_first_lineno m))) [] [] false) K)
      as (tr & K0 & gs0 & HF & HT).
    { unfold conv_run. rewrite HA. exact HB. }
    clear HA HB.
    assert (HK0 : K0 = mkK [] [] [] [] 0 false co [] vn' (line_loc (Some (m_first_lineno m))) [] [] tr).
    { cbn [with_try] in HF. unfold flush_caches in HF. destruct (is_cache (hd_error items)).
      - discriminate HF.
      - cbn in HF. injection HF as <-. reflexivity. }
    assert (N1 : k_instrs K0 = []) by (subst; reflexivity).
    assert (N2 : k_jumps K0 = []) by (subst; reflexivity).
    assert (N3 : k_cells K0 = []) by (subst; reflexivity).
    assert (N4 : k_frees K0 = []) by (subst; reflexivity).
    pose proof (ins_gs _ _ _ _ _ _ _ _ HT N1) as HI.
    assert (HM : Forall (made v T) (k_instrs K)).
    { eapply trace_made; eauto. rewrite N1. constructor. }
    pose proof (jumps_nodup v T keq wf _ _ _ _ _ HT N2) as NDJ.
    pose proof (disjoint v T keq wf _ _ _ _ _ HT N1 N2 N3 N4) as DJ.
    destruct (fix_vars_inv v T wf _ _ _ HV (cells_nodup v T keq wf _ _ _ _ _ HT N3)
      (frees_nodup v T keq wf _ _ _ _ _ HT N4)) as (V1 & V2 & V3 & V4 & V5).
    { intros k. apply (DJ k). }
    { exact HM. }
    { intros k I. apply (cells_In _ _ _ _ _ _ _ _ HT N1 N3) in I. destruct I as (p & i & Hp & _ & ->).
      destruct (trace_nth _ _ _ _ _ _ _ _ HT _ _ Hp) as (? & bo & ? & ? & ? & ca & _ & G & _).
      pose proof (trace_nonempty _ _ _ _ _ _ _ _ _ _ _ HT Hp G) as X.
      rewrite HI. assert (L : (0 < length (bo ++ ca))%nat) by (destruct (bo ++ ca); [congruence|cbn; lia]).
      pose proof (nth_concat gs0 p _ 0 G L) as Y. rewrite Nat.add_0_r in Y.
      apply nth_error_Some. rewrite Y. apply nth_error_Some. exact L. }
    rewrite HI in *.
    assert (JS : forall k l, In (k, l) (k_jumps K) -> exists c, nth_error ins k = Some c /\ made v T c /\ c_size c = 2).
    { intros k l I. destruct (jump_slot v T keq wf _ _ _ _ _ _ _ HT N1 N2 I) as (c & A1 & A2 & A3 & A4).
      exists c. split; [|now split].
      assert (Ik : In k (map fst (k_jumps K))) by (apply in_map_iff; exists (k, l); now split).
      rewrite V2; [exact A1| |]; apply (proj1 (DJ k) Ik). }
    split; [exact NDJ|]. split; [|split].
    - rewrite (trace_jumps _ _ _ _ _ _ _ _ HT), N2. cbn [app]. apply gather_jumps_length.
      eapply len_gs; eauto.
    - split.
      + apply Forall_forall. intros c Hc. apply In_nth_error in Hc. destruct Hc as (k & Hk).
        destruct (nth_same_length _ (concat gs0) _ _ V1 Hk) as (c0 & Hc0).
        destruct (V3 _ _ Hc0) as (c' & A1 & _ & _ & _ & A2). rewrite Hk in A1. injection A1 as <-.
        now apply (made_pos v T).
      + intros k c I Hk. apply in_map_iff in I. destruct I as ([k' l] & E & I). cbn in E. subst k'.
        destruct (JS _ _ I) as (c' & A1 & [A2 A3] & A4). rewrite Hk in A1. injection A1 as <-.
        unfold jump_ok. rewrite A4. repeat split; auto; try apply A2. lia.
    - intros k l I. destruct (JS _ _ I) as (c & A1 & _ & A2). eauto.
  Qed.

  Lemma slack_start jumps ins : (forall k l, In (k, l) jumps -> exists c, nth_error ins k = Some c /\ c_size c = 2) ->
    slack jumps ins = 6 * zlen jumps.
  Proof.
    unfold slack, zlen. induction jumps as [|[k l] js IH]; intros H; cbn [map fold_right length fst]; [lia|].
    destruct (H k l (or_introl eq_refl)) as (c & -> & ->). rewrite IH; [lia|].
    intros k' l' I. apply (H k' l'). now right.
  Qed.

  Lemma first_pass_grows labels jumps ins a' mo : NoDup (map fst jumps) -> inv T jumps ins ->
    (forall k l, In (k, l) jumps -> exists c, nth_error ins k = Some c /\ c_size c = 2) ->
    jump_pass v T labels jumps ins = Ok (a', mo) -> le_n ins a'.
  Proof.
    intros ND I H E. destruct (jump_pass_ok v T wf labels jumps ND _ _ _ E) as [P _].
    pose proof (passed_inv v T wf labels jumps _ _ P I) as [PI _].
    split; [symmetry; apply P|]. intros k c x Hc Hx.
    destruct (in_dec Nat.eq_dec k (map fst jumps)) as [J|N].
    - apply in_map_iff in J. destruct J as ([k' l] & Ek & J). cbn in Ek. subst k'.
      destruct (passed_jump v T wf labels jumps _ _ _ _ P I J)
        as (ti & c0 & c' & A1 & A2 & A3 & A4 & A5 & _ & _ & A6 & A7 & _).
      rewrite Hc in A3. injection A3 as <-. rewrite Hx in A4. injection A4 as <-.
      destruct (H _ _ J) as (d & D1 & D2). rewrite Hc in D1. injection D1 as <-.
      repeat split; try congruence. rewrite D2.
      rewrite Forall_forall in PI. apply (PI x). eapply nth_error_In; eauto.
    - rewrite (pa_other _ _ _ _ _ _ P _ N) in Hx. rewrite Hc in Hx. injection Hx as <-. repeat split; lia.
  Qed.

  Theorem enough_passes passes b :
    3 * zlen (filter takes_label (b_items b)) < Z.of_nat passes ->
    (no_cache (b_items b) -> flat_try false (b_items b) ->
     to_concrete v T keq passes b <> Err RuntimeError)
    /\ (forall more, (passes <= more)%nat ->
          to_concrete v T keq more b = to_concrete v T keq passes b).
  Proof.
    intros Hp. unfold to_concrete.
    set (co := match m_docstring (b_meta b) with OUnset => [] | d => fst (add_const keq [] d) end).
    destruct (concrete_instructions v T keq (b_meta b) co (b_argnames b) (b_items b)) as [[K ins]|e] eqn:HC;
      cbn [bind].
    2:{ split; [|reflexivity]. intros N F X. injection X as ->. eapply concrete_instructions_err; eauto. }
    destruct (before_jumps _ _ _ _ _ _ HC) as (ND & LJ & I & J2).
    assert (Hs : slack (k_jumps K) ins < 2 * Z.of_nat passes).
    { rewrite (slack_start _ _ J2). unfold zlen in *. rewrite LJ. lia. }
    pose proof (compute_jumps_converges v T wf (k_labels K) (k_jumps K) ND (k_ex K) passes ins I
      (fun a' mo E => first_pass_grows _ _ _ _ _ ND I J2 E) Hs) as C.
    split.
    - intros _ _ X. destruct C as [(e & C & NE)|([r en] & C)]; rewrite C in X; cbn [bind] in X; [congruence|discriminate].
    - intros more Lm. 
      rewrite (compute_jumps_more v T wf (k_labels K) (k_jumps K) (k_ex K) passes more Lm ins _ eq_refl); [reflexivity|].
      destruct C as [(e & C & NE)|(r & C)]; rewrite C; [congruence|discriminate].
  Qed.
End S.
