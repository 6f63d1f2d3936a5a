(** Proofs about flag inference. *)
From Verif Require Import PyBase OpTable CPy M_Instr M_Tables M_Concrete M_Flags S_Args S_Flags
  P_Base P_OpTable P_Cat.
Open Scope string_scope.
Open Scope list_scope.
Open Scope Z_scope.

Definition reals (l : list fitem) : list (string * Z * pyobj) :=
  flat_map (fun x => match x with FInstr n op a => [(n, op, a)] | _ => [] end) l.

Fixpoint resumed_b (await : bool) (R : list (string * Z * pyobj)) : bool :=
  match R with
  | (n, _, _) :: R' =>
      (String.eqb n "YIELD_VALUE"
       && match R' with
          | (m, _, a) :: _ => String.eqb m "RESUME"
              && match as_int a with Some z => Bool.eqb (z mod 4 =? 3) await | None => false end
          | [] => false
          end) || resumed_b await R'
  | [] => false
  end.

  Lemma next_real_spec l x l' : next_real l = Ok (x, l') ->
    (length l' < length l)%nat
    /\ match x with FInstr n op a => reals l = (n, op, a) :: reals l' | _ => True end
    /\ (forall e, x <> FRaise e) /\ x <> FPseudo.
  Proof.
    induction l as [|y l IH]; simpl; [discriminate|].
    destruct y; try discriminate.
    - intros H. destruct (IH H) as (A & B & C). split; [lia|]. split; [|exact C]. exact B.
    - intros H. injection H as <- <-. repeat split; try discriminate. lia.
    - intros H. injection H as <- <-. repeat split; try discriminate. lia.
  Qed.

Section Flags.
  Variables (v : pyver) (T : optable) (concrete : bool).
  Hypothesis wf : wf_optable v T = true.
  Hypothesis wff : wf_flags v T = true.

  Definition wfop (x : string * Z * pyobj) : Prop :=
    let '(n, op, a) := x in opmap T n = Some op /\ op < t_min_instrumented T.

  Lemma opcode_is_name n op a m : wfop (n, op, a) -> opcode_is T m op = String.eqb n m.
  Proof.
    intros [H _]. unfold opcode_is. destruct (opmap T m) as [o|] eqn:E.
    - destruct (Z.eqb_spec o op) as [->|N].
      + pose proof (opmap_inj v T wf _ _ _ H E) as ->. now rewrite String.eqb_refl.
      + destruct (String.eqb_spec n m) as [->|]; [|reflexivity]. congruence.
    - destruct (String.eqb_spec n m) as [->|]; [|reflexivity]. congruence.
  Qed.

  Lemma opcode_in_name n op a ms : wfop (n, op, a) -> opcode_in T ms op = str_mem n ms.
  Proof.
    intros H. unfold opcode_in, str_mem. induction ms as [|m ms IH]; simpl; [reflexivity|].
    now rewrite (opcode_is_name _ _ _ m H), IH.
  Qed.

  Lemma special_not n op a : wfop (n, op, a) -> In n (special_names v) ->
    z_mem op (t_hasfree T) = false /\ z_mem op (t_haslocal T) = false.
  Proof.
    intros [H _] I. unfold wf_flags in wff. rewrite forallb_forall in wff.
    specialize (wff n I). rewrite H in wff. apply andb_prop in wff.
    destruct wff as [A B]. now rewrite negb_true_iff in A, B.
  Qed.

  Lemma dual_local n op a : wfop (n, op, a) -> is_dual v T op = true ->
    z_mem op (t_haslocal T) = true.
  Proof.
    intros [H L] D. destruct (wf_base v T wf n op H L) as (_ & _ & _ & _ & _ & X & _).
    now rewrite D in X.
  Qed.

  Definition freeish (x : string * Z * pyobj) : bool :=
    let '(n, op, a) := x in
    z_mem op (t_hasfree T) || (negb concrete && is_dual v T op && dual_cell a)
    || (PY313 v && z_mem op (t_haslocal T) && is_cell_or_free a).

  Definition named (ms : list string) (x : string * Z * pyobj) : bool :=
    let '(n, _, _) := x in str_mem n ms.

  Lemma special_not_freeish n op a : wfop (n, op, a) -> In n (special_names v) ->
    freeish (n, op, a) = false.
  Proof.
    intros W I. destruct (special_not _ _ _ W I) as [A B]. unfold freeish. rewrite A, B.
    destruct (is_dual v T op) eqn:D.
    - now rewrite (dual_local _ _ _ W D) in B.
    - now rewrite !andb_false_r.
  Qed.

  Definition yields_b (R : list (string * Z * pyobj)) : bool :=
    if PY311 v then resumed_b false R else existsb (named ["YIELD_VALUE"]) R.
  Definition awaits_b (R : list (string * Z * pyobj)) : bool :=
    existsb (named (async_names v)) R || (PY311 v && resumed_b true R).
  Definition delegates_b (R : list (string * Z * pyobj)) : bool :=
    existsb (named [if PY311 v then "RETURN_GENERATOR" else "YIELD_FROM"]) R.
  Definition names_b (R : list (string * Z * pyobj)) : bool :=
    existsb (named ["LOAD_NAME"; "STORE_NAME"; "DELETE_NAME"]) R.

  Lemma unopt_named n op a : wfop (n, op, a) ->
    unoptimized_op T op = named ["LOAD_NAME"; "STORE_NAME"; "DELETE_NAME"] (n, op, a).
  Proof.
    intros W. unfold unoptimized_op. rewrite (opcode_in_name _ _ _ _ W). unfold named, str_mem.
    cbn [existsb]. destruct (String.eqb n "STORE_NAME"), (String.eqb n "LOAD_NAME"); reflexivity.
  Qed.

  Lemma async_named n op a : wfop (n, op, a) ->
    async_op v T op = named (async_names v) (n, op, a).
  Proof.
    intros W. unfold async_op. rewrite (opcode_in_name _ _ _ _ W). unfold named, str_mem, async_names.
    rewrite !existsb_app. cbn [existsb]. rewrite !orb_false_r, <- !orb_assoc.
    repeat match goal with |- context[String.eqb n ?s] => destruct (String.eqb n s) end;
      try reflexivity; cbn [orb]; rewrite ?orb_true_r, ?orb_false_r; try reflexivity.
  Qed.

  Lemma yield_named n op a : wfop (n, op, a) -> yield_op T op = String.eqb n "YIELD_VALUE".
  Proof. intros W. exact (opcode_is_name _ _ _ _ W). Qed.

  Lemma genlike_named n op a : wfop (n, op, a) -> generator_like_op v T op =
    named [if PY311 v then "RETURN_GENERATOR" else "YIELD_FROM"] (n, op, a).
  Proof.
    intros W. unfold generator_like_op. rewrite (opcode_in_name _ _ _ _ W).
    unfold named, str_mem. destruct (PY311 v); reflexivity.
  Qed.

  Lemma named_special n op a ms : incl ms (special_names v) -> named ms (n, op, a) = true ->
    In n (special_names v).
  Proof. intros I H. unfold named in H. apply str_mem_In in H. auto. Qed.

  Lemma incl_special : incl (async_names v) (special_names v).
  Proof. unfold special_names. intros x I. apply in_or_app. now right. Qed.

  (** the result of the loop, in terms of what occurs in the sequence *)
  Lemma loop_spec fuel : forall l s s', (length l <= fuel)%nat -> Forall wfop (reals l) ->
    infer_loop v T concrete fuel l s = Ok s' ->
    s' = mkF (f_optimized s && negb (names_b (reals l)))
             (f_has_free s || existsb freeish (reals l))
             (f_async s || awaits_b (reals l))
             (f_gen s || yields_b (reals l))
             (f_possible s || delegates_b (reals l)).
  Proof.
    induction fuel as [|f IH]; intros l s s' L W E.
    { destruct l; [|simpl in L; lia]. simpl in E. injection E as <-. destruct s. cbn.
      unfold yields_b, awaits_b. destruct (PY311 v); cbn; now rewrite ?andb_true_r, ?orb_false_r. }
    destruct l as [|x l].
    { simpl in E. injection E as <-. destruct s. cbn. unfold yields_b, awaits_b.
      destruct (PY311 v); cbn; now rewrite ?andb_true_r, ?orb_false_r. }
    simpl in L. destruct x as [| | |n op a]; cbn [infer_loop] in E; try discriminate.
    { apply (IH l s s'); [lia|exact W|exact E]. }
    change (reals (FInstr n op a :: l)) with ((n, op, a) :: reals l) in *.
    inversion W as [|x R Wx Wl]; subst.
    destruct s as [opt fr asy gen pos].
    assert (step : forall s0,
      infer_loop v T concrete f l s0 = Ok s' ->
      s' = mkF (f_optimized s0 && negb (names_b (reals l)))
             (f_has_free s0 || existsb freeish (reals l))
             (f_async s0 || awaits_b (reals l))
             (f_gen s0 || yields_b (reals l))
             (f_possible s0 || delegates_b (reals l))) by (intros; apply IH with (l := l); [lia|exact Wl|assumption]).
    assert (NY : String.eqb n "YIELD_VALUE" = false \/ PY311 v = false ->
       awaits_b ((n, op, a) :: reals l) = named (async_names v) (n, op, a) || awaits_b (reals l)
       /\ yields_b ((n, op, a) :: reals l) = (negb (PY311 v) && String.eqb n "YIELD_VALUE") || yields_b (reals l)).
    { intros C. unfold awaits_b, yields_b. cbn [existsb resumed_b].
      assert (Hn : named ["YIELD_VALUE"] (n, op, a) = String.eqb n "YIELD_VALUE")
        by (unfold named, str_mem; cbn [existsb]; apply orb_false_r).
      rewrite Hn. destruct C as [C|C]; rewrite C; cbn [andb orb negb].
      - split; [now rewrite orb_assoc|]. rewrite andb_false_r. destruct (PY311 v); reflexivity.
      - rewrite !orb_false_r. auto. }
    unfold names_b, delegates_b in *. cbn [existsb].
    rewrite (unopt_named _ _ _ Wx) in E.
    destruct (named ["LOAD_NAME"; "STORE_NAME"; "DELETE_NAME"] (n, op, a)) eqn:U.
    { assert (S : In n (special_names v)).
      { eapply named_special; [|exact U]. unfold special_names. intros y Hy. simpl in Hy |- *. tauto. }
      rewrite (special_not_freeish _ _ _ Wx S).
      unfold named, str_mem in U. cbn [existsb] in U.
      assert (Q : n = "LOAD_NAME" \/ n = "STORE_NAME" \/ n = "DELETE_NAME").
      { rewrite orb_false_r in U. apply orb_prop in U. destruct U as [U|U]; [left; now apply String.eqb_eq|].
        apply orb_prop in U. destruct U as [U|U]; apply String.eqb_eq in U; auto. }
      apply step in E. destruct NY as [-> ->]. { left. destruct Q as [->|[->| ->]]; reflexivity. }
      assert (X1 : named (async_names v) (n, op, a) = false).
      { unfold named. destruct Q as [->|[->| ->]]; destruct v; reflexivity. }
      assert (X2 : named [if PY311 v then "RETURN_GENERATOR" else "YIELD_FROM"] (n, op, a) = false).
      { unfold named. destruct Q as [->|[->| ->]]; destruct v; reflexivity. }
      assert (X3 : String.eqb n "YIELD_VALUE" = false).
      { destruct Q as [->|[->| ->]]; reflexivity. }
      rewrite X1, X2, X3, andb_false_r. cbn [orb negb]. rewrite andb_false_r. exact E. }
    rewrite (async_named _ _ _ Wx) in E.
    destruct (named (async_names v) (n, op, a)) eqn:A.
    { rewrite (special_not_freeish _ _ _ Wx (incl_special _ (proj1 (str_mem_In _ _) A))).
      unfold named in A. apply str_mem_In in A.
      assert (X3 : String.eqb n "YIELD_VALUE" = false).
      { unfold async_names in A. destruct v; cbn in A; intuition subst; reflexivity. }
      assert (X2 : named [if PY311 v then "RETURN_GENERATOR" else "YIELD_FROM"] (n, op, a) = false).
      { unfold named. unfold async_names in A. destruct v; cbn in A; intuition subst; reflexivity. }
      apply step in E. destruct NY as [-> ->]; [now left|].
      rewrite X2, X3, andb_false_r. cbn [orb negb]. rewrite orb_true_r. exact E. }
    rewrite (yield_named _ _ _ Wx) in E.
    destruct (String.eqb_spec n "YIELD_VALUE") as [->|NYv].
    { assert (S : In "YIELD_VALUE" (special_names v)) by (unfold special_names; simpl; tauto).
      rewrite (special_not_freeish _ _ _ Wx S).
      assert (X2 : named [if PY311 v then "RETURN_GENERATOR" else "YIELD_FROM"] ("YIELD_VALUE", op, a) = false)
        by (unfold named; destruct (PY311 v); reflexivity).
      rewrite X2. destruct (PY311 v) eqn:P.
      - destruct (next_real l) as [[ni l'']|] eqn:N; [|discriminate].
        cbn [bind] in E. destruct (next_real_spec _ _ _ N) as (L1 & R1 & NR & NP).
        destruct ni as [| | |m op' a']; try (now destruct (NR e)); try discriminate; try contradiction.
        cbv beta in R1. rewrite R1 in *. inversion Wl as [|? ? Wm Wl2]; subst.
        destruct (String.eqb_spec m "RESUME") as [->|]; [|discriminate]. cbn [guard bind] in E.
        destruct (as_int a') as [z|] eqn:Z0; [|discriminate]. cbn [of_option bind] in E.
        assert (SR : In "RESUME" (special_names v)) by (unfold special_names; simpl; tauto).
        assert (Fm : freeish ("RESUME", op', a') = false) by now apply special_not_freeish.
        assert (LM : Z.land z 3 = z mod 4) by (change 3 with (Z.ones 2); now rewrite Z.land_ones by lia).
        rewrite LM in E.
        assert (E' : infer_loop v T concrete f l''
           (if z mod 4 =? 3 then mkF opt fr true gen pos else mkF opt fr asy true pos) = Ok s')
          by (destruct (z mod 4 =? 3); exact E).
        apply IH in E'; [|lia|exact Wl2]. rewrite E'.
        unfold awaits_b, yields_b. rewrite P. cbn [existsb resumed_b]. rewrite Fm, Z0.
        rewrite String.eqb_refl, (String.eqb_refl "RESUME").
        assert (Q1 : named (async_names v) ("RESUME", op', a') = false) by (unfold named; destruct v; reflexivity).
        rewrite A, Q1. change (named ["LOAD_NAME"; "STORE_NAME"; "DELETE_NAME"] ("RESUME", op', a')) with false.
        change (named ["RETURN_GENERATOR"] ("RESUME", op', a')) with false.
        change ("RESUME" =? "YIELD_VALUE")%string with false. cbn [andb orb].
        unfold names_b, delegates_b. rewrite ?P.
        destruct (z mod 4 =? 3); cbn [f_optimized f_has_free f_async f_gen f_possible Bool.eqb];
          f_equal; cbn [orb]; rewrite ?orb_true_r, ?orb_false_r; reflexivity.
      - apply step in E. destruct NY as [-> ->]; [now right|]. cbn [orb negb andb].
        rewrite orb_true_r. exact E. }
    destruct NY as [-> ->]. { now left. }
    rewrite andb_false_r. cbn [orb].
    rewrite (genlike_named _ _ _ Wx) in E.
    destruct (named [if PY311 v then "RETURN_GENERATOR" else "YIELD_FROM"] (n, op, a)) eqn:G.
    { assert (S : In n (special_names v)).
      { eapply named_special; [|exact G]. unfold special_names. intros y Hy.
        destruct (PY311 v); simpl in Hy |- *; tauto. }
      rewrite (special_not_freeish _ _ _ Wx S). apply step in E. cbn [orb]. rewrite orb_true_r. exact E. }
    cbn [orb].
    assert (E' : infer_loop v T concrete f l (mkF opt (fr || freeish (n, op, a)) asy gen pos) = Ok s').
    { unfold freeish.
      destruct (z_mem op (t_hasfree T)); [cbn [orb]; rewrite orb_true_r; exact E|].
      destruct (negb concrete && is_dual v T op && dual_cell a); [cbn [orb]; rewrite orb_true_r; exact E|].
      destruct (PY313 v && z_mem op (t_haslocal T) && is_cell_or_free a);
        cbn [orb]; rewrite ?orb_true_r, ?orb_false_r; exact E. }
    apply step in E'. cbn [f_has_free] in E'. rewrite orb_assoc. exact E'.
  Qed.
End Flags.
