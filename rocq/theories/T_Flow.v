(** Property theorems: the control flow queries of an instruction (C62). *)
From Verif Require Import PyBase OpTable CPy Table311 TablesEx P_Base P_OpTable M_Instr M_Cfg S_Args S_Flow.
Open Scope string_scope.
Open Scope list_scope.
Open Scope Z_scope.

Lemma flow_cases v n (P : string * (direction * bool) -> bool) :
  forallb P (flow V38 ++ flow V39 ++ flow V310 ++ flow V311 ++ flow V312 ++ flow V313) = true ->
  forall d on, In (n, (d, on)) (flow v) -> P (n, (d, on)) = true.
Proof. rewrite !forallb_app, !andb_true_iff, !forallb_forall. intros H d on I. destruct v; decompose [and] H; auto. Qed.
Lemma flow_functional v n d on d' on' : In (n, (d, on)) (flow v) -> In (n, (d', on')) (flow v) -> d = d' /\ on = on'.
Proof.
  intros A B. assert (X : forallb (fun p => forallb (fun q => negb (String.eqb (fst p) (fst q)) ||
     (match fst (snd p), fst (snd q) with Absolute, Absolute | Forward, Forward | Backward, Backward => true | _, _ => false end && Bool.eqb (snd (snd p)) (snd (snd q)))) (flow v)) (flow v) = true)
    by (destruct v; vm_compute; reflexivity).
  rewrite forallb_forall in X. specialize (X _ A). rewrite forallb_forall in X. specialize (X _ B). cbn in X. rewrite String.eqb_refl in X. cbn in X.
  apply andb_true_iff in X. destruct X as [X Y]. apply eqb_prop in Y. destruct d, d'; try discriminate X; auto.
Qed.

(** C62.  has_jump() says whether the instruction may jump; is_abs_jump(), is_forward_rel_jump() and
    is_backward_rel_jump() say how its target is told. *)
Theorem C62_jumps : forall v T i, wf_optable v T = true -> flow_table v T ->
  opmap T (i_name i) = Some (i_op i) -> i_op i < t_min_instrumented T ->
  (has_jump T i = true <-> may_jump v (i_name i))
  /\ (is_abs_jump v T (i_op i) = true <-> jumps_to v (i_name i) Absolute)
  /\ (is_forward_rel_jump v T (i_name i) (i_op i) = true <-> jumps_to v (i_name i) Forward)
  /\ (is_backward_rel_jump v T (i_name i) (i_op i) = true <-> jumps_to v (i_name i) Backward).
Proof.
  intros v T i wf F NM LT. destruct (F _ _ NM LT) as [FA FR].
  assert (BK : forall d on, In (i_name i, (d, on)) (flow v) -> str_contains "BACKWARD" (i_name i) = match d with Backward => true | _ => false end).
  { intros d on I. apply (flow_cases v (i_name i) (fun p => Bool.eqb (str_contains "BACKWARD" (fst p)) (match fst (snd p) with Backward => true | _ => false end))) in I; [|vm_compute; reflexivity]. now apply eqb_prop in I. }
  assert (J : in_HASJABS v T (i_op i) = true <-> In (i_op i) (t_hasjabs T)).
  { unfold in_HASJABS. destruct (PY313 v) eqn:P3; [|apply z_mem_In]. split; [discriminate|]. intros I. exfalso.
    destruct (wf_base v T wf _ _ NM LT) as (_ & _ & _ & W & _). rewrite P3 in W. cbn in W. apply negb_true_iff in W. apply z_mem_In in I. congruence. }
  assert (JR : in_HASJREL v T (i_op i) = true <-> jumps_to v (i_name i) Forward \/ jumps_to v (i_name i) Backward) by (rewrite <- FR; apply z_mem_In).
  split; [|split; [|split]].
  - unfold has_jump, op_has_jump. rewrite orb_true_iff, !z_mem_In, FA, FR. unfold may_jump. split; [intros [[|]|]; eauto|]. intros ([] & ?); auto.
  - unfold is_abs_jump. rewrite J. exact FA.
  - unfold is_forward_rel_jump. rewrite andb_true_iff, JR, negb_true_iff. split.
    + intros [[A|(on & A)] B]; [exact A|]. rewrite (BK _ _ A) in B. discriminate.
    + intros A. split; [now left|]. destruct A as (on & A). exact (BK _ _ A).
  - unfold is_backward_rel_jump. rewrite andb_true_iff, JR. split.
    + intros [[(on & A)|A] B]; [|exact A]. rewrite (BK _ _ A) in B. discriminate.
    + intros A. split; [now right|]. destruct A as (on & A). exact (BK _ _ A).
Qed.

(** is_uncond_jump() says whether it jumps and never goes on. *)
Theorem C62_unconditional : forall v T i, flow_table v T -> names_of v T ->
  opmap T (i_name i) = Some (i_op i) -> i_op i < t_min_instrumented T ->
  (is_uncond_jump_name (i_name i) = true <-> may_jump v (i_name i) /\ ~ may_go_on v (i_name i)).
Proof.
  intros v T i F N NM LT. destruct (N _ _ NM LT) as (_ & _ & NJ).
  assert (U : forall d on, In (i_name i, (d, on)) (flow v) -> is_uncond_jump_name (i_name i) = negb on).
  { intros d on I. apply (flow_cases v (i_name i) (fun p => Bool.eqb (is_uncond_jump_name (fst p)) (negb (snd (snd p))))) in I; [|vm_compute; reflexivity]. now apply eqb_prop in I. }
  split.
  - intros E. assert (M : may_jump v (i_name i)).
    { apply NJ. unfold is_uncond_jump_name in E. apply str_mem_In in E. cbn in E. decompose [or] E; try contradiction; subst; rewrite <- H || rewrite <- H0; reflexivity. }
    split; [exact M|]. intros [_ G]. destruct M as (d & on & I). rewrite (U _ _ I), (G _ _ I) in E. discriminate.
  - intros [(d & on & I) G]. rewrite (U _ _ I). destruct on; [|reflexivity]. exfalso. apply G. split.
    + assert (L : str_mem (i_name i) (leaves v) = false).
      { apply (flow_cases v (i_name i) (fun p => negb (str_mem (fst p) (leaves V313)))) in I; [|vm_compute; reflexivity]. apply negb_true_iff in I. cbn [fst] in I.
        destruct (str_mem (i_name i) (leaves v)) eqn:L; [|reflexivity]. rewrite <- I. symmetry. apply str_mem_In in L. apply str_mem_In. destruct v; cbn in *; tauto. }
      intros X. apply str_mem_In in X. congruence.
    + intros d' on' I'. now destruct (flow_functional _ _ _ _ _ _ I I') as [_ <-].
Qed.

(** is_final() says whether it never goes on, INTERPRETER_EXIT (3.12) excepted. *)
Theorem C62_final_partial : forall v T i, flow_table v T -> names_of v T ->
  opmap T (i_name i) = Some (i_op i) -> i_op i < t_min_instrumented T -> i_name i <> "INTERPRETER_EXIT" ->
  (is_final_name (i_name i) = true <-> ~ may_go_on v (i_name i)).
Proof.
  intros v T i F N NM LT NI. destruct (N _ _ NM LT) as (NB & NR & _). pose proof (C62_unconditional v T i F N NM LT) as U.
  unfold is_final_name. rewrite orb_true_iff, str_mem_In, U. split.
  - intros [I|[_ G]]; [|exact G]. intros [G _]. apply G. cbn in I. destruct I as [I|[I|[I|[I|[I|[I|[]]]]]]].
    + rewrite <- I. cbn. tauto. + apply NR. congruence. + rewrite <- I. cbn. tauto. + rewrite <- I. cbn. tauto.
    + exfalso. apply NB. rewrite <- I. cbn. tauto. + exfalso. apply NB. rewrite <- I. cbn. tauto.
  - intros G. destruct (in_dec string_dec (i_name i) (leaves v)) as [I|I].
    + left. cbn in I. destruct I as [I|[I|[I|I]]]; cbn; auto. destruct v; cbn in I; try contradiction; decompose [or] I; auto; try contradiction; congruence.
    + right. split; [|exact G]. destruct (existsb (fun p => String.eqb (fst p) (i_name i)) (flow v)) eqn:E.
      * apply existsb_exists in E. destruct E as ([n [d on]] & A & B). apply String.eqb_eq in B. cbn in B. subst. exists d, on. exact A.
      * exfalso. apply G. split; [exact I|]. intros d on A. exfalso. assert (existsb (fun p => String.eqb (fst p) (i_name i)) (flow v) = true); [|congruence].
        apply existsb_exists. exists (i_name i, (d, on)). split; [exact A|apply String.eqb_refl].
Qed.

(** is_cond_jump(), partial: if it is true the instruction may jump and may go on; and it is true of
    these, except FOR_ITER, SEND and what sets up or calls handlers. *)
Theorem C62_conditional_partial : forall v T i, flow_table v T -> names_of v T ->
  opmap T (i_name i) = Some (i_op i) -> i_op i < t_min_instrumented T ->
  (is_cond_jump_name (i_name i) = true <->
     may_jump v (i_name i) /\ may_go_on v (i_name i)
     /\ ~ In (i_name i) ["FOR_ITER"; "SEND"; "SETUP_FINALLY"; "SETUP_WITH"; "SETUP_ASYNC_WITH"; "CALL_FINALLY"]).
Proof.
  intros v T i F N NM LT. destruct (N _ _ NM LT) as (_ & _ & NJ). pose proof (C62_unconditional v T i F N NM LT) as U.
  assert (C : forall d on, In (i_name i, (d, on)) (flow v) -> is_cond_jump_name (i_name i) = on && negb (str_mem (i_name i) ["FOR_ITER"; "SEND"; "SETUP_FINALLY"; "SETUP_WITH"; "SETUP_ASYNC_WITH"; "CALL_FINALLY"])).
  { intros d on I. apply (flow_cases v (i_name i) (fun p => Bool.eqb (is_cond_jump_name (fst p)) (snd (snd p) && negb (str_mem (fst p) ["FOR_ITER"; "SEND"; "SETUP_FINALLY"; "SETUP_WITH"; "SETUP_ASYNC_WITH"; "CALL_FINALLY"])))) in I; [|vm_compute; reflexivity]. now apply eqb_prop in I. }
  assert (GO : forall d on, In (i_name i, (d, on)) (flow v) -> is_uncond_jump_name (i_name i) = negb on).
  { intros d on I. apply (flow_cases v (i_name i) (fun p => Bool.eqb (is_uncond_jump_name (fst p)) (negb (snd (snd p))))) in I; [|vm_compute; reflexivity]. now apply eqb_prop in I. }
  rewrite <- str_mem_In. split.
  - intros E. assert (M : may_jump v (i_name i)) by (apply NJ; unfold is_cond_jump_name in E; now apply andb_true_iff in E).
    split; [exact M|]. destruct M as (d & on & I). pose proof (C _ _ I) as X. rewrite E in X. symmetry in X. apply andb_true_iff in X. destruct X as [-> X].
    split; [|apply negb_true_iff in X; congruence]. split.
    + intros L. assert (may_jump v (i_name i) /\ ~ may_go_on v (i_name i)) as G by (split; [exists d, true; exact I|intros [G _]; contradiction]). apply U in G. rewrite (GO _ _ I) in G. discriminate.
    + intros d' on' I'. now destruct (flow_functional _ _ _ _ _ _ I I') as [_ <-].
  - intros ((d & on & I) & [_ G] & X). rewrite (C _ _ I), (G _ _ I). apply not_true_is_false in X. rewrite X. reflexivity.
Qed.

(** Missing: these may jump or go on, and are not said to be conditional jumps; and is_final() is
    false of INTERPRETER_EXIT. *)
Theorem C62_refuted :
  (may_jump V311 "FOR_ITER" /\ may_go_on V311 "FOR_ITER" /\ opmap T311 "FOR_ITER" = Some 93 /\ is_cond_jump_name "FOR_ITER" = false)
  /\ (may_jump V311 "SEND" /\ may_go_on V311 "SEND" /\ opmap T311 "SEND" = Some 123 /\ is_cond_jump_name "SEND" = false)
  /\ (~ may_go_on V312 "INTERPRETER_EXIT" /\ is_final_name "INTERPRETER_EXIT" = false).
Proof.
  split; [|split].
  - split; [exists Forward, true; cbn; tauto|]. split; [split; [cbn; intuition discriminate|]|split; reflexivity].
    intros d on I. cbn in I. decompose [or] I; try contradiction; congruence.
  - split; [exists Forward, true; cbn; tauto|]. split; [split; [cbn; intuition discriminate|]|split; reflexivity].
    intros d on I. cbn in I. decompose [or] I; try contradiction; congruence.
  - split; [|reflexivity]. intros [A _]. apply A. cbn. tauto.
Qed.

(** The tables at hand meet the hypotheses. *)
Definition flow_tableb (v : pyver) (T : optable) : bool :=
  forallb (fun p =>
    Bool.eqb (z_mem (snd p) (t_hasjabs T)) (existsb (fun q => String.eqb (fst q) (fst p) && match fst (snd q) with Absolute => true | _ => false end) (flow v))
    && Bool.eqb (z_mem (snd p) (t_hasjrel T)) (existsb (fun q => String.eqb (fst q) (fst p) && match fst (snd q) with Absolute => false | _ => true end) (flow v))
    && negb (str_mem (fst p) ["BREAK_LOOP"; "CONTINUE_LOOP"]) && (negb (String.eqb (fst p) "RETURN_CONST") || str_mem (fst p) (leaves v))
    && (negb (str_contains "JUMP_" (fst p)) || existsb (fun q => String.eqb (fst q) (fst p)) (flow v))) (base_ops T).
Lemma flow_tableb_ok v T : flow_tableb v T = true -> flow_table v T /\ names_of v T.
Proof.
  unfold flow_tableb. rewrite forallb_forall. intros H.
  assert (X : forall n op, opmap T n = Some op -> op < t_min_instrumented T -> In (n, op) (base_ops T)).
  { intros n op E L. apply filter_In. split; [eapply (P_OpTable.dget_In String.eqb); [apply String.eqb_eq|exact E]|]. now apply Z.ltb_lt. }
  split; intros n op E L; specialize (H _ (X n op E L)); cbn [fst snd] in H; rewrite !andb_true_iff in H; destruct H as [[[[A B] C] D] G].
  - apply eqb_prop in A, B. rewrite <- !z_mem_In, A, B, !existsb_exists. split; split.
    + intros ([m [d on]] & I & Q). apply andb_true_iff in Q. destruct Q as [Q1 Q2]. apply String.eqb_eq in Q1. cbn in *. subst. destruct d; try discriminate. exists on. exact I.
    + intros (on & I). exists (n, (Absolute, on)). split; [exact I|]. cbn. now rewrite String.eqb_refl.
    + intros ([m [d on]] & I & Q). apply andb_true_iff in Q. destruct Q as [Q1 Q2]. apply String.eqb_eq in Q1. cbn in *. subst. destruct d; try discriminate; [left|right]; exists on; exact I.
    + intros [(on & I)|(on & I)]; [exists (n, (Forward, on))|exists (n, (Backward, on))]; (split; [exact I|]; cbn; now rewrite String.eqb_refl).
  - split; [|split].
    + intros I. apply str_mem_In in I. rewrite I in C. discriminate.
    + intros ->. cbn [String.eqb Ascii.eqb Bool.eqb negb orb] in D. apply str_mem_In. exact D.
    + intros J. rewrite J in G. cbn in G. apply existsb_exists in G. destruct G as ([m [d on]] & I & Q). apply String.eqb_eq in Q. cbn in Q. subst. exists d, on. exact I.
Qed.
Example C62_tables : (flow_table V311 T311 /\ names_of V311 T311) /\ (flow_table V313 T313 /\ names_of V313 T313)
  /\ (flow_table V38 TPre /\ names_of V38 TPre) /\ (flow_table V310 TPre /\ names_of V310 TPre).
Proof. split; [|split; [|split]]; apply flow_tableb_ok; vm_compute; reflexivity. Qed.

Print Assumptions C62_jumps.
Print Assumptions C62_unconditional.
Print Assumptions C62_final_partial.
Print Assumptions C62_conditional_partial.
Print Assumptions C62_refuted.
