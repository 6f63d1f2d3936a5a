(** Every base opcode has exactly one argument category. *)
From Verif Require Import PyBase OpTable M_Instr P_Base P_OpTable.
Open Scope string_scope.
Open Scope list_scope.
Open Scope Z_scope.

Section Cat.
  Variables (v : pyver) (T : optable).
  Hypothesis wf : wf_optable v T = true.

  Definition cats (op : Z) (j c l n f m x : bool) : Prop :=
    op_has_jump T op = j /\ z_mem op (t_hasconst T) = c /\ z_mem op (t_haslocal T) = l
    /\ z_mem op (t_hasname T) = n /\ z_mem op (t_hasfree T) = f /\ z_mem op (t_hascompare T) = m
    /\ is_intrinsic v T op = x.

  Inductive category (op : Z) : Prop :=
  | cat_jump : cats op true false false false false false false -> opcode_has_argument v T op = true ->
      is_dual v T op = false -> is_bitflag v T op = false -> is_bitflag2 v T op = false -> category op
  | cat_const : cats op false true false false false false false -> opcode_has_argument v T op = true ->
      is_dual v T op = false -> is_bitflag v T op = false -> is_bitflag2 v T op = false -> category op
  | cat_local : cats op false false true false false false false -> opcode_has_argument v T op = true ->
      is_bitflag v T op = false -> is_bitflag2 v T op = false -> category op
  | cat_name : cats op false false false true false false false -> opcode_has_argument v T op = true ->
      is_dual v T op = false -> (is_bitflag v T op && is_bitflag2 v T op = false)%bool -> category op
  | cat_free : cats op false false false false true false false -> opcode_has_argument v T op = true ->
      is_dual v T op = false -> is_bitflag v T op = false -> is_bitflag2 v T op = false -> category op
  | cat_compare : cats op false false false false false true false -> opcode_has_argument v T op = true ->
      is_dual v T op = false -> is_bitflag v T op = false -> is_bitflag2 v T op = false -> category op
  | cat_intr : cats op false false false false false false true -> opcode_has_argument v T op = true ->
      is_dual v T op = false -> is_bitflag v T op = false -> is_bitflag2 v T op = false ->
      (is_intrinsic1 v T op && is_intrinsic2 v T op = false)%bool -> category op
  | cat_plain : cats op false false false false false false false ->
      is_dual v T op = false -> is_bitflag v T op = false -> is_bitflag2 v T op = false -> category op.

  Lemma category_of n op : opmap T n = Some op -> op < t_min_instrumented T -> category op.
  Proof.
    intros H L. pose proof (wf_base v T wf n op H L) as W. cbv zeta in W.
    destruct W as (W1 & W2 & _ & _ & _ & W6 & W7 & W8 & W9). unfold cats in *.
    destruct (op_has_jump T op) eqn:E1; destruct (z_mem op (t_hasconst T)) eqn:E2;
    destruct (z_mem op (t_haslocal T)) eqn:E3; destruct (z_mem op (t_hasname T)) eqn:E4;
    destruct (z_mem op (t_hasfree T)) eqn:E5; destruct (z_mem op (t_hascompare T)) eqn:E6;
    destruct (is_intrinsic v T op) eqn:E7; try discriminate W1; cbn in W2;
    destruct (is_dual v T op) eqn:E8; try discriminate W6;
    destruct (is_bitflag v T op) eqn:E9; destruct (is_bitflag2 v T op) eqn:E10; try discriminate W7;
    try discriminate W8;
    let fin := (unfold cats; repeat split; first [assumption | congruence
      | (rewrite ?E9, ?E10; reflexivity) | (apply negb_true_iff in W9; assumption)]) in
    first [ apply cat_jump; fin; fail | apply cat_const; fin; fail | apply cat_local; fin; fail
          | apply cat_name; fin; fail | apply cat_free; fin; fail | apply cat_compare; fin; fail
          | apply cat_intr; fin; fail | apply cat_plain; fin; fail ].
  Qed.

  (** All membership facts as booleans. *)
  Lemma mem_true x l : z_mem x l = true -> In x l.
  Proof. apply z_mem_In. Qed.
  Lemma mem_false x l : z_mem x l = false -> ~ In x l.
  Proof. intros H I. apply z_mem_In in I. congruence. Qed.
  Lemma no_jump op : op_has_jump T op = false -> ~ In op (t_hasjrel T) /\ ~ In op (t_hasjabs T).
  Proof.
    unfold op_has_jump. intros H. apply orb_false_iff in H. destruct H. split; now apply mem_false.
  Qed.
End Cat.
