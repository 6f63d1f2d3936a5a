(** Validation of instructions and locations. *)
From Coq Require Import ZifyBool.
From Verif Require Import PyBase OpTable CPy M_Instr P_Base P_OpTable P_Asm S_Args.
Open Scope string_scope.
Open Scope list_scope.
Open Scope Z_scope.

Lemma z_mem_false x l : z_mem x l = false <-> ~ In x l.
Proof. rewrite <- z_mem_In. destruct (z_mem x l); split; congruence. Qed.

Section Cats.
  Variables (v : pyver) (T : optable).
  Hypothesis wf : wf_optable v T = true.
  Variables (n : string) (op : Z).
  Hypothesis (Hop : opmap T n = Some op) (Hb : op < t_min_instrumented T).

  (** At most one category. *)
  Definition cat_list := [op_has_jump T op; z_mem op (t_hasconst T); z_mem op (t_haslocal T);
                 z_mem op (t_hasname T); z_mem op (t_hasfree T);
                 z_mem op (t_hascompare T); is_intrinsic v T op].

  Lemma cat_excl i j : nth i cat_list false = true -> nth j cat_list false = true -> i = j.
  Proof.
    destruct (wf_base v T wf n op Hop Hb) as (A & _). fold cat_list in A.
    unfold cat_list in *.
    destruct (op_has_jump T op), (z_mem op (t_hasconst T)), (z_mem op (t_haslocal T)),
      (z_mem op (t_hasname T)), (z_mem op (t_hasfree T)), (z_mem op (t_hascompare T)),
      (is_intrinsic v T op); try discriminate A; clear A;
    do 8 (destruct i as [|i]; [do 8 (destruct j as [|j]; [intros; cbn in *; congruence|]);
             intros; cbn in *; try congruence; destruct j; discriminate|]);
    intros; cbn in *; destruct i; discriminate.
  Qed.

  Lemma cat_arg i : nth i cat_list false = true -> opcode_has_argument v T op = true.
  Proof.
    intros H. destruct (wf_base v T wf n op Hop Hb) as (_ & A & _). fold cat_list in A.
    apply orb_prop in A. destruct A as [A|A]; [|assumption].
    apply negb_true_iff in A. exfalso.
    enough (existsb (fun b => b) cat_list = true) by congruence.
    apply existsb_exists. exists true. split; [|reflexivity].
    rewrite <- H. apply nth_In. unfold cat_list in *. simpl length.
    do 7 (destruct i as [|i]; [lia|]). simpl in H. destruct i; discriminate.
  Qed.
End Cats.

Lemma jumps_iff T op : op_has_jump T op = true <-> jumps T op.
Proof. unfold op_has_jump, jumps. now rewrite orb_true_iff, !z_mem_In. Qed.

(** The check succeeds exactly on documented arguments. *)
Section Check.
  Variables (v : pyver) (T : optable).
  Hypothesis wf : wf_optable v T = true.

  Lemma intr_split op : is_intrinsic v T op = is_intrinsic1 v T op || is_intrinsic2 v T op.
  Proof. reflexivity. Qed.

  Ltac use_not :=
    repeat match goal with
    | H : z_mem _ _ = true |- _ => apply z_mem_In in H
    | H : z_mem _ _ = false |- _ => apply z_mem_false in H
    end.

  Lemma instr_check_arg_iff n op arg :
    opmap T n = Some op -> op < t_min_instrumented T ->
    (instr_check_arg v T n op arg = Ok tt <-> n <> "EXTENDED_ARG" /\ doc_arg v T op arg).
  Proof.
    intros Hop Hb.
    destruct (wf_base v T wf n op Hop Hb) as (C1 & C2 & _ & _ & _ & D1 & D2 & D3 & D4).
    rewrite intr_split in *.
    unfold instr_check_arg.
    destruct (String.eqb_spec n "EXTENDED_ARG") as [->|NE].
    { split; [discriminate|tauto]. }
    split.
    - (* the check succeeded *)
      intros H. split; [assumption|]. apply bind_ok in H. destruct H as ([] & HA & H).
      destruct (opcode_has_argument v T op) eqn:A.
      + (* an argument is required and given *)
        assert (U : arg <> OUnset) by (intros ->; discriminate HA). clear HA.
        destruct (op_has_jump T op) eqn:J.
        { apply jumps_iff in J. destruct arg; try discriminate H; constructor; assumption. }
        destruct (z_mem op (t_hasfree T)) eqn:F.
        { use_not. destruct arg; try discriminate H; constructor; assumption. }
        destruct (z_mem op (t_haslocal T)) eqn:L; [|destruct (z_mem op (t_hasname T)) eqn:N].
        * assert (N : z_mem op (t_hasname T) = false)
            by (destruct (z_mem op (t_hasname T)); [|reflexivity];
                destruct (z_mem op (t_hasconst T)), (z_mem op (t_hascompare T)),
                 (is_intrinsic1 v T op || is_intrinsic2 v T op); discriminate C1).
          simpl orb in H. rewrite N in D2.
          destruct (is_bitflag v T op) eqn:B1; [discriminate D2|].
          destruct (is_bitflag2 v T op) eqn:B2; [discriminate D2|].
          destruct (is_dual v T op) eqn:B3.
          { destruct arg as [| | | |l| | | | | | | | |]; try discriminate H.
            destruct l as [|x [|y [|? ?]]]; try discriminate H.
            apply doc_pair; [assumption| |];
              destruct x; try discriminate H; destruct y; try discriminate H; eauto. }
          use_not.
          assert (SN : simple_name v T op) by (repeat split; auto).
          destruct (PY313 v) eqn:P; simpl in H.
          { destruct arg; try discriminate H; now constructor. }
          { destruct arg; try discriminate H. now constructor. }
        * simpl orb in H.
          destruct (is_dual v T op) eqn:B3; [discriminate D1|].
          rewrite andb_false_r in H. simpl in H.
          destruct (is_bitflag v T op) eqn:B1.
          { use_not. destruct arg as [| | | |l| | | | | | | | |]; try discriminate H.
            destruct l as [|x [|y [|? ?]]]; try discriminate H;
            destruct x; try discriminate H; destruct y; try discriminate H.
            now constructor. }
          destruct (is_bitflag2 v T op) eqn:B2.
          { use_not. destruct arg as [| | | |l| | | | | | | | |]; try discriminate H.
            destruct l as [|x [|y [|z [|? ?]]]]; try discriminate H;
            destruct x; try discriminate H; destruct y; try discriminate H;
            destruct z; try discriminate H.
            now constructor. }
          use_not. destruct arg; try discriminate H. constructor. repeat split; auto.
        * simpl orb in H.
          destruct (z_mem op (t_hasconst T)) eqn:C.
          { use_not. apply doc_const; [assumption|assumption| |]; intros m ->; discriminate H. }
          destruct (z_mem op (t_hascompare T)) eqn:K.
          { use_not. destruct arg; try discriminate H. now constructor. }
          destruct (is_intrinsic1 v T op) eqn:I1.
          { destruct arg; try discriminate H. now constructor. }
          destruct (is_intrinsic2 v T op) eqn:I2.
          { destruct arg; try discriminate H. now constructor. }
          apply check_arg_int_ok in H. destruct H as (z & Hz & R).
          use_not. eapply doc_int; eauto.
          repeat split; auto. { rewrite <- jumps_iff. congruence. }
          rewrite intr_split, I1, I2. reflexivity.
      + destruct arg; try discriminate HA. now constructor.
    - (* a documented argument *)
      intros [_ D].
      assert (Fold : forall l, In op l -> z_mem op l = true) by (intros; now apply z_mem_In).
      assert (FoldJ : jumps T op -> op_has_jump T op = true) by apply jumps_iff.
      destruct (opcode_has_argument v T op) eqn:A.
      2:{ (* no argument: no category *)
        rewrite orb_false_r in C2. apply negb_true_iff in C2. cbn in C2.
        rewrite ?orb_false_iff in C2. destruct C2 as (J & C & L & N & F & K & (I1 & I2) & _).
        rewrite J, C, L, N, F, K, I1, I2 in *. cbn [orb andb] in *.
        inversion D; subst;
          repeat match goal with
          | H : jumps T op |- _ => apply FoldJ in H
          | H : In op _ |- _ => apply Fold in H
          | H : simple_name _ _ _ |- _ => destruct H as ([?|?] & ? & ? & ?)
          end; try congruence; try reflexivity.
        rewrite H in D1. discriminate D1. }
      destruct (op_has_jump T op) eqn:J, (z_mem op (t_hasconst T)) eqn:C,
        (z_mem op (t_haslocal T)) eqn:L, (z_mem op (t_hasname T)) eqn:N,
        (z_mem op (t_hasfree T)) eqn:F, (z_mem op (t_hascompare T)) eqn:K,
        (is_intrinsic1 v T op || is_intrinsic2 v T op) eqn:I; try discriminate C1;
        cbn [negb orb andb] in D1, D2; rewrite ?orb_true_r, ?orb_false_r in D1, D2;
        try apply negb_true_iff in D1; try apply negb_true_iff in D2;
        try apply orb_false_iff in D2; try apply orb_false_iff in I;
        clear C1 C2; inversion D; subst;
        repeat match goal with
          | H : jumps T op |- _ => apply FoldJ in H
          | H : In op _ |- _ => apply Fold in H
          | H : simple_name _ _ _ |- _ => destruct H as ([?|?] & ? & ? & ?)
          | H : plain _ _ _ |- _ => destruct H as (? & ? & ? & ? & ? & ? & ?)
          | H : _ /\ _ |- _ => destruct H
          end; try congruence; cbn [is_unset bind orb andb is_str]; try reflexivity.
      all: repeat match goal with
          | H : ~ In _ _ |- _ => apply z_mem_false in H
          | H : ~ jumps _ _ |- _ => rewrite <- jumps_iff in H
          | H : exists _, ?x = _ \/ _ |- _ => destruct H as [? [-> | ->]]
          end; try congruence.
      all: rewrite ?intr_split in *.
      all: destruct (is_intrinsic1 v T op), (is_intrinsic2 v T op); try discriminate; try reflexivity.
      all: destruct (is_bitflag v T op), (is_bitflag2 v T op), (is_dual v T op), (PY313 v);
           try discriminate; try reflexivity; try congruence.
      all: try (destruct arg; try congruence; try reflexivity;
                match goal with
                | H : forall n, OLabel ?m <> OLabel n |- _ => destruct (H m eq_refl)
                | H : forall n, OBlock ?m <> OBlock n |- _ => destruct (H m eq_refl)
                end).
      all: repeat match goal with H : _ /\ _ |- _ => destruct H end; try congruence.
      all: destruct arg; try discriminate; cbn in *; inv_ok;
        unfold check_arg_int; cbn [as_int];
        match goal with |- (if ?b then _ else _) = _ =>
          destruct b eqn:B; [reflexivity|] end;
        exfalso; lia.
  Qed.
End Check.
