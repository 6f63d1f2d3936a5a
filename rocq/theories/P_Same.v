(** Equal Bytecodes say the same: C80. *)
From Coq Require Import Lia.
From Verif Require Import PyBase OpTable P_Base M_Instr M_Concrete M_Convert M_Bytecode S_Args S_Prog S_Eq S_Ident P_OpTable P_Instr T_Instr T_Asm T_Args T_Code T_Bytecode.
Open Scope string_scope.
Open Scope list_scope.
Open Scope Z_scope.

(** Plain numbers are written as ints: not True for 1, nor a Compare member. *)
Definition numbers_plain (v : pyver) (T : optable) (l : list bitem) : Prop :=
  forall i, In (BI i) l -> plain v T (i_op i) -> forall z, as_int (i_arg i) = Some z -> i_arg i = OInt z.

Lemma py_eq_same_arg v T n op x y : wf_optable v T = true -> opmap T n = Some op -> op < t_min_instrumented T -> n <> "EXTENDED_ARG" ->
  doc_arg v T op x -> doc_arg v T op y -> ~ In op (t_hasconst T) ->
  (plain v T op -> forall z, as_int x = Some z -> x = OInt z) -> (plain v T op -> forall z, as_int y = Some z -> y = OInt z) ->
  py_eq x y = true -> x = y.
Proof.
  intros wf Hop Hb NE Dx Dy NC Px Py E.
  assert (Cx : instr_check_arg v T n op x = Ok tt) by (apply instr_check_arg_iff; auto).
  assert (Cy : instr_check_arg v T n op y = Ok tt) by (apply instr_check_arg_iff; auto).
  assert (PL : op_has_jump T op = false -> z_mem op (t_hasfree T) = false -> z_mem op (t_haslocal T) || z_mem op (t_hasname T) = false ->
    z_mem op (t_hascompare T) = false -> is_intrinsic1 v T op = false -> is_intrinsic2 v T op = false -> plain v T op).
  { intros J F LN CM I1 I2. apply orb_false_iff in LN. destruct LN as [LO NA]. unfold plain. rewrite <- jumps_iff.
apply z_mem_false in F, LO, NA, CM. repeat split; auto.
    - rewrite J. discriminate.
    - unfold is_intrinsic. now rewrite I1, I2. }
  clear Dx Dy wf Hop Hb. unfold instr_check_arg in Cx, Cy. destruct (String.eqb n "EXTENDED_ARG") eqn:X; [discriminate|].
  destruct (opcode_has_argument v T op) eqn:HA.
  2:{ destruct (is_unset x) eqn:Ux; [|discriminate]. destruct (is_unset y) eqn:Uy; [|discriminate].
      destruct x; try discriminate Ux. destruct y; try discriminate Uy. reflexivity. }
  destruct (is_unset x) eqn:Ux; [discriminate|]. destruct (is_unset y) eqn:Uy; [discriminate|]. cbn [bind] in Cx, Cy.
  destruct (op_has_jump T op) eqn:J.
  { destruct x; try discriminate Cx; destruct y; try discriminate Cy; cbn in E; try discriminate E; apply Nat.eqb_eq in E; now subst. }
  destruct (z_mem op (t_hasfree T)) eqn:F.
  { destruct x; try discriminate Cx; destruct y; try discriminate Cy; cbn in E; try discriminate E; apply String.eqb_eq in E; now subst. }
  destruct (z_mem op (t_haslocal T) || z_mem op (t_hasname T)) eqn:LN.
  { clear PL Px Py.
    assert (ST : forall a b, is_str a = true -> is_str b = true -> py_eq a b = true -> a = b).
    { intros a b Ha Hb' Q. destruct a; try discriminate Ha. destruct b; try discriminate Hb'. cbn in Q. apply String.eqb_eq in Q. now subst. }
    assert (BO : forall a b : bool, ((if a then 1 else 0) =? (if b then 1 else 0)) = true -> a = b) by (intros [] []; cbn; congruence).
    destruct (is_bitflag v T op).
    { destruct x as [| | | |lx| | | | | | | | |]; try discriminate Cx. destruct lx as [|[] [|[] [|? ?]]]; try discriminate Cx.
      destruct y as [| | | |ly| | | | | | | | |]; try discriminate Cy. destruct ly as [|[] [|[] [|? ?]]]; try discriminate Cy.
      cbn in E. rewrite !andb_true_iff in E. destruct E as (E1 & E2 & _). apply BO in E1. apply String.eqb_eq in E2. now subst. }
    destruct (is_bitflag2 v T op).
    { destruct x as [| | | |lx| | | | | | | | |]; try discriminate Cx. destruct lx as [|[] [|[] [|[] [|? ?]]]]; try discriminate Cx.
      destruct y as [| | | |ly| | | | | | | | |]; try discriminate Cy. destruct ly as [|[] [|[] [|[] [|? ?]]]]; try discriminate Cy.
      cbn in E. rewrite !andb_true_iff in E. destruct E as (E1 & E2 & E3 & _). apply BO in E1, E2. apply String.eqb_eq in E3. now subst. }
    destruct (is_dual v T op).
    { destruct x as [| | | |lx| | | | | | | | |]; try discriminate Cx. destruct lx as [|x1 [|x2 [|? ?]]]; try discriminate Cx.
      destruct y as [| | | |ly| | | | | | | | |]; try discriminate Cy. destruct ly as [|y1 [|y2 [|? ?]]]; try discriminate Cy.
      cbn [py_eq] in E. rewrite !andb_true_iff in E. destruct E as (E1 & E2 & _).
      destruct x1; try discriminate Cx; destruct x2; try discriminate Cx; destruct y1; try discriminate Cy; destruct y2; try discriminate Cy;
        cbn in E1, E2; try discriminate E1; try discriminate E2; apply String.eqb_eq in E1, E2; now subst. }
    destruct (PY313 v && z_mem op (t_haslocal T)); cbn [andb] in Cx, Cy.
    - destruct x; try discriminate Cx; destruct y; try discriminate Cy; cbn in E; try discriminate E; apply String.eqb_eq in E; now subst.
    - destruct (is_str x) eqn:Sx; [|discriminate]. destruct (is_str y) eqn:Sy; [|discriminate]. now apply ST. }
  destruct (z_mem op (t_hasconst T)) eqn:HC; [apply z_mem_In in HC; contradiction|].
  destruct (z_mem op (t_hascompare T)) eqn:CM.
  { destruct x; try discriminate Cx; destruct y; try discriminate Cy. cbn in E. apply Z.eqb_eq in E. now subst. }
  destruct (is_intrinsic1 v T op) eqn:I1.
  { destruct x; try discriminate Cx; destruct y; try discriminate Cy. cbn in E. apply Z.eqb_eq in E. now subst. }
  destruct (is_intrinsic2 v T op) eqn:I2.
  { destruct x; try discriminate Cx; destruct y; try discriminate Cy. cbn in E. apply Z.eqb_eq in E. now subst. }
  specialize (PL eq_refl eq_refl eq_refl eq_refl eq_refl eq_refl). unfold check_arg_int in Cx, Cy.
  destruct (as_int x) as [z|] eqn:Ax; [|discriminate]. destruct (as_int y) as [w|] eqn:Ay; [|discriminate].
  rewrite (Px PL z eq_refl), (Py PL w eq_refl) in *. cbn in E. apply Z.eqb_eq in E. now subst.
Qed.

Lemma walk_instr pos n x l h : forall its op, In (PInstr n x l h) (walk pos op its) -> exists i, In (BI i) its /\ n = i_name i /\ x = arg_of pos (i_arg i).
Proof.
  induction its as [|it its IH]; intros op H; [contradiction|].
  assert (R : forall op', In (PInstr n x l h) (walk pos op' its) -> exists i, In (BI i) (it :: its) /\ n = i_name i /\ x = arg_of pos (i_arg i)).
  { intros op' J. destruct (IH op' J) as (i & I & Q). exists i. split; [now right|exact Q]. }
  destruct it; cbn [walk] in H; try (eapply R; exact H).
  - destruct H as [H|H]; [|eapply R; exact H]. injection H as <- <- _ _. eexists. split; [now left|]. auto.
  - destruct H as [H|H]; [discriminate|eapply R; exact H].
Qed.

Lemma same_program_eq v T keq a b : wf_optable v T = true -> all_legal v T a -> all_legal v T b -> sound_key keq ->
  numbers_plain v T (b_items a) -> numbers_plain v T (b_items b) ->
  same_program T keq (b_items a) (b_items b) -> program (b_items a) = program (b_items b).
Proof.
  intros wf La Lb SK Na Nb. unfold same_program. unfold program at 1 3.
  assert (IA := fun n x l h => walk_instr (position (b_items a)) n x l h (b_items a) None).
  assert (IB := fun n x l h => walk_instr (position (b_items b)) n x l h (b_items b) None). unfold program.
  revert IA IB. generalize (walk (position (b_items a)) None (b_items a)), (walk (position (b_items b)) None (b_items b)).
  intros l l' IA IB H. induction H as [|p q l l' H _ IH]; [reflexivity|].
  rewrite IH; [|intros n x lo h J; apply (IA n x lo h); now right|intros n x lo h J; apply (IB n x lo h); now right]. f_equal.
  destruct p as [n x lo h|z]; destruct q as [n' y lo' h'|w]; cbn in H; try contradiction; [|now subst].
  destruct H as (<- & A & <- & <-).
  destruct (IA n x lo h (or_introl eq_refl)) as (i & Ii & Ni & Xi). destruct (IB n y lo h (or_introl eq_refl)) as (j & Ij & Nj & Yj).
  destruct x as [k|x]; destruct y as [k'|y]; cbn in A; try contradiction; [destruct A as [_ ->]; reflexivity|]. f_equal. f_equal.
  assert (Xa : i_arg i = x) by (destruct (i_arg i); cbn in Xi; congruence). assert (Ya : i_arg j = y) by (destruct (i_arg j); cbn in Yj; congruence).
  destruct (La i Ii) as (Oi & Bi & Ei & Di). destruct (Lb j Ij) as (Oj & Bj & Ej & Dj).
  assert (OO : i_op j = i_op i) by congruence. rewrite Xa in Di. rewrite Ya, OO in Dj.
  destruct A as [A1 A2]. destruct (in_dec Z.eq_dec (i_op i) (t_hasconst T)) as [C|C].
  - apply SK, A1. exists (i_op i). split; [congruence|exact C].
  - apply (py_eq_same_arg v T n (i_op i) x y wf); try congruence; try assumption.
    + intros P z Z. rewrite <- Xa in *. now apply (Na i Ii P).
    + intros P z Z. rewrite <- Ya in *. rewrite <- OO in P. now apply (Nb j Ij P).
    + apply A2. intros (o & O & IO). assert (o = i_op i) by congruence. subst. contradiction.
Qed.
