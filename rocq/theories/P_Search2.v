(** The exception table of an assembled Bytecode is sorted, and its entries are disjoint. *)
From Verif Require Import PyBase OpTable CPy P_Base P_OpTable M_Instr M_Tables M_Concrete M_Convert S_Args S_Lines S_Prog S_Slots S_Asm S_Dis S_Ident S_Code   P_Asm P_Instr P_Instr2 P_Except P_LinesCode P_Conv P_Conv2 P_Cat P_Decode P_Args P_Args2 P_CfgSeq P_Dis P_Dis2 P_Dis3 P_Try P_Jumps P_Jumps2 P_Layout P_Layout2 P_AsmProps P_Ident P_Ident2 P_Ident3 P_Code
  P_Code2 CPySearch P_Search.
Open Scope string_scope.
Open Scope list_scope.
Open Scope Z_scope.

Section S.
  Variables (v : pyver) (T : optable) (keq : pyobj -> pyobj -> bool).
  Hypothesis wf : wf_optable v T = true.
  Variables (b : bytecode) (cb : cbytecode) (vn : list string) (K0 : conv) (gs0 : list (list cinstr)) (Kf : conv)
    (gs : list (list cinstr)) (en : list exentry).
  Hypothesis A : assembled v T keq b cb vn K0 gs0 Kf gs en.
  Notation items := (b_items b).
  Notation cs := (concat gs).
  Notation ib := (start gs).
  Hypothesis TBL : try_blocks items.

  Lemma entries_apart : apart en.
  Proof.
    intros m' m f e Lm Ef Ee. pose proof (entries v T keq wf _ _ _ _ _ _ _ _ A TBL) as ENT. pose proof TBL as [ND BR].
    destruct (ENT m' f Ef) as (id2 & p3 & q3 & t3 & la3 & d3 & l3 & ql3 & G1 & B0 & G2 & G3 & G4 & G5 & G6 & G7 & G8 & G9).
    destruct (ENT m e Ee) as (id & p1 & q1 & t & la & d & l & ql & E1 & B & E2 & E3 & E4 & E5 & E6 & E7 & E8 & E9).
    assert (R1 : m = length (tb_ids (firstn p1 items))) by (destruct B as (_ & B & _); eapply tb_rank; eauto).
    assert (R2 : m' = length (tb_ids (firstn p3 items))) by (destruct B0 as (_ & B0 & _); eapply tb_rank; eauto).
    assert (P31 : (p3 < p1)%nat).
    { destruct (le_lt_dec p1 p3) as [Y|Y]; [|exact Y]. pose proof (tb_len_mono items p1 p3 Y). lia. }
    assert (Q31 : (q3 < p1)%nat).
    { pose proof B as (B1 & _). destruct (blocks_apart v T wf b _ _ _ _ _ _ _ _ _ _ _ _ B0 B) as [Y|[Y|Y]]; [lia|exact Y|]. lia. }
    rewrite E7, G7, G8. pose proof (start_mono gs q3 p1 ltac:(lia)). pose proof (start_le gs q1).
    split.
    - pose proof (executed_lt v T keq wf _ _ _ _ _ _ _ _ A (ib p3) (ib p1) ltac:(lia) ltac:(lia)). lia.
    - apply (executed_lt v T keq wf _ _ _ _ _ _ _ _ A); lia.
  Qed.

  Hypothesis HL : forall i, In (BI i) items -> legal_instr v T i.
  Hypothesis HM : forall i, In (BI i) items -> real_member v (i_arg i).
  Hypothesis HK : forall x y, keq x y = true -> x = y.
  Hypothesis NC : no_cache items.
  Hypothesis HP : forall i n, In (BI i) items -> is_dual v T (i_op i) = true -> In n (locals_of (i_arg i)) -> In n (firstn 16 (cb_varnames cb)).
  Hypothesis P : PY311 v = true.
  Hypothesis SHORT : zlen (code T cs) < 2 ^ 31.
  Hypothesis SHALLOW : forall id t la d, In (BTB id t la (Some d)) items -> d < 2 ^ 29.

  Lemma offset_le k : (k <= length cs)%nat -> 0 <= offset_of v cs k < 2 ^ 30.
  Proof.
    intros L. assert (AM : Forall (made v T) cs) by (eapply all_made; eauto).
    assert (U : ub v = 2) by (clear - P; destruct v; vm_compute in *; congruence).
    pose proof (offset_code v T wf cs AM k) as X. rewrite U in X.
    assert (zlen (code T cs) = zlen (code T (firstn k cs)) + zlen (code T (skipn k cs))).
    { rewrite <- zlen_app, <- code_app, firstn_skipn. reflexivity. }
    assert (0 <= zlen (code T (skipn k cs))) by (unfold zlen; lia). assert (0 <= zlen (code T (firstn k cs))) by (unfold zlen; lia). lia.
  Qed.

  Lemma entries_small : Forall small en.
  Proof.
    apply Forall_forall. intros e I. apply In_nth_error in I. destruct I as [n N].
    assert (PA : Forall pos cs) by (eapply pos_all; eauto).
    pose proof TBL as [ND BR].
    destruct (entries v T keq wf _ _ _ _ _ _ _ _ A TBL n e N) as (id & p & q & t & la & d & l & ql & E1 & B & E2 & E3 & E4 & E5 & E6 & E7 & E8 & E9).
    pose proof (start_le gs q). pose proof (start_le gs p). pose proof (start_le gs ql). unfold small. rewrite E7, E8, E4.
    pose proof (exec_between v cs (ib p) PA ltac:(lia)). pose proof (exec_between v cs (ib q - 1) PA ltac:(lia)).
    pose proof (offset_le (ib p) ltac:(lia)). pose proof (offset_le (S (ib p)) ltac:(lia)).
    pose proof (offset_le (ib q - 1) ltac:(lia)). pose proof (offset_le (S (ib q - 1)) ltac:(lia)). pose proof (offset_le (ib ql) ltac:(lia)).
    repeat split; try lia.
    destruct (try_entries v T keq wf _ _ _ _ _ _ _ _ A (blocks_proper _ TBL)) as [_ TE].
    pose proof B as (B1 & B2 & B3 & _).
    destruct (TE n id p q t la d E1 B2 B3) as (e' & l' & ql' & Ee & _ & _ & _ & ED & _). rewrite N in Ee. injection Ee as <-. subst d.
    eapply SHALLOW. eapply nth_error_In. exact B2.
  Qed.
End S.
