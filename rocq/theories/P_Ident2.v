(** Assembling and then disassembling: the assembled code. *)
From Verif Require Import PyBase OpTable P_Base P_OpTable M_Instr M_Concrete M_Convert S_Args S_Prog S_Slots S_Asm S_Dis S_Ident
  P_Asm P_Instr P_Instr2 P_Conv P_Conv2 P_Cat P_Decode P_Args P_Args2 P_CfgSeq P_Dis P_Dis2 P_Dis3 P_Dis4 P_Dis5 P_Dis6 P_Try P_Jumps P_Jumps2 P_Layout P_Layout2 P_AsmProps P_Ident.
Open Scope string_scope.
Open Scope list_scope.
Open Scope Z_scope.

Lemma concat_inv {A} (gs : list (list A)) : forall k x, nth_error (concat gs) k = Some x ->
  exists p g j, nth_error gs p = Some g /\ nth_error g j = Some x /\ k = (start gs p + j)%nat.
Proof.
  induction gs as [|g gs IH]; intros k x N; [destruct k; discriminate|]. cbn [concat] in N.
  destruct (le_lt_dec (length g) k) as [L|L].
  - rewrite nth_error_app2 in N by assumption. destruct (IH _ _ N) as (p & g' & j & H1 & H2 & H3).
    exists (S p), g', j. split; [exact H1|]. split; [exact H2|]. rewrite start_cons. lia.
  - rewrite nth_error_app1 in N by assumption. exists 0%nat, g, k. split; [reflexivity|]. split; [exact N|]. now rewrite start_0.
Qed.

Lemma firstn_start {A} (gs : list (list A)) p : firstn (start gs p) (concat gs) = concat (firstn p gs).
Proof.
  rewrite <- (firstn_skipn p gs) at 2. rewrite concat_app, firstn_app. unfold start.
  rewrite Nat.sub_diag, firstn_O, app_nil_r. apply firstn_all.
Qed.

(** One group per element: the instruction and its caches, or nothing. *)
Definition grouped (it : bitem) (g : list cinstr) : Prop :=
  match it with
  | BI i => exists c n, g = c :: repeat (cache_at (c_loc c)) n /\ c_name c = i_name i /\ c_op c = i_op i
  | _ => g = []
  end.

Lemma filter_caches l n : filter (kept true) (repeat (cache_at l) n) = [].
Proof. induction n; [reflexivity|]. cbn. exact IHn. Qed.

Lemma grouped_count items gs : Forall2 grouped items gs -> no_cache items -> forall p,
  length (filter (kept true) (concat (firstn p gs))) = ninstrs (firstn p items).
Proof.
  induction 1 as [|it g items gs G F IH]; intros NC p; [now rewrite !firstn_nil|].
  assert (NC' : no_cache items) by (intros i I; apply NC; now right). destruct p as [|p]; [reflexivity|].
  cbn [firstn concat]. rewrite filter_app, app_length, (IH NC' p). unfold ninstrs. cbn [filter].
  destruct it; cbn [grouped] in G; try (subst g; reflexivity).
  destruct G as (c & n & -> & N & _). cbn [filter]. rewrite filter_caches.
  assert (K : kept true c = true). { unfold kept. cbn. apply negb_true_iff, String.eqb_neq. rewrite N. apply NC. now left. }
  rewrite K. reflexivity.
Qed.

Section S.
  Variables (v : pyver) (T : optable) (keq : pyobj -> pyobj -> bool).
  Hypothesis wf : wf_optable v T = true.

  Lemma same_eq cb op x y : ~ plain v T op -> ~ In op (t_haslocal T) -> same_arg v T cb op x y -> y = x.
  Proof.
    intros NP NL. induction 1 as [x|x a P A|n P I N|x y x' y' S1 IH1 S2 IH2]; try tauto; congruence.
  Qed.

  Lemma same_doc cb op x y : category v T op -> op_has_jump T op = false -> same_arg v T cb op x y -> doc_arg v T op x ->
    doc_arg v T op y.
  Proof.
    intros C NJ S D. pose proof C as C0.
    assert (IFF : forall l, In op l <-> z_mem op l = true) by (intros; rewrite z_mem_In; reflexivity).
    destruct (z_mem op (t_haslocal T)) eqn:EL.
    - assert (X : z_mem op (t_hasconst T) = false /\ z_mem op (t_hasname T) = false /\ z_mem op (t_hasfree T) = false
        /\ z_mem op (t_hascompare T) = false /\ is_intrinsic v T op = false /\ opcode_has_argument v T op = true).
      { destruct C as [C|C|C|C|C|C|C|C]; destruct C as (E1 & E2 & E4 & E5 & E6 & E7 & E8); try congruence; repeat split; assumption. }
      destruct X as (X1 & X2 & X3 & X4 & X5 & X6).
      assert (NP : ~ plain v T op) by (intros (_ & _ & P & _); apply P; now apply IFF).
      assert (NI : is_intrinsic1 v T op = false /\ is_intrinsic2 v T op = false).
      { unfold is_intrinsic in X5. now apply orb_false_iff in X5. }
      destruct NI as [NI1 NI2].
      inversion D; subst; try congruence;
        try (match goal with H : jumps T op |- _ => unfold op_has_jump in NJ; apply orb_false_iff in NJ; destruct NJ; destruct H as [H|H]; apply IFF in H; congruence end);
        try (match goal with H : In op _ |- _ => apply IFF in H; congruence end); try tauto.
      + inversion S; subst; [exact D|tauto].
      + inversion S; subst; [exact D|tauto|]. now apply doc_str.
      + inversion S; subst; [exact D|tauto].
      + assert (Q : forall z z', same_arg v T cb op z z' -> (exists s, z = OStr s \/ z = OCell s) -> exists s, z' = OStr s \/ z' = OCell s).
        { intros z z' SZ (s & [-> | ->]); inversion SZ; subst; try tauto; eauto. }
        inversion S; subst; [exact D|tauto|]. apply doc_pair; eauto.
    - assert (NL : ~ In op (t_haslocal T)) by (intros I; apply IFF in I; congruence).
      assert (PD : plain v T op \/ ~ plain v T op).
      { destruct C as [C|C|C|C|C|C|C|C]; destruct C as (E1 & E2 & E4 & E5 & E6 & E7 & E8); try congruence;
          try (right; intros (P1 & P2 & P3 & P4 & P5 & P6 & P7); rewrite ?IFF in *; congruence).
        left. unfold plain. rewrite !IFF. unfold jumps. rewrite !IFF. unfold op_has_jump in NJ. apply orb_false_iff in NJ. destruct NJ as [N1 N2].
        rewrite N1, N2, E2, E4, E5, E6, E7. intuition discriminate. }
      destruct PD as [P|NP]; [|now rewrite (same_eq cb op x y NP NL S)].
      inversion S; subst; [exact D| | |].
      + pose proof P as (P1 & P2 & P3 & P4 & P5 & P6 & P7). inversion D; subst; try (match goal with H : as_int _ = Some _ |- _ => discriminate H end); try tauto; try (unfold is_intrinsic in P7; apply orb_false_iff in P7; destruct P7; congruence).

        eapply doc_int; eauto. cbn. congruence.
      + tauto.
      + pose proof P as (P1 & P2 & P3 & P4 & P5 & P6 & P7). inversion D; subst; try (match goal with H : as_int _ = Some _ |- _ => discriminate H end); try tauto.
        destruct C as [C|C|C|C|C|C|C|C]; destruct C as (E1 & E2 & E4 & E5 & E6 & E7 & E8); congruence.
  Qed.
End S.
