(** The stack size computation: what the analysed visits say about every path. *)
From Coq Require Import Lia.
From Verif Require Import PyBase OpTable M_Instr M_Concrete M_Bytecode M_Flags M_Cfg M_Stack S_Cfg S_Stack P_Base P_Cfg P_Stack P_StackL.
Open Scope string_scope.
Open Scope list_scope.
Open Scope Z_scope.

Section Q.
  Variables (v : pyver) (T : optable) (se : oracle) (check : bool) (g : cfg) (first : Z) (H : nat -> Z)
    (cov : nat -> nat -> nat -> bool -> Prop).
  Notation ef := (eff v T se check).
  Notation At := (at_ T ef g first H cov).
  Notation Shown := (shown T ef g first H).
  Hypothesis R : regular T ef g first H cov.
  Variables (C : common) (M : Z).
  Notation Low := (low v T se check g first H cov).
  Notation Ldone := (ldone v T se check g first H cov C).
  Notation Closed := (closed v T se check g first H cov C M).
  Notation Goal := (goal H C).
  Hypothesis FIN : forall b f, fin C b f -> Low b f -> Closed b (k_items (blk g b)) (start_of f).
  Hypothesis ENTRY : forall n l, g_order g = n :: l -> Ldone n.
  Hypothesis HANDLER : forall h, Goal h -> Ldone h.
  Hypothesis SHOWN : forall b i d o id h la sd, At (b, i, d, o) -> elem g b i = Some (BTB id (OBlock h) la sd) ->
    showing T ef g first H b i d id h la -> Ldone b -> Goal h.

  Definition reached (c : conf) : Prop :=
    let '(b, i, d, o) := c in
    (Ldone b /\ Closed b (skipn i (k_items (blk g b))) d)
    \/ (k_items (blk g b) = [] /\ k_next (blk g b) = None /\ i = O /\ d <= M).

  Lemma enter b d o : Ldone b -> At (b, O, d, o) -> reached (b, O, d, o).
  Proof.
    intros LD A. left. split; [exact LD|]. destruct LD as (f & F & L). pose proof (FIN b f F L) as K. destruct L as [o' A'].
    rewrite (reg_same _ _ _ _ _ _ R _ _ _ _ _ A A'). exact K.
  Qed.

  Lemma step_reached c c' : At c -> step T ef g c c' -> reached c -> reached c'.
  Proof.
    intros A ST RC. assert (A' : At c') by (eapply at_step; eauto).
    destruct ST as [b i d o z E|b i d o id h la sd E|b i d o id E|b i d o x pre post E F Y|b i d o x n pre post E J AX Y|b i d o m E N];
      (destruct RC as [[LD K]|(X1 & X2 & -> & X3)];
       [|exfalso; unfold elem in E; rewrite X1 in E; cbn in E; first [discriminate E|congruence]]).
    - rewrite (nth_skip _ _ _ E) in K. destruct K as [_ K]. left. auto.
    - rewrite (nth_skip _ _ _ E) in K. destruct K as [_ (_ & _ & K)]. left. auto.
    - rewrite (nth_skip _ _ _ E) in K. destruct K as [_ K]. left. auto.
    - rewrite (nth_skip _ _ _ E) in K. destruct K as [_ (_ & K)].
      destruct K as (p1 & p2 & X1 & X2 & X3 & X4).
      { right. unfold is_final, is_final_name in F. apply Bool.orb_false_iff in F. apply F. }
      rewrite Y in X1. injection X1 as <- <-. left. split; [exact LD|apply X4, F].
    - rewrite (nth_skip _ _ _ E) in K. destruct K as [_ (K & _)].
      destruct (K J) as (n' & p1 & p2 & X1 & X2 & X3 & X4 & X5). rewrite AX in X1. injection X1 as <-.
      apply enter; auto.
    - assert (SK : skipn i (k_items (blk g b)) = []) by (apply skipn_all2, nth_error_None; exact E).
      rewrite SK in K. destruct K as [LM K]. rewrite N in K. destruct K as [K|K]; [|apply enter; auto].
      right. split; [exact K|]. split; [|auto].
      exact (reg_next _ _ _ _ _ _ R _ _ _ _ _ A E N K).
  Qed.

  Lemma shown_at c : Shown c -> At c.
  Proof.
    intros S. induction S as [n l E|c c' S IH ST|b i d o id h la sd S IH E SH].
    - eapply at_entry; eauto.
    - eapply at_step; eauto.
    - eapply (at_raise _ _ _ _ _ _ (b, Datatypes.S i, d, Some (id, h, la))); [|left; exists id; reflexivity].
      eapply at_step; [exact IH|eapply st_begin; exact E].
  Qed.

  Lemma reached_elem b i d o it : reached (b, i, d, o) -> elem g b i = Some it ->
    Ldone b /\ Closed b (it :: skipn (S i) (k_items (blk g b))) d.
  Proof.
    intros [[LD K]|(X & _)] E.
    - rewrite (nth_skip _ _ _ E) in K. auto.
    - unfold elem in E. rewrite X in E. destruct i; discriminate.
  Qed.

  Lemma shown_reached c : Shown c -> reached c.
  Proof.
    intros S. induction S as [n l E|c c' S IH ST|b i d o id h la sd S IH E SH].
    - apply enter; [eapply ENTRY; eauto|eapply at_entry; eauto].
    - eapply step_reached; eauto. apply shown_at, S.
    - apply enter.
      + apply HANDLER. destruct (reached_elem _ _ _ _ _ IH E) as [LD _]. eapply SHOWN; eauto. apply shown_at, S.
      + apply shown_at. eapply sh_raise; eauto.
  Qed.

  Lemma raise_goal c h la : At c -> may_raise cov c h la -> Goal h.
  Proof.
    intros A MR. destruct (reg_shown _ _ _ _ _ _ R _ _ _ A MR) as (b & i & d & o & id & sd & S1 & S2 & S3).
    destruct (reached_elem _ _ _ _ _ (shown_reached _ S1) S2) as [LD _]. eapply SHOWN; eauto. apply shown_at, S1.
  Qed.

  Lemma at_reached c : At c -> reached c.
  Proof.
    intros A. induction A as [n l E|c c' A IH ST|c h la A IH MR].
    - apply enter; [eapply ENTRY; eauto|eapply at_entry; eauto].
    - eapply step_reached; eauto.
    - apply enter; [|eapply at_raise; eauto]. apply HANDLER. eapply raise_goal; eauto.
  Qed.

  Lemma closed_le b rest d : Closed b rest d -> d <= M.
  Proof. destruct rest; intros [X _]; exact X. Qed.

  Lemma at_bound b i d o : At (b, i, d, o) -> d <= M.
  Proof.
    intros A. destruct (at_reached _ A) as [[_ K]|(_ & _ & _ & X)]; [|exact X].
    eapply closed_le. exact K.
  Qed.

  Lemma at_begin b i d o id h la sd : At (b, i, d, o) -> elem g b i = Some (BTB id (OBlock h) la sd) ->
    In (id, OBlock h, la) (c_tbs C) /\ dget Nat.eqb (c_ex_start C) h = Some (H h).
  Proof.
    intros A E. split.
    - destruct (reached_elem _ _ _ _ _ (at_reached _ A) E) as [_ (_ & _ & X & _)]. exact X.
    - apply (raise_goal (b, S i, d, Some (id, h, la)) h la); [|left; exists id; reflexivity].
      eapply at_step; [exact A|eapply st_begin; exact E].
  Qed.

  Lemma no_underflow : ~ underflow T ef g first H cov.
  Proof.
    intros (b & i & d & o & x & j & pre & post & A & E & J1 & J2 & EF & LT).
    destruct (reached_elem _ _ _ _ _ (at_reached _ A) E) as [_ K]. destruct K as [_ (K1 & K3)]. destruct j.
    - destruct (K1 (J1 eq_refl)) as (n & p1 & p2 & X1 & X2 & X3 & _). rewrite EF in X2. injection X2 as <- <-. lia.
    - destruct (K3 (J2 eq_refl)) as (p1 & p2 & X2 & X3 & _). rewrite EF in X2. injection X2 as <- <-. lia.
  Qed.
End Q.
