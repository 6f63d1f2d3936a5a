(** Construction, mutation histories and copies of instructions; locations. *)
From Coq Require Import ZifyBool.
From Verif Require Import PyBase OpTable CPy M_Instr P_Base P_OpTable P_Asm S_Args P_Instr.
Open Scope string_scope.
Open Scope list_scope.
Open Scope Z_scope.

(** ** Locations *)

Lemma check_location_ok x m : check_location x m = Ok tt <-> forall z, x = Some z -> m <= z.
Proof.
  unfold check_location. destruct x as [z|].
  - destruct (Z.ltb_spec z m); split; try discriminate; intros; try reflexivity.
    + specialize (H0 z eq_refl). lia.
    + inv_ok. lia.
  - split; [discriminate|reflexivity].
Qed.

Lemma new_location_iff v l el c ec :
  (exists lo, new_location v l el c ec = Ok lo) <-> coherent v l el c ec.
Proof.
  unfold new_location, min_lineno. split.
  - intros (lo & H). inv_ok.
    repeat match goal with x : unit |- _ => destruct x end.
    rewrite check_location_ok in E, E0, E1, E2.
    repeat split; intros; subst; eauto.
    + specialize (E0 _ eq_refl). destruct (Z.eqb_spec x 0); [lia|].
      destruct l as [y|]; [|discriminate].
      destruct (Z.ltb_spec x y); [discriminate|]. eauto.
    + destruct l, el; try discriminate E4. destruct ec; [eauto|discriminate].
    + destruct c, l, el; try discriminate E4; eauto.
    + destruct l as [l1|], el as [l2|]; try discriminate E4.
      exists l1, l2. repeat split. intros ->. rewrite Z.eqb_refl in E4. simpl in E4.
      destruct (Z.ltb_spec y x); [discriminate|lia].
  - intros (A & B & C & D & F).
    rewrite (proj2 (check_location_ok l (if PY311 v then 0 else 1)) A). simpl.
    rewrite (proj2 (check_location_ok el 1)) by (intros z Hz; now apply B).
    rewrite (proj2 (check_location_ok c 0)) by (intros z Hz; now apply C).
    rewrite (proj2 (check_location_ok ec 0)) by (intros z Hz; now apply D). simpl.
    destruct el as [el|].
    + destruct (B el eq_refl) as (B1 & y & -> & B2).
      destruct (Z.eqb_spec el 0); [lia|]. destruct (Z.ltb_spec el y); [lia|]. simpl.
      destruct c as [c|], ec as [ec|]; simpl; eauto.
      * destruct (F c ec eq_refl eq_refl) as (l1 & l2 & X & Y & G). inv_ok.
        destruct (Z.eqb_spec l1 l2); simpl; eauto.
        destruct (Z.ltb_spec ec c); simpl; eauto. lia.
      * destruct (C c eq_refl) as (_ & ? & ?). discriminate.
      * destruct (D ec eq_refl) as (_ & ? & ?). discriminate.
    + simpl. destruct c as [c|], ec as [ec|]; simpl; eauto.
      * destruct (F c ec eq_refl eq_refl) as (l1 & l2 & X & Y & G). discriminate.
      * destruct (C c eq_refl) as (_ & ? & ?). discriminate.
      * destruct (D ec eq_refl) as (_ & ? & ?). discriminate.
Qed.

Lemma new_location_val v l el c ec lo :
  new_location v l el c ec = Ok lo -> lo = mkLoc l el c ec.
Proof. unfold new_location. intros H. inv_ok. reflexivity. Qed.

(** ** The line setter *)

Lemma new_location_line v z :
  (exists lo, new_location v (Some z) None None None = Ok lo) <->
  (if PY311 v then 0 else 1) <= z.
Proof.
  rewrite new_location_iff. unfold coherent. split.
  - intros (A & _). now apply A.
  - intros H. repeat split; intros; try discriminate. inv_ok. assumption.
Qed.

Lemma set_lineno_spec v l x :
  (detailed l -> set_lineno v l x = (l, Err RuntimeError))
  /\ (~ detailed l -> line_ok v x ->
      exists l', set_lineno v l x = (l', Ok tt) /\ loc_lineno l' = x /\ ~ detailed l')
  /\ (~ detailed l -> ~ line_ok v x -> exists e, set_lineno v l x = (l, Err e)).
Proof.
  unfold set_lineno. destruct l as [[ln el c ec]|]; cbn [l_end_lineno l_col l_end_col].
  - split; [|split].
    + intros (y & Y & H). inv_ok. cbn in H.
      destruct el, c, ec; try reflexivity. intuition congruence.
    + intros N L. assert (el = None /\ c = None /\ ec = None) as (-> & -> & ->).
      { destruct el as [a|], c as [b|], ec as [d|]; auto; exfalso; apply N;
        eexists; split; try reflexivity; cbn; intuition congruence. }
      destruct x as [| |z]; cbn.
      * eexists. repeat split. intros (y & Y & _). discriminate.
      * eexists. repeat split. intros (y & Y & H). inv_ok. cbn in H. intuition.
      * cbn in L. apply new_location_line in L. destruct L as (lo & L). rewrite L.
        pose proof (new_location_val _ _ _ _ _ _ L). subst.
        eexists. repeat split. intros (y & Y & H). inv_ok. cbn in H. intuition.
    + intros N L. assert (el = None /\ c = None /\ ec = None) as (-> & -> & ->).
      { destruct el as [a|], c as [b|], ec as [d|]; auto; exfalso; apply N;
        eexists; split; try reflexivity; cbn; intuition congruence. }
      destruct x as [| |z]; cbn in L; try (exfalso; now apply L).
      rewrite <- new_location_line in L.
      destruct (new_location v (Some z) None None None) eqn:X.
      * exfalso. apply L. eauto.
      * eauto.
  - split; [|split].
    + intros (y & Y & H). discriminate.
    + intros N L. destruct x as [| |z]; cbn.
      * eexists. repeat split. intros (y & Y & _). discriminate.
      * eexists. repeat split. intros (y & Y & H). inv_ok. cbn in H. intuition.
      * cbn in L. apply new_location_line in L. destruct L as (lo & L). rewrite L.
        pose proof (new_location_val _ _ _ _ _ _ L). subst.
        eexists. repeat split. intros (y & Y & H). inv_ok. cbn in H. intuition.
    + intros N L. destruct x as [| |z]; cbn in L; try (exfalso; now apply L).
      rewrite <- new_location_line in L.
      destruct (new_location v (Some z) None None None) eqn:X.
      * exfalso. apply L. eauto.
      * eauto.
Qed.

(** ** Instr: construction and histories *)

Lemma resolve_iff T n op :
  resolve_name T n = Ok op <-> opmap T n = Some op /\ op < t_min_instrumented T.
Proof.
  split; [apply resolve_ok|]. intros [A B]. unfold resolve_name. rewrite A.
  destruct (Z.leb_spec (t_min_instrumented T) op); [lia|reflexivity].
Qed.

Section Hist.
  Variables (v : pyver) (T : optable).
  Hypothesis wf : wf_optable v T = true.

  Lemma new_instr_iff n arg ln lo :
    (exists i, new_instr v T n arg ln lo = Ok i) <->
    (exists op, opmap T n = Some op /\ op < t_min_instrumented T /\ n <> "EXTENDED_ARG"
       /\ doc_arg v T op arg)
    /\ (lo = None -> line_ok v ln).
  Proof.
    unfold new_instr. split.
    - intros (i & H). inv_ok. apply resolve_iff in E. destruct E as [A B]. destruct x0.
      apply (instr_check_arg_iff v T wf) in E0; auto. destruct E0. split; [eauto 6|].
      intros ->. destruct ln as [| |z]; cbn; auto. apply new_location_line.
      inv_ok. eauto.
    - intros ((op & A & B & C & D) & L).
      rewrite (proj2 (resolve_iff T n op)) by auto. simpl.
      rewrite (proj2 (instr_check_arg_iff v T wf n op arg A B)) by auto. simpl.
      destruct lo; [eauto|]. specialize (L eq_refl).
      destruct ln as [| |z]; eauto. cbn in L. apply new_location_line in L.
      destruct L as (lo & ->). simpl. eauto.
  Qed.

  Lemma new_instr_val n arg ln lo i : new_instr v T n arg ln lo = Ok i ->
    legal_instr v T i /\ i_name i = n /\ i_arg i = arg
    /\ (forall l, lo = Some l -> i_loc i = Some l)
    /\ (lo = None -> loc_lineno (i_loc i) = ln).
  Proof.
    unfold new_instr. intros H. inv_ok. apply resolve_iff in E. destruct E as [A B]. destruct x0.
    apply (instr_check_arg_iff v T wf) in E0; auto. destruct E0 as [C D].
    destruct lo as [lo|].
    - inv_ok. repeat split; cbn; auto; discriminate.
    - destruct ln as [| |z]; inv_ok; repeat split; cbn; auto; try discriminate.
      intros _. apply new_location_val in E. subst. reflexivity.
  Qed.

  Lemma instr_set_spec i n a i' r : instr_set v T i n a = (i', r) ->
    match r with
    | Ok _ => i_name i' = n /\ i_arg i' = a /\ i_loc i' = i_loc i /\ legal_instr v T i'
    | Err _ => i' = i
    end.
  Proof.
    unfold instr_set. destruct (resolve_name T n) as [op|e] eqn:E; intros H.
    - destruct (instr_check_arg v T n op a) as [[]|e] eqn:E0; inv_ok; auto.
      apply resolve_iff in E. destruct E as [A B].
      apply (instr_check_arg_iff v T wf) in E0; auto. destruct E0.
      repeat split; auto.
    - inv_ok. reflexivity.
  Qed.

  Lemma instr_step_err i o i' e : instr_step v T i o = (i', Err e) -> i' = i.
  Proof.
    destruct o; cbn; intros H.
    - exact (instr_set_spec _ _ _ _ _ H).
    - exact (instr_set_spec _ _ _ _ _ H).
    - destruct (name_of_opcode T op); [|now inv_ok]. exact (instr_set_spec _ _ _ _ _ H).
    - exact (instr_set_spec _ _ _ _ _ H).
    - destruct (set_lineno v (i_loc i) l) as [l' r] eqn:E. inv_ok.
      enough (l' = i_loc i) as -> by now destruct i.
      unfold set_lineno in E. repeat match type of E with
        | (if ?b then _ else _) = _ => destruct b
        | match ?x with _ => _ end = _ => destruct x
        end; inv_ok; congruence.
    - discriminate.
  Qed.

  Lemma instr_step_legal i o i' r :
    legal_instr v T i -> instr_step v T i o = (i', r) -> legal_instr v T i'.
  Proof.
    intros L H. destruct r as [u|e]; [|now rewrite (instr_step_err _ _ _ _ H)].
    destruct o; cbn in H.
    - now destruct (instr_set_spec _ _ _ _ _ H) as (_ & _ & _ & ?).
    - now destruct (instr_set_spec _ _ _ _ _ H) as (_ & _ & _ & ?).
    - destruct (name_of_opcode T op); [|now inv_ok].
      now destruct (instr_set_spec _ _ _ _ _ H) as (_ & _ & _ & ?).
    - now destruct (instr_set_spec _ _ _ _ _ H) as (_ & _ & _ & ?).
    - destruct (set_lineno v (i_loc i) l) as [l' r] eqn:E. inv_ok. exact L.
    - inv_ok. exact L.
  Qed.

  Lemma run_legal ops : forall i, legal_instr v T i -> legal_instr v T (run v T i ops).
  Proof.
    induction ops as [|o ops IH]; intros i L; [exact L|]. cbn. apply IH.
    destruct (instr_step v T i o) as [i' r] eqn:E. cbn. eapply instr_step_legal; eauto.
  Qed.

  (** ** ConcreteInstr *)

  Lemma digits_bounds a k : 0 <= a -> digits256 a k -> a < 256 ^ k /\ (k = 1 \/ 256 ^ (k - 1) <= a).
  Proof.
    intros Ha (A & B & C). split; [assumption|].
    destruct (Z.eq_dec k 1); [now left|right].
    destruct (Z_le_gt_dec (256 ^ (k - 1)) a); [assumption|].
    specialize (C (k - 1)). lia.
  Qed.

  Lemma valid_legal i : valid_cinstr v T i -> legal_cinstr v T i.
  Proof.
    intros V. pose proof V as V0. destruct V as [A B C D]. repeat split; auto.
    destruct (c_ext i) as [n|] eqn:X.
    - rewrite D. reflexivity.
    - destruct (assemble_size_auto v T wf i V0 X) as (_ & k & S & K).
      exists k. split; [assumption|]. split; [apply K|].
      destruct (c_arg i) as [a|].
      + apply digits_bounds; [lia|assumption].
      + apply (digits256_unique 0); [assumption|]. apply digits256_small. lia.
  Qed.

  Lemma legal_valid i : legal_cinstr v T i -> valid_cinstr v T i.
  Proof.
    intros (A & B & C & D). split; auto.
    destruct (c_ext i) as [n|] eqn:X.
    - rewrite D. reflexivity.
    - destruct D as (k & S & K & G).
      pose (j := mkC (c_name i) (c_op i) (c_arg i) None None (compute_size None (c_arg i))).
      assert (V : valid_cinstr v T j) by (split; auto).
      destruct (assemble_size_auto v T wf j V eq_refl) as (_ & k' & S' & K').
      cbn [c_size c_arg j] in S', K'. unfold j in S', K'. cbn [c_size c_arg] in S', K'.
      rewrite S, S'. f_equal.
      destruct (c_arg i) as [a|].
      + apply (digits256_unique a); [|assumption]. split; [lia|]. split; [apply G|].
        intros q Q1 Q2. destruct G as [G1 [->|G2]]; [lia|].
        destruct (Z_le_gt_dec k q); [assumption|].
        pose proof (Z.pow_le_mono_r 256 q (k - 1)). lia.
      + subst. apply (digits256_unique 0); [|assumption]. apply digits256_small. lia.
  Qed.

  Lemma c_set_spec i n a i' r : c_set v T i n a = (i', r) ->
    match r with
    | Ok _ => c_name i' = n /\ c_arg i' = carg_of a /\ c_loc i' = c_loc i /\ c_ext i' = c_ext i
              /\ valid_cinstr v T i'
    | Err _ => i' = i
    end.
  Proof.
    unfold c_set. destruct (resolve_name T n) as [op|e] eqn:E; intros H.
    - destruct (c_check_arg v T op a) as [[]|e] eqn:E0; inv_ok; auto.
      apply resolve_iff in E. destruct E as [A B].
      pose proof (c_check_arg_ok _ _ _ _ _ E0). repeat split; auto.
    - now inv_ok.
  Qed.

  Lemma cinstr_step_err i o i' e : cinstr_step v T i o = (i', Err e) -> i' = i.
  Proof.
    destruct o; cbn; intros H.
    - exact (c_set_spec _ _ _ _ _ H).
    - exact (c_set_spec _ _ _ _ _ H).
    - destruct (name_of_opcode T op); [|now inv_ok]. exact (c_set_spec _ _ _ _ _ H).
    - exact (c_set_spec _ _ _ _ _ H).
    - destruct (set_lineno v (c_loc i) l) as [l' r] eqn:E. inv_ok.
      enough (l' = c_loc i) as -> by now destruct i.
      unfold set_lineno in E. repeat match type of E with
        | (if ?b then _ else _) = _ => destruct b
        | match ?x with _ => _ end = _ => destruct x
        end; inv_ok; congruence.
    - discriminate.
  Qed.

  Lemma cinstr_step_legal i o i' r :
    legal_cinstr v T i -> cinstr_step v T i o = (i', r) -> legal_cinstr v T i'.
  Proof.
    intros L H. destruct r as [u|e]; [|now rewrite (cinstr_step_err _ _ _ _ H)].
    destruct o; cbn in H.
    1, 2, 4: apply valid_legal; now destruct (c_set_spec _ _ _ _ _ H) as (_ & _ & _ & _ & ?).
    - destruct (name_of_opcode T op); [|now inv_ok].
      apply valid_legal; now destruct (c_set_spec _ _ _ _ _ H) as (_ & _ & _ & _ & ?).
    - destruct (set_lineno v (c_loc i) l) as [l' r] eqn:E. inv_ok. exact L.
    - inv_ok. exact L.
  Qed.

  Lemma crun_legal ops : forall i, legal_cinstr v T i -> legal_cinstr v T (crun v T i ops).
  Proof.
    induction ops as [|o ops IH]; intros i L; [exact L|]. cbn. apply IH.
    destruct (cinstr_step v T i o) as [i' r] eqn:E. cbn. eapply cinstr_step_legal; eauto.
  Qed.

  (** ** Copies *)

  Lemma instr_copy_ok i : legal_instr v T i -> instr_copy v T i = Ok i.
  Proof.
    intros (A & B & C & D). unfold instr_copy, new_instr.
    rewrite (proj2 (resolve_iff T _ (i_op i))) by auto. simpl.
    rewrite (proj2 (instr_check_arg_iff v T wf _ _ _ A B)) by auto. simpl.
    destruct i as [n o a [l|]]; reflexivity.
  Qed.

  Lemma c_check_arg_valid i : valid_cinstr v T i -> c_check_arg v T (c_op i) (c_pyarg i) = Ok tt.
  Proof.
    intros V. pose proof (vc_arg _ _ _ V) as A. unfold c_check_arg, c_pyarg.
    destruct (c_arg i) as [a|].
    - destruct A as [A B]. cbn [is_unset].
      assert (check_arg_int (OInt a) = Ok tt) as ->.
      { unfold check_arg_int. cbn. destruct (_ && _) eqn:X; [reflexivity|lia]. }
      destruct B as [-> | ->]; [reflexivity|]. cbn.
      now destruct (opcode_has_argument v T 0).
    - rewrite A. cbn. now destruct (c_op i =? 0).
  Qed.

  Lemma carg_of_pyarg i : carg_of (c_pyarg i) = c_arg i.
  Proof. unfold carg_of, c_pyarg. now destruct (c_arg i). Qed.

  Lemma cinstr_copy_ok i : legal_cinstr v T i ->
    cinstr_copy v T i =
      Ok (mkC (c_name i) (c_op i) (c_arg i) (c_loc i) None (compute_size None (c_arg i))).
  Proof.
    intros L. apply legal_valid in L. unfold cinstr_copy, new_cinstr.
    rewrite (proj2 (resolve_iff T _ (c_op i))) by (destruct L; auto). cbn [bind].
    rewrite c_check_arg_valid by assumption. cbn [bind]. now rewrite carg_of_pyarg.
  Qed.
End Hist.
