(** The jump passes of the assembler: what one pass does, monotonicity, convergence. *)
From Verif Require Import PyBase OpTable CPy M_Instr M_Tables M_Concrete M_Convert P_Base S_Args
  P_OpTable P_Asm S_Asm.
Open Scope string_scope.
Open Scope list_scope.
Open Scope Z_scope.

Lemma units_in v z : units v z = in_units v z.
Proof. unfold units, in_units, OFFSET_AS_INSTRUCTION, PY310, minor. now destruct v. Qed.

Lemma upd_length {A} n (x : A) l : length (upd n x l) = length l.
Proof. revert n. induction l; intros [|n]; cbn; auto. Qed.
Lemma nth_upd_same {A} n (x : A) l : (n < length l)%nat -> nth_error (upd n x l) n = Some x.
Proof. revert n. induction l; intros [|n]; cbn; intros; try lia; auto. apply IHl. lia. Qed.
Lemma nth_upd_other {A} n k (x : A) l : n <> k -> nth_error (upd n x l) k = nth_error l k.
Proof. revert n k. induction l; intros [|n] [|k] H; cbn; try reflexivity; try congruence. apply IHl. congruence. Qed.
Lemma nth_some_lt {A} (l : list A) n x : nth_error l n = Some x -> (n < length l)%nat.
Proof. intros H. apply nth_error_Some. congruence. Qed.

(** *** Sizes *)
Definition asize (a : Z) : Z := compute_size None (Some a).

Lemma asize_digits a : 0 <= a -> exists k, asize a = 2 * k /\ digits256 a k.
Proof.
  intros Ha. unfold asize, compute_size.
  destruct (assemble_loop_spec (mkTable [] 0 [] [] [] [] [] [] [] [] 0 0 [] []) (bit_fuel a) a [] 2)
    as (pre & m & _ & _ & _ & Hm & Hd & _).
  { split; [assumption|]. apply bit_fuel_bound. assumption. }
  rewrite Hm. exists (m + 1). split; [lia|assumption].
Qed.

Lemma asize_mono a b : 0 <= a <= b -> asize a <= asize b.
Proof.
  intros H. destruct (asize_digits a) as (k & -> & _ & _ & M); [lia|].
  destruct (asize_digits b) as (k' & -> & K1 & K2 & _); [lia|].
  specialize (M k' K1). lia.
Qed.

Lemma asize_small a : 0 <= a <= 255 -> asize a = 2.
Proof.
  intros H. destruct (asize_digits a) as (k & -> & D); [lia|].
  rewrite (digits256_unique _ _ _ D (digits256_small a ltac:(lia))). reflexivity.
Qed.

Lemma asize_ge2 a : 0 <= a -> 2 <= asize a.
Proof. intros H. destruct (asize_digits a H) as (k & -> & K & _). lia. Qed.

Lemma asize_le8 a : 0 <= a <= 2147483647 -> asize a <= 8.
Proof.
  intros H. destruct (asize_digits a) as (k & -> & _ & _ & M); [lia|].
  specialize (M 4). lia.
Qed.

Lemma asize_even a : 0 <= a -> asize a mod 2 = 0.
Proof. intros H. destruct (asize_digits a H) as (k & -> & _). zdm. Qed.

(** *** Offsets *)
Lemma offset_of_0 v cs : offset_of v cs 0 = 0.
Proof. reflexivity. Qed.
Lemma offset_of_cons v c cs k : offset_of v (c :: cs) (S k) = in_units v (c_size c) + offset_of v cs k.
Proof. reflexivity. Qed.

Lemma offset_of_S v cs k c : nth_error cs k = Some c ->
  offset_of v cs (S k) = offset_of v cs k + in_units v (c_size c).
Proof.
  revert k. induction cs as [|d cs IH]; intros [|k] H; try discriminate.
  - injection H as ->. unfold offset_of. cbn. lia.
  - rewrite !offset_of_cons, (IH _ H). lia.
Qed.

Lemma offset_of_app v a b : forall k, offset_of v (a ++ b) (length a + k) = offset_of v a (length a) + offset_of v b k.
Proof.
  induction a as [|c a IH]; intros k; cbn [length app Nat.add].
  - unfold offset_of. cbn. lia.
  - rewrite !offset_of_cons, IH. lia.
Qed.

Lemma label_offsets_nth v cs : forall o k, (k <= length cs)%nat ->
  nth_error (label_offsets v o cs) k = Some (o + offset_of v cs k).
Proof.
  induction cs as [|c cs IH]; intros o k L; cbn [length] in L.
  - destruct k; [|lia]. cbn [label_offsets nth_error]. rewrite offset_of_0. f_equal. lia.
  - destruct k as [|k].
    + cbn [label_offsets nth_error]. rewrite offset_of_0. f_equal. lia.
    + cbn [label_offsets nth_error]. rewrite IH by lia. rewrite offset_of_cons. f_equal.
      unfold OFFSET_AS_INSTRUCTION, PY310, in_units. destruct v; cbn; lia.
Qed.
Lemma label_offsets_length v cs o : length (label_offsets v o cs) = S (length cs).
Proof. revert o. induction cs; intros; cbn; auto. Qed.

Lemma instruction_offsets_nth v cs : forall o k c, nth_error cs k = Some c ->
  nth_error (instruction_offsets v o cs) k
  = Some (o + offset_of v cs k + in_units v (c_size c - 2)).
Proof.
  induction cs as [|d cs IH]; intros o k c H; [now destruct k|].
  assert (Q : in_units v (c_size c - 2) = if OFFSET_AS_INSTRUCTION v then c_size c / 2 - 1 else c_size c - 2).
  { unfold OFFSET_AS_INSTRUCTION, PY310, in_units. destruct v; cbn; try reflexivity; zdm. }
  destruct k as [|k]; cbn [nth_error] in H.
  - injection H as ->. cbn [instruction_offsets nth_error]. rewrite Q, offset_of_0. f_equal. lia.
  - cbn [instruction_offsets nth_error]. rewrite (IH _ _ _ H). rewrite offset_of_cons. f_equal.
    clear. unfold OFFSET_AS_INSTRUCTION, PY310, in_units. destruct v; cbn; lia.
Qed.
Lemma instruction_offsets_length v cs o : length (instruction_offsets v o cs) = length cs.
Proof. revert o. induction cs; intros; cbn; auto. Qed.

(** *** The argument chosen for a jump *)
Definition jarg (v : pyver) (T : optable) (c : cinstr) (o t : Z) : Z :=
  let io := o + use_cache_opcodes v T c in
  if is_forward_rel_jump v T (c_name c) (c_op c) then t - (io + units v (c_size c))
  else if is_backward_rel_jump v T (c_name c) (c_op c) then io + units v (c_size c) - t
  else t.

Lemma set_arg_ok v T c a c' : set_arg v T c a = Ok c' ->
  c_name c' = c_name c /\ c_loc c' = c_loc c /\ c_ext c' = c_ext c
  /\ opmap T (c_name c) = Some (c_op c') /\ c_op c' < t_min_instrumented T
  /\ c_arg c' = Some a /\ 0 <= a <= 2147483647
  /\ (opcode_has_argument v T (c_op c') = true \/ c_op c' = 0)
  /\ c_size c' = compute_size (c_ext c) (Some a).
Proof.
  unfold set_arg, c_set. destruct (resolve_name T (c_name c)) as [op|] eqn:R; [|discriminate].
  destruct (c_check_arg v T op (OInt a)) as [u|] eqn:C; [|discriminate].
  intros H; injection H as <-. cbn. apply resolve_ok in R. destruct R as [R1 R2].
  apply c_check_arg_ok in C. cbn in C. destruct C as [C1 C2]. auto 12.
Qed.

Lemma set_arg_err v T c a e : set_arg v T c a = Err e -> e = ValueError \/ e = TypeError.
Proof.
  unfold set_arg, c_set, resolve_name.
  destruct (opmap T (c_name c)) as [op|]; [|intros H; injection H as <-; auto].
  destruct (_ <=? _); [intros H; injection H as <-; auto|].
  unfold c_check_arg, check_arg_int. cbn [is_unset as_int].
  destruct (opcode_has_argument v T op); [|destruct (op =? 0)];
    try destruct (_ && _); intros H; try discriminate H; injection H as <-; auto.
Qed.

(** Success of the setter. *)
Lemma set_arg_total v T c a : opmap T (c_name c) = Some (c_op c) -> c_op c < t_min_instrumented T ->
  opcode_has_argument v T (c_op c) = true -> 0 <= a <= 2147483647 ->
  set_arg v T c a = Ok (mkC (c_name c) (c_op c) (Some a) (c_loc c) (c_ext c) (compute_size (c_ext c) (Some a))).
Proof.
  intros O L A R. unfold set_arg, c_set, resolve_name. rewrite O.
  destruct (Z.leb_spec (t_min_instrumented T) (c_op c)); [lia|].
  unfold c_check_arg. rewrite A. cbn.
  destruct (Z.leb_spec 0 a); [|lia]. destruct (Z.leb_spec a 2147483647); [|lia]. reflexivity.
Qed.

Section Pass.
  Variables (v : pyver) (T : optable) (labels : list (nat * nat)).

  Lemma fix_fold offs jumps : forall ins b ins' b',
    NoDup (map fst jumps) ->
    foldM (fix_jump v T labels offs) jumps (ins, b) = Ok (ins', b') ->
    length ins' = length ins
    /\ (forall k, ~ In k (map fst jumps) -> nth_error ins' k = nth_error ins k)
    /\ (forall k l, In (k, l) jumps ->
          exists ti t c o c', dget Nat.eqb labels l = Some ti /\ nth_error offs ti = Some t
            /\ nth_error ins k = Some c /\ nth_error offs k = Some o
            /\ set_arg v T c (jarg v T c o t) = Ok c' /\ nth_error ins' k = Some c')
    /\ (b' = true <-> b = true \/ exists k c c', nth_error ins k = Some c
                       /\ nth_error ins' k = Some c' /\ c_size c' <> c_size c).
  Proof.
    induction jumps as [|[k l] jumps IH]; intros ins b ins' b' ND H; cbn [foldM] in H.
    - injection H as <- <-. repeat split; auto; try (intros ? ? []).
      intros [H|(k & c & c' & H1 & H2 & H3)]; [assumption|congruence].
    - apply bind_ok in H. destruct H as ([ins1 b1] & H1 & H).
      cbn [map fst] in ND. apply NoDup_cons_iff in ND. destruct ND as [Nk ND].
      unfold fix_jump in H1. inv_ok. rename x into ti, x0 into t, x1 into c, x2 into o, x3 into c'.
      change (set_arg v T c (jarg v T c o t) = Ok c') in E3.
      destruct (IH _ _ _ _ ND H) as (IL & IN & IJ & IB).
      rewrite upd_length in IL.
      pose proof (nth_some_lt _ _ _ E1) as Lk.
      split; [exact IL|]. split; [|split].
      + intros k' N. cbn in N. rewrite IN by tauto. apply nth_upd_other. tauto.
      + intros k' l' [Ej|I].
        * injection Ej as <- <-. exists ti, t, c, o, c'. repeat split; auto.
          rewrite IN by assumption. now apply nth_upd_same.
        * destruct (IJ _ _ I) as (ti' & t' & d & o' & d' & A1 & A2 & A3 & A4 & A5 & A6).
          exists ti', t', d, o', d'. repeat split; auto.
          rewrite <- A3. symmetry. apply nth_upd_other. intros ->. apply Nk.
          apply in_map_iff. exists (k', l'). now split.
      + rewrite IB. clear IB IJ. split.
        * intros [B|(k' & d & d' & A1 & A2 & A3)].
          { apply orb_true_iff in B. destruct B as [B|B]; [now left|]. right.
            exists k, c, c'. repeat split; auto.
            - rewrite IN by assumption. now apply nth_upd_same.
            - intros E'. rewrite E', Z.eqb_refl in B. discriminate. }
          { destruct (Nat.eq_dec k k') as [<-|Nk'].
            - rewrite (nth_upd_same _ _ _ Lk) in A1. injection A1 as <-.
              rewrite IN in A2 by assumption. rewrite (nth_upd_same _ _ _ Lk) in A2.
              injection A2 as <-. congruence.
            - rewrite nth_upd_other in A1 by assumption. right. now exists k', d, d'. }
        * intros [B|(k' & d & d' & A1 & A2 & A3)].
          { left. subst b. reflexivity. }
          { destruct (Nat.eq_dec k k') as [<-|Nk'].
            - left. rewrite E1 in A1. injection A1 as <-. rewrite IN in A2 by assumption.
              rewrite (nth_upd_same _ _ _ Lk) in A2. injection A2 as <-.
              apply orb_true_iff. right. apply negb_true_iff. now apply Z.eqb_neq.
            - right. exists k', d, d'. rewrite nth_upd_other by assumption. auto. }
  Qed.

  Lemma fix_fold_err offs jumps : forall st e,
    foldM (fix_jump v T labels offs) jumps st = Err e -> e <> RuntimeError.
  Proof.
    induction jumps as [|[k l] jumps IH]; intros [ins b] e H; cbn [foldM] in H; [discriminate|].
    destruct (fix_jump v T labels offs (ins, b) (k, l)) as [st|e'] eqn:E; cbn [bind] in H.
    - eapply IH; eauto.
    - injection H as <-. unfold fix_jump in E.
      destruct (dget Nat.eqb labels l) as [ti|]; cbn [of_option bind] in E;
        [|injection E as <-; discriminate].
      destruct (nth_error offs ti) as [t|]; cbn [of_option bind] in E;
        [|injection E as <-; discriminate].
      destruct (nth_error ins k) as [c|]; cbn [of_option bind] in E;
        [|injection E as <-; discriminate].
      destruct (nth_error offs k) as [o|]; cbn [of_option bind] in E;
        [|injection E as <-; discriminate].
      match type of E with context [set_arg v T c ?a] => destruct (set_arg v T c a) as [c'|e2] eqn:E2 end;
        cbn [bind] in E; [discriminate|].
      apply set_arg_err in E2. injection E as <-. destruct E2; subst; discriminate.
  Qed.
End Pass.
