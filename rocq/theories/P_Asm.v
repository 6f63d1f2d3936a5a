(** Encoding of one concrete instruction: size and decoding. *)
From Coq Require Import ZifyBool.
From Verif Require Import PyBase OpTable CPy M_Instr P_Base P_OpTable S_Args.
Open Scope string_scope.
Open Scope list_scope.
Open Scope Z_scope.

Lemma digits256_unique a k k' : digits256 a k -> digits256 a k' -> k = k'.
Proof. intros (A & B & C) (A' & B' & C'). specialize (C k' A' B'). specialize (C' k A B). lia. Qed.

Lemma digits256_small a : a < 256 -> digits256 a 1.
Proof. intros. split; [lia|]. split; [lia|]. intros. lia. Qed.

Lemma digits256_step a k : 256 <= a -> digits256 (a / 256) k -> digits256 a (k + 1).
Proof.
  intros Ha (A & B & C). split; [lia|]. split.
  - rewrite Z.pow_add_r by lia. change (256 ^ 1) with 256.
    apply Z.div_lt_upper_bound in B || idtac.
    assert (a / 256 < 256 ^ k) by assumption. zdm.
  - intros k' K1 K2.
    assert (k' <> 1) by (intros ->; change (256 ^ 1) with 256 in K2; lia).
    assert (k <= k' - 1); [|lia].
    apply C; [lia|].
    replace k' with (k' - 1 + 1) in K2 by lia.
    rewrite Z.pow_add_r in K2 by lia. change (256 ^ 1) with 256 in K2.
    apply Z.div_lt_upper_bound; lia.
Qed.

(** ** The shifting loops *)

Section Loops.
  Variable T : optable.
  Notation E := (t_extended_arg T).

  Lemma assemble_loop_spec fuel : forall arg b s,
    0 <= arg < 2 ^ Z.of_nat fuel ->
    exists pre m,
      assemble_loop T fuel arg b = pre ++ b
      /\ zlen pre = 2 * m /\ 0 <= m
      /\ size_loop fuel s arg = s + 2 * m
      /\ digits256 arg (m + 1)
      /\ forall n rest, executed E n 0 (pre ++ rest) = executed E (n + m) (arg / 256) rest.
  Proof.
    induction fuel as [|f IH]; intros arg b s H.
    - simpl in H. assert (arg = 0) by lia. subst. exists [], 0. simpl.
      repeat split; try lia. intros. f_equal; lia.
    - cbn [assemble_loop size_loop]. destruct (Z.ltb_spec 255 arg) as [L|L].
      + rewrite shiftr8, land255.
        assert (H' : 0 <= arg / 256 < 2 ^ Z.of_nat f).
        { change 256 with (2 ^ 8). apply div_fuel; lia. }
        destruct (IH (arg / 256) ([E; (arg / 256) mod 256] ++ b) (s + 2) H')
          as (pre & m & A & B & C & D & G & F).
        exists (pre ++ [E; (arg / 256) mod 256]), (m + 1).
        rewrite A, <- app_assoc. split; [reflexivity|].
        rewrite zlen_app, B. change (zlen [E; (arg / 256) mod 256]) with 2.
        split; [lia|]. split; [lia|]. split; [lia|]. split; [apply digits256_step; [lia|assumption]|].
        intros n rest. rewrite <- app_assoc, F. cbn [executed app].
        rewrite Z.eqb_refl. f_equal; [lia|]. zdm.
      + exists [], 0. simpl. repeat split; try lia. intros.
        f_equal; [lia|]. zdm.
  Qed.

  Lemma pad_loop_spec n : forall size b,
    (Z.to_nat (size - zlen b) <= n)%nat ->
    exists k, pad_loop T n size b = concat (repeat [E; 0] k) ++ b
      /\ (zlen b < size -> size <= zlen (pad_loop T n size b) <= size + 1)
      /\ (size <= zlen b -> k = O).
  Proof.
    induction n as [|m IH]; intros size b H; simpl.
    - exists O. simpl. repeat split; lia.
    - destruct (Z.ltb_spec (zlen b) size) as [L|L]; [|exists O; simpl; repeat split; lia].
      destruct (IH size (E :: 0 :: b)) as (k & A & B & C).
      { rewrite !zlen_cons. lia. }
      exists (S k). split.
      + rewrite A. clear. induction k; [reflexivity|]. simpl in *. now rewrite IHk.
      + split; [|lia]. intros _. rewrite !zlen_cons in *.
        destruct (Z_lt_ge_dec (1 + (1 + zlen b)) size) as [L'|L']; [auto|].
        rewrite A, C by lia. simpl. rewrite !zlen_cons. lia.
  Qed.

  Lemma executed_pad k : forall n rest,
    executed E n 0 (concat (repeat [E; 0] k) ++ rest) = executed E (n + Z.of_nat k) 0 rest.
  Proof.
    induction k as [|k IH]; intros n rest.
    - simpl. f_equal; lia.
    - cbn [repeat concat app executed]. rewrite Z.eqb_refl.
      change (0 * 256 + 0) with 0. rewrite IH. f_equal. lia.
  Qed.

  Lemma zlen_pad k : zlen (concat (repeat [E; 0] k)) = 2 * Z.of_nat k.
  Proof. induction k; [reflexivity|]. cbn [repeat concat]. rewrite zlen_app, IHk. change (zlen [E; 0]) with 2. lia. Qed.
End Loops.

(** ** Validity of concrete instructions *)

(** What [new_cinstr] and the setters guarantee. *)
Record valid_cinstr (v : pyver) (T : optable) (i : cinstr) : Prop := {
  vc_op : opmap T (c_name i) = Some (c_op i);
  vc_base : c_op i < t_min_instrumented T;
  vc_arg : match c_arg i with
           | Some a => 0 <= a <= 2147483647 /\ (opcode_has_argument v T (c_op i) = true \/ c_op i = 0)
           | None => opcode_has_argument v T (c_op i) = false
           end;
  vc_size : c_size i = compute_size (c_ext i) (c_arg i) }.

Lemma resolve_ok T n op : resolve_name T n = Ok op ->
  opmap T n = Some op /\ op < t_min_instrumented T.
Proof.
  unfold resolve_name. destruct (opmap T n); [|discriminate].
  destruct (Z.leb_spec (t_min_instrumented T) z); [discriminate|].
  intros X; inv_ok. split; [reflexivity|lia].
Qed.

Lemma check_arg_int_ok arg u : check_arg_int arg = Ok u ->
  exists z, as_int arg = Some z /\ 0 <= z <= 2147483647.
Proof.
  unfold check_arg_int. destruct (as_int arg) as [z|]; [|discriminate].
  destruct (_ && _) eqn:B; [|discriminate]. intros _. exists z. split; [reflexivity|lia].
Qed.

Lemma c_check_arg_ok v T op arg u : c_check_arg v T op arg = Ok u ->
  match carg_of arg with
  | Some a => 0 <= a <= 2147483647 /\ (opcode_has_argument v T op = true \/ op = 0)
  | None => opcode_has_argument v T op = false
  end.
Proof.
  unfold c_check_arg, carg_of.
  destruct (opcode_has_argument v T op) eqn:A.
  - destruct (is_unset arg); [discriminate|]. intros H.
    apply check_arg_int_ok in H. destruct H as (z & -> & ?). auto.
  - destruct (Z.eqb_spec op 0) as [->|N].
    + destruct (is_unset arg) eqn:U; [reflexivity|]. intros H.
      apply check_arg_int_ok in H. destruct H as (z & -> & ?). auto.
    + destruct (is_unset arg); [reflexivity|discriminate].
Qed.

Lemma new_cinstr_ok v T n arg l ext i : new_cinstr v T n arg l ext = Ok i ->
  valid_cinstr v T i /\ c_name i = n /\ c_arg i = carg_of arg /\ c_loc i = l /\ c_ext i = ext.
Proof.
  unfold new_cinstr. intros H. inv_ok. apply resolve_ok in E. destruct E.
  pose proof (c_check_arg_ok _ _ _ _ _ E0). repeat split; simpl; auto.
Qed.

Section Encode.
  Variables (v : pyver) (T : optable).
  Hypothesis wf : wf_optable v T = true.

  Lemma valid_not_ext i : valid_cinstr v T i -> c_name i <> "EXTENDED_ARG" ->
    c_op i <> t_extended_arg T.
  Proof.
    intros V N X. apply N. eapply opmap_inj; [exact wf|exact (vc_op _ _ _ V)|].
    rewrite X. exact (wf_ext v T wf).
  Qed.

  (** Size of an instruction without forced EXTENDED_ARG. *)
  Lemma assemble_size_auto i : valid_cinstr v T i -> c_ext i = None ->
    zlen (assemble T i) = c_size i /\
    exists k, c_size i = 2 * k /\ digits256 (match c_arg i with Some a => a | None => 0 end) k.
  Proof.
    intros V X. rewrite (vc_size _ _ _ V), X. unfold assemble, compute_size. rewrite X.
    pose proof (vc_arg _ _ _ V) as A. destruct (c_arg i) as [a|].
    - destruct A as [A _].
      destruct (assemble_loop_spec T (bit_fuel a) a [c_op i; Z.land a 255] 2)
        as (pre & m & P & Q & R & S & D & F).
      { split; [lia|]. apply bit_fuel_bound. lia. }
      rewrite P, zlen_app, Q, S. change (zlen [c_op i; Z.land a 255]) with 2.
      split; [lia|]. exists (m + 1). split; [lia|assumption].
    - split; [reflexivity|]. exists 1. split; [reflexivity|]. apply digits256_small. lia.
  Qed.

  (** Size of an instruction with a forced number of EXTENDED_ARG. *)
  Lemma assemble_size_forced i n k : valid_cinstr v T i -> c_ext i = Some n ->
    digits256 (match c_arg i with Some a => a | None => 0 end) k ->
    c_size i = 2 + 2 * n /\
    zlen (assemble T i) =
      match c_arg i with
      | None => 2
      | Some _ => if n =? 0 then 2 * k else Z.max (2 * k) (2 + 2 * n)
      end.
  Proof.
    intros V X D. rewrite (vc_size _ _ _ V), X. split; [reflexivity|].
    unfold assemble. rewrite X.
    pose proof (vc_arg _ _ _ V) as A. destruct (c_arg i) as [a|] eqn:CA; [|reflexivity].
    destruct A as [A _].
    destruct (assemble_loop_spec T (bit_fuel a) a [c_op i; Z.land a 255] 2)
      as (pre & m & P & Q & R & S & D' & F).
    { split; [lia|]. apply bit_fuel_bound. lia. }
    pose proof (digits256_unique _ _ _ D D'). subst k.
    rewrite P. set (b := pre ++ [c_op i; Z.land a 255]).
    assert (Zb : zlen b = 2 * (m + 1)).
    { unfold b. rewrite zlen_app, Q. change (zlen [c_op i; Z.land a 255]) with 2. lia. }
    destruct (Z.eqb_spec n 0); [assumption|].
    assert (CS : c_size i = 2 + 2 * n).
    { rewrite (vc_size _ _ _ V), X. reflexivity. }
    rewrite CS.
    destruct (pad_loop_spec T (Z.to_nat (2 + 2 * n - zlen b)) (2 + 2 * n) b (le_n _))
      as (k & PK & PS & PZ).
    destruct (Z_lt_ge_dec (zlen b) (2 + 2 * n)) as [L|L].
    - specialize (PS L). rewrite PK, zlen_app, zlen_pad in PS |- *. lia.
    - rewrite PK, PZ by lia. cbn [repeat concat app]. lia.
  Qed.

  (** Decoding of an instruction. *)
  Lemma assemble_decode i rest : valid_cinstr v T i -> c_name i <> "EXTENDED_ARG" ->
    executed (t_extended_arg T) 0 0 (assemble T i ++ rest) =
    (zlen (assemble T i) / 2 - 1, c_op i, match c_arg i with Some a => a | None => 0 end)
    :: executed (t_extended_arg T) 0 0 rest
    /\ zlen (assemble T i) mod 2 = 0.
  Proof.
    intros V N. pose proof (valid_not_ext i V N) as NE.
    apply Z.eqb_neq in NE.
    unfold assemble. pose proof (vc_arg _ _ _ V) as A. destruct (c_arg i) as [a|].
    2: { cbn [app executed]. rewrite NE. split; reflexivity. }
    destruct A as [A _].
    destruct (assemble_loop_spec T (bit_fuel a) a [c_op i; Z.land a 255] 2)
      as (pre & m & P & Q & R & S & D & F).
    { split; [lia|]. apply bit_fuel_bound. lia. }
    rewrite P. set (b := pre ++ [c_op i; Z.land a 255]).
    assert (Zb : zlen b = 2 * (m + 1)).
    { unfold b. rewrite zlen_app, Q. change (zlen [c_op i; Z.land a 255]) with 2. lia. }
    assert (G : forall k n0, zlen (concat (repeat [t_extended_arg T; 0] k) ++ b) / 2 - 1 = n0 ->
       executed (t_extended_arg T) 0 0 ((concat (repeat [t_extended_arg T; 0] k) ++ b) ++ rest)
       = (n0, c_op i, a) :: executed (t_extended_arg T) 0 0 rest).
    { intros k n0 <-. rewrite <- app_assoc, executed_pad. unfold b.
      rewrite <- app_assoc, F. cbn [app executed]. rewrite NE.
      f_equal. f_equal. 2:{ rewrite land255. zdm. }
      f_equal. change (pre ++ [c_op i; Z.land a 255]) with b.
      rewrite zlen_app, zlen_pad, Zb. zdm. }
    assert (M : forall k, zlen (concat (repeat [t_extended_arg T; 0] k) ++ b) mod 2 = 0).
    { intros k. rewrite zlen_app, zlen_pad, Zb. zdm. }
    destruct (c_ext i) as [n|]; [destruct (n =? 0)|].
    1, 3: split; [apply (G O); reflexivity | apply (M O)].
    destruct (pad_loop_spec T (Z.to_nat (c_size i - zlen b)) (c_size i) b (le_n _))
      as (k & PK & _). rewrite PK. split; [apply G; reflexivity|apply M].
  Qed.
End Encode.
