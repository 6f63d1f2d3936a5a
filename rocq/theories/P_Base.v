(** Proof tools shared by all proof files. *)
From Verif Require Import PyBase.
From Coq Require Import ZifyBool.
Open Scope list_scope.
Open Scope Z_scope.

Lemma bind_ok {A B} (m : res A) (f : A -> res B) b :
  bind m f = Ok b -> exists a, m = Ok a /\ f a = Ok b.
Proof. destruct m; simpl; intros; [eauto | discriminate]. Qed.

Lemma guard_ok b e u : guard b e = Ok u -> b = true.
Proof. destruct b; simpl; congruence. Qed.

Lemma of_option_ok {A} e (o : option A) a : of_option e o = Ok a -> o = Some a.
Proof. destruct o; simpl; congruence. Qed.

(** Decompose every [bind ... = Ok ...] hypothesis. *)
Ltac inv_ok :=
  repeat match goal with
  | H : bind _ _ = Ok _ |- _ =>
      let a := fresh "x" in let H1 := fresh "E" in
      apply bind_ok in H; destruct H as (a & H1 & H)
  | H : guard _ _ = Ok _ |- _ => apply guard_ok in H
  | H : of_option _ _ = Ok _ |- _ => apply of_option_ok in H
  | H : Ok _ = Ok _ |- _ => injection H; clear H; intros; subst
  | H : Err _ = Ok _ |- _ => discriminate H
  | H : Some _ = Some _ |- _ => injection H; clear H; intros; subst
  | H : (_, _) = (_, _) |- _ => injection H; clear H; intros; subst
  | H : exists _, _ |- _ => destruct H
  | H : _ /\ _ |- _ => destruct H
  end.

Lemma zlen_nil {A} : zlen (@nil A) = 0. Proof. reflexivity. Qed.
Lemma zlen_cons {A} (x : A) l : zlen (x :: l) = 1 + zlen l.
Proof. unfold zlen. simpl length. lia. Qed.
Lemma zlen_app {A} (a b : list A) : zlen (a ++ b) = zlen a + zlen b.
Proof. unfold zlen. rewrite app_length. lia. Qed.
Lemma zlen_nonneg {A} (l : list A) : 0 <= zlen l.
Proof. unfold zlen. lia. Qed.
Lemma zlen_map {A B} (f : A -> B) l : zlen (map f l) = zlen l.
Proof. unfold zlen. now rewrite map_length. Qed.
Lemma zlen_repeat {A} (x : A) n : zlen (repeat x n) = Z.of_nat n.
Proof. unfold zlen. now rewrite repeat_length. Qed.

Lemma map_repeat {A B} (f : A -> B) x n : map f (repeat x n) = repeat (f x) n.
Proof. induction n; cbn; [reflexivity|now f_equal]. Qed.

(** ** Bytes: bit operations as arithmetic *)
Lemma land255 x : Z.land x 255 = x mod 256.
Proof. change 255 with (Z.ones 8). rewrite Z.land_ones by lia. reflexivity. Qed.
Lemma land63 x : Z.land x 63 = x mod 64.
Proof. change 63 with (Z.ones 6). rewrite Z.land_ones by lia. reflexivity. Qed.
Lemma land15 x : Z.land x 15 = x mod 16.
Proof. change 15 with (Z.ones 4). rewrite Z.land_ones by lia. reflexivity. Qed.
Lemma land1 x : Z.land x 1 = x mod 2.
Proof. change 1 with (Z.ones 1). rewrite Z.land_ones by lia. reflexivity. Qed.
Lemma shiftr8 x : Z.shiftr x 8 = x / 256.
Proof. rewrite Z.shiftr_div_pow2 by lia. reflexivity. Qed.
Lemma shiftr6 x : Z.shiftr x 6 = x / 64.
Proof. rewrite Z.shiftr_div_pow2 by lia. reflexivity. Qed.
Lemma shiftl8 x : Z.shiftl x 8 = x * 256.
Proof. rewrite Z.shiftl_mul_pow2 by lia. reflexivity. Qed.
Lemma shiftl6 x : Z.shiftl x 6 = x * 64.
Proof. rewrite Z.shiftl_mul_pow2 by lia. reflexivity. Qed.
Lemma shiftl1 x : Z.shiftl x 1 = x * 2.
Proof. rewrite Z.shiftl_mul_pow2 by lia. reflexivity. Qed.
Lemma shiftr1 x : Z.shiftr x 1 = x / 2.
Proof. rewrite Z.shiftr_div_pow2 by lia. reflexivity. Qed.

(** [lor] of numbers without common bits is addition. *)
Lemma lor_add_pow2 a k b : 0 <= k -> 0 <= b < 2 ^ k -> Z.lor (a * 2 ^ k) b = a * 2 ^ k + b.
Proof.
  intros Hk Hb. rewrite <- Z.shiftl_mul_pow2 by lia.
  symmetry. rewrite Z.add_nocarry_lxor.
  - apply Z.bits_inj'. intros n Hn. rewrite Z.lxor_spec, Z.lor_spec.
    destruct (Z_lt_ge_dec n k) as [L|G].
    + rewrite Z.shiftl_spec_low by lia. now destruct (Z.testbit b n).
    + assert (Z.testbit b n = false) as ->.
      { destruct (Z.eq_dec b 0) as [->|]; [apply Z.bits_0|].
        apply Z.bits_above_log2; [lia|].
        apply Z.lt_le_trans with k; [|lia]. apply Z.log2_lt_pow2; lia. }
      now rewrite xorb_false_r, orb_false_r.
  - apply Z.bits_inj'. intros n Hn. rewrite Z.land_spec, Z.bits_0.
    destruct (Z_lt_ge_dec n k) as [L|G].
    + now rewrite Z.shiftl_spec_low by lia.
    + assert (Z.testbit b n = false) as ->.
      { destruct (Z.eq_dec b 0) as [->|]; [apply Z.bits_0|].
        apply Z.bits_above_log2; [lia|].
        apply Z.lt_le_trans with k; [|lia]. apply Z.log2_lt_pow2; lia. }
      now rewrite andb_false_r.
Qed.

Lemma lor64 a b : 0 <= b < 64 -> Z.lor (a * 64) b = a * 64 + b.
Proof. intros. apply (lor_add_pow2 a 6 b); lia. Qed.

Lemma lor_64_r b : 0 <= b < 64 -> Z.lor b 64 = b + 64.
Proof.
  intros. rewrite Z.lor_comm. change 64 with (1 * 2 ^ 6) at 1.
  rewrite lor_add_pow2 by lia. lia.
Qed.

Lemma lor_128_r b : 0 <= b < 128 -> Z.lor b 128 = b + 128.
Proof.
  intros. rewrite Z.lor_comm. change 128 with (1 * 2 ^ 7) at 1.
  rewrite lor_add_pow2 by lia. lia.
Qed.

Lemma land_64_test b : (Z.land b 64 =? 0) = ((b / 64) mod 2 =? 0).
Proof.
  assert (H : Z.testbit b 6 = ((b / 64) mod 2 =? 1)).
  { rewrite Z.testbit_eqb by lia. reflexivity. }
  assert (Z.land b 64 = if Z.testbit b 6 then 64 else 0) as ->.
  { apply Z.bits_inj'. intros n Hn. rewrite Z.land_spec.
    change 64 with (2 ^ 6). rewrite Z.pow2_bits_eqb by lia.
    destruct (Z.eqb_spec 6 n) as [<-|N].
    - rewrite andb_true_r. destruct (Z.testbit b 6); [|reflexivity].
      now rewrite Z.pow2_bits_true by lia.
    - rewrite andb_false_r. destruct (Z.testbit b 6).
      + now rewrite Z.pow2_bits_false by lia.
      + now rewrite Z.bits_0. }
  rewrite H. pose proof (Z.mod_pos_bound (b / 64) 2).
  destruct (Z.eqb_spec ((b / 64) mod 2) 1); destruct (Z.eqb_spec ((b / 64) mod 2) 0); lia.
Qed.

(** The fuel of the shifting loops. *)
Lemma bit_fuel_bound x : 0 <= x -> x < 2 ^ Z.of_nat (S (Z.to_nat (Z.log2 x))).
Proof.
  intros Hx. destruct (Z.eq_dec x 0) as [->|N]; [reflexivity|].
  rewrite Nat2Z.inj_succ, Z2Nat.id by apply Z.log2_nonneg.
  apply Z.log2_lt_pow2; lia.
Qed.

(** Induction used for the fuelled loops dividing by [2^k]. *)
Lemma div_fuel x k f : 0 < k -> 0 <= x < 2 ^ Z.of_nat (S f) -> 0 <= x / 2 ^ k < 2 ^ Z.of_nat f.
Proof.
  intros Hk Hx.
  assert (P : 2 <= 2 ^ k). { pose proof (Z.pow_le_mono_r 2 1 k). lia. }
  rewrite Nat2Z.inj_succ, Z.pow_succ_r in Hx by lia.
  split; [apply Z.div_pos; lia|].
  apply Z.div_lt_upper_bound; [lia|]. nia.
Qed.

Ltac zdm := Z.div_mod_to_equations; lia.
