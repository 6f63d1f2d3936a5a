(** Exception table: varints and entries. *)
From Coq Require Import ZifyBool.
From Verif Require Import PyBase OpTable M_Instr M_Tables P_Base.
Open Scope list_scope.
Open Scope Z_scope.

Lemma parse_varint_loop_eq l : parse_varint l = parse_varint_loop 0 l.
Proof. destruct l; [reflexivity|]. cbn [parse_varint parse_varint_loop]. rewrite Z.shiftl_0_l, Z.lor_0_l. reflexivity. Qed.

Lemma parse_step acc b rest : 0 <= acc ->
  parse_varint_loop acc (b :: rest) =
  if (b / 64) mod 2 =? 0 then Some (acc * 64 + b mod 64, rest)
  else parse_varint_loop (acc * 64 + b mod 64) rest.
Proof.
  intros H. cbn [parse_varint_loop]. rewrite land_64_test, land63, shiftl6, lor64 by zdm.
  reflexivity.
Qed.

(** Continuation bytes, most significant first. *)
Lemma encode_loop_spec fuel : forall value rtemp,
  0 <= value < 2 ^ Z.of_nat fuel -> rtemp <> [] ->
  exists ds, encode_varint_loop fuel value rtemp = ds ++ rtemp
    /\ Forall (fun b => 64 <= b < 128) ds
    /\ exists k, 0 <= k /\ value < 64 ^ k /\
       forall acc rest, 0 <= acc ->
       parse_varint_loop acc (ds ++ rest) = parse_varint_loop (acc * 64 ^ k + value) rest.
Proof.
  induction fuel as [|f IH]; intros value rtemp H N.
  - simpl in H. assert (value = 0) by lia. subst. exists []. cbn. split; [reflexivity|].
    split; [constructor|]. exists 0. repeat split; try lia. intros. f_equal. lia.
  - cbn [encode_varint_loop]. destruct (Z.eqb_spec value 0) as [->|NZ].
    + exists []. cbn. split; [reflexivity|].
      split; [constructor|]. exists 0. repeat split; try lia. intros. f_equal. lia.
    + assert (R : match rtemp with [] => 0 | _ => 64 end = 64) by (destruct rtemp; congruence).
      rewrite R, land63, shiftr6, lor_64_r by zdm.
      destruct (IH (value / 64) (value mod 64 + 64 :: rtemp)) as (ds & A & B & k & K1 & K2 & C).
      { change 64 with (2 ^ 6). apply div_fuel; lia. }
      { discriminate. }
      exists (ds ++ [value mod 64 + 64]). rewrite A, <- app_assoc. split; [reflexivity|].
      split. { apply Forall_app. split; [assumption|]. constructor; [zdm|constructor]. }
      exists (k + 1). rewrite Z.pow_add_r by lia. change (64 ^ 1) with 64.
      split; [lia|]. split; [zdm|].
      intros acc rest Ha. rewrite <- app_assoc. cbn [app].
      rewrite C by assumption.
      assert (0 <= acc * 64 ^ k) by (apply Z.mul_nonneg_nonneg; [lia|apply Z.pow_nonneg; lia]).
      assert (0 <= value / 64) by zdm.
      rewrite parse_step by lia.
      replace ((value mod 64 + 64) / 64) with 1 by zdm. cbn [Z.eqb Z.modulo].
      change (1 mod 2 =? 0) with false. cbv iota. f_equal. zdm.
Qed.

Lemma encode_varint_digits value : 0 < value ->
  exists ds, encode_varint_loop (bit_fuel value) value [] = ds ++ [value mod 64]
    /\ Forall (fun b => 64 <= b < 128) ds
    /\ forall acc rest, 0 <= acc ->
       exists k, 0 <= k /\
       parse_varint_loop acc (ds ++ rest) = parse_varint_loop (acc * 64 ^ k + value / 64) rest.
Proof.
  intros H. unfold bit_fuel. cbn [encode_varint_loop].
  destruct (Z.eqb_spec value 0); [lia|]. rewrite land63, shiftr6, Z.lor_0_r.
  destruct (encode_loop_spec (Z.to_nat (Z.log2 value)) (value / 64) [value mod 64])
    as (ds & A & B & k & K1 & K2 & C).
  { change 64 with (2 ^ 6). apply div_fuel; [lia|]. split; [lia|].
    apply bit_fuel_bound. lia. }
  { discriminate. }
  exists ds. repeat split; [assumption|assumption|]. intros acc rest Ha. exists k. auto.
Qed.

(** Setting the begin marker on the first byte does not change what is parsed. *)
Lemma parse_marker b r : 0 <= b < 128 ->
  parse_varint_loop 0 (Z.lor b 128 :: r) = parse_varint_loop 0 (b :: r).
Proof.
  intros H. rewrite lor_128_r by assumption. rewrite !parse_step by lia.
  assert ((b + 128) / 64 mod 2 = b / 64 mod 2) as -> by zdm.
  assert ((b + 128) mod 64 = b mod 64) as -> by zdm. reflexivity.
Qed.

Lemma encode_varint_spec value marker bs : encode_varint value marker = Ok bs ->
  0 <= value
  /\ (forall rest, parse_varint (bs ++ rest) = Some (value, rest))
  /\ exists b r, bs = b :: r
     /\ (if marker then 128 <= b < 256 else 0 <= b < 128)
     /\ Forall (fun x => 0 <= x < 128) r.
Proof.
  unfold encode_varint. destruct (Z.ltb_spec value 0) as [L|L]; [discriminate|].
  intros H. split; [assumption|].
  destruct (Z.eq_dec value 0) as [->|NZ].
  - cbn in H. destruct marker; inv_ok; (split; [intros; reflexivity|]);
      eexists _, _; (split; [reflexivity|]); (split; [lia|constructor]).
  - destruct (encode_varint_digits value) as (ds & A & B & C); [lia|].
    rewrite A in H.
    assert (G : forall rest, parse_varint_loop 0 ((ds ++ [value mod 64]) ++ rest)
                             = Some (value, rest)).
    { intros rest. rewrite <- app_assoc. cbn [app].
      destruct (C 0 (value mod 64 :: rest)) as (k & K & ->); [lia|].
      rewrite Z.mul_0_l, Z.add_0_l, parse_step by zdm.
      replace (value mod 64 / 64) with 0 by zdm. cbn [Z.modulo Z.eqb].
      change (0 mod 2 =? 0) with true. cbv iota. do 2 f_equal. zdm. }
    destruct ds as [|d ds]; cbn [app] in H, G.
    + assert (0 <= value mod 64 < 128) by zdm.
      destruct marker; inv_ok.
      * split. { intros rest. rewrite parse_varint_loop_eq. cbn [app].
                 rewrite parse_marker by zdm. apply G. }
        eexists _, _. split; [reflexivity|]. rewrite lor_128_r by zdm. split; [zdm|constructor].
      * split. { intros rest. rewrite parse_varint_loop_eq. apply G. }
        eexists _, _. split; [reflexivity|]. split; [lia|constructor].
    + inversion_clear B as [|? ? B1 B2].
      assert (F : Forall (fun x => 0 <= x < 128) (ds ++ [value mod 64])).
      { apply Forall_app. split.
        - eapply Forall_impl; [|exact B2]. cbn. lia.
        - constructor; [zdm|constructor]. }
      destruct marker; inv_ok.
      * split. { intros rest. rewrite parse_varint_loop_eq. cbn [app].
                 rewrite parse_marker by lia. apply G. }
        eexists _, _. split; [reflexivity|]. rewrite lor_128_r by lia. split; [lia|assumption].
      * split. { intros rest. rewrite parse_varint_loop_eq. apply G. }
        eexists _, _. split; [reflexivity|]. split; [lia|assumption].
Qed.

Lemma encode_varint_total value marker : 0 <= value -> exists bs, encode_varint value marker = Ok bs.
Proof.
  intros H. unfold encode_varint. destruct (Z.ltb_spec value 0); [lia|]. eauto.
Qed.

Definition entry_ok (e : exentry) : Prop :=
  0 <= e_start e /\ e_start e - 1 <= e_stop e /\ 0 <= e_target e /\ 0 <= e_depth e.

Lemma assemble_entry_total e : entry_ok e <-> exists bs, assemble_entry e = Ok bs.
Proof.
  unfold assemble_entry. split.
  - intros (A & B & C & D). rewrite shiftl1.
    destruct (encode_varint_total (e_start e) true A) as (? & ->).
    destruct (encode_varint_total (e_stop e - e_start e + 1) false) as (? & ->); [lia|].
    destruct (encode_varint_total (e_target e) false C) as (? & ->).
    destruct (encode_varint_total (e_depth e * 2 + (if e_lasti e then 1 else 0)) false)
      as (? & ->); [destruct (e_lasti e); lia|]. cbn. eauto.
  - intros (bs & H). inv_ok. rewrite shiftl1 in *.
    apply encode_varint_spec in E, E0, E1, E2.
    destruct E, E0, E1, E2. unfold entry_ok. destruct (e_lasti e); lia.
Qed.

Lemma parse_entry e bs rest fuel : assemble_entry e = Ok bs ->
  (length bs > 0)%nat /\
  parse_exception_table_loop (S fuel) (bs ++ rest) = e :: parse_exception_table_loop fuel rest.
Proof.
  unfold assemble_entry. intros H. inv_ok. rewrite shiftl1 in *.
  apply encode_varint_spec in E, E0, E1, E2.
  destruct E as (P1 & Q1 & b1 & r1 & -> & _), E0 as (P2 & Q2 & _),
    E1 as (P3 & Q3 & _), E2 as (P4 & Q4 & _).
  split; [cbn; lia|].
  cbn [parse_exception_table_loop].
  rewrite <- !app_assoc, Q1, Q2, Q3, Q4.
  f_equal. destruct e as [st sp tg dp la]. cbn [e_start e_stop e_target e_depth e_lasti] in *.
  rewrite shiftr1, land1. f_equal; [lia| |].
  - destruct la; zdm.
  - destruct la; [replace ((dp * 2 + 1) mod 2) with 1 by zdm|replace ((dp * 2 + 0) mod 2) with 0 by zdm]; reflexivity.
Qed.

Lemma parse_assemble_aux l : forall bs, mapM assemble_entry l = Ok bs ->
  forall fuel, (length (concat bs) <= fuel)%nat ->
  parse_exception_table_loop fuel (concat bs) = l.
Proof.
  induction l as [|e l IH]; cbn [mapM]; intros bs H fuel F; inv_ok.
  - now destruct fuel.
  - cbn [concat] in *. rewrite app_length in F.
    destruct (parse_entry e x (concat x0) (pred fuel) E) as (L & P).
    destruct fuel as [|fuel]; [lia|]. cbn [pred] in P. rewrite P. f_equal. apply IH; [assumption|lia].
Qed.

Lemma parse_assemble_table l bs : assemble_exception_table l = Ok bs -> parse_exception_table bs = l.
Proof.
  unfold assemble_exception_table, parse_exception_table. intros H. inv_ok.
  eapply parse_assemble_aux; eauto.
Qed.

Lemma mapM_total {A B} (f : A -> res B) l :
  (exists r, mapM f l = Ok r) <-> Forall (fun x => exists y, f x = Ok y) l.
Proof.
  induction l as [|x l IH]; cbn [mapM].
  - split; [constructor|eauto].
  - split.
    + intros (r & H). inv_ok. constructor; [eauto|]. apply IH. eauto.
    + intros H. inversion_clear H as [|? ? (y & Y) F]. rewrite Y. apply IH in F.
      destruct F as (r & ->). cbn. eauto.
Qed.

Lemma assemble_table_total l :
  (exists bs, assemble_exception_table l = Ok bs) <-> Forall entry_ok l.
Proof.
  unfold assemble_exception_table. split.
  - intros (bs & H). inv_ok. eapply Forall_impl; [intros e; apply assemble_entry_total|].
    apply mapM_total. eauto.
  - intros H. destruct (proj2 (mapM_total assemble_entry l)) as (r & ->).
    + eapply Forall_impl; [|exact H]. intros e. apply assemble_entry_total.
    + cbn. eauto.
Qed.

Lemma assemble_entry_framed e bs : assemble_entry e = Ok bs ->
  exists b r, bs = b :: r /\ 128 <= b < 256 /\ Forall (fun x => 0 <= x < 128) r.
Proof.
  unfold assemble_entry. intros H. inv_ok.
  apply encode_varint_spec in E, E0, E1, E2.
  destruct E as (_ & _ & b1 & r1 & -> & B1 & F1), E0 as (_ & _ & b2 & r2 & -> & B2 & F2),
    E1 as (_ & _ & b3 & r3 & -> & B3 & F3), E2 as (_ & _ & b4 & r4 & -> & B4 & F4).
  eexists b1, _. split; [reflexivity|]. split; [assumption|].
  repeat (apply Forall_app; split); auto.
Qed.
