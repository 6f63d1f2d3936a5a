(** What C54 and C55 suppose about dis.stack_effect() holds for CPython 3.11. *)
From Coq Require Import Lia.
From Verif Require Import PyBase OpTable Table311 P_Base M_Instr M_Concrete M_Stack S_Args S_Slots S_Code CPyEffect P_OpTable P_Effect S_Run.
Open Scope string_scope.
Open Scope list_scope.
Open Scope Z_scope.

Definition refs311 : list Z := t_hasjrel T311 ++ t_hasjabs T311 ++ t_hasconst T311 ++ t_haslocal T311 ++ t_hasname T311 ++ t_hasfree T311 ++ t_hascompare T311.

Lemma refs_zero op : In op refs311 -> is_bitflag V311 T311 op || is_bitflag2 V311 T311 op = false ->
  forall a j, dis_effect311 op (Some a) j = dis_effect311 op (Some 0) j.
Proof.
  intros J B a j. let l := eval vm_compute in refs311 in change (In op l) in J. cbn [In] in J.
  repeat (destruct J as [<-|J]; [first [discriminate B | destruct j as [[|]|]; vm_compute; reflexivity]|]). destruct J.
Qed.

Lemma flags_bit op : is_bitflag V311 T311 op || is_bitflag2 V311 T311 op = true ->
  forall a j, dis_effect311 op (Some a) j = dis_effect311 op (Some (a mod 2)) j.
Proof.
  intros B a j. assert (op = 116) as ->.
  { unfold is_bitflag, is_bitflag2 in B. vm_compute in B. destruct op as [|p|p]; try discriminate B.
    repeat (destruct p as [p|p|]; try discriminate B). reflexivity. }
  assert (X : bit a 0 = bit (a mod 2) 0).
  { unfold bit. rewrite !Z.bit0_odd. assert (Z.odd a = Z.odd (a mod 2)) as ->; [|reflexivity].
    rewrite (Z.div_mod a 2) at 1 by lia. rewrite Z.odd_add_mul_2 with (n := a mod 2) (m := a / 2) || rewrite Z.add_comm, Z.odd_add_mul_2. reflexivity. }
  unfold dis_effect311. let t := constr:(opname T311 116) in let x := eval vm_compute in t in change t with x.
  let t := constr:(t_have_argument T311 <=? 116) in let x := eval vm_compute in t in change t with x. cbv beta iota.
  unfold effect311. cbv [use311 stack_use311 dget String.eqb Ascii.eqb Bool.eqb]. now rewrite X.
Qed.

Lemma only_numbers311 : only_numbers V311 T311 dis_effect311.
Proof. intros op a j. split; [intros B; now apply flags_bit|intros B J; now apply refs_zero]. Qed.

Lemma dynamic_total v T n e arg j x : dynamic_effect v T n e arg j = Some (Err x) ->
  as_int arg = None /\ str_mem n ["CALL"; "CALL_KW"; "SWAP"; "COPY"; "ROT_N"; "SET_ADD"; "LIST_APPEND"; "MAP_ADD"] = true.
Proof.
  unfold dynamic_effect, str_mem. cbn [existsb]. intros E.
  repeat match type of E with context [if String.eqb n ?s then _ else _] => destruct (String.eqb n s) end.
  all: try (destruct (PY312 v)).
  all: repeat match type of E with (if ?c then _ else _) = _ => destruct c end.
  all: try discriminate E.
  all: destruct (as_int arg) as [z|]; cbn [of_option bind] in E; try discriminate E.
  all: cbn; rewrite ?orb_true_r; auto.
Qed.

Lemma adds_up311 : adds_up V311 T311 dis_effect311.
Proof.
  intros x j L. destruct (stack_effect V311 T311 dis_effect311 x j) as [e|er] eqn:E.
  2:{ unfold pre_and_post. rewrite E. exact Logic.I. }
  destruct (pre_and_post V311 T311 dis_effect311 x j) as [[p q]|er] eqn:P.
  { exact (proj1 (both311 x j e p q (proj1 L) E P)). }
  unfold pre_and_post in P. rewrite E in P. cbn [bind] in P. destruct (static_effect V311 T311 (i_name x)); [discriminate|].
  destruct (dynamic_effect V311 T311 (i_name x) e (i_arg x) j) as [r|] eqn:D; [|discriminate]. subst r.
  pose proof D as D'. apply dynamic_total in D. destruct D as [AN M]. destruct L as (L1 & _ & _ & L4).
  assert (OP : In (i_op x) [99; 120; 145; 146; 147]).
  { destruct x as [n op arg loc]. cbn [i_name i_op i_arg] in *. unfold str_mem in M. cbn [existsb] in M.
    repeat (apply orb_true_iff in M; destruct M as [M|M]); try discriminate M; apply String.eqb_eq in M; subst n;
    try (exfalso; clear - D'; vm_compute in D'; discriminate D');
    vm_compute in L1; try discriminate L1; injection L1 as <-; cbn; auto 10. }
  assert (NJ : forall l, In l [t_hasjrel T311; t_hasjabs T311; t_hasfree T311; t_haslocal T311; t_hasname T311; t_hasconst T311; t_hascompare T311] ->
    ~ In (i_op x) l).
  { intros l J. rewrite <- z_mem_In. apply not_true_iff_false.
    assert (X : forallb (fun l => forallb (fun o => negb (z_mem o l)) [99; 120; 145; 146; 147])
      [t_hasjrel T311; t_hasjabs T311; t_hasfree T311; t_haslocal T311; t_hasname T311; t_hasconst T311; t_hascompare T311] = true) by (vm_compute; reflexivity).
    rewrite forallb_forall in X. specialize (X _ J). rewrite forallb_forall in X. specialize (X _ OP). now apply negb_true_iff in X. }
  assert (OT : opcode_has_argument V311 T311 (i_op x) = true /\ is_dual V311 T311 (i_op x) = false /\ is_intrinsic1 V311 T311 (i_op x) = false /\ is_intrinsic2 V311 T311 (i_op x) = false).
  { clear - OP. cbn [In] in OP. repeat (destruct OP as [OP|OP]; [rewrite <- OP; vm_compute; auto|]). destruct OP. }
  destruct OT as (O1 & O2 & O3 & O4). cbn [In] in NJ.
  inversion L4 as [K|? K|? K|? K|? K|? K|? K K2|? K K2|? ? K|? ? ? K|? ? K|? K|? K|? K|? K|? ? K K2 K3]; try congruence;
  unfold jumps, simple_name in *; intuition eauto 10.
Qed.

(** what an instruction needs does not depend on what its argument refers to *)
Lemma needs_refs name op : opmap T311 name = Some op -> In op refs311 -> forall a a' j, needs311 name a j = needs311 name a' j.
Proof.
  intros O J a a' j.
  assert (X : forallb (fun p => negb (z_mem (snd p) refs311) || str_mem (fst p)
     ["FOR_ITER"; "JUMP_FORWARD"; "JUMP_IF_FALSE_OR_POP"; "JUMP_IF_TRUE_OR_POP"; "POP_JUMP_FORWARD_IF_FALSE"; "POP_JUMP_FORWARD_IF_TRUE";
      "SEND"; "POP_JUMP_FORWARD_IF_NOT_NONE"; "POP_JUMP_FORWARD_IF_NONE"; "JUMP_BACKWARD_NO_INTERRUPT"; "JUMP_BACKWARD";
      "POP_JUMP_BACKWARD_IF_NOT_NONE"; "POP_JUMP_BACKWARD_IF_NONE"; "POP_JUMP_BACKWARD_IF_FALSE"; "POP_JUMP_BACKWARD_IF_TRUE";
      "LOAD_CONST"; "KW_NAMES"; "LOAD_FAST"; "STORE_FAST"; "DELETE_FAST"; "STORE_NAME"; "DELETE_NAME"; "STORE_ATTR"; "DELETE_ATTR";
      "STORE_GLOBAL"; "DELETE_GLOBAL"; "LOAD_NAME"; "LOAD_ATTR"; "IMPORT_NAME"; "IMPORT_FROM"; "LOAD_GLOBAL"; "LOAD_METHOD";
      "MAKE_CELL"; "LOAD_CLOSURE"; "LOAD_DEREF"; "STORE_DEREF"; "DELETE_DEREF"; "LOAD_CLASSDEREF"; "COMPARE_OP"])
     (t_opmap T311) = true) by (vm_compute; reflexivity).
  apply dget_In in O. rewrite forallb_forall in X. specialize (X _ O). cbn [fst snd] in X. apply z_mem_In in J. rewrite J in X. cbn [negb orb] in X.
  apply str_mem_In in X. cbn [In] in X. clear O J.
  repeat (destruct X as [<-|X]; [vm_compute; reflexivity|]). destruct X.
Qed.

Lemma needs_argument co x r j : legal_instr V311 T311 x -> In r (instructions V311 T311 co) -> r_op r = i_op x ->
  ((exists n, i_arg x = OLabel n \/ i_arg x = OBlock n) \/ reads V311 T311 (tables co) (r_op r) (r_arg r) (i_arg x)) ->
  real_member V311 (i_arg x) ->
  needs311 (i_name x) (match r_arg r with Some a => a | None => 0 end) j = needs311 (i_name x) (arg_number x) j
  /\ (0 <= arg_number x \/ needs311 (i_name x) (arg_number x) j = Some 0).
Proof.
  intros (L1 & _ & _ & L4) R OP A MB. rewrite OP in A. clear R OP.
  assert (REF : In (i_op x) refs311 -> forall a, needs311 (i_name x) a j = needs311 (i_name x) (arg_number x) j).
  { intros J a. eapply needs_refs; eauto. }
  assert (JR : jumps T311 (i_op x) -> In (i_op x) refs311) by (unfold jumps, refs311; rewrite !in_app_iff; tauto).
  destruct A as [(n & A)|A].
  - assert (J : jumps T311 (i_op x)). { destruct A as [A|A]; rewrite A in L4; inversion L4; subst; auto; try congruence; try discriminate. }
    split; [auto|left]. unfold arg_number. destruct A as [-> | ->]; cbn; lia.
  - unfold refs311 in REF. rewrite !in_app_iff in REF.
    inversion A as [K E1 E2|a x0 K1 K2 E1 E2|a x0 K1 K2|a x0 K1 K2 K3|a x0 y0 K1 K2 K3|a n K1 K2 K3 K4|a b n K1 K2 K3 E1 E2|a b c n K1 K2 K3 K4|a x0 K1 K2|a K1 E1 E2|a K1|a K1]; subst.
    + split; [|left]; unfold arg_number; rewrite <- E2; cbn; [reflexivity|lia].
    + unfold arg_number in *. rewrite K2. split; [reflexivity|left].
      assert (X : forall y, doc_arg V311 T311 (i_op x) y -> as_int y = Some a -> 0 <= a).
      { clear - K1. intros y D. destruct K1 as (P1 & P2 & P3 & P4 & P5 & P6 & P7). inversion D; subst; cbn [as_int]; intros Q; try congruence; try contradiction; try discriminate Q; try (match goal with U : as_int y = Some _ |- _ => rewrite Q in U; injection U as <-; lia end); match goal with U : is_intrinsic1 _ _ _ = true |- _ => discriminate U | U : is_intrinsic2 _ _ _ = true |- _ => discriminate U end. }
      eapply X; eauto.
    + split; [apply REF; tauto|right]. apply z_mem_In in K1.
      assert (X : forallb (fun p => negb (z_mem (snd p) (t_hasconst T311)) || str_mem (fst p) ["LOAD_CONST"; "KW_NAMES"]) (t_opmap T311) = true) by (vm_compute; reflexivity).
      apply dget_In in L1. rewrite forallb_forall in X. specialize (X _ L1). cbn [fst snd] in X. rewrite K1 in X. cbn [negb orb] in X.
      apply str_mem_In in X. cbn [In] in X. destruct X as [<-|[<-|[]]]; vm_compute; reflexivity.
    + split; [apply REF; tauto|left]. destruct K3 as [F _]. inversion F; unfold arg_number; match goal with U : _ = i_arg x |- _ => rewrite <- U end; cbn; lia.
    + discriminate K1.
    + split; [apply REF; tauto|left]. unfold arg_number; match goal with U : _ = i_arg x |- _ => rewrite <- U end; cbn; lia.
    + split; [|left; unfold arg_number; rewrite <- E2; cbn; lia].
      apply REF. assert (i_op x = 116) as ->; [|vm_compute; tauto].
      clear - K1. revert K1. generalize (i_op x). clear. intros op K1. unfold is_bitflag in K1. vm_compute in K1. destruct op as [|p|p]; try discriminate K1.
      repeat (destruct p as [p|p|]; try discriminate K1). reflexivity.
    + discriminate K1.
    + split; [apply REF; tauto|left]. destruct K2 as [_ F]. cbn in F. inversion F; unfold arg_number; match goal with U : _ = i_arg x |- _ => rewrite <- U end; cbn; lia.
    + split; [apply REF; tauto|left]. unfold arg_number; rewrite <- E2 in *; cbn in *. destruct MB as [MB|[[MB _]|[MB _]]]; [lia|discriminate..].
    + discriminate K1.
    + discriminate K1.
Qed.
