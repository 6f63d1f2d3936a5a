(** from_code succeeds on code as the compiler writes it (C03). *)
From Verif Require Import PyBase OpTable P_Base P_OpTable M_Instr M_Tables M_Concrete CPy P_Asm
  S_Lines S_Round P_Round P_Round2.
Open Scope string_scope.
Open Scope list_scope.
Open Scope Z_scope.

Section Total.
  Variables (v : pyver) (T : optable).
  Hypothesis wf : wf_optable v T = true.
  Notation E := (t_extended_arg T).

  (** every opcode can be used in an instruction *)
  Definition ops_base (code : list Z) : Prop :=
    forall k op, nth_error code (2 * k) = Some op -> op < t_min_instrumented T.
  Lemma ops_base_tail op b rest : ops_base (op :: b :: rest) -> ops_base rest.
  Proof. intros H k x N. apply (H (S k) x). replace (2 * S k)%nat with (S (S (2 * k))) by lia. exact N. Qed.

  Lemma new_unit name op arg lo : opmap T name = Some op -> op < t_min_instrumented T ->
    (match arg with Some a => opcode_has_argument v T op = true /\ 0 <= a <= 2147483647 | None => opcode_has_argument v T op = false end) ->
    exists c, new_cinstr v T name (match arg with Some a => OInt a | None => OUnset end) lo None = Ok c.
  Proof.
    intros O B A. unfold new_cinstr, resolve_name. rewrite O. replace (t_min_instrumented T <=? op) with false by lia. cbn [bind].
    unfold c_check_arg. destruct arg as [a|].
    - destruct A as [A R]. rewrite A. cbn [is_unset]. unfold check_arg_int. cbn [as_int].
      replace ((0 <=? a) && (a <=? 2147483647)) with true by lia. cbn [bind]. eauto.
    - rewrite A. cbn [is_unset]. destruct (op =? 0); cbn; eauto.
  Qed.

  Lemma from_units_total n : forall code caches (ext : bool) (z : Z) pos, (length code <= n)%nat -> PY311 v = true ->
    normal v T caches ext code -> ops_base code -> z mod 256 = 0 ->
    (forall l el c ec, In (l, el, c, ec) pos -> exists lo, new_location v l el c ec = Ok lo) ->
    exists l, from_units v T (dis_units v T caches z code) pos = Ok l.
  Proof.
    induction n as [|n IH]; intros code caches ext z pos L P N OB Z0 NL.
    { destruct code; [|cbn in L; lia]. cbn. eauto. }
    destruct code as [|op [|b rest]]; [cbn; eauto|cbn; eauto|]. cbn [normal] in N. cbn [dis_units length] in *.
    assert (OB' := ops_base_tail _ _ _ OB). specialize (OB 0%nat op eq_refl).
    assert (ST : forall name arg us caches' (ext' : bool) z', us = dis_units v T caches' z' rest -> normal v T caches' ext' rest -> z' mod 256 = 0 ->
      (forall lo, exists c, new_cinstr v T name (match arg with Some a => OInt (a mod 256) | None => OUnset end) lo None = Ok c) ->
      exists l, from_units v T ((Some name, arg) :: us) pos = Ok l).
    { intros name arg us caches' ext' z' -> N' Z' NC. cbn [from_units].
      assert (NP : forall l el c ec pos1, (exists lo, new_location v l el c ec = Ok lo) -> (forall x, In x pos1 -> In x pos) ->
        exists l0, (lo <- new_location v l el c ec;; n0 <- of_option ValueError (Some name);;
          i <- new_cinstr v T n0 (match arg with Some a => OInt (a mod 256) | None => OUnset end) (Some lo) None;;
          r <- from_units v T (dis_units v T caches' z' rest) pos1;; Ok (CI i :: r)) = Ok l0).
      { intros l el c ec pos1 (lo & ->) SUB. cbn [bind of_option].
        destruct (NC (Some lo)) as (i & ->). cbn [bind].
        destruct (IH rest caches' ext' z' pos1) as (r & ->); auto; [lia|]. cbn [bind]. eauto. }
      destruct pos as [|[[[l el] c] ec] ps]; apply NP; cbn; auto.
      - eexists; reflexivity.
      - apply NL. left. reflexivity. }
    destruct (0 <? caches) eqn:CB.
    - destruct N as (-> & -> & N). eapply ST; eauto. intros lo. destruct (wf_cache_op0 v T wf P) as (CO & _).
      unfold new_cinstr, resolve_name. rewrite CO. replace (t_min_instrumented T <=? 0) with false by lia. cbn [bind].
      unfold c_check_arg. cbn [is_unset]. change (0 mod 256) with 0. destruct (opcode_has_argument v T 0); cbn; eauto.
    - destruct N as (name & O & RB & N). rewrite (proj1 (opmap_opname v T wf name op) O).
      destruct (opcode_has_argument v T op) eqn:HA.
      + eapply ST; [reflexivity|exact N| |].
        * destruct (op =? t_extended_arg T); [|reflexivity]. rewrite shiftl8. apply Z.mod_mul. lia.
        * intros lo. apply (new_unit name op (Some ((b + z) mod 256))); auto. split; [exact HA|].
          assert (0 <= (b + z) mod 256 < 256) by (apply Z.mod_pos_bound; lia). lia.
      + destruct N as (-> & -> & N). eapply ST; [reflexivity|exact N|reflexivity|]. intros lo. apply (new_unit name op None); auto.
  Qed.

  Lemma from_bytes_total fuel : forall pre rest k (ext : bool) starts ln, PY311 v = false ->
    (length rest <= fuel)%nat -> zlen pre = 2 * k -> normal v T 0 ext rest -> ops_base rest ->
    (forall q z, dget Z.eqb starts q = Some (Some z) -> 1 <= z) -> (forall z, ln = Some z -> 1 <= z) ->
    exists l, from_bytes v T fuel starts (pre ++ rest) (units v (2 * k)) ln = Ok l.
  Proof.
    induction fuel as [|f IH]; intros pre rest k ext starts ln P LN LP N OB ST LI.
    { cbn [from_bytes]. eauto. }
    cbn [from_bytes].
    assert (K0 : 0 <= k) by (unfold zlen in LP; lia).
    destruct rest as [|op [|b rest]].
    { rewrite app_nil_r.
      assert (CMP : (units v (2 * k) <? zlen pre / (if OFFSET_AS_INSTRUCTION v then 2 else 1)) = false).
      { rewrite LP. unfold units. apply Z.ltb_ge. destruct (OFFSET_AS_INSTRUCTION v); [lia|]. rewrite Z.div_1_r. lia. }
      rewrite CMP. eauto. }
    { destruct N. }
    cbn [normal] in N. change (0 <? 0) with false in N. cbv iota in N. destruct N as (name & O & RB & N).
    assert (ZR : 0 <= zlen rest) by (unfold zlen; lia).
    match goal with |- context [if ?b then _ else _] => destruct b end; [|eauto].
    assert (IX : (if OFFSET_AS_INSTRUCTION v then 2 * units v (2 * k) else units v (2 * k)) = zlen pre).
    { rewrite LP. unfold units. destruct (OFFSET_AS_INSTRUCTION v); [|reflexivity]. replace (2 * k) with (k * 2) by lia. rewrite Z.div_mul; lia. }
    unfold disassemble. rewrite IX. rewrite (py_index_app v T wf pre op (b :: rest)) by reflexivity. cbn [bind].
    assert (PI : py_index (pre ++ op :: b :: rest) (zlen pre + 1) = Ok b).
    { replace (pre ++ op :: b :: rest) with ((pre ++ [op]) ++ b :: rest) by now rewrite <- app_assoc.
      apply (py_index_app v T wf). rewrite zlen_app. reflexivity. }
    rewrite PI. rewrite (proj1 (opmap_opname v T wf name op) O).
    set (lno := match dget Z.eqb starts (zlen pre) with Some l => l | None => ln end).
    assert (NL : exists lo, new_location v lno None None None = Ok lo).
    { assert (forall z, lno = Some z -> 1 <= z).
      { unfold lno. intros z. destruct (dget Z.eqb starts (zlen pre)) as [[w|]|] eqn:D; intros Q; try discriminate; [|auto].
        injection Q as ->. eauto. }
      unfold new_location, check_location, min_lineno. destruct lno as [z|]; [|cbn; eauto]. specialize (H z eq_refl).
      replace (z <? (if PY311 v then 0 else 1)) with false by (destruct (PY311 v); lia). cbn; eauto. }
    destruct NL as (lo & NL).
    assert (OB0 := OB 0%nat op eq_refl). apply ops_base_tail in OB.
    assert (NC : exists c, (arg <- (if opcode_has_argument v T op then Ok (OInt b) else Ok OUnset);; new_cinstr v T name arg (Some lo) None) = Ok c
       /\ c_size c = 2).
    { destruct (opcode_has_argument v T op) eqn:HA; cbn [bind].
      - destruct (new_unit name op (Some b) (Some lo) O OB0) as (c & NC); [split; [exact HA|lia]|]. rewrite NC. exists c. split; [reflexivity|].
        destruct (new_cinstr_ok _ _ _ _ _ _ _ NC) as (V & N1 & A & _ & X). apply (unit_bytes v T c). split; [exact V|]. split; [exact X|]. cbn in A. rewrite A. exact RB.
      - destruct (new_unit name op None (Some lo) O OB0) as (c & NC); [exact HA|]. rewrite NC. exists c. split; [reflexivity|].
        destruct (new_cinstr_ok _ _ _ _ _ _ _ NC) as (V & N1 & A & _ & X). apply (unit_bytes v T c). split; [exact V|]. split; [exact X|]. cbn in A. rewrite A. exact Logic.I. }
    destruct NC as (c & NC & SZ).
    assert (DI : (arg <- (if opcode_has_argument v T op then a <- Ok b;; Ok (OInt a) else Ok OUnset);;
        name0 <- of_option ValueError (Some name);; l <- new_location v lno None None None;; new_cinstr v T name0 arg (Some l) None) = Ok c).
    { destruct (opcode_has_argument v T op); cbn [bind of_option] in *; rewrite NL; exact NC. }
    rewrite DI. cbn [bind].
    destruct (IH (pre ++ [op; b]) rest (k + 1) (if opcode_has_argument v T op then op =? E else false) starts lno) as (r & FR); auto.
    - cbn in LN. lia.
    - rewrite zlen_app. change (zlen [op; b]) with 2. lia.
    - rewrite (no_caches_before v T wf _ _ P) in N. destruct (opcode_has_argument v T op); [exact N|]. now destruct N as (_ & _ & N).
    - intros z Q. unfold lno in Q. destruct (dget Z.eqb starts (zlen pre)) as [[w|]|] eqn:D; try discriminate; [|auto]. injection Q as ->. eauto.
    - rewrite <- app_assoc in FR. cbn [app] in FR. replace (units v (2 * k) + units v (c_size c)) with (units v (2 * (k + 1))).
      + rewrite FR. cbn [bind]. eauto.
      + rewrite SZ. unfold units. destruct (OFFSET_AS_INSTRUCTION v); [|lia]. change (2 / 2) with 1.
        replace (2 * (k + 1)) with ((k + 1) * 2) by lia. replace (2 * k) with (k * 2) by lia. rewrite !Z.div_mul by lia. lia.
  Qed.

  (** ** folding EXTENDED_ARG *)
  Lemma remove_total l : forall es, Forall byte es -> unit_list v T (negb (Nat.eqb (length es) 0)) (instrs_of l) ->
    (forall n op a, In (n, op, a) (executed E (zlen es) (value es) (bytes_of T l)) -> a <= 2147483647) ->
    exists l', remove_extended_args v T (zlen es) (match es with [] => None | _ => Some (value es) end) l = Ok l'.
  Proof.
    induction l as [|[c|z] r IH]; intros es F U R; cbn [remove_extended_args].
    - cbn in U. destruct es; [eauto|discriminate U].
    - unfold bytes_of in *. cbn [instrs_of flat_map] in U, R. change (flat_map _ r) with (instrs_of r) in U, R. cbn [app unit_list map concat] in U, R.
      destruct U as (UI & UN & UR). destruct (unit_bytes v T c UI) as [UB _]. rewrite UB in R. cbn [app executed] in R. destruct UI as (V & CX & CB).
      set (e := match c_arg c with Some a => a | None => 0 end) in *.
      assert (BE : byte e) by (unfold e, byte in *; destruct (c_arg c); lia).
      rewrite (ext_name v T wf _ _ (vc_op _ _ _ V)) in R.
      destruct (String.eqb (c_name c) "EXTENDED_ARG") eqn:EX.
      + destruct (IH (es ++ [e])) as (l' & R').
        * apply Forall_app. auto.
        * rewrite app_length; cbn; rewrite Nat.add_comm; exact UR.
        * rewrite zlen_app, value_snoc. exact R.
        * exists l'. rewrite <- R'. rewrite zlen_app. change (zlen [e]) with 1. f_equal. destruct es as [|e0 es]; cbn [app]; [reflexivity|].
          change (e0 :: es ++ [e]) with ((e0 :: es) ++ [e]). rewrite value_snoc. now rewrite shiftl8.
      + destruct (IH []) as (l' & R'); [constructor|exact UR| |].
        { intros n op a I. apply (R n op a). right. exact I. }
        destruct es as [|e0 es].
        * rewrite R'. cbn [bind]. eauto.
        * cbn [length Nat.eqb negb] in UN. specialize (UN eq_refl). destruct UN as [UN HAC]. apply String.eqb_neq in UN. rewrite UN.
          assert (AR := R _ _ _ (or_introl eq_refl)). clear R.
          assert (exists c', new_cinstr v T (c_name c) (OInt (Z.shiftl (value (e0 :: es)) 8 + e)) (c_loc c) (Some (zlen (e0 :: es))) = Ok c') as (c' & ->).
          { unfold new_cinstr, resolve_name. rewrite (vc_op _ _ _ V). assert (B := vc_base _ _ _ V). replace (t_min_instrumented T <=? c_op c) with false by lia.
            cbn [bind]. unfold c_check_arg, check_arg_int. cbn [is_unset as_int]. rewrite shiftl8.
            assert (VB := value_bound (e0 :: es) F). unfold byte in BE.
            replace ((0 <=? value (e0 :: es) * 256 + e) && (value (e0 :: es) * 256 + e <=? 2147483647)) with true by lia.
            rewrite HAC. cbn; eauto. }
          cbn [bind]. change (zlen []) with 0 in R'. rewrite R'. cbn [bind]. eauto.
    - unfold bytes_of in *. cbn [instrs_of flat_map app] in *. change (flat_map _ r) with (instrs_of r) in *.
      destruct (IH es F U R) as (l' & ->). cbn [bind]. eauto.
  Qed.
End Total.
