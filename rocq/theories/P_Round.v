(** Disassembling and assembling again gives the same bytes (C03). *)
From Verif Require Import PyBase OpTable P_Base P_OpTable M_Instr M_Tables M_Concrete CPy P_Asm S_Round.
Open Scope string_scope.
Open Scope list_scope.
Open Scope Z_scope.

Definition byte (z : Z) : Prop := 0 <= z < 256.
(** EXTENDED_ARG units *)
Definition spell (E : Z) (es : list Z) : list Z := concat (map (fun e => [E; e]) es).
Definition value (es : list Z) : Z := fold_left (fun a e => a * 256 + e) es 0.

Lemma spell_app E a b : spell E (a ++ b) = spell E a ++ spell E b.
Proof. unfold spell. now rewrite map_app, concat_app. Qed.
Lemma value_snoc es e : value (es ++ [e]) = value es * 256 + e.
Proof. unfold value. now rewrite fold_left_app. Qed.
Lemma value_bound es : Forall byte es -> 0 <= value es < 256 ^ zlen es.
Proof.
  induction es as [|e es IH] using rev_ind; intros F; [cbn; lia|]. apply Forall_app in F. destruct F as [F1 F2].
  inversion F2 as [|? ? B _]; subst. specialize (IH F1). rewrite value_snoc, zlen_app. change (zlen [e]) with 1.
  rewrite Z.pow_add_r by (unfold zlen; lia). change (256 ^ 1) with 256. unfold byte in B. lia.
Qed.
Lemma value_inj a : forall b, Forall byte a -> Forall byte b -> length a = length b -> value a = value b -> a = b.
Proof.
  induction a as [|x a IH] using rev_ind; intros b FA FB L V.
  - destruct b; [reflexivity|discriminate].
  - destruct b as [|y b _] using rev_ind; [rewrite app_length in L; cbn in L; lia|].
    rewrite !app_length in L. cbn in L. apply Forall_app in FA, FB. destruct FA as [FA Fx], FB as [FB Fy].
    inversion Fx as [|? ? Bx _]; subst. inversion Fy as [|? ? By _]; subst. unfold byte in *.
    rewrite !value_snoc in V. assert (value a = value b /\ x = y) as [Q ->] by lia. f_equal. apply IH; auto. lia.
Qed.
Lemma value_zeros k es : value (repeat 0 k ++ es) = value es.
Proof.
  induction k as [|k IH]; [reflexivity|]. cbn [repeat app]. unfold value in *. cbn [fold_left]. exact IH.
Qed.

Lemma assemble_loop_struct T fuel : forall arg b, 0 <= arg < 2 ^ Z.of_nat fuel ->
  exists es, assemble_loop T fuel arg b = spell (t_extended_arg T) es ++ b /\ Forall byte es /\ value es = arg / 256.
Proof.
  induction fuel as [|f IH]; intros arg b H.
  - simpl in H. exists []. repeat split; auto. cbn. assert (arg = 0) by lia. now subst.
  - cbn [assemble_loop]. destruct (Z.ltb_spec 255 arg) as [L|L].
    + rewrite shiftr8, land255.
      assert (H' : 0 <= arg / 256 < 2 ^ Z.of_nat f) by (change 256 with (2 ^ 8); apply div_fuel; lia).
      destruct (IH (arg / 256) ([t_extended_arg T; (arg / 256) mod 256] ++ b) H') as (es & A & B & C).
      exists (es ++ [(arg / 256) mod 256]). rewrite spell_app, <- app_assoc. split; [exact A|]. split.
      * apply Forall_app. split; [exact B|]. constructor; [|constructor]. unfold byte. apply Z.mod_pos_bound. lia.
      * rewrite value_snoc, C. zdm.
    + exists []. repeat split; auto. cbn. symmetry. apply Z.div_small. lia.
Qed.

Lemma spell_len E es : zlen (spell E es) = 2 * zlen es.
Proof. induction es as [|e es IH]; [reflexivity|]. unfold spell in *. cbn [map concat]. rewrite zlen_app, IH. change (zlen [E; e]) with 2. rewrite zlen_cons. lia. Qed.
Lemma pad_spell E k es : concat (repeat [E; 0] k) ++ spell E es = spell E (repeat 0 k ++ es).
Proof. rewrite spell_app. f_equal. induction k as [|k IH]; [reflexivity|]. cbn [repeat concat]. unfold spell in *. cbn. now rewrite IH. Qed.

(** The instruction made of EXTENDED_ARG bytes [es] and a last byte [b] is assembled to them. *)
Lemma assemble_spelled T (c : cinstr) es b : Forall byte es -> byte b -> value es * 256 + b <= 2147483647 ->
  c_arg c = Some (value es * 256 + b) -> c_ext c = Some (zlen es) -> (es <> []) ->
  c_size c = compute_size (c_ext c) (c_arg c) ->
  assemble T c = spell (t_extended_arg T) es ++ [c_op c; b].
Proof.
  intros F B MX A X NE SZ. assert (VB := value_bound es F). unfold assemble. rewrite A, X.
  set (a := value es * 256 + b) in *. assert (Ha : 0 <= a) by (unfold byte in B; lia).
  assert (FU : 0 <= a < 2 ^ Z.of_nat (bit_fuel a)) by (split; [lia|now apply bit_fuel_bound]).
  destruct (assemble_loop_struct T (bit_fuel a) a [c_op c; Z.land a 255] FU) as (es0 & E0 & F0 & V0).
  destruct (assemble_loop_spec T (bit_fuel a) a [c_op c; Z.land a 255] 2 FU) as (pre & m & E1 & L1 & M0 & _ & DG & _).
  assert (ZL : 0 < zlen es) by (destruct es; [congruence|rewrite zlen_cons; unfold zlen; lia]).
  replace (zlen es =? 0) with false by lia.
  assert (LO : zlen es0 = m).
  { rewrite E0 in E1. apply app_inv_tail in E1. rewrite <- E1, spell_len in L1. lia. }
  assert (LM : m <= zlen es).
  { destruct DG as (_ & _ & C). specialize (C (zlen es + 1) ltac:(lia)).
    assert (a < 256 ^ (zlen es + 1)).
    { rewrite Z.pow_add_r by lia. change (256 ^ 1) with 256. unfold byte in B. unfold a. lia. }
    specialize (C H). lia. }
  rewrite E0. assert (SZE : c_size c = 2 + 2 * zlen es) by (rewrite SZ, X; reflexivity). rewrite SZE.
  assert (ZB : zlen (spell (t_extended_arg T) es0 ++ [c_op c; Z.land a 255]) = 2 * m + 2) by
    (rewrite zlen_app, spell_len, LO; reflexivity).
  destruct (pad_loop_spec T (Z.to_nat (2 + 2 * zlen es - zlen (spell (t_extended_arg T) es0 ++ [c_op c; Z.land a 255])))
     (2 + 2 * zlen es) (spell (t_extended_arg T) es0 ++ [c_op c; Z.land a 255]) (le_n _)) as (k & PK & P1 & P2).
  rewrite PK. rewrite PK in P1.
  assert (KK : Z.of_nat k = zlen es - m).
  { destruct (Z_lt_le_dec (2 * m + 2) (2 + 2 * zlen es)) as [LT|GE].
    - rewrite ZB in P1. specialize (P1 LT). rewrite zlen_app, zlen_pad, ZB in P1. lia.
    - rewrite ZB in P2. rewrite (P2 ltac:(lia)). lia. }
  rewrite app_assoc, pad_spell. f_equal.
  - f_equal. apply value_inj.
    + apply Forall_app. split; [|exact F0]. apply Forall_forall. intros x I. apply repeat_spec in I. subst. unfold byte. lia.
    + exact F.
    + rewrite app_length, repeat_length. unfold zlen in *. lia.
    + rewrite value_zeros, V0. unfold a, byte in *. zdm.
  - rewrite land255. f_equal. f_equal. unfold a, byte in *. zdm.
Qed.

(** ** Lists of instructions *)
Definition bytes_of (T : optable) (l : list citem) : list Z := concat (map (assemble T) (instrs_of l)).

(** One code unit: no forced EXTENDED_ARG, an argument below 256; what the disassembler gives *)
Definition unit_instr (v : pyver) (T : optable) (c : cinstr) : Prop :=
  valid_cinstr v T c /\ c_ext c = None /\ match c_arg c with Some a => byte a | None => True end.

Lemma unit_bytes v T c : unit_instr v T c ->
  assemble T c = [c_op c; match c_arg c with Some a => a | None => 0 end] /\ c_size c = 2.
Proof.
  intros (V & X & B). unfold assemble. rewrite (vc_size _ _ _ V), X. unfold compute_size.
  destruct (c_arg c) as [a|]; [|auto]. unfold byte in B.
  unfold bit_fuel. cbn [assemble_loop size_loop]. replace (255 <? a) with false by lia.
  rewrite land255, Z.mod_small by lia. auto.
Qed.

(** The list of the units, with [ext]: an EXTENDED_ARG is before *)
Fixpoint unit_list (v : pyver) (T : optable) (ext : bool) (l : list cinstr) : Prop :=
  match l with
  | [] => ext = false
  | c :: r => unit_instr v T c /\ (ext = true -> c_name c <> "NOP" /\ opcode_has_argument v T (c_op c) = true) /\ unit_list v T (String.eqb (c_name c) "EXTENDED_ARG") r
  end.

Section Remove.
  Variables (v : pyver) (T : optable).
  Hypothesis wf : wf_optable v T = true.
  Notation E := (t_extended_arg T).

  Lemma remove_bytes l : forall es l', Forall byte es -> unit_list v T (negb (Nat.eqb (length es) 0)) (instrs_of l) ->
    remove_extended_args v T (zlen es) (match es with [] => None | _ => Some (value es) end) l = Ok l' ->
    bytes_of T l' = spell E es ++ bytes_of T l.
  Proof.
    induction l as [|[c|z] r IH]; intros es l' F U R; cbn [remove_extended_args] in R.
    - destruct es; [|discriminate R]. injection R as <-. reflexivity.
    - unfold bytes_of in *. cbn [instrs_of flat_map] in U. change (flat_map _ r) with (instrs_of r) in U. cbn [app unit_list] in U.
      destruct U as (UI & UN & UR). cbn [instrs_of flat_map map concat app]. change (flat_map _ r) with (instrs_of r).
      destruct (unit_bytes v T c UI) as [UB _]. destruct UI as (V & CX & CB).
      destruct (String.eqb (c_name c) "EXTENDED_ARG") eqn:EX.
      + set (e := match c_arg c with Some a => a | None => 0 end) in *.
        assert (BE : byte e) by (unfold e, byte in *; destruct (c_arg c); lia).
        assert (R' : remove_extended_args v T (zlen (es ++ [e]))
                       (match es ++ [e] with [] => None | _ => Some (value (es ++ [e])) end) r = Ok l').
        { rewrite zlen_app. change (zlen [e]) with 1. replace (match es ++ [e] with [] => None | _ => Some (value (es ++ [e])) end)
            with (Some (match match es with [] => None | _ => Some (value es) end with Some x => Z.shiftl x 8 + e | None => e end)); [exact R|].
          rewrite value_snoc. destruct es as [|e0 es]; cbn [app]; [reflexivity|]. now rewrite shiftl8. }
        rewrite (IH (es ++ [e]) l'); [| |rewrite app_length; cbn; rewrite Nat.add_comm; exact UR|exact R'].
        2:{ apply Forall_app. split; auto. }
        rewrite spell_app, <- app_assoc. f_equal. rewrite UB. apply String.eqb_eq in EX.
        assert (c_op c = E) as ->; [|reflexivity].
        assert (X := vc_op _ _ _ V). rewrite EX, (wf_ext v T wf) in X. congruence.
      + destruct es as [|e0 es].
        * destruct (remove_extended_args v T (zlen []) None r) as [l2|] eqn:R2; [|discriminate R]. cbn [bind] in R. injection R as <-.
          cbn [instrs_of flat_map map concat app]. change (flat_map _ l2) with (instrs_of l2).
          rewrite (IH [] l2); auto.
        * cbn [length Nat.eqb negb] in UN. specialize (UN eq_refl). destruct UN as [UN _]. apply String.eqb_neq in UN. rewrite UN in R.
          inv_ok.
          match goal with H : new_cinstr _ _ _ _ _ _ = Ok x |- _ => destruct (new_cinstr_ok _ _ _ _ _ _ _ H) as (V1 & N1 & A1 & _ & X1) end.
          cbn [instrs_of flat_map map concat app]. change (flat_map _ x0) with (instrs_of x0).
          rewrite (IH [] x0); auto. change (spell (t_extended_arg T) []) with (@nil Z). cbn [app].
          rewrite app_assoc. f_equal. rewrite UB.
          set (e := match c_arg c with Some a => a | None => 0 end) in *.
          assert (BE : byte e) by (unfold e, byte in *; destruct (c_arg c); lia).
          cbn [carg_of is_unset as_int] in A1. rewrite shiftl8 in A1.
          assert (OP : c_op x = c_op c).
          { assert (P := vc_op _ _ _ V1). assert (P2 := vc_op _ _ _ V). rewrite N1 in P. congruence. }
          rewrite (assemble_spelled T x (e0 :: es) e F BE); auto.
          -- now rewrite OP.
          -- assert (P := vc_arg _ _ _ V1). rewrite A1 in P. tauto.
          -- discriminate.
          -- exact (vc_size _ _ _ V1).
    - unfold bytes_of in *. destruct (remove_extended_args v T (zlen es) _ r) as [l2|] eqn:R2; [|discriminate R].
      cbn [bind] in R. injection R as <-. cbn [instrs_of flat_map app] in *. change (flat_map _ r) with (instrs_of r) in *.
      change (flat_map _ l2) with (instrs_of l2). now apply IH.
  Qed.
End Remove.

Section Units.
  Variables (v : pyver) (T : optable).
  Hypothesis wf : wf_optable v T = true.

  Lemma ext_name n op : opmap T n = Some op -> (op =? t_extended_arg T) = String.eqb n "EXTENDED_ARG".
  Proof.
    intros O. destruct (String.eqb_spec n "EXTENDED_ARG") as [->|NE].
    - rewrite (wf_ext v T wf) in O. injection O as <-. apply Z.eqb_refl.
    - apply Z.eqb_neq. intros ->. apply NE. eapply opmap_inj; eauto. apply wf_ext with (v := v). exact wf.
  Qed.

  Lemma from_units_bytes n : forall code caches (ext : bool) (z : Z) pos l, (length code <= n)%nat -> PY311 v = true ->
    normal v T caches ext code -> 0 <= caches -> (0 < caches -> ext = false) -> z mod 256 = 0 ->
    from_units v T (dis_units v T caches z code) pos = Ok l ->
    bytes_of T l = code /\ unit_list v T ext (instrs_of l).
  Proof.
    induction n as [|n IH]; intros code caches ext z pos l LN P N C0 CE Z0 FU.
    { destruct code; [|cbn in LN; lia]. cbn in FU. injection FU as <-. split; [reflexivity|exact N]. }
    destruct code as [|op [|b rest]].
    { cbn in FU. injection FU as <-. split; [reflexivity|exact N]. }
    { destruct N. }
    cbn [normal] in N. cbn [dis_units] in FU. cbn [length] in LN.
    assert (BY : forall name arg pos0 us, from_units v T ((Some name, arg) :: us) pos0 = Ok l ->
      exists c r pos1 lo, new_cinstr v T name (match arg with Some a => OInt (a mod 256) | None => OUnset end) (Some lo) None = Ok c
        /\ from_units v T us pos1 = Ok r /\ l = CI c :: r).
    { intros name arg pos0 us F. cbn [from_units] in F.
      destruct (match pos0 with [] => _ | p :: ps => _ end) as [[[[a1 a2] a3] a4] pos1]. inv_ok. eauto 8. }
    destruct (0 <? caches) eqn:CB.
    - destruct N as (-> & -> & N). destruct (BY _ _ _ _ FU) as (c & r & pos1 & lo & NC & FR & ->).
      destruct (new_cinstr_ok _ _ _ _ _ _ _ NC) as (V & N1 & A & _ & X). cbn in A.
      destruct (IH rest (caches - 1) ext z pos1 r) as [B U]; auto; [lia|lia|intros; apply CE; lia|].
      assert (EF : ext = false) by (apply CE; lia). subst ext. unfold bytes_of in *.
      assert (UI : unit_instr v T c) by (split; [exact V|]; split; [exact X|]; rewrite A; unfold byte; lia).
      cbn [instrs_of flat_map map concat app]. change (flat_map _ r) with (instrs_of r).
      destruct (unit_bytes v T c UI) as [UB _]. rewrite UB, A, B.
      assert (O := vc_op _ _ _ V). rewrite N1 in O. destruct (wf_cache_op0 v T wf P) as (CO & _). rewrite CO in O. injection O as <-.
      split; [reflexivity|]. cbn [unit_list]. split; [exact UI|]. split; [discriminate|]. rewrite N1. exact U.
    - destruct N as (name & O & RB & N). rewrite (proj1 (opmap_opname v T wf name op) O) in FU.
      assert (CN : forall ar a, new_cinstr v T name ar a None <> Err ValueError \/ True) by auto. clear CN.
      destruct (opcode_has_argument v T op) eqn:HA.
      + destruct (BY _ _ _ _ FU) as (c & r & pos1 & lo & NC & FR & ->).
        destruct (new_cinstr_ok _ _ _ _ _ _ _ NC) as (V & N1 & A & _ & X). cbn in A.
        assert (AB : (b + z) mod 256 = b) by (rewrite Z.add_mod, Z0 by lia; rewrite Z.add_0_r, Z.mod_mod by lia; apply Z.mod_small; lia).
        rewrite AB in A.
        assert (OC : c_op c = op) by (assert (Q := vc_op _ _ _ V); rewrite N1 in Q; congruence).
        destruct (cache_nonneg v T wf name op O) as [CN _]; [rewrite <- OC; apply (vc_base _ _ _ V)|].
        destruct (IH rest (cache_entries v T name op) (op =? t_extended_arg T)
                    (if op =? t_extended_arg T then Z.shiftl (b + z) 8 else 0) pos1 r) as [B U]; auto; [lia| | |].
        * intros Q. destruct (op =? t_extended_arg T) eqn:EE; [|reflexivity]. exfalso.
          rewrite (ext_name _ _ O) in EE. apply String.eqb_eq in EE. subst name.
          rewrite (wf_ext v T wf) in O. injection O as <-. rewrite (wf_ext_nocache v T wf) in Q. lia.
        * destruct (op =? t_extended_arg T); [|reflexivity]. rewrite shiftl8. apply Z.mod_mul. lia.
        * unfold bytes_of in *.
          assert (UI : unit_instr v T c) by (split; [exact V|]; split; [exact X|]; rewrite A; exact RB).
          cbn [instrs_of flat_map map concat app]. change (flat_map _ r) with (instrs_of r).
          destruct (unit_bytes v T c UI) as [UB _]. rewrite UB, A, B, OC.
          split; [reflexivity|]. cbn [unit_list]. split; [exact UI|]. split.
          -- intros _. split; [|rewrite OC; exact HA]. intros Q. rewrite N1 in Q. subst name. destruct (wf_nop v T wf) as (o & ON & OA & _). congruence.
          -- rewrite N1. now rewrite <- (ext_name _ _ O).
      + destruct N as (-> & -> & N). destruct (BY _ _ _ _ FU) as (c & r & pos1 & lo & NC & FR & ->).
        destruct (new_cinstr_ok _ _ _ _ _ _ _ NC) as (V & N1 & A & _ & X). cbn in A.
        assert (OC : c_op c = op) by (assert (Q := vc_op _ _ _ V); rewrite N1 in Q; congruence).
        destruct (cache_nonneg v T wf name op O) as [CN _]; [rewrite <- OC; apply (vc_base _ _ _ V)|].
        destruct (IH rest (cache_entries v T name op) false 0 pos1 r) as [B U]; auto; [lia|].
        unfold bytes_of in *.
        assert (UI : unit_instr v T c) by (split; [exact V|]; split; [exact X|]; rewrite A; exact Logic.I).
        cbn [instrs_of flat_map map concat app]. change (flat_map _ r) with (instrs_of r).
        destruct (unit_bytes v T c UI) as [UB _]. rewrite UB, A, B, OC.
        split; [reflexivity|]. cbn [unit_list]. split; [exact UI|]. split; [discriminate|].
        rewrite N1. rewrite <- (ext_name _ _ O). destruct (op =? t_extended_arg T) eqn:EE; [|exact U].
        apply Z.eqb_eq in EE. subst op. rewrite EE in HA. rewrite (wf_ext_arg v T wf) in HA. discriminate.
  Qed.

  Lemma no_caches_before n op : PY311 v = false -> cache_entries v T n op = 0.
  Proof. unfold cache_entries. destruct v; cbn; try discriminate; intros _; reflexivity. Qed.

  Lemma py_index_app (a : list Z) x r k : k = zlen a -> py_index (a ++ x :: r) k = Ok x.
  Proof.
    intros ->. assert (N : nth_error (a ++ x :: r) (length a) = Some x) by (rewrite nth_error_app2 by lia; now rewrite Nat.sub_diag).
    unfold py_index. assert (L : (length a < length (a ++ x :: r))%nat) by (apply nth_error_Some; congruence). unfold zlen.
    replace (Z.of_nat (length a) <? 0) with false by lia. replace (Z.of_nat (length a) <? 0) with false by lia.
    replace (Z.of_nat (length (a ++ x :: r)) <=? Z.of_nat (length a)) with false by lia. cbn [orb].
    rewrite Nat2Z.id, N. reflexivity.
  Qed.

  Lemma from_bytes_bytes fuel : forall pre rest k (ext : bool) starts ln l, PY311 v = false ->
    (length rest <= fuel)%nat -> zlen pre = 2 * k -> normal v T 0 ext rest ->
    from_bytes v T fuel starts (pre ++ rest) (units v (2 * k)) ln = Ok l ->
    bytes_of T l = rest /\ unit_list v T ext (instrs_of l).
  Proof.
    induction fuel as [|f IH]; intros pre rest k ext starts ln l P LN LP N FB.
    { destruct rest; [|cbn in LN; lia]. cbn in FB. injection FB as <-. split; [reflexivity|exact N]. }
    cbn [from_bytes] in FB.
    assert (K0 : 0 <= k) by (unfold zlen in LP; lia).
    destruct rest as [|op [|b rest]].
    { rewrite app_nil_r in FB.
      assert (CMP : (units v (2 * k) <? zlen pre / (if OFFSET_AS_INSTRUCTION v then 2 else 1)) = false).
      { rewrite LP. unfold units. apply Z.ltb_ge. destruct (OFFSET_AS_INSTRUCTION v); [lia|]. rewrite Z.div_1_r. lia. }
      rewrite CMP in FB. injection FB as <-. split; [reflexivity|exact N]. }
    { destruct N. }
    cbn [normal] in N. change (0 <? 0) with false in N. cbv iota in N. destruct N as (name & O & RB & N).
    assert (ZR : 0 <= zlen rest) by (unfold zlen; lia).
    assert (CMP : (units v (2 * k) <? zlen (pre ++ op :: b :: rest) / (if OFFSET_AS_INSTRUCTION v then 2 else 1)) = true).
    { rewrite zlen_app, !zlen_cons, LP. unfold units. apply Z.ltb_lt. destruct (OFFSET_AS_INSTRUCTION v).
      - replace (2 * k + (1 + (1 + zlen rest))) with (zlen rest + (k + 1) * 2) by lia. rewrite Z.div_add by lia.
        replace (2 * k) with (k * 2) by lia. rewrite Z.div_mul by lia. assert (0 <= zlen rest / 2) by (apply Z.div_pos; lia). lia.
      - rewrite Z.div_1_r. lia. }
    rewrite CMP in FB. clear CMP. apply bind_ok in FB. destruct FB as (c & DI & FB). apply bind_ok in FB. destruct FB as (r & FR & FB).
    injection FB as <-.
    assert (IX : (if OFFSET_AS_INSTRUCTION v then 2 * units v (2 * k) else units v (2 * k)) = zlen pre).
    { rewrite LP. unfold units. destruct (OFFSET_AS_INSTRUCTION v); [|reflexivity]. replace (2 * k) with (k * 2) by lia. rewrite Z.div_mul; lia. }
    unfold disassemble in DI. rewrite IX in DI. rewrite (py_index_app pre op (b :: rest)) in DI by reflexivity. cbn [bind] in DI.
    assert (PI : py_index (pre ++ op :: b :: rest) (zlen pre + 1) = Ok b).
    { replace (pre ++ op :: b :: rest) with ((pre ++ [op]) ++ b :: rest) by now rewrite <- app_assoc.
      apply py_index_app. rewrite zlen_app. reflexivity. }
    rewrite PI in DI. rewrite (proj1 (opmap_opname v T wf name op) O) in DI. cbn [bind of_option] in DI.
    assert (NEXT : forall ext', c_size c = 2 -> normal v T 0 ext' rest -> bytes_of T r = rest /\ unit_list v T ext' (instrs_of r)).
    { intros ext' SZ NX. eapply (IH (pre ++ [op; b]) rest (k + 1) ext'); auto.
      - cbn in LN. lia.
      - rewrite zlen_app. change (zlen [op; b]) with 2. lia.
      - rewrite <- app_assoc. cbn [app]. replace (units v (2 * (k + 1))) with (units v (2 * k) + units v (c_size c)); [exact FR|].
        rewrite SZ. unfold units. destruct (OFFSET_AS_INSTRUCTION v); [|lia]. change (2 / 2) with 1.
        replace (2 * (k + 1)) with ((k + 1) * 2) by lia. replace (2 * k) with (k * 2) by lia. rewrite !Z.div_mul by lia. lia. }
    unfold bytes_of in *. cbn [instrs_of flat_map map concat app]. change (flat_map _ r) with (instrs_of r).
    rewrite (no_caches_before _ _ P) in N.
    destruct (opcode_has_argument v T op) eqn:HA; cbn [bind] in DI; apply bind_ok in DI; destruct DI as (lo & _ & NC).
    - destruct (new_cinstr_ok _ _ _ _ _ _ _ NC) as (V & N1 & A & _ & X). cbn in A.
      assert (OC : c_op c = op) by (assert (Q := vc_op _ _ _ V); rewrite N1 in Q; congruence).
      assert (UI : unit_instr v T c) by (split; [exact V|]; split; [exact X|]; rewrite A; exact RB).
      destruct (unit_bytes v T c UI) as [UB SZ]. destruct (NEXT _ SZ N) as [B U]. rewrite UB, A, B, OC.
      split; [reflexivity|]. cbn [unit_list]. split; [exact UI|]. split.
      + intros _. split; [|rewrite OC; exact HA]. intros Q. rewrite N1 in Q. subst name. destruct (wf_nop v T wf) as (o & ON & OA & _). congruence.
      + rewrite N1. now rewrite <- (ext_name _ _ O).
    - destruct N as (-> & -> & N).
      destruct (new_cinstr_ok _ _ _ _ _ _ _ NC) as (V & N1 & A & _ & X). cbn in A.
      assert (OC : c_op c = op) by (assert (Q := vc_op _ _ _ V); rewrite N1 in Q; congruence).
      assert (UI : unit_instr v T c) by (split; [exact V|]; split; [exact X|]; rewrite A; exact Logic.I).
      destruct (unit_bytes v T c UI) as [UB SZ]. destruct (NEXT _ SZ N) as [B U]. rewrite UB, A, B, OC.
      split; [reflexivity|]. cbn [unit_list]. split; [exact UI|]. split; [discriminate|].
      rewrite N1. rewrite <- (ext_name _ _ O). destruct (op =? t_extended_arg T) eqn:EE; [|exact U].
      apply Z.eqb_eq in EE. subst op. rewrite EE in HA. rewrite (wf_ext_arg v T wf) in HA. discriminate.
  Qed.

  Lemma disassemble_bytes co l : normal v T 0 false (co_code co) -> disassemble_code v T co = Ok l ->
    bytes_of T l = co_code co /\ unit_list v T false (instrs_of l).
  Proof.
    intros N D. unfold disassemble_code in D. destruct (PY311 v) eqn:P.
    - eapply (from_units_bytes (length (co_code co)) (co_code co) 0 false 0); eauto; lia.
    - eapply (from_bytes_bytes (length (co_code co)) [] (co_code co) 0); eauto; cbn [app]; auto.
      replace (units v (2 * 0)) with 0 by (unfold units; destruct (OFFSET_AS_INSTRUCTION v); reflexivity). exact D.
  Qed.

  Lemma normalize_instrs l : forall z, map snd (normalize_lineno z l) = instrs_of l.
  Proof. induction l as [|[c|w] r IH]; intros z; cbn [normalize_lineno map instrs_of flat_map app]; auto. cbn [snd]. now rewrite IH. Qed.
  Lemma loop_bytes l : forall o, fst (assemble_code_loop v T o l) = concat (map (assemble T) (map snd l)).
  Proof.
    induction l as [|[z c] r IH]; intros o; [reflexivity|]. cbn [assemble_code_loop map concat snd].
    specialize (IH (o + units v (c_size c))). destruct (assemble_code_loop v T (o + units v (c_size c)) r). cbn [fst] in *. now rewrite IH.
  Qed.

  Lemma round_bytes co e cb s co' : normal v T 0 false (co_code co) ->
    from_code v T co e = Ok cb -> to_code_raw v T cb s = Ok co' -> co_code co' = co_code co.
  Proof.
    intros N F TC. unfold from_code in F. apply bind_ok in F. destruct F as (l & D & F). apply bind_ok in F. destruct F as (l' & R & F).
    destruct (disassemble_bytes _ _ N D) as [B U].
    assert (B' : bytes_of T l' = co_code co).
    { destruct e; [congruence|]. rewrite (remove_bytes v T wf l [] l'); auto. }
    injection F as <-. unfold to_code_raw, assemble_code in TC. cbn [cb_meta m_first_lineno cb_items cb_ex] in TC.
    destruct (assemble_code_loop v T 0 (normalize_lineno (co_firstlineno co) l')) as [code ln] eqn:AC.
    inv_ok. cbn [co_code]. assert (X := loop_bytes (normalize_lineno (co_firstlineno co) l') 0). rewrite AC in X. cbn [fst] in X.
    rewrite normalize_instrs in X. subst code. exact B'.
  Qed.
End Units.

(** [normal] by computation, for the examples *)
Fixpoint normalb (v : pyver) (T : optable) (caches : Z) (ext : bool) (code : list Z) : bool :=
  match code with
  | [] => negb ext
  | [_] => false
  | op :: b :: rest =>
      if 0 <? caches then (op =? 0) && (b =? 0) && normalb v T (caches - 1) ext rest
      else match opname T op with
           | None => false
           | Some name => (0 <=? b) && (b <? 256)
               && if opcode_has_argument v T op
                  then normalb v T (cache_entries v T name op) (op =? t_extended_arg T) rest
                  else (b =? 0) && negb ext && normalb v T (cache_entries v T name op) false rest
           end
  end.
Lemma normalb_normal v T (wf : wf_optable v T = true) n : forall code caches ext, (length code <= n)%nat ->
  normalb v T caches ext code = true -> normal v T caches ext code.
Proof.
  induction n as [|n IH]; intros code caches ext L N.
  { destruct code; [|cbn in L; lia]. cbn in *. now destruct ext. }
  destruct code as [|op [|b rest]]; [cbn in *; now destruct ext|discriminate|]. cbn [normalb normal] in *. cbn [length] in L.
  destruct (0 <? caches).
  - rewrite !andb_true_iff, !Z.eqb_eq in N. destruct N as [[-> ->] N]. repeat split. apply IH; [lia|exact N].
  - destruct (opname T op) as [name|] eqn:O; [|discriminate]. exists name. split; [now apply (opmap_opname v T wf)|].
    rewrite !andb_true_iff in N. destruct N as [[N1 N2] N]. split; [lia|]. destruct (opcode_has_argument v T op).
    + apply IH; [lia|exact N].
    + rewrite !andb_true_iff, Z.eqb_eq, negb_true_iff in N. destruct N as [[-> ->] N]. repeat split. apply IH; [lia|exact N].
Qed.
