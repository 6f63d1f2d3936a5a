(** Arguments survive assembly: proofs. *)
From Verif Require Import PyBase OpTable CPy M_Instr M_Tables M_Concrete M_Convert P_Base S_Args
  P_OpTable P_Cat P_Asm S_Asm S_Slots P_Conv P_Conv2 P_Jumps P_Jumps2 P_Layout P_Layout2 P_AsmProps.
Open Scope string_scope.
Open Scope list_scope.
Open Scope Z_scope.

Lemma testbit0 a : Z.testbit a 0 = negb (a mod 2 =? 0).
Proof.
  rewrite <- Z.bit0_mod. destruct (Z.testbit a 0); reflexivity.
Qed.
Lemma testbitn a n : 0 <= n -> Z.testbit a n = negb ((a / 2 ^ n) mod 2 =? 0).
Proof.
  intros H. rewrite <- (Z.testbit_spec' a n H). destruct (Z.testbit a n); reflexivity.
Qed.
Lemma land_bit a n : 0 <= n -> (Z.land a (2 ^ n) =? 0) = negb (Z.testbit a n).
Proof.
  intros H. destruct (Z.testbit a n) eqn:E; cbn [negb].
  - apply Z.eqb_neq. intros X. assert (Z.testbit (Z.land a (2 ^ n)) n = true) as Y.
    { rewrite Z.land_spec, E, Z.pow2_bits_true by lia. reflexivity. }
    rewrite X, Z.bits_0 in Y. discriminate.
  - apply Z.eqb_eq. apply Z.bits_inj'. intros k Hk. rewrite Z.land_spec, Z.bits_0.
    destruct (Z.eq_dec k n) as [->|N]; [now rewrite E|]. rewrite Z.pow2_bits_false by lia. apply andb_false_r.
Qed.

Lemma at_ext {A} (a b : list A) j x : extends a b -> 0 <= j -> nth_error a (Z.to_nat j) = Some x -> at_ b j x.
Proof. intros E H N. split; [exact H|]. eapply extends_nth; eauto. Qed.

Lemma at_py_index {A} (l : list A) a x : at_ l a x -> py_index l a = Ok x.
Proof. intros [H N]. rewrite <- (Z2Nat.id a H). now apply py_index_nat. Qed.
Lemma py_index_at {A} (l : list A) a x : 0 <= a -> py_index l a = Ok x -> at_ l a x.
Proof.
  intros H. unfold py_index. destruct (Z.ltb_spec a 0); [lia|].
  destruct ((a <? 0) || (zlen l <=? a))%bool; [discriminate|].
  destruct nth_error eqn:E; [|discriminate]. intros X; injection X as <-. split; assumption.
Qed.

(** ** Shared slots *)
Lemma shared_nth va cells : forall k j n, nth_error cells j = Some n ->
  nth_error (shared_indexes va k cells) j =
  Some (match str_index n va with
        | Some i => Z.of_nat i
        | None => zlen va + k + zlen (unshared va (firstn j cells)) end).
Proof.
  induction cells as [|c cells IH]; intros k j n H; [now destruct j|].
  destruct j as [|j]; cbn [nth_error] in H.
  - injection H as ->. cbn [shared_indexes firstn unshared filter zlen length].
    destruct (str_index n va); cbn [nth_error]; [reflexivity|]. unfold zlen. cbn [length]. f_equal. lia.
  - cbn [shared_indexes firstn]. unfold unshared. cbn [filter].
    assert (M : str_mem c va = match str_index c va with Some _ => true | None => false end).
    { destruct (str_index c va) eqn:E.
      - apply str_index_nth, nth_error_In in E. now apply str_mem_In.
      - apply str_index_none in E. destruct (str_mem c va) eqn:X; [|reflexivity].
        apply str_mem_In in X. tauto. }
    rewrite M. destruct (str_index c va) eqn:E; cbn [nth_error negb]; rewrite (IH _ _ _ H).
    + destruct (str_index n va); [reflexivity|]. f_equal.
    + destruct (str_index n va); [reflexivity|]. rewrite zlen_cons. unfold unshared. f_equal. lia.
Qed.

Lemma filter_firstn {A} (f : A -> bool) l : forall j x, nth_error l j = Some x -> f x = true ->
  nth_error (filter f l) (length (filter f (firstn j l))) = Some x.
Proof.
  induction l as [|y l IH]; intros j x H F; [now destruct j|].
  destruct j as [|j]; cbn [nth_error] in H.
  - injection H as ->. cbn. now rewrite F.
  - cbn [firstn filter]. specialize (IH _ _ H F). destruct (f y); cbn [length nth_error]; assumption.
Qed.

Lemma filter_negb {A} (f : A -> bool) l :
  zlen (filter f l) + zlen (filter (fun x => negb (f x)) l) = zlen l.
Proof.
  induction l as [|x l IH]; [reflexivity|]. cbn [filter]. rewrite zlen_cons.
  destruct (f x); cbn [negb]; rewrite ?zlen_cons; lia.
Qed.

Lemma flag_div b j : ((if b : bool then 1 else 0) + j * 2) / 2 = j.
Proof. destruct b; zdm. Qed.
Lemma flag_bit (b : bool) j : Z.testbit ((if b then 1 else 0) + j * 2) 0 = b.
Proof.
  rewrite testbit0. destruct b.
  - replace ((1 + j * 2) mod 2) with 1 by zdm. reflexivity.
  - replace ((0 + j * 2) mod 2) with 0 by zdm. reflexivity.
Qed.
Lemma flag2_div (b c : bool) j : ((if b then 1 else 0) + 2 * (if c then 1 else 0) + j * 4) / 4 = j.
Proof. destruct b, c; zdm. Qed.
Lemma flag2_bit0 (b c : bool) j : Z.testbit ((if b then 1 else 0) + 2 * (if c then 1 else 0) + j * 4) 0 = b.
Proof.
  replace ((if b then 1 else 0) + 2 * (if c then 1 else 0) + j * 4)
    with ((if b then 1 else 0) + ((if c then 1 else 0) + j * 2) * 2) by lia. apply flag_bit.
Qed.
Lemma flag2_bit1 (b c : bool) j : Z.testbit ((if b then 1 else 0) + 2 * (if c then 1 else 0) + j * 4) 1 = c.
Proof.
  rewrite testbitn by lia. change (2 ^ 1) with 2.
  replace ((if b then 1 else 0) + 2 * (if c then 1 else 0) + j * 4)
    with ((if b then 1 else 0) + ((if c then 1 else 0) + j * 2) * 2) by lia.
  rewrite flag_div, <- testbit0. apply flag_bit.
Qed.

Section Enc.
  Variables (v : pyver) (T : optable) (keq : pyobj -> pyobj -> bool) (m : meta).
  Hypothesis wf : wf_optable v T = true.
  Hypothesis keq_eq : forall x y, keq x y = true -> x = y.

  Lemma doc_unset op : doc_arg v T op OUnset -> opcode_has_argument v T op = false.
  Proof. inversion 1; subst; auto; try congruence; try discriminate. Qed.

  Lemma doc_intr op x : doc_arg v T op x -> category v T op -> is_intrinsic v T op = true ->
    (exists z, x = OIntr1 z /\ is_intrinsic1 v T op = true)
    \/ (exists z, x = OIntr2 z /\ is_intrinsic2 v T op = true).
  Proof.
    intros D C I.
    assert (X : is_dual v T op = false /\ is_bitflag v T op = false /\ is_bitflag2 v T op = false
      /\ opcode_has_argument v T op = true
      /\ ~ In op (t_hasconst T) /\ ~ In op (t_haslocal T) /\ ~ In op (t_hasname T) /\ ~ In op (t_hasfree T)
      /\ ~ In op (t_hascompare T) /\ ~ In op (t_hasjrel T) /\ ~ In op (t_hasjabs T)).
    { destruct C as [C|C|C|C|C|C|C|C]; destruct C as (E1 & E2 & E3 & E4 & E5 & E6 & E7); try congruence.
      apply no_jump in E1. destruct E1. repeat split; auto using mem_false. }
    destruct X as (X1 & X2 & X3 & X4 & X5 & X6 & X7 & X8 & X9 & X10 & X11).
    inversion D; subst; try congruence; try tauto; eauto;
    try match goal with H : jumps _ _ |- _ => destruct H; tauto end;
    try match goal with H : simple_name _ _ _ |- _ => destruct H as ([?|?] & _); tauto end.
    match goal with H : plain _ _ _ |- _ => destruct H as (_ & _ & _ & _ & _ & _ & ?); congruence end.
  Qed.

  Lemma doc_jump op x : doc_arg v T op x -> category v T op -> op_has_jump T op = true ->
    (exists l, x = OLabel l) \/ (exists n, x = OBlock n).
  Proof.
    intros D C J.
    assert (X : is_dual v T op = false /\ is_bitflag v T op = false /\ is_bitflag2 v T op = false
      /\ opcode_has_argument v T op = true
      /\ ~ In op (t_hasconst T) /\ ~ In op (t_haslocal T) /\ ~ In op (t_hasname T) /\ ~ In op (t_hasfree T)
      /\ ~ In op (t_hascompare T) /\ is_intrinsic v T op = false).
    { destruct C as [C|C|C|C|C|C|C|C]; destruct C as (E1 & E2 & E3 & E4 & E5 & E6 & E7); try congruence.
      repeat split; auto using mem_false. }
    destruct X as (X1 & X2 & X3 & X4 & X5 & X6 & X7 & X8 & X9 & X10).
    unfold is_intrinsic in X10. apply orb_false_iff in X10. destruct X10 as [X10 X11].
    inversion D; subst; try congruence; try tauto; eauto;
    try match goal with H : simple_name _ _ _ |- _ => destruct H as ([?|?] & _); tauto end.
    match goal with H : plain _ _ _ |- _ => destruct H as (N & _) end.
    exfalso. apply N. unfold op_has_jump in J. apply orb_true_iff in J. unfold jumps.
    now rewrite <- !z_mem_In.
  Qed.

  Lemma encode_compare_reads z : real_member v (OCompare z) -> comparison v (encode_compare v z) = z.
  Proof.
    cbn [real_member]. intros R. unfold comparison, encode_compare.
    destruct v; cbn [PY313 PY312 minor Z.leb Z.compare Pos.compare Pos.compare_cont]; try reflexivity.
    - assert (Z : z = 0 \/ z = 1 \/ z = 2 \/ z = 3 \/ z = 4 \/ z = 5) by (destruct R as [R|[[R _]|[R _]]]; [lia|discriminate|discriminate]).
      repeat (destruct Z as [->|Z]; [reflexivity|]). subst. reflexivity.
    - assert (Z : z = 0 \/ z = 1 \/ z = 2 \/ z = 3 \/ z = 4 \/ z = 5 \/ z = 16 \/ z = 17 \/ z = 18 \/ z = 19 \/ z = 20 \/ z = 21)
        by (destruct R as [R|[[R _]|[_ R]]]; [lia|discriminate|lia]).
      repeat (destruct Z as [->|Z]; [reflexivity|]). subst. reflexivity.
  Qed.

  Lemma encode_reads K i co na va first name arg kind cb :
    encode_arg v T keq m K i = Ok (co, na, va, first, name, arg, kind) ->
    category v T (i_op i) -> doc_arg v T (i_op i) (i_arg i) ->
    (forall l, i_arg i <> OLabel l) -> is_dual v T (i_op i) = false -> real_member v (i_arg i) ->
    extends co (cb_consts cb) -> extends na (cb_names cb) -> extends va (cb_varnames cb) ->
    first = None /\ name = i_name i /\
    match kind with
    | VNone => reads v T cb (i_op i) (carg_of arg) (i_arg i)
    | VCell => exists n j, i_arg i = OCell n /\ arg = OInt (Z.of_nat j)
                 /\ nth_error (m_cellvars m) j = Some n
                 /\ (In (i_op i) (t_hasfree T) \/ (PY313 v = true /\ In (i_op i) (t_haslocal T)))
    | VFree => exists n j, i_arg i = OFree n /\ arg = OInt (Z.of_nat j)
                 /\ nth_error (m_freevars m) j = Some n
                 /\ (In (i_op i) (t_hasfree T) \/ (PY313 v = true /\ In (i_op i) (t_haslocal T)))
    end.
  Proof.
    intros H C D NL ND RM Xc Xn Xv.
    unfold encode_arg in H.
    set (op := i_op i) in *. set (x := i_arg i) in *.
    assert (H' : (if z_mem op (t_hasconst T) then
      let '(consts, j) := add_const keq (k_consts K) x in
      Ok (consts, k_names K, k_varnames K, None, i_name i, OInt j, VNone)
    else if z_mem op (t_haslocal T) then
        match x with
        | OCell n => if PY313 v then match str_index n (m_cellvars m) with
                   | Some j => Ok (k_consts K, k_names K, k_varnames K, None, i_name i, OInt (Z.of_nat j), VCell)
                   | None => Err ValueError end else Err AssertionError
        | OFree n => if PY313 v then match str_index n (m_freevars m) with
                   | Some j => Ok (k_consts K, k_names K, k_varnames K, None, i_name i, OInt (Z.of_nat j), VFree)
                   | None => Err ValueError end else Err AssertionError
        | OStr s => let '(varnames, j) := add_name (k_varnames K) s in
                    Ok (k_consts K, k_names K, varnames, None, i_name i, OInt j, VNone)
        | _ => Err AssertionError
        end
    else if z_mem op (t_hasname T) then
      if is_bitflag v T op then
        match x with
        | OTuple [OBool b; OStr s] =>
            let '(names, j) := add_name (k_names K) s in
            Ok (k_consts K, names, k_varnames K, None, i_name i,
                OInt ((if b then 1 else 0) + Z.shiftl j 1), VNone)
        | _ => Err AssertionError
        end
      else if is_bitflag2 v T op then
        match x with
        | OTuple [OBool b; OBool c; OStr s] =>
            let '(names, j) := add_name (k_names K) s in
            Ok (k_consts K, names, k_varnames K, None, i_name i,
                OInt ((if b then 1 else 0) + 2 * (if c then 1 else 0) + Z.shiftl j 2), VNone)
        | _ => Err AssertionError
        end
      else
        match x with
        | OStr s => let '(names, j) := add_name (k_names K) s in
                    Ok (k_consts K, names, k_varnames K, None, i_name i, OInt j, VNone)
        | _ => Err AssertionError
        end
    else if z_mem op (t_hasfree T) then
      match x with
      | OCell n => match str_index n (m_cellvars m) with
                   | Some j => Ok (k_consts K, k_names K, k_varnames K, None, i_name i, OInt (Z.of_nat j), VCell)
                   | None => Err ValueError end
      | OFree n => match str_index n (m_freevars m) with
                   | Some j => Ok (k_consts K, k_names K, k_varnames K, None, i_name i, OInt (Z.of_nat j), VFree)
                   | None => Err ValueError end
      | _ => Err AssertionError
      end
    else if z_mem op (t_hascompare T) then
      match x with
      | OCompare z => Ok (k_consts K, k_names K, k_varnames K, None, i_name i, OInt (encode_compare v z), VNone)
      | _ => Err AssertionError
      end
    else if is_intrinsic v T op then
      match x with
      | OIntr1 z | OIntr2 z => Ok (k_consts K, k_names K, k_varnames K, None, i_name i, OInt z, VNone)
      | _ => Err AssertionError
      end
    else if is_unset x then Ok (k_consts K, k_names K, k_varnames K, None, i_name i, OUnset, VNone)
    else match as_int x with
         | Some z => Ok (k_consts K, k_names K, k_varnames K, None, i_name i, OInt z, VNone)
         | None => Err AssertionError
         end) = Ok (co, na, va, first, name, arg, kind)).
    { rewrite ND in H. clear -H NL. destruct x; try exact H. exfalso. now apply (NL n). }
    clear H.
    destruct C as [C HA C1 C2 C3|C HA C1 C2 C3|C HA C2 C3|C HA C1 C2|C HA C1 C2 C3|C HA C1 C2 C3|C HA C1 C2 C3 C4|C C1 C2 C3];
      destruct C as (E1 & E2 & E3 & E4 & E5 & E6 & E7);
      rewrite ?E2, ?E3, ?E4, ?E5, ?E6, ?E7 in H'.
    - (* jump *)
      exfalso. assert (J : exists n, x = OBlock n).
      { destruct (doc_jump op x D) as [(l & J)|J]; [| |exfalso; now apply (NL l)|exact J].
        - apply cat_jump; unfold cats; auto. repeat split; assumption.
        - exact E1. }
      destruct J as (n & J). rewrite J in H'. discriminate H'.
    - destruct (add_const keq (k_consts K) x) as [cs j] eqn:EA. injection H' as <- <- <- <- <- <- <-.
      split; [reflexivity|]. split; [reflexivity|]. cbn [carg_of is_unset as_int].
      apply (add_const_nth keq _ _ _ _ (keq_eq x)) in EA. destruct EA.
      apply rd_const; [now apply z_mem_In|]. eapply at_ext; eauto.
    - destruct x as [| | |s| | | | |s|s| | | |]; try discriminate H'.
      + destruct (add_name (k_varnames K) s) as [vs j] eqn:EA. injection H' as <- <- <- <- <- <- <-.
        split; [reflexivity|]. split; [reflexivity|]. apply add_name_nth in EA. destruct EA.
        apply rd_local; [now apply z_mem_In|exact ND|]. split; [|right; eauto].
        apply fs_local. eapply at_ext; eauto.
      + destruct (PY313 v) eqn:P; [|discriminate H']. destruct (str_index s (m_cellvars m)) as [j|] eqn:ES; [|discriminate H'].
        injection H' as <- <- <- <- <- <- <-. split; [reflexivity|]. split; [reflexivity|].
        exists s, j. repeat split; [now apply str_index_nth|]. right. split; [reflexivity|now apply z_mem_In].
      + destruct (PY313 v) eqn:P; [|discriminate H']. destruct (str_index s (m_freevars m)) as [j|] eqn:ES; [|discriminate H'].
        injection H' as <- <- <- <- <- <- <-. split; [reflexivity|]. split; [reflexivity|].
        exists s, j. repeat split; [now apply str_index_nth|]. right. split; [reflexivity|now apply z_mem_In].
    - destruct (is_bitflag v T op) eqn:B1.
      { destruct x as [| | | |l| | | | | | | | |]; try discriminate H'.
        destruct l as [|y1 l]; try discriminate H'. destruct y1 as [|b| | | | | | | | | | | |]; try discriminate H'.
        destruct l as [|y2 l]; try discriminate H'. destruct y2 as [| | |s| | | | | | | | | |]; try discriminate H'.
        destruct l; try discriminate H'.
        destruct (add_name (k_names K) s) as [ns j] eqn:EA. remember (Z.shiftl j _) as sj eqn:Esj in H'. injection H' as <- <- <- <- <- <- <-.
        split; [reflexivity|]. split; [reflexivity|]. apply add_name_nth in EA. destruct EA as [J0 JN].
        cbn [carg_of is_unset as_int]. rewrite Esj, shiftl1.
        apply rd_flag; [exact B1| |].
        - rewrite flag_div. eapply at_ext; eauto.
        - apply flag_bit. }
      destruct (is_bitflag2 v T op) eqn:B2.
      { destruct x as [| | | |l| | | | | | | | |]; try discriminate H'.
        destruct l as [|y1 l]; try discriminate H'. destruct y1 as [|b| | | | | | | | | | | |]; try discriminate H'.
        destruct l as [|y2 l]; try discriminate H'. destruct y2 as [|c| | | | | | | | | | | |]; try discriminate H'.
        destruct l as [|y3 l]; try discriminate H'. destruct y3 as [| | |s| | | | | | | | | |]; try discriminate H'.
        destruct l; try discriminate H'.
        destruct (add_name (k_names K) s) as [ns j] eqn:EA. remember ((if b then 1 else 0) + 2 * (if c then 1 else 0) + Z.shiftl j 2) as sj eqn:Esj in H'. injection H' as <- <- <- <- <- <- <-.
        split; [reflexivity|]. split; [reflexivity|]. apply add_name_nth in EA. destruct EA as [J0 JN].
        cbn [carg_of is_unset as_int]. rewrite Esj, Z.shiftl_mul_pow2 by lia. change (2 ^ 2) with 4.
        apply rd_flag2; [exact B2| | |].
        - rewrite flag2_div. eapply at_ext; eauto.
        - apply flag2_bit0.
        - apply flag2_bit1. }
      destruct x as [| | |s| | | | | | | | | |]; try discriminate H'.
      destruct (add_name (k_names K) s) as [ns j] eqn:EA. injection H' as <- <- <- <- <- <- <-.
      split; [reflexivity|]. split; [reflexivity|]. apply add_name_nth in EA. destruct EA as [J0 JN].
      apply rd_name; auto; [now apply z_mem_In|]. eapply at_ext; eauto.
    - destruct x as [| | |s| | | | |s|s| | | |]; try discriminate H'.
      + destruct (str_index s (m_cellvars m)) as [j|] eqn:ES; [|discriminate H'].
        injection H' as <- <- <- <- <- <- <-. split; [reflexivity|]. split; [reflexivity|].
        exists s, j. repeat split; [now apply str_index_nth|]. left. now apply z_mem_In.
      + destruct (str_index s (m_freevars m)) as [j|] eqn:ES; [|discriminate H'].
        injection H' as <- <- <- <- <- <- <-. split; [reflexivity|]. split; [reflexivity|].
        exists s, j. repeat split; [now apply str_index_nth|]. left. now apply z_mem_In.
    - destruct x as [| | |s| | | | |s|s|z| | |]; try discriminate H'.
      injection H' as <- <- <- <- <- <- <-. split; [reflexivity|]. split; [reflexivity|].
      cbn [carg_of is_unset as_int]. rewrite <- (encode_compare_reads z RM) at 2.
      apply rd_compare. now apply z_mem_In.
    - destruct (doc_intr op x D) as [(z & -> & I)|(z & -> & I)]; [|exact E7| |].
      + apply cat_intr; unfold cats; auto. repeat split; assumption.
      + injection H' as <- <- <- <- <- <- <-. split; [reflexivity|]. split; [reflexivity|]. now apply rd_intr1.
      + injection H' as <- <- <- <- <- <- <-. split; [reflexivity|]. split; [reflexivity|]. now apply rd_intr2.
    - destruct (is_unset x) eqn:U.
      { destruct x; try discriminate U. injection H' as <- <- <- <- <- <- <-.
        split; [reflexivity|]. split; [reflexivity|]. apply rd_none. now apply doc_unset. }
      destruct (as_int x) as [z|] eqn:AI; [|discriminate H'].
      injection H' as <- <- <- <- <- <- <-. split; [reflexivity|]. split; [reflexivity|].
      cbn [carg_of is_unset as_int]. apply rd_int; [|exact AI].
      apply no_jump in E1. destruct E1. unfold plain, jumps. repeat split; auto using mem_false. tauto.
  Qed.
End Enc.
