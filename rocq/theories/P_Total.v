(** Assembly succeeds for every [assemblable] program. *)
From Verif Require Import PyBase OpTable M_Instr M_Tables M_Concrete M_Convert M_Bytecode M_Cfg S_Args S_Asm S_Slots S_Prog S_Cfg S_Ident S_Total.
From Verif Require Import P_Base P_OpTable P_Asm P_Instr P_Instr2 P_Conv P_Conv2 P_Jumps P_Jumps2 P_Layout P_Layout2 P_Try P_Converge P_Cat P_Args P_AsmProps.
Open Scope string_scope.
Open Scope list_scope.
Open Scope Z_scope.

Lemma add_name_bound l x l' j : add_name l x = (l', j) -> zlen l' <= zlen l + 1 /\ 0 <= j <= zlen l.
Proof.
  unfold add_name. destruct (str_index x l) as [n|] eqn:E; intros H; injection H as <- <-.
  - apply str_index_nth, nth_some_lt in E. unfold zlen. lia.
  - rewrite zlen_app. unfold zlen. cbn. lia.
Qed.
Lemma add_const_bound keq l x l' j : add_const keq l x = (l', j) -> zlen l' <= zlen l + 1 /\ 0 <= j <= zlen l.
Proof.
  unfold add_const. destruct (const_index keq x l) as [n|] eqn:E; intros H; injection H as <- <-.
  - apply const_index_nth in E. destruct E as (y & E & _). apply nth_some_lt in E. unfold zlen. lia.
  - rewrite zlen_app. unfold zlen. cbn. lia.
Qed.

(** Linear arithmetic after dropping the facts that are not about numbers *)
Ltac zl := repeat match goal with
  | H : @eq bool _ _ |- _ => clear H
  | H : forall _, _ |- _ => clear H
  | H : @eq pyobj _ _ |- _ => clear H
  | H : @eq (option _) _ _ |- _ => clear H
  | H : In _ _ |- _ => clear H
  | H : ~ _ |- _ => clear H
  | H : category _ _ _ |- _ => clear H
  | H : doc_arg _ _ _ _ |- _ => clear H
  | H : _ < t_min_instrumented _ |- _ => clear H
  | H : @eq (res _) _ _ |- _ => clear H
  | H : _ \/ _ |- _ => clear H
  | H : match ?x with _ => _ end |- _ => clear H
  | H : exists _, _ |- _ => clear H end; lia.

Section S.
  Variables (v : pyver) (T : optable) (keq : pyobj -> pyobj -> bool) (m : meta).
  Hypothesis wf : wf_optable v T = true.

  Lemma new_total n op z lo : opmap T n = Some op -> op < t_min_instrumented T ->
    opcode_has_argument v T op = true -> 0 <= z <= 2147483647 ->
    exists c, new_cinstr v T n (OInt z) lo None = Ok c.
  Proof.
    intros O L A R. unfold new_cinstr, resolve_name. rewrite O.
    destruct (Z.leb_spec (t_min_instrumented T) op); [lia|]. cbn [bind].
    unfold c_check_arg. rewrite A. cbn.
    destruct (Z.leb_spec 0 z); [|lia]. destruct (Z.leb_spec z 2147483647); [|lia]. cbn. eauto.
  Qed.
  Lemma new_total_unset n op lo : opmap T n = Some op -> op < t_min_instrumented T ->
    opcode_has_argument v T op = false -> op <> 0 ->
    exists c, new_cinstr v T n OUnset lo None = Ok c.
  Proof.
    intros O L A N. unfold new_cinstr, resolve_name. rewrite O.
    destruct (Z.leb_spec (t_min_instrumented T) op); [lia|]. cbn [bind].
    unfold c_check_arg. rewrite A. destruct (Z.eqb_spec op 0); [lia|]. cbn. eauto.
  Qed.

  Definition small (K : conv) : Prop :=
    zlen (k_consts K) <= 500000000 /\ zlen (k_names K) <= 500000000
    /\ zlen (k_varnames K) + zlen (m_cellvars m) + zlen (m_freevars m) <= 2100000000.

  Lemma str_index_total n l : In n l -> exists j, str_index n l = Some j /\ (j < length l)%nat.
  Proof.
    intros I. destruct (str_index n l) as [j|] eqn:E.
    - exists j. split; [reflexivity|]. apply str_index_nth in E. eapply nth_some_lt; eauto.
    - apply str_index_none in E. tauto.
  Qed.

  Lemma encode_compare_range z : real_member v (OCompare z) -> 0 <= encode_compare v z <= 2147483647.
  Proof.
    cbn [real_member]. intros R. unfold encode_compare.
    destruct v; cbn [PY313 PY312 minor Z.leb Z.compare Pos.compare Pos.compare_cont];
    try (destruct R as [R|[[R1 R]|[R1 R]]]; try discriminate R1; lia).
    - assert (Z : z = 0 \/ z = 1 \/ z = 2 \/ z = 3 \/ z = 4 \/ z = 5) by (destruct R as [R|[[R _]|[R _]]]; [lia|discriminate|discriminate]).
      destruct Z as [->|[->|[->|[->|[->| ->]]]]]; vm_compute; split; discriminate.
    - assert (Z : z = 0 \/ z = 1 \/ z = 2 \/ z = 3 \/ z = 4 \/ z = 5 \/ z = 16 \/ z = 17 \/ z = 18 \/ z = 19 \/ z = 20 \/ z = 21) by (destruct R as [R|[[R _]|[_ R]]]; [lia|discriminate|lia]).
      repeat destruct Z as [->|Z]; [..|rewrite Z]; vm_compute; split; discriminate.
  Qed.

  Lemma encode_total K i lo : legal_instr v T i -> i_name i <> "CACHE" -> real_member v (i_arg i) -> arg_fits T (BI i) ->
    (forall n, ~ In (i_op i) (t_hasconst T) -> i_arg i = OCell n -> In n (m_cellvars m)) ->
    (forall n, ~ In (i_op i) (t_hasconst T) -> i_arg i = OFree n -> In n (m_freevars m)) ->
    (is_dual v T (i_op i) = true -> exists x y, i_arg i = OTuple [OStr x; OStr y]) ->
    small K ->
    exists co na va first name arg kind c,
      encode_arg v T keq m K i = Ok (co, na, va, first, name, arg, kind)
      /\ new_cinstr v T name arg (Some lo) None = Ok c
      /\ match first with Some (n1, j1) => exists c1, new_cinstr v T n1 (OInt j1) (Some lo) None = Ok c1 | None => True end
      /\ zlen co <= zlen (k_consts K) + 1 /\ zlen na <= zlen (k_names K) + 1 /\ zlen va <= zlen (k_varnames K) + 2.
  Proof.
    intros (O & L & NE & D) NC RM AF HC HF HP (S1 & S2 & S3).
    assert (Z1 : 0 <= zlen (m_cellvars m)) by apply zlen_nonneg. assert (Z2 : 0 <= zlen (m_freevars m)) by apply zlen_nonneg.
    assert (Z3 : 0 <= zlen (k_varnames K)) by apply zlen_nonneg.
    pose proof (category_of v T wf _ _ O L) as C. cbn [arg_fits] in AF. unfold M_Cfg.has_jump in AF.
    unfold encode_arg.
    destruct (op_has_jump T (i_op i)) eqn:E1.
    { destruct AF as (n & ->). destruct C as [C HA D1 D2 D3|C HA|C HA|C HA|C HA|C HA|C HA|C]; destruct C as (F1 & _); try congruence.
      destruct (new_total (i_name i) (i_op i) 0 (Some lo) O L HA ltac:(zl)) as (c & N).
      eexists _, _, _, _, _, _, _, c. split; [reflexivity|]. split; [exact N|]. split; [exact Logic.I|]. zl. }
    assert (NL : forall n, i_arg i <> OLabel n) by (intros n; apply (AF n)).
    destruct (no_jump T _ E1) as [J1 J2].
    destruct C as [C HA D1 D2 D3|C HA D1 D2 D3|C HA D2 D3|C HA D1 D4|C HA D1 D2 D3|C HA D1 D2 D3|C HA D1 D2 D3 D4|C D1 D2 D3];
      destruct C as (F1 & E2 & E3 & E4 & E5 & E6 & E7); try congruence.
    - (* const *)
      destruct (add_const keq (k_consts K) (i_arg i)) as [co j] eqn:A. pose proof (add_const_bound _ _ _ _ _ A) as (B1 & B2).
      destruct (new_total (i_name i) (i_op i) j (Some lo) O L HA ltac:(zl)) as (c & N).
      exists co, (k_names K), (k_varnames K), None, (i_name i), (OInt j), VNone, c.
      split; [|split; [exact N|split; [exact Logic.I|zl]]].
      destruct (i_arg i) eqn:Ea; try (exfalso; eapply NL; eauto; fail); rewrite E2, A; reflexivity.
    - (* local *)
      destruct (is_dual v T (i_op i)) eqn:D1.
      + destruct (HP eq_refl) as (x & y & Ea). rewrite Ea, E2, E3.
        destruct (add_name (k_varnames K) x) as [va1 j1] eqn:A1. pose proof (add_name_bound _ _ _ _ A1) as (B1 & B2).
        destruct (add_name va1 y) as [va2 j2] eqn:A2. pose proof (add_name_bound _ _ _ _ A2) as (B3 & B4).
        destruct ((16 <? j1) || (16 <? j2)) eqn:Big.
        * assert (DS : exists n1 n2, dual_single_ops v T (i_op i) = Some (n1, n2) /\ In n1 ["LOAD_FAST"; "STORE_FAST"] /\ In n2 ["LOAD_FAST"; "STORE_FAST"]).
          { clear - D1. unfold is_dual in D1. unfold dual_single_ops. apply andb_prop in D1. destruct D1 as [P D1]. rewrite P. cbn [negb].
            unfold opcode_in in D1. cbn [existsb] in D1.
            destruct (opcode_is T "STORE_FAST_STORE_FAST" (i_op i)); [do 2 eexists; split; [reflexivity|cbn; auto]|].
            destruct (opcode_is T "STORE_FAST_LOAD_FAST" (i_op i)); [do 2 eexists; split; [reflexivity|cbn; auto]|].
            destruct (opcode_is T "LOAD_FAST_LOAD_FAST" (i_op i)); [do 2 eexists; split; [reflexivity|cbn; auto]|]. discriminate. }
          destruct DS as (n1 & n2 & DS & I1 & I2). rewrite DS.
          assert (P : PY313 v = true) by (unfold is_dual in D1; apply andb_prop in D1; apply D1).
          destruct (wf_singles v T wf n1 P I1) as (o1 & O1 & L1 & LT1 & _ & _).
          destruct (wf_singles v T wf n2 P I2) as (o2 & O2 & L2 & LT2 & _ & _).
          assert (HA' : forall o n, opmap T n = Some o -> o < t_min_instrumented T -> In o (t_haslocal T) -> opcode_has_argument v T o = true).
          { intros o n Oo Lo Io. apply z_mem_In in Io. destruct (category_of v T wf _ _ Oo Lo) as [X Y|X Y|X Y|X Y|X Y|X Y|X Y|X]; destruct X as (_ & _ & X & _); congruence. }
          destruct (new_total n1 o1 j1 (Some lo) O1 LT1 (HA' _ _ O1 LT1 L1) ltac:(zl)) as (c1 & N1).
          destruct (new_total n2 o2 j2 (Some lo) O2 LT2 (HA' _ _ O2 LT2 L2) ltac:(zl)) as (c2 & N2).
          eexists _, _, _, _, _, _, _, c2. split; [reflexivity|]. split; [exact N2|]. split; [now exists c1|]. zl.
        * apply orb_false_iff in Big. destruct Big as [G1 G2]. apply Z.ltb_ge in G1, G2.
          destruct (new_total (i_name i) (i_op i) (Z.shiftl j1 4 + j2) (Some lo) O L HA) as (c & N); [rewrite Z.shiftl_mul_pow2 by zl; zl|].
          eexists _, _, _, _, _, _, _, c. split; [reflexivity|]. split; [exact N|]. split; [exact Logic.I|]. zl.
      + assert (SH : (exists s, i_arg i = OStr s) \/ (PY313 v = true /\ exists s, i_arg i = OCell s) \/ (PY313 v = true /\ exists s, i_arg i = OFree s)).
        { apply mem_false in E2, E4, E5, E6. pose proof (mem_true _ _ E3) as E3'.
          inversion D; subst; try congruence; try tauto; eauto;
          try match goal with H : S_Args.jumps _ _ |- _ => destruct H; tauto end;
          try (unfold is_intrinsic in E7; apply orb_false_iff in E7; destruct E7; congruence).
          all: first [ match goal with H : plain _ _ _ |- _ => destruct H as (_ & _ & H & _); tauto end
                     | right; left; split; [assumption|eauto; fail] | right; right; split; [assumption|eauto; fail] | idtac ]. }
        pose proof E2 as E2b. pose proof (mem_false _ _ E2) as E2'.
        destruct SH as [(s & Ea)|[(P & s & Ea)|(P & s & Ea)]]; rewrite Ea, E2b, E3, ?P.
        * destruct (add_name (k_varnames K) s) as [va j] eqn:A. pose proof (add_name_bound _ _ _ _ A) as (B1 & B2).
          destruct (new_total (i_name i) (i_op i) j (Some lo) O L HA ltac:(zl)) as (c & N).
          eexists _, _, _, _, _, _, _, c. split; [reflexivity|]. split; [exact N|]. split; [exact Logic.I|]. zl.
        * destruct (str_index_total s _ (HC s E2' Ea)) as (j & SI & LJ). rewrite SI.
          destruct (new_total (i_name i) (i_op i) (Z.of_nat j) (Some lo) O L HA ltac:(unfold zlen in *; zl)) as (c & N).
          eexists _, _, _, _, _, _, _, c. split; [reflexivity|]. split; [exact N|]. split; [exact Logic.I|]. zl.
        * destruct (str_index_total s _ (HF s E2' Ea)) as (j & SI & LJ). rewrite SI.
          destruct (new_total (i_name i) (i_op i) (Z.of_nat j) (Some lo) O L HA ltac:(unfold zlen in *; zl)) as (c & N).
          eexists _, _, _, _, _, _, _, c. split; [reflexivity|]. split; [exact N|]. split; [exact Logic.I|]. zl.
    - (* name *)
      assert (SH : if is_bitflag v T (i_op i) then exists b s, i_arg i = OTuple [OBool b; OStr s]
                   else if is_bitflag2 v T (i_op i) then exists b c s, i_arg i = OTuple [OBool b; OBool c; OStr s]
                   else exists s, i_arg i = OStr s).
      { apply mem_false in E2, E3, E5, E6. pose proof (mem_true _ _ E4) as E4'.
        inversion D; subst; try congruence; try tauto; eauto;
        try match goal with H : S_Args.jumps _ _ |- _ => destruct H; tauto end;
        try match goal with H : simple_name _ _ _ |- _ => destruct H as (_ & -> & -> & _); eauto end;
        try (match goal with H : is_bitflag _ _ _ = true |- _ => rewrite H; eauto end);
        try (unfold is_intrinsic in E7; apply orb_false_iff in E7; destruct E7; congruence).
        - match goal with H : is_bitflag2 _ _ _ = true |- _ => rewrite H in *; rewrite andb_true_r in D4; rewrite D4; eauto end.
        - match goal with H : plain _ _ _ |- _ => destruct H as (_ & _ & _ & H & _); tauto end. }
      destruct (is_bitflag v T (i_op i)) eqn:FB; [|destruct (is_bitflag2 v T (i_op i)) eqn:FB2].
      + destruct SH as (bb & s & Ea). rewrite Ea, E2, E3, E4.
        destruct (add_name (k_names K) s) as [na j] eqn:A. pose proof (add_name_bound _ _ _ _ A) as (B1 & B2).
        destruct (new_total (i_name i) (i_op i) ((if bb then 1 else 0) + Z.shiftl j 1) (Some lo) O L HA) as (c & N);
          [rewrite Z.shiftl_mul_pow2 by zl; destruct bb; zl|].
        eexists _, _, _, _, _, _, _, c. split; [reflexivity|]. split; [exact N|]. split; [exact Logic.I|]. zl.
      + destruct SH as (bb & b2 & s & Ea). rewrite Ea, E2, E3, E4.
        destruct (add_name (k_names K) s) as [na j] eqn:A. pose proof (add_name_bound _ _ _ _ A) as (B1 & B2).
        destruct (new_total (i_name i) (i_op i) ((if bb then 1 else 0) + 2 * (if b2 then 1 else 0) + Z.shiftl j 2) (Some lo) O L HA) as (c & N);
          [rewrite Z.shiftl_mul_pow2 by zl; destruct bb, b2; zl|].
        eexists _, _, _, _, _, _, _, c. split; [reflexivity|]. split; [exact N|]. split; [exact Logic.I|]. zl.
      + destruct SH as (s & Ea). rewrite Ea, E2, E3, E4.
        destruct (add_name (k_names K) s) as [na j] eqn:A. pose proof (add_name_bound _ _ _ _ A) as (B1 & B2).
        destruct (new_total (i_name i) (i_op i) j (Some lo) O L HA ltac:(zl)) as (c & N).
        eexists _, _, _, _, _, _, _, c. split; [reflexivity|]. split; [exact N|]. split; [exact Logic.I|]. zl.
    - (* free *)
      pose proof (mem_false _ _ E2) as E2'.
      assert (SH : (exists s, i_arg i = OCell s) \/ exists s, i_arg i = OFree s).
      { apply mem_false in E2, E3, E4, E6. pose proof (mem_true _ _ E5) as E5'.
        inversion D; subst; try congruence; try tauto; eauto;
        try match goal with H : S_Args.jumps _ _ |- _ => destruct H; tauto end;
        try match goal with H : simple_name _ _ _ |- _ => destruct H as ([?|?] & _); tauto end;
        try (unfold is_intrinsic in E7; apply orb_false_iff in E7; destruct E7; congruence).
        match goal with H : plain _ _ _ |- _ => destruct H as (_ & H & _); tauto end. }
      destruct SH as [(s & Ea)|(s & Ea)]; rewrite Ea, E2, E3, E4, E5.
      + destruct (str_index_total s _ (HC s E2' Ea)) as (j & SI & LJ). rewrite SI.
        destruct (new_total (i_name i) (i_op i) (Z.of_nat j) (Some lo) O L HA ltac:(unfold zlen in *; zl)) as (c & N).
        eexists _, _, _, _, _, _, _, c. split; [reflexivity|]. split; [exact N|]. split; [exact Logic.I|]. zl.
      + destruct (str_index_total s _ (HF s E2' Ea)) as (j & SI & LJ). rewrite SI.
        destruct (new_total (i_name i) (i_op i) (Z.of_nat j) (Some lo) O L HA ltac:(unfold zlen in *; zl)) as (c & N).
        eexists _, _, _, _, _, _, _, c. split; [reflexivity|]. split; [exact N|]. split; [exact Logic.I|]. zl.
    - (* compare *)
      assert (SH : exists z, i_arg i = OCompare z).
      { apply mem_false in E2, E3, E4, E5. pose proof (mem_true _ _ E6) as E6'.
        inversion D; subst; try congruence; try tauto; eauto;
        try match goal with H : S_Args.jumps _ _ |- _ => destruct H; tauto end;
        try match goal with H : simple_name _ _ _ |- _ => destruct H as ([?|?] & _); tauto end;
        try (unfold is_intrinsic in E7; apply orb_false_iff in E7; destruct E7; congruence).
        match goal with H : plain _ _ _ |- _ => destruct H as (_ & _ & _ & _ & _ & H & _); tauto end. }
      destruct SH as (z & Ea). rewrite Ea in RM. rewrite Ea, E2, E3, E4, E5, E6.
      destruct (new_total (i_name i) (i_op i) _ (Some lo) O L HA (encode_compare_range z RM)) as (c & N).
      eexists _, _, _, _, _, _, _, c. split; [reflexivity|]. split; [exact N|]. split; [exact Logic.I|]. zl.
    - (* intrinsic *)
      assert (C : category v T (i_op i)) by (eapply category_of; eauto).
      assert (SH : exists z, (i_arg i = OIntr1 z \/ i_arg i = OIntr2 z) /\ 0 <= z <= 11).
      { destruct (doc_intr v T _ _ D C E7) as [(z & Ea & _)|(z & Ea & _)]; rewrite Ea in RM; cbn in RM; exists z; (split; [auto|zl]). }
      destruct SH as (z & Ea & R).
      destruct (new_total (i_name i) (i_op i) z (Some lo) O L HA ltac:(zl)) as (c & N).
      destruct Ea as [Ea|Ea]; rewrite Ea, E2, E3, E4, E5, E6, E7;
      (eexists _, _, _, _, _, _, _, c; split; [reflexivity|]; split; [exact N|]; split; [exact Logic.I|]; zl).
    - (* plain *)
      assert (SH : (i_arg i = OUnset /\ opcode_has_argument v T (i_op i) = false)
                   \/ exists z, as_int (i_arg i) = Some z /\ 0 <= z <= 2147483647 /\ opcode_has_argument v T (i_op i) = true).
      { apply mem_false in E2, E3, E4, E5, E6.
        inversion D; subst; try congruence; try tauto; eauto;
        try match goal with H : S_Args.jumps _ _ |- _ => destruct H; tauto end;
        try match goal with H : simple_name _ _ _ |- _ => destruct H as ([?|?] & _); tauto end;
        try (unfold is_intrinsic in E7; apply orb_false_iff in E7; destruct E7; congruence). }
      destruct SH as [(Ea & HA)|(z & Ea & R & HA)].
      + rewrite Ea, E2, E3, E4, E5, E6, E7. cbn [is_unset].
        destruct (new_total_unset (i_name i) (i_op i) (Some lo) O L HA) as (c & N).
        { intros Z0. apply NC. apply (wf_op0 v T wf). now rewrite <- Z0. }
        eexists _, _, _, _, _, _, _, c. split; [reflexivity|]. split; [exact N|]. split; [exact Logic.I|]. zl.
      + destruct (new_total (i_name i) (i_op i) z (Some lo) O L HA ltac:(zl)) as (c & N).
        exists (k_consts K), (k_names K), (k_varnames K), None, (i_name i), (OInt z), VNone, c.
        split; [|split; [exact N|split; [exact Logic.I|zl]]].
        destruct (i_arg i) eqn:Ea'; try discriminate Ea; try (exfalso; eapply NL; eauto; fail); rewrite E2, E3, E4, E5, E6, E7; cbn [is_unset]; cbn in Ea |- *; injection Ea as <-; reflexivity.
  Qed.

  Lemma prescan_total items : forall names seen opened op, paired op opened items = true ->
    seen = match op with Some _ => true | None => false end ->
    (forall i, In (BI i) items -> is_dual v T (i_op i) = true -> exists x y, i_arg i = OTuple [OStr x; OStr y]) ->
    exists r, foldM (prescan_item v T) items (names, seen) = Ok r
      /\ zlen (fst r) <= zlen names + 2 * zlen (filter an_instr items).
  Proof.
    clear wf. induction items as [|it items IH]; intros names seen opened op P E HP; cbn [foldM].
    - exists (names, seen). split; [reflexivity|]. cbn. lia.
    - assert (HP' : forall i, In (BI i) items -> is_dual v T (i_op i) = true -> exists x y, i_arg i = OTuple [OStr x; OStr y])
        by (intros i J; apply HP; now right).
      destruct it as [i|l|z|id t la d|id]; cbn [paired] in P; cbn [prescan_item iter_check bind filter an_instr].
      + rewrite zlen_cons. destruct (is_dual v T (i_op i)) eqn:D.
        * destruct (HP i (or_introl eq_refl) D) as (x & y & ->). cbn [foldM bind].
          destruct (add_name names x) as [n1 j1] eqn:A1. destruct (add_name (fst (n1, j1)) y) as [n2 j2] eqn:A2. cbn [fst] in *.
          apply add_name_bound in A1, A2. rewrite ?A1, ?A2. cbn [bind fst].
          destruct (IH n2 seen opened op P E HP') as (r & F & B). exists r. split; [exact F|]. lia.
        * destruct (IH names seen opened op P E HP') as (r & F & B). exists r. split; [exact F|]. lia.
      + eapply IH; eauto.
      + eapply IH; eauto.
      + apply andb_prop in P. destruct P as [P P3]. apply andb_prop in P. destruct P as [P1 P2]. destruct op; [discriminate|]. subst seen.
        cbn [bind]. eapply (IH names true _ (Some id)); eauto.
      + apply andb_prop in P. destruct P as [P1 P2]. destruct op as [id'|]; [|discriminate].
        eapply (IH names false _ None); eauto.
  Qed.

  Record ready (op : option nat) (K : conv) : Prop := {
    rd_manual : k_manual K = false;
    rd_req : 0 <= k_req K;
    rd_last : k_req K <> 0 -> PY311 v = true /\ k_instrs K <> [];
    rd_try : k_try K = match op with Some _ => true | None => false end;
    rd_ex : forall id, op = Some id -> exists e, dget Nat.eqb (k_ex K) id = Some e }.

  Lemma flush_total op K it : ready op K -> is_cache it = false ->
    exists K', flush_caches v T K it = Ok K' /\ ready op K' /\ k_req K' = 0
      /\ k_consts K' = k_consts K /\ k_names K' = k_names K /\ k_varnames K' = k_varnames K.
  Proof.
    intros [R1 R2 R3 R4 R5] C. destruct K as [ins jumps labels ex req manual co na va lo ce fr tr].
    cbn [k_manual k_req k_instrs k_try k_ex] in *. unfold flush_caches. rewrite C.
    destruct (Z.eqb_spec req 0) as [->|N].
    - eexists. split; [reflexivity|]. split; [constructor; cbn; auto; lia|]. cbn. auto.
    - rewrite R1. destruct (R3 N) as [P NE].
      destruct (nth_error ins (pred (length ins))) as [c|] eqn:Ec.
      2:{ exfalso. apply nth_error_None in Ec. destruct ins; [congruence|cbn in Ec; lia]. }
      cbn [of_option bind]. destruct (wf_cache_op0 v T wf P) as (O & A & L & _).
      assert (X : exists x, new_cinstr v T "CACHE" (OInt 0) (c_loc c) None = Ok x).
      { unfold new_cinstr, resolve_name. rewrite O. destruct (Z.leb_spec (t_min_instrumented T) 0); [lia|]. cbn [bind].
        unfold c_check_arg. rewrite A. cbn. eauto. }
      destruct X as (x & X). rewrite X. cbn [bind]. eexists. split; [reflexivity|]. split; [constructor; cbn; auto; lia|]. cbn. auto.
  Qed.

  Lemma dget_dset_same {V} (d : list (nat * V)) k x : dget Nat.eqb (dset Nat.eqb d k x) k = Some x.
  Proof. rewrite dget_dset, Nat.eqb_refl. reflexivity. Qed.

  Definition item_ok (it : bitem) : Prop :=
    match it with
    | BI i => legal_instr v T i /\ i_name i <> "CACHE" /\ real_member v (i_arg i) /\ arg_fits T (BI i)
      /\ (forall n, ~ In (i_op i) (t_hasconst T) -> i_arg i = OCell n -> In n (m_cellvars m))
      /\ (forall n, ~ In (i_op i) (t_hasconst T) -> i_arg i = OFree n -> In n (m_freevars m))
      /\ (is_dual v T (i_op i) = true -> exists x y, i_arg i = OTuple [OStr x; OStr y])
    | BTB _ _ _ d => exists z, d = Some z
    | _ => True
    end.

  Lemma conv_fold_total items : forall op opened K, paired op opened items = true -> ready op K ->
    (forall it, In it items -> item_ok it) ->
    (let n := zlen (filter an_instr items) in
     zlen (k_consts K) + n <= 500000000 /\ zlen (k_names K) + n <= 500000000
     /\ zlen (k_varnames K) + 2 * n + zlen (m_cellvars m) + zlen (m_freevars m) <= 2100000000) ->
    exists K' op', foldM (conv_item v T keq m) items K = Ok K' /\ ready op' K'
      /\ zlen (k_varnames K') <= zlen (k_varnames K) + 2 * zlen (filter an_instr items).
  Proof.
    induction items as [|it items IH]; intros op opened K P R HI SZ; cbn [foldM].
    - exists K, op. split; [reflexivity|]. split; [exact R|]. cbn. zl.
    - assert (HI' : forall x, In x items -> item_ok x) by (intros x J; apply HI; now right).
      pose proof (HI it (or_introl eq_refl)) as HO.
      unfold conv_item at 1.
      assert (IC : exists tr op', iter_check (k_try K) it = Ok tr /\ tr = match op' with Some _ => true | None => false end
         /\ op' = match it with BTB id _ _ _ => Some id | BTE _ => None | _ => op end
         /\ (match it with BTB id _ _ _ => op = None /\ paired (Some id) (id :: opened) items = true
             | BTE id => op = Some id /\ paired None opened items = true
             | _ => paired op opened items = true end)).
      { pose proof (rd_try _ _ R) as TR. destruct it as [i|l|z|id t la d|id]; cbn [paired iter_check] in *; rewrite ?TR.
        1-3: (exists (k_try K), op; rewrite TR; auto).
        - apply andb_prop in P. destruct P as [P P3]. apply andb_prop in P. destruct P as [P1 P2]. destruct op; [discriminate|].
          exists true, (Some id). auto.
        - apply andb_prop in P. destruct P as [P1 P2]. destruct op as [id'|]; [|discriminate]. apply Nat.eqb_eq in P1. subst id'.
          exists false, None. auto. }
      destruct IC as (tr & op' & IC & TR & OP & P'). rewrite IC. cbn [bind].
      destruct K as [ins jumps labels ex req manual co na va lo ce fr tr0].
      assert (NC : is_cache (Some it) = false).
      { destruct it; try reflexivity. destruct HO as (_ & NC & _). cbn. now apply String.eqb_neq. }
      assert (R0 : ready op (mkK ins jumps labels ex req manual co na va lo ce fr tr0)) by exact R.
      destruct (flush_total op _ (Some it) R0 NC) as (K1 & F1 & R1 & Q1 & T1 & T2 & T3).
      set (K1' := with_try K1 tr).
      assert (F1' : flush_caches v T (mkK ins jumps labels ex req manual co na va lo ce fr tr) (Some it) = Ok K1').
      { clear - F1 NC. unfold flush_caches in *. rewrite NC in *. destruct (req =? 0).
        - injection F1 as <-. reflexivity.
        - destruct manual; [discriminate|]. destruct (of_option IndexError _) as [c|]; [|discriminate]. cbn [bind] in *.
          destruct (new_cinstr _ _ _ _ _ _) as [x|]; [|discriminate]. cbn [bind] in *. injection F1 as <-. reflexivity. }
      rewrite F1'. cbn [bind]. cbn [k_consts k_names k_varnames] in SZ, T1, T2, T3.
      assert (STEP : exists K2, conv_body v T keq m K1' it = Ok K2 /\ ready op' K2
        /\ let k := if an_instr it then 1 else 0 in
           zlen (k_consts K2) <= zlen co + k /\ zlen (k_names K2) <= zlen na + k /\ zlen (k_varnames K2) <= zlen va + 2 * k).
      { subst K1'. destruct K1 as [ins1 jumps1 labels1 ex1 req1 manual1 co1 na1 va1 lo1 ce1 fr1 tr1]. cbn [with_try].
        cbn [k_consts k_names k_varnames k_req] in *. subst co1 na1 va1 req1.
        destruct R1 as [A1 A2 A3 A4 A5]. cbn [k_manual k_req k_instrs k_try k_ex] in *.
        destruct it as [i|l|z|id t la d|id]; cbn [an_instr filter] in *; cbv zeta.
        - rewrite zlen_cons in SZ. pose proof (zlen_nonneg (filter an_instr items)) as ZF.
          destruct HO as (H1 & H2 & H3 & H4 & H5 & H6 & H7).
          set (lo2 := match i_loc i with Some l => l | None => lo1 end).
          destruct (encode_total (mkK ins1 jumps1 labels1 ex1 0 manual1 co na va lo1 ce1 fr1 tr) i lo2 H1 H2 H3 H4 H5 H6 H7)
            as (co2 & na2 & va2 & first & name & arg & kind & c & E & N & FI & B1 & B2 & B3).
          { unfold small. cbn [k_consts k_names k_varnames]. zl. }
          cbn [k_consts k_names k_varnames] in B1, B2, B3.
          unfold conv_body. rewrite E. cbn [bind]. fold lo2.
          assert (CN : 0 <= use_cache_opcodes v T c).
          { pose proof (new_made _ _ _ _ _ _ N) as [V _]. unfold use_cache_opcodes. apply (cache_nonneg v T wf); apply V. }
          assert (RR : forall x y, ready op' (mkK (x ++ [c]) y labels1 ex1 (if PY311 v then use_cache_opcodes v T c else 0) (if PY311 v then false else manual1) co2 na2 va2 lo2
             (match kind with VCell => ce1 ++ [length ins1] | _ => ce1 end) (match kind with VFree => fr1 ++ [length ins1] | _ => fr1 end) tr)).
          { intros x y. subst op'. constructor; cbn [k_manual k_req k_instrs k_try k_ex].
            - destruct (PY311 v); auto.
            - destruct (PY311 v); zl.
            - destruct (PY311 v); [|congruence]. intros _. split; [reflexivity|]. destruct x; discriminate.
            - exact TR.
            - exact A5. }
          destruct first as [[n1 j1]|].
          + destruct FI as (c1 & N1). rewrite N1. cbn [bind]. rewrite N. cbn [bind]. eexists. split; [reflexivity|].
            split; [apply RR|]. cbn [k_consts k_names k_varnames]. zl.
          + cbn [bind]. rewrite N. cbn [bind]. eexists. split; [reflexivity|].
            split; [apply RR|]. cbn [k_consts k_names k_varnames]. zl.
        - eexists. split; [reflexivity|]. split; [subst op'; constructor; cbn; auto|cbn; zl].
        - eexists. split; [reflexivity|]. split; [subst op'; constructor; cbn; auto|cbn; zl].
        - destruct HO as (z & ->). cbn [conv_body of_option bind]. eexists. split; [reflexivity|]. split; [|cbn; zl].
          subst op'. constructor; cbn [k_manual k_req k_instrs k_try k_ex]; auto. intros id0 H. injection H as <-. rewrite dget_dset_same. eauto.
        - destruct P' as [P' _]. destruct (A5 id P') as (e & G). cbn [conv_body]. rewrite G. cbn [of_option bind]. eexists. split; [reflexivity|]. split; [|cbn; zl].
          subst op'. constructor; cbn [k_manual k_req k_instrs k_try k_ex]; auto. intros id0 H. discriminate. }
      destruct STEP as (K2 & B & R2 & SZ2). rewrite B. cbn [bind].
      assert (PN : exists op2, paired op' op2 items = true) by (subst op'; destruct it; [exists opened|exists opened|exists opened|exists (id :: opened)|exists opened]; tauto).
      destruct PN as (opened2 & PN).
      cbn [filter] in SZ |- *. cbv zeta in SZ, SZ2.
      destruct (IH op' opened2 K2 PN R2 HI') as (K' & op3 & F & R' & ZV).
      { cbv zeta. destruct (an_instr it); rewrite ?zlen_cons in SZ; zl. }
      exists K', op3. split; [exact F|]. split; [exact R'|]. cbn [k_varnames]. destruct (an_instr it); rewrite ?zlen_cons; zl.
  Qed.
End S.
