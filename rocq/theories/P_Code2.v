(** The code object made of a Bytecode runs its program. *)
From Verif Require Import PyBase OpTable CPy P_Base P_OpTable M_Instr M_Tables M_Concrete M_Convert S_Args S_Lines S_Prog S_Slots S_Asm S_Dis S_Ident S_Code
  P_Asm P_Instr P_Instr2 P_Except P_LinesCode P_Conv P_Conv2 P_Cat P_Decode P_Args P_Args2 P_CfgSeq P_Dis P_Dis2 P_Dis3 P_Try P_Jumps P_Jumps2 P_Layout P_Layout2 P_AsmProps P_Ident P_Ident2 P_Ident3 P_Code.
Open Scope string_scope.
Open Scope list_scope.
Open Scope Z_scope.

(** Bytes per unit of offset *)
Definition ub (v : pyver) : Z := if PY310 v then 2 else 1.
Lemma ub_units v s : s mod 2 = 0 -> ub v * in_units v s = s.
Proof. intros H. unfold ub. destruct (PY310 v) eqn:P; destruct v; vm_compute in P; try discriminate P; unfold in_units; clear P; zdm. Qed.

Lemma Forall2_at {A B} (R : A -> B -> Prop) l l' p x y : Forall2 R l l' -> nth_error l p = Some x -> nth_error l' p = Some y -> R x y.
Proof. intros F. revert p. induction F; intros [|p] X Y; try discriminate; cbn in *; [congruence|eauto]. Qed.

Lemma Forall2_len {A B} (R : A -> B -> Prop) l l' : Forall2 R l l' -> length l = length l'.
Proof. induction 1; cbn; congruence. Qed.

Lemma tb_rank items p id t la d n : NoDup (tb_ids items) -> nth_error items p = Some (BTB id t la d) -> nth_error (tb_ids items) n = Some id ->
  n = length (tb_ids (firstn p items)).
Proof.
  intros ND Hp Hn. assert (E : nth_error (tb_ids items) (length (tb_ids (firstn p items))) = Some id).
  { rewrite (nth_split' _ _ _ Hp) at 1. unfold tb_ids. rewrite flat_map_app, nth_error_app2, Nat.sub_diag by lia. reflexivity. }
  apply (proj1 (NoDup_nth_error _) ND); [eapply nth_some_lt; eauto|congruence].
Qed.
Lemma tb_len_mono items a b : (a <= b)%nat -> (length (tb_ids (firstn a items)) <= length (tb_ids (firstn b items)))%nat.
Proof.
  revert a b. induction items as [|x l IH]; intros a b L; [now rewrite !firstn_nil|].
  destruct a as [|a]; [cbn; lia|]. destruct b as [|b]; [lia|]. cbn [firstn tb_ids flat_map]. rewrite !app_length.
  specialize (IH a b ltac:(lia)). unfold tb_ids in IH. lia.
Qed.

Lemma offset_code v T (wf : wf_optable v T = true) cs : Forall (made v T) cs -> forall k, ub v * offset_of v cs k = zlen (code T (firstn k cs)).
Proof.
  intros F k. unfold offset_of. revert F. generalize cs. induction k as [|k IH]; intros l F; [cbn; unfold ub; destruct (PY310 v); reflexivity|].
  destruct l as [|c l]; [cbn; unfold ub; destruct (PY310 v); reflexivity|]. inversion_clear F as [|? ? M F'].
  cbn [firstn map fold_right]. rewrite Z.mul_add_distr_l, (IH l F').
  change (code T (c :: firstn k l)) with (assemble T c ++ code T (firstn k l)). rewrite zlen_app.
  destruct M as [V X]. rewrite (proj1 (assemble_size_auto v T wf c V X)). rewrite ub_units; [reflexivity|]. rewrite <- (proj1 (assemble_size_auto v T wf c V X)). apply assemble_even.
Qed.

Lemma code_is T cs : code_of T (map CI cs) = code T cs.
Proof. unfold code_of, code. induction cs as [|c cs IH]; [reflexivity|]. cbn. now rewrite IH. Qed.

(** [reads] only depends on the tables *)
Lemma reads_tables v T cb cb' op a x :
  cb_consts cb' = cb_consts cb -> cb_names cb' = cb_names cb -> cb_varnames cb' = cb_varnames cb ->
  m_cellvars (cb_meta cb') = m_cellvars (cb_meta cb) -> m_freevars (cb_meta cb') = m_freevars (cb_meta cb) ->
  reads v T cb op a x -> reads v T cb' op a x.
Proof.
  intros E1 E2 E3 E4 E5 R.
  assert (FS : forall a x, frame_slot cb a x -> frame_slot cb' a x).
  { intros a' x' F. destruct F; rewrite <- ?E3, <- ?E4, <- ?E5 in *.
    - now apply fs_local.
    - now apply fs_shared.
    - now apply fs_cell.
    - now apply fs_free. }
  assert (LS : forall a x, local_slot v cb a x -> local_slot v cb' a x).
  { intros a' x' [F Q]. split; [now apply FS|exact Q]. }
  assert (DS : forall a x, deref_slot v cb a x -> deref_slot v cb' a x).
  { intros a' x' [Q F]. split; [exact Q|]. destruct (PY311 v); [now apply FS|]. destruct F; rewrite <- ?E3, <- ?E4, <- ?E5 in *.
    - now apply od_cell.
    - now apply od_free. }
  destruct R; rewrite <- ?E1, <- ?E2 in *.
  - now apply rd_none.
  - now apply rd_int.
  - now apply rd_const.
  - apply rd_local; auto.
  - apply rd_pair; auto.
  - now apply rd_name.
  - now apply rd_flag.
  - now apply rd_flag2.
  - apply rd_deref; auto.
  - now apply rd_compare.
  - now apply rd_intr1.
  - now apply rd_intr2.
Qed.

(** ** Locations *)
Lemma positions_at (f : cinstr -> CPy.position) T pre c post off :
  zlen (code T pre) <= off < zlen (code T pre) + zlen (assemble T c) ->
  nth_error (flat_map (fun c => repeat (f c) (Z.to_nat (zlen (assemble T c) / 2))) (pre ++ c :: post)) (Z.to_nat (off / 2)) = Some (f c).
Proof.
  intros L. rewrite flat_map_app. cbn [flat_map].
  assert (E : Z.of_nat (length (flat_map (fun c => repeat (f c) (Z.to_nat (zlen (assemble T c) / 2))) pre)) = zlen (code T pre) / 2 /\ zlen (code T pre) mod 2 = 0).
  { clear. induction pre as [|x pre [IH1 IH2]]; [split; reflexivity|]. cbn [flat_map].
    change (code T (x :: pre)) with (assemble T x ++ code T pre). rewrite app_length, Nat2Z.inj_add, IH1, repeat_length, zlen_app.
    pose proof (assemble_even T x). pose proof (zlen_nonneg (code T pre)). rewrite Z2Nat.id by zdm. split; zdm. }
  destruct E as [E1 E2]. pose proof (assemble_even T c). pose proof (zlen_nonneg (code T pre)).
  rewrite nth_error_app2 by zdm. rewrite nth_error_app1 by (rewrite repeat_length; zdm).
  apply nth_error_repeat. zdm.
Qed.

Section Reports.
  Variables (v : pyver) (T : optable).
  Hypothesis wf : wf_optable v T = true.
  Variables (cb : cbytecode) (co : codeobj) (st : Z) (cs : list cinstr).
  Hypothesis CB : cb_items cb = map CI cs.
  Hypothesis TO : to_code_raw v T cb st = Ok co.
  Hypothesis SIZED : Forall (sized T) (map CI cs).
  Hypothesis LOC : forall c, In c cs -> exists l, c_loc c = Some l /\ coherent_loc v l /\ (v = V310 -> l_lineno l <> None).

  Lemma is_sized : Forall (sized T) (cb_items cb).
  Proof. now rewrite CB. Qed.

  Lemma entries_ok : PY311 v = true -> exists bs, assemble_exception_table (cb_ex cb) = Ok bs /\ co_exceptiontable co = bs.
  Proof.
    intros P. unfold to_code_raw in TO. destruct (assemble_code v T cb) as [cs' ln]. apply bind_ok in TO. destruct TO as (lt & _ & H).
    apply bind_ok in H. destruct H as (ex & E & H). rewrite P in E. exists ex. split; [exact E|]. injection H as <-. reflexivity.
  Qed.

  Lemma fields : co_code co = code T cs /\ co_consts co = cb_consts cb /\ co_names co = cb_names cb /\ co_varnames co = cb_varnames cb
    /\ co_cellvars co = m_cellvars (cb_meta cb) /\ co_freevars co = m_freevars (cb_meta cb).
  Proof.
    assert (E : fst (assemble_code v T cb) = code T cs).
    { rewrite raw_code by exact is_sized. cbn. rewrite CB. apply code_is. }
    unfold to_code_raw in TO. destruct (assemble_code v T cb) as [cs' ln]. cbn in E. apply bind_ok in TO. destruct TO as (lt & _ & H).
    apply bind_ok in H. destruct H as (ex & _ & H). injection H as <-. cbn. rewrite E. auto 10.
  Qed.

  Lemma reports_at pre c post l off : cs = pre ++ c :: post -> c_loc c = Some l ->
    zlen (code T pre) <= off < zlen (code T pre) + zlen (assemble T c) -> reports v co off l.
  Proof.
    intros E L O. pose proof is_sized as SZ.
    assert (EI : cb_items cb = map CI pre ++ CI c :: map CI post) by now rewrite CB, E, map_app.
    unfold reports. destruct (PY311 v) eqn:P11.
    - destruct (entries_ok P11) as (bs & EB & _).
      assert (X : Forall entry_ok (cb_ex cb)) by (apply assemble_table_total; eauto).
      destruct (location_code v T cb st P11 SZ) as (co' & E' & _ & FL & PO); [|exact X|].
      { rewrite CB, Forall_map, Forall_forall. intros d I. cbn. intros l' L'. destruct (LOC d I) as (l2 & L2 & C2 & _). assert (l2 = l') by congruence. subst l2.
        split; [exact C2|]. intros S. apply in_split in I. destruct I as (p1 & p2 & E2).
        eapply (locations_code_bad v T cb st co (map CI p1) d (map CI p2) l'); eauto. now rewrite CB, E2, map_app. }
      assert (co' = co) by congruence. subst co'. rewrite PO.
      assert (Q : flat_map (fun p => repeat (recorded (snd p)) (Z.to_nat (zlen (assemble T (fst p)) / 2))) (filled None (m_first_lineno (cb_meta cb)) (cb_items cb))
        = flat_map (fun c => repeat (match c_loc c with Some l => recorded l | None => (None, None, None, None) end) (Z.to_nat (zlen (assemble T c) / 2))) cs).
      { rewrite CB. clear - LOC. generalize (m_first_lineno (cb_meta cb)), (@None loc). revert LOC.
        induction cs as [|d ds IH]; intros LOC z o; [reflexivity|]. cbn [map filled flat_map fst snd].
        destruct (LOC d (or_introl eq_refl)) as (l & E & _). rewrite E. cbn [flat_map fst snd]. f_equal. apply IH. intros c I. apply LOC. now right. }
      rewrite Q, E. rewrite (positions_at (fun c => match c_loc c with Some l => recorded l | None => (None, None, None, None) end)) by exact O.
      now rewrite L.
    - destruct (PY310 v) eqn:P10.
      + assert (v = V310) by (destruct v; vm_compute in *; congruence). subst v.
        assert (N : Forall (fun it => ~ no_line it) (cb_items cb)).
        { rewrite CB, Forall_map, Forall_forall. intros d I. cbn. destruct (LOC d I) as (l' & E' & _ & X). rewrite E'. auto. }
        destruct (linetable_code T cb st SZ (no_line_free _ _ _ N)) as (co' & E' & _ & _ & R).
        assert (co' = co) by congruence. subst co'. rewrite (R _ c _ off EI) by (rewrite code_is; exact O).
        unfold line_shown. now rewrite L.
      + intros z Ez. destruct (lnotab_code v T cb st P10 SZ) as (co' & E' & _ & _ & R). assert (co' = co) by congruence. subst co'.
        rewrite (R _ c _ off EI) by (rewrite code_is; exact O). rewrite current_line_app. cbn. now rewrite L, Ez.
  Qed.
End Reports.

(** The depth of the open try block. *)
Fixpoint dst (cur : option (option Z)) (l : list bitem) : option (option Z) :=
  match l with
  | [] => cur
  | BTB _ _ _ d :: r => dst (Some d) r
  | BTE _ :: r => dst None r
  | _ :: r => dst cur r
  end.
Lemma dst_app a b : forall c, dst c (a ++ b) = dst (dst c a) b.
Proof. induction a as [|x a IH]; intros c; [reflexivity|]. destruct x; cbn; apply IH. Qed.
Lemma depth_at l : forall c p i, nth_error l p = Some (BI i) ->
  nth_error (try_depths c l) (ninstrs (firstn p l)) = Some (dst c (firstn p l)) /\ True.
Proof.
  induction l as [|x l IH]; intros c p i H; [destruct p; discriminate|]. split; [|exact Logic.I].
  destruct p as [|p]; cbn in H. { injection H as ->. reflexivity. }
  cbn [firstn]. rewrite ninstrs_cons. destruct x; cbn [try_depths dst ninstrs filter is_instr length Nat.add nth_error]; eapply IH; eauto.
Qed.
Lemma dst_none f l : forall c o, (c = None <-> o = None) -> og f o l = None -> dst c l = None.
Proof.
  induction l as [|x l IH]; intros c o E; cbn; [tauto|]. destruct x; cbn; eauto; apply IH; split; auto; discriminate.
Qed.
Lemma dst_unmarked l : (forall x, In x l -> marker x = false) -> forall c, dst c l = c.
Proof.
  induction l as [|x l IH]; intros H c; [reflexivity|]. pose proof (H x (or_introl eq_refl)) as M.
  destruct x; try discriminate M; cbn; apply IH; intros y J; apply H; now right.
Qed.
Lemma dst_block items p1 q1 id t la d p : block items p1 q1 id t la d -> (p1 < p < q1)%nat -> dst None (firstn p items) = Some d.
Proof.
  intros (B1 & B2 & B3 & B4 & _) PQ. assert (L : (q1 < length items)%nat) by (eapply nth_some_lt; eauto).
  rewrite (nth_split' _ _ _ B2), firstn_app. assert (L1 : length (firstn p1 items) = p1) by (rewrite firstn_length; lia).
  rewrite L1, firstn_all2 by lia. replace (p - p1)%nat with (S (p - p1 - 1)) by lia. cbn [firstn]. rewrite dst_app. cbn [dst].
  apply dst_unmarked. intros x J. apply In_nth_error in J. destruct J as [r J].
  assert (LR : (r < p - p1 - 1)%nat). { pose proof (nth_some_lt _ _ _ J) as X. rewrite firstn_length in X. lia. }
  apply (B4 (S p1 + r)%nat); [lia|].
  assert (X : nth_error (firstn (p - p1 - 1) (skipn (S p1) items) ++ skipn (p - p1 - 1) (skipn (S p1) items)) r = Some x).
  { rewrite nth_error_app1; [exact J|]. eapply nth_some_lt; eauto. }
  rewrite firstn_skipn in X. rewrite <- X. rewrite <- (firstn_skipn (S p1) items) at 1. rewrite nth_error_app2; rewrite firstn_length; [|lia].
  f_equal. lia.
Qed.

Section S.
  Variables (v : pyver) (T : optable) (keq : pyobj -> pyobj -> bool).
  Hypothesis wf : wf_optable v T = true.
  Variables (b : bytecode) (cb : cbytecode) (vn : list string) (K0 : conv) (gs0 : list (list cinstr)) (Kf : conv)
    (gs : list (list cinstr)) (en : list exentry).
  Hypothesis A : assembled v T keq b cb vn K0 gs0 Kf gs en.
  Notation items := (b_items b).
  Notation cs := (concat gs).
  Notation ib := (start gs).
  Notation first := (line_loc (Some (m_first_lineno (b_meta b)))).
  Hypothesis HL : forall i, In (BI i) items -> legal_instr v T i.
  Hypothesis HM : forall i, In (BI i) items -> real_member v (i_arg i).
  Hypothesis HK : forall x y, keq x y = true -> x = y.
  Hypothesis NC : no_cache items.
  Hypothesis TBL : try_blocks items.
  Hypothesis HP : forall i n, In (BI i) items -> is_dual v T (i_op i) = true -> In n (locals_of (i_arg i)) -> In n (firstn 16 (cb_varnames cb)).
  Variables (co : codeobj) (st : Z).
  Hypothesis TO : to_code_raw v T cb st = Ok co.
  Hypothesis LOC : forall n a l h, In (n, a, l, h) (located first (program items)) -> coherent_loc v l /\ (v = V310 -> l_lineno l <> None).

  Lemma head' p i : nth_error items p = Some (BI i) -> exists c rest, nth_error gs p = Some (c :: rest) /\ c_name c = i_name i /\ c_op c = i_op i
    /\ ((forall l, i_arg i <> OLabel l) -> reads v T cb (c_op c) (c_arg c) (i_arg i)).
  Proof.
    intros Hp. pose proof (nth_error_In _ _ Hp) as I. pose proof (HL i I) as HLi. pose proof HLi as (L1 & L2 & L3 & L4).
    assert (JD : (exists l, i_arg i = OLabel l) \/ forall l, i_arg i <> OLabel l).
    { destruct (i_arg i); try (right; intros; discriminate). left. eauto. }
    destruct JD as [(l & El)|NL].
    - destruct (labels_resolve v T keq wf _ _ _ _ _ _ _ _ p i l A HL Hp El) as (q & c & rest & _ & G & N & O & _).
      exists c, rest. repeat (split; [assumption|]). intros X. exfalso. now apply (X l).
    - destruct (is_dual v T (i_op i)) eqn:D.
      + destruct (pairs_read v T keq wf _ _ _ _ _ _ _ _ _ _ A Hp HLi D) as (x & y & Ea & X).
        assert (X1 : In x (firstn 16 (cb_varnames cb))) by (apply (HP i x I D); rewrite Ea; cbn; auto).
        assert (X2 : In y (firstn 16 (cb_varnames cb))) by (apply (HP i y I D); rewrite Ea; cbn; auto).
        assert (UP : forall z, In z (firstn 16 (cb_varnames cb)) -> In z (firstn 17 (cb_varnames cb))).
        { intros z. generalize (cb_varnames cb). clear. intros l. change 17%nat with (S 16). generalize 16%nat. intros n. revert l.
          induction n as [|n IH]; intros l; [intros []|]. destruct l as [|a l]; [intros []|]. cbn [firstn]. intros [<-|H]; [now left|right; now apply IH]. }
        destruct X as [(c & rest & G & N & O & R)|(c1 & c2 & rest & _ & [Y|Y] & _)]; [|exfalso; apply Y; now apply UP|exfalso; apply Y; now apply UP].
        exists c, rest. repeat (split; [assumption|]). intros _. rewrite O. auto.
      + destruct (args_read v T keq wf HK _ _ _ _ _ _ _ _ _ _ A Hp HLi (HM i I) NL D) as (c & rest & G & N & O & R).
        exists c, rest. repeat (split; [assumption|]). intros _. now rewrite O.
  Qed.

  Lemma all_made : Forall (made v T) cs.
  Proof. exact (as_made _ _ _ _ _ _ _ _ _ _ _ A). Qed.
  Lemma all_sized : Forall (sized T) (map CI cs).
  Proof.
    rewrite Forall_map. eapply Forall_impl; [|exact all_made]. intros c [V X]. cbn. symmetry. apply (assemble_size_auto v T wf c V X).
  Qed.
  Lemma pos_all : Forall pos cs.
  Proof. exact (POS v T keq wf _ _ _ _ _ _ _ _ A). Qed.

  Lemma groups' : Forall2 (group v T) items gs.
  Proof.
    destruct (laid v T keq wf _ _ _ _ _ _ _ _ A HL) as [LL LO].
    assert (N : forall p it g, nth_error items p = Some it -> nth_error gs p = Some g -> group v T it g).
    { intros p it g Hp Hg. pose proof (LO _ _ _ Hp Hg) as P. destruct it; cbn [produced] in P; try exact P.
      assert (X : explicit_cache (nth_error items (S p)) = false).
      { destruct (nth_error items (S p)) as [[j| | | |]|] eqn:E; try reflexivity. cbn. apply String.eqb_neq. apply NC. eapply nth_error_In; eauto. }
      rewrite X in P. destruct (head' _ _ Hp) as (c' & rest & G & N & O & _). rewrite Hg in G.
      destruct P as (before & c & -> & [(-> & _)|(c1 & -> & D & DS & _)]).
      - injection G as -> <-. exists c'. split; [reflexivity|]. split.
        { pose proof all_made as F. rewrite Forall_forall in F. apply F. apply in_concat. exists (c' :: repeat (cache_at (c_loc c')) (Z.to_nat (cache_entries v T (c_name c') (c_op c')))).
          split; [eapply nth_error_In; eauto|now left]. }
        rewrite N, O. destruct (HL i (nth_error_In _ _ Hp)) as (_ & _ & L3 & _). repeat (split; [auto|]). apply NC. eapply nth_error_In; eauto.
      - exfalso. injection G as <- _.
        destruct (single_names v T _ _ _ DS) as (P3 & S1 & _). destruct (wf_singles v T wf _ P3 S1) as (o1 & O1 & _ & _ & O4 & _).
        destruct (HL i (nth_error_In _ _ Hp)) as (L1 & _). rewrite N, L1 in O1. injection O1 as <-. congruence. }
    clear - LL N. revert N LL. generalize items gs. induction l as [|it l IH]; intros [|g gs1] N LL; try discriminate LL; constructor.
    - apply (N 0%nat); reflexivity.
    - apply IH; [|cbn in LL; congruence]. intros p it' g' Hp Hg. apply (N (S p)); assumption.
  Qed.

  Lemma cb_code : cb_items cb = map CI cs.
  Proof. apply (cb_is v T keq _ _ _ _ _ _ _ _ A). Qed.

  Lemma loc_of p i c : nth_error items p = Some (BI i) -> (exists g, nth_error gs p = Some g /\ In c g) ->
    c_loc c = Some (fold_left next_loc (firstn (S p) items) first).
  Proof. intros Hp G. exact (loc_fold v T keq wf _ _ _ _ _ _ _ _ p i c A HL Hp G). Qed.

  Lemma all_located c : In c cs -> exists l, c_loc c = Some l /\ coherent_loc v l /\ (v = V310 -> l_lineno l <> None).
  Proof.
    intros I. apply In_nth_error in I. destruct I as [k I]. destruct (concat_inv gs k c I) as (p & g & j & G & J & _).
    destruct (nth_error items p) as [it|] eqn:Hp.
    - pose proof (Forall2_at _ _ _ _ _ _ groups' Hp G) as GR. destruct it; cbn in GR; try (subst g; now destruct j).
      eexists. split; [apply (loc_of p i c Hp); exists g; split; [exact G|eapply nth_error_In; eauto]|].
      eapply LOC. eapply nth_error_In. eapply source_nth. exact Hp.
    - apply nth_error_None in Hp. apply nth_some_lt in G. rewrite <- (Forall2_len _ _ _ groups') in G. lia.
  Qed.

  Lemma instructions_are : instructions v T co = rans T 0 gs.
  Proof.
    unfold instructions. destruct (fields v T cb co st cs cb_code TO all_sized) as (E & _). rewrite E.
    eapply listing_groups; [exact wf|exact groups'].
  Qed.

  Lemma group_off p : zlen (code T (concat (firstn p gs))) = ub v * offset_of v cs (ib p).
  Proof. rewrite (offset_code v T wf cs all_made), firstn_start. reflexivity. Qed.

  Lemma begins_at q : begins v T co (ninstrs (firstn q items)) = Some (ub v * offset_of v cs (ib q)).
  Proof.
    unfold begins. rewrite instructions_are. pose proof (rans_begin v T wf _ _ groups' q 0) as R.
    destruct (nth_error _ _) as [r|].
    - rewrite R, group_off. f_equal.
    - destruct R as [R1 R2]. rewrite R1, Nat.eqb_refl. destruct (fields v T cb co st cs cb_code TO all_sized) as (E & _).
      rewrite E. f_equal. rewrite <- group_off. lia.
  Qed.

  (** the code units of an instruction *)
  Lemma unit_of p i c rest u : PY311 v = true -> nth_error items p = Some (BI i) -> nth_error gs p = Some (c :: rest) ->
    zlen (code T (concat (firstn p gs))) + c_size c - 2 <= 2 * u < zlen (code T (concat (firstn p gs))) + zlen (code T (c :: rest)) ->
    exists k, (ib p <= k < ib (S p))%nat /\ u = executed_at v cs k.
  Proof.
    intros P Hp G U. pose proof (Forall2_at _ _ _ _ _ _ groups' Hp G) as GR. cbn in GR. destruct GR as (c' & E & M & _). injection E as <- E.
    destruct (group_len v T wf c M) as [L Q]. rewrite <- E in L. rewrite L in U.
    assert (UB : ub v = 2) by (destruct v; vm_compute in *; congruence). rewrite group_off, UB in U.
    assert (SP : ib (S p) = (ib p + length (c :: rest))%nat).
    { unfold start. rewrite (firstn_S_nth _ _ _ G), concat_app, app_length. cbn. rewrite app_nil_r. reflexivity. }
    assert (EV : c_size c mod 2 = 0 /\ 2 <= c_size c). { destruct M as [V X]. rewrite <- (proj1 (assemble_size_auto v T wf c V X)). apply assemble_even. }
    set (n := cache_entries v T (c_name c) (c_op c)) in *. assert (LR : length rest = Z.to_nat n) by (rewrite E; apply repeat_length).
    set (j := u - (offset_of v cs (ib p) + c_size c / 2 - 1)).
    assert (J : 0 <= j <= n) by (subst j; zdm).
    exists (ib p + Z.to_nat j)%nat. split; [rewrite SP; cbn; lia|].
    assert (IU : forall s, in_units v s = s / 2) by (intros s; destruct v; vm_compute in P; try discriminate P; reflexivity).
    assert (N0 : nth_error cs (ib p) = Some c) by exact (nth_head gs p c rest G).
    destruct (Z.eq_dec j 0) as [J0|J0].
    - rewrite J0. cbn. rewrite Nat.add_0_r. unfold executed_at. rewrite N0, IU. subst j. zdm.
    - assert (OJ : forall m, (m <= Z.to_nat n)%nat -> offset_of v cs (ib p + S m) = offset_of v cs (ib p) + c_size c / 2 + Z.of_nat m).
      { induction m as [|m IH]; intros Lm.
        - replace (ib p + 1)%nat with (S (ib p)) by lia. rewrite (offset_of_S v cs _ _ N0), IU. lia.
        - assert (Nm : nth_error cs (ib p + S m) = Some (cache_at (c_loc c))).
          { apply (nth_group gs p _ (S m) _ G). cbn. rewrite E. apply nth_error_repeat. lia. }
          replace (ib p + S (S m))%nat with (S (ib p + S m)) by lia. rewrite (offset_of_S v cs _ _ Nm), IH, IU by lia. cbn [c_size cache_at]. change (2 / 2) with 1. lia. }
      destruct (Z.to_nat j) as [|m] eqn:Ej; [lia|]. unfold executed_at.
      assert (Nm : nth_error cs (ib p + S m) = Some (cache_at (c_loc c))).
      { apply (nth_group gs p _ (S m) _ G). cbn. rewrite E. apply nth_error_repeat. lia. }
      rewrite Nm, OJ, IU by lia. cbn [c_size cache_at]. change ((2 - 2) / 2) with 0. subst j. zdm.
  Qed.

  (** the bytes of an instruction *)
  Lemma byte_of g : forall off, 0 <= off < zlen (code T g) ->
    exists pre d post, g = pre ++ d :: post /\ zlen (code T pre) <= off < zlen (code T pre) + zlen (assemble T d).
  Proof.
    induction g as [|d g IH]; intros off L; [cbn in L; lia|]. change (code T (d :: g)) with (assemble T d ++ code T g) in L. rewrite zlen_app in L.
    destruct (Z_lt_ge_dec off (zlen (assemble T d))) as [Q|Q].
    - exists [], d, g. split; [reflexivity|]. cbn. lia.
    - destruct (IH (off - zlen (assemble T d)) ltac:(lia)) as (pre & x & post & -> & R). exists (d :: pre), x, post. split; [reflexivity|].
      change (code T (d :: pre)) with (assemble T d ++ code T pre). rewrite zlen_app. lia.
  Qed.

  Lemma block_covers p1 q1 id t la d p i k : block items p1 q1 id t la d -> nth_error items p = Some (BI i) -> (ib p <= k < ib (S p))%nat ->
    ((ib p1 <= k < ib q1)%nat <-> (p1 < p < q1)%nat).
  Proof.
    intros (B1 & B2 & B3 & _) Hp K. split.
    - intros [L1 L2]. destruct (Nat.lt_trichotomy p p1) as [X|[X|X]].
      + pose proof (start_mono gs (S p) p1 ltac:(lia)). lia.
      + subst. congruence.
      + split; [exact X|]. destruct (le_lt_dec q1 p) as [Y|Y]; [|exact Y]. pose proof (start_mono gs q1 p Y). lia.
    - intros [L1 L2]. pose proof (start_mono gs p1 p ltac:(lia)). pose proof (start_mono gs (S p) q1 ltac:(lia)). lia.
  Qed.

  (** what protects the code units of an instruction *)
  Lemma handler_at p i c rest u : PY311 v = true -> nth_error items p = Some (BI i) -> nth_error gs p = Some (c :: rest) ->
    zlen (code T (concat (firstn p gs))) + c_size c - 2 <= 2 * u < zlen (code T (concat (firstn p gs))) + zlen (code T (c :: rest)) ->
    (og (arg_of (position items)) None (firstn p items) = None /\ find_handler co u = None)
    \/ exists p1 q1 id t la d e l ql, block items p1 q1 id t la d /\ (p1 < p < q1)%nat
       /\ og (arg_of (position items)) None (firstn p items) = Some (arg_of (position items) t, la)
       /\ t = OLabel l /\ label_position l items ql /\ e_target e = offset_of v cs (ib ql) /\ d = Some (e_depth e)
       /\ find_handler co u = Some (e_target e, e_depth e, la).
  Proof.
    intros P Hp G U. destruct (unit_of p i c rest u P Hp G U) as (k & K & ->).
    destruct (entries_ok v T cb co st TO P) as (bs & EB & ECO). unfold find_handler. rewrite ECO. clear ECO.
    assert (CE : cb_ex cb = en) by apply (cb_is v T keq _ _ _ _ _ _ _ _ A). rewrite CE in EB.
    unfold assemble_exception_table in EB. apply bind_ok in EB. destruct EB as (bss & EB & E2). injection E2 as <-.
    rewrite (handler_entries en bss EB _ _ (Nat.le_refl _)).
    assert (KL : (k < length cs)%nat) by (pose proof (start_le gs (S p)); lia).
    pose proof (entries v T keq wf _ _ _ _ _ _ _ _ A TBL) as ENT. pose proof TBL as [ND BR].
    destruct (open_in items BR (arg_of (position items)) p i Hp) as [(OG & NB)|(p1 & q1 & id & t & la & d & B & PQ & OG)]; rewrite OG; [left|right].
    - split; [reflexivity|]. apply lookup_none. intros e I. apply In_nth_error in I. destruct I as [n0 I].
      destruct (ENT n0 e I) as (id & p1 & q1 & t & la & d & l & ql & E1 & B & E2 & E3 & E4 & E5 & E6 & E7 & E8 & E9).
      rewrite (E9 k KL), (block_covers _ _ _ _ _ _ _ _ _ B Hp K). eapply NB; eauto.
    - assert (IT : exists m, nth_error (tb_ids items) m = Some id).
      { apply In_nth_error. apply tb_ids_in. destruct B as (_ & B & _). eauto. }
      destruct IT as [m Em].
      destruct (try_entries v T keq wf _ _ _ _ _ _ _ _ A (blocks_proper _ TBL)) as [_ TE].
      pose proof B as (B1 & B2 & B3 & _).
      destruct (TE m id p1 q1 t la d Em B2 B3) as (e & l & ql & Ee & E2 & E3 & E4 & ED & E5 & E6 & E7 & E8 & E9).
      exists p1, q1, id, t, la, d, e, l, ql. repeat (split; [assumption || reflexivity|]).
      rewrite <- E5. apply (lookup_some _ _ m e Ee).
      + apply (E9 k KL). apply (block_covers _ _ _ _ _ _ _ _ _ B Hp K). exact PQ.
      + intros m' f Lm Ef. destruct (ENT m' f Ef) as (id2 & p3 & q3 & t3 & la3 & d3 & l3 & ql3 & G1 & B0 & G2 & G3 & G4 & G5 & G6 & G7 & G8 & G9).
        assert (R1 : m = length (tb_ids (firstn p1 items))) by (eapply tb_rank; eauto).
        assert (R2 : m' = length (tb_ids (firstn p3 items))) by (destruct B0 as (_ & B0 & _); eapply tb_rank; eauto).
        assert (P31 : (p3 < p1)%nat).
        { destruct (le_lt_dec p1 p3) as [Y|Y]; [|exact Y]. pose proof (tb_len_mono items p1 p3 Y). lia. }
        assert (Q31 : (q3 < p1)%nat).
        { destruct (blocks_apart v T wf b _ _ _ _ _ _ _ _ _ _ _ _ B0 B) as [Y|[Y|Y]]; [lia|exact Y|]. lia. }
        rewrite E7, G7, G8. unfold instrs_before in *. fold (ib p1) (ib q1) in *. pose proof (start_mono gs q3 p1 ltac:(lia)). pose proof (start_le gs q1). pose proof pos_all as PA.
        split.
        * pose proof (executed_lt v T keq wf _ _ _ _ _ _ _ _ A (ib p3) (ib p1) ltac:(lia) ltac:(lia)). lia.
        * apply (executed_lt v T keq wf _ _ _ _ _ _ _ _ A); lia.
  Qed.

  Theorem code_runs : runs v T co (located first (program items)).
  Proof.
    pose proof groups' as GS. destruct (fields v T cb co st cs cb_code TO all_sized) as (F1 & F2 & F3 & F4 & F5 & F6).
    split.
    - rewrite instructions_are, (rans_len v T _ _ GS). unfold program. rewrite <- wg_walk. symmetry. apply located_len.
    - intros k n a l h r X R. assert (L : (k < ninstrs items)%nat).
      { apply nth_some_lt in R. rewrite instructions_are, (rans_len v T _ _ GS) in R. exact R. }
      destruct (instr_at _ _ L) as (p & i & Hp & ->). rewrite (source_nth items p i first Hp) in X. injection X as <- <- <- <-.
      destruct (head' p i Hp) as (c & rest & G & N & O & RD). rewrite instructions_are, (rans_nth v T wf _ _ GS _ _ _ _ 0 Hp G) in R. injection R as <-.
      cbn [r_start r_at r_end r_op r_arg]. rewrite O. destruct (HL i (nth_error_In _ _ Hp)) as (L1 & L2 & L3 & L4).
      pose proof (Forall2_at _ _ _ _ _ _ GS Hp G) as GR. cbn in GR. destruct GR as (c' & E & M & _). injection E as <- E.
      destruct (group_len v T wf c M) as [GL Q]. rewrite <- E in GL.
      split; [exact L1|]. split; [|split].
      + assert (JD : (exists l, i_arg i = OLabel l) \/ forall l, i_arg i <> OLabel l).
        { destruct (i_arg i); try (right; intros; discriminate). left. eauto. }
        destruct JD as [(l & El)|NL].
        * rewrite El. cbn [arg_of]. destruct (labels_resolve v T keq wf _ _ _ _ _ _ _ _ p i l A HL Hp El) as (q & c2 & rest2 & LP & G2 & _ & _ & J).
          rewrite G in G2. injection G2 as <- <-. rewrite (position_label _ _ _ LP), begins_at. f_equal.
          unfold instrs_before in J. fold (ib p) (ib q) in J. rewrite <- J.
          unfold goes_to, jumps_to. cbn [r_start r_at r_end r_op r_arg]. idtac. rewrite O, GL. rewrite ?Z.add_0_l, group_off.
          rewrite (proj1 (opmap_opname v T wf _ _) L1), N.
          assert (EV : c_size c mod 2 = 0). { destruct M as [V X]. rewrite <- (proj1 (assemble_size_auto v T wf c V X)). apply assemble_even. }
          assert (UC : ub v * cache_entries v T (i_name i) (i_op i) = 2 * cache_entries v T (i_name i) (i_op i)).
          { unfold ub. destruct (PY310 v) eqn:P10; [reflexivity|]. unfold cache_entries. destruct v; vm_compute in P10; try discriminate P10; reflexivity. }
          pose proof (ub_units v (c_size c) EV) as US.
          change (if PY310 v then 2 else 1) with (ub v).
          destruct (z_mem (i_op i) (t_hasjrel T)); [|reflexivity].
          rewrite O. destruct (str_contains "BACKWARD" (i_name i)); rewrite ?Z.mul_sub_distr_l, !Z.mul_add_distr_l, UC, US; lia.
        * assert (EA : arg_of (position items) (i_arg i) = PObj (i_arg i)) by (destruct (i_arg i); try reflexivity; exfalso; eapply NL; reflexivity).
          rewrite EA. rewrite <- O. eapply reads_tables; [..|exact (RD NL)]; unfold tables; cbn; assumption.
      + intros off OF. try rewrite Z.add_0_l in OF. destruct (byte_of (c :: rest) (off - zlen (code T (concat (firstn p gs)))) ltac:(lia)) as (pre & d & post & ED & OD).
        assert (EC : cs = (concat (firstn p gs) ++ pre) ++ d :: (post ++ concat (skipn (S p) gs))).
        { rewrite (nth_split' _ _ _ G) at 1. rewrite concat_app. cbn [concat]. rewrite ED, <- !app_assoc. reflexivity. }
        eapply (reports_at v T wf cb co st cs cb_code TO all_sized all_located _ d _ _ off EC).
        * apply (loc_of p i d Hp). exists (c :: rest). split; [exact G|]. rewrite ED. apply in_or_app. right. now left.
        * rewrite code_app, zlen_app. lia.
      + intros P u U. try rewrite Z.add_0_l in U.
        destruct (handler_at p i c rest u P Hp G U) as [[OG FH]|(p1 & q1 & id & t & la & d & e & l & ql & B & PQ & OG & E2 & E3 & E4 & ED & FH)]; rewrite OG; [exact FH|].
        rewrite E2. cbn [arg_of]. rewrite (position_label _ _ _ E3). exists (e_target e), (e_depth e). split; [exact FH|].
        rewrite begins_at, E4. f_equal. destruct v; vm_compute in P; try discriminate P; reflexivity.
  Qed.

  (** the depths *)
  Theorem code_depths : PY311 v = true -> forall k r u d, nth_error (instructions v T co) k = Some r ->
    r_at r <= 2 * u < r_end r -> nth_error (try_depths None items) k = Some (Some d) ->
    exists target z lasti, find_handler co u = Some (target, z, lasti) /\ d = Some z.
  Proof.
    intros P k r u d R U D. pose proof groups' as GS.
    assert (L : (k < ninstrs items)%nat).
    { apply nth_some_lt in R. rewrite instructions_are, (rans_len v T _ _ GS) in R. exact R. }
    destruct (instr_at _ _ L) as (p & i & Hp & ->).
    destruct (head' p i Hp) as (c & rest & G & N & O & RD). rewrite instructions_are, (rans_nth v T wf _ _ GS _ _ _ _ 0 Hp G) in R. injection R as <-.
    cbn [r_start r_at r_end r_op r_arg] in U. try rewrite Z.add_0_l in U.
    destruct (depth_at items None p i Hp) as [X Y]. rewrite X in D. injection D as D.
    destruct (handler_at p i c rest u P Hp G U) as [[OG FH]|(p1 & q1 & id & t & la & d' & e & l & ql & B & PQ & OG & E2 & E3 & E4 & ED & FH)].
    - rewrite (dst_none _ _ None None (conj (fun _ => eq_refl) (fun _ => eq_refl)) OG) in D. discriminate.
    - rewrite (dst_block _ _ _ _ _ _ _ _ B PQ) in D. injection D as <-. eauto.
  Qed.

  (** which TryBegin an entry of the exception table comes from *)
  Lemma code_handler k r u target depth la : PY311 v = true -> nth_error (instructions v T co) k = Some r ->
    r_at r <= 2 * u < r_end r -> find_handler co u = Some (target, depth, la) ->
    exists id l t, In (BTB id (OLabel l) la (Some depth)) items /\ position items l = Some t /\ begins v T co t = Some (2 * target)
      /\ nth_error (map snd (located first (program items))) k = Some (Some (PTo (Some t), la)).
  Proof.
    intros P R U F. pose proof groups' as GS.
    assert (L : (k < ninstrs items)%nat).
    { apply nth_some_lt in R. rewrite instructions_are, (rans_len v T _ _ GS) in R. exact R. }
    destruct (instr_at _ _ L) as (p & i & Hp & ->).
    destruct (head' p i Hp) as (c & rest & G & N & O & RD). rewrite instructions_are, (rans_nth v T wf _ _ GS _ _ _ _ 0 Hp G) in R. injection R as <-.
    cbn [r_start r_at r_end r_op r_arg] in U. try rewrite Z.add_0_l in U.
    destruct (handler_at p i c rest u P Hp G U) as [[OG FH]|(p1 & q1 & id & t & la' & d' & e & l & ql & B & PQ & OG & E2 & E3 & E4 & ED & FH)]; [congruence|].
    rewrite F in FH. injection FH as -> -> ->. exists id, l, (ninstrs (firstn ql items)).
    split. { destruct B as (_ & B & _). rewrite <- E2, <- ED. eapply nth_error_In. exact B. }
    split; [now apply position_label|]. split.
    - rewrite begins_at, E4. f_equal. destruct v; vm_compute in P; try discriminate P; reflexivity.
    - erewrite map_nth_error; [|exact (source_nth items p i first Hp)]. cbn [snd]. rewrite OG, E2. cbn [arg_of].
      now rewrite (position_label _ _ _ E3).
  Qed.
End S.
