(** The disassembler shows the argument that CPython reads. *)
From Verif Require Import PyBase OpTable M_Instr M_Tables M_Concrete P_Base S_Args
  P_OpTable P_Cat S_Slots P_Conv P_AsmProps P_Args.
Open Scope string_scope.
Open Scope list_scope.
Open Scope Z_scope.

Lemma at_app1 {A} (a b : list A) j x : at_ a j x -> at_ (a ++ b) j x.
Proof.
  intros [H E]. split; [exact H|]. rewrite nth_error_app1; [exact E|]. apply nth_error_Some. congruence.
Qed.
Lemma at_app2 {A} (a b : list A) j x : at_ b j x -> at_ (a ++ b) (zlen a + j) x.
Proof.
  intros [H E]. pose proof (zlen_nonneg a). split; [lia|]. unfold zlen in *.
  rewrite nth_error_app2 by lia. rewrite <- E. f_equal. lia.
Qed.
Lemma at_app_inv {A} (a b : list A) j x : at_ (a ++ b) j x ->
  (j < zlen a /\ at_ a j x) \/ (zlen a <= j /\ at_ b (j - zlen a) x).
Proof.
  intros [H E]. unfold zlen. destruct (Nat.lt_ge_cases (Z.to_nat j) (length a)) as [L|L].
  - left. rewrite nth_error_app1 in E by assumption. split; [lia|now split].
  - right. rewrite nth_error_app2 in E by assumption. split; [lia|]. split; [lia|]. rewrite <- E. f_equal. lia.
Qed.
Lemma at_map {A B} (f : A -> B) l j x : at_ l j x -> at_ (map f l) j (f x).
Proof. intros [H E]. split; [exact H|]. now apply map_nth_error. Qed.
Lemma at_map_inv {A B} (f : A -> B) l j y : at_ (map f l) j y -> exists x, y = f x /\ at_ l j x.
Proof.
  intros [H E]. rewrite nth_error_map in E. destruct (nth_error l (Z.to_nat j)) as [x|] eqn:X; [|discriminate].
  injection E as <-. exists x. split; [reflexivity|now split].
Qed.
Lemma at_lt {A} (l : list A) j x : at_ l j x -> 0 <= j < zlen l.
Proof.
  intros [H E]. assert (Z.to_nat j < length l)%nat by (apply nth_error_Some; congruence). unfold zlen. lia.
Qed.
Lemma at_in {A} (l : list A) j x : at_ l j x -> In x l.
Proof. intros [_ E]. eapply nth_error_In; eauto. Qed.

Section D.
  Variables (v : pyver) (T : optable) (cb : cbytecode).

  (** On 3.13 a free variable is never also a local variable of the code. *)
  Definition frees_apart : Prop :=
    PY313 v = true -> forall n, In n (m_freevars (cb_meta cb)) -> ~ In n (cb_varnames cb).

  Lemma filter_id {A} (f : A -> bool) l : (forall x, In x l -> f x = true) -> filter f l = l.
  Proof.
    induction l as [|x l IH]; intros H; [reflexivity|]. cbn. rewrite H by now left. f_equal. apply IH.
    intros y I. apply H. now right.
  Qed.

  Lemma locals_313 : PY313 v = true -> frees_apart ->
    locals_lookup v cb = cells_lookup v cb ++ map OFree (m_freevars (cb_meta cb)).
  Proof.
    intros P F. unfold locals_lookup. rewrite P. f_equal. f_equal. apply filter_id. intros n I.
    destruct (str_mem n (cb_varnames cb)) eqn:E; [|reflexivity]. apply str_mem_In in E.
    exfalso. exact (F P n I E).
  Qed.
  Lemma p311 : PY313 v = true -> PY311 v = true.
  Proof. unfold PY311, PY313. destruct v; cbn; auto. Qed.
  Lemma cells_311 : PY311 v = true -> cells_lookup v cb =
    map OStr (cb_varnames cb) ++ map OCell (unshared (cb_varnames cb) (m_cellvars (cb_meta cb))).
  Proof. intros P. unfold cells_lookup. now rewrite P. Qed.

  (** *** From what CPython reads to what is shown *)
  Lemma local_shown op a x : In op (t_haslocal T) -> local_slot v cb a x -> frees_apart ->
    exists y, py_index (locals_lookup v cb) a = Ok y /\ same_arg v T cb op x y.
  Proof.
    intros HL [S D] F. destruct (PY313 v) eqn:P.
    - rewrite (locals_313 P F), (cells_311 (p311 P)), <- app_assoc.
      destruct S as [n a H|n a I H|n j H|n j H].
      + exists (OStr n). split; [|constructor]. apply at_py_index, at_app1. now apply at_map.
      + exists (OStr n). split; [apply at_py_index, at_app1; now apply at_map|].
        apply sa_cell; auto. eapply at_in; eauto.
      + exists (OCell n). split; [|constructor]. apply at_py_index.
        rewrite <- (zlen_map OStr). apply at_app2, at_app1. now apply at_map.
      + exists (OFree n). split; [|constructor]. apply at_py_index.
        rewrite <- (zlen_map OStr (cb_varnames cb)), <- Z.add_assoc. apply at_app2.
        rewrite <- (zlen_map OCell (unshared _ _)). apply at_app2. now apply at_map.
    - destruct D as [D|(n & ->)]; [discriminate|]. inversion S; subst. exists (OStr n).
      split; [|constructor]. apply at_py_index. unfold locals_lookup. rewrite P. now apply at_map.
  Qed.

  Lemma py_index_map {A B} (f : A -> B) l a x : at_ l a x -> py_index (map f l) a = Ok (f x).
  Proof. intros H. apply at_py_index. now apply at_map. Qed.

  Lemma compare_shown z a : comparison v a = z ->
    (if PY313 v then Z.shiftr a 5 + (if Z.land a 16 =? 0 then 0 else Z.shiftl 1 4)
     else if PY312 v then Z.shiftr a 4 else a) = z.
  Proof.
    unfold comparison. intros <-. rewrite !Z.shiftr_div_pow2 by lia.
    change 16 with (2 ^ 4) at 1. rewrite land_bit by (clear; lia). change (2 ^ 5) with 32. change (2 ^ 4) with 16.
    destruct (PY313 v); [|reflexivity]. destruct (Z.testbit a 4); reflexivity.
  Qed.

  Lemma member_ok z : real_member v (OCompare z) <-> compare_member v z = true.
  Proof.
    cbn [real_member]. unfold compare_member. rewrite !orb_true_iff, !andb_true_iff, !Z.leb_le, Z.ltb_lt.
    unfold PY313. destruct v; cbn; intuition (try lia; try discriminate).
  Qed.

  Theorem reads_shown op arg x : category v T op -> reads v T cb op arg x -> real_member v x ->
    frees_apart -> exists y, decode_arg v T cb op arg = Ok y /\ same_arg v T cb op x y.
  Proof.
    intros C R M F. unfold decode_arg.
    assert (IT : forall l, In op l -> z_mem op l = true) by (intros; now apply z_mem_In).
    destruct R.
    - (* none *)
      destruct C as [C HA C1 C2 C3|C HA C1 C2 C3|C HA C2 C3|C HA C1 C2|C HA C1 C2 C3|C HA C1 C2 C3|C HA C1 C2 C3 C4|C C1 C2 C3];
        try congruence.
      destruct C as (E1 & E2 & E3 & E4 & E5 & E6 & E7). rewrite E2, E3, E4, E5, E6.
      unfold is_intrinsic in E7. apply orb_false_iff in E7. destruct E7 as [E7 E8]. rewrite E7, E8.
      exists OUnset. split; [reflexivity|constructor].
    - (* int *)
      pose proof H as H'. destruct H' as (J & N1 & N2 & N3 & N4 & N5 & N6).
      assert (FM : forall l, ~ In op l -> z_mem op l = false).
      { intros l NI. destruct (z_mem op l) eqn:X; [|reflexivity]. apply z_mem_In in X. tauto. }
      rewrite !FM by assumption. unfold is_intrinsic in N6. apply orb_false_iff in N6. destruct N6 as [N6 N7].
      rewrite N6, N7. exists (OInt a). split; [reflexivity|]. now apply sa_int.
    - rewrite (IT _ H). exists x. split; [now apply at_py_index|constructor].
    - assert (CC : z_mem op (t_hasconst T) = false).
      { apply IT in H. destruct C as [C|C|C|C|C|C|C|C]; destruct C as (E1 & E2 & E3 & _); congruence. }
      rewrite CC, (IT _ H), H0. now apply local_shown.
    - assert (CC : z_mem op (t_hasconst T) = false /\ z_mem op (t_haslocal T) = true).
      { destruct C as [C|C|C|C|C|C|C|C]; destruct C as (E1 & E2 & E3 & _); try congruence; auto. }
      destruct CC as [C1 C2]. rewrite C1, C2, H.
      pose proof (proj1 (z_mem_In _ _) C2) as HL.
      destruct (local_shown op _ _ HL H0 F) as (x' & X1 & X2). destruct (local_shown op _ _ HL H1 F) as (y' & Y1 & Y2).
      rewrite Z.shiftr_div_pow2 by lia. change (2 ^ 4) with 16. rewrite land15, X1, Y1. cbn [bind].
      eexists. split; [reflexivity|]. now apply sa_pair.
    - assert (CC : z_mem op (t_hasconst T) = false /\ z_mem op (t_haslocal T) = false).
      { apply IT in H. destruct C as [C|C|C|C|C|C|C|C]; destruct C as (E1 & E2 & E3 & E4 & _); try congruence; auto. }
      destruct CC as [C1 C2]. rewrite C1, C2, (IT _ H), H0, H1.
      rewrite (at_py_index _ _ _ H2). exists (OStr n). split; [reflexivity|constructor].
    - assert (CC : z_mem op (t_hasconst T) = false /\ z_mem op (t_haslocal T) = false /\ z_mem op (t_hasname T) = true).
      { destruct C as [C|C|C|C|C|C|C|C]; destruct C as (E1 & E2 & E3 & E4 & _); try congruence; auto. }
      destruct CC as (C1 & C2 & C3). rewrite C1, C2, C3, H.
      rewrite shiftr1, (at_py_index _ _ _ H0). change 1 with (2 ^ 0) at 1. rewrite land_bit, negb_involutive by lia.
      cbn [bind]. rewrite H1. eexists. split; [reflexivity|constructor].
    - assert (CC : z_mem op (t_hasconst T) = false /\ z_mem op (t_haslocal T) = false /\ z_mem op (t_hasname T) = true
                   /\ is_bitflag v T op = false).
      { destruct C as [C HA C1 C2 C3|C HA C1 C2 C3|C HA C2 C3|C HA C1 C2|C HA C1 C2 C3|C HA C1 C2 C3|C HA C1 C2 C3 C4|C C1 C2 C3]; destruct C as (E1 & E2 & E3 & E4 & _); try congruence.
        rewrite H, andb_true_r in C2. auto. }
      destruct CC as (C1 & C2 & C3 & C4). rewrite C1, C2, C3, C4, H.
      rewrite Z.shiftr_div_pow2 by lia. change (2 ^ 2) with 4. rewrite (at_py_index _ _ _ H0).
      change 1 with (2 ^ 0) at 1. rewrite land_bit, negb_involutive by lia.
      change 2 with (2 ^ 1). rewrite land_bit, negb_involutive by lia.
      cbn [bind]. rewrite H1, H2. eexists. split; [reflexivity|constructor].
    - assert (CC : z_mem op (t_hasconst T) = false /\ z_mem op (t_haslocal T) = false /\ z_mem op (t_hasname T) = false).
      { apply IT in H. destruct C as [C|C|C|C|C|C|C|C]; destruct C as (E1 & E2 & E3 & E4 & E5 & _); try congruence; auto. }
      destruct CC as (C1 & C2 & C3). rewrite C1, C2, C3, (IT _ H).
      exists x. split; [|constructor]. destruct H0 as [NS D].
      destruct (PY311 v) eqn:P.
      + rewrite (cells_311 P), zlen_app, !zlen_map.
        destruct D as [n a D|n a I D|n j D|n j D].
        * exfalso. now apply (NS n).
        * pose proof (at_lt _ _ _ D). pose proof (zlen_nonneg (unshared (cb_varnames cb) (m_cellvars (cb_meta cb)))).
          destruct (Z.ltb_spec a (zlen (cb_varnames cb) + zlen (unshared (cb_varnames cb) (m_cellvars (cb_meta cb))))); [|lia].
          rewrite (at_py_index _ a (OStr n)); [reflexivity|]. apply at_app1. now apply at_map.
        * pose proof (at_lt _ _ _ D).
          destruct (Z.ltb_spec (zlen (cb_varnames cb) + j) (zlen (cb_varnames cb) + zlen (unshared (cb_varnames cb) (m_cellvars (cb_meta cb))))); [|lia].
          rewrite (at_py_index _ _ (OCell n)); [reflexivity|]. rewrite <- (zlen_map OStr). apply at_app2. now apply at_map.
        * pose proof (at_lt _ _ _ D).
          destruct (Z.ltb_spec (zlen (cb_varnames cb) + zlen (unshared (cb_varnames cb) (m_cellvars (cb_meta cb))) + j)
             (zlen (cb_varnames cb) + zlen (unshared (cb_varnames cb) (m_cellvars (cb_meta cb))))); [lia|].
          rewrite (at_py_index _ _ n); [reflexivity|]. match goal with |- at_ _ ?e _ => replace e with j by lia end. exact D.
      + unfold cells_lookup. rewrite P, zlen_map. destruct D as [n a D|n j D]; pose proof (at_lt _ _ _ D).
        * destruct (Z.ltb_spec a (zlen (m_cellvars (cb_meta cb)))); [|lia].
          now rewrite (py_index_map OCell _ _ _ D).
        * destruct (Z.ltb_spec (zlen (m_cellvars (cb_meta cb)) + j) (zlen (m_cellvars (cb_meta cb)))); [lia|].
          rewrite (at_py_index _ _ n); [reflexivity|]. match goal with |- at_ _ ?e _ => replace e with j by lia end. exact D.
    - assert (CC : z_mem op (t_hasconst T) = false /\ z_mem op (t_haslocal T) = false /\ z_mem op (t_hasname T) = false
                   /\ z_mem op (t_hasfree T) = false).
      { apply IT in H. destruct C as [C|C|C|C|C|C|C|C]; destruct C as (E1 & E2 & E3 & E4 & E5 & E6 & _); try congruence; auto. }
      destruct CC as (C1 & C2 & C3 & C4). rewrite C1, C2, C3, C4, (IT _ H).
      rewrite (compare_shown _ a eq_refl). apply member_ok in M. rewrite M. eexists. split; [reflexivity|constructor].
    - assert (CC : z_mem op (t_hasconst T) = false /\ z_mem op (t_haslocal T) = false /\ z_mem op (t_hasname T) = false
                   /\ z_mem op (t_hasfree T) = false /\ z_mem op (t_hascompare T) = false).
      { assert (I : is_intrinsic v T op = true) by (unfold is_intrinsic; now rewrite H).
        destruct C as [C|C|C|C|C|C|C|C]; destruct C as (E1 & E2 & E3 & E4 & E5 & E6 & E7); try congruence; auto. }
      destruct CC as (C1 & C2 & C3 & C4 & C5). rewrite C1, C2, C3, C4, C5, H.
      assert (MM : intrinsic1_member a = true).
      { unfold intrinsic1_member. cbn in M. apply andb_true_iff. rewrite !Z.leb_le. lia. }
      rewrite MM. eexists. split; [reflexivity|constructor].
    - assert (CC : z_mem op (t_hasconst T) = false /\ z_mem op (t_haslocal T) = false /\ z_mem op (t_hasname T) = false
                   /\ z_mem op (t_hasfree T) = false /\ z_mem op (t_hascompare T) = false /\ is_intrinsic1 v T op = false).
      { assert (I : is_intrinsic v T op = true) by (unfold is_intrinsic; rewrite H; apply orb_true_r).
        destruct C as [C HA C1 C2 C3|C HA C1 C2 C3|C HA C2 C3|C HA C1 C2|C HA C1 C2 C3|C HA C1 C2 C3|C HA C1 C2 C3 C4|C C1 C2 C3]; destruct C as (E1 & E2 & E3 & E4 & E5 & E6 & E7); try congruence.
        rewrite H, andb_true_r in C4. auto 10. }
      destruct CC as (C1 & C2 & C3 & C4 & C5 & C6). rewrite C1, C2, C3, C4, C5, C6, H.
      assert (MM : intrinsic2_member a = true).
      { unfold intrinsic2_member. cbn in M. apply andb_true_iff. rewrite !Z.leb_le. lia. }
      rewrite MM. eexists. split; [reflexivity|constructor].
  Qed.

  (** *** From what is shown to what CPython reads *)
  Lemma frame_cells a y : PY311 v = true -> 0 <= a -> py_index (cells_lookup v cb) a = Ok y ->
    a < zlen (cells_lookup v cb) /\ frame_slot cb a y
    /\ ((exists n, y = OStr n /\ In n (cb_varnames cb)) \/ exists n, y = OCell n).
  Proof.
    intros P H E. apply py_index_at in E; [|exact H]. pose proof (at_lt _ _ _ E). split; [lia|].
    rewrite (cells_311 P) in E. apply at_app_inv in E. destruct E as [[L E]|[L E]].
    - apply at_map_inv in E. destruct E as (n & -> & E). split; [now apply fs_local|]. left. exists n.
      split; [reflexivity|]. eapply at_in; eauto.
    - apply at_map_inv in E. destruct E as (n & -> & E). split; [|right; eauto]. rewrite zlen_map in E.
      replace a with (zlen (cb_varnames cb) + (a - zlen (cb_varnames cb))) by lia. now apply fs_cell.
  Qed.

  Lemma local_read a y : 0 <= a -> py_index (locals_lookup v cb) a = Ok y -> frees_apart -> local_slot v cb a y.
  Proof.
    intros H E F. unfold local_slot. destruct (PY313 v) eqn:P.
    - split; [|now left]. rewrite (locals_313 P F) in E. apply py_index_at in E; [|exact H].
      apply at_app_inv in E. destruct E as [[L E]|[L E]].
      + apply (frame_cells a y (p311 P) H). now apply at_py_index.
      + apply at_map_inv in E. destruct E as (n & -> & E). rewrite (cells_311 (p311 P)), zlen_app, !zlen_map in *.
        match type of E with at_ _ ?e _ => replace a with (zlen (cb_varnames cb) + zlen (unshared (cb_varnames cb) (m_cellvars (cb_meta cb))) + e) by (clear; lia) end.
        now apply fs_free.
    - unfold locals_lookup in E. rewrite P in E. apply py_index_at in E; [|exact H].
      apply at_map_inv in E. destruct E as (n & -> & E). split; [now apply fs_local|right; eauto].
  Qed.

  (** Shared variables must really be cell variables when a deref instruction names them. *)
  Definition deref_is_cell (op : Z) (arg : option Z) : Prop :=
    PY311 v = true -> In op (t_hasfree T) ->
    forall a n, arg = Some a -> at_ (cb_varnames cb) a n -> In n (m_cellvars (cb_meta cb)).

  Theorem shown_reads op arg x : category v T op -> op_has_jump T op = false ->
    match arg with Some a => 0 <= a | None => opcode_has_argument v T op = false end ->
    frees_apart -> deref_is_cell op arg ->
    decode_arg v T cb op arg = Ok x -> reads v T cb op arg x /\ real_member v x
       \/ In op (t_hasconst T) /\ reads v T cb op arg x.
  Proof.
    intros C NJ HA F DC E. unfold decode_arg in E.
    destruct C as [C HA' C1 C2 C3|C HA' C1 C2 C3|C HA' C2 C3|C HA' C1 C2|C HA' C1 C2 C3|C HA' C1 C2 C3|C HA' C1 C2 C3 C4|C C1 C2 C3];
      destruct C as (E1 & E2 & E3 & E4 & E5 & E6 & E7); try congruence;
      rewrite ?E2, ?E3, ?E4, ?E5, ?E6 in E;
      (destruct arg as [a|]; [|try congruence]).
    - right. apply z_mem_In in E2. split; [exact E2|]. apply rd_const; [exact E2|]. now apply py_index_at.
    - left. apply z_mem_In in E3. destruct (is_dual v T op) eqn:D.
      + inv_ok. rewrite Z.shiftr_div_pow2, land15 in * by (clear; lia). change (2 ^ 4) with 16 in *.
        split; [|exact I]. apply rd_pair; auto; apply local_read; auto; clear - HA; zdm.
      + pose proof (local_read _ _ HA E F) as S. split; [now apply rd_local|].
        destruct S as [S _]. destruct S; exact I.
    - left. apply z_mem_In in E4. destruct (is_bitflag v T op) eqn:B1; [|destruct (is_bitflag2 v T op) eqn:B2].
      + inv_ok. split; [|exact I]. rewrite shiftr1 in *. apply rd_flag; [exact B1| |].
        * apply py_index_at; [clear - HA; zdm|assumption].
        * change 1 with (2 ^ 0) at 1. rewrite land_bit by (clear; lia). now rewrite negb_involutive.
      + inv_ok. split; [|exact I]. rewrite Z.shiftr_div_pow2 in * by (clear; lia). apply rd_flag2; [exact B2| | |].
        * apply py_index_at; [clear - HA; zdm|assumption].
        * change 1 with (2 ^ 0) at 1. rewrite land_bit by (clear; lia). now rewrite negb_involutive.
        * change 2 with (2 ^ 1). rewrite land_bit by (clear; lia). now rewrite negb_involutive.
      + inv_ok. split; [|exact I]. apply rd_name; auto. now apply py_index_at.
    - left. apply z_mem_In in E5. destruct (Z.ltb_spec a (zlen (cells_lookup v cb))) as [L|L].
      + inv_ok. destruct (PY311 v) eqn:P.
        * match goal with H : py_index (cells_lookup v cb) a = Ok ?y |- _ => destruct (frame_cells a y P HA H) as (_ & S & [(n & -> & I1)|(n & ->)]) end.
          -- inversion S; subst. split; [|exact I]. apply rd_deref; [exact E5|]. split; [discriminate|]. rewrite P.
             apply fs_shared; [|assumption]. eapply DC; eauto.
          -- split; [|exact I]. apply rd_deref; [exact E5|]. split; [discriminate|]. now rewrite P.
        * match goal with H : py_index (cells_lookup v cb) a = Ok ?y |- _ => apply py_index_at in H; [|exact HA];
            unfold cells_lookup in H; rewrite P in H; apply at_map_inv in H; destruct H as (n & -> & Hn) end.
          split; [|exact I]. apply rd_deref; [exact E5|]. split; [discriminate|]. rewrite P. now apply od_cell.
      + inv_ok. split; [|exact I]. apply rd_deref; [exact E5|]. split; [discriminate|].
        match goal with H : py_index (m_freevars _) ?e = Ok ?y |- _ => apply py_index_at in H; [|clear - L; lia]; rename H into Hn end.
        destruct (PY311 v) eqn:P.
        * rewrite (cells_311 P), zlen_app, !zlen_map in *.
          match type of Hn with at_ _ ?e _ => replace a with (zlen (cb_varnames cb) + zlen (unshared (cb_varnames cb) (m_cellvars (cb_meta cb))) + e) by (clear; lia) end.
          now apply fs_free.
        * unfold cells_lookup in *. rewrite P, zlen_map in *.
          match type of Hn with at_ _ ?e _ => replace a with (zlen (m_cellvars (cb_meta cb)) + e) by (clear; lia) end.
          now apply od_free.
    - left. apply z_mem_In in E6. rewrite (compare_shown _ a eq_refl) in E.
      destruct (compare_member v (comparison v a)) eqn:M; [|discriminate]. injection E as <-.
      split; [now apply rd_compare|]. now apply member_ok.
    - left. destruct (is_intrinsic1 v T op) eqn:I1.
      + destruct (intrinsic1_member a) eqn:M; [|discriminate]. injection E as <-. split; [now apply rd_intr1|].
        cbn. unfold intrinsic1_member in M. apply andb_true_iff in M. rewrite !Z.leb_le in M. clear - M; lia.
      + assert (I2 : is_intrinsic2 v T op = true) by (unfold is_intrinsic in E7; now rewrite I1 in E7).
        rewrite I2 in E. destruct (intrinsic2_member a) eqn:M; [|discriminate]. injection E as <-.
        split; [now apply rd_intr2|]. cbn. unfold intrinsic2_member in M. apply andb_true_iff in M. rewrite !Z.leb_le in M. clear - M; lia.
    - left. unfold is_intrinsic in E7. pose proof E7 as E7'. apply orb_false_iff in E7'. destruct E7' as [E8 E9]. rewrite E8, E9 in E.
      injection E as <-. split; [|exact I]. apply rd_int; [|reflexivity].
      apply no_jump in E1. destruct E1. unfold plain, jumps. repeat split; auto using mem_false. tauto.
    - left. unfold is_intrinsic in E7. apply orb_false_iff in E7. destruct E7 as [E8 E9]. rewrite E8, E9 in E.
      injection E as <-. split; [|exact I]. now apply rd_none.
  Qed.
End D.
