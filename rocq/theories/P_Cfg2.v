(** Negative deletions, dead blocks, legalization of graphs. *)
From Verif Require Import PyBase OpTable P_Base P_OpTable M_Instr M_Concrete M_Bytecode M_Cfg S_Prog S_Legal S_Cfg P_Cfg P_Bytecode.
Open Scope list_scope.
Open Scope Z_scope.

(** ** del cfg[-1] *)
Lemma delitem_last g b0 b1 rest : ginv g -> g_order g = b0 :: b1 :: rest ->
  exists g' k, delitem g (-1) = Ok g' /\ getitem g' 0 = Ok b0 /\ get_block_index g' b0 = Ok k /\ k < 0.
Proof.
  intros (N & F & K & D) O.
  destruct (exists_last (l := b0 :: b1 :: rest)) as (pre & lst & L); [discriminate|].
  assert (P1 : py_index (g_order g) (-1) = Ok lst).
  { rewrite O, L. unfold py_index. cbn [Z.ltb Z.compare]. rewrite zlen_app. change (zlen [lst]) with 1.
    assert (Z0 := zlen_nonneg pre).
    destruct (-1 + (zlen pre + 1) <? 0) eqn:Q; [apply Z.ltb_lt in Q; lia|].
    destruct (zlen pre + 1 <=? -1 + (zlen pre + 1)) eqn:Q2; [apply Z.leb_le in Q2; lia|]. cbn [orb].
    replace (Z.to_nat (-1 + (zlen pre + 1))) with (length pre) by (unfold zlen; lia).
    rewrite nth_error_app2, Nat.sub_diag by lia. reflexivity. }
  unfold delitem. rewrite P1. cbn [bind Z.ltb Z.compare].
  assert (RM : remove_at (Z.to_nat (-1 + zlen (g_order g))) (g_order g) = pre).
  { rewrite O, L, zlen_app. change (zlen [lst]) with 1.
    replace (Z.to_nat (-1 + (zlen pre + 1))) with (length pre) by (unfold zlen; lia).
    unfold remove_at. rewrite firstn_app, Nat.sub_diag, firstn_all. cbn [firstn].
    replace (S (length pre)) with (length (pre ++ [lst])) by (rewrite app_length; cbn; lia).
    rewrite skipn_all. now rewrite !app_nil_r. }
  rewrite RM. rewrite O, L in N. assert (NP : NoDup pre /\ ~ In lst pre).
  { apply NoDup_remove in N. rewrite app_nil_r in N. exact N. }
  destruct NP as [NP NL].
  assert (GL : dget Nat.eqb (g_index g) lst = Some (zlen pre)).
  { rewrite D, O, L, pos_app. apply pos_none in NL. rewrite NL. cbn. rewrite Nat.eqb_refl. cbn.
    unfold zlen. now rewrite Nat.add_0_r. }
  rewrite GL. cbn [of_option bind].
  set (idx0 := ddel Nat.eqb (g_index g) lst).
  assert (D0 : forall n, dget Nat.eqb idx0 n = option_map Z.of_nat (pos n pre)).
  { intros n. unfold idx0. rewrite dd_get, D, O, L, pos_app by assumption. destruct (Nat.eqb n lst) eqn:Q.
    - apply Nat.eqb_eq in Q. subst. apply pos_none in NL. now rewrite NL.
    - cbn. rewrite Q. destruct (pos n pre); reflexivity. }
  assert (K0 : NoDup (map fst idx0)) by now apply dd_keys.
  destruct pre as [|p0 pre']; [destruct rest; discriminate|]. cbn in L. injection L as <- L.
  destruct (exists_last (l := b0 :: pre')) as (q & l2 & L2); [discriminate|].
  assert (R : zrange (-1) (zlen (b0 :: pre')) = -1 :: map Z.of_nat (seq 0 (length (b0 :: pre')))).
  { unfold zrange. replace (Z.to_nat (zlen (b0 :: pre') - -1)) with (S (length (b0 :: pre'))) by (unfold zlen; lia).
    cbn [seq map]. f_equal. rewrite <- seq_shift, map_map. apply map_ext. intros; lia. }
  rewrite R. cbn [foldM].
  assert (P2 : py_index (b0 :: pre') (-1) = Ok l2).
  { rewrite L2. unfold py_index. cbn [Z.ltb Z.compare]. rewrite zlen_app. change (zlen [l2]) with 1.
    assert (Z0 := zlen_nonneg q).
    destruct (-1 + (zlen q + 1) <? 0) eqn:Q; [apply Z.ltb_lt in Q; lia|].
    destruct (zlen q + 1 <=? -1 + (zlen q + 1)) eqn:Q2; [apply Z.leb_le in Q2; lia|]. cbn [orb].
    replace (Z.to_nat (-1 + (zlen q + 1))) with (length q) by (unfold zlen; lia).
    rewrite nth_error_app2, Nat.sub_diag by lia. reflexivity. }
  rewrite P2. cbn [bind].
  assert (J2 : In l2 (b0 :: pre')) by (rewrite L2; apply in_app_iff; right; now left).
  destruct (pos l2 (b0 :: pre')) as [k2|] eqn:PL2; [|apply pos_none in PL2; contradiction].
  rewrite D0, PL2. cbn [option_map of_option bind].
  set (idx1 := dset Nat.eqb idx0 l2 (Z.of_nat k2 - 1)).
  change (b0 :: pre') with ([] ++ b0 :: pre') at 1. rewrite foldM_idx by reflexivity.
  assert (D1 : forall n, In n (b0 :: pre') -> dget Nat.eqb idx1 n <> None).
  { intros n J. unfold idx1. rewrite dg_set. destruct (Nat.eqb n l2); [discriminate|]. rewrite D0.
    destruct (pos n (b0 :: pre')) eqn:X; [discriminate|]. apply pos_none in X. contradiction. }
  destruct (shift_fold (-1) (b0 :: pre') idx1 NP (ds_keys _ _ _ K0) D1) as (idx & E & K' & D').
  rewrite (foldM_ext _ (fun idx c => k <- of_option KeyError (dget Nat.eqb idx c) ;; Ok (dset Nat.eqb idx c (k + -1)))).
  2:{ intros a x. destruct (dget Nat.eqb a x) as [y|]; cbn; reflexivity. }
  rewrite E. cbn [bind].
  assert (X : exists k, dget Nat.eqb idx b0 = Some k /\ k < 0).
  { rewrite D'. assert (M : nat_mem b0 (b0 :: pre') = true) by (apply nat_mem_In; now left). rewrite M.
    unfold idx1. rewrite dg_set. destruct (Nat.eqb b0 l2) eqn:Q.
    - apply Nat.eqb_eq in Q. subst l2. cbn in PL2. rewrite Nat.eqb_refl in PL2. injection PL2 as <-.
      eexists. split; [reflexivity|]. lia.
    - rewrite D0. cbn. rewrite Nat.eqb_refl. eexists. split; [reflexivity|]. lia. }
  destruct X as (k & X & KN). eexists. exists k. split; [reflexivity|]. cbn.
  split; [reflexivity|]. split; [|exact KN]. unfold get_block_index. cbn. now rewrite X.
Qed.

Lemma delitem_only g b0 : ginv g -> g_order g = [b0] -> delitem g (-1) = Err IndexError.
Proof.
  intros (N & F & K & D) O. unfold delitem. rewrite O. cbn. rewrite D, O. cbn. now rewrite Nat.eqb_refl.
Qed.

(** ** Dead blocks *)
Lemma pushes_refers g a b : In b (pushes (k_items (blk g a))) <-> refers g a b.
Proof.
  unfold pushes, refers. rewrite in_flat_map. split.
  - intros (it & J & B). destruct it as [i| | |id t la d|]; try contradiction.
    + destruct (i_arg i) eqn:E; try contradiction. destruct B as [<-|[]]. left. eauto.
    + destruct t; try contradiction. destruct B as [<-|[]]. right. eauto.
  - intros [(i & J & E)|(id & la & d & J)].
    + exists (BI i). rewrite E. cbn; auto.
    + exists (BTB id (OBlock b) la d). cbn; auto.
Qed.

Definition weight (g : cfg) (seen : list nat) : nat :=
  list_sum (map (fun n => if nat_mem n seen then 0%nat else length (pushes (k_items (blk g n)))) (seq 0 (length (g_heap g)))).

Lemma weight_nil g : weight g [] = length (flat_map (fun b => pushes (k_items b)) (g_heap g)).
Proof.
  unfold weight. cbn [nat_mem existsb].
  assert (X : forall pre l, list_sum (map (fun n => length (pushes (k_items
      (match nth_error (pre ++ l) n with Some b => b | None => mkBlk [] None end)))) (seq (length pre) (length l)))
    = length (flat_map (fun b => pushes (k_items b)) l)).
  { intros pre l. revert pre. induction l as [|x l IH]; intros pre; cbn [length seq map list_sum flat_map]; [reflexivity|].
    cbn [fold_right list_sum]. specialize (IH (pre ++ [x])). rewrite <- app_assoc in IH. cbn [app] in IH.
    rewrite app_length in IH. cbn [length] in IH. rewrite Nat.add_1_r in IH. unfold list_sum in *. cbn [fold_right]. rewrite IH.
    rewrite nth_error_app2, Nat.sub_diag by lia. cbn. now rewrite app_length. }
  apply (X []).
Qed.

Lemma sum_le {A} (f f' : A -> nat) l : (forall x, In x l -> (f x <= f' x)%nat) -> (list_sum (map f l) <= list_sum (map f' l))%nat.
Proof.
  induction l as [|x l IH]; intros H; [reflexivity|]. cbn. assert (f x <= f' x)%nat by (apply H; now left).
  assert (list_sum (map f l) <= list_sum (map f' l))%nat by (apply IH; intros y J; apply H; now right). unfold list_sum in *. lia.
Qed.
Lemma sum_drop {A} (f f' : A -> nat) l x w : In x l -> f x = 0%nat -> (w <= f' x)%nat -> (forall y, In y l -> (f y <= f' y)%nat) ->
  (w + list_sum (map f l) <= list_sum (map f' l))%nat.
Proof.
  induction l as [|y l IH]; intros J Z W H; [contradiction|]. cbn.
  assert (f y <= f' y)%nat by (apply H; now left).
  destruct J as [->|J].
  - assert (list_sum (map f l) <= list_sum (map f' l))%nat by (apply sum_le; intros z K; apply H; now right).
    unfold list_sum in *. lia.
  - assert (w + list_sum (map f l) <= list_sum (map f' l))%nat by (apply IH; auto; intros z K; apply H; now right).
    unfold list_sum in *. lia.
Qed.

Lemma weight_cons g n seen : nat_mem n seen = false ->
  (length (pushes (k_items (blk g n))) + weight g (n :: seen) <= weight g seen)%nat.
Proof.
  intros M. unfold weight. destruct (Nat.ltb n (length (g_heap g))) eqn:L.
  - apply Nat.ltb_lt in L. apply sum_drop with (x := n).
    + apply in_seq. lia. + cbn. now rewrite Nat.eqb_refl. + now rewrite M.
    + intros y _. cbn. destruct (Nat.eqb y n); cbn; [lia|reflexivity].
  - apply Nat.ltb_ge in L. assert (E : pushes (k_items (blk g n)) = []).
    { unfold blk. now rewrite (proj2 (nth_error_None _ _) L). }
    rewrite E. cbn [length Nat.add]. apply sum_le. intros y _. cbn. destruct (Nat.eqb y n); cbn; [lia|reflexivity].
Qed.

(** Everything seen or on the stack is reachable, and what seen blocks refer to is seen or
    on the stack. *)
Lemma reach_loop_ok T g s : iterable T g -> forall fuel seen stack,
  (length stack + weight g seen < fuel)%nat ->
  (forall n, In n seen \/ In n stack -> reaches (refers g) s n) ->
  (forall a b, In a seen -> refers g a b -> In b seen \/ In b stack) ->
  exists seen', reach_loop T g fuel seen stack = Ok seen'
    /\ (forall n, In n seen \/ In n stack -> In n seen')
    /\ (forall n, In n seen' -> reaches (refers g) s n)
    /\ (forall a b, In a seen' -> refers g a b -> In b seen').
Proof.
  intros IT. induction fuel as [|f IH]; intros seen stack W R C; [lia|]. cbn.
  destruct stack as [|n stack].
  { exists seen. split; [reflexivity|]. split; [intros n [J|[]]; exact J|]. split; [auto|].
    intros a b J E. destruct (C a b J E) as [X|[]]. exact X. }
  destruct (nat_mem n seen) eqn:M.
  - apply nat_mem_In in M. destruct (IH seen stack) as (seen' & E & S1 & S2 & S3).
    { cbn in W. lia. } { intros m [J|J]; apply R; [now left|right; now right]. }
    { intros a b J E. destruct (C a b J E) as [X|[<-|X]]; auto. }
    exists seen'. split; [exact E|]. split; [|auto]. intros m [J|[<-|J]]; apply S1; auto.
  - assert (BO := IT n). destruct (block_iter T (k_items (blk g n))) as [[]|e]; [|discriminate]. cbn [bind].
    destruct (IH (n :: seen) (rev (pushes (k_items (blk g n))) ++ stack)) as (seen' & E & S1 & S2 & S3).
    { rewrite app_length, rev_length. assert (X := weight_cons g n seen M). cbn [length] in W. lia. }
    { intros m [[<-|J]|J].
      - apply R. right. now left.
      - apply R. now left.
      - apply in_app_iff in J. destruct J as [J|J]; [|apply R; right; now right].
        apply in_rev in J. apply pushes_refers in J. eapply r_step; [|exact J]. apply R. right. now left. }
    { intros a b [<-|J] Q.
      - right. apply in_app_iff. left. apply -> in_rev. now apply pushes_refers.
      - destruct (C a b J Q) as [X|[<-|X]]; [left; now right|left; now left|right; apply in_app_iff; now right]. }
    exists seen'. split; [exact E|]. split; [|auto].
    intros m [J|[<-|J]]; apply S1; [left; now right|left; now left|right; apply in_app_iff; now right].
Qed.

Lemma dead_blocks_ok T g s r : iterable T g -> g_order g = s :: r ->
  exists dead, get_dead_blocks T g = Ok dead
    /\ forall n, In n dead <-> In n (g_order g) /\ ~ reaches (refers g) s n.
Proof.
  intros IT O. unfold get_dead_blocks. rewrite O.
  destruct (reach_loop_ok T g s IT (reach_fuel g) [] [s]) as (seen & E & S1 & S2 & S3).
  { unfold reach_fuel. rewrite weight_nil. cbn. lia. }
  { intros n [[]|[<-|[]]]. constructor. }
  { intros a b []. }
  rewrite E. cbn [bind]. eexists. split; [reflexivity|]. intros n. rewrite filter_In.
  assert (X : In n seen <-> reaches (refers g) s n).
  { split; [apply S2|]. induction 1 as [|b c _ IH Q]; [apply S1; right; now left|]. eapply S3; eauto. }
  rewrite negb_true_iff, <- not_true_iff_false, nat_mem_In, X. reflexivity.
Qed.

(** ** legalize *)
Lemma block_loop_eq v T l : forall s c, block_iter T l = Ok tt ->
  exists o, block_legalize_loop v T s c l = (fst (legalize_loop bview bset_loc v s c l), o)
    /\ is_ok o = is_ok (snd (legalize_loop bview bset_loc v s c l))
    /\ (forall e, o = Err e -> snd (legalize_loop bview bset_loc v s c l) = Err e).
Proof.
  (* under a SetLineno the current line has no effect on the elements *)
  assert (X : forall l z c c', legalize_loop bview bset_loc v (Some z) c l = legalize_loop bview bset_loc v (Some z) c' l).
  { clear l. induction l as [|x l IH]; intros z c c'; [reflexivity|]. cbn. destruct (bview x) as [z0|lo|].
    - now rewrite (IH _ c c').
    - destruct (set_lineno v lo (LLine z)) as [lo' [u|e]]; [|reflexivity]. now rewrite (IH z c c').
    - now rewrite (IH z c c'). }
  induction l as [|x l IH]; intros s c B.
  { eexists. repeat split. discriminate. }
  cbn in B. apply bind_ok in B. destruct B as (u & B1 & B). cbn [block_legalize_loop legalize_loop]. rewrite B1.
  destruct x as [i|n|z|id t la d|id]; cbn [bview].
  - assert (G : forall s' c' y, exists o,
       (let '(r', o) := block_legalize_loop v T s' c' l in (y :: r', o))
         = (fst (let '(r', o) := legalize_loop bview bset_loc v s' c' l in (y :: r', o)), o)
       /\ is_ok o = is_ok (snd (let '(r', o) := legalize_loop bview bset_loc v s' c' l in (y :: r', o)))
       /\ (forall e, o = Err e -> snd (let '(r', o) := legalize_loop bview bset_loc v s' c' l in (y :: r', o)) = Err e)).
    { intros s' c' y. destruct (IH s' c' B) as (o & E & I & ER). rewrite E.
      destruct (legalize_loop bview bset_loc v s' c' l) as [r' o']. cbn in *. eauto. }
    destruct s as [z|].
    + destruct (set_lineno v (i_loc i) (LLine z)) as [lo' [w|e]]; [apply G|].
      eexists. split; [reflexivity|]. split; [reflexivity|]. intros e' Q. injection Q as <-. reflexivity.
    + destruct (loc_lineno (i_loc i)) eqn:LL; cbn [bset_loc].
      all: try (replace (mkInstr (i_name i) (i_op i) (i_arg i) (i_loc i)) with i by (destruct i; reflexivity)).
      * destruct (set_lineno v (i_loc i) (LLine c)) as [lo' [w|e]]; [apply G|].
        eexists. split; [reflexivity|]. split; [reflexivity|]. intros e' Q. injection Q as <-. reflexivity.
      * apply G.
      * apply G.
  - cbn in B1. discriminate.
  - destruct (IH (Some z) z B) as (o & E & I & ER). rewrite E, (X l z c z).
    destruct (legalize_loop bview bset_loc v (Some z) z l) as [r' o']. cbn in *. eauto.
  - destruct (IH s c B) as (o & E & I & ER). rewrite E.
    destruct (legalize_loop bview bset_loc v s c l) as [r' o']. cbn in *. eauto.
  - destruct (IH s c B) as (o & E & I & ER). rewrite E.
    destruct (legalize_loop bview bset_loc v s c l) as [r' o']. cbn in *. eauto.
Qed.

(** the line returned *)
Lemma block_loop_cur v T l : forall s c l' c', block_legalize_loop v T s c l = (l', Ok c') ->
  match st_set bview s l with
  | Some z => (exists w, last_set bview l w) -> c' = z
  | None => c' = st_cur bview c l
  end /\ (no_set bview l -> s <> None -> c' = c).
Proof.
  induction l as [|x l IH]; intros s c l' c' E.
  { injection E as <- <-. cbn. split; [|auto]. destruct s; [|reflexivity].
    intros (w & p & x & q & Q & _). destruct p; discriminate. }
  cbn [block_legalize_loop] in E. destruct (elem_check T x l) as [u|e]; [|discriminate].
  assert (NS : no_set bview (x :: l) -> no_set bview l).
  { intros N y z J. apply N. now right. }
  assert (G : forall y s' c0, bview x <> VOther \/ True ->
     (let '(r', o) := block_legalize_loop v T s' c0 l in (y :: r', o)) = (l', Ok c') ->
     exists r', block_legalize_loop v T s' c0 l = (r', Ok c')).
  { intros y s' c0 _ Q. destruct (block_legalize_loop v T s' c0 l) as [r' o]. injection Q as <- ->. eauto. }
  assert (LS : forall w, (forall z, bview x <> VSetLine z) -> last_set bview (x :: l) w -> last_set bview l w).
  { intros w NX (p & y & q & Q & V & R). destruct p as [|p0 p]; injection Q as -> Q; [now destruct (NX w)|].
    exists p, y, q. auto. }
  destruct x as [i|n|z|id t la d|id].
  - cbn [bview] in *.
    assert (VX : forall z, bview (BI i) <> VSetLine z) by (intros; discriminate).
    destruct s as [z|].
    + destruct (set_lineno v (i_loc i) (LLine z)) as [lo' [w|e]]; [|discriminate].
      apply G in E; [|auto]. destruct E as (r' & E). destruct (IH _ _ _ _ E) as [I1 I2].
      change (st_set bview (Some z) (BI i :: l)) with (st_set bview (Some z) l).
      split; [|intros N _; apply I2; [auto|discriminate]].
      destruct (st_set bview (Some z) l) eqn:S.
      * intros (w' & H). apply I1. exists w'. now apply LS.
      * apply st_set_none in S. now destruct S.
    + change (st_set bview None (BI i :: l)) with (st_set bview None l).
      assert (G2 : forall c0, (exists r', block_legalize_loop v T None c0 l = (r', Ok c')) ->
         c0 = st_cur bview c [BI i] ->
         match st_set bview None l with Some z => (exists w, last_set bview (BI i :: l) w) -> c' = z
           | None => c' = st_cur bview c (BI i :: l) end /\ (no_set bview (BI i :: l) -> None <> None :> option Z -> c' = c)).
      { intros c0 (r' & E') C0. destruct (IH _ _ _ _ E') as [I1 _]. split; [|congruence].
        destruct (st_set bview None l).
        - intros (w & H). apply I1. exists w. now apply LS.
        - rewrite I1, C0. reflexivity. }
      destruct (i_loc i) as [lo|] eqn:LO; cbn [loc_lineno] in E.
      * destruct (l_lineno lo) as [z|] eqn:LL; cbn [linev_of] in E.
        all: apply G in E; [|auto]; apply (G2 _ E); cbn; now rewrite LO, LL.
      * destruct (set_lineno v None (LLine c)) as [lo' [w|e]]; [|discriminate].
        apply G in E; [|auto]. apply (G2 _ E). cbn. now rewrite LO.
  - cbn in E. destruct (block_legalize_loop v T s c l) as [r' o] eqn:F. injection E as <- ->.
    destruct (IH _ _ _ _ F) as [I1 I2]. split; [|auto].
    change (st_set bview s (BLabel n :: l)) with (st_set bview s l). change (st_cur bview c (BLabel n :: l)) with (st_cur bview c l).
    destruct (st_set bview s l); [|exact I1]. intros (w & H). apply I1. exists w. apply LS; [intros; discriminate|exact H].
  - destruct (block_legalize_loop v T (Some z) z l) as [r' o] eqn:F. injection E as <- ->.
    destruct (IH _ _ _ _ F) as [I1 I2]. split.
    + change (st_set bview s (BSet z :: l)) with (st_set bview (Some z) l).
      destruct (st_set bview (Some z) l) as [z'|] eqn:S.
      * intros _. destruct (st_set_some bview l _ _ S) as [H|[Q H]].
        -- apply I1. eauto.
        -- injection Q as ->. apply I2; [exact H|discriminate].
      * apply st_set_none in S. now destruct S.
    + intros N. now destruct (N (BSet z) z (or_introl eq_refl)).
  - cbn in E. destruct (block_legalize_loop v T s c l) as [r' o] eqn:F. injection E as <- ->.
    destruct (IH _ _ _ _ F) as [I1 I2]. split; [|auto].
    change (st_set bview s (BTB id t la d :: l)) with (st_set bview s l). change (st_cur bview c (BTB id t la d :: l)) with (st_cur bview c l).
    destruct (st_set bview s l); [|exact I1]. intros (w & H). apply I1. exists w. apply LS; [intros; discriminate|exact H].
  - cbn in E. destruct (block_legalize_loop v T s c l) as [r' o] eqn:F. injection E as <- ->.
    destruct (IH _ _ _ _ F) as [I1 I2]. split; [|auto].
    change (st_set bview s (BTE id :: l)) with (st_set bview s l). change (st_cur bview c (BTE id :: l)) with (st_cur bview c l).
    destruct (st_set bview s l); [|exact I1]. intros (w & H). apply I1. exists w. apply LS; [intros; discriminate|exact H].
Qed.

Lemma block_loop_end v T first l l' c : block_legalize_loop v T None first l = (l', Ok c) -> end_line first l c.
Proof.
  intros E. destruct (block_loop_cur v T l None first l' c E) as [H _]. unfold end_line.
  destruct (st_set bview None l) as [z|] eqn:S.
  - left. destruct (st_set_some bview l _ _ S) as [L|[? _]]; [|discriminate].
    rewrite H; eauto.
  - right. apply st_set_none in S. destruct S as [_ N]. split; [exact N|]. subst c. apply st_cur_spec.
Qed.

Lemma bview_set x lo lo' : bview x = VInstr lo -> bview (bset_loc x lo') = VInstr lo'.
Proof. destruct x; cbn; try discriminate. reflexivity. Qed.
Lemma bset_id x lo : bview x = VInstr lo -> bset_loc x lo = x.
Proof. destruct x as [[]| | | |]; cbn; try discriminate. now intros Q; injection Q as ->. Qed.

Lemma end_line_min v first l z : lines_ok bview v l -> min_lineno v <= first -> end_line first l z -> min_lineno v <= z.
Proof.
  intros L F [(p & x & q & -> & V & _)|(_ & [(p & x & q & -> & (lo & V & Z) & _)|[-> _]])]; [| |exact F].
  - assert (X := L x). cbv beta in X. rewrite V in X. apply X. apply in_app_iff. right. now left.
  - assert (X := L x). cbv beta in X. rewrite V in X. apply X; [apply in_app_iff; right; now left|exact Z].
Qed.

Lemma block_legalize_ok v T first l : block_iter T l = Ok tt -> no_detail_after_set bview l -> lines_ok bview v l ->
  min_lineno v <= first ->
  exists l' c, block_legalize v T first l = (l', Ok c) /\ legalized bview bset_loc first l l'
    /\ no_set bview l' /\ end_line first l c.
Proof.
  intros B D L F. destruct (legalize_ok bview bset_loc v bview_set bset_id first l D L F) as (l' & E & G & N).
  unfold legalize in E. destruct (block_loop_eq v T l None first B) as (o & EB & I & ER).
  destruct (legalize_loop bview bset_loc v None first l) as [l1 [u|e]] eqn:LE; [|discriminate].
  cbn in EB, I, ER. destruct o as [c|e]; [|discriminate].
  exists l', c. unfold block_legalize. rewrite EB. split; [|eauto using block_loop_end].
  f_equal. injection E as <-. apply filter_ext. intros x. now destruct x.
Qed.

(** the loop over the blocks *)
Lemma blk_upd h n b m : (n < length h)%nat ->
  match nth_error (set_heap h n b) m with Some b => b | None => mkBlk [] None end
  = if Nat.eqb m n then b else match nth_error h m with Some b => b | None => mkBlk [] None end.
Proof. intros L. unfold set_heap. rewrite upd_nth by exact L. now destruct (Nat.eqb m n). Qed.

Definition hblk (h : list block) (n : nat) : block :=
  match nth_error h n with Some b => b | None => mkBlk [] None end.

Lemma cfg_loop_ok v T order : forall h first, NoDup order -> Forall (fun n => (n < length h)%nat) order ->
  (forall n, In n order -> block_iter T (k_items (hblk h n)) = Ok tt
      /\ no_detail_after_set bview (k_items (hblk h n)) /\ lines_ok bview v (k_items (hblk h n))) ->
  min_lineno v <= first ->
  exists h', cfg_legalize_loop v T first h order = (h', Ok tt) /\ length h' = length h
    /\ (forall n, ~ In n order -> hblk h' n = hblk h n)
    /\ exists lines : nat -> Z, lines 0%nat = first /\
       forall k n, nth_error order k = Some n ->
         legalized bview bset_loc (lines k) (k_items (hblk h n)) (k_items (hblk h' n))
         /\ no_set bview (k_items (hblk h' n))
         /\ k_next (hblk h' n) = k_next (hblk h n)
         /\ end_line (lines k) (k_items (hblk h n)) (lines (S k)).
Proof.
  induction order as [|m r IH]; intros h first N F H M.
  { exists h. repeat split; auto. exists (fun _ => first). split; [reflexivity|]. intros [|k] n Q; discriminate. }
  inversion N as [|? ? N1 N2]; subst. inversion F as [|? ? F1 F2]; subst.
  destruct (H m (or_introl eq_refl)) as (B & D & L).
  destruct (block_legalize_ok v T first _ B D L M) as (l' & c & E & G & NS & EL).
  cbn [cfg_legalize_loop]. fold (hblk h m). rewrite E.
  set (h1 := set_heap h m (mkBlk l' (k_next (hblk h m)))).
  assert (HB : forall n, hblk h1 n = if Nat.eqb n m then mkBlk l' (k_next (hblk h m)) else hblk h n).
  { intros n. unfold hblk, h1. now apply blk_upd. }
  assert (L1 : length h1 = length h) by apply upd_length.
  assert (NE : forall n, In n r -> Nat.eqb n m = false).
  { intros n J. apply Nat.eqb_neq. congruence. }
  destruct (IH h1 c N2) as (h' & E' & L' & O' & lines & Z & H').
  { now rewrite L1. }
  { intros n J. rewrite HB, NE by exact J. apply H. now right. }
  { eapply end_line_min; eauto. }
  exists h'. split; [exact E'|]. split; [congruence|]. split.
  { intros n J. rewrite O', HB by (intros K; apply J; now right).
    destruct (Nat.eqb n m) eqn:Q; [|reflexivity]. apply Nat.eqb_eq in Q. subst. destruct J. now left. }
  exists (fun k => match k with O => first | S k => lines k end). split; [reflexivity|].
  intros [|k] n Q; cbn in Q.
  - injection Q as <-. rewrite O' by exact N1. rewrite HB, Nat.eqb_refl. cbn [k_items k_next]. rewrite Z. auto.
  - assert (J := nth_error_In _ _ Q). destruct (H' k n Q) as (A1 & A2 & A3 & A4).
    rewrite HB, NE in * by exact J. auto.
Qed.

(** ** split_block *)
Lemma blk_hblk g n : blk g n = hblk (g_heap g) n. Proof. reflexivity. Qed.

Lemma ok_pair {A B} (a c : A) (b d : B) : Ok (a, b) = Ok (c, d) -> a = c /\ b = d.
Proof. intros E. now inversion E. Qed.

Lemma split_was T g n index g' b : ginv g -> split_block T g n index = Ok (g', b) ->
  exists k, nth_error (g_order g) k = Some n /\ 0 <= index <= zlen (k_items (blk g n)) /\
   ((index = 0 /\ g' = g /\ b = n)
    \/ (index = zlen (k_items (blk g n)) /\ g' = g /\ nth_error (g_order g) (S k) = Some b)
    \/ (was_split g g' k n index b /\ k_next (blk g' b) = None)).
Proof.
  intros G E. destruct (split_ok _ _ _ _ _ _ G E) as (k & H & I & C). exists k. split; [exact H|]. split; [exact I|].
  destruct C as [(-> & -> & ->)|[(-> & _ & -> & X)|(I0 & NE & BI)]]; [auto|auto|]. right. right.
  destruct (split_eq T g n k index G H I0 (proj2 I) NE BI) as (idx & E' & K & D).
  rewrite E' in E. apply ok_pair in E. destruct E as [<- <-].
  assert (FR := ginv_fresh g G). destruct G as (N & F & _). rewrite Forall_forall in F.
  assert (LN : (n < length (g_heap g))%nat) by (apply F; eapply nth_error_In; exact H).
  assert (BL : forall m, (m < length (g_heap g))%nat ->
    blk (mkG (g_meta g) (g_argnames g) (set_heap (g_heap g) n (mkBlk (firstn (Z.to_nat index) (k_items (blk g n))) (Some (length (g_heap g))))
             ++ [mkBlk (skipn (Z.to_nat index) (k_items (blk g n))) None])
            (firstn (S k) (g_order g) ++ length (g_heap g) :: skipn (S k) (g_order g)) idx) m
    = if Nat.eqb m n then mkBlk (firstn (Z.to_nat index) (k_items (blk g n))) (Some (length (g_heap g))) else blk g m).
  { intros m L. unfold blk at 1. cbn [g_heap]. unfold set_heap. rewrite nth_error_app1 by (rewrite upd_length; exact L).
    rewrite upd_nth by exact LN. unfold blk. now destruct (Nat.eqb m n). }
  assert (B2 : blk (mkG (g_meta g) (g_argnames g) (set_heap (g_heap g) n (mkBlk (firstn (Z.to_nat index) (k_items (blk g n))) (Some (length (g_heap g))))
             ++ [mkBlk (skipn (Z.to_nat index) (k_items (blk g n))) None])
            (firstn (S k) (g_order g) ++ length (g_heap g) :: skipn (S k) (g_order g)) idx) (length (g_heap g))
    = mkBlk (skipn (Z.to_nat index) (k_items (blk g n))) None).
  { unfold blk at 1. cbn [g_heap]. unfold set_heap. rewrite nth_error_app2 by (rewrite upd_length; lia).
    rewrite upd_length, Nat.sub_diag. reflexivity. }
  unfold was_split. rewrite (BL n LN), Nat.eqb_refl, B2. cbn [k_items k_next].
  repeat split; auto. intros m J NM. rewrite BL by now apply F.
  apply Nat.eqb_neq in NM. now rewrite NM.
Qed.

Lemma was_split_items g g' k n index b : ginv g -> nth_error (g_order g) k = Some n ->
  was_split g g' k n index b -> all_items g' = all_items g.
Proof.
  intros (N & F & _) H (FR & O & I1 & I2 & _ & OT & _). unfold all_items. rewrite O.
  rewrite (firstn_skipn_nth _ _ _ H) in N.
  assert (OT' : forall m, In m (firstn k (g_order g) ++ skipn (S k) (g_order g)) -> k_items (blk g' m) = k_items (blk g m)).
  { intros m J. rewrite OT; auto.
    - rewrite (firstn_skipn_nth _ _ _ H). apply in_app_iff. apply in_app_iff in J. destruct J; [left|right; right]; auto.
    - intros ->. apply NoDup_remove_2 in N. contradiction. }
  assert (FS : firstn (S k) (g_order g) = firstn k (g_order g) ++ [n]).
  { clear - H. revert k H. induction (g_order g) as [|x l IH]; intros [|k] H; try discriminate; cbn in *; [congruence|].
    f_equal. now apply IH. }
  rewrite FS. rewrite (firstn_skipn_nth _ _ _ H) at 3. rewrite <- app_assoc. cbn [app].
  rewrite !flat_map_app. cbn [flat_map].
  assert (X : forall l, (forall m, In m l -> In m (firstn k (g_order g) ++ skipn (S k) (g_order g))) ->
    flat_map (fun n => k_items (blk g' n)) l = flat_map (fun n => k_items (blk g n)) l).
  { induction l as [|x l IH]; intros S; [reflexivity|]. cbn. rewrite OT', IH; auto.
    - intros m J. apply S. now right. - apply S. now left. }
  rewrite !X by (intros; apply in_app_iff; auto). rewrite I1, I2, (app_assoc (firstn _ _)), firstn_skipn. reflexivity.
Qed.

Lemma split_errors T g n index : ginv g ->
  (~ In n (g_order g) -> split_block T g n index = Err ValueError)
  /\ (In n (g_order g) -> index < 0 \/ zlen (k_items (blk g n)) < index -> split_block T g n index = Err ValueError).
Proof.
  intros G. destruct (ginv_indexed g G) as [I1 I2]. split.
  - intros J. unfold split_block. now rewrite I2.
  - intros J R. apply In_nth_error in J. destruct J as (k & H). destruct (I1 k n H) as [GE BI].
    unfold split_block. rewrite BI. cbn [bind]. destruct (index <? 0) eqn:Q; [reflexivity|]. apply Z.ltb_ge in Q.
    unfold getitem in GE. rewrite GE. cbn [bind]. destruct R as [R|R]; [lia|].
    assert (Z0 := zlen_nonneg (k_items (blk g n))).
    destruct (index =? 0) eqn:Q2; [apply Z.eqb_eq in Q2; lia|].
    destruct (zlen (k_items (blk g n)) <? index) eqn:Q3; [reflexivity|]. apply Z.ltb_ge in Q3. lia.
Qed.
