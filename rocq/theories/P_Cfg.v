(** Proofs about graphs as lists of blocks: indices, split, dead blocks. *)
From Verif Require Import PyBase OpTable P_Base P_OpTable M_Instr M_Concrete M_Bytecode M_Cfg S_Prog S_Legal S_Cfg.
Open Scope list_scope.
Open Scope Z_scope.

(** ** dictionaries with numbers as keys *)
Section D.
  Context {V : Type}.
  Implicit Types (d : list (nat * V)).
  Lemma dg_set d k x k' : dget Nat.eqb (dset Nat.eqb d k x) k' = if Nat.eqb k' k then Some x else dget Nat.eqb d k'.
  Proof.
    induction d as [|(a, y) d IH]; cbn; [reflexivity|].
    destruct (Nat.eqb k a) eqn:E; cbn.
    - apply Nat.eqb_eq in E. subst a. now destruct (Nat.eqb k' k).
    - rewrite IH. destruct (Nat.eqb k' a) eqn:F; [|reflexivity].
      apply Nat.eqb_eq in F. subst a. rewrite Nat.eqb_sym in E. now rewrite E.
  Qed.
  Lemma dg_none d k : ~ In k (map fst d) <-> dget Nat.eqb d k = None.
  Proof.
    induction d as [|(a, y) d IH]; cbn; [tauto|].
    destruct (Nat.eqb k a) eqn:E.
    - apply Nat.eqb_eq in E. subst a. split; [tauto|discriminate].
    - apply Nat.eqb_neq in E. rewrite <- IH. intuition congruence.
  Qed.
  Lemma ds_keys d k x : NoDup (map fst d) -> NoDup (map fst (dset Nat.eqb d k x)).
  Proof.
    induction d as [|(a, y) d IH]; cbn; intros N; [repeat constructor; tauto|].
    destruct (Nat.eqb k a) eqn:E; cbn; [exact N|].
    inversion N as [|? ? N1 N2]; subst. constructor; [|auto].
    intros J. apply dg_none in N1. apply in_map_iff in J. destruct J as ((a', y') & <- & J).
    assert (X : dget Nat.eqb (dset Nat.eqb d k x) a' <> None).
    { intros X. apply dg_none in X. apply X. cbn. apply (in_map fst) in J. exact J. }
    rewrite dg_set in X. cbn in *. rewrite Nat.eqb_sym, E in X. congruence.
  Qed.
  Lemma dd_get d k k' : NoDup (map fst d) ->
    dget Nat.eqb (ddel Nat.eqb d k) k' = if Nat.eqb k' k then None else dget Nat.eqb d k'.
  Proof.
    induction d as [|(a, y) d IH]; cbn; intros N; [now destruct (Nat.eqb k' k)|].
    inversion N as [|? ? N1 N2]; subst. destruct (Nat.eqb k a) eqn:E; cbn.
    - apply Nat.eqb_eq in E. subst a. destruct (Nat.eqb k' k) eqn:F; [|reflexivity].
      apply Nat.eqb_eq in F. subst. now apply dg_none.
    - rewrite IH by assumption. destruct (Nat.eqb k' a) eqn:F; [|reflexivity].
      apply Nat.eqb_eq in F. subst a. rewrite Nat.eqb_sym in E. now rewrite E.
  Qed.
  Lemma dd_keys d k : NoDup (map fst d) -> NoDup (map fst (ddel Nat.eqb d k)).
  Proof.
    induction d as [|(a, y) d IH]; cbn; intros N; [constructor|].
    inversion N as [|? ? N1 N2]; subst. destruct (Nat.eqb k a) eqn:E; cbn; [exact N2|].
    constructor; [|auto]. rewrite dg_none in *. rewrite dd_get by assumption. now destruct (Nat.eqb a k).
  Qed.
End D.

(** position of a number in a list *)
Fixpoint pos (n : nat) (l : list nat) : option nat :=
  match l with [] => None | m :: r => if Nat.eqb n m then Some 0%nat else option_map S (pos n r) end.

Lemma pos_none n l : pos n l = None <-> ~ In n l.
Proof.
  induction l as [|m r IH]; cbn; [tauto|]. destruct (Nat.eqb n m) eqn:E.
  - apply Nat.eqb_eq in E. subst. split; [discriminate|tauto].
  - apply Nat.eqb_neq in E. destruct (pos n r); cbn; intuition congruence.
Qed.
Lemma pos_nth n l k : NoDup l -> (pos n l = Some k <-> nth_error l k = Some n).
Proof.
  revert k. induction l as [|m r IH]; intros k N.
  { destruct k; cbn; split; discriminate. }
  inversion N as [|? ? N1 N2]; subst. cbn. destruct (Nat.eqb n m) eqn:E.
  - apply Nat.eqb_eq in E. subst. destruct k; cbn; [tauto|].
    split; [discriminate|]. intros H. apply nth_error_In in H. contradiction.
  - apply Nat.eqb_neq in E. destruct k; cbn.
    + split; [destruct (pos n r); discriminate|congruence].
    + rewrite <- IH by assumption. destruct (pos n r); cbn; split; congruence.
Qed.
Lemma pos_app n a b : pos n (a ++ b) = match pos n a with Some k => Some k | None => option_map (Nat.add (length a)) (pos n b) end.
Proof.
  induction a as [|m r IH]; cbn; [now destruct (pos n b)|].
  destruct (Nat.eqb n m); [reflexivity|]. rewrite IH. destruct (pos n r), (pos n b); reflexivity.
Qed.

(** ** The invariant *)
Definition ginv (g : cfg) : Prop :=
  NoDup (g_order g) /\ Forall (fun n => (n < length (g_heap g))%nat) (g_order g)
  /\ NoDup (map fst (g_index g))
  /\ forall n, dget Nat.eqb (g_index g) n = option_map Z.of_nat (pos n (g_order g)).

Lemma ginv_indexed g : ginv g -> indexed g.
Proof.
  intros (N & F & K & D). split.
  - intros i n H. split.
    + unfold getitem, py_index. assert (L := nth_error_Some (g_order g) i). rewrite H in L.
      assert ((i < length (g_order g))%nat) by (apply L; discriminate).
      destruct (Z.of_nat i <? 0) eqn:E; [apply Z.ltb_lt in E; lia|].
      assert (zlen (g_order g) = Z.of_nat (length (g_order g))) by reflexivity.
      destruct (zlen (g_order g) <=? Z.of_nat i) eqn:E2; [apply Z.leb_le in E2; lia|].
      rewrite E. cbn. rewrite Nat2Z.id, H. reflexivity.
    + unfold get_block_index. rewrite D. apply pos_nth in H; [|exact N]. now rewrite H.
  - intros n H. unfold get_block_index. rewrite D. apply pos_none in H. now rewrite H.
Qed.

Lemma ginv_new : ginv new_cfg.
Proof.
  split; [repeat constructor; tauto|]. split; [repeat constructor|]. split; [repeat constructor; tauto|].
  intros [|n]; reflexivity.
Qed.

Lemma NoDup_snoc {A} (l : list A) x : NoDup l -> ~ In x l -> NoDup (l ++ [x]).
Proof.
  intros N I. apply NoDup_rev in N. rewrite <- (rev_involutive (l ++ [x])). apply NoDup_rev.
  rewrite rev_app_distr. cbn. constructor; [|exact N]. now rewrite <- in_rev.
Qed.

Lemma ginv_fresh g : ginv g -> ~ In (length (g_heap g)) (g_order g).
Proof. intros (_ & F & _) J. rewrite Forall_forall in F. apply F in J. lia. Qed.

Lemma ginv_add g items : ginv g -> ginv (fst (add_block g items)).
Proof.
  intros G. assert (FR := ginv_fresh g G). destruct G as (N & F & K & D).
  unfold add_block, ginv. cbn [fst g_order g_heap g_index]. repeat split.
  - now apply NoDup_snoc.
  - rewrite app_length. cbn. apply Forall_app. split.
    + eapply Forall_impl; [|exact F]. cbn. intros; lia.
    + constructor; [lia|constructor].
  - now apply ds_keys.
  - intros n. rewrite dg_set, pos_app, D. cbn. destruct (Nat.eqb n (length (g_heap g))) eqn:E.
    + apply Nat.eqb_eq in E. subst. apply pos_none in FR. rewrite FR. cbn. unfold zlen. now rewrite Nat.add_0_r.
    + now destruct (pos n (g_order g)).
Qed.

Lemma firstn_skipn_nth {A} (l : list A) k x : nth_error l k = Some x -> l = firstn k l ++ x :: skipn (S k) l.
Proof.
  revert k. induction l as [|y l IH]; intros [|k] H; try discriminate; cbn in *; [congruence|].
  f_equal. now apply IH.
Qed.

(** the decrement / increment loops *)
Lemma shift_fold (s : Z) (l : list nat) : forall idx, NoDup l -> NoDup (map fst idx) ->
  (forall n, In n l -> dget Nat.eqb idx n <> None) ->
  exists idx', foldM (fun idx c => k <- of_option KeyError (dget Nat.eqb idx c) ;;
                        Ok (dset Nat.eqb idx c (k + s))) l idx = Ok idx'
    /\ NoDup (map fst idx')
    /\ forall n, dget Nat.eqb idx' n = if nat_mem n l then option_map (Z.add s) (dget Nat.eqb idx n) else dget Nat.eqb idx n.
Proof.
  induction l as [|m r IH]; intros idx N K H.
  { exists idx. repeat split; auto. }
  inversion N as [|? ? N1 N2]; subst. cbn.
  destruct (dget Nat.eqb idx m) as [x|] eqn:E; [|destruct (H m (or_introl eq_refl) E)].
  cbn. destruct (IH (dset Nat.eqb idx m (x + s)) N2) as (idx' & F & K' & D').
  { now apply ds_keys. }
  { intros n J. rewrite dg_set. destruct (Nat.eqb n m); [discriminate|]. apply H. now right. }
  exists idx'. repeat split; [exact F|exact K'|]. intros n. rewrite D', dg_set.
  destruct (Nat.eqb n m) eqn:Q; cbn.
  - apply Nat.eqb_eq in Q. subst m. rewrite E. cbn.
    assert (X : nat_mem n r = false).
    { rewrite <- not_true_iff_false. intros X. unfold nat_mem in X. apply existsb_exists in X.
      destruct X as (y & J & Y). apply Nat.eqb_eq in Y. congruence. }
    rewrite X. f_equal. lia.
  - reflexivity.
Qed.

Lemma nat_mem_In n l : nat_mem n l = true <-> In n l.
Proof.
  unfold nat_mem. rewrite existsb_exists. split.
  - intros (y & J & E). apply Nat.eqb_eq in E. congruence.
  - intros J. exists n. split; [exact J|apply Nat.eqb_refl].
Qed.

Lemma foldM_ext {A B} (f f' : A -> B -> res A) l : (forall a x, f a x = f' a x) -> forall a, foldM f l a = foldM f' l a.
Proof. intros E. induction l as [|x l IH]; intros a; cbn; [reflexivity|]. rewrite E. destruct (f' a x); cbn; auto. Qed.
Lemma foldM_map {A B C} (h : C -> B) (f : A -> B -> res A) l : forall a, foldM f (map h l) a = foldM (fun a x => f a (h x)) l a.
Proof. induction l as [|x l IH]; intros a; cbn; [reflexivity|]. destruct (f a (h x)); cbn; auto. Qed.
Lemma foldM_idx {A B} (f : A -> B -> res A) l : forall k a pre, length pre = k ->
  foldM (fun a i => b <- py_index (pre ++ l) i ;; f a b) (map Z.of_nat (seq k (length l))) a = foldM f l a.
Proof.
  induction l as [|x l IH]; intros k a pre L; cbn [length seq map foldM]; [reflexivity|].
  assert (E : py_index (pre ++ x :: l) (Z.of_nat k) = Ok x).
  { unfold py_index. destruct (Z.of_nat k <? 0) eqn:Q; [apply Z.ltb_lt in Q; lia|]. rewrite Q. cbn [orb].
    destruct (zlen (pre ++ x :: l) <=? Z.of_nat k) eqn:Q2.
    { apply Z.leb_le in Q2. unfold zlen in Q2. rewrite app_length in Q2. cbn in Q2. lia. }
    rewrite Nat2Z.id, nth_error_app2, L, Nat.sub_diag by lia. reflexivity. }
  rewrite E. cbn. destruct (f a x) as [a'|e]; cbn; [|reflexivity].
  specialize (IH (S k) a' (pre ++ [x])). rewrite <- app_assoc in IH. cbn in IH. apply IH.
  rewrite app_length. cbn. lia.
Qed.

Lemma zrange_nat k n : zrange (Z.of_nat k) (Z.of_nat (k + n)) = map Z.of_nat (seq k n).
Proof.
  unfold zrange. replace (Z.to_nat (Z.of_nat (k + n) - Z.of_nat k)) with n by lia.
  assert (X : forall j, map (fun i => Z.of_nat k + Z.of_nat i) (seq j n) = map Z.of_nat (seq (j + k) n)).
  { induction n as [|n IH]; intros j; cbn; [reflexivity|]. f_equal; [lia|]. now rewrite IH. }
  apply (X 0%nat).
Qed.

Lemma NoDup_r {A} (a b : list A) : NoDup (a ++ b) -> NoDup b.
Proof. induction a; cbn; [auto|]. intros N. inversion N; auto. Qed.
Lemma NoDup_disj {A} (a b : list A) x : NoDup (a ++ b) -> In x a -> ~ In x b.
Proof.
  induction a as [|y a IH]; cbn; [tauto|]. intros N. inversion N as [|? ? N1 N2]; subst.
  intros [<-|J]; [|auto]. intros J. apply N1. apply in_app_iff. now right.
Qed.

Lemma delitem_eq g k b : ginv g -> nth_error (g_order g) k = Some b ->
  exists idx, delitem g (Z.of_nat k) = Ok (mkG (g_meta g) (g_argnames g) (g_heap g) (remove_at k (g_order g)) idx)
    /\ NoDup (map fst idx)
    /\ forall n, dget Nat.eqb idx n = option_map Z.of_nat (pos n (remove_at k (g_order g))).
Proof.
  intros (N & F & K & D) H.
  assert (LK : (k < length (g_order g))%nat) by (apply nth_error_Some; congruence).
  assert (P : py_index (g_order g) (Z.of_nat k) = Ok b).
  { destruct (ginv_indexed g (conj N (conj F (conj K D)))) as [I _]. now apply I. }
  unfold delitem. rewrite P. cbn [bind].
  destruct (Z.of_nat k <? 0) eqn:Q; [apply Z.ltb_lt in Q; lia|]. rewrite Nat2Z.id.
  assert (PB : pos b (g_order g) = Some k) by now apply pos_nth.
  rewrite D, PB. cbn [option_map of_option bind].
  set (pre := firstn k (g_order g)). set (suf := skipn (S k) (g_order g)).
  assert (LP : length pre = k) by (unfold pre; rewrite firstn_length; lia).
  assert (OE : g_order g = pre ++ b :: suf) by now apply firstn_skipn_nth.
  unfold remove_at. fold pre suf.
  replace (zlen (pre ++ suf)) with (Z.of_nat (k + length suf)) by (unfold zlen; rewrite app_length; lia).
  rewrite zrange_nat, foldM_idx by exact LP.
  rewrite OE in N. assert (N' := N). apply NoDup_remove in N'. destruct N' as [N1 N2].
  assert (NS : NoDup suf).
  { eapply NoDup_r; exact N1. }
  destruct (shift_fold (-1) suf (ddel Nat.eqb (g_index g) b)) as (idx & E & K' & D').
  { exact NS. } { now apply dd_keys. }
  { intros n J. rewrite dd_get by assumption. destruct (Nat.eqb n b) eqn:E.
    - apply Nat.eqb_eq in E. subst n. destruct N2. apply in_app_iff. now right.
    - rewrite D, OE. destruct (pos n (pre ++ b :: suf)) eqn:X; [discriminate|].
      apply pos_none in X. destruct X. apply in_app_iff. right. now right. }
  rewrite (foldM_ext _ (fun idx c => k <- of_option KeyError (dget Nat.eqb idx c) ;; Ok (dset Nat.eqb idx c (k + -1)))).
  2:{ intros a x. destruct (dget Nat.eqb a x) as [y|]; cbn; [|reflexivity]. reflexivity. }
  rewrite E. cbn [bind]. exists idx. split; [reflexivity|]. split; [exact K'|].
  intros n. rewrite D', dd_get, D, OE by assumption. rewrite !pos_app. cbn [pos].
  destruct (nat_mem n suf) eqn:M.
  - apply nat_mem_In in M. destruct (Nat.eqb n b) eqn:E2.
    { apply Nat.eqb_eq in E2. subst n. destruct N2. apply in_app_iff. now right. }
    assert (X : pos n pre = None).
    { apply pos_none. intros J. exact (NoDup_disj _ _ _ N1 J M). }
    rewrite X. destruct (pos n suf) as [j|]; cbn [option_map]; [|reflexivity]. f_equal. lia.
  - assert (X : pos n suf = None).
    { apply pos_none. intros J. apply nat_mem_In in J. congruence. }
    rewrite X. destruct (Nat.eqb n b) eqn:E2.
    + apply Nat.eqb_eq in E2. subst n. assert (Y : pos b pre = None).
      { apply pos_none. intros J. destruct N2. apply in_app_iff. now left. }
      now rewrite Y.
    + cbn. destruct (pos n pre); reflexivity.
Qed.

Lemma remove_at_in {A} k (l : list A) x : In x (remove_at k l) -> In x l.
Proof.
  unfold remove_at. rewrite in_app_iff. intros [J|J].
  - rewrite <- (firstn_skipn k l). apply in_app_iff. now left.
  - rewrite <- (firstn_skipn (S k) l). apply in_app_iff. now right.
Qed.
Lemma remove_at_NoDup {A} k (l : list A) : NoDup l -> NoDup (remove_at k l).
Proof.
  intros N. destruct (nth_error l k) as [x|] eqn:E.
  - rewrite (firstn_skipn_nth l k x E) in N. apply NoDup_remove_1 in N. exact N.
  - apply nth_error_None in E. unfold remove_at. rewrite firstn_all2, skipn_all2, app_nil_r by lia. exact N.
Qed.

Lemma ginv_del g k b : ginv g -> nth_error (g_order g) k = Some b ->
  exists g', delitem g (Z.of_nat k) = Ok g' /\ ginv g' /\ g_order g' = remove_at k (g_order g) /\ g_heap g' = g_heap g.
Proof.
  intros G H. destruct (delitem_eq g k b G H) as (idx & E & K & D). eexists. split; [exact E|].
  destruct G as (N & F & _). split; [|auto]. repeat split; cbn; auto.
  - now apply remove_at_NoDup.
  - rewrite Forall_forall in *. intros x J. apply F. now apply remove_at_in in J.
Qed.

Lemma delitem_index g i g' : 0 <= i -> delitem g i = Ok g' -> exists k b, i = Z.of_nat k /\ nth_error (g_order g) k = Some b.
Proof.
  intros I E. unfold delitem in E. inv_ok. exists (Z.to_nat i), x. split; [lia|].
  unfold py_index in E0. destruct (i <? 0) eqn:Q; [apply Z.ltb_lt in Q; lia|]. rewrite Q in E0. cbn [orb] in E0.
  destruct (zlen (g_order g) <=? i); [discriminate|]. destruct (nth_error (g_order g) (Z.to_nat i)); congruence.
Qed.

Lemma get_block_index_ok g n i : ginv g -> get_block_index g n = Ok i ->
  exists k, i = Z.of_nat k /\ nth_error (g_order g) k = Some n.
Proof.
  intros (N & F & K & D) E. unfold get_block_index in E. rewrite D in E.
  destruct (pos n (g_order g)) as [k|] eqn:P; [|discriminate]. injection E as <-.
  exists k. split; [reflexivity|]. now apply pos_nth.
Qed.

(** ** split_block *)
Lemma upd_length {A} (l : list A) n x : length (upd n x l) = length l.
Proof. revert n. induction l as [|y l IH]; intros [|n]; cbn; auto. Qed.
Lemma upd_nth {A} (l : list A) n x m : (n < length l)%nat ->
  nth_error (upd n x l) m = if Nat.eqb m n then Some x else nth_error l m.
Proof.
  revert n m. induction l as [|y l IH]; intros [|n] m L; cbn in L; try lia.
  - destruct m; reflexivity.
  - destruct m; cbn; [reflexivity|]. apply IH. lia.
Qed.

Lemma clip_in {A} k (l : list A) : (k < length l)%nat -> clip (Z.of_nat k + 1) l = Z.of_nat (S k).
Proof.
  intros L. unfold clip. destruct (Z.of_nat k + 1 <? 0) eqn:Q; [apply Z.ltb_lt in Q; lia|].
  unfold zlen. lia.
Qed.

Lemma skipn_nil_len {A} n (l : list A) : skipn n l = [] <-> (length l <= n)%nat.
Proof.
  revert n. induction l as [|x l IH]; intros [|n]; cbn; split; intros; try lia; try discriminate; auto.
  - apply IH in H. lia.
  - apply IH. lia.
Qed.

(** What split_block does, on a block of the graph and an index inside it. *)
Lemma split_eq T g n k index : ginv g -> nth_error (g_order g) k = Some n ->
  0 < index -> index <= zlen (k_items (blk g n)) ->
  skipn (Z.to_nat index) (k_items (blk g n)) <> [] \/ S k = length (g_order g) ->
  block_iter T (skipn (Z.to_nat index) (k_items (blk g n))) = Ok tt ->
  exists idx, split_block T g n index
    = Ok (mkG (g_meta g) (g_argnames g)
            (set_heap (g_heap g) n (mkBlk (firstn (Z.to_nat index) (k_items (blk g n))) (Some (length (g_heap g))))
             ++ [mkBlk (skipn (Z.to_nat index) (k_items (blk g n))) None])
            (firstn (S k) (g_order g) ++ length (g_heap g) :: skipn (S k) (g_order g)) idx,
          length (g_heap g))
    /\ NoDup (map fst idx)
    /\ forall m, dget Nat.eqb idx m = option_map Z.of_nat
         (pos m (firstn (S k) (g_order g) ++ length (g_heap g) :: skipn (S k) (g_order g))).
Proof.
  intros G H I1 I2 NE BI. assert (GI := ginv_indexed g G). assert (FR := ginv_fresh g G).
  destruct (proj1 GI k n H) as [GE BIX]. destruct G as (N & F & K & D).
  assert (LK : (k < length (g_order g))%nat) by (apply nth_error_Some; congruence).
  unfold split_block. rewrite BIX. cbn [bind].
  destruct (index <? 0) eqn:Q1; [apply Z.ltb_lt in Q1; lia|].
  unfold getitem in GE. rewrite GE. cbn [bind].
  destruct (index =? 0) eqn:Q2; [apply Z.eqb_eq in Q2; lia|].
  destruct (zlen (k_items (blk g n)) <? index) eqn:Q3; [apply Z.ltb_lt in Q3; lia|].
  set (suf := skipn (Z.to_nat index) (k_items (blk g n))) in *.
  assert (C : match suf with [] => Z.of_nat k + 1 <? zlen (g_order g) | _ :: _ => false end = false).
  { destruct suf; [|reflexivity]. destruct NE as [NE|NE]; [congruence|]. apply Z.ltb_ge. unfold zlen. lia. }
  rewrite C, BI. cbn [bind]. unfold slice_from, insert_at. rewrite clip_in by exact LK.
  rewrite Nat2Z.id.
  assert (OE := firstn_skipn (S k) (g_order g)).
  set (a := firstn (S k) (g_order g)) in *. set (b := skipn (S k) (g_order g)) in *.
  assert (LA : length a = S k) by (unfold a; rewrite firstn_length; lia).
  assert (NB : NoDup b /\ forall x, In x b -> ~ In x a).
  { rewrite <- OE in N. split; [eapply NoDup_r; exact N|]. intros x J J2. exact (NoDup_disj _ _ _ N J2 J). }
  destruct NB as [NB DJ].
  destruct (shift_fold 1 b (g_index g) NB K) as (idx & E & K' & D').
  { intros x J. rewrite D. destruct (pos x (g_order g)) eqn:P; [discriminate|].
    apply pos_none in P. destruct P. rewrite <- OE. apply in_app_iff. now right. }
  rewrite E. cbn [bind]. exists (dset Nat.eqb idx (length (g_heap g)) (Z.of_nat k + 1)).
  split; [reflexivity|]. split; [now apply ds_keys|].
  intros m. rewrite dg_set, D', D. rewrite <- OE, !pos_app. cbn [pos].
  destruct (Nat.eqb m (length (g_heap g))) eqn:QM.
  - apply Nat.eqb_eq in QM. subst m.
    assert (X : pos (length (g_heap g)) a = None).
    { apply pos_none. intros J. apply FR. rewrite <- OE. apply in_app_iff. now left. }
    rewrite X. cbn [option_map]. f_equal. lia.
  - destruct (nat_mem m b) eqn:MB.
    + apply nat_mem_In in MB. assert (X : pos m a = None) by (apply pos_none; now apply DJ).
      rewrite X. destruct (pos m b) as [j|]; cbn [option_map]; [|reflexivity]. f_equal. lia.
    + assert (X : pos m b = None) by (apply pos_none; intros J; apply nat_mem_In in J; congruence).
      rewrite X. cbn. destruct (pos m a); reflexivity.
Qed.

Lemma split_ginv g n k x y idx : ginv g -> nth_error (g_order g) k = Some n ->
  NoDup (map fst idx) ->
  (forall m, dget Nat.eqb idx m = option_map Z.of_nat
         (pos m (firstn (S k) (g_order g) ++ length (g_heap g) :: skipn (S k) (g_order g)))) ->
  ginv (mkG (g_meta g) (g_argnames g) (set_heap (g_heap g) n x ++ [y])
          (firstn (S k) (g_order g) ++ length (g_heap g) :: skipn (S k) (g_order g)) idx).
Proof.
  intros G H K D. assert (FR := ginv_fresh g G). destruct G as (N & F & _).
  repeat split; cbn; auto.
  - rewrite <- (firstn_skipn (S k) (g_order g)) in N, FR.
    apply NoDup_Add with (a := length (g_heap g)) (l := firstn (S k) (g_order g) ++ skipn (S k) (g_order g)).
    { apply Add_app. } now split.
  - unfold set_heap. rewrite app_length, upd_length. cbn.
    rewrite Forall_forall in *. intros z J. apply in_app_iff in J.
    destruct J as [J|[<-|J]]; [|lia|].
    + assert (In z (g_order g)); [|apply F in H0; lia].
      rewrite <- (firstn_skipn (S k) (g_order g)). apply in_app_iff. now left.
    + assert (In z (g_order g)); [|apply F in H0; lia].
      rewrite <- (firstn_skipn (S k) (g_order g)). apply in_app_iff. now right.
Qed.

(** All the ways split_block can succeed. *)
Lemma split_ok T g n index g' b : ginv g -> split_block T g n index = Ok (g', b) ->
  exists k, nth_error (g_order g) k = Some n /\ 0 <= index <= zlen (k_items (blk g n)) /\
   ((index = 0 /\ g' = g /\ b = n)
    \/ (index = zlen (k_items (blk g n)) /\ 0 < index /\ g' = g /\ nth_error (g_order g) (S k) = Some b)
    \/ (0 < index /\ (skipn (Z.to_nat index) (k_items (blk g n)) <> [] \/ S k = length (g_order g))
        /\ block_iter T (skipn (Z.to_nat index) (k_items (blk g n))) = Ok tt)).
Proof.
  intros G E. unfold split_block in E. apply bind_ok in E. destruct E as (bi & B & E).
  destruct (get_block_index_ok g n bi G B) as (k & -> & H).
  assert (LK : (k < length (g_order g))%nat) by (apply nth_error_Some; congruence).
  exists k. split; [exact H|].
  destruct (index <? 0) eqn:Q1; [discriminate|]. apply Z.ltb_ge in Q1.
  destruct (proj1 (ginv_indexed g G) k n H) as [GE _]. unfold getitem in GE. rewrite GE in E. cbn [bind] in E.
  destruct (index =? 0) eqn:Q2.
  { apply Z.eqb_eq in Q2. injection E as <- <-. assert (0 <= zlen (k_items (blk g n))) by apply zlen_nonneg.
    split; [lia|]. left. auto. }
  apply Z.eqb_neq in Q2. destruct (zlen (k_items (blk g n)) <? index) eqn:Q3; [discriminate|]. apply Z.ltb_ge in Q3.
  split; [lia|]. right.
  destruct (skipn (Z.to_nat index) (k_items (blk g n))) as [|y r] eqn:S.
  - destruct (Z.of_nat k + 1 <? zlen (g_order g)) eqn:Q4.
    + left. apply bind_ok in E. destruct E as (y & E0 & E). injection E as <- <-. apply skipn_nil_len in S. unfold zlen in Q3.
      split; [unfold zlen; lia|]. split; [lia|]. split; [reflexivity|].
      apply Z.ltb_lt in Q4. unfold py_index in E0.
      destruct (Z.of_nat k + 1 <? 0) eqn:Q5; [apply Z.ltb_lt in Q5; lia|]. rewrite Q5 in E0. cbn [orb] in E0.
      destruct (zlen (g_order g) <=? Z.of_nat k + 1); [discriminate|].
      replace (Z.to_nat (Z.of_nat k + 1)) with (Datatypes.S k) in E0 by lia.
      destruct (nth_error (g_order g) (Datatypes.S k)); congruence.
    + right. split; [lia|]. apply Z.ltb_ge in Q4. split; [right; unfold zlen in Q4; lia|reflexivity].
  - right. split; [lia|]. split; [left; discriminate|]. inv_ok. destruct x. exact E0.
Qed.

Lemma ginv_split T g n index g' b : ginv g -> split_block T g n index = Ok (g', b) -> ginv g'.
Proof.
  intros G E. destruct (split_ok _ _ _ _ _ _ G E) as (k & H & I & [(-> & -> & ->)|[(_ & _ & -> & _)|(I0 & NE & BI)]]); auto.
  destruct (split_eq T g n k index G H I0 (proj2 I) NE BI) as (idx & E' & K & D).
  rewrite E' in E. injection E as <- <-. eapply split_ginv; eauto.
Qed.

Lemma ginv_from T b g : from_bytecode T b = Ok g -> ginv g.
Proof.
  unfold from_bytecode. destruct (iterate false (b_items b)) as [ys stop]. intros E. inv_ok. clear.
  split; [cbn; apply seq_NoDup|]. cbn. split; [apply Forall_forall; intros y J; apply in_seq in J; lia|].
  split; [rewrite map_map; cbn; rewrite map_id; apply seq_NoDup|].
  intros n. match goal with |- context [seq 0 ?L0] => generalize L0 end. intros L. assert (X : forall s, dget Nat.eqb (map (fun n => (n, Z.of_nat n)) (seq s L)) n
    = option_map (fun k => Z.of_nat (s + k)) (pos n (seq s L))).
  { induction L as [|L IH]; intros s; cbn; [reflexivity|].
    destruct (Nat.eqb n s) eqn:E; cbn; [apply Nat.eqb_eq in E; subst; f_equal; lia|].
    rewrite IH. destruct (pos n (seq (S s) L)); cbn; [|reflexivity]. f_equal. lia. }
  rewrite X. reflexivity.
Qed.

Lemma ginv_history T g : history T g -> ginv g.
Proof.
  induction 1 as [|b g E|g items H IH|g i g' H IH I E|g n g' H IH E|g n i g' b H IH E|g g' H IH S].
  - apply ginv_new.
  - eapply ginv_from; eassumption.
  - now apply ginv_add.
  - destruct (delitem_index g i g' I E) as (k & b & -> & HB).
    destruct (ginv_del g k b IH HB) as (g2 & E2 & G2 & _). congruence.
  - unfold delitem_block in E. apply bind_ok in E. destruct E as (i & B & E).
    destruct (get_block_index_ok g n i IH B) as (k & -> & HB).
    destruct (ginv_del g k n IH HB) as (g2 & E2 & G2 & _). congruence.
  - eapply ginv_split; eassumption.
  - destruct S as (S1 & S2 & S3), IH as (N & F & K & D). repeat split; rewrite ?S1, ?S2, ?S3; auto.
Qed.
