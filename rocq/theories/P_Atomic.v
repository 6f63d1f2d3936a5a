(** What the graph operations leave behind when they raise: C77. *)
From Verif Require Import PyBase OpTable M_Instr M_Tables M_Concrete M_Convert M_Bytecode M_Cfg M_Stack M_Atomic S_Cfg S_Stack P_Base P_Cfg P_Cfg2.
Open Scope string_scope.
Open Scope list_scope.
Open Scope Z_scope.

(** *** The models with and without the graph left behind agree. *)
Lemma down_agree order l : forall idx, foldM (fun idx i =>
           b <- py_index order i ;;
           k <- of_option KeyError (dget Nat.eqb idx b) ;;
           Ok (dset Nat.eqb idx b (k - 1))) l idx
  = match renumber_down order idx l with (idx', Ok _) => Ok idx' | (_, Err e) => Err e end.
Proof.
  induction l as [|i l IH]; intros idx; [reflexivity|]. cbn [foldM renumber_down].
  destruct (py_index order i) as [b|e]; cbn [bind]; [|reflexivity].
  destruct (dget Nat.eqb idx b) as [k|]; cbn [of_option bind]; [|reflexivity]. apply IH.
Qed.
Lemma delitem_agree g i : delitem g i = match delitem_run g i with (g', Ok _) => Ok g' | (_, Err e) => Err e end.
Proof.
  unfold delitem, delitem_run. destruct (py_index (g_order g) i) as [b|e]; cbn [bind]; [|reflexivity]. cbv zeta.
  destruct (dget Nat.eqb (g_index g) b); cbn [of_option bind]; [|reflexivity]. rewrite down_agree.
  destruct (renumber_down _ _ _) as [idx [u|e]]; reflexivity.
Qed.
Lemma delitem_block_agree g n : delitem_block g n = match delitem_block_run g n with (g', Ok _) => Ok g' | (_, Err e) => Err e end.
Proof. unfold delitem_block, delitem_block_run. destruct (get_block_index g n); cbn [bind]; [apply delitem_agree|reflexivity]. Qed.
Lemma up_agree l : forall idx, foldM (fun idx c => k <- of_option KeyError (dget Nat.eqb idx c) ;; Ok (dset Nat.eqb idx c (k + 1))) l idx
  = match renumber_up idx l with (idx', Ok _) => Ok idx' | (_, Err e) => Err e end.
Proof.
  induction l as [|b l IH]; intros idx; [reflexivity|]. cbn [foldM renumber_up].
  destruct (dget Nat.eqb idx b) as [k|]; cbn [of_option bind]; [|reflexivity]. apply IH.
Qed.
Lemma split_agree T g n i : split_block T g n i = match split_block_run T g n i with (g', Ok b) => Ok (g', b) | (_, Err e) => Err e end.
Proof.
  unfold split_block, split_block_run. destruct (get_block_index g n) as [k|e]; cbn [bind]; [|reflexivity].
  destruct (i <? 0); [reflexivity|]. destruct (py_index (g_order g) k) as [b|e]; cbn [bind]; [|reflexivity]. cbv zeta.
  destruct (i =? 0); [reflexivity|]. destruct (_ <? i); [reflexivity|].
  destruct (match skipn _ _ with [] => _ | _ => _ end).
  - destruct (py_index _ _); reflexivity.
  - destruct (block_iter T _); cbn [bind]; [|reflexivity]. rewrite up_agree. destruct (renumber_up _ _) as [idx [u|e]]; reflexivity.
Qed.

Lemma iter_skipn T n l : block_iter T l = Ok tt -> block_iter T (skipn n l) = Ok tt.
Proof.
  revert n. induction l as [|x l IH]; intros [|n] H; cbn [skipn]; auto. cbn [block_iter] in H. apply bind_ok in H. destruct H as (u & _ & H). now apply IH.
Qed.
Lemma py_index_nat {A} (l : list A) i x : 0 <= i -> py_index l i = Ok x -> nth_error l (Z.to_nat i) = Some x.
Proof.
  intros H. unfold py_index. destruct (Z.ltb_spec i 0); [lia|]. destruct (_ || _); [discriminate|]. destruct (nth_error l (Z.to_nat i)); [|discriminate]. congruence.
Qed.

Lemma delete_unchanged g i g' e : ginv g -> 0 <= i -> delitem_run g i = (g', Err e) -> g' = g.
Proof.
  intros G I E. pose proof (delitem_agree g i) as A. rewrite E in A. unfold delitem_run in E.
  destruct (py_index (g_order g) i) as [b|x] eqn:P; [|congruence]. exfalso.
  apply (py_index_nat _ _ _ I) in P. destruct (ginv_del g _ b G P) as (g2 & D & _). rewrite Z2Nat.id in D by exact I. congruence.
Qed.
Lemma delete_block_unchanged g n g' e : ginv g -> delitem_block_run g n = (g', Err e) -> g' = g.
Proof.
  intros G. unfold delitem_block_run. destruct (get_block_index g n) as [i|x] eqn:B; [|congruence]. intros E.
  apply (delete_unchanged g i g' e G); [|exact E]. destruct G as (_ & _ & _ & D). unfold get_block_index in B. rewrite D in B.
  destruct (pos n (g_order g)); cbn in B; [|discriminate]. injection B as <-. lia.
Qed.

(** A failing split: either nothing happened, or the elements that were to be moved do not make a
    block, and they are gone. *)
Lemma split_left T g n i g' e : ginv g -> split_block_run T g n i = (g', Err e) ->
  g' = g \/ (0 < i <= zlen (k_items (blk g n)) /\ In n (g_order g) /\ block_iter T (skipn (Z.to_nat i) (k_items (blk g n))) = Err e
             /\ g' = mkG (g_meta g) (g_argnames g) (set_heap (g_heap g) n (mkBlk (firstn (Z.to_nat i) (k_items (blk g n))) (k_next (blk g n)))) (g_order g) (g_index g)).
Proof.
  intros G E. pose proof (split_agree T g n i) as A. rewrite E in A.
  destruct (ginv_indexed g G) as [I1 I2].
  destruct (in_dec Nat.eq_dec n (g_order g)) as [IN|NI].
  2:{ unfold split_block_run in E. rewrite (I2 n NI) in E. left. congruence. }
  destruct (In_nth_error _ _ IN) as (k & H). destruct (I1 k n H) as [GE BI]. unfold getitem in GE.
  unfold split_block_run in E. rewrite BI, GE in E.
  destruct (Z.ltb_spec i 0); [left; congruence|]. cbv zeta in E. destruct (Z.eqb_spec i 0); [left; congruence|].
  destruct (Z.ltb_spec (zlen (k_items (blk g n))) i); [left; congruence|].
  destruct (match skipn (Z.to_nat i) (k_items (blk g n)) with [] => Z.of_nat k + 1 <? zlen (g_order g) | _ => false end) eqn:C.
  { destruct (py_index (g_order g) (Z.of_nat k + 1)); left; congruence. }
  destruct (block_iter T (skipn (Z.to_nat i) (k_items (blk g n)))) as [[]|x] eqn:BT.
  - exfalso. destruct (split_eq T g n k i G H) as (idx & S & _); [lia|lia| |exact BT|congruence].
    destruct (skipn (Z.to_nat i) (k_items (blk g n))); [|left; discriminate]. right.
    assert (L : (k < length (g_order g))%nat) by (apply nth_error_Some; congruence). apply Z.ltb_ge in C. unfold zlen in C. lia.
  - right. injection E as <- <-. split; [lia|]. split; [exact IN|]. split; reflexivity.
Qed.
