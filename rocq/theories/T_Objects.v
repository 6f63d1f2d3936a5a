(** Property theorems: legalize() and the objects it changes (C72). *)
From Verif Require Import PyBase OpTable Table311 P_Base M_Instr M_Tables M_Concrete M_Convert M_Bytecode M_Cfg M_Objects
  S_Legal S_Steady S_Prog S_Ident P_Bytecode P_Steady P_Steady3 P_Steady4 P_Objects T_Code T_Stack T_Cfg T_Legal.
Open Scope string_scope.
Open Scope list_scope.
Open Scope Z_scope.

(** ** Specification *)

(** No Instr object occurs twice in the list.  (Labels and other objects may.) *)
Definition each_once (h : @store bitem) (l : list nat) : Prop :=
  forall a r c i, l = a ++ r :: c -> h r = BI i -> ~ In r c.

(** The two lists have no Instr object in common. *)
Definition apart (h : @store bitem) (l l' : list nat) : Prop :=
  forall r i, In r l -> In r l' -> h r <> BI i.

(** ** Proofs *)
Lemma is_ins_BI x : is_ins x = true <-> exists i, x = BI i.
Proof. destruct x; cbn; split; intros H; try discriminate; try (destruct H as (? & H); discriminate); eauto. Qed.
Lemma each_distinct h l : each_once h l -> distinct h l.
Proof.
  unfold distinct. induction l as [|r l IH]; intros E; cbn; [constructor|].
  assert (E' : each_once h l) by (intros a r' c i -> H; apply (E (r :: a) r' c i); auto).
  destruct (is_ins (h r)) eqn:Q; [|auto]. constructor; [|auto]. intros J. apply filter_In in J.
  apply is_ins_BI in Q. destruct Q as (i & Q). apply (E [] r l i eq_refl Q). tauto.
Qed.

(** What is not an instruction of the list stays, even if some occur twice *)
Lemma oloop_frame v l : forall s c h h' o, olegalize_loop bview bset_loc v s c h l = (h', o) ->
  forall r, ~ In r l \/ is_ins (h r) = false -> h' r = h r.
Proof.
  induction l as [|x l IH]; intros s c h h' o E r H; cbn [olegalize_loop] in E; [injection E as <- <-; reflexivity|].
  assert (T : forall h1 : @store bitem, h1 r = h r -> (~ In r l \/ is_ins (h1 r) = false)).
  { intros h1 Q. destruct H as [H|H]; [left; cbn in H; tauto|right; now rewrite Q]. }
  assert (P : forall lo y, bview (h x) = VInstr lo -> put h x y r = h r).
  { intros lo y V. apply put_other. intros ->. destruct H as [H|H]; [apply H; now left|]. unfold is_ins, isI in H. rewrite V in H. discriminate. }
  destruct (bview (h x)) as [z|lo|] eqn:V.
  - eapply IH; [exact E|auto].
  - destruct s as [z|].
    + destruct (set_lineno v lo (LLine z)) as [lo' [[]|e]].
      * rewrite <- (P lo (bset_loc (h x) lo') eq_refl). eapply IH; [exact E|]. apply T. eapply P; reflexivity.
      * injection E as <- <-. eapply P; reflexivity.
    + destruct (loc_lineno lo).
      * destruct (set_lineno v lo (LLine c)) as [lo' [[]|e]].
        -- rewrite <- (P lo (bset_loc (h x) lo') eq_refl). eapply IH; [exact E|]. apply T. eapply P; reflexivity.
        -- injection E as <- <-. eapply P; reflexivity.
      * eapply IH; [exact E|auto].
      * eapply IH; [exact E|auto].
  - eapply IH; [exact E|auto].
Qed.
Lemma legalize_frame v h b h' b' o : obytecode_legalize v h b = (h', b', o) ->
  forall r, ~ In r (ob_items b) \/ is_ins (h r) = false -> h' r = h r.
Proof.
  intros E r H. unfold obytecode_legalize in E. destruct (iterate false (map h (ob_items b))) as [ys stop].
  unfold olegalize in E. destruct (olegalize_loop _ _ _ _ _ h (firstn (length ys) (ob_items b))) as [h1 u] eqn:L.
  assert (h1 r = h r).
  { eapply oloop_frame; [exact L|]. destruct H as [H|H]; [left|now right]. intros J. apply H.
    rewrite <- (firstn_skipn (length ys) (ob_items b)). apply in_app_iff. now left. }
  destruct u as [[]|e]; [destruct stop|]; injection E as <- _ _; assumption.
Qed.

(** C72.  If no Instr object occurs twice in the list, legalize() does to the objects what it does
    to values (C35, C66): every instruction gets its own line. *)
Theorem C72_distinct : forall v h b h' b' o, each_once h (ob_items b) -> obytecode_legalize v h b = (h', b', o) ->
  bytecode_legalize v (contents h b) = (contents h' b', o).
Proof. intros v h b h' b' o N E. exact (proj1 (obytecode_ok v h b h' b' o (each_distinct _ _ N) E)). Qed.

Theorem C72_distinct_graph : forall v T h g h' g' o, each_once h (flat_map ok_items (og_heap g)) -> ocfg_legalize v T h g = (h', g', o) ->
  cfg_legalize v T (graph_contents h g) = (graph_contents h' g', o).
Proof.
  intros v T h g h' g' o N E. unfold ocfg_legalize in E. unfold cfg_legalize. cbn [graph_contents g_meta g_heap g_order g_argnames g_index].
  destruct (ocfg_legalize_loop v T _ h (og_heap g) (og_order g)) as [[h1 hp] u] eqn:L. injection E as <- <- <-.
  destruct (ocfg_ok v T _ _ _ _ _ _ _ (each_distinct _ _ N) L) as (X & _). rewrite X. reflexivity.
Qed.

(** Whether or not: lists that have no Instr object in common with it are left as they are. *)
Theorem C72_others_untouched : forall v h b h' b' o b2, obytecode_legalize v h b = (h', b', o) ->
  apart h (ob_items b) (ob_items b2) -> contents h' b2 = contents h b2.
Proof.
  intros v h b h' b' o b2 E A. unfold contents. f_equal. apply map_ext_in. intros r J. eapply legalize_frame; [exact E|].
  destruct (in_dec Nat.eq_dec r (ob_items b)) as [I|I]; [|now left]. right. destruct (is_ins (h r)) eqn:Q; [|reflexivity].
  apply is_ins_BI in Q. destruct Q as (i & Q). destruct (A r i I J Q).
Qed.

(** copy() and slices keep every attribute, argnames included: the copy is the same program, and
    legalizing it does to the objects what legalizing the original does. *)
Theorem C72_copy_is_same : forall v h b, contents h (ocopy b) = contents h b
  /\ obytecode_legalize v h (ocopy b) = obytecode_legalize v h b
  /\ (forall l, b_meta (contents h (oslice b l)) = b_meta (contents h b)
        /\ b_argnames (contents h (oslice b l)) = b_argnames (contents h b)
        /\ b_items (contents h (oslice b l)) = map h l).
Proof.
  intros v h b. assert (X : ocopy b = b) by (destruct b as [[] a i]; reflexivity).
  rewrite X. repeat (split; [reflexivity|]). intros l. split; [destruct b as [[] a i]; reflexivity|]. auto.
Qed.
Print Assumptions C72_copy_is_same.

(** copy() shares the objects.  Legalizing the copy puts lines on the instructions of the
    original, which still has its SetLineno: the original is the same program as before (under the
    conditions of C66), and legalizing it too gives what the copy is. *)
Lemma located_any pos l : forall o cur cur', (forall i, In (BI i) l -> i_loc i <> None) ->
  located cur (walk pos o l) = located cur' (walk pos o (filter keep l)).
Proof.
  induction l as [|x r IH]; intros o cur cur' H; [reflexivity|].
  assert (H' : forall i, In (BI i) r -> i_loc i <> None) by (intros; apply H; now right).
  destruct x as [i|n|z|id t la d|id]; cbn; try (apply IH; exact H').
  assert (N := H i (or_introl eq_refl)). destruct (i_loc i); [|congruence]. f_equal. now apply IH.
Qed.
Theorem C72_copy_partial : forall v h b h' b', each_once h (ob_items b) ->
  bare_after_set bview (map h (ob_items b)) -> plain_heirs bview (map h (ob_items b)) ->
  obytecode_legalize v h (ocopy b) = (h', b', Ok tt) ->
  source (contents h' b) = source (contents h b).
Proof.
  intros v h b h' b' N B P E.
  assert (NC : each_once h (ob_items (ocopy b))) by exact N.
  assert (X := C72_distinct _ _ _ _ _ _ NC E).
  destruct (legalize_done _ _ _ X) as (l & L & EB & _). cbn in L.
  (* the objects after the loop *)
  assert (ML : map h' (ob_items b) = l).
  { unfold obytecode_legalize in E. destruct (iterate false (map h (ob_items (ocopy b)))) as [ys stop] eqn:I.
    unfold olegalize in E. destruct (olegalize_loop _ _ _ _ _ h (firstn (length ys) (ob_items (ocopy b)))) as [h1 u] eqn:OL.
    destruct u as [[]|e]; [destruct stop as [e|]|]; try discriminate. injection E as <- _.
    assert (LEN : length ys = length (ob_items b)).
    { assert (Q : forall l s ys, iterate s l = (ys, None) -> length ys = length l).
      { clear. induction l as [|x r IH]; intros s ys E; cbn in E; [injection E as <-; reflexivity|].
        destruct (iter_check s x); [|discriminate]. destruct (iterate _ r) as [ys' o] eqn:R. injection E as <- ->. cbn. f_equal. eauto. }
      rewrite (Q _ _ _ I). now rewrite map_length. }
    rewrite firstn_all2 in OL by (cbn [ocopy oslice ob_items]; lia). cbn [ocopy oslice ob_items ob_meta] in OL.
    destruct (oloop_ok bview bset_loc bset_view v _ _ _ _ _ _ (each_distinct _ _ N) OL) as (Y & _).
    change (m_first_lineno (copy_attr (ob_meta b))) with (m_first_lineno (ob_meta b)) in *. congruence. }
  unfold source. cbn [contents b_meta b_items]. rewrite ML.
  change (m_first_lineno (copy_attr (ob_meta b))) with (m_first_lineno (ob_meta b)) in *.
  set (c := m_first_lineno (ob_meta b)) in *. set (l0 := map h (ob_items b)) in *.
  assert (LOC : forall i, In (BI i) l -> i_loc i <> None).
  { intros i J. assert (J' : In (BI i) (filter keep l)) by (apply filter_In; auto).
    destruct (loop_located bview bset_loc bset_view v l0 _ _ _ L (BI i) J') as (lo & [V|V]); [|discriminate V]. cbn in V. injection V as ->. discriminate. }
  unfold program. rewrite (located_any _ l None (line_loc (Some c)) (line_loc (Some c)) LOC).
  assert (SM : sames l0 (filter keep l)).
  { unfold sames. assert (KK : filter keep (filter keep l) = filter keep l).
    { apply (filter_done bview (filter keep l)). intros x z J V. apply filter_In in J. unfold keep in J. rewrite V in J. destruct J. discriminate. }
    rewrite KK. exact (loop_same _ _ _ _ _ L). }
  rewrite (walk_ext (position l) (position l0)) by (intros n; rewrite <- position_keep; now apply sames_position).
  eapply source_loop; eauto. intros mid y post _ _ _. reflexivity.
Qed.

(** *** Where it fails *)

Definition objects (l : list bitem) : @store bitem := fun r => nth r l (BLabel 0).
Definition at_refs (l : list nat) : obytecode := mkOB nop_meta [] l.

(** the same Instr object twice: [nop, SetLineno(9), nop] with one nop gets line 9 in both places,
    two equal nops the lines 1 and 9; legalize() changes the program *)
Theorem C72_shared_refuted : exists h b h' b',
  obytecode_legalize V311 h b = (h', b', Ok tt)
  /\ bare_after_set bview (map h (ob_items b)) /\ plain_heirs bview (map h (ob_items b))
  /\ map (fun x => snd (fst x)) (source (contents h b)) = [line_loc (Some 1); line_loc (Some 9)]
  /\ map (fun x => snd (fst x)) (source (contents h' b')) = [line_loc (Some 9); line_loc (Some 9)].
Proof.
  exists (objects [nop; BSet 9]), (at_refs [0; 1; 0]%nat). eexists _, _. split; [reflexivity|].
  split; [|split; [|split; vm_compute; reflexivity]].
  - intros pre x mid y post z lo E Vx Vy. cbn in E.
    assert (J : In y [nop; BSet 9; nop]) by (rewrite E; apply in_or_app; right; right; apply in_or_app; right; now left).
    cbn in J. destruct J as [<-|[<-|[<-|[]]]]; cbn in Vy; congruence.
  - intros pre x mid y post lo E Vx Vy. cbn in E.
    assert (J : In x [nop; BSet 9; nop]) by (rewrite E; apply in_or_app; right; now left).
    cbn in J. destruct J as [<-|[<-|[<-|[]]]]; cbn in Vx; congruence.
Qed.

(** legalizing a slice that leaves a SetLineno out puts the first line of the code on an
    instruction of the original, whose line was another *)
Theorem C72_slice_refuted : exists h b h' s',
  each_once h (ob_items b) /\ obytecode_legalize V311 h (oslice b (skipn 2 (ob_items b))) = (h', s', Ok tt)
  /\ map (fun x => snd (fst x)) (source (contents h b)) = [line_loc (Some 5); line_loc (Some 5)]
  /\ map (fun x => snd (fst x)) (source (contents h' b)) = [line_loc (Some 5); line_loc (Some 1)].
Proof.
  exists (objects [BSet 5; nop; ret]), (at_refs [0; 1; 2]%nat). eexists _, _.
  split; [|split; [reflexivity|split; vm_compute; reflexivity]].
  intros a r c i E _. 
  assert (N : NoDup [0; 1; 2]%nat) by apply (seq_NoDup 3 0). cbn in E. rewrite E in N. apply NoDup_remove_2 in N. intros J. apply N. apply in_or_app. now right.
Qed.

(** *** Non-vacuity: the list of C66, its objects in order *)
Definition refs_of (b : bytecode) : obytecode := mkOB (b_meta b) (b_argnames b) (seq 0 (length (b_items b))).
Example C72_ex : exists h' b', let h := objects (b_items ex_legal) in let b := refs_of ex_legal in
  contents h b = ex_legal /\ each_once h (ob_items b)
  /\ bare_after_set bview (map h (ob_items b)) /\ plain_heirs bview (map h (ob_items b))
  /\ obytecode_legalize V311 h (ocopy b) = (h', b', Ok tt)
  /\ contents h' b <> contents h b /\ b_items (contents h' b) <> b_items (contents h' b').
Proof.
  eexists _, _. cbn zeta. split; [reflexivity|]. split.
  { intros a r c i E _. assert (N : NoDup (ob_items (refs_of ex_legal))) by apply seq_NoDup. rewrite E in N.
    apply NoDup_remove_2 in N. intros J. apply N. apply in_or_app. now right. }
  split; [exact ex_legal_bare|]. split; [exact ex_legal_heirs|]. split; [reflexivity|]. split; vm_compute; discriminate.
Qed.

(** two blocks of one object each *)
Definition og1 : ograph := mkOG nop_meta [] [mkOBlk [0; 1] (Some 1); mkOBlk [2] None]%nat [0; 1]%nat [(0%nat, 0); (1%nat, 1)].
Example C72_graph_ex : exists h' g', let h := objects [BSet 5; nop; ret] in
  each_once h (flat_map ok_items (og_heap og1)) /\ ocfg_legalize V311 T311 h og1 = (h', g', Ok tt)
  /\ graph_contents h' g' <> graph_contents h og1.
Proof.
  eexists _, _. cbn zeta. split; [|split; [reflexivity|vm_compute; discriminate]].
  intros a r c i E _. cbn in E. 
  assert (N : NoDup [0; 1; 2]%nat) by apply (seq_NoDup 3 0). cbn in E. rewrite E in N. apply NoDup_remove_2 in N. intros J. apply N. apply in_or_app. now right.
Qed.

Print Assumptions C72_distinct.
Print Assumptions C72_distinct_graph.
Print Assumptions C72_others_untouched.
Print Assumptions C72_copy_partial.
Print Assumptions C72_shared_refuted.
Print Assumptions C72_slice_refuted.
