(** Property theorems: legalize() and the program (C66). *)
From Verif Require Import PyBase OpTable Table311 TablesEx CPy CPyEffect P_Base M_Instr M_Tables M_Concrete M_Convert M_Bytecode M_Cfg M_Stack M_Full
  S_Args S_Asm S_Legal S_Steady S_Flags S_Prog S_Cfg S_Slots S_Stack S_Ident S_Code P_Bytecode P_Cfg P_Cfg2 P_Steady P_Steady2 P_Steady3 P_Steady4
  T_Asm T_Args T_Code T_Full T_Bytecode T_Stack.
Open Scope string_scope.
Open Scope list_scope.
Open Scope Z_scope.

Lemma legalize_done v b b' : bytecode_legalize v b = (b', Ok tt) ->
  exists l, legalize_loop bview bset_loc v None (m_first_lineno (b_meta b)) (b_items b) = (l, Ok tt)
    /\ b' = mkB (b_meta b) (b_argnames b) (filter keep l) /\ not_nested (b_items b).
Proof.
  unfold bytecode_legalize. destruct (iterate false (b_items b)) as [ys stop] eqn:I.
  destruct (legalize _ _ _ _ ys _ stop) as [l o] eqn:L. intros Q. injection Q as <- ->. unfold legalize in L.
  destruct (legalize_loop _ _ _ _ _ ys) as [l1 [[]|]] eqn:E; [|discriminate].
  destruct stop; [discriminate|]. injection L as <-. assert (YS : forall l s ys, iterate s l = (ys, None) -> ys = l).
  { clear. induction l as [|x r IH]; intros s ys Q; cbn in Q; [congruence|]. destruct (iter_check s x) as [s'|]; [|discriminate].
    destruct (iterate s' r) as [ys' o] eqn:R. injection Q as <- ->. f_equal. eauto. }
  assert (I0 := I). rewrite (YS _ _ _ I) in I. assert (N := iterate_not_nested _ I).
  apply YS in I0. subst ys. exists l1. auto.
Qed.

(** C66.  legalize() does not change the program: every instruction is at the line it was assembled
    with before *)
Theorem C66_bytecode_partial : forall v b b', bytecode_legalize v b = (b', Ok tt) ->
  bare_after_set bview (b_items b) -> plain_heirs bview (b_items b) ->
  source b' = source b /\ b_meta b' = b_meta b /\ b_argnames b' = b_argnames b.
Proof.
  intros v b b' E B P. destruct (legalize_done _ _ _ E) as (l & L & -> & _). split; [|auto]. unfold source. cbn [b_meta b_items].
  assert (S : sames (b_items b) (filter keep l)).
  { unfold sames. assert (KK : filter keep (filter keep l) = filter keep l).
    { apply (filter_done bview (filter keep l)). intros x z J V. apply filter_In in J. unfold keep in J. rewrite V in J. destruct J. discriminate. }
    rewrite KK. exact (loop_same _ _ _ _ _ L). }
  unfold program. rewrite (walk_ext (position (filter keep l)) (position (b_items b))) by (intros n; now apply sames_position).
  eapply source_loop; eauto. intros mid y post _ _ _. reflexivity.
Qed.

(** so the code object made from the legalized Bytecode, whatever the options of to_code(), is the
    program of the Bytecode as it was *)
Lemma sames_in l l' i' : sames l l' -> In (BI i') l' -> exists i, In (BI i) l /\ i_name i' = i_name i /\ i_op i' = i_op i /\ i_arg i' = i_arg i.
Proof.
  unfold sames. intros F J. assert (J' : In (BI i') (filter keep l')) by (apply filter_In; auto).
  destruct (In_nth_error _ _ J') as (k & E). clear J J'.
  assert (K : exists x, nth_error (filter keep l) k = Some x /\ same_elem x (BI i')).
  { revert k E. induction F as [|x y r r' S F IH]; intros [|k] E; try discriminate; cbn in *; [injection E as ->; eauto|eauto]. }
  destruct K as (x & N & S). apply nth_error_In, filter_In in N. destruct N as [N _]. inversion S; subst.
  - eexists. split; [exact N|auto].
  - discriminate H.
Qed.
Lemma sames_in' l l' x : sames l l' -> bview x = VOther -> In x l <-> In x l'.
Proof.
  unfold sames. intros F V. assert (K : forall m, In x m <-> In x (filter keep m)).
  { intros m. rewrite filter_In. split; [|tauto]. intros J. split; [exact J|]. unfold keep. now rewrite V. }
  rewrite (K l), (K l'). clear K. induction F as [|y z r r' S F IH]; [reflexivity|]. cbn. rewrite IH. clear IH.
  destruct S; [|tauto]. split; (intros [Q|Q]; [|now right]); subst; discriminate V.
Qed.
Lemma paired_keep l : forall o u, paired o u (filter keep l) = paired o u l.
Proof. induction l as [|[] r IH]; intros o u; cbn; rewrite ?IH; reflexivity. Qed.
Lemma bracketed_keep l : forall o, bracketed o (filter keep l) <-> bracketed o l.
Proof. induction l as [|[] r IH]; intros o; cbn; rewrite ?IH; reflexivity. Qed.
Lemma sames_writable v T b b' : sames (b_items b) (b_items b') -> source b' = source b -> writable v T b -> writable v T b'.
Proof.
  intros F SO [L M C [P1 P2 P3] B LO]. constructor.
  - intros i J. destruct (sames_in _ _ _ F J) as (i0 & J0 & N & O & A). specialize (L _ J0). unfold legal_instr in *. now rewrite N, O, A.
  - intros i J. destruct (sames_in _ _ _ F J) as (i0 & J0 & N & O & A). rewrite A. now apply M.
  - intros i J. destruct (sames_in _ _ _ F J) as (i0 & J0 & N & O & A). rewrite N. now apply C.
  - constructor.
    + rewrite <- paired_keep. rewrite <- paired_keep in P1. rewrite <- P1. clear - F. unfold sames in F. revert F.
      generalize (filter keep (b_items b)) (filter keep (b_items b')). intros l l' F. generalize (@None nat) (@nil nat).
      induction F as [|x y r r' S F IH]; intros o u; [reflexivity|]. destruct S as [|[] V]; try discriminate V; cbn; now rewrite ?IH.
    + intros it J. destruct it as [i'|n|z|id t la d|id].
      * destruct (sames_in _ _ _ F J) as (i0 & J0 & N & O & A). specialize (P2 _ J0). unfold arg_fits, has_jump in *. now rewrite O, A.
      * apply P2. now apply (sames_in' _ _ _ F).
      * exact Logic.I.
      * apply P2. now apply (sames_in' _ _ _ F).
      * apply P2. now apply (sames_in' _ _ _ F).
    + intros it n J K. apply (sames_in' _ _ (BLabel n) F eq_refl). destruct it as [i'|m|z|id t la d|id].
      * destruct (sames_in _ _ _ F J) as (i0 & J0 & N & O & A). apply (P3 (BI i0) n J0). cbn in *. now rewrite <- A.
      * destruct K.
      * destruct K.
      * eapply P3; [|exact K]. now apply (sames_in' _ _ _ F).
      * destruct K.
  - apply (proj1 (bracketed_keep _ _)). apply (proj2 (bracketed_keep _ _)) in B. revert B. clear - F. unfold sames in F. revert F.
    generalize (filter keep (b_items b)) (filter keep (b_items b')). intros l l' F. generalize (@None (nat * bool)).
    induction F as [|x y r r' S F IH]; intros o; [auto|]. destruct S as [|[] V]; try discriminate V; cbn; intros H; repeat split; try (now apply IH); try tauto.
    all: apply IH; tauto.
  - intros n a l h J. rewrite SO in J. exact (LO _ _ _ _ J).
Qed.
Theorem C66_to_code_partial : forall v T se keq passes stacksize check depths b b' co,
  bytecode_legalize v b = (b', Ok tt) ->
  bare_after_set bview (b_items b) -> plain_heirs bview (b_items b) ->
  wf_optable v T = true -> sound_key keq -> writable v T b ->
  bytecode_to_code v T se keq passes stacksize check depths b' = Ok co ->
  pairs_near v T b (co_varnames co) ->
  runs v T co (source b).
Proof.
  intros v T se keq passes st check depths b b' co E B P wf HK W EC PN.
  destruct (C66_bytecode_partial _ _ _ E B P) as (SO & ME & AR). destruct (legalize_done _ _ _ E) as (l & L & Q & _).
  assert (S : sames (b_items b) (b_items b')).
  { subst b'. unfold sames. cbn [b_items]. assert (KK : filter keep (filter keep l) = filter keep l).
    { apply (filter_done bview (filter keep l)). intros x z J V. apply filter_In in J. unfold keep in J. rewrite V in J. destruct J. discriminate. }
    rewrite KK. exact (loop_same _ _ _ _ _ L). }
  rewrite <- SO. eapply C51_to_code_runs_program_partial; eauto.
  - eapply sames_writable; eauto.
  - intros i n J D I. destruct (sames_in _ _ _ S J) as (i0 & J0 & N & O & A). rewrite O in D. rewrite A in I. eapply PN; eauto.
Qed.

(** The same for graphs; here a SetLineno acts up to the end of its block only *)
Theorem C66_graph_partial : forall v T g g' b,
  history T g -> cfg_legalize v T g = (g', Ok tt) ->
  (forall n, In n (g_order g) -> bare_after_set bview (k_items (blk g n))) ->
  plain_heirs bview (flat_map (fun n => k_items (blk g n)) (g_order g)) ->
  cfg_to_bytecode T g = Ok b ->
  exists b', cfg_to_bytecode T g' = Ok b' /\ source b' = source b /\ b_meta b' = b_meta b /\ b_argnames b' = b_argnames b.
Proof.
  intros v T g g' b H E B P EB. destruct (ginv_history _ _ H) as (ND & F & _). rewrite Forall_forall in F.
  unfold cfg_legalize in E. destruct (cfg_legalize_loop _ _ _ _ _) as [h o] eqn:L. injection E as E ->.
  destruct (blocks_eff v T _ ND _ _ (line_loc (Some (m_first_lineno (g_meta g)))) _ F L B P) as (K1 & K2 & _).
  { apply heir_line. }
  assert (R := to_bytecode_same T g g'). rewrite EB in R. unfold rel in R.
  destruct (cfg_to_bytecode T g') as [b'|] eqn:EB'; [|destruct R; subst g'; auto].
  destruct R as (S & M & A); [subst g'; reflexivity|intros n J; subst g'; exact (K2 n J)|subst g'; reflexivity|subst g'; reflexivity|].
  exists b'. split; [reflexivity|]. split; [|auto]. unfold source. rewrite M. apply sames_source; [exact S|].
  rewrite (graph_eff _ _ _ _ EB), (graph_eff _ _ _ _ EB').
  assert (MB : b_meta b = copy_attr (g_meta g)).
  { unfold cfg_to_bytecode in EB. inv_ok. reflexivity. }
  rewrite MB. subst g'. exact (K1 _).
Qed.

(** and for a ConcreteBytecode written as it stands, before 3.11 *)
Theorem C66_concrete_before_311_partial : forall v T cb cb' n, PY311 v = false ->
  concrete_legalize v cb = (cb', Ok tt) -> bare_after_set cview (cb_items cb) ->
  to_code_raw v T cb' n = to_code_raw v T cb n.
Proof. exact raw_same. Qed.

(** Doing it again changes nothing, without any condition *)
Theorem C66_bytecode_idempotent : forall v b b', bytecode_legalize v b = (b', Ok tt) -> bytecode_legalize v b' = (b', Ok tt).
Proof.
  intros v b b' E. destruct (legalize_done _ _ _ E) as (l & L & -> & N).
  assert (A : legalize bview bset_loc v (m_first_lineno (b_meta b)) (b_items b) [] None = (filter keep l, Ok tt)).
  { unfold legalize. rewrite L. reflexivity. }
  apply (legalize_again bview bset_loc bset_view) in A.
  assert (N' : not_nested (filter keep l)).
  { apply iterate_not_nested.
    assert (I : forall m s, iterate s m = (m, None) -> iterate s (filter keep m) = (filter keep m, None)).
    { clear. induction m as [|x r IH]; intros s Q; [reflexivity|]. cbn in Q. destruct (iter_check s x) as [s'|] eqn:C; [|discriminate].
      destruct (iterate s' r) as [ys o] eqn:R. injection Q as -> ->. specialize (IH _ R). cbn. destruct (keep x) eqn:K.
      - cbn. rewrite C, IH. reflexivity.
      - assert (s' = s) by (destruct x; try discriminate K; cbn in C; congruence). subst. exact IH. }
    assert (J : forall m m', Forall2 same_elem m m' -> forall s, iterate s m = (m, None) -> iterate s m' = (m', None)).
    { clear. induction 1 as [|x y r r' S F IH]; intros s Q; [reflexivity|]. cbn in Q |- *.
      assert (CE : iter_check s y = iter_check s x) by (destruct S; reflexivity). rewrite CE. destruct (iter_check s x) as [s'|]; [|discriminate].
      destruct (iterate s' r) as [ys o] eqn:R. injection Q as -> ->. rewrite (IH _ R). reflexivity. }
    eapply J; [exact (loop_same _ _ _ _ _ L)|]. apply I. now apply iterate_iff. }
  unfold bytecode_legalize. cbn [b_items b_meta b_argnames]. rewrite (proj1 (iterate_iff _) N'), skipn_all, A. reflexivity.
Qed.
Theorem C66_concrete_idempotent : forall v cb cb', concrete_legalize v cb = (cb', Ok tt) -> concrete_legalize v cb' = (cb', Ok tt).
Proof.
  intros v cb cb'. unfold concrete_legalize. destruct (legalize cview cset_loc v _ (cb_items cb) [] None) as [l o] eqn:E.
  intros Q. injection Q as <- ->. cbn [cb_items cb_meta]. now rewrite (legalize_again cview cset_loc cset_view _ _ _ _ E).
Qed.
Theorem C66_graph_idempotent : forall v T g g', history T g -> cfg_legalize v T g = (g', Ok tt) -> cfg_legalize v T g' = (g', Ok tt).
Proof.
  intros v T g g' H. destruct (ginv_history _ _ H) as (_ & F & _). rewrite Forall_forall in F.
  unfold cfg_legalize. destruct (cfg_legalize_loop _ _ _ (g_heap g) _) as [h o] eqn:L. intros Q. injection Q as <- ->. cbn [g_meta g_heap g_order].
  destruct (graph_once _ _ _ _ _ _ F L) as [_ D]. now rewrite (graph_twice v T h (g_order g) _ D).
Qed.

(** Each condition is needed: own line after a SetLineno (legalize() gives the line of the
    SetLineno, to_code() the instruction's own), *)
Definition two_nops (l1 : list bitem) (l2 : option loc) : bytecode := mkB meta0 [] (l1 ++ [nop l2]).
Theorem C66_own_line_refuted : ~ forall v b b', bytecode_legalize v b = (b', Ok tt) ->
  plain_heirs bview (b_items b) -> source b' = source b.
Proof.
  intros H. specialize (H V311 (two_nops [BSet 9] (Some (line_loc (Some 5)))) _ eq_refl).
  assert (K : plain_heirs bview (b_items (two_nops [BSet 9] (Some (line_loc (Some 5)))))).
  { intros [|x1 [|x2 [|x3 pre]]] x mid y post lo E Vx Vy _; cbn in E; injection E; intros; subst; try discriminate; destruct mid; discriminate. }
  specialize (H K). vm_compute in H. discriminate H.
Qed.
(** columns (an instruction without location is assembled with those of the one before, and
    loses them in legalize()), *)
Theorem C66_columns_refuted : ~ forall v b b', bytecode_legalize v b = (b', Ok tt) ->
  bare_after_set bview (b_items b) -> source b' = source b.
Proof.
  intros H. specialize (H V311 (two_nops [nop (Some (mkLoc (Some 5) (Some 5) (Some 1) (Some 2)))] None) _ eq_refl).
  assert (K : bare_after_set bview (b_items (two_nops [nop (Some (mkLoc (Some 5) (Some 5) (Some 1) (Some 2)))] None))).
  { intros [|x1 [|x2 [|x3 pre]]] x mid y post z lo E Vx Vy; cbn in E; injection E; intros; subst; try discriminate; destruct mid; discriminate. }
  specialize (H K). vm_compute in H. discriminate H.
Qed.
(** and no line: an instruction without location after one explicitly without line has no line
    when assembled, and gets the last line known in legalize(). *)
Theorem C66_no_line_refuted : ~ forall v b b', bytecode_legalize v b = (b', Ok tt) ->
  bare_after_set bview (b_items b) ->
  (forall i lo, In (BI i) (b_items b) -> i_loc i = Some lo -> lo = line_loc (l_lineno lo)) -> source b' = source b.
Proof.
  intros H. specialize (H V311 (two_nops [nop (Some (line_loc None))] None) _ eq_refl).
  assert (K : bare_after_set bview (b_items (two_nops [nop (Some (line_loc None))] None))).
  { intros [|x1 [|x2 [|x3 pre]]] x mid y post z lo E Vx Vy; cbn in E; injection E; intros; subst; try discriminate; destruct mid; discriminate. }
  specialize (H K). assert (K2 : forall i lo, In (BI i) (b_items (two_nops [nop (Some (line_loc None))] None)) -> i_loc i = Some lo -> lo = line_loc (l_lineno lo)).
  { intros i lo [Q|[Q|[]]] E; injection Q as <-; cbn in E; [injection E as <-; reflexivity|discriminate]. }
  specialize (H K2). vm_compute in H. discriminate H.
Qed.
(** On 3.11 and later the SetLineno of a ConcreteBytecode has no effect in to_code(), and has one
    after legalize(). *)
Theorem C66_concrete_311_refuted : ~ forall v T cb cb' n, concrete_legalize v cb = (cb', Ok tt) -> bare_after_set cview (cb_items cb) ->
  to_code_raw v T cb' n = to_code_raw v T cb n.
Proof.
  set (c := CI (mkC "NOP" 9 None None None 2)).
  intros H. specialize (H V311 T311 (mkCB meta0 [c; CSet 9; c] [] [] [] []) _ 0 eq_refl).
  assert (K : bare_after_set cview (cb_items (mkCB meta0 [c; CSet 9; c] [] [] [] []))).
  { intros pre x mid y post z lo E _ Vy. assert (J : In y [c; CSet 9; c]).
    { cbn [cb_items] in E. rewrite E. apply in_or_app. right. right. apply in_or_app. right. now left. }
    destruct J as [<-|[<-|[<-|[]]]]; cbn in Vy; congruence. }
  specialize (H K). vm_compute in H. discriminate H.
Qed.

(** Each class has a program with SetLineno, inherited lines and try block for which all this holds *)
Definition ex_legal : bytecode := mkB meta0 []
  [nop (Some (line_loc (Some 3))); nop None; BLabel 0; BTB 0 (OLabel 0) false None; BSet 7; nop None; BTE 0; BSet 8;
   BI (mkInstr "LOAD_CONST" 100 (OInt 7) None); BI (mkInstr "RETURN_VALUE" 83 OUnset None)].
Lemma ex_legal_bare : bare_after_set bview (b_items ex_legal).
Proof.
  intros pre x mid y post z lo E Vx Vy. cbn [b_items ex_legal] in E.
  destruct pre as [|x1 [|x2 [|x3 [|x4 [|x5 [|x6 [|x7 [|x8 [|x9 [|x10 [|x11 pre]]]]]]]]]]]; cbn in E; injection E; intros; subst; try discriminate;
  match goal with Q : _ = mid ++ _ :: _ |- _ => destruct mid as [|m1 [|m2 [|m3 [|m4 [|m5 mid]]]]]; cbn in Q; injection Q; intros; subst; cbn in Vy; try congruence; try discriminate end.
  destruct mid; discriminate.
Qed.
Lemma ex_legal_heirs : plain_heirs bview (b_items ex_legal).
Proof.
  intros pre x mid y post lo E Vx Vy _. assert (J : In x (b_items ex_legal)) by (rewrite E; apply in_or_app; right; now left).
  cbn in J. repeat (destruct J as [<-|J]; [cbn in Vx; try discriminate; injection Vx as <-; eauto; fail|]). destruct J.
Qed.
Example C66_ex : exists b' g g' co, bytecode_legalize V311 ex_legal = (b', Ok tt) /\ b_items b' <> b_items ex_legal
  /\ bare_after_set bview (b_items ex_legal) /\ plain_heirs bview (b_items ex_legal)
  /\ bytecode_to_code V311 T311 dis_effect311 keq0 None None true true b' = Ok co
  /\ from_bytecode T311 ex_legal = Ok g /\ cfg_legalize V311 T311 g = (g', Ok tt) /\ g_heap g' <> g_heap g
  /\ (forall n, In n (g_order g) -> bare_after_set bview (k_items (blk g n)))
  /\ plain_heirs bview (flat_map (fun n => k_items (blk g n)) (g_order g))
  /\ map (fun x => snd (fst x)) (source ex_legal) = map (fun z => line_loc (Some z)) [3; 3; 7; 8; 8].
Proof.
  eexists _, _, _, _. split; [reflexivity|]. split; [discriminate|]. split; [exact ex_legal_bare|]. split; [exact ex_legal_heirs|].
  split; [vm_compute; reflexivity|]. split; [vm_compute; reflexivity|]. split; [vm_compute; reflexivity|]. split; [discriminate|].
  split; [|split; [|reflexivity]].
  - intros n J. cbn in J. destruct J as [<-|[<-|[]]]; cbn [blk nth_error k_items g_heap]; intros pre x mid y post z lo E Vx Vy;
    match type of E with ?l = _ => assert (JY : In y l) by (rewrite E; apply in_or_app; right; right; apply in_or_app; right; now left) end;
    cbn in JY; repeat (destruct JY as [<-|JY]; [cbn in Vy; try discriminate; try congruence|]); try destruct JY.
    injection Vy as <-. destruct pre as [|x1 pre]; cbn in E; injection E; intros; subst; try discriminate.
    destruct pre as [|x2 pre]; cbn in *; [|destruct pre]; try discriminate; match goal with Q : _ = _ |- _ => injection Q; intros; subst; discriminate end.
  - intros pre x mid y post lo E Vx Vy _. 
    match type of E with ?l = _ => assert (J : In x l) by (rewrite E; apply in_or_app; right; now left) end.
    vm_compute in J. repeat (destruct J as [<-|J]; [cbn in Vx; try discriminate; injection Vx as <-; eexists; reflexivity|]). destruct J.
Qed.

Print Assumptions C66_bytecode_partial.
Print Assumptions C66_to_code_partial.
Print Assumptions C66_graph_partial.
Print Assumptions C66_concrete_before_311_partial.
Print Assumptions C66_bytecode_idempotent.
Print Assumptions C66_concrete_idempotent.
Print Assumptions C66_graph_idempotent.
Print Assumptions C66_own_line_refuted.
Print Assumptions C66_columns_refuted.
Print Assumptions C66_no_line_refuted.
Print Assumptions C66_concrete_311_refuted.
