(** Property theorems: a call that raises leaves the object as it was (C77).
    The graph operations are those of M_Atomic, which give the graph left behind also when they
    raise; [C77_same_*] shows that they are the operations of M_Cfg and M_Stack (C24, C25, C30). *)
From Verif Require Import PyBase OpTable Table311 P_Base M_Instr M_Tables M_Concrete M_Convert M_Bytecode M_Cfg M_Stack M_Atomic M_Objects
  S_Args S_Prog S_Cfg S_Stack CPyEffect P_Instr2 P_Cfg P_Cfg2 P_Stack P_StackEx P_Atomic P_Atomic2 T_Stack T_Objects.
Open Scope string_scope.
Open Scope list_scope.
Open Scope Z_scope.

(** ** Specification *)

(** What a call that can raise gives without the object left behind *)
Definition seen {A B} (r : cfg * res A) (f : cfg -> A -> B) : res B := match r with (g, Ok a) => Ok (f g a) | (_, Err e) => Err e end.

(** All elements can be iterated over, the handlers of try blocks are blocks of the graph, and no
    instruction takes more from the stack after its effect than was there (the second effect that
    the computation uses is not negative). *)
Record iterable (T : optable) (g : cfg) : Prop := {
  it_blocks : forall n, In n (g_order g) -> block_iter T (k_items (blk g n)) = Ok tt;
  it_handlers : forall n id t la d, In n (g_order g) -> In (BTB id t la d) (k_items (blk g n)) -> exists b, t = OBlock b /\ In b (g_order g) }.
Definition gives_back (v : pyver) (T : optable) (se : oracle) (check : bool) (g : cfg) : Prop :=
  forall n x j p q, In n (g_order g) -> In (BI x) (k_items (blk g n)) -> eff v T se check x j = Some (p, q) -> 0 <= q.

(** ** The models are the same *)
Theorem C77_same_delete : forall g i, delitem g i = seen (delitem_run g i) (fun g' _ => g').
Proof. intros g i. rewrite delitem_agree. unfold seen. destruct (delitem_run g i) as [g' [u|e]]; reflexivity. Qed.
Theorem C77_same_delete_block : forall g n, delitem_block g n = seen (delitem_block_run g n) (fun g' _ => g').
Proof. intros g n. rewrite delitem_block_agree. unfold seen. destruct (delitem_block_run g n) as [g' [u|e]]; reflexivity. Qed.
Theorem C77_same_split : forall T g n i, split_block T g n i = seen (split_block_run T g n i) pair.
Proof. intros. rewrite split_agree. reflexivity. Qed.
Theorem C77_same_stacksize : forall v T se check depths g, compute_stacksize v T se check depths g = seen (compute_run v T se check depths g) pair.
Proof. intros. rewrite compute_agree. reflexivity. Qed.

(** ** Instructions *)
Theorem C77_instr : forall v T i o i' e, wf_optable v T = true -> instr_step v T i o = (i', Err e) -> i' = i.
Proof. intros v T i o i' e wf. exact (instr_step_err v T wf i o i' e). Qed.
Theorem C77_concrete_instr : forall v T i o i' e, cinstr_step v T i o = (i', Err e) -> i' = i.
Proof. intros v T i o i' e. exact (cinstr_step_err v T i o i' e). Qed.

(** ** Deleting a block *)
Theorem C77_delete_partial : forall T g i g' e, history T g -> 0 <= i -> delitem_run g i = (g', Err e) -> g' = g.
Proof. intros T g i g' e H. apply delete_unchanged. now apply (ginv_history T). Qed.
Theorem C77_delete_block : forall T g n g' e, history T g -> delitem_block_run g n = (g', Err e) -> g' = g.
Proof. intros T g n g' e H. apply delete_block_unchanged. now apply (ginv_history T). Qed.
(** Without 0 <= i: del cfg[-1] of the only block raises IndexError; the block is gone, and
    get_block_index no longer knows it. *)
Theorem C77_delete_negative_refuted : forall T, exists g g', history T g /\ delitem_run g (-1) = (g', Err IndexError)
  /\ g_order g = [0%nat] /\ g_order g' = [] /\ get_block_index g 0 = Ok 0 /\ get_block_index g' 0 = Err ValueError.
Proof. intros T. exists new_cfg. eexists. split; [apply h_new|]. vm_compute. repeat split. Qed.

(** ** Splitting a block *)
Theorem C77_split_partial : forall T g n i g' e, history T g -> block_iter T (k_items (blk g n)) = Ok tt ->
  split_block_run T g n i = (g', Err e) -> g' = g.
Proof.
  intros T g n i g' e H B E. apply (ginv_history T) in H. destruct (split_left T g n i g' e H E) as [->|(_ & _ & X & _)]; [reflexivity|].
  rewrite (iter_skipn _ _ _ B) in X. discriminate X.
Qed.
(** Whatever the block: the graph stays, or the elements from [i] on make no block and are gone. *)
Theorem C77_split_lost : forall T g n i g' e, history T g -> split_block_run T g n i = (g', Err e) ->
  g' = g \/ (block_iter T (skipn (Z.to_nat i) (k_items (blk g n))) = Err e
             /\ g_order g' = g_order g /\ k_items (blk g' n) = firstn (Z.to_nat i) (k_items (blk g n))
             /\ forall m, m <> n -> blk g' m = blk g m).
Proof.
  intros T g n i g' e H E. apply (ginv_history T) in H. destruct (split_left T g n i g' e H E) as [->|(I & IN & X & ->)]; [now left|].
  right. split; [exact X|]. split; [reflexivity|]. destruct H as (_ & V & _).
  split; [|intros m M]; unfold blk; cbn [g_heap].
  - rewrite blk_upd by (rewrite Forall_forall in V; apply V; exact IN). now rewrite Nat.eqb_refl.
  - rewrite blk_upd by (rewrite Forall_forall in V; apply V; exact IN). destruct (Nat.eqb_spec m n); [contradiction|reflexivity].
Qed.
Definition two_jumps : list bitem := [bi "NOP" OUnset; bi "JUMP_FORWARD" (OBlock 0); bi "RETURN_VALUE" OUnset].
Theorem C77_split_refuted : exists g g', history T311 g /\ split_block_run T311 g 1 1 = (g', Err ValueError)
  /\ k_items (blk g 1) = two_jumps /\ k_items (blk g' 1) = [bi "NOP" OUnset].
Proof.
  exists (fst (add_block new_cfg two_jumps)). eexists. split; [apply h_add, h_new|]. vm_compute. repeat split.
Qed.

(** ** The stack size *)
Theorem C77_stacksize_partial : forall v T se check depths g g' e, iterable T g -> gives_back v T se check g ->
  compute_run v T se check depths g = (g', Err e) -> g' = g.
Proof.
  intros v T se check depths g g' e [B H] N. apply compute_unchanged; [exact B|exact H|].
  intros n x j [p q] IN IX U. apply (N n x j p q IN IX). unfold eff. rewrite U. reflexivity.
Qed.
(** without check_pre_and_post the second effect is 0 *)
Theorem C77_unchecked_gives_back : forall v T se g, gives_back v T se false g.
Proof.
  intros v T se g n x j p q _ _ E. unfold eff, used_effect in E. destruct (stack_effect v T se x (Some j)); cbn [bind] in E; [|discriminate].
  injection E as _ <-. discriminate.
Qed.
(** Without [iterable]: a block that is not reached, not iterable, after one with a TryBegin. *)
Definition broken_graph : cfg := graph
  [ ([bi "LOAD_CONST" ONone; bi "RETURN_VALUE" OUnset], None);
    ([BTB 0 (OBlock 3) true None; bi "NOP" OUnset; BTE 0], Some 2%nat);
    (two_jumps, None);
    ([bi "RERAISE" (OInt 0)], None) ].
Theorem C77_stacksize_refuted : exists g',
  compute_run V311 T311 dis_effect311 true true broken_graph = (g', Err ValueError)
  /\ elem broken_graph 1 0 = Some (BTB 0 (OBlock 3) true None) /\ elem g' 1 0 = Some (BTB 0 (OBlock 3) true (Some 32768)).
Proof. eexists. vm_compute. repeat split. Qed.

(** ** Bytecode.legalize() *)
(** The list, names and counts stay, and of the objects only lines of its own instructions change. *)
Theorem C77_legalize_partial : forall v h b h' b' e, obytecode_legalize v h b = (h', b', Err e) ->
  b' = b /\ (forall r, ~ In r (ob_items b) \/ is_instr (h r) = false -> h' r = h r)
  /\ (forall r i, h r = BI i -> exists i', h' r = BI i' /\ i_name i' = i_name i /\ i_op i' = i_op i /\ i_arg i' = i_arg i).
Proof.
  intros v h b h' b' e E. split; [|split; [intros r R; apply (legalize_frame v h b h' b' (Err e) E r); destruct R as [R|R]; [left; exact R|right; destruct (h r); cbn in *; congruence]|exact (legalize_keeps v h b h' b' (Err e) E)]].
  exact (legalize_list_kept v h b h' b' e E).
Qed.
(** a SetLineno over an instruction with columns: RuntimeError, the instruction before it has
    a new line *)
Definition wide : bitem := BI (mkInstr "NOP" 9 OUnset (Some (mkLoc (Some 1) (Some 1) (Some 0) (Some 3)))).
Theorem C77_legalize_refuted : exists h b h' b', obytecode_legalize V311 h b = (h', b', Err RuntimeError)
  /\ map h (ob_items b) = [BSet 5; bi "NOP" OUnset; wide] /\ map h' (ob_items b) <> map h (ob_items b).
Proof.
  exists (objects [BSet 5; bi "NOP" OUnset; wide]), (at_refs [0; 1; 2]%nat). eexists _, _.
  split; [vm_compute; reflexivity|]. split; [reflexivity|]. vm_compute. discriminate.
Qed.
(** Without [gives_back]: SET_ADD(0), which CPython does not execute, is counted as taking an
    element after its effect; if nothing follows, the depth of the second handler (the block itself) is then negative, AssertionError, and
    the depth of the first is set. *)
Definition set_add_graph : cfg := graph
  [ ([BTB 0 (OBlock 1) true None; bi "NOP" OUnset; BTE 0; BTB 1 (OBlock 0) true None; bi "SET_ADD" (OInt 0); BTE 1], None);
    ([bi "LOAD_CONST" ONone; bi "RETURN_VALUE" OUnset], None) ].
Lemma iterableb_ok T g :
  forallb (fun n => (match block_iter T (k_items (blk g n)) with Ok _ => true | Err _ => false end)
     && forallb (fun it => match it with BTB _ (OBlock b) _ _ => nat_mem b (g_order g) | BTB _ _ _ _ => false | _ => true end) (k_items (blk g n))) (g_order g) = true
  -> iterable T g.
Proof.
  intros F. rewrite forallb_forall in F. split.
  - intros n IN. specialize (F n IN). apply Bool.andb_true_iff in F. destruct F as [F _]. destruct (block_iter T _) as [[]|]; [reflexivity|discriminate].
  - intros n id t la d IN IT. specialize (F n IN). apply Bool.andb_true_iff in F. destruct F as [_ F]. rewrite forallb_forall in F. specialize (F _ IT).
    cbn in F. destruct t; try discriminate. eexists. split; [reflexivity|]. apply nat_mem_in, F.
Qed.
Theorem C77_stacksize_negative_refuted : exists g', iterable T311 set_add_graph
  /\ compute_run V311 T311 dis_effect311 true true set_add_graph = (g', Err AssertionError)
  /\ elem set_add_graph 0 0 = Some (BTB 0 (OBlock 1) true None) /\ elem g' 0 0 = Some (BTB 0 (OBlock 1) true (Some 0)).
Proof. eexists. split; [apply iterableb_ok; vm_compute; reflexivity|]. vm_compute. repeat split. Qed.

(** ** Non-vacuity *)
(** a graph of three blocks, and calls that raise *)
Definition three : cfg := fst (add_block (fst (add_block new_cfg [bi "NOP" OUnset; bi "NOP" OUnset])) [bi "LOAD_CONST" ONone; bi "RETURN_VALUE" OUnset]).
Example C77_graph_ex : history T311 three /\ block_iter T311 (k_items (blk three 1)) = Ok tt
  /\ delitem_run three 3 = (three, Err IndexError) /\ delitem_block_run three 7 = (three, Err ValueError)
  /\ split_block_run T311 three 1 3 = (three, Err ValueError) /\ split_block_run T311 three 1 (-1) = (three, Err ValueError).
Proof. split; [apply h_add, h_add, h_new|]. vm_compute. repeat split. Qed.
(** a try block with its depth unset, and POP_TOP from an empty stack *)
Definition short : cfg := graph
  [ ([BTB 0 (OBlock 1) true None; bi "NOP" OUnset; BTE 0; bi "POP_TOP" OUnset; bi "LOAD_CONST" ONone; bi "RETURN_VALUE" OUnset], None);
    ([bi "RERAISE" (OInt 0)], None) ].
Example C77_stacksize_ex : iterable T311 short /\ gives_back V311 T311 dis_effect311 true short
  /\ compute_run V311 T311 dis_effect311 true true short = (short, Err RuntimeError).
Proof.
  split; [apply iterableb_ok; vm_compute; reflexivity|]. split; [|vm_compute; reflexivity].
  intros n x j p q IN IX E. cbn in IN. destruct IN as [<-|[<-|[]]]; cbn in IX;
    repeat (destruct IX as [IX|IX]; [try discriminate IX; injection IX as <-; destruct j; vm_compute in E; injection E as _ <-; discriminate|]); destruct IX.
Qed.
Example C77_instr_ex : wf_optable V311 T311 = true /\ exists i, new_instr V311 T311 "LOAD_FAST" (OStr "x") LUnset None = Ok i
  /\ instr_step V311 T311 i (IopSet "NO_SUCH" OUnset) = (i, Err ValueError).
Proof. split; [vm_compute; reflexivity|]. eexists. split; vm_compute; reflexivity. Qed.
Print Assumptions C77_same_delete.
Print Assumptions C77_same_split.
Print Assumptions C77_same_stacksize.
Print Assumptions C77_instr.
Print Assumptions C77_concrete_instr.
Print Assumptions C77_delete_partial.
Print Assumptions C77_delete_block.
Print Assumptions C77_delete_negative_refuted.
Print Assumptions C77_split_partial.
Print Assumptions C77_split_lost.
Print Assumptions C77_split_refuted.
Print Assumptions C77_stacksize_partial.
Print Assumptions C77_stacksize_refuted.
Print Assumptions C77_stacksize_negative_refuted.
Print Assumptions C77_legalize_partial.
Print Assumptions C77_legalize_refuted.
