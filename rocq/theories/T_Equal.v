(** Property theorems: comparisons (C59, C60, C61). *)
From Verif Require Import PyBase OpTable CPy Table311 CPyEffect P_Base P_OpTable M_Instr M_Tables M_Concrete M_Convert M_Bytecode M_Cfg M_Stack M_Full M_Equal
  S_Prog S_Eq S_Cfg S_Stack S_Equal P_Eq P_Eq2 P_Stack P_Cfg P_Equal P_Equal2 P_StackEx T_Bytecode T_Cfg T_Stack.
Open Scope string_scope.
Open Scope list_scope.
Open Scope Z_scope.

(** C59.  What the comparison of two graphs says, when it returns: [==] is true exactly if they
    have the same argument names and attributes, the same elements one after the other (jumps and
    handlers going to blocks at the same place), and the same stack size. *)
Theorem C59_graph_equality_partial : forall v T se keq g h r g' h',
  indexed g -> indexed h -> named_graph T g -> named_graph T h ->
  cfg_eq v T se keq g h = Ok (r, g', h') ->
  (r = true <-> g_argnames g = g_argnames h /\ same_attributes (g_meta g) (g_meta h) /\ same_elements T keq g h
     /\ exists size g1 h1, compute_stacksize v T se true true g = Ok (g1, size) /\ compute_stacksize v T se true true h = Ok (h1, size)).
Proof. intros v T se keq g h r g' h'. apply cfg_eq_iff. Qed.
Print Assumptions C59_graph_equality_partial.

(** If moreover the blocks have the same sizes, the graphs have the same blocks. *)
Theorem C59_same_blocks_partial : forall v T se keq g h g' h',
  indexed g -> indexed h -> named_graph T g -> named_graph T h ->
  cfg_eq v T se keq g h = Ok (true, g', h') ->
  map (@length bitem) (elements T g) = map (@length bitem) (elements T h) ->
  same_blocks T keq g h.
Proof.
  intros v T se keq g h g' h' IG IH NG NH E L. apply (cfg_eq_iff v T se keq g h true g' h' IG IH NG NH) in E.
  destruct (proj1 E eq_refl) as (_ & _ & (R & O & F) & _). exists R. split; [exact O|]. now apply F2_concat.
Qed.
Print Assumptions C59_same_blocks_partial.

(** [==] is reflexive and symmetric, as far as it returns; [!=] is its negation; and it changes
    nothing in the graphs but the stack depths of the TryBegins. *)
Theorem C59_equivalence : forall v T se keq, equivalence keq ->
  (forall g r g1 g2, cfg_eq v T se keq g g = Ok (r, g1, g2) -> r = true)
  /\ (forall g h r g' h', cfg_eq v T se keq g h = Ok (r, g', h') -> cfg_eq v T se keq h g = Ok (r, h', g'))
  /\ (forall g h r g' h', cfg_eq v T se keq g h = Ok (r, g', h') ->
        cfg_ne v T se keq g h = Ok (negb r) /\ same_but_depths g g' /\ same_but_depths h h').
Proof.
  intros v T se keq K. split; [|split].
  - intros g r g1 g2. now apply cfg_eq_refl.
  - intros g h r g' h'. now apply cfg_eq_sym.
  - intros g h r g' h' E. split; [unfold cfg_ne; now rewrite E|]. eapply (cfg_eq_depths v T se keq); exact E.
Qed.
Print Assumptions C59_equivalence.

(** Missing: equal graphs need not have the same blocks.  The blocks' boundaries are not compared,
    and the place a jump goes to is compared by the number of the block: here the two programs
    jump to different instructions. *)
Definition boundaries (before : bool) : bytecode := mkB nop_meta []
  ([bi "LOAD_CONST" ONone; bi "POP_JUMP_FORWARD_IF_NONE" (OLabel 0); bi "NOP" OUnset]
   ++ (if before then [BLabel 0] else [])
   ++ [bi "LOAD_CONST" (OInt 1); bi "POP_TOP" OUnset]
   ++ (if before then [] else [BLabel 0])
   ++ [bi "LOAD_CONST" ONone; bi "RETURN_VALUE" OUnset]).
Theorem C59_block_boundaries_refuted : exists b c g h g' h',
  from_bytecode T311 b = Ok g /\ from_bytecode T311 c = Ok h
  /\ cfg_eq V311 T311 dis_effect311 keq0 g h = Ok (true, g', h')
  /\ ~ same_blocks T311 keq0 g h
  /\ ~ same_program T311 keq0 (b_items b) (b_items c).
Proof.
  exists (boundaries true), (boundaries false). do 4 eexists. split; [vm_compute; reflexivity|]. split; [vm_compute; reflexivity|]. split; [vm_compute; reflexivity|]. split.
  - intros (R & _ & F). vm_compute in F. inversion F as [|? ? ? ? A F1]; subst. inversion F1 as [|? ? ? ? B F2]; subst.
    inversion B as [|? ? ? ? ? B1]; subst. inversion B1.
  - intros F. vm_compute in F. inversion F as [|? ? ? ? A F1]; subst. inversion F1 as [|? ? ? ? B F2]; subst. destruct B as (_ & [_ B] & _). discriminate B.
Qed.
Print Assumptions C59_block_boundaries_refuted.

(** Comparing two graphs changes them: the stack depths of the TryBegins are written. *)
Definition trying (id label : nat) : bytecode := mkB nop_meta []
  [BTB id (OLabel label) false None; bi "NOP" OUnset; BTE id; bi "LOAD_CONST" ONone; bi "RETURN_VALUE" OUnset;
   BLabel label; bi "RERAISE" (OInt 0)].
Definition try_graph : cfg := Eval vm_compute in match from_bytecode T311 (trying 0 0) with Ok g => g | Err _ => graph [] end.
Theorem C59_no_effect_refuted : exists g' h',
  cfg_eq V311 T311 dis_effect311 keq0 try_graph try_graph = Ok (true, g', h') /\ g' <> try_graph.
Proof. do 2 eexists. split; [vm_compute; reflexivity|]. vm_compute. discriminate. Qed.
Print Assumptions C59_no_effect_refuted.

(** The hypotheses of C59 are met: graphs with jumps and try blocks compare equal, or not. *)
Definition try_graph2 : cfg := Eval vm_compute in match from_bytecode T311 (trying 7 9) with Ok g => g | Err _ => graph [] end.
Example C59_equal_ex : indexed try_graph /\ indexed try_graph2 /\ named_graph T311 try_graph /\ named_graph T311 try_graph2
  /\ (exists g' h', cfg_eq V311 T311 dis_effect311 keq0 try_graph try_graph2 = Ok (true, g', h'))
  /\ (exists g' h', cfg_eq V311 T311 dis_effect311 keq0 with_stmt with_stmt = Ok (true, g', h'))
  /\ cfg_eq V311 T311 dis_effect311 keq0 try_graph with_stmt = Ok (false, try_graph, with_stmt)
  /\ map (@length bitem) (elements T311 try_graph) = map (@length bitem) (elements T311 try_graph2)
  /\ same_blocks T311 keq0 try_graph try_graph2.
Proof.
  assert (I1 : indexed try_graph) by (apply ginv_indexed, (ginv_from T311 (trying 0 0)); vm_compute; reflexivity).
  assert (I2 : indexed try_graph2) by (apply ginv_indexed, (ginv_from T311 (trying 7 9)); vm_compute; reflexivity).
  assert (N1 : named_graph T311 try_graph) by (apply check_named_graph_ok; vm_compute; reflexivity).
  assert (N2 : named_graph T311 try_graph2) by (apply check_named_graph_ok; vm_compute; reflexivity).
  assert (EQ : exists g' h', cfg_eq V311 T311 dis_effect311 keq0 try_graph try_graph2 = Ok (true, g', h')) by (do 2 eexists; vm_compute; reflexivity).
  split; [exact I1|]. split; [exact I2|]. split; [exact N1|]. split; [exact N2|]. split; [exact EQ|].
  split; [do 2 eexists; vm_compute; reflexivity|]. split; [vm_compute; reflexivity|]. split; [vm_compute; reflexivity|].
  destruct EQ as (g' & h' & EQ). apply (C59_same_blocks_partial _ _ _ _ _ _ _ _ I1 I2 N1 N2 EQ). vm_compute. reflexivity.
Qed.

(** C60.  What the comparison of two ConcreteBytecodes says, when it returns: the constants, the
    names, the local variables, the attributes and the stack size are the same. *)
Theorem C60_concrete_equality_partial : forall v T se keq a b r,
  concrete_eq v T se keq a b = Ok r ->
  (r = true <-> Forall2 (fun x y => keq x y = true) (cb_consts a) (cb_consts b) /\ cb_names a = cb_names b
     /\ cb_varnames a = cb_varnames b /\ same_attributes (cb_meta a) (cb_meta b)
     /\ exists size, concrete_stacksize v T se true a = Ok size /\ concrete_stacksize v T se true b = Ok size).
Proof. intros v T se keq a b r. apply concrete_eq_iff. Qed.
Print Assumptions C60_concrete_equality_partial.

(** It is reflexive and symmetric, as far as it returns. *)
Theorem C60_equivalence : forall v T se keq, equivalence keq ->
  (forall a r, concrete_eq v T se keq a a = Ok r -> r = true)
  /\ (forall a b r, concrete_eq v T se keq a b = Ok r -> concrete_eq v T se keq b a = Ok r)
  /\ (forall a b c, concrete_eq v T se keq a b = Ok true -> concrete_eq v T se keq b c = Ok true -> concrete_eq v T se keq a c = Ok true).
Proof. intros v T se keq K. split; [|split]; [apply concrete_eq_refl|apply concrete_eq_sym|apply concrete_eq_trans]; exact K. Qed.
Print Assumptions C60_equivalence.

(** Missing: the instructions and the exception table are not compared at all. *)
Definition returning (index : Z) (ex : list exentry) : cbytecode := mkCB nop_meta
  [CI (mkC "LOAD_CONST" 100 (Some index) None None 2); CI (mkC "RETURN_VALUE" 83 None None None 2)] [OInt 1; OInt 2] [] [] ex.
Theorem C60_instructions_refuted : exists a b,
  concrete_eq V311 T311 dis_effect311 keq0 a b = Ok true
  /\ ~ Forall2 same_citem (cb_items a) (cb_items b) /\ cb_ex a <> cb_ex b.
Proof.
  exists (returning 0 []), (returning 1 [mkEx 0 0 1 0 false]). split; [vm_compute; reflexivity|]. split; [|discriminate].
  intros F. inversion F as [|? ? ? ? A F1]; subst. destruct A as (_ & A & _). discriminate A.
Qed.
Print Assumptions C60_instructions_refuted.
Example C60_differ_ex : concrete_eq V311 T311 dis_effect311 keq0 (returning 0 []) (mkCB nop_meta (cb_items (returning 0 [])) [OInt 1] [] [] []) = Ok false.
Proof. vm_compute. reflexivity. Qed.

(** C61.  [a != b] is the negation of [a == b]: true for graphs. *)
Theorem C61_graph_ne : forall v T se keq g h r g' h', cfg_eq v T se keq g h = Ok (r, g', h') -> cfg_ne v T se keq g h = Ok (negb r).
Proof. intros v T se keq g h r g' h' E. unfold cfg_ne. now rewrite E. Qed.
Print Assumptions C61_graph_ne.

(** For a Bytecode, partial: if [a != b] is false and the elements of [a] may be flattened (their
    labels are there, ...), [a == b] is true.  Objects with the same identity have the same contents,
    hence the hypothesis on TryBegins. *)
Definition same_objects (a b : list bitem) : Prop :=
  forall id t la d t' la' d', In (BTB id t la d) a -> In (BTB id t' la' d') b -> t = t' /\ la = la'.
Definition no_label_constant (T : optable) (l : list bitem) : Prop :=
  forall i n, In (BI i) l -> In (i_op i) (t_hasconst T) -> i_arg i <> OLabel n.
Theorem C61_bytecode_partial : forall v T keq a b r, equivalence keq ->
  named T (b_items a) -> named T (b_items b) -> no_label_constant T (b_items a) -> no_label_constant T (b_items b) ->
  same_objects (b_items a) (b_items b) ->
  bytecode_eq v T keq a a = Ok r -> bytecode_ne T keq a b = false -> bytecode_eq v T keq a b = Ok true.
Proof. intros v T keq a b r K NA NB LA LB S E N. eapply ne_eq_items; eauto. Qed.
Print Assumptions C61_bytecode_partial.

(** Missing: both [a == b] and [a != b] are true of two Bytecodes that differ in their Label
    objects only, since list.__ne__ is used. *)
Theorem C61_bytecode_refuted : exists a b,
  bytecode_eq V311 T311 keq0 a b = Ok true /\ bytecode_ne T311 keq0 a b = true.
Proof. exists (ex_eq 0), (ex_eq 1). split; vm_compute; reflexivity. Qed.
Print Assumptions C61_bytecode_refuted.

(** A ConcreteBytecode may be both [==] and [!=] to another, or neither. *)
Theorem C61_concrete_refuted :
  (exists a b, concrete_eq V311 T311 dis_effect311 keq0 a b = Ok true /\ concrete_ne a b = true)
  /\ (exists a b, concrete_eq V311 T311 dis_effect311 keq0 a b = Ok false /\ concrete_ne a b = false).
Proof.
  split; [exists (returning 0 []), (returning 1 [])|exists (returning 0 []), (mkCB nop_meta (cb_items (returning 0 [])) [OInt 1] [] [] [])]; split; vm_compute; reflexivity.
Qed.
Print Assumptions C61_concrete_refuted.

(** C61 for the elements: [a != b] of ConcreteBytecodes tells whether an element differs. *)
Theorem C61_concrete_ne_partial : forall a b, concrete_ne a b = false <-> Forall2 same_citem (cb_items a) (cb_items b).
Proof. intros a b. apply concrete_ne_iff. Qed.
Print Assumptions C61_concrete_ne_partial.
Example C61_bytecode_ex : bytecode_eq V311 T311 keq0 (ex_eq 0) (ex_eq 0) = Ok true /\ bytecode_ne T311 keq0 (ex_eq 0) (ex_eq 0) = false
  /\ named T311 (b_items (ex_eq 0)) /\ no_label_constant T311 (b_items (ex_eq 0)) /\ same_objects (b_items (ex_eq 0)) (b_items (ex_eq 0)).
Proof.
  split; [vm_compute; reflexivity|]. split; [vm_compute; reflexivity|]. split; [|split].
  - intros i A. cbn in A. repeat (destruct A as [A|A]; [first [discriminate A|injection A as <-; vm_compute; reflexivity]|]). destruct A.
  - intros i n A B. cbn in A. repeat (destruct A as [A|A]; [first [discriminate A|injection A as <-; intros C; first [discriminate C|apply z_mem_In in B; vm_compute in B; discriminate B]]|]). destruct A.
  - intros id t la d t' la' d' A B. cbn in A, B.
    repeat (destruct A as [A|A]; [first [discriminate A|injection A as <- <- <- <-;
      repeat (destruct B as [B|B]; [first [discriminate B|injection B as <- <- <-; auto]|]); destruct B]|]). destruct A.
Qed.

(** C48 for blocks: a copy has the elements and the next block of the original, a slice has those
    selected. *)
Theorem C48_block_copy : forall b, block_copy b = b
  /\ forall items, k_items (block_slice b items) = items /\ k_next (block_slice b items) = k_next b.
Proof. intros []. repeat split. Qed.
Print Assumptions C48_block_copy.
