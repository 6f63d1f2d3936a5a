(** Properties of the stack size computation (C30 - C34).

    [eff v T se check x j]: the effect of instruction [x] as the package computes it
    (P_Stack.v): with check_pre_and_post=True the two numbers of pre_and_post_stack_effect(),
    else stack_effect() and 0; [None] if that raises.  [se] is dis.stack_effect, any function.
    The machine that walks through the graph ([at_]) and [regular] are in S_Stack.v.
    [cover b i h la]: an exception raised at element [i] of block [b] goes to handler [h]; any
    relation, for instance the ranges of the exception table that is made from the graph. *)
From Verif Require Import PyBase OpTable Table311 P_Base M_Instr M_Concrete M_Bytecode M_Cfg M_Stack S_Cfg S_Stack
  CPyEffect P_Effect P_Stack P_StackL P_Stack2 P_Stack3 P_Stack4 P_StackGrow P_StackEx P_StackFuel TablesEx.
Open Scope string_scope.
Open Scope list_scope.
Open Scope Z_scope.

(** ** Examples *)
Definition nop_meta : meta := mkMeta 0 0 0 1 "f" "f" "f.py" OUnset [] [] 0.
Definition bi (n : string) (a : pyobj) : bitem :=
  match new_instr V311 T311 n a LUnset None with Ok i => BI i | Err _ => BLabel 0 end.
(** blocks in order, each with the number of its next block *)
Definition graph (l : list (list bitem * option nat)) : cfg :=
  mkG nop_meta [] (map (fun p => mkBlk (fst p) (snd p)) l) (seq 0 (length l)) (map (fun n => (n, Z.of_nat n)) (seq 0 (length l))).
Notation cpy := (eff V311 T311 dis_effect311 true).

(** for x in it: try: f() except: pass; a loop with a protected body *)
Definition loop_graph : cfg := graph
  [ ([bi "LOAD_NAME" (OStr "it"); bi "GET_ITER" OUnset], Some 1%nat);
    ([bi "FOR_ITER" (OBlock 3)], Some 2%nat);
    ([bi "POP_TOP" OUnset; BTB 0 (OBlock 4) true None; bi "LOAD_NAME" (OStr "f"); bi "POP_TOP" OUnset; BTE 0;
      bi "JUMP_BACKWARD" (OBlock 1)], None);
    ([bi "LOAD_CONST" ONone; bi "RETURN_VALUE" OUnset], None);
    ([bi "PUSH_EXC_INFO" OUnset; bi "POP_TOP" OUnset; bi "POP_EXCEPT" OUnset; bi "POP_TOP" OUnset;
      bi "JUMP_BACKWARD" (OBlock 1)], None) ].
Definition loop_depth (h : nat) : Z := if Nat.eqb h 4 then 1 else 0.
(** the elements of the try block *)
Definition loop_cover := [(2, 2, 4, true); (2, 3, 4, true); (2, 4, 4, true)]%nat.
Example loop_regular : regular T311 cpy loop_graph 0 loop_depth (cov loop_cover).
Proof.
  apply (regularb_ok _ _ _ _ _ _ 24); [vm_compute; reflexivity|]. intros h. unfold loop_depth. destruct (Nat.eqb h 4); lia.
Qed.
Example loop_complete : complete T311 cpy loop_graph.
Proof. apply check_complete. vm_compute. reflexivity. Qed.
Example loop_coherent : coherent loop_graph.
Proof. apply check_coherent. vm_compute. reflexivity. Qed.
Example loop_known : try_known V311 loop_graph.
Proof. left. reflexivity. Qed.

(** [with x: f()] as CPython 3.11 compiles it.  The stack is deeper at the TryBegin (the value
    of the context manager is there) than after the following POP_TOP; the second handler is
    entered from the first and has two TryBegin. *)
Definition with_code : bytecode := mkB nop_meta ["x"; "f"]
  [ bi "RESUME" (OInt 0); bi "LOAD_FAST" (OStr "x"); bi "BEFORE_WITH" OUnset;
    BTB 0 (OLabel 1) true None; bi "POP_TOP" OUnset; bi "PUSH_NULL" OUnset; bi "LOAD_FAST" (OStr "f");
    bi "PRECALL" (OInt 0); bi "CALL" (OInt 0); bi "POP_TOP" OUnset; BTE 0;
    bi "LOAD_CONST" ONone; bi "LOAD_CONST" ONone; bi "LOAD_CONST" ONone; bi "PRECALL" (OInt 2); bi "CALL" (OInt 2);
    bi "POP_TOP" OUnset; bi "LOAD_CONST" ONone; bi "RETURN_VALUE" OUnset;
    BLabel 1; BTB 1 (OLabel 2) true None; bi "PUSH_EXC_INFO" OUnset; bi "WITH_EXCEPT_START" OUnset;
    bi "POP_JUMP_FORWARD_IF_TRUE" (OLabel 3); bi "RERAISE" (OInt 2); BTE 1;
    BLabel 2; bi "COPY" (OInt 3); bi "POP_EXCEPT" OUnset; bi "RERAISE" (OInt 1);
    BLabel 3; BTB 2 (OLabel 2) true None; bi "POP_TOP" OUnset; BTE 2; bi "POP_EXCEPT" OUnset; bi "POP_TOP" OUnset;
    bi "POP_TOP" OUnset; bi "LOAD_CONST" ONone; bi "RETURN_VALUE" OUnset ].
Definition with_stmt : cfg := Eval vm_compute in match from_bytecode T311 with_code with Ok g => g | Err _ => graph [] end.
Definition with_depth (h : nat) : Z := if Nat.eqb h 1 then 1 else if Nat.eqb h 3 then 3 else 0.
Definition with_cover := (map (fun i => (0, i, 1, true)) (seq 4 6) ++ map (fun i => (1, i, 3, true)) [1; 2; 3]
  ++ [(2, 0, 3, true); (4, 2, 3, true)])%nat.
Example with_graph_is : map k_next (g_heap with_stmt) = [None; Some 2; None; None; None]%nat
  /\ elem with_stmt 0 3 = Some (BTB 0 (OBlock 1) true None) /\ elem with_stmt 1 0 = Some (BTB 1 (OBlock 3) true None)
  /\ elem with_stmt 4 1 = Some (BTB 2 (OBlock 3) true None).
Proof. vm_compute. repeat split. Qed.
Example with_regular : regular T311 cpy with_stmt 0 with_depth (cov with_cover).
Proof.
  apply (regularb_ok _ _ _ _ _ _ 40); [vm_compute; reflexivity|].
  intros h. unfold with_depth. destruct (Nat.eqb h 1), (Nat.eqb h 3); lia.
Qed.
Example with_complete : complete T311 cpy with_stmt.
Proof. apply check_complete. vm_compute. reflexivity. Qed.
Example with_coherent : coherent with_stmt.
Proof. apply check_coherent. vm_compute. reflexivity. Qed.
Example with_known : try_known V311 with_stmt.
Proof. left. reflexivity. Qed.
(** the size and the depths are those of CPython *)
Example with_size : exists g', compute_stacksize V311 T311 dis_effect311 true true with_stmt = Ok (g', 6)
  /\ elem g' 0 3 = Some (BTB 0 (OBlock 1) true (Some 1)) /\ elem g' 1 0 = Some (BTB 1 (OBlock 3) true (Some 3))
  /\ elem g' 4 1 = Some (BTB 2 (OBlock 3) true (Some 3)).
Proof. eexists. split; [vm_compute; reflexivity|]. repeat split. Qed.

(** The depth with which every block is entered is always the same: what CPython asks for. *)
Definition consistent (T : optable) (effect : instr -> bool -> option (Z * Z)) (g : cfg) (first : Z) (H : nat -> Z)
  (cover : nat -> nat -> nat -> bool -> Prop) : Prop :=
  forall b d d' o o', at_ T effect g first H cover (b, O, d, o) -> at_ T effect g first H cover (b, O, d', o') -> d = d'.
Definition consistentb (L : list conf) : bool :=
  forallb (fun c => forallb (fun c' => let '(b, i, d, o) := c in let '(b', i', d', o') := c' in
     if Nat.eqb b b' && Nat.eqb i 0 && Nat.eqb i' 0 then d =? d' else true) L) L.
Lemma check_consistent T effect g first H cvs L : closed T effect g first H cvs L = true -> consistentb L = true ->
  consistent T effect g first H (cov cvs).
Proof.
  intros CL CK b d d' o o' A A'. apply (at_list _ _ _ _ _ _ L) in A; auto. apply (at_list _ _ _ _ _ _ L) in A'; auto.
  unfold consistentb in CK. rewrite forallb_forall in CK. specialize (CK _ A). rewrite forallb_forall in CK. specialize (CK _ A').
  cbn in CK. rewrite Nat.eqb_refl in CK. cbn in CK. lia.
Qed.
Definition nowhere : nat -> nat -> nat -> bool -> Prop := cov [].

(** ** C30 *)
(** The stack never holds more items than the computed size on any way through the graph, of
    any length, with any number of exceptions raised.  [first] items are there at the start
    (1 in generators of 3.10 to 3.12, else 0).  Partial: for the graphs of [regular]; it is
    false for other graphs, see below. *)
Theorem C30_stacksize_sufficient_partial : forall v T se check depths g g' n H cover,
  let first := first_depth v (m_flags (g_meta g)) in
  regular T (eff v T se check) g first H cover -> coherent g -> try_known v g ->
  compute_stacksize v T se check depths g = Ok (g', n) ->
  forall b i d o, at_ T (eff v T se check) g first H cover (b, i, d, o) -> d <= Z.max n first.
Proof.
  intros v T se check depths g g' n H cover first R CO TK E. assert (G := compute_good v T se check depths g H cover R CO TK).
  rewrite E in G. cbn [good outcome] in G. exact (proj1 G).
Qed.
Print Assumptions C30_stacksize_sufficient_partial.

(** Without try blocks (as in every graph before 3.11) the depths with which a block is entered
    may differ; it is enough that no way from a block back to it leaves more items on the
    stack than there were: then the size covers every way through the graph. *)
Theorem C30_varying_depths_partial : forall v T se check depths g g' n,
  let first := first_depth v (m_flags (g_meta g)) in
  let reached c := exists m l, g_order g = m :: l /\ steps T (eff v T se check) g (m, O, first, None) c in
  (forall b i id t la sd, elem g b i <> Some (BTB id t la sd)) ->
  (forall b d d' o o', reached (b, O, d, o) -> steps T (eff v T se check) g (b, O, d, o) (b, O, d', o') -> d' <= d) ->
  (forall b i d o m, reached (b, i, d, o) -> elem g b i = None -> k_next (blk g b) = Some m ->
     k_items (blk g m) = [] -> k_next (blk g m) = None) ->
  compute_stacksize v T se check depths g = Ok (g', n) ->
  forall b i d o, reached (b, i, d, o) -> d <= Z.max n first.
Proof. intros v T se check depths g g' n first reached NT NG NE E. exact (grow_size v T se check depths g g' n NT NG NE E). Qed.
Print Assumptions C30_varying_depths_partial.

(** 3.10: the last block is entered with no item first, then with one; and it is a loop *)
Definition bi310 (n : string) (a : pyobj) : bitem :=
  match new_instr V310 TPre n a LUnset None with Ok i => BI i | Err _ => BLabel 0 end.
Definition effect310 : oracle := fun op _ _ =>
  if op =? 100 then Some 1 else if z_mem op [1; 83; 115] then Some (-1) else None.
Definition varying_graph : cfg := Eval vm_compute in graph
  [ ([bi310 "LOAD_CONST" ONone; bi310 "POP_JUMP_IF_TRUE" (OBlock 2)], Some 1%nat);
    ([bi310 "LOAD_CONST" ONone], Some 2%nat);
    ([bi310 "LOAD_CONST" ONone; bi310 "POP_JUMP_IF_TRUE" (OBlock 2)], Some 3%nat);
    ([bi310 "LOAD_CONST" ONone; bi310 "RETURN_VALUE" OUnset], None) ].
Definition varying_confs : list conf := Eval vm_compute in
  grown conf_eq_dec (succs TPre (eff V310 TPre effect310 false) varying_graph) 14 [(0%nat, O, 0, None)].
Example C30_varying_ex :
  let step_all := steps TPre (eff V310 TPre effect310 false) varying_graph in
  (forall b i id t la sd, elem varying_graph b i <> Some (BTB id t la sd))
  /\ (forall b d d' o o', (exists m l, g_order varying_graph = m :: l /\ step_all (m, O, 0, None) (b, O, d, o)) ->
        step_all (b, O, d, o) (b, O, d', o') -> d' <= d)
  /\ (forall b i d o m, (exists m l, g_order varying_graph = m :: l /\ step_all (m, O, 0, None) (b, i, d, o)) ->
        elem varying_graph b i = None -> k_next (blk varying_graph b) = Some m ->
        k_items (blk varying_graph m) = [] -> k_next (blk varying_graph m) = None)
  /\ step_all (0%nat, O, 0, None) (2%nat, O, 0, None) /\ step_all (0%nat, O, 0, None) (3%nat, 1%nat, 2, None)
  /\ compute_stacksize V310 TPre effect310 false true varying_graph = Ok (varying_graph, 2).
Proof.
  set (ef := eff V310 TPre effect310 false). set (L := varying_confs).
  assert (R : forall c, (exists m l, g_order varying_graph = m :: l /\ steps TPre ef varying_graph (m, O, 0, None) c) -> In c L).
  { intros c (m & l & E & ST). injection E as <- _. eapply (steps_list TPre ef); [| |exact ST]; [vm_compute; reflexivity|vm_compute; auto]. }
  split; [|split; [|split]].
  - intros b i id t la sd X. assert (Y : forallb (fun b => forallb (fun it => match it with BTB _ _ _ _ => false | _ => true end) (k_items b))
      (g_heap varying_graph) = true) by (vm_compute; reflexivity). rewrite forallb_forall in Y. unfold elem, blk in X.
    destruct (nth_error (g_heap varying_graph) b) as [k|] eqn:Q; [|destruct i; discriminate X].
    specialize (Y k (nth_error_In _ _ Q)). rewrite forallb_forall in Y. specialize (Y _ (nth_error_In _ _ X)). discriminate Y.
  - intros b d d' o o' RC ST. apply R in RC. eapply (growth_ok TPre ef varying_graph 14 L); [vm_compute; reflexivity|exact RC|exact ST].
  - intros b i d o m _ _ KN KI. exfalso. destruct b as [|[|[|[|b]]]].
    + injection KN as <-. discriminate KI.
    + injection KN as <-. discriminate KI.
    + injection KN as <-. discriminate KI.
    + discriminate KN.
    + destruct b; discriminate KN.
  - split; [|split; [|vm_compute; reflexivity]].
    + apply ss_step with (0%nat, 1%nat, 1, None); [|apply (succs_step TPre ef); vm_compute; auto].
    apply ss_step with (0%nat, 0%nat, 0, None); [constructor|apply (succs_step TPre ef); vm_compute; auto].
    + apply ss_step with (3%nat, 0%nat, 1, None); [|apply (succs_step TPre ef); vm_compute; auto].
    apply ss_step with (2%nat, 2%nat, 1, None); [|apply (succs_step TPre ef); vm_compute; auto].
    apply ss_step with (2%nat, 1%nat, 2, None); [|apply (succs_step TPre ef); vm_compute; auto].
    apply ss_step with (2%nat, 0%nat, 1, None); [|apply (succs_step TPre ef); vm_compute; auto].
    apply ss_step with (1%nat, 1%nat, 1, None); [|apply (succs_step TPre ef); vm_compute; auto].
    apply ss_step with (1%nat, 0%nat, 0, None); [|apply (succs_step TPre ef); vm_compute; auto].
    apply ss_step with (0%nat, 2%nat, 0, None); [|apply (succs_step TPre ef); vm_compute; auto].
    apply ss_step with (0%nat, 1%nat, 1, None); [|apply (succs_step TPre ef); vm_compute; auto].
    apply ss_step with (0%nat, 0%nat, 0, None); [constructor|apply (succs_step TPre ef); vm_compute; auto].
Qed.

(** It changes nothing in the graph but the stack depths of the TryBegin. *)
Theorem C30_only_depths_change : forall v T se check depths g g' n,
  compute_stacksize v T se check depths g = Ok (g', n) -> same_but_depths g g'.
Proof. intros v T se check depths g g' n. apply compute_like. Qed.
Print Assumptions C30_only_depths_change.

Example C30_ex : exists g', compute_stacksize V311 T311 dis_effect311 true true loop_graph = Ok (g', 4)
  /\ at_ T311 cpy loop_graph 0 loop_depth (cov loop_cover) (4%nat, 1%nat, 4, None).
Proof.
  eexists. split; [vm_compute; reflexivity|].
  assert (A : at_ T311 cpy loop_graph 0 loop_depth (cov loop_cover) (2%nat, 2%nat, 1, Some (0%nat, 4%nat, true))).
  { apply at_step with (2%nat, 1%nat, 1, None); [|apply (succs_step T311 cpy); vm_compute; auto].
    apply at_step with (2%nat, 0%nat, 2, None); [|apply (succs_step T311 cpy); vm_compute; auto].
    apply at_step with (1%nat, 1%nat, 2, None); [|apply (succs_step T311 cpy); vm_compute; auto].
    apply at_step with (1%nat, 0%nat, 1, None); [|apply (succs_step T311 cpy); vm_compute; auto].
    apply at_step with (0%nat, 2%nat, 1, None); [|apply (succs_step T311 cpy); vm_compute; auto].
    apply at_step with (0%nat, 1%nat, 1, None); [|apply (succs_step T311 cpy); vm_compute; auto].
    apply at_step with (0%nat, 0%nat, 0, None); [|apply (succs_step T311 cpy); vm_compute; auto].
    eapply at_entry. reflexivity. }
  apply at_step with (4%nat, 0%nat, 3, None); [|apply (succs_step T311 cpy); vm_compute; auto].
  apply (at_raise _ _ _ _ _ _ _ 4%nat true A). left. eexists. reflexivity.
Qed.

(** Not for all graphs whose blocks are entered with one depth: an empty block (a new block
    of add_block()) counts as no next block, and what follows it is not analysed. *)
Definition empty_next : cfg := graph
  [ ([bi "LOAD_CONST" ONone], Some 1%nat); ([], Some 2%nat);
    ([bi "LOAD_CONST" ONone; bi "LOAD_CONST" ONone; bi "POP_TOP" OUnset; bi "POP_TOP" OUnset; bi "RETURN_VALUE" OUnset], None) ].
Theorem C30_empty_block_refuted : exists g' n,
  consistent T311 cpy empty_next 0 (fun _ => 0) nowhere /\ complete T311 cpy empty_next /\ coherent empty_next
  /\ compute_stacksize V311 T311 dis_effect311 true true empty_next = Ok (g', n)
  /\ exists b i d o, at_ T311 cpy empty_next 0 (fun _ => 0) nowhere (b, i, d, o) /\ n < d.
Proof.
  eexists. exists 1. split; [|split; [|split; [|split]]].
  - eapply (check_consistent _ _ _ _ _ [] (all_confs T311 cpy empty_next 0 (fun _ => 0) [] 12)); vm_compute; reflexivity.
  - apply check_complete. vm_compute. reflexivity.
  - apply check_coherent. vm_compute. reflexivity.
  - vm_compute. reflexivity.
  - exists 2%nat, 2%nat, 3, None. split; [|lia].
    apply at_step with (2%nat, 1%nat, 2, None); [|apply (succs_step T311 cpy); vm_compute; auto].
    apply at_step with (2%nat, 0%nat, 1, None); [|apply (succs_step T311 cpy); vm_compute; auto].
    apply at_step with (1%nat, 0%nat, 1, None); [|apply (succs_step T311 cpy); vm_compute; auto].
    apply at_step with (0%nat, 1%nat, 1, None); [|apply (succs_step T311 cpy); vm_compute; auto].
    apply at_step with (0%nat, 0%nat, 0, None); [|apply (succs_step T311 cpy); vm_compute; auto].
    eapply at_entry. reflexivity.
Qed.
Print Assumptions C30_empty_block_refuted.

(** ** C31 *)
(** If a size is returned no instruction on any way takes more items than there are, counted
    with the numbers the package has. *)
Theorem C31_no_underflow_partial : forall v T se check depths g g' n H cover,
  let first := first_depth v (m_flags (g_meta g)) in
  regular T (eff v T se check) g first H cover -> coherent g -> try_known v g ->
  compute_stacksize v T se check depths g = Ok (g', n) -> ~ underflow T (eff v T se check) g first H cover.
Proof.
  intros v T se check depths g g' n H cover first R CO TK E. assert (G := compute_good v T se check depths g H cover R CO TK).
  rewrite E in G. cbn [good outcome] in G. exact (proj1 (proj2 G)).
Qed.
Print Assumptions C31_no_underflow_partial.

(** It raises RuntimeError if and only if there is an underflow, and nothing else. *)
Theorem C31_underflow_reported_partial : forall v T se check depths g H cover,
  let first := first_depth v (m_flags (g_meta g)) in
  regular T (eff v T se check) g first H cover -> coherent g -> try_known v g -> complete T (eff v T se check) g ->
  match compute_stacksize v T se check depths g with
  | Ok _ => ~ underflow T (eff v T se check) g first H cover
  | Err e => e = RuntimeError /\ underflow T (eff v T se check) g first H cover
  end.
Proof.
  intros v T se check depths g H cover first R CO TK W. assert (G := compute_good v T se check depths g H cover R CO TK).
  assert (NT := compute_stops v T se check depths g).
  destruct (compute_stacksize v T se check depths g) as [[g' n]|e]; cbn [good outcome] in G; [tauto|].
  destruct G as [G1 G2]. destruct (G2 W) as [-> | ->]; [auto|congruence].
Qed.
Print Assumptions C31_underflow_reported_partial.

(** The numbers the package has, against the needs of the instructions of CPython 3.11
    ([needs311]): enough items are there, except for 15 instructions ([undercounted]). *)
Theorem C31_needs_met_partial : forall depths g g' n H cover,
  let first := first_depth V311 (m_flags (g_meta g)) in
  regular T311 cpy g first H cover -> coherent g -> complete T311 cpy g ->
  compute_stacksize V311 T311 dis_effect311 true depths g = Ok (g', n) ->
  forall b i d o x j k, at_ T311 cpy g first H cover (b, i, d, o) -> elem g b i = Some (BI x) ->
    opmap T311 (i_name x) = Some (i_op x) -> 0 <= arg_number x ->
    (if j : bool then has_jump T311 x = true else has_jump T311 x = false \/ is_uncond_jump_name (i_name x) = false) ->
    undercounted (i_name x) = false -> needs311 (i_name x) (arg_number x) j = Some k -> k <= d \/ k = 0.
Proof.
  intros depths g g' n H cover first R CO W E b i d o x j k A EL OP AN J U N.
  assert (NU := C31_no_underflow_partial V311 _ _ _ _ _ _ _ H cover R CO (or_introl eq_refl) E).
  assert (IN : In b (g_order g)) by (apply (at_order V311 T311 dis_effect311 true g first H cover R W _ A)).
  destruct (cpy x j) as [[p q]|] eqn:EF; [|destruct (com_effects _ _ _ W b x j IN (nth_error_In _ _ EL) EF)].
  unfold eff, used_effect in EF. destruct (pre_and_post V311 T311 dis_effect311 x (Some j)) as [pq|] eqn:PP; [|discriminate].
  assert (pq = (p, q)) by congruence. subst pq.
  assert (exists e, stack_effect V311 T311 dis_effect311 x (Some j) = Ok e) as [e SE].
  { unfold pre_and_post in PP. destruct (stack_effect V311 T311 dis_effect311 x (Some j)); [eauto|discriminate]. }
  destruct (both311 x (Some j) e p q OP SE PP) as [_ B]. destruct (B AN j k eq_refl N) as [B1 _].
  destruct (B1 U) as [B2|B2]; [|auto]. destruct (Z_lt_le_dec (d + p) 0) as [LT|GE]; [|lia].
  exfalso. apply NU. exists b, i, d, o, x, j, p, q. split; [exact A|]. split; [exact EL|].
  split; [intros ->; exact J|]. split; [intros ->; exact J|]. split; [|exact LT].
  unfold eff, used_effect. now rewrite PP.
Qed.
Print Assumptions C31_needs_met_partial.

(** No false alarm: after a RuntimeError some instruction really has too few items. *)
Theorem C31_no_false_alarm_partial : forall depths g H cover,
  let first := first_depth V311 (m_flags (g_meta g)) in
  regular T311 cpy g first H cover -> coherent g -> complete T311 cpy g ->
  (forall b x, In (BI x) (k_items (blk g b)) -> opmap T311 (i_name x) = Some (i_op x) /\ 0 <= arg_number x
     /\ extends (i_name x) && (arg_number x =? 0) = false) ->
  compute_stacksize V311 T311 dis_effect311 true depths g = Err RuntimeError ->
  exists b i d o x j k, at_ T311 cpy g first H cover (b, i, d, o) /\ elem g b i = Some (BI x)
    /\ needs311 (i_name x) (arg_number x) j = Some k /\ d < k.
Proof.
  intros depths g H cover first R CO W LG E.
  assert (G := C31_underflow_reported_partial V311 T311 dis_effect311 true depths g H cover R CO (or_introl eq_refl) W).
  rewrite E in G. destruct G as [_ (b & i & d & o & x & j & p & q & A & EL & _ & _ & EF & LT)].
  destruct (LG b x (nth_error_In _ _ EL)) as (OP & AN & EX).
  unfold eff, used_effect in EF. destruct (pre_and_post V311 T311 dis_effect311 x (Some j)) as [pq|] eqn:PP; [|discriminate].
  assert (pq = (p, q)) by congruence. subst pq.
  assert (exists e, stack_effect V311 T311 dis_effect311 x (Some j) = Ok e) as [e SE].
  { unfold pre_and_post in PP. destruct (stack_effect V311 T311 dis_effect311 x (Some j)); [eauto|discriminate]. }
  destruct (both311 x (Some j) e p q OP SE PP) as [_ B].
  destruct (needs311 (i_name x) (arg_number x) j) as [k|] eqn:N.
  - exists b, i, d, o, x, j, k. destruct (B AN j k eq_refl N) as [_ B2]. specialize (B2 EX).
    split; [exact A|]. split; [exact EL|]. split; [exact N|lia].
  - exfalso. unfold needs311 in N. apply dget_In in OP.
    assert (X := all_known). rewrite forallb_forall in X. specialize (X _ OP). cbn [fst] in X.
    destruct (use311 (i_name x)) as [[a c]|]; discriminate.
Qed.
Print Assumptions C31_no_false_alarm_partial.

Example C31_ex : exists g', compute_stacksize V311 T311 dis_effect311 true true loop_graph = Ok g'
  /\ needs311 "GET_ITER" 0 false = Some 1 /\ undercounted "GET_ITER" = false.
Proof. eexists. split; [vm_compute; reflexivity|]. split; reflexivity. Qed.
Definition short_graph : cfg := graph [ ([bi "LOAD_CONST" ONone; bi "BUILD_LIST" (OInt 2); bi "RETURN_VALUE" OUnset], None) ].
Example C31_ex2 : regular T311 cpy short_graph 0 (fun _ => 0) nowhere /\ coherent short_graph /\ complete T311 cpy short_graph
  /\ compute_stacksize V311 T311 dis_effect311 true true short_graph = Err RuntimeError.
Proof.
  split; [|split; [|split]].
  - apply (regularb_ok _ _ _ _ _ [] 8); [vm_compute; reflexivity|lia].
  - apply check_coherent. vm_compute. reflexivity.
  - apply check_complete. vm_compute. reflexivity.
  - vm_compute. reflexivity.
Qed.

(** For each of the 15 a case in which more items are needed than the package counts; for
    MAP_ADD, LIST_APPEND and SET_ADD in every use. *)
Definition undercounted_cases : list (string * pyobj * bool) :=
  [ ("YIELD_VALUE", OUnset, false); ("SEND", OBlock 0, true); ("RERAISE", OInt 1, false); ("LOAD_METHOD", OStr "m", false);
    ("BEFORE_WITH", OUnset, false); ("JUMP_IF_FALSE_OR_POP", OBlock 0, true); ("JUMP_IF_TRUE_OR_POP", OBlock 0, true);
    ("PRECALL", OInt 0, false); ("LIST_APPEND", OInt 1, false); ("SET_ADD", OInt 1, false); ("MAP_ADD", OInt 1, false);
    ("LIST_EXTEND", OInt 2, false); ("SET_UPDATE", OInt 2, false); ("DICT_MERGE", OInt 2, false); ("DICT_UPDATE", OInt 2, false) ].
Example C31_undercounted_cases : forallb (fun c => let '(n, a, j) := c in
  match bi n a with
  | BI x => match cpy x j, needs311 n (arg_number x) j with Some (p, _), Some k => - p <? k | _, _ => false end
  | _ => false end) undercounted_cases = true.
Proof. vm_compute. reflexivity. Qed.

(** "with block" without a context manager on the stack: a size is returned. *)
Definition with_graph : cfg := graph [ ([bi "BEFORE_WITH" OUnset; bi "RETURN_VALUE" OUnset], None) ].
Theorem C31_needs_refuted : exists g' n,
  regular T311 cpy with_graph 0 (fun _ => 0) nowhere /\ complete T311 cpy with_graph /\ coherent with_graph
  /\ compute_stacksize V311 T311 dis_effect311 true true with_graph = Ok (g', n)
  /\ exists b i d o x k, at_ T311 cpy with_graph 0 (fun _ => 0) nowhere (b, i, d, o) /\ elem with_graph b i = Some (BI x)
       /\ needs311 (i_name x) (arg_number x) false = Some k /\ d < k.
Proof.
  eexists. exists 1. split; [|split; [|split; [|split]]].
  - apply (regularb_ok _ _ _ _ _ [] 8); [vm_compute; reflexivity|lia].
  - apply check_complete. vm_compute. reflexivity.
  - apply check_coherent. vm_compute. reflexivity.
  - vm_compute. reflexivity.
  - exists 0%nat, 0%nat, 0, None. eexists. exists 1. split; [eapply at_entry; reflexivity|]. split; [vm_compute; reflexivity|].
    split; [vm_compute; reflexivity|lia].
Qed.
Print Assumptions C31_needs_refuted.

(** ** C32 *)
(** The computation ends on every graph: visits of blocks are never nested deeper than the
    number of blocks plus one ([Nontermination] is what the model gives at a deeper visit,
    and allowing more changes nothing). *)
Theorem C32_terminates : forall v T se check depths g fuel, (fuel > length (g_order g))%nat ->
  compute_nested fuel v T se check depths g <> Err Nontermination
  /\ compute_nested fuel v T se check depths g = compute_stacksize v T se check depths g.
Proof.
  intros v T se check depths g fuel F. assert (NT := compute_stops v T se check depths g).
  replace fuel with (visit_fuel g + (fuel - visit_fuel g))%nat by (unfold visit_fuel; lia).
  rewrite (compute_more v T se check depths g _ _ eq_refl NT). split; [exact NT|reflexivity].
Qed.
Print Assumptions C32_terminates.
(** the bound is needed: one visit less is too few for a chain of blocks *)
Example C32_ex : compute_nested (length (g_order (graph [([bi "NOP" OUnset], Some 1%nat); ([bi "JUMP_BACKWARD" (OBlock 0)], None)])))
    V311 T311 dis_effect311 true true (graph [([bi "NOP" OUnset], Some 1%nat); ([bi "JUMP_BACKWARD" (OBlock 0)], None)]) = Err Nontermination
  /\ exists r, compute_stacksize V311 T311 dis_effect311 true true
       (graph [([bi "NOP" OUnset], Some 1%nat); ([bi "JUMP_BACKWARD" (OBlock 0)], None)]) = Ok r.
Proof. split; [vm_compute; reflexivity|]. eexists. vm_compute. reflexivity. Qed.

(** ** C33 *)
(** The depth stored in each TryBegin that control meets is one number [s], wherever the
    TryBegin stands in the graph; the stack is at least that deep at every place where its
    handler is in charge and at every place that is reached inside the try block by a way
    that enters no block twice; the handler then starts at a depth that the size covers. *)
Theorem C33_handler_depth_partial : forall v T se check g g' n H cover,
  let first := first_depth v (m_flags (g_meta g)) in
  let At := at_ T (eff v T se check) g first H cover in
  regular T (eff v T se check) g first H cover -> coherent g -> try_known v g ->
  compute_stacksize v T se check true g = Ok (g', n) ->
  forall b i d o id h la sd, At (b, i, d, o) -> elem g b i = Some (BTB id (OBlock h) la sd) ->
  exists s, (forall b' i' t la' sd', elem g' b' i' = Some (BTB id t la' sd') -> sd' = Some s)
    /\ 0 <= s
    /\ (forall b' i' d' o' la', At (b', i', d', o') -> cover b' i' h la' -> s <= d')
    /\ (forall l b' i' d' la', way T (eff v T se check) g first H l (b', i', d', Some (id, h, la')) -> s <= d')
    /\ s + pushed la <= Z.max n first.
Proof.
  intros v T se check g g' n H cover first At R CO TK E b i d o id h la sd A EL.
  assert (G := compute_good v T se check true g H cover R CO TK).
  rewrite E in G. cbn [good outcome] in G. destruct G as (G1 & _ & G3 & _). exists (H h).
  split; [|split; [|split; [|split]]].
  - intros b' i' t la' sd' EL'. apply (G3 eq_refl _ _ _ _ _ _ _ _ A EL (blk g' b') t la').
    + unfold elem, blk in *. destruct (nth_error (g_heap g') b') eqn:Q; [eapply nth_error_In; eauto|destruct i'; discriminate].
    + eapply nth_error_In. exact EL'.
  - apply (reg_depth _ _ _ _ _ _ R).
  - intros b' i' d' o' la' A' C'. exact (reg_cov _ _ _ _ _ _ R _ _ _ _ _ _ A' C').
  - intros l b' i' d' la' W'. exact (reg_inside _ _ _ _ _ _ R _ _ _ _ _ _ _ W').
  - apply (G1 h O (H h + pushed la) None). eapply at_raise with (c := (b, S i, d, Some (id, h, la))); [|left; eexists; reflexivity].
    eapply at_step; [exact A|]. eapply st_begin. exact EL.
Qed.
Print Assumptions C33_handler_depth_partial.
Example C33_ex : exists g' n, compute_stacksize V311 T311 dis_effect311 true true loop_graph = Ok (g', n)
  /\ elem loop_graph 2 1 = Some (BTB 0 (OBlock 4) true None) /\ elem g' 2 1 = Some (BTB 0 (OBlock 4) true (Some 1)).
Proof. eexists. eexists. split; [vm_compute; reflexivity|]. split; reflexivity. Qed.

(** The TryBegin control never meets: a depth that was given is kept; without one, in a block
    that is never entered, it gets 32768.  Whether depths are stored or not. *)
Theorem C33_dead_try_partial : forall v T se check depths g g' n H cover,
  let first := first_depth v (m_flags (g_meta g)) in
  let At := at_ T (eff v T se check) g first H cover in
  regular T (eff v T se check) g first H cover -> coherent g -> try_known v g ->
  compute_stacksize v T se check depths g = Ok (g', n) ->
  forall id, (forall b i d h la, ~ At (b, i, d, Some (id, h, la))) ->
    (forall z, (forall b i t la sd, elem g b i = Some (BTB id t la sd) -> sd = Some z) ->
       forall b i t la sd, elem g' b i = Some (BTB id t la sd) -> sd = Some z)
    /\ (forall m j t la, In m (g_order g) -> (forall d o, ~ At (m, O, d, o)) -> elem g m j = Some (BTB id t la None) ->
       forall b i t' la' sd, elem g' b i = Some (BTB id t' la' sd) -> sd = Some 32768).
Proof.
  intros v T se check depths g g' n H cover first At R CO TK E id NA.
  assert (G := compute_good v T se check depths g H cover R CO TK).
  rewrite E in G. cbn [good outcome] in G. destruct G as (_ & _ & _ & G4 & G5). split.
  - intros z X b i t la sd EL. apply (all_depth_elem _ _ _ _ _ _ _ _ (G4 id z NA (all_depth_of _ _ _ X)) EL).
  - intros m j t la IN NE EL b i t' la' sd EL'. apply nth_error_In in EL.
    apply (all_depth_elem _ _ _ _ _ _ _ _ (G5 id m t la NA IN EL NE) EL').
Qed.
Print Assumptions C33_dead_try_partial.

(** dead code after a loop: a try block with a given depth, and one without *)
Definition dead_graph : cfg := graph
  [ ([bi "LOAD_CONST" ONone; bi "RETURN_VALUE" OUnset], None);
    ([BTB 0 (OBlock 3) true (Some 7); bi "NOP" OUnset; BTE 0], Some 2%nat);
    ([BTB 1 (OBlock 3) true None; bi "NOP" OUnset; BTE 1; bi "LOAD_CONST" ONone; bi "RETURN_VALUE" OUnset], None);
    ([bi "RERAISE" (OInt 0)], None) ].
Example C33_dead_ex : regular T311 cpy dead_graph 0 (fun _ => 0) nowhere /\ coherent dead_graph
  /\ (forall b i d h la, ~ at_ T311 cpy dead_graph 0 (fun _ => 0) nowhere (b, i, d, Some (0%nat, h, la)))
  /\ (forall b i d h la, ~ at_ T311 cpy dead_graph 0 (fun _ => 0) nowhere (b, i, d, Some (1%nat, h, la)))
  /\ (forall d o, ~ at_ T311 cpy dead_graph 0 (fun _ => 0) nowhere (2%nat, O, d, o))
  /\ exists g', compute_stacksize V311 T311 dis_effect311 true true dead_graph = Ok (g', 1)
       /\ elem g' 1 0 = Some (BTB 0 (OBlock 3) true (Some 7)) /\ elem g' 2 0 = Some (BTB 1 (OBlock 3) true (Some 32768)).
Proof.
  assert (L : forall c, at_ T311 cpy dead_graph 0 (fun _ => 0) nowhere c -> In c [(0, 0, 0%Z, None); (0, 1, 1%Z, None)]%nat).
  { intros c. apply at_list. vm_compute. reflexivity. }
  split; [apply (regularb_ok _ _ _ _ _ _ 10); [vm_compute; reflexivity|lia]|].
  split; [apply check_coherent; vm_compute; reflexivity|].
  split; [intros b i d h la A; apply L in A; destruct A as [A|[A|[]]]; discriminate A|].
  split; [intros b i d h la A; apply L in A; destruct A as [A|[A|[]]]; discriminate A|].
  split; [intros d o A; apply L in A; destruct A as [A|[A|[]]]; discriminate A|].
  eexists. split; [vm_compute; reflexivity|]. split; reflexivity.
Qed.

(** Not for every graph with consistent depths: if a jump from outside enters the try block
    and is analysed first, the end of the try block is met with no try block open, the
    handler is not analysed and 32768 stays as its depth. *)
Definition entered_graph : cfg := graph
  [ ([bi "LOAD_CONST" ONone; bi "POP_JUMP_FORWARD_IF_TRUE" (OBlock 2)], Some 1%nat);
    ([BTB 0 (OBlock 3) true None; bi "NOP" OUnset], Some 2%nat);
    ([bi "NOP" OUnset; BTE 0; bi "LOAD_CONST" ONone; bi "RETURN_VALUE" OUnset], None);
    ([bi "POP_TOP" OUnset; bi "POP_TOP" OUnset; bi "LOAD_CONST" ONone; bi "RETURN_VALUE" OUnset], None) ].
Theorem C33_entered_from_outside_refuted : exists g' n,
  consistent T311 cpy entered_graph 0 (fun _ => 0) nowhere /\ complete T311 cpy entered_graph /\ coherent entered_graph
  /\ compute_stacksize V311 T311 dis_effect311 true true entered_graph = Ok (g', n)
  /\ elem g' 1 0 = Some (BTB 0 (OBlock 3) true (Some 32768))
  /\ at_ T311 cpy entered_graph 0 (fun _ => 0) nowhere (1%nat, 1%nat, 0, Some (0%nat, 3%nat, true))
  /\ exists d, at_ T311 cpy entered_graph 0 (fun _ => 0) nowhere (3%nat, 0%nat, d, None) /\ n < d.
Proof.
  assert (A : at_ T311 cpy entered_graph 0 (fun _ => 0) nowhere (1%nat, 1%nat, 0, Some (0%nat, 3%nat, true))).
  { apply at_step with (1%nat, 0%nat, 0, None); [|apply (succs_step T311 cpy); vm_compute; auto].
    apply at_step with (0%nat, 2%nat, 0, None); [|apply (succs_step T311 cpy); vm_compute; auto].
    apply at_step with (0%nat, 1%nat, 1, None); [|apply (succs_step T311 cpy); vm_compute; auto].
    apply at_step with (0%nat, 0%nat, 0, None); [|apply (succs_step T311 cpy); vm_compute; auto].
    eapply at_entry. reflexivity. }
  eexists. exists 1. split; [|split; [|split; [|split; [|split; [|split]]]]].
  - eapply (check_consistent _ _ _ _ _ [] (all_confs T311 cpy entered_graph 0 (fun _ => 0) [] 12)); vm_compute; reflexivity.
  - apply check_complete. vm_compute. reflexivity.
  - apply check_coherent. vm_compute. reflexivity.
  - vm_compute. reflexivity.
  - vm_compute. reflexivity.
  - exact A.
  - exists 2. split; [|lia]. apply (at_raise _ _ _ _ _ _ _ 3%nat true A). left. eexists. reflexivity.
Qed.
Print Assumptions C33_entered_from_outside_refuted.

(** ** C34 *)
(** CPython 3.11: for every instruction the two numbers add up to stack_effect(), for every
    argument and [jump]. *)
Theorem C34_pre_post_311 : forall x jump e p q, opmap T311 (i_name x) = Some (i_op x) ->
  stack_effect V311 T311 dis_effect311 x jump = Ok e ->
  pre_and_post V311 T311 dis_effect311 x jump = Ok (p, q) -> p + q = e.
Proof. intros x jump e p q K S1 S2. exact (proj1 (both311 x jump e p q K S1 S2)). Qed.
Print Assumptions C34_pre_post_311.

(** and the first is minus the number of items the instruction takes, except for the
    instructions that are [undercounted] and those that take none *)
Theorem C34_pre_is_need_311 : forall x j p q k, opmap T311 (i_name x) = Some (i_op x) ->
  pre_and_post V311 T311 dis_effect311 x (Some j) = Ok (p, q) -> 0 <= arg_number x ->
  undercounted (i_name x) = false -> needs311 (i_name x) (arg_number x) j = Some k -> k = - p \/ k = 0.
Proof.
  intros x j p q k K S2 AN U N.
  assert (exists e, stack_effect V311 T311 dis_effect311 x (Some j) = Ok e) as [e S1].
  { unfold pre_and_post in S2. destruct (stack_effect V311 T311 dis_effect311 x (Some j)); [eauto|discriminate]. }
  destruct (both311 x (Some j) e p q K S1 S2) as [_ B]. destruct (B AN j k eq_refl N) as [B1 B2].
  destruct (B1 U) as [B3|B3]; [left|auto].
  assert (extends (i_name x) = false).
  { unfold extends, undercounted, str_mem in *. cbn [existsb] in *. apply not_true_iff_false. intros X.
    repeat (apply orb_false_iff in U; destruct U as [? U]).
    repeat (apply orb_true_iff in X; destruct X as [X|X]); congruence. }
  rewrite H in B2. specialize (B2 eq_refl). lia.
Qed.
Print Assumptions C34_pre_is_need_311.

(** All versions, any dis.stack_effect: what is computed from stack_effect() adds up. *)
Theorem C34_computed_entries : forall v T se x jump e p q,
  stack_effect v T se x jump = Ok e -> pre_and_post v T se x jump = Ok (p, q) ->
  static_effect v T (i_name x) = None ->
  str_mem (i_name x) ["CALL"; "CALL_KW"; "SWAP"; "ROT_N"; "SET_ADD"; "LIST_APPEND"; "MAP_ADD"; "FOR_ITER"] = false ->
  p + q = e.
Proof.
  intros v T se x jump e p q S1 S2 S3 NM. unfold pre_and_post in S2. rewrite S1, S3 in S2. cbn [bind] in S2.
  destruct (dynamic_effect v T (i_name x) e (i_arg x) jump) as [r|] eqn:D.
  2:{ assert (X : (e, 0) = (p, q)) by congruence. injection X as <- <-. lia. }
  subst r. unfold dynamic_effect in D. unfold str_mem in NM. cbn [existsb] in NM.
  repeat (apply orb_false_iff in NM; destruct NM as [? NM]).
  repeat match goal with H : String.eqb _ _ = false |- _ => rewrite H in D; clear H end.
  repeat match type of D with
  | (if ?b then _ else _) = _ => destruct b
  end; try discriminate D.
  all: try (match type of D with Some (bind ?a _) = _ => destruct a; cbn [bind of_option] in D end; [|discriminate D]).
  all: assert (Y : forall a b : Z, Some (@Ok (Z * Z) (a, b)) = Some (Ok (p, q)) -> p = a /\ q = b) by
    (clear; intros u w Q; injection Q as -> ->; auto).
  all: apply Y in D; lia.
Qed.
Print Assumptions C34_computed_entries.
Example C34_ex : match bi "BUILD_MAP" (OInt 3), bi "LOAD_CONST" ONone with
  | BI x, BI y => pre_and_post V311 T311 dis_effect311 x (Some false) = Ok (-6, 1)
                  /\ stack_effect V311 T311 dis_effect311 x (Some false) = Ok (-5)
                  /\ undercounted "BUILD_MAP" = false /\ needs311 "BUILD_MAP" 3 false = Some 6
                  /\ pre_and_post V311 T311 dis_effect311 y None = Ok (1, 0)
                  /\ static_effect V311 T311 "BUILD_MAP" = None
  | _, _ => False end.
Proof. vm_compute. repeat split; reflexivity. Qed.
