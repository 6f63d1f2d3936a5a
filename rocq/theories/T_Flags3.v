(** Property theorems about update_flags() called several times (C67). *)
From Verif Require Import PyBase OpTable CPy Table311 TablesEx M_Instr M_Tables M_Concrete M_Convert M_Bytecode M_Cfg M_Stack M_Flags M_Equal M_FlagsG
  S_Args S_Flags P_Base P_Flags P_Flags2 T_Flags.
Open Scope string_scope.
Open Scope list_scope.
Open Scope Z_scope.

(** The inferred flags are found again when they are the flags of the code, with the same
    is_async and also without it. *)
Lemma infer_again v T concrete ce fv flags items ia out ib : infer_flags v T concrete ce fv flags items ia = Ok out ->
  ib = ia \/ ib = None -> infer_flags v T concrete ce fv out items ib = Ok out.
Proof.
  intros E IB. destruct (infer_word _ _ _ _ _ _ _ _ _ E) as (s & k & L & K & ->).
  assert (KK := kinds _ _ _ _ K). set (w := word (f_optimized s) (f_has_free s) k flags) in *.
  assert (K2 : kind_flag w ib s = Ok k).
  { assert (A : forall x, In x [GENERATOR; COROUTINE; ITERABLE_COROUTINE; ASYNC_GENERATOR] -> has_flag w x = (k =? x)).
    { intros x J. apply eq_true_iff_eq. rewrite has_flag_has, Z.eqb_eq. now apply word_kind. }
    unfold kind_flag in *. destruct s as [o fr a g p].
    rewrite (A COROUTINE), (A ASYNC_GENERATOR), (A ITERABLE_COROUTINE) by (cbn; tauto). clear A w L E.
    destruct IB as [->| ->].
    - destruct ia as [[|]|]; destruct (has_flag flags COROUTINE), (has_flag flags ASYNC_GENERATOR), (has_flag flags ITERABLE_COROUTINE), a, g, p;
        cbn in K; try discriminate K; injection K as <-; reflexivity.
    - destruct ia as [[|]|]; destruct (has_flag flags COROUTINE), (has_flag flags ASYNC_GENERATOR), (has_flag flags ITERABLE_COROUTINE), a, g, p;
        cbn in K; try discriminate K; injection K as <-; reflexivity. }
  unfold infer_flags. rewrite L. cbn [bind]. rewrite K2. cbn [bind]. f_equal.
  assert (P : forall x, In x [NEWLOCALS; VARARGS; VARKEYWORDS; NESTED; FUTURE_GENERATOR_STOP] -> Z.land w x = Z.land flags x) by (intros; now apply word_kept).
  rewrite !Z.land_lor_distr_r, !P by (cbn; tauto). rewrite <- !Z.land_lor_distr_r.
  unfold w, word. change (Z.lor (Z.lor (Z.lor NEWLOCALS VARARGS) VARKEYWORDS) NESTED) with 30.
  destruct (f_optimized s), (f_has_free s); reflexivity.
Qed.

Lemma block_flat_meta v T m a m' a' h o ix : forall l tbs, block_flat v T (mkG m a h o ix) tbs l = block_flat v T (mkG m' a' h o ix) tbs l.
Proof.
  induction l as [|x r IH]; intros tbs; [reflexivity|]. cbn [block_flat]. destruct (elem_check T x r); [|reflexivity]. cbn [bind].
  destruct x; try reflexivity; rewrite IH; reflexivity.
Qed.
Lemma get_instructions_meta v T m a m' a' h o ix : get_instructions v T (mkG m a h o ix) = get_instructions v T (mkG m' a' h o ix).
Proof.
  unfold get_instructions. cbn [g_order]. generalize (@nil (nat * nat)) as tbs. clear. 
  assert (F : forall l tbs, blocks_flat v T (mkG m a h o ix) tbs l = blocks_flat v T (mkG m' a' h o ix) tbs l).
  { induction l as [|n r IH]; intros tbs; [reflexivity|]. cbn [blocks_flat]. unfold blk. cbn [g_heap].
    rewrite (block_flat_meta v T m a m' a'). destruct (block_flat _ _ _ _ _) as [[out tbs']|]; [|reflexivity]. cbn [bind]. rewrite IH. reflexivity. }
  intros tbs. apply F.
Qed.

(** C67.  update_flags() a second time, with the same is_async or without it, changes nothing. *)
Theorem C67_bytecode : forall v T b ia b', update_flags_bytecode v T b ia = Ok b' ->
  update_flags_bytecode v T b' ia = Ok b' /\ update_flags_bytecode v T b' None = Ok b'.
Proof.
  intros v T b ia b' E. unfold update_flags_bytecode in E. apply bind_ok in E. destruct E as (f & E & X). injection X as <-.
  assert (A : forall ib, ib = ia \/ ib = None -> infer_flags_bytecode v T (mkB (set_flags (b_meta b) f) (b_argnames b) (b_items b)) ib = Ok f).
  { intros ib H. exact (infer_again _ _ _ _ _ _ _ _ _ ib E H). }
  split; unfold update_flags_bytecode; rewrite A by tauto; reflexivity.
Qed.
Theorem C67_concrete : forall v T cb ia cb', update_flags_concrete v T cb ia = Ok cb' ->
  update_flags_concrete v T cb' ia = Ok cb' /\ update_flags_concrete v T cb' None = Ok cb'.
Proof.
  intros v T b ia b' E. unfold update_flags_concrete in E. apply bind_ok in E. destruct E as (f & E & X). injection X as <-.
  assert (A : forall ib, ib = ia \/ ib = None -> infer_flags_concrete v T (mkCB (set_flags (cb_meta b) f) (cb_items b) (cb_consts b) (cb_names b) (cb_varnames b) (cb_ex b)) ib = Ok f).
  { intros ib H. exact (infer_again _ _ _ _ _ _ _ _ _ ib E H). }
  split; unfold update_flags_concrete; rewrite A by tauto; reflexivity.
Qed.
Theorem C67_graph : forall v T g ia g', update_flags_graph v T g ia = Ok g' ->
  update_flags_graph v T g' ia = Ok g' /\ update_flags_graph v T g' None = Ok g'.
Proof.
  intros v T b ia b' E. unfold update_flags_graph in E. apply bind_ok in E. destruct E as (f & E & X). injection X as <-.
  unfold infer_flags_graph in E. apply bind_ok in E. destruct E as (x & G & E).
  assert (G' : get_instructions v T (mkG (set_flags (g_meta b) f) (g_argnames b) (g_heap b) (g_order b) (g_index b)) = Ok x) by (rewrite <- G; destruct b as [m a h o ix]; apply get_instructions_meta).
  assert (A : forall ib, ib = ia \/ ib = None -> infer_flags_graph v T (mkG (set_flags (g_meta b) f) (g_argnames b) (g_heap b) (g_order b) (g_index b)) ib = Ok f).
  { intros ib H. unfold infer_flags_graph. rewrite G'. cbn [bind]. exact (infer_again _ _ _ _ _ _ _ _ _ ib E H). }
  split; unfold update_flags_graph; rewrite A by tauto; reflexivity.
Qed.

(** It is not so with is_async=False after is_async=True: a generator is turned into an
    asynchronous one and back, but code that awaits refuses. *)
Example C67_ex : exists b1 b2 b3, update_flags_bytecode V310 TPre ex_agen None = Ok b1 /\ m_flags (b_meta b1) <> m_flags (b_meta ex_agen)
  /\ update_flags_bytecode V310 TPre b1 None = Ok b1
  /\ update_flags_bytecode V310 TPre (mkB meta0 [] [bi TPre "YIELD_VALUE" OUnset]) (Some true) = Ok b2
  /\ update_flags_bytecode V310 TPre b2 (Some false) = Ok b3 /\ m_flags (b_meta b3) <> m_flags (b_meta b2).
Proof. do 3 eexists. repeat (split; [vm_compute; (reflexivity || discriminate)|]). vm_compute. discriminate. Qed.

Print Assumptions C67_bytecode.
Print Assumptions C67_concrete.
Print Assumptions C67_graph.
