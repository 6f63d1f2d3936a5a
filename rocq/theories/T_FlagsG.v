(** Property theorems: flag inference on a ControlFlowGraph (C37 - C40). *)
From Verif Require Import PyBase OpTable CPy Table311 TablesEx CPyEffect P_Base P_OpTable M_Instr M_Tables M_Concrete M_Convert M_Bytecode M_Cfg M_Stack M_Flags M_Equal M_FlagsG
  S_Args S_Flags S_Cfg S_Equal P_Flags P_Flags2 P_Cfg P_Equal P_FlagsG T_Flags T_Stack.
Open Scope string_scope.
Open Scope list_scope.
Open Scope Z_scope.

(** What a graph uses: the names and arguments of the elements that count ([live], S_Equal). *)
Definition graph_listing (T : optable) (g : cfg) : listing := listing_of (concat (elements T g)).
Definition legal_graph (v : pyver) (T : optable) (g : cfg) : Prop :=
  forall n i, In n (g_order g) -> In (BI i) (k_items (blk g n)) -> legal_instr v T i.
(** There is no try block. *)
Definition without_try (T : optable) (g : cfg) : Prop :=
  forall it, In it (concat (elements T g)) -> match it with BTB _ _ _ _ | BTE _ => False | _ => True end.

Lemma live_in T l it : In it (live T l) -> In it l.
Proof.
  induction l as [|x l IH]; [auto|]. destruct x; cbn [live]; intros I; try (destruct I as [<-|I]; [now left|right; auto]).
  destruct (has_jump T i || is_final i).
  - destruct I as [<-|I]; [now left|]. right. destruct (find a_try_end l) eqn:F; [|destruct I]. destruct I as [<-|[]]. now apply find_some in F.
  - destruct I as [<-|I]; [now left|right; auto].
Qed.
Lemma elements_in T g it : In it (concat (elements T g)) -> exists n, In n (g_order g) /\ In it (k_items (blk g n)).
Proof.
  intros I. apply in_concat in I. destruct I as (l & L & I). apply in_map_iff in L. destruct L as (n & <- & N). exists n. split; [exact N|]. now apply live_in in I.
Qed.
Lemma graph_infer v T g ia out : legal_graph v T g -> resume_stays T -> infer_flags_graph v T g ia = Ok out ->
  legal_code v T (Abstract (unrolled T g)) /\ infer v T (Abstract (unrolled T g)) ia = Ok out.
Proof.
  intros L R E. assert (LG : forall i, In (BI i) (concat (elements T g)) -> legal_instr v T i) by (intros i I; apply elements_in in I; destruct I as (n & N & I); eapply L; eauto).
  split.
  - cbn. apply Forall_forall. intros it I. destruct it; auto.
  - rewrite <- graph_bytecode; [exact E| |exact R| |].
    + intros i I. apply (LG i I).
    + intros it I. destruct (try_mark it) eqn:M; [|reflexivity]. destruct (graph_try v T g ia it I M) as (e & X). congruence.
    + unfold infer_flags_graph in E. apply bind_ok in E. destruct E as (x & E & _). eauto.
Qed.

(** C37 for graphs. *)
Theorem C37_graph : forall v T g ia out,
  wf_optable v T = true -> wf_flags v T = true -> resume_stays T -> legal_graph v T g ->
  infer_flags_graph v T g ia = Ok out ->
  (ia <> Some false ->
     has (m_flags (g_meta g)) COROUTINE \/ has (m_flags (g_meta g)) ASYNC_GENERATOR \/ has (m_flags (g_meta g)) ITERABLE_COROUTINE
     \/ ia = Some true \/ awaits v (graph_listing T g) ->
     has out COROUTINE \/ has out ASYNC_GENERATOR \/ has out ITERABLE_COROUTINE)
  /\ (ia = Some false ->
     ~ has out COROUTINE /\ ~ has out ASYNC_GENERATOR /\ ~ has out ITERABLE_COROUTINE).
Proof. intros v T g ia out wf wff R L E. destruct (graph_infer v T g ia out L R E) as [L' E']. exact (C37_async_kept v T _ ia out wf wff L' E'). Qed.

(** C38 for graphs: the four kinds. *)
Theorem C38_graph_kinds : forall v T g ia out,
  wf_optable v T = true -> wf_flags v T = true -> resume_stays T -> legal_graph v T g ->
  infer_flags_graph v T g ia = Ok out ->
  (has out ASYNC_GENERATOR <-> async_result v (m_flags (g_meta g)) ia (graph_listing T g) /\ yields v (graph_listing T g))
  /\ (has out COROUTINE <-> async_result v (m_flags (g_meta g)) ia (graph_listing T g) /\ ~ yields v (graph_listing T g))
  /\ (has out ITERABLE_COROUTINE <-> ia <> Some false /\ was_iterable (m_flags (g_meta g)))
  /\ (has out GENERATOR <-> ~ async_result v (m_flags (g_meta g)) ia (graph_listing T g)
        /\ ~ (ia <> Some false /\ was_iterable (m_flags (g_meta g)))
        /\ (yields v (graph_listing T g) \/ delegates v (graph_listing T g))).
Proof. intros v T g ia out wf wff R L E. destruct (graph_infer v T g ia out L R E) as [L' E']. exact (C38_kinds v T _ ia out wf wff L' E'). Qed.

(** It returns, on a graph without try block, unless an await is incompatible with is_async=False
    or with ITERABLE_COROUTINE. *)
Theorem C38_graph_raises_partial : forall v T g ia,
  wf_optable v T = true -> wf_flags v T = true -> resume_stays T -> legal_graph v T g ->
  indexed g -> zlen (g_order g) <= 2147483648 -> iterable T g -> without_try T g ->
  (forall n i m, In n (g_order g) -> In (BI i) (k_items (blk g n)) -> has_jump T i = true -> i_arg i = OBlock m -> In m (g_order g)) ->
  resumes_follow v (graph_listing T g) ->
  (exists out, infer_flags_graph v T g ia = Ok out)
  \/ infer_flags_graph v T g ia = Err ValueError /\ awaits v (graph_listing T g)
     /\ (ia = Some false \/ was_iterable (m_flags (g_meta g))).
Proof.
  intros v T g ia wf wff R L IX SZ IT NT TG RF.
  assert (LG : forall i, In (BI i) (concat (elements T g)) -> legal_instr v T i) by (intros i I; apply elements_in in I; destruct I as (n & N & I); eapply L; eauto).
  assert (NM : forall it, In it (concat (elements T g)) -> try_mark it = false) by (intros it I; specialize (NT it I); destruct it; try reflexivity; contradiction).
  rewrite graph_bytecode; auto.
  - apply (C38_raises v T (Abstract (unrolled T g)) ia wf wff); auto.
    + cbn. apply Forall_forall. intros it I. destruct it; auto.
    + intros pre id t la d mid id' t' la' d' post E. exfalso. cbn in E. specialize (NT (BTB id t la d)). rewrite E in NT. apply NT. apply in_or_app. right. now left.
  - intros i I. apply (LG i I).
  - apply get_instructions_total; auto. intros n i m N I A J. eapply TG; eauto.
Qed.

(** Missing: with a try block it always fails, with AttributeError unless something else fails
    before: TryBegins and TryEnds are seen as tuples. *)
Theorem C38_graph_try_refuted :
  (forall v T g ia it, In it (concat (elements T g)) -> match it with BTB _ _ _ _ | BTE _ => True | _ => False end ->
     exists e, infer_flags_graph v T g ia = Err e)
  /\ exists b g, from_bytecode T311 b = Ok g /\ infer V311 T311 (Abstract b) None = Ok (OPTIMIZED + NOFREE)
     /\ infer_flags_graph V311 T311 g None = Err AttributeError.
Proof.
  split.
  - intros v T g ia it I M. apply (graph_try v T g ia it I). destruct it; try contradiction; reflexivity.
  - exists (mkB nop_meta [] [BTB 0 (OLabel 0) false None; T_Stack.bi "NOP" OUnset; BTE 0; T_Stack.bi "LOAD_CONST" ONone; T_Stack.bi "RETURN_VALUE" OUnset;
                            BLabel 0; T_Stack.bi "RERAISE" (OInt 0)]).
    eexists. split; [vm_compute; reflexivity|]. split; vm_compute; reflexivity.
Qed.

(** C39 for graphs (FUTURE_ANNOTATIONS excepted, as in C39_kept_partial). *)
Theorem C39_graph_partial : forall v T g ia out f,
  wf_optable v T = true -> wf_flags v T = true -> resume_stays T -> legal_graph v T g ->
  infer_flags_graph v T g ia = Ok out ->
  In f [NEWLOCALS; VARARGS; VARKEYWORDS; NESTED; FUTURE_GENERATOR_STOP] ->
  Z.land out f = Z.land (m_flags (g_meta g)) f.
Proof. intros v T g ia out f wf wff R L E I. destruct (graph_infer v T g ia out L R E) as [L' E']. exact (C39_kept_partial v T _ ia out f wf wff L' E' I). Qed.

(** C40 for graphs. *)
Theorem C40_graph : forall v T g ia out,
  wf_optable v T = true -> wf_flags v T = true -> resume_stays T -> legal_graph v T g ->
  infer_flags_graph v T g ia = Ok out ->
  (has out OPTIMIZED <-> ~ uses_names (graph_listing T g)) /\ (has out NOFREE <-> ~ touches_cells T (graph_listing T g)).
Proof.
  intros v T g ia out wf wff R L E. destruct (graph_infer v T g ia out L R E) as [L' E'].
  split; [exact (C40_optimized v T _ ia out wf wff L' E')|exact (C40_nofree v T _ ia out wf wff L' E')].
Qed.

(** The hypotheses are met: the graph of a generator with a loop and a closure variable. *)
Definition gen_code : bytecode := mkB (mkMeta 0 0 0 1 "f" "f" "x" OUnset ["c"] [] 3) []
  [T_Stack.bi "RETURN_GENERATOR" OUnset; T_Stack.bi "POP_TOP" OUnset; T_Stack.bi "RESUME" (OInt 0);
   BLabel 0; T_Stack.bi "LOAD_DEREF" (OCell "c"); T_Stack.bi "YIELD_VALUE" OUnset; T_Stack.bi "RESUME" (OInt 1);
   T_Stack.bi "POP_JUMP_BACKWARD_IF_TRUE" (OLabel 0); T_Stack.bi "LOAD_CONST" ONone; T_Stack.bi "RETURN_VALUE" OUnset].
Definition gen_graph : cfg := Eval vm_compute in match from_bytecode T311 gen_code with Ok g => g | Err _ => new_cfg end.
Lemma resume_311 : resume_stays T311.
Proof. intros op E J. vm_compute in E. injection E as <-. destruct J as [J|J]; apply z_mem_In in J; vm_compute in J; discriminate J. Qed.
Example C38_graph_ex : wf_optable V311 T311 = true /\ wf_flags V311 T311 = true /\ resume_stays T311 /\ indexed gen_graph
  /\ iterable T311 gen_graph /\ without_try T311 gen_graph /\ length (g_order gen_graph) = 3%nat
  /\ infer_flags_graph V311 T311 gen_graph None = Ok (OPTIMIZED + NEWLOCALS + GENERATOR)
  /\ infer_flags_graph V311 T311 gen_graph (Some true) = Ok (OPTIMIZED + NEWLOCALS + ASYNC_GENERATOR).
Proof.
  split; [vm_compute; reflexivity|]. split; [vm_compute; reflexivity|]. split; [exact resume_311|].
  split; [apply ginv_indexed, (ginv_from T311 gen_code); vm_compute; reflexivity|].
  split; [intros [|[|[|[|n]]]]; vm_compute; try reflexivity; destruct n; reflexivity|].
  split; [intros it I; vm_compute in I; repeat (destruct I as [<-|I]; [exact Logic.I|]); destruct I|].
  split; [reflexivity|]. split; vm_compute; reflexivity.
Qed.
Example C38_graph_legal_ex : legal_graph V311 T311 gen_graph.
Proof.
  intros n i N I. vm_compute in N. destruct N as [<-|[<-|[<-|[]]]]; vm_compute in I;
    repeat (destruct I as [I|I]; [try discriminate I; injection I as <-; split; [reflexivity|split; [reflexivity|split; [discriminate|cbn [i_op i_arg]]]]|]); try destruct I;
    first [apply doc_none; reflexivity|apply doc_cell; apply z_mem_In; reflexivity|apply doc_block; left; apply z_mem_In; reflexivity
          |apply doc_const; [apply z_mem_In; reflexivity|discriminate|discriminate|discriminate]
          |eapply doc_int; [|reflexivity|reflexivity|lia]].
  all: repeat split; try reflexivity; try (intros J; apply z_mem_In in J; vm_compute in J; discriminate J); intros [J|J]; apply z_mem_In in J; vm_compute in J; discriminate J.
Qed.

(** update_flags() changes the flags, and only them. *)
Theorem C39_update_flags : forall v T b ia b', update_flags_bytecode v T b ia = Ok b' ->
  exists f, infer v T (Abstract b) ia = Ok f /\ m_flags (b_meta b') = f /\ b_items b' = b_items b /\ b_argnames b' = b_argnames b
  /\ set_flags (b_meta b') (m_flags (b_meta b)) = b_meta b.
Proof.
  intros v T b ia b' E. unfold update_flags_bytecode in E. apply bind_ok in E. destruct E as (f & E & X). injection X as <-. exists f.
  split; [exact E|]. destruct b as [[] ? ?]. repeat split.
Qed.

Print Assumptions C37_graph.
Print Assumptions C38_graph_kinds.
Print Assumptions C38_graph_raises_partial.
Print Assumptions C38_graph_try_refuted.
Print Assumptions C39_graph_partial.
Print Assumptions C39_update_flags.
Print Assumptions C40_graph.
