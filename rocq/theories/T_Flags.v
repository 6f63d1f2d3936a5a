(** Property theorems about flag inference (C37 - C40). *)
From Verif Require Import PyBase OpTable CPy Table311 TablesEx M_Instr M_Tables M_Concrete M_Flags
  S_Args S_Flags P_Base P_Flags P_Flags2.
Open Scope string_scope.
Open Scope list_scope.
Open Scope Z_scope.

(** The table conditions hold for real tables. *)
Example wf_flags_tables : wf_flags V311 T311 && wf_flags V38 TPre && wf_flags V310 TPre && wf_flags V313 T313 = true.
Proof. vm_compute. reflexivity. Qed.

Lemma kind_of v T c ia out : wf_optable v T = true -> wf_flags v T = true -> legal_code v T c ->
  infer v T c ia = Ok out ->
  (has out ASYNC_GENERATOR <-> async_result v (code_flags c) ia (code_listing c) /\ yields v (code_listing c))
  /\ (has out COROUTINE <-> async_result v (code_flags c) ia (code_listing c) /\ ~ yields v (code_listing c))
  /\ (has out ITERABLE_COROUTINE <-> ia <> Some false /\ was_iterable (code_flags c))
  /\ (has out GENERATOR <-> ~ async_result v (code_flags c) ia (code_listing c)
        /\ ~ (ia <> Some false /\ was_iterable (code_flags c))
        /\ (yields v (code_listing c) \/ delegates v (code_listing c))).
Proof.
  intros wf wff L E. destruct (infer_state v T wf wff c ia out L E) as (o & fr & a & g & p & k & K & -> & _ & A & G & D & _).
  pose proof (kinds _ _ _ _ K) as KK.
  rewrite !(word_kind o fr k (code_flags c)) by (auto; cbn; tauto).
  now apply (kind_table v) with (1 := K).
Qed.

(** C37.  Asynchronous code (coroutine, asynchronous generator or iterable coroutine) stays
    asynchronous unless is_async=False; is_async=True gives asynchronous code; with
    is_async=False the result is never asynchronous. *)
Theorem C37_async_kept v T c ia out :
  wf_optable v T = true -> wf_flags v T = true -> legal_code v T c ->
  infer v T c ia = Ok out ->
  (ia <> Some false ->
     has (code_flags c) COROUTINE \/ has (code_flags c) ASYNC_GENERATOR \/ has (code_flags c) ITERABLE_COROUTINE
     \/ ia = Some true \/ awaits v (code_listing c) ->
     has out COROUTINE \/ has out ASYNC_GENERATOR \/ has out ITERABLE_COROUTINE)
  /\ (ia = Some false ->
     ~ has out COROUTINE /\ ~ has out ASYNC_GENERATOR /\ ~ has out ITERABLE_COROUTINE).
Proof.
  intros wf wff L E. destruct (infer_state v T wf wff c ia out L E) as (o & fr & a & g & p & k & K & -> & _ & A & G & D & _).
  pose proof (kinds _ _ _ _ K) as KK.
  rewrite !(word_kind o fr k (code_flags c)) by (auto; cbn; tauto).
  rewrite <- A, <- !has_flag_has. clear A G D KK E. unfold kind_flag in K.
  unfold ASYNC_GENERATOR, COROUTINE, ITERABLE_COROUTINE, GENERATOR in *.
  destruct (has_flag (code_flags c) 128), (has_flag (code_flags c) 512), (has_flag (code_flags c) 256), ia as [[|]|], a, g, p;
    cbn in K; try discriminate; injection K as <-; intuition congruence.
Qed.

(** C38.  Which of the four kinds is inferred. *)
Theorem C38_kinds v T c ia out :
  wf_optable v T = true -> wf_flags v T = true -> legal_code v T c ->
  infer v T c ia = Ok out ->
  (has out ASYNC_GENERATOR <-> async_result v (code_flags c) ia (code_listing c) /\ yields v (code_listing c))
  /\ (has out COROUTINE <-> async_result v (code_flags c) ia (code_listing c) /\ ~ yields v (code_listing c))
  /\ (has out ITERABLE_COROUTINE <-> ia <> Some false /\ was_iterable (code_flags c))
  /\ (has out GENERATOR <-> ~ async_result v (code_flags c) ia (code_listing c)
        /\ ~ (ia <> Some false /\ was_iterable (code_flags c))
        /\ (yields v (code_listing c) \/ delegates v (code_listing c))).
Proof. exact (kind_of v T c ia out). Qed.

(** At most one of the four kinds. *)
Theorem C38_one_kind v T c ia out f g :
  wf_optable v T = true -> wf_flags v T = true -> legal_code v T c ->
  infer v T c ia = Ok out ->
  In f [GENERATOR; COROUTINE; ASYNC_GENERATOR; ITERABLE_COROUTINE] ->
  In g [GENERATOR; COROUTINE; ASYNC_GENERATOR; ITERABLE_COROUTINE] ->
  has out f -> has out g -> f = g.
Proof.
  intros wf wff L E F G. destruct (infer_state v T wf wff c ia out L E) as (o & fr & a & y & p & k & K & -> & _).
  pose proof (kinds _ _ _ _ K) as KK.
  rewrite !(word_kind o fr k (code_flags c)) by (cbn in *; tauto). congruence.
Qed.

(** It raises (ValueError) only when an await is incompatible with is_async=False or with
    the ITERABLE_COROUTINE flag, on sequences that can be iterated and in which, from 3.11
    on, every YIELD_VALUE is followed by RESUME. *)
Theorem C38_raises v T c ia :
  wf_optable v T = true -> wf_flags v T = true -> legal_code v T c ->
  code_not_nested c -> resumes_follow v (code_listing c) ->
  (exists out, infer v T c ia = Ok out)
  \/ infer v T c ia = Err ValueError /\ awaits v (code_listing c)
     /\ (ia = Some false \/ was_iterable (code_flags c)).
Proof. intros wf wff. exact (infer_total v T wf wff c ia). Qed.

Definition bi (T : optable) (n : string) (a : pyobj) : bitem :=
  BI (mkInstr n (match opmap T n with Some o => o | None => 0 end) a None).

Ltac legal_items :=
  repeat constructor; cbn; try discriminate;
  try (vm_compute; reflexivity).

(** The hypothesis on RESUME cannot be dropped: a YIELD_VALUE at the end of the sequence
    makes inference raise StopIteration, one followed by something else AssertionError. *)
Theorem C38_yield_without_resume_refuted :
  exists b b', Forall (fun x => match x with BI i => exists j, new_instr V311 T311 (i_name i) (i_arg i) LUnset None = Ok j /\ j = i | _ => True end)
                 (b_items b ++ b_items b')
    /\ infer V311 T311 (Abstract b) None = Err StopIteration
    /\ infer V311 T311 (Abstract b') None = Err AssertionError.
Proof.
  exists (mkB meta0 [] [bi T311 "YIELD_VALUE" OUnset]),
         (mkB meta0 [] [bi T311 "YIELD_VALUE" OUnset; bi T311 "POP_TOP" OUnset]).
  split; [|split; reflexivity].
  repeat constructor; (eexists; split; [vm_compute; reflexivity|reflexivity]).
Qed.

(** C39, partial: of the flags that cannot be inferred, these five are kept exactly.  The
    property also claims it of FUTURE_ANNOTATIONS, which is false. *)
Theorem C39_kept_partial v T c ia out f :
  wf_optable v T = true -> wf_flags v T = true -> legal_code v T c ->
  infer v T c ia = Ok out ->
  In f [NEWLOCALS; VARARGS; VARKEYWORDS; NESTED; FUTURE_GENERATOR_STOP] ->
  Z.land out f = Z.land (code_flags c) f.
Proof.
  intros wf wff L E I. destruct (infer_state v T wf wff c ia out L E) as (o & fr & a & y & p & k & K & -> & _).
  pose proof (kinds _ _ _ _ K) as KK. now apply word_kept.
Qed.

(** FUTURE_ANNOTATIONS is always dropped. *)
Theorem C39_future_annotations_refuted :
  exists c out, legal_code V311 T311 c /\ has (code_flags c) FUTURE_ANNOTATIONS
    /\ infer V311 T311 c None = Ok out /\ ~ has out FUTURE_ANNOTATIONS.
Proof.
  exists (Abstract (mkB (mkMeta 0 0 0 1 "f" "f" "x" OUnset [] [] (FUTURE_ANNOTATIONS + 3)) []
                   [bi T311 "RETURN_VALUE" OUnset])).
  eexists. split; [|split; [|split; [vm_compute; reflexivity|]]].
  - cbn. constructor; [|constructor]. repeat split; try reflexivity; try discriminate.
    apply doc_none. reflexivity.
  - vm_compute. discriminate.
  - vm_compute. congruence.
Qed.

(** C40.  OPTIMIZED exactly when no NAME opcode is used. *)
Theorem C40_optimized v T c ia out :
  wf_optable v T = true -> wf_flags v T = true -> legal_code v T c ->
  infer v T c ia = Ok out ->
  has out OPTIMIZED <-> ~ uses_names (code_listing c).
Proof.
  intros wf wff L E. destruct (infer_state v T wf wff c ia out L E) as (o & fr & a & y & p & k & K & -> & O & _).
  pose proof (kinds _ _ _ _ K) as KK. now rewrite word_opt, O.
Qed.

(** NOFREE exactly when no cell or free variable is used (Bytecode). *)
Theorem C40_nofree v T b ia out :
  wf_optable v T = true -> wf_flags v T = true -> legal_code v T (Abstract b) ->
  infer v T (Abstract b) ia = Ok out ->
  has out NOFREE <-> ~ touches_cells T (listing_of (b_items b)).
Proof.
  intros wf wff L E. destruct (infer_state v T wf wff _ ia out L E) as (o & fr & a & y & p & k & K & -> & _ & _ & _ & _ & F).
  pose proof (kinds _ _ _ _ K) as KK. cbn in F. rewrite word_nofree, <- F by assumption.
  destruct fr; split; congruence.
Qed.

(** NOFREE for a ConcreteBytecode, partial: what it really means.  Missing: on 3.13 the
    local-variable opcodes that access a cell are not seen. *)
Theorem C40_nofree_concrete_partial v T cb ia out :
  wf_optable v T = true -> wf_flags v T = true -> legal_code v T (Concrete cb) ->
  infer v T (Concrete cb) ia = Ok out ->
  has out NOFREE <-> ~ ((m_cellvars (cb_meta cb) <> [] /\ m_freevars (cb_meta cb) <> [])
    \/ exists n a op, In (n, a) (clisting_of (cb_items cb)) /\ opmap T n = Some op /\ In op (t_hasfree T)).
Proof.
  intros wf wff L E. destruct (infer_state v T wf wff _ ia out L E) as (o & fr & a & y & p & k & K & -> & _ & _ & _ & _ & F).
  pose proof (kinds _ _ _ _ K) as KK. cbn in F. unfold free_opcode in F. rewrite word_nofree, <- F by assumption.
  destruct fr; split; congruence.
Qed.

(** On 3.13 the same program, abstract and concrete, gets different flags: LOAD_FAST of a
    cell variable makes the abstract form lose NOFREE, the concrete form keeps it. *)
Theorem C40_nofree_concrete_refuted :
  exists b cb fb fc, legal_code V313 T313 (Abstract b) /\ legal_code V313 T313 (Concrete cb)
    /\ to_bytecode V313 T313 cb true false = Ok b
    /\ touches_cells T313 (listing_of (b_items b))
    /\ infer V313 T313 (Abstract b) None = Ok fb /\ infer V313 T313 (Concrete cb) None = Ok fc
    /\ ~ has fb NOFREE /\ has fc NOFREE.
Proof.
  set (l := line_loc (Some 1)).
  exists (mkB (mkMeta 0 0 0 1 "f" "f" "x" OUnset ["c"] [] 3) []
           [BI (mkInstr "LOAD_FAST" 85 (OCell "c") (Some l)); BI (mkInstr "RETURN_VALUE" 36 OUnset (Some l))]).
  exists (mkCB (mkMeta 0 0 0 1 "f" "f" "x" OUnset ["c"] [] 3)
           [CI (mkC "LOAD_FAST" 85 (Some 0) (Some l) None 2); CI (mkC "RETURN_VALUE" 36 None (Some l) None 2)]
           [] [] [] []).
  do 2 eexists. split; [|split; [|split; [vm_compute; reflexivity|split; [|split; [vm_compute; reflexivity|split; [vm_compute; reflexivity|]]]]]].
  - cbn. apply Forall_cons; [|apply Forall_cons; [|apply Forall_nil]]; (split; [reflexivity|split; [reflexivity|split; [discriminate|cbn [i_op i_arg]]]]).
    + apply doc_local_cell; try reflexivity; [split; [left; vm_compute; tauto|repeat split; vm_compute; intuition discriminate]|vm_compute; tauto].
    + apply doc_none; reflexivity.
  - cbn. apply Forall_cons; [|apply Forall_cons; [|apply Forall_nil]].
    + split; [reflexivity|split; [reflexivity|split; [split; [split; discriminate|left; reflexivity]|]]].
      exists 1. split; [reflexivity|split; [discriminate|split; [reflexivity|left; reflexivity]]].
    + split; [reflexivity|split; [reflexivity|split; [reflexivity|]]].
      exists 1. split; [reflexivity|split; [discriminate|reflexivity]].
  - exists "LOAD_FAST", (OCell "c"), 85. repeat split; [left; reflexivity|]. cbn. intuition discriminate.
  - split; vm_compute; congruence.
Qed.

(** ** The hypotheses are met by real code *)

(** An async generator on 3.10: has both an await and a yield. *)
Definition ex_agen : bytecode :=
  mkB (mkMeta 0 0 0 1 "f" "f" "x" OUnset [] [] (NEWLOCALS + FUTURE_GENERATOR_STOP)) []
    [BTB 0 (OLabel 0) false None; bi TPre "GET_AWAITABLE" OUnset; BSet 3; BTE 0;
     bi TPre "YIELD_VALUE" OUnset; bi TPre "LOAD_NAME" (OStr "n"); BLabel 0; bi TPre "RETURN_VALUE" OUnset].

Example ex_agen_legal : legal_code V310 TPre (Abstract ex_agen).
Proof.
  cbn. repeat (apply Forall_nil || (apply Forall_cons; [try exact Logic.I|]));
    (split; [reflexivity|split; [reflexivity|split; [discriminate|cbn [i_op i_arg]]]]); try (apply doc_none; reflexivity).
  apply doc_str. split; [right; vm_compute; tauto|repeat split; vm_compute; intuition discriminate].
Qed.
Example ex_agen_infer : infer V310 TPre (Abstract ex_agen) None
  = Ok (NEWLOCALS + FUTURE_GENERATOR_STOP + ASYNC_GENERATOR + NOFREE).
Proof. vm_compute. reflexivity. Qed.
Example ex_agen_uses : awaits V310 (listing_of (b_items ex_agen)) /\ yields V310 (listing_of (b_items ex_agen)).
Proof.
  split.
  - left. exists "GET_AWAITABLE", OUnset. cbn. tauto.
  - exists "YIELD_VALUE", OUnset. cbn. tauto.
Qed.
Example ex_agen_raises : infer V310 TPre (Abstract ex_agen) (Some false) = Err ValueError.
Proof. vm_compute. reflexivity. Qed.

(** A generator on 3.11. *)
Definition ex_gen : bytecode :=
  mkB (mkMeta 0 0 0 1 "f" "f" "x" OUnset ["c"] [] 3) []
    [bi T311 "RETURN_GENERATOR" OUnset; bi T311 "POP_TOP" OUnset; bi T311 "RESUME" (OInt 0);
     bi T311 "LOAD_DEREF" (OCell "c"); bi T311 "YIELD_VALUE" OUnset; BLabel 1; bi T311 "RESUME" (OInt 1);
     bi T311 "RETURN_VALUE" OUnset].
Example ex_gen_infer : infer V311 T311 (Abstract ex_gen) None = Ok (OPTIMIZED + NEWLOCALS + GENERATOR)
  /\ infer V311 T311 (Abstract ex_gen) (Some true) = Ok (OPTIMIZED + NEWLOCALS + ASYNC_GENERATOR).
Proof. split; vm_compute; reflexivity. Qed.
Example ex_gen_resumes : resumes_follow V311 (listing_of (b_items ex_gen)).
Proof.
  intros _ pre y post E. cbn in E.
  do 4 (destruct pre as [|? pre]; [discriminate E|injection E as _ E]).
  destruct pre as [|? pre]; [injection E as _ <-; do 3 eexists; split; reflexivity|injection E as _ E].
  do 2 (destruct pre as [|? pre]; [discriminate E|injection E as _ E]). destruct pre; discriminate.
Qed.

Print Assumptions C37_async_kept.
Print Assumptions C38_kinds.
Print Assumptions C38_one_kind.
Print Assumptions C38_raises.
Print Assumptions C38_yield_without_resume_refuted.
Print Assumptions C39_kept_partial.
Print Assumptions C39_future_annotations_refuted.
Print Assumptions C40_optimized.
Print Assumptions C40_nofree.
Print Assumptions C40_nofree_concrete_partial.
Print Assumptions C40_nofree_concrete_refuted.
