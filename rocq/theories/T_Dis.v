(** Property theorems about disassembly (ConcreteBytecode.to_bytecode): C22, C49. *)
From Verif Require Import PyBase OpTable CPy Table311 TablesEx P_Base M_Instr M_Tables M_Concrete S_Args S_Lines S_Asm S_Prog S_Dis
  S_Slots P_Dis P_Dis3 P_Dis4 P_Dis5 P_Dis6.
Open Scope string_scope.
Open Scope list_scope.
Open Scope Z_scope.

(** C22.  The program shown has one instruction per kept concrete instruction, in order, with
    the same name, its location (or its line, when only SetLineno gives it), and: a jump goes to
    the instruction at the offset CPython would continue at (if that one is a removed CACHE, to
    the next kept one); any other instruction has the argument [decode_arg] gives, which is what
    CPython reads (C18_shown_is_read). *)
Theorem C22_disassembly : forall v T cb prune conserve b,
  wf_optable v T = true -> (forall c, In c (instrs_of (cb_items cb)) -> ordinary v T c) ->
  to_bytecode v T cb prune conserve = Ok b ->
  let cs := instrs_of (cb_items cb) in
  length (program (b_items b)) = kept_before prune cs (length cs)
  /\ forall pre c post, cb_items cb = pre ++ CI c :: post -> kept prune c = true ->
     let k := length (instrs_of pre) in
     exists arg h, nth_error (program (b_items b)) (kept_before prune cs k)
         = Some (PInstr (c_name c) arg (Some match c_loc c with Some l => l
              | None => line_loc (Some (current_line (m_first_lineno (cb_meta cb)) (pre ++ [CI c]))) end) h)
     /\ (op_has_jump T (c_op c) = true -> exists k', (k' < length cs)%nat
           /\ offset_of v cs k' = jumps_to v T c (offset_of v cs k) /\ arg = PTo (Some (kept_before prune cs k')))
     /\ (op_has_jump T (c_op c) = false -> exists x, decode_arg v T cb (c_op c) (c_arg c) = Ok x /\ arg = PObj x).
Proof.
  intros v T cb prune conserve b wf O H.
  destruct (to_bytecode_shown v T wf cb prune conserve b (ordinary_plain v T wf _ O) H) as [A B].
  split; [exact A|]. intros pre c post E K. destruct (B pre c post E K) as (arg & h & B1 & B2 & B3 & _). eauto.
Qed.
Print Assumptions C22_disassembly.

(** C22: it succeeds whenever every jump and every handler goes to an instruction start, the
    arguments can be decoded to arguments Instr accepts, and lines are valid. *)
Theorem C22_accepted : forall v T cb prune conserve,
  wf_optable v T = true -> (forall c, In c (instrs_of (cb_items cb)) -> ordinary v T c) ->
  (forall pre c post, cb_items cb = pre ++ CI c :: post -> kept prune c = true ->
     (op_has_jump T (c_op c) = false -> exists x, decode_arg v T cb (c_op c) (c_arg c) = Ok x /\ doc_arg v T (c_op c) x)
     /\ (c_loc c = None -> (if PY311 v then 0 else 1) <= current_line (m_first_lineno (cb_meta cb)) (pre ++ [CI c]))) ->
  NoDup (map e_start (cb_ex cb)) ->
  let cs := instrs_of (cb_items cb) in
  (forall k c, nth_error cs k = Some c -> op_has_jump T (c_op c) = true ->
     exists k', (k' < length cs)%nat /\ offset_of v cs k' = jumps_to v T c (offset_of v cs k)) ->
  (forall e, In e (cb_ex cb) -> exists k', (k' < length cs)%nat /\ offset_of v cs k' = e_target e) ->
  exists b, to_bytecode v T cb prune conserve = Ok b.
Proof. intros v T cb prune conserve wf. exact (to_bytecode_total v T wf cb prune conserve). Qed.
Print Assumptions C22_accepted.

(** C22: the hypothesis [ordinary] holds for all code read with from_code, and it does not
    matter whether EXTENDED_ARG were kept then. *)
Theorem C22_of_code : forall v T co cb, wf_optable v T = true -> from_code v T co false = Ok cb ->
  (forall c, In c (instrs_of (cb_items cb)) -> ordinary v T c)
  /\ forall cb' prune conserve, from_code v T co true = Ok cb' ->
     to_bytecode v T cb' prune conserve = to_bytecode v T cb prune conserve.
Proof.
  intros v T co cb wf H. split; [exact (from_code_ordinary v T wf co cb H)|].
  intros cb' prune conserve H'. exact (from_code_fold v T wf co cb' cb prune conserve H' H).
Qed.
Print Assumptions C22_of_code.

(** Keeping the CACHE entries does not work on any code that has some: Instr("CACHE", 0) is not
    accepted, while that is how they are read. *)
Definition ex22_code : codeobj :=
  mkCode 0 0 0 0 3 3 ([151; 0; 144; 0; 116; 1] ++ concat (repeat [0; 0] 5) ++ [114; 2; 83; 0; 1; 0; 140; 11; 83; 0])
    [ONone] ["print"] [] "f.py" "f" "f" 10 [248; 14] [129; 7; 10; 3] [] [].
Theorem C22_keep_caches_refuted :
  ~ (forall v T co cb, wf_optable v T = true -> from_code v T co false = Ok cb ->
       is_ok (to_bytecode v T cb true false) = true -> is_ok (to_bytecode v T cb false false) = true).
Proof.
  intros H. destruct (from_code V311 T311 ex22_code false) as [cb|] eqn:F; [|vm_compute in F; discriminate].
  specialize (H V311 T311 ex22_code cb T311_wf F). vm_compute in F. injection F as <-. vm_compute in H. discriminate (H eq_refl).
Qed.
Print Assumptions C22_keep_caches_refuted.

(** C49.  When the exception table is one a Bytecode can show (each range from the start of an
    instruction to the end of one, ranges apart), each instruction of the program shown is
    protected by the handler whose entry covers it: same place, same push_lasti. *)
Theorem C49_coverage_shown : forall v T cb prune conserve b,
  wf_optable v T = true -> (forall c, In c (instrs_of (cb_items cb)) -> ordinary v T c) ->
  to_bytecode v T cb prune conserve = Ok b ->
  let cs := instrs_of (cb_items cb) in
  tidy v cs (cb_ex cb) ->
  forall k c, nth_error cs k = Some c -> kept prune c = true ->
  exists name arg l h, nth_error (program (b_items b)) (kept_before prune cs k) = Some (PInstr name arg l h)
  /\ match covering v cs (cb_ex cb) k with
     | None => h = None
     | Some e => exists k', (k' < length cs)%nat /\ offset_of v cs k' = e_target e
         /\ h = Some (PTo (Some (kept_before prune cs k')), e_lasti e)
     end.
Proof.
  intros v T cb prune conserve b wf O H cs TD k c N K.
  destruct (to_bytecode_shown v T wf cb prune conserve b (ordinary_plain v T wf _ O) H) as [_ B].
  destruct (instrs_split _ _ _ N) as (pre & post & E & <-).
  destruct (B pre c post E K) as (arg & h & B1 & _ & _ & B4).
  eexists _, _, _, _. split; [exact B1|exact (B4 TD)].
Qed.
Print Assumptions C49_coverage_shown.

(** C49: every TryBegin of the result stands for an entry: same push_lasti, and same stack depth
    when asked to conserve it. *)
Theorem C49_markers : forall v T cb prune conserve b id t la d,
  wf_optable v T = true -> (forall c, In c (instrs_of (cb_items cb)) -> ordinary v T c) ->
  to_bytecode v T cb prune conserve = Ok b -> In (BTB id t la d) (b_items b) ->
  exists e, In e (cb_ex cb) /\ la = e_lasti e /\ d = (if conserve then Some (e_depth e) else None).
Proof.
  intros v T cb prune conserve b id t la d wf O H I.
  destruct (to_bytecode_dis v T wf cb prune conserve b (ordinary_plain v T wf _ O) H) as (tg & ps & cr & [DI _ _ D _ _ _ _]).
  rewrite DI in I. destruct (dis_markers _ _ _ _ _ _ _ _ _ _ _ D _ _ _ _ I) as (e & E & -> & ->). eauto.
Qed.
Print Assumptions C49_markers.

(** C49 is false for other tables: the range the library itself writes for a try block that
    begins with an instruction that needs EXTENDED_ARG starts after the EXTENDED_ARG, and the
    instructions it covers are shown without a handler. *)
Definition ex49 : cbytecode :=
  mkCB meta0 [CI (mkC "LOAD_CONST" 100 (Some 300) (Some (line_loc (Some 1))) None 4);
              CI (mkC "RETURN_VALUE" 83 None (Some (line_loc (Some 1))) None 2);
              CI (mkC "PUSH_EXC_INFO" 35 None (Some (line_loc (Some 1))) None 2);
              CI (mkC "RERAISE" 119 (Some 0) (Some (line_loc (Some 1))) None 2)]
       (repeat ONone 301) [] [] [mkEx 1 2 3 0 false].
Theorem C49_coverage_shown_refuted :
  ~ (forall v T cb prune conserve b,
     wf_optable v T = true -> (forall c, In c (instrs_of (cb_items cb)) -> ordinary v T c) ->
     to_bytecode v T cb prune conserve = Ok b ->
     let cs := instrs_of (cb_items cb) in
     (forall e, In e (cb_ex cb) -> exists s t, (s <= t < length cs)%nat /\ e_start e = executed_at v cs s /\ e_stop e = executed_at v cs t) ->
     forall k c, nth_error cs k = Some c -> kept prune c = true ->
     exists name arg l h, nth_error (program (b_items b)) (kept_before prune cs k) = Some (PInstr name arg l h)
     /\ (h = None <-> covering v cs (cb_ex cb) k = None)).
Proof.
  intros H. destruct (to_bytecode V311 T311 ex49 true false) as [b|] eqn:F; [|vm_compute in F; discriminate].
  destruct (H V311 T311 ex49 true false b T311_wf) with (k := 0%nat) (c := mkC "LOAD_CONST" 100 (Some 300) (Some (line_loc (Some 1))) None 4)
    as (name & arg & l & h & A & B); auto.
  - intros c I. cbn in I. unfold ordinary, legal_cinstr.
    repeat (destruct I as [<-|I]; [cbn; repeat split; try discriminate; try lia; auto|]); try destruct I.
    + exists 2. lia. + exists 1. lia. + exists 1. lia. + exists 1. lia.
  - intros e [<-|[]]. exists 0%nat, 1%nat. split; [cbn; lia|]. split; reflexivity.
  - vm_compute in F. injection F as <-. vm_compute in A. injection A as <- <- <- <-. destruct B as [B _]. specialize (B eq_refl). vm_compute in B. discriminate.
Qed.
Print Assumptions C49_coverage_shown_refuted.

(** Code with a forced EXTENDED_ARG, caches, a forward and a backward jump, and a try range. *)
Example C22_C49_ex : exists cb b, from_code V311 T311 ex22_code false = Ok cb /\ to_bytecode V311 T311 cb true true = Ok b
  /\ tidy V311 (instrs_of (cb_items cb)) (cb_ex cb)
  /\ map (fun p => match p with PInstr n a _ h => (n, a, h) | PSet _ => ("", PTo None, None) end) (program (b_items b))
   = [("RESUME", PObj (OInt 0), None);
      ("LOAD_GLOBAL", PObj (OTuple [OBool true; OStr "print"]), Some (PTo (Some 4%nat), true));
      ("POP_JUMP_FORWARD_IF_FALSE", PTo (Some 5%nat), None); ("RETURN_VALUE", PObj OUnset, None);
      ("POP_TOP", PObj OUnset, None); ("JUMP_BACKWARD", PTo (Some 1%nat), None); ("RETURN_VALUE", PObj OUnset, None)].
Proof.
  eexists. eexists. split; [vm_compute; reflexivity|]. split; [vm_compute; reflexivity|]. split; [|vm_compute; reflexivity].
  split.
  - intros e [<-|[]]. exists 1%nat, 6%nat. split; [cbn; lia|]. split; reflexivity.
  - intros [|m] [|[|n]] e f L M N; try lia; discriminate.
Qed.
