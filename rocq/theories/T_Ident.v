(** Property theorems: assembling and then disassembling (C23). *)
From Verif Require Import PyBase OpTable CPy Table311 TablesEx P_Base M_Instr M_Tables M_Concrete M_Convert S_Args S_Asm S_Prog S_Slots S_Dis S_Ident
  P_Layout P_Layout2 P_Ident P_Ident3 T_Asm T_Args.
Open Scope string_scope.
Open Scope list_scope.
Open Scope Z_scope.

(** C23.  Disassembling what a Bytecode was assembled to succeeds and gives the same program:
    the same instructions in the same order, with the same arguments, each jump to the same
    instruction, the same locations and the same protecting handlers.  Needed for it: no explicit
    CACHE, matched nonempty try blocks, labels that are used stand before some instruction, the
    variables of paired instructions are among the first sixteen, and no range of the exception
    table starts in the middle of an instruction (all four are needed, see below and C47). *)
Theorem C23_identity_partial : forall v T keq passes b cb conserve,
  wf_optable v T = true -> all_legal v T b -> all_members v b -> sound_key keq ->
  no_cache (b_items b) -> try_blocks (b_items b) ->
  (forall l k, used_label l (b_items b) -> position (b_items b) l = Some k -> (k < ninstrs (b_items b))%nat) ->
  to_concrete v T keq passes b = Ok cb ->
  free_not_local v cb ->
  (forall i n, In (BI i) (b_items b) -> is_dual v T (i_op i) = true -> In n (locals_of (i_arg i)) ->
     In n (firstn 16 (cb_varnames cb))) ->
  (forall e, In e (cb_ex cb) -> exists k, (k < length (instrs_of (cb_items cb)))%nat
     /\ e_start e = offset_of v (instrs_of (cb_items cb)) k) ->
  exists b', to_bytecode v T cb true conserve = Ok b'
  /\ Forall2 (same_instr v T cb)
       (located (line_loc (Some (m_first_lineno (b_meta b)))) (program (b_items b)))
       (located (line_loc (Some (m_first_lineno (b_meta b')))) (program (b_items b'))).
Proof.
  intros v T keq passes b cb conserve wf HL HM HK NC TB HE H FN HP HS.
  destruct (to_concrete_assembled v T keq wf passes b cb H) as (vn & K0 & gs0 & Kf & gs & en & A).
  exact (disassembles v T keq wf b cb vn K0 gs0 Kf gs en A HL HM HK NC TB FN HP HE HS conserve).
Qed.
Print Assumptions C23_identity_partial.

(** A program with a loop, a jump that needs EXTENDED_ARG, caches, a try block, inherited lines. *)
Definition ex23 : bytecode := mkB meta0 ["x"]
  ([BLabel 0; BSet 4; ins "LOAD_GLOBAL" (OTuple [OBool true; OStr "f"]); ins "POP_JUMP_FORWARD_IF_TRUE" (OLabel 1);
    BTB 7 (OLabel 3) true (Some 1); ins "LOAD_FAST" (OStr "x"); ins "LOAD_CONST" (OInt 5); BTE 7; BSet 9]
   ++ repeat (ins "NOP" OUnset) 300
   ++ [ins "JUMP_BACKWARD" (OLabel 0); BLabel 3; ins "RERAISE" (OBool true); BLabel 1; ins "LOAD_CONST" ONone; ins "RETURN_VALUE" OUnset]).

Definition check_used (items : list bitem) : bool :=
  forallb (fun it => match it with
    | BI i => match i_arg i with OLabel l => match position items l with Some k => (k <? ninstrs items)%nat | None => true end | _ => true end
    | BTB _ (OLabel l) _ _ => match position items l with Some k => (k <? ninstrs items)%nat | None => true end
    | _ => true end) items.
Lemma check_used_ok items : check_used items = true ->
  forall l k, used_label l items -> position items l = Some k -> (k < ninstrs items)%nat.
Proof.
  unfold check_used. rewrite forallb_forall. intros H l k [(i & I & E)|(id & la & d & I)] P; specialize (H _ I); cbv beta iota in H.
  - rewrite E, P in H. now apply Nat.ltb_lt.
  - rewrite P in H. now apply Nat.ltb_lt.
Qed.
Definition check_starts (v : pyver) (cb : cbytecode) : bool :=
  let cs := instrs_of (cb_items cb) in
  forallb (fun e => existsb (fun k => e_start e =? offset_of v cs k) (seq 0 (length cs))) (cb_ex cb).
Lemma check_starts_ok v cb : check_starts v cb = true -> forall e, In e (cb_ex cb) ->
  exists k, (k < length (instrs_of (cb_items cb)))%nat /\ e_start e = offset_of v (instrs_of (cb_items cb)) k.
Proof.
  unfold check_starts. rewrite forallb_forall. intros H e I. specialize (H e I). cbv beta in H. apply existsb_exists in H.
  destruct H as (k & K & E). apply in_seq in K. apply Z.eqb_eq in E. exists k. split; [lia|exact E].
Qed.

Example C23_ex : all_legal V311 T311 ex23 /\ all_members V311 ex23 /\ no_cache (b_items ex23) /\ try_blocks (b_items ex23)
  /\ (forall l k, used_label l (b_items ex23) -> position (b_items ex23) l = Some k -> (k < ninstrs (b_items ex23))%nat)
  /\ exists cb, to_concrete V311 T311 keq0 default_passes ex23 = Ok cb /\ free_not_local V311 cb
     /\ (forall i n, In (BI i) (b_items ex23) -> is_dual V311 T311 (i_op i) = true -> In n (locals_of (i_arg i)) -> In n (firstn 16 (cb_varnames cb)))
     /\ (forall e, In e (cb_ex cb) -> exists k, (k < length (instrs_of (cb_items cb)))%nat /\ e_start e = offset_of V311 (instrs_of (cb_items cb)) k)
     /\ cb_ex cb = [mkEx 8 9 312 1 true].
Proof.
  split; [apply check_legal_ok; vm_compute; reflexivity|].
  split. { intros i I. assert (X : forallb (fun it => match it with BI i => match i_arg i with OCompare _ | OIntr1 _ | OIntr2 _ => false | _ => true end | _ => true end) (b_items ex23) = true) by (vm_compute; reflexivity).
    rewrite forallb_forall in X. specialize (X _ I). cbv beta iota in X. destruct (i_arg i); try exact Logic.I; discriminate. }
  split. { intros i I E. assert (X : existsb (fun it => is_cache (Some it)) (b_items ex23) = true).
    { apply existsb_exists. exists (BI i). split; [exact I|]. cbn. now apply String.eqb_eq. } vm_compute in X. discriminate. }
  split. { split; [repeat constructor; intros []|]. vm_compute. auto. }
  split; [apply check_used_ok; vm_compute; reflexivity|].
  match goal with |- exists cb, ?r = _ /\ _ => let x := eval vm_compute in r in match x with Ok ?c => exists c end end.
  split; [vm_compute; reflexivity|]. split; [intros X; discriminate X|]. split.
  { intros i n _ D. exfalso. unfold is_dual in D. discriminate D. }
  split; [apply check_starts_ok; vm_compute; reflexivity|reflexivity].
Qed.

(** Without the restriction on the exception table it is false: the handler of a try block that
    starts with LOAD_CONST number 256 is lost, although the block is not empty. *)
Definition ex23_wide : bytecode := mkB meta0 []
  (map (fun k => ins "LOAD_CONST" (OInt (Z.of_nat k))) (seq 0 256)
   ++ [BTB 7 (OLabel 3) true (Some 1); ins "LOAD_CONST" (OInt 256); ins "POP_TOP" OUnset; BTE 7; BLabel 3; ins "RETURN_VALUE" OUnset]).

Definition handlers_of (l : list bitem) : list (option handler) :=
  map snd (located (line_loc None) (program l)).

Theorem C23_wide_try_refuted :
  ~ (forall v T keq passes b cb b', wf_optable v T = true -> all_legal v T b -> all_members v b -> sound_key keq ->
       no_cache (b_items b) -> try_blocks (b_items b) ->
       (forall l k, used_label l (b_items b) -> position (b_items b) l = Some k -> (k < ninstrs (b_items b))%nat) ->
       to_concrete v T keq passes b = Ok cb -> to_bytecode v T cb true true = Ok b' ->
       handlers_of (b_items b') = handlers_of (b_items b)).
Proof.
  intros H.
  destruct (to_concrete V311 T311 keq0 default_passes ex23_wide) as [cb|] eqn:E; [|vm_compute in E; discriminate].
  destruct (to_bytecode V311 T311 cb true true) as [b'|] eqn:E2.
  - specialize (H V311 T311 keq0 default_passes ex23_wide cb b' T311_wf).
    assert (X : handlers_of (b_items b') = handlers_of (b_items ex23_wide)).
    { apply H; auto.
      - apply check_legal_ok; vm_compute; reflexivity.
      - intros i I. assert (X : forallb (fun it => match it with BI i => match i_arg i with OCompare _ | OIntr1 _ | OIntr2 _ => false | _ => true end | _ => true end) (b_items ex23_wide) = true) by (vm_compute; reflexivity).
        rewrite forallb_forall in X. specialize (X _ I). cbv beta iota in X. destruct (i_arg i); try exact Logic.I; discriminate.
      - exact keq0_sound.
      - intros i I E'. assert (X : existsb (fun it => is_cache (Some it)) (b_items ex23_wide) = true).
        { apply existsb_exists. exists (BI i). split; [exact I|]. cbn. now apply String.eqb_eq. } vm_compute in X. discriminate.
      - split; [repeat constructor; intros []|]. vm_compute. auto.
      - apply check_used_ok; vm_compute; reflexivity. }
    vm_compute in E. injection E as <-. vm_compute in E2. injection E2 as <-. vm_compute in X. discriminate X.
  - vm_compute in E. injection E as <-. vm_compute in E2. discriminate E2.
Qed.
Print Assumptions C23_wide_try_refuted.

(** A jump to a label at the end is assembled, and the result cannot be disassembled. *)
Theorem C23_label_at_end_refuted :
  ~ (forall v T keq passes b cb, wf_optable v T = true -> all_legal v T b -> no_cache (b_items b) -> try_blocks (b_items b) ->
       to_concrete v T keq passes b = Ok cb -> is_ok (to_bytecode v T cb true false) = true).
Proof.
  intros H. set (b := mkB meta0 [] [ins "JUMP_FORWARD" (OLabel 1); BLabel 1]).
  destruct (to_concrete V311 T311 keq0 default_passes b) as [cb|] eqn:E; [|vm_compute in E; discriminate].
  specialize (H V311 T311 keq0 default_passes b cb T311_wf). rewrite E in H.
  assert (X : is_ok (to_bytecode V311 T311 cb true false) = true).
  { apply H; auto.
    - apply check_legal_ok; vm_compute; reflexivity.
    - intros i [I|[I|[]]]; [injection I as <-; discriminate|discriminate].
    - split; [constructor|]. vm_compute. auto. }
  vm_compute in E. injection E as <-. vm_compute in X. discriminate X.
Qed.
Print Assumptions C23_label_at_end_refuted.
