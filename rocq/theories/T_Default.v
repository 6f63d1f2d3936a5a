(** Property theorems: from_code() then to_code() with its defaults (C57). *)
From Verif Require Import PyBase OpTable CPy Table311 TablesEx CPyEffect P_Base P_OpTable M_Instr M_Tables M_Concrete M_Convert M_Bytecode M_Cfg M_Stack M_Full
  S_Args S_Lines S_Prog S_Slots S_Asm S_Dis S_Cfg S_Stack S_Ident S_Round S_Code S_Run S_Total S_From
  P_Stack P_StackEx P_RunEx P_CfgSeq P_CfgFrom4 P_Run P_Run2 P_Total6 P_Total7 T_Asm T_Instr T_Args T_Code T_Meta T_Full T_Stack T_From T_Run T_Total T_Total2 T_Total3.
Open Scope string_scope.
Open Scope list_scope.
Open Scope Z_scope.

(** C57.  Bytecode.from_code(co).to_code(), the stack size and the handler depths being computed: if the
    blocks of the program are entered with one stack depth each ([regular]), the stack effects of its
    instructions are known and every try block is entered or was shown without a depth, then either an
    instruction finds too few items, and RuntimeError is raised, or a code object is made and it
    runs the same program. *)
Theorem C57_after_from_code : forall v T se keq passes stacksize check conserve co b g H,
  let first := first_depth v (m_flags (b_meta b)) in
  let cover := protected (source b) g in
  let At := at_ T (eff v T se check) g first H cover in
  wf_optable v T = true -> PY311 v = true -> sound_key keq -> as_compiled v T co -> understood v T co ->
  bytecode_from_code v T true conserve co = Ok b -> from_bytecode T b = Ok g ->
  regular T (eff v T se check) g first H cover ->
  (forall i j, In (BI i) (b_items b) -> exists e, used_effect v T se check i j = Ok e) ->
  (forall n i id t la sd, elem g n i = Some (BTB id t la sd) ->
     (exists d o, At (n, i, d, o)) \/ (sd = None /\ forall d o, ~ At (n, O, d, o))) ->
  3 * zlen (filter (fun r => op_has_jump T (r_op r)) (instructions v T co)) < Z.of_nat (passes_of passes) ->
  let result := bytecode_to_code v T se keq passes stacksize check true b in
  (underflow T (eff v T se check) g first H cover /\ result = Err RuntimeError)
  \/ (~ underflow T (eff v T se check) g first H cover
      /\ exists co', result = Ok co'
         /\ (pairs_near v T b (co_varnames co') -> exists program, runs v T co program /\ runs v T co' program)).
Proof.
  intros v T se keq passes st check conserve co b g H first cover At wf P11 SK AC UN FB FR REG EF MET PA result.
  destruct (C58_from_code_returns v T conserve co wf P11 AC UN) as (b0 & FB' & BB & LF & LO).
  rewrite FB in FB'. injection FB' as <-.
  pose proof (jump_count v T wf P11 co AC conserve b FB) as JC.
  destruct (C57_to_code_returns v T se keq passes st check true b g H wf SK BB LF LO) as [X|(NU & co' & E & RN)].
  - right. now rewrite P11.
  - lia.
  - exact FR.
  - exact REG.
  - exact EF.
  - intros n i id t la sd EL. split; [auto|]. exact (MET n i id t la sd EL).
  - left. exact X.
  - right. split; [exact NU|]. exists co'. split; [exact E|]. intros PN. exists (source b).
    split; [exact (C52_from_code_shows_program_since_311 v T conserve co b wf P11 AC FB)|exact (RN PN)].
Qed.
Print Assumptions C57_after_from_code.

(** *** Non-vacuity: the code object of the loop of C54 *)
Definition co54 : codeobj := Eval vm_compute in
  match bytecode_to_code V311 T311 dis_effect311 keq0 None None true true ex54 with Ok co => co | Err _ => ex53 end.
Definition b54 : bytecode := Eval vm_compute in
  match bytecode_from_code V311 T311 true false co54 with Ok b => b | Err _ => ex54 end.
Definition g54 : cfg := Eval vm_compute in match from_bytecode T311 b54 with Ok g => g | Err _ => graph [] end.
Example C57_after_ex : let At := at_ T311 cpy g54 0 ex54_depth (protected (source b54) g54) in
  as_compiled V311 T311 co54 /\ understood V311 T311 co54
  /\ bytecode_from_code V311 T311 true false co54 = Ok b54 /\ from_bytecode T311 b54 = Ok g54
  /\ regular T311 cpy g54 0 ex54_depth (protected (source b54) g54)
  /\ (forall n i id h la sd, elem g54 n i = Some (BTB id (OBlock h) la sd) -> exists d o, At (n, i, d, o))
  /\ 3 * zlen (filter (fun r => op_has_jump T311 (r_op r)) (instructions V311 T311 co54)) < Z.of_nat (passes_of None)
  /\ exists co', bytecode_to_code V311 T311 dis_effect311 keq0 None None true true b54 = Ok co' /\ co_code co' = co_code co54.
Proof.
  assert (AC : as_compiled V311 T311 co54) by (apply check_compiled_ok; vm_compute; reflexivity).
  split; [exact AC|]. split; [apply check_understood_ok; [exact T311_wf|exact AC|vm_compute; reflexivity]|].
  split; [vm_compute; reflexivity|]. split; [vm_compute; reflexivity|].
  split. { apply (regular_mono _ _ _ _ _ _ (cov ex54_cover)); [apply protectedb_ok; vm_compute; reflexivity|].
    apply (regularb_ok _ _ _ _ _ _ 40); [vm_compute; reflexivity|]. intros h. unfold ex54_depth. destruct (Nat.eqb h 4); lia. }
  split; [apply (metb_ok _ _ _ _ _ _ 40); vm_compute; reflexivity|]. split; [vm_compute; reflexivity|].
  eexists. split; vm_compute; reflexivity.
Qed.
