(** Property theorems: the code object depends only on the program (C69). *)
From Verif Require Import PyBase OpTable CPy Table311 TablesEx CPyEffect P_Base M_Instr M_Tables M_Concrete M_Convert M_Bytecode M_Cfg M_Stack M_Full
  S_Args S_Lines S_Asm S_Prog S_Cfg S_Stack S_Ident P_CfgSeq P_CfgTo2 P_Stack4 P_Full P_Only2 T_Asm T_Args T_Ident T_Code T_Full.
Open Scope string_scope.
Open Scope list_scope.
Open Scope Z_scope.

(** Two code objects that differ at most in the stack size and the exception table *)
Record alike (x y : codeobj) : Prop := {
  al_counts : co_argcount x = co_argcount y /\ co_posonly x = co_posonly y /\ co_kwonly x = co_kwonly y /\ co_nlocals x = co_nlocals y;
  al_flags : co_flags x = co_flags y;
  al_code : co_code x = co_code y;
  al_consts : co_consts x = co_consts y;
  al_names : co_names x = co_names y;
  al_vars : co_varnames x = co_varnames y /\ co_freevars x = co_freevars y /\ co_cellvars x = co_cellvars y;
  al_strings : co_filename x = co_filename y /\ co_name x = co_name y /\ co_qualname x = co_qualname y;
  al_lines : co_firstlineno x = co_firstlineno y /\ co_linetable x = co_linetable y }.

(** What an instruction list says, the protecting handlers left out: the instructions in order, each
    with its name, its argument (a jump: the number of the instruction it goes to) and the location
    in force. *)
Definition said (b : bytecode) : list (string * parg * loc) := map fst (source b).

Lemma said_bare a b : said a = said b -> map bare (source a) = map bare (source b).
Proof.
  intros E. unfold said in E. assert (H : forall l, map bare l = map (fun x : string * parg * loc => (x, @None handler)) (map fst l)).
  { intros l. rewrite map_map. apply map_ext. intros [[[n x] lo] h]. reflexivity. }
  now rewrite !H, E.
Qed.

Lemma raw_alike v T ca cb n m x y : cb_meta ca = cb_meta cb -> cb_items ca = cb_items cb -> cb_consts ca = cb_consts cb ->
  cb_names ca = cb_names cb -> cb_varnames ca = cb_varnames cb ->
  to_code_raw v T ca n = Ok x -> to_code_raw v T cb m = Ok y ->
  alike x y /\ co_stacksize x = n /\ co_stacksize y = m /\ (PY311 v = false -> co_exceptiontable x = co_exceptiontable y).
Proof.
  intros E1 E2 E3 E4 E5. unfold to_code_raw, assemble_code. rewrite E1, E2, E3, E4, E5. intros A B.
  destruct (assemble_code_loop _ _ _ _) as [bytes ls].
  apply bind_ok in A. destruct A as (l1 & L1 & A). rewrite L1 in B. cbn [bind] in B.
  apply bind_ok in A. destruct A as (x1 & X1 & A). apply bind_ok in B. destruct B as (x2 & X2 & B). injection A as <-. injection B as <-.
  split; [constructor; cbn; auto|]. cbn. repeat split. intros V. rewrite V in *. congruence.
Qed.

(** C69.  Two lists that say the same, with the same attributes, are assembled to the same code
    object: it makes no difference which Label objects are used, where among labels and marks
    they stand, how many of them there are, whether locations are set on the instructions or
    inherited, nor how many passes are allowed for the jumps.  Only the stack size and (from 3.11
    on) the exception table are not decided by this. *)
Theorem C69_assembly : forall v T keq passes1 passes2 a b ca cb n m x y,
  all_legal v T a -> all_legal v T b -> no_cache (b_items a) -> no_cache (b_items b) ->
  b_meta a = b_meta b -> b_argnames a = b_argnames b -> said a = said b ->
  to_concrete v T keq passes1 a = Ok ca -> to_concrete v T keq passes2 b = Ok cb ->
  to_code_raw v T ca n = Ok x -> to_code_raw v T cb m = Ok y ->
  alike x y /\ (PY311 v = false -> n = m -> x = y).
Proof.
  intros v T keq p1 p2 a b ca cb n m x y LA LB NA NB EM EA ES HA HB X Y.
  destruct (to_concrete_only v T keq p1 p2 a b ca cb LA LB NA NB EM EA (said_bare _ _ ES) HA HB) as (Q1 & Q2 & Q3 & Q4 & Q5).
  destruct (raw_alike v T ca cb n m x y Q1 Q2 Q3 Q4 Q5 X Y) as (AL & S1 & S2 & XT). split; [exact AL|].
  intros V ->. specialize (XT V). rewrite <- S2 in S1. clear - AL S1 XT. destruct AL as [C F K CO NA' VA ST LI].
  destruct x, y; cbn in *. decompose [and] C. decompose [and] VA. decompose [and] ST. decompose [and] LI. subst. reflexivity.
Qed.

(** ** The way taken makes no difference *)
Definition moved (v : pyver) (T : optable) (b b' : bytecode) : Prop :=
  all_legal v T b' /\ no_cache (b_items b') /\ said b' = said b /\ b_meta b' = b_meta b /\ b_argnames b' = b_argnames b.
Lemma moved_ok v T b b' : all_legal v T b -> no_cache (b_items b) ->
  program (b_items b') = program (b_items b) /\ proper T (b_items b') /\ b_meta b' = b_meta b /\ b_argnames b' = b_argnames b
  /\ (bracketed None (b_items b) -> try_blocks (b_items b'))
  /\ Forall2 renamed (filter is_instr (b_items b)) (filter is_instr (b_items b')) -> moved v T b b'.
Proof.
  intros L C (PR & P' & ME & AR & TB & RN). split; [|split; [|split; [|auto]]].
  - intros i J. destruct (renamed_in _ _ _ RN J) as (i0 & J0 & R). eapply renamed_legal; [exact R|]. now apply L.
  - intros i J. destruct (renamed_in _ _ _ RN J) as (i0 & J0 & N & _). rewrite N. now apply C.
  - unfold said, source. now rewrite PR, ME.
Qed.
Lemma moved_split v T se keq passes s check depths b co : all_legal v T b -> no_cache (b_items b) -> proper T (b_items b) ->
  bytecode_to_code v T se keq passes s check depths b = Ok co ->
  exists b' cb n, to_concrete v T keq (passes_of passes) b' = Ok cb /\ to_code_raw v T cb n = Ok co /\ moved v T b b' /\ co_stacksize co = n.
Proof.
  intros L C P E. destruct (to_code_split _ _ _ _ _ _ _ _ _ _ E) as (b' & cb & n & E1 & E2 & D). exists b', cb, n.
  assert (S := raw_alike v T cb cb n n co co eq_refl eq_refl eq_refl eq_refl eq_refl E2 E2). destruct S as (_ & S & _).
  split; [exact E1|]. split; [exact E2|]. split; [|exact S]. destruct D as [[_ D]|(Q & _)].
  - exact (moved_ok v T b b' L C (through_ok _ _ _ _ _ _ _ _ P D)).
  - subst b'. split; [exact L|]. split; [exact C|]. split; [reflexivity|]. split; reflexivity.
Qed.
Lemma moved_alike v T keq p1 p2 b b1 b2 c1 c2 n m x y : moved v T b b1 -> moved v T b b2 ->
  to_concrete v T keq p1 b1 = Ok c1 -> to_concrete v T keq p2 b2 = Ok c2 -> to_code_raw v T c1 n = Ok x -> to_code_raw v T c2 m = Ok y ->
  alike x y /\ (PY311 v = false -> n = m -> x = y).
Proof.
  intros (L1 & C1 & S1 & M1 & A1) (L2 & C2 & S2 & M2 & A2). intros. eapply (C69_assembly v T keq p1 p2 b1 b2 c1 c2); eauto; congruence.
Qed.

(** The options of to_code() have no influence on the code object but for the stack size and the
    exception table, *)
Theorem C69_options : forall v T se keq b passes1 s1 check1 depths1 passes2 s2 check2 depths2 x y,
  all_legal v T b -> no_cache (b_items b) -> proper T (b_items b) ->
  bytecode_to_code v T se keq passes1 s1 check1 depths1 b = Ok x ->
  bytecode_to_code v T se keq passes2 s2 check2 depths2 b = Ok y ->
  alike x y /\ (PY311 v = false -> co_stacksize x = co_stacksize y -> x = y).
Proof.
  intros v T se keq b p1 s1 k1 d1 p2 s2 k2 d2 x y L C P E1 E2.
  destruct (moved_split _ _ _ _ _ _ _ _ _ _ L C P E1) as (b1 & c1 & n1 & H1 & R1 & M1 & <-).
  destruct (moved_split _ _ _ _ _ _ _ _ _ _ L C P E2) as (b2 & c2 & n2 & H2 & R2 & M2 & <-).
  exact (moved_alike v T keq _ _ b b1 b2 c1 c2 _ _ x y M1 M2 H1 H2 R1 R2).
Qed.
(** nor has it that a graph is made first. *)
Theorem C69_graph : forall v T se keq b g passes s1 check1 depths1 s2 check2 depths2 x y,
  all_legal v T b -> no_cache (b_items b) -> proper T (b_items b) ->
  bytecode_to_code v T se keq passes s1 check1 depths1 b = Ok x ->
  from_bytecode T b = Ok g -> cfg_to_code v T se keq s2 check2 depths2 g = Ok y ->
  alike x y /\ (PY311 v = false -> co_stacksize x = co_stacksize y -> x = y).
Proof.
  intros v T se keq b g p1 s1 k1 d1 s2 k2 d2 x y L C P E1 EF E2.
  destruct (moved_split _ _ _ _ _ _ _ _ _ _ L C P E1) as (b1 & c1 & n1 & H1 & R1 & M1 & <-).
  unfold cfg_to_code in E2. apply bind_ok in E2. destruct E2 as ([g' n] & EC & E2). apply bind_ok in E2. destruct E2 as (b' & ET & E2).
  assert (X : Forall2 like (g_heap g) (g_heap g') /\ g_order g' = g_order g /\ g_meta g' = g_meta g /\ g_argnames g' = g_argnames g).
  { destruct s2; [|exact (compute_heap _ _ _ _ _ _ _ _ EC)]. injection EC as <- <-. repeat split. apply like_refl. }
  destruct X as (X1 & X2 & X3 & X4).
  assert (BK := back_ok T b g g' b' P EF X1 X2 X3 X4 ET). assert (M := moved_ok v T b b' L C BK).
  destruct M as (L' & C' & S' & ME' & A'). destruct BK as (_ & P' & _).
  destruct (moved_split _ _ _ _ _ _ _ _ _ _ L' C' P' E2) as (b2 & c2 & n2 & H2 & R2 & (L2 & C2 & S2 & ME2 & A2) & <-).
  assert (M2 : moved v T b b2) by (split; [exact L2|]; split; [exact C2|]; split; [now rewrite S2|]; split; congruence). exact (moved_alike v T keq _ _ b b1 b2 c1 c2 _ _ x y M1 M2 H1 H2 R1 R2).
Qed.

(** The exception table is not decided by the program: a try block cut in two with the same handler
    protects the same instructions, and has two entries. *)
Definition ex_whole : bytecode := mkB meta0 []
  [BTB 0 (OLabel 1) false (Some 0); ins "NOP" OUnset; ins "NOP" OUnset; BTE 0; ins "LOAD_CONST" ONone; ins "RETURN_VALUE" OUnset;
   BLabel 1; ins "RETURN_VALUE" OUnset].
Definition ex_cut : bytecode := mkB meta0 []
  [BTB 0 (OLabel 1) false (Some 0); ins "NOP" OUnset; BTE 0; BTB 2 (OLabel 1) false (Some 0); ins "NOP" OUnset; BTE 2; ins "LOAD_CONST" ONone; ins "RETURN_VALUE" OUnset;
   BLabel 1; ins "RETURN_VALUE" OUnset].
Theorem C69_table_refuted : ~ forall a b x y, writable V311 T311 a -> writable V311 T311 b -> b_meta a = b_meta b -> b_argnames a = b_argnames b -> source a = source b ->
  bytecode_to_code V311 T311 dis_effect311 keq0 None (Some 1) true false a = Ok x ->
  bytecode_to_code V311 T311 dis_effect311 keq0 None (Some 1) true false b = Ok y -> x = y.
Proof.
  intros H.
  assert (Wa : writable V311 T311 ex_whole) by (apply check_writable_ok; [exact T311_wf|]; vm_compute; reflexivity).
  assert (Wb : writable V311 T311 ex_cut) by (apply check_writable_ok; [exact T311_wf|]; vm_compute; reflexivity).
  destruct (bytecode_to_code V311 T311 dis_effect311 keq0 None (Some 1) true false ex_whole) as [x|] eqn:E; [|vm_compute in E; discriminate E].
  destruct (bytecode_to_code V311 T311 dis_effect311 keq0 None (Some 1) true false ex_cut) as [y|] eqn:F; [|vm_compute in F; discriminate F].
  assert (S : source ex_whole = source ex_cut) by (vm_compute; reflexivity).
  specialize (H _ _ _ _ Wa Wb eq_refl eq_refl S E F). clear - E F H. vm_compute in E, F. injection E as <-. injection F as <-. discriminate H.
Qed.

(** The same program written in two ways: with its lines set by SetLineno or on the instructions,
    with other labels, and one that is not used *)
Definition at9 (n : string) (a : pyobj) : bitem :=
  match ins n a with BI i => BI (mkInstr (i_name i) (i_op i) (i_arg i) (Some (line_loc (Some 9)))) | x => x end.
Definition ex_one : bytecode := mkB meta0 ["x"]
  [BSet 9; ins "LOAD_FAST" (OStr "x"); ins "POP_JUMP_FORWARD_IF_FALSE" (OLabel 1); ins "LOAD_CONST" (OInt 3); ins "RETURN_VALUE" OUnset;
   BLabel 1; ins "LOAD_CONST" ONone; ins "RETURN_VALUE" OUnset].
Definition ex_two : bytecode := mkB meta0 ["x"]
  [BLabel 4; at9 "LOAD_FAST" (OStr "x"); at9 "POP_JUMP_FORWARD_IF_FALSE" (OLabel 6); at9 "LOAD_CONST" (OInt 3); ins "RETURN_VALUE" OUnset;
   BLabel 5; BLabel 6; BSet 9; ins "LOAD_CONST" ONone; at9 "RETURN_VALUE" OUnset].
Example C69_ex : writable V311 T311 ex_one /\ writable V311 T311 ex_two /\ said ex_one = said ex_two
  /\ exists x, bytecode_to_code V311 T311 dis_effect311 keq0 None None true true ex_one = Ok x
     /\ bytecode_to_code V311 T311 dis_effect311 keq0 None (Some 1) false false ex_two = Ok x.
Proof.
  split; [apply check_writable_ok; [exact T311_wf|]; vm_compute; reflexivity|]. split; [apply check_writable_ok; [exact T311_wf|]; vm_compute; reflexivity|].
  split; [vm_compute; reflexivity|]. eexists. split; vm_compute; reflexivity.
Qed.

Print Assumptions C69_assembly.
Print Assumptions C69_options.
Print Assumptions C69_graph.
Print Assumptions C69_table_refuted.
