(** Property theorems: rewriting a code object that this library wrote, before 3.11 (C76). *)
From Verif Require Import PyBase OpTable CPy CPyEffect TablesEx P_Base P_OpTable M_Instr M_Tables M_Concrete S_Args S_Lines S_Dis S_Asm S_Prog S_Slots S_Ident S_Code S_Old S_Written M_Convert M_Bytecode M_Cfg M_Stack M_Full
  P_Except P_LinesCode P_Conv P_Conv2 P_Layout P_AsmProps P_Ident P_Ident2 P_Ident3 P_Code P_Code2 P_From P_Old3 P_Written P_Written2 P_Written3 P_Proper P_CfgTo2 P_CfgSeq P_CfgFrom4 P_Only2 P_Moved P_Again T_Except T_Lines T_Asm T_Args T_Ident T_Meta T_Code T_Full T_Only T_Again T_Written T_Rewrite T_Written2 T_Stable.
From Verif Require Import S_Cfg P_Full.
Open Scope string_scope.
Open Scope list_scope.
Open Scope Z_scope.

(** The attributes with another qualified name.  (Code objects have none before 3.11.) *)
Definition with_qual (m : meta) (q : string) : meta :=
  mkMeta (m_argcount m) (m_posonly m) (m_kwonly m) (m_first_lineno m) (m_name m) q (m_filename m) (m_docstring m) (m_cellvars m) (m_freevars m) (m_flags m).
Definition requal_b (b : bytecode) (q : string) : bytecode := mkB (with_qual (b_meta b) q) (b_argnames b) (b_items b).
Lemma requal v T keq p m q an it : to_concrete v T keq p (mkB (with_qual m q) an it) =
  (cb <- to_concrete v T keq p (mkB m an it) ;; Ok (mkCB (with_qual m q) (cb_items cb) (cb_consts cb) (cb_names cb) (cb_varnames cb) (cb_ex cb))).
Proof.
  unfold to_concrete. cbn [b_meta b_argnames b_items].
  change (m_docstring (with_qual m q)) with (m_docstring m).
  change (concrete_instructions v T keq (with_qual m q)) with (concrete_instructions v T keq m).
  destruct (concrete_instructions _ _ _ _ _ _ _) as [[K ins]|]; [|reflexivity]. cbn [bind].
  destruct (compute_jumps _ _ _ _ _ _ _) as [[i2 en]|]; reflexivity.
Qed.

(** *** the line tables *)
Definition mv_line (e : lent) : lent := mkLent (le_off e) (le_size e) (le_line e) (option_map line_only (le_loc e)).
Lemma dlineno_line e r : dlineno_of (mv_line e) r = dlineno_of e r.
Proof. unfold dlineno_of, mv_line. cbn. destruct (le_loc e) as [[l ? ? ?]|]; reflexivity. Qed.
Lemma lnotab_line l : forall o z, lnotab_loop o z (map mv_line l) = lnotab_loop o z l.
Proof. induction l as [|e r IH]; intros o z; [reflexivity|]. cbn [map lnotab_loop mv_line le_off le_line]. now rewrite !IH. Qed.
Lemma linestable_line l : forall o z d e, linestable_loop o z d (mv_line e) (map mv_line l) = linestable_loop o z d e l.
Proof.
  induction l as [|x r IH]; intros o z d e; [reflexivity|]. cbn [map linestable_loop]. rewrite dlineno_line, !IH. reflexivity.
Qed.
Lemma lines_moved v first l : PY311 v = false -> assemble_lines v first (map mv_line l) = assemble_lines v first l.
Proof.
  intros P. unfold assemble_lines. rewrite P. destruct (PY310 v).
  - destruct l as [|e r]; [reflexivity|]. cbn [map assemble_linestable]. rewrite dlineno_line. exact (linestable_line r _ _ _ e).
  - apply lnotab_line.
Qed.
Lemma normalize_line items : forall z, normalize_lineno z (map (mv_item line_only) items) = map (fun x => (fst x, mv_c line_only (snd x))) (normalize_lineno z items).
Proof.
  induction items as [|[c|l] r IH]; intros z; cbn [map mv_item normalize_lineno]; [reflexivity| |apply IH]. cbv zeta.
  replace (loc_lineno (c_loc (mv_c line_only c))) with (loc_lineno (c_loc c)).
  2:{ cbn [mv_c c_loc]. destruct (c_loc c); reflexivity. }
  cbn [map fst snd]. f_equal. apply IH.
Qed.
Lemma code_line v T l : forall o, assemble_code_loop v T o (map (fun x => (fst x, mv_c line_only (snd x))) l)
  = (fst (assemble_code_loop v T o l), map mv_line (snd (assemble_code_loop v T o l))).
Proof.
  induction l as [|[z c] r IH]; intros o; [reflexivity|]. cbn [map fst snd assemble_code_loop]. cbn [mv_c c_size]. rewrite IH.
  destruct (assemble_code_loop v T (o + units v (c_size c)) r) as [bs es]. reflexivity.
Qed.

(** Before 3.11 the code object depends on the lines of the locations only. *)
Lemma raw_line v T ca cb n x : PY311 v = false ->
  (exists d q, cb_meta ca = with_doc (with_qual (cb_meta cb) q) d) -> cb_items ca = map (mv_item line_only) (cb_items cb) -> cb_consts ca = cb_consts cb ->
  cb_names ca = cb_names cb -> cb_varnames ca = cb_varnames cb ->
  to_code_raw v T ca n = Ok x -> to_code_raw v T cb n = Ok x.
Proof.
  intros V (d & q & E1) E2 E3 E4 E5 A. rewrite <- A. unfold to_code_raw, assemble_code. rewrite E1, E2, E3, E4, E5.
  change (m_first_lineno (with_doc (with_qual (cb_meta cb) q) d)) with (m_first_lineno (cb_meta cb)). rewrite normalize_line, code_line.
  destruct (assemble_code_loop v T 0 _) as [bs es]. cbn [fst snd]. rewrite lines_moved, V by exact V. reflexivity.
Qed.
Lemma raw_stack v T cb n m x y : PY311 v = false -> to_code_raw v T cb n = Ok x -> to_code_raw v T cb m = Ok y -> alike x y /\ (n = m -> x = y).
Proof.
  intros V A B. split; [|intros ->; congruence]. exact (proj1 (raw_alike v T cb cb n m x y eq_refl eq_refl eq_refl eq_refl eq_refl A B)).
Qed.

(** The code object shows what the concrete bytecode shows, with the lines. *)
Lemma reread_before : forall v T keq passes b cb n co conserve b',
  wf_optable v T = true -> PY311 v = false -> all_legal v T b -> all_members v b -> sound_key keq ->
  no_cache (b_items b) -> try_blocks (b_items b) -> no_handlers b ->
  (forall l k, used_label l (b_items b) -> position (b_items b) l = Some k -> (k < ninstrs (b_items b))%nat) ->
  to_concrete v T keq passes b = Ok cb ->
  lines_given v b -> 1 <= m_first_lineno (b_meta b) ->
  usual_docstring (b_meta b) ->
  to_code_raw v T cb n = Ok co ->
  bytecode_from_code v T true conserve co = Ok b' ->
  exists b2, to_bytecode v T cb true conserve = Ok b2 /\ cb_ex cb = [] /\ b_items b' = map (P_Written2.moved line_only) (b_items b2)
  /\ b_meta b' = with_qual (b_meta b2) (m_qualname meta0) /\ b_argnames b' = b_argnames b2 /\ source b' = map kept_before_311 (source b2).
Proof.
  intros v T keq passes b cb n co conserve b' wf P11 HL HM HK NC TB NH HE H LO FP UD TO B'.
  destruct (written_moved_before v T keq passes b cb n co conserve wf P11 HL HM HK NC TB NH HE H LO FP TO)
    as (b2 & cb1 & b1 & E2 & F2 & F1 & E1 & I1 & LC & C1 & V1 & X5 & EX).
  destruct (assembled_consts v T keq passes b cb wf H) as (CM & CD & _).
  unfold bytecode_from_code in B'. rewrite F1 in B'. cbn [bind] in B'. rewrite E1 in B'. injection B' as ->.
  exists b2. split; [exact E2|]. split; [exact EX|]. split; [exact I1|].
  destruct (to_bytecode_meta v T cb true conserve b2 E2) as [BM2 BA2]. destruct (to_bytecode_meta v T cb1 true conserve b' E1) as [BM1 BA1].
  assert (ME : b_meta b' = with_qual (b_meta b2) (m_qualname meta0)).
  { rewrite BM1, BM2, X5, C1. cbn.
    assert (DS : set_docstring (set_docstring OUnset (cb_consts cb)) (cb_consts cb) = set_docstring (m_docstring (cb_meta cb)) (cb_consts cb)).
    { rewrite CM. unfold usual_docstring in UD. clear - UD CD. destruct (m_docstring (b_meta b)) eqn:D; try contradiction;
        destruct (cb_consts cb) as [|k ks]; cbn in *; try (specialize (CD ltac:(discriminate)); discriminate CD); try reflexivity;
        try (specialize (CD ltac:(discriminate)); injection CD as ->; reflexivity). destruct k; reflexivity. }
    rewrite DS. reflexivity. }
  split; [exact ME|]. split; [rewrite BA1, BA2, X5, V1; reflexivity|].
  unfold source. rewrite I1, ME. cbn [with_qual m_first_lineno]. rewrite (program_moved line_only _ LC (line_loc (Some (m_first_lineno (b_meta b2))))). reflexivity.
Qed.

(** A Bytecode that says what was read back is written as the same code object. *)
Lemma again_before : forall v T keq passes passes' b cb n co conserve b2 bx cb' n' co',
  wf_optable v T = true -> PY311 v = false -> all_legal v T b -> all_members v b -> sound_key keq -> (forall x, keq x x = true) ->
  no_cache (b_items b) -> try_blocks (b_items b) ->
  (forall l k, used_label l (b_items b) -> position (b_items b) l = Some k -> (k < ninstrs (b_items b))%nat) ->
  to_concrete v T keq passes b = Ok cb -> cb_ex cb = [] ->
  plainly_written v T (cb_varnames cb) b ->
  zlen (b_argnames b) = nargs_of (b_meta b) ->
  to_code_raw v T cb n = Ok co ->
  to_bytecode v T cb true conserve = Ok b2 ->
  all_legal v T bx -> no_cache (b_items bx) -> (exists q, b_meta bx = with_qual (b_meta b2) q) -> b_argnames bx = b_argnames b2 ->
  map bare (source bx) = map bare (map kept_before_311 (source b2)) ->
  to_concrete v T keq passes' bx = Ok cb' -> to_code_raw v T cb' n' = Ok co' ->
  alike co' co /\ (n' = n -> co' = co).
Proof.
  intros v T keq passes passes' b cb n co conserve b2 bx cb' n' co' wf P11 HL HM HK RF NC TB HE H EX PW AN TO E1 LX CX (q & MX) AX SX E2 TO'.
  assert (P13 : PY313 v = false) by (destruct v; vm_compute in P11 |- *; congruence).
  destruct (again_setup v T keq passes b cb conserve b2 wf HL HM HK RF NC TB HE H) as (SO & LB & NC' & AR & CM & d & cbs & BM & ES & X1 & X2 & X3 & X4 & X5 & _); try assumption.
  { intros Q. rewrite P13 in Q. discriminate Q. }
  { intros i x _ D. rewrite (no_dual_before v T _ P11) in D. discriminate. }
  { rewrite EX. intros e []. }
  set (bd := mkB (with_doc (b_meta b) d) (b_argnames b) (b_items b)) in *.
  pose proof (to_concrete_own line_only v T keq passes bd cbs ES) as EO.
  (* the qualified name is put back *)
  set (by_ := mkB (b_meta b2) (b_argnames bx) (b_items bx)).
  assert (EY : exists cy, to_concrete v T keq passes' by_ = Ok cy /\ cb_meta cb' = with_qual (cb_meta cy) q /\ cb_items cb' = cb_items cy /\ cb_consts cb' = cb_consts cy
    /\ cb_names cb' = cb_names cy /\ cb_varnames cb' = cb_varnames cy).
  { destruct bx as [mx ax ix]. cbn [b_meta b_argnames b_items] in *. rewrite MX, requal in E2. unfold by_. apply bind_ok in E2. destruct E2 as (cy & Y & E2). injection E2 as <-.
    exists cy. split; [exact Y|]. cbn. repeat split. f_equal. symmetry. unfold to_concrete in Y. cbn [b_meta b_argnames b_items] in Y.
    apply bind_ok in Y. destruct Y as ([K ins] & _ & Y). apply bind_ok in Y. destruct Y as ([i2 en] & _ & Y). injection Y as <-. reflexivity. }
  destruct EY as (cy & EY & Y1 & Y2 & Y3 & Y4 & Y5).
  destruct (to_concrete_only v T keq passes' passes by_ (own_b line_only bd) cy (mkCB (cb_meta cbs) (map (mv_item line_only) (cb_items cbs)) (cb_consts cbs) (cb_names cbs) (cb_varnames cbs) (cb_ex cbs)) LX (legal_own line_only v T bd HL) CX (cacheless_own line_only bd NC)
    BM (eq_trans AX AR)) as (R1 & R2 & R3 & R4 & R5); [|exact EY|exact EO|].
  { rewrite source_own. transitivity (map bare (source bx)).
    { unfold source, by_. cbn [b_meta b_items]. rewrite MX. reflexivity. }
    rewrite SX, SO. reflexivity. }
  cbn [cb_meta cb_items cb_consts cb_names cb_varnames] in R1, R2, R3, R4, R5.
  assert (TX : to_code_raw v T cb n' = Ok co').
  { apply (raw_line v T cb' cb n' co' P11); [|congruence..|exact TO']. exists d, q. rewrite Y1, R1, X5, CM. reflexivity. }
  destruct (raw_stack v T cb n' n co' co P11 TX TO) as (AL & EQ). auto.
Qed.

(** C76 before 3.11.  The code object written from a Bytecode, disassembled and written again, is
    the same (the stack size is a parameter of ConcreteBytecode.to_code()). *)
Theorem C76_rewriting_before_311_partial : forall v T keq passes passes' b cb n co conserve b' cb' n' co',
  wf_optable v T = true -> PY311 v = false -> all_legal v T b -> all_members v b -> sound_key keq -> (forall x, keq x x = true) ->
  no_cache (b_items b) -> try_blocks (b_items b) -> no_handlers b ->
  (forall l k, used_label l (b_items b) -> position (b_items b) l = Some k -> (k < ninstrs (b_items b))%nat) ->
  to_concrete v T keq passes b = Ok cb ->
  lines_given v b -> 1 <= m_first_lineno (b_meta b) ->
  plainly_written v T (cb_varnames cb) b ->
  zlen (b_argnames b) = nargs_of (b_meta b) ->
  usual_docstring (b_meta b) ->
  to_code_raw v T cb n = Ok co ->
  bytecode_from_code v T true conserve co = Ok b' ->
  to_concrete v T keq passes' b' = Ok cb' -> to_code_raw v T cb' n' = Ok co' ->
  alike co' co /\ (n' = n -> co' = co).
Proof.
  intros v T keq passes passes' b cb n co conserve b' cb' n' co' wf P11 HL HM HK RF NC TB NH HE H LO FP PW AN UD TO B' H' TO'.
  destruct (reread_before v T keq passes b cb n co conserve b' wf P11 HL HM HK NC TB NH HE H LO FP UD TO B') as (b2 & E2 & EX & I2 & M2 & A2 & S2).
  assert (P13 : PY313 v = false) by (destruct v; vm_compute in P11 |- *; congruence).
  pose proof (disassembled_legal v T cb true conserve b2 wf E2) as L2.
  assert (C2 : no_cache (b_items b2)).
  { apply (disassembled_no_cache v T keq passes b cb conserve b2); try assumption.
    { intros Q. rewrite P13 in Q. discriminate Q. }
    { intros i x _ D. rewrite (no_dual_before v T _ P11) in D. discriminate. }
    { rewrite EX. intros e []. } }
  apply (again_before v T keq passes passes' b cb n co conserve b2 b' cb' n' co'); try assumption.
  - exact (legal_moved _ v T b2 b' I2 L2).
  - rewrite I2. now apply cacheless_moved.
  - eauto.
  - now rewrite S2.
Qed.
Print Assumptions C76_rewriting_before_311_partial.

(** C76 for Bytecode.to_code() and Bytecode.from_code(), whatever the options. *)
Theorem C76_to_code_before_311_partial : forall v T se se' keq passes passes' stacksize stacksize' check check' depths depths' b co conserve b' co',
  wf_optable v T = true -> PY311 v = false -> sound_key keq -> (forall x, keq x x = true) ->
  writable v T b -> targets_inside b -> no_handlers b -> lines_given v b -> 1 <= m_first_lineno (b_meta b) ->
  usual_docstring (b_meta b) -> zlen (b_argnames b) = nargs_of (b_meta b) ->
  bytecode_to_code v T se keq passes stacksize check depths b = Ok co ->
  plainly_written v T (co_varnames co) b ->
  bytecode_from_code v T true conserve co = Ok b' ->
  bytecode_to_code v T se' keq passes' stacksize' check' depths' b' = Ok co' ->
  alike co' co /\ (co_stacksize co' = co_stacksize co -> co' = co).
Proof.
  intros v T se se' keq passes passes' st st' check check' depths depths' b co conserve b' co' wf P11 HK RF W TI NH LG FP UD AN E PW B' E'.
  destruct (to_code_split _ _ _ _ _ _ _ _ _ _ E) as (bx & cb & n & E1 & E2 & D).
  assert (RW : rewritten v T b bx) by (destruct D as [[_ D]|(-> & _)]; [eapply through_writable; eauto|now apply rewritten_refl]).
  destruct RW as (W' & SO & ME & AR & PN).
  assert (VN : co_varnames co = cb_varnames cb).
  { clear - E2. unfold to_code_raw in E2. destruct (assemble_code v T cb) as [code ln]. inv_ok. auto. }
  assert (P13 : PY313 v = false) by (clear - P11; destruct v; vm_compute in P11 |- *; congruence).
  assert (HE : forall l k, used_label l (b_items bx) -> position (b_items bx) l = Some k -> (k < ninstrs (b_items bx))%nat).
  { apply inside_used; [apply W'|]. unfold targets_inside. rewrite SO. exact TI. }
  assert (PW' : plainly_written v T (cb_varnames cb) bx).
  { rewrite <- VN. eapply plainly_source; [apply W|apply W'|exact SO|exact PW]. }
  pose proof (writable_blocks _ _ _ W') as TB. destruct W' as [L M C P BR LO].
  assert (AN' : zlen (b_argnames bx) = nargs_of (b_meta bx)) by now rewrite AR, ME.
  assert (LG' : lines_given v bx) by (unfold lines_given; rewrite SO; exact LG).
  assert (NH' : no_handlers bx) by (unfold no_handlers; rewrite SO; exact NH).
  assert (UD' : usual_docstring (b_meta bx)) by now rewrite ME.
  assert (FP' : 1 <= m_first_lineno (b_meta bx)) by now rewrite ME.
  destruct (reread_before v T keq (passes_of passes) bx cb n co conserve b' wf P11 L M HK C TB NH' HE E1 LG' FP' UD' E2 B') as (b2 & Q & EX & I2 & M2 & A2 & S2).
  destruct (to_concrete_assembled v T keq wf (passes_of passes) bx cb E1) as (vn & K0 & gs0 & Kf & gs & en & A).
  assert (HP' : forall i x, In (BI i) (b_items bx) -> is_dual v T (i_op i) = true -> In x (locals_of (i_arg i)) -> In x (firstn 16 (cb_varnames cb))).
  { intros i x _ D1. rewrite (no_dual_before v T _ P11) in D1. discriminate. }
  assert (FX : P_Decode.frees_apart v cb) by (intros Q1; rewrite P13 in Q1; discriminate Q1).
  assert (HS : forall e, In e (cb_ex cb) -> exists k, (k < length (instrs_of (cb_items cb)))%nat /\ e_start e = offset_of v (instrs_of (cb_items cb)) k) by (rewrite EX; intros e []).
  destruct (assembled_shown_proper v T keq wf _ _ _ _ _ _ _ _ A L M HK C TB FX HP' HE HS conserve b2 Q) as (C2 & P2 & _).
  pose proof (legal_moved _ v T b2 b' I2 (disassembled_legal v T cb true conserve b2 wf Q)) as L'.
  assert (C' : no_cache (b_items b')) by (rewrite I2; now apply cacheless_moved).
  assert (P' : S_Cfg.proper T (b_items b')) by (rewrite I2; now apply proper_moved).
  destruct (moved_split v T se' keq passes' st' check' depths' b' co' L' C' P' E') as (by_ & cb' & n' & F1 & F2 & (ML & MC & MS & MM & MA) & SZ').
  assert (SZ : co_stacksize co = n) by exact (proj1 (proj2 (raw_alike v T cb cb n n co co eq_refl eq_refl eq_refl eq_refl eq_refl E2 E2))).
  rewrite SZ, SZ'.
  apply (again_before v T keq (passes_of passes) (passes_of passes') bx cb n co conserve b2 by_ cb' n' co'); try assumption.
  - exists (m_qualname meta0). congruence.
  - congruence.
  - rewrite (said_bare _ _ MS). now rewrite S2.
Qed.
Print Assumptions C76_to_code_before_311_partial.

(** Its hypotheses are met, on 3.8 to 3.10, by the loop of C75, a function with a docstring. *)
Definition ex76_before : bytecode := mkB (mkMeta 1 0 0 7 "f" "C.f" "f.py" (OStr "doc") [] [] 3) ["x"]
  (map (fun it => match it with BI (mkInstr n op ONone l) => BI (mkInstr n op (OStr "doc") l) | _ => it end) (b_items ex_before)).
Definition ex76_ok (v : pyver) : Prop := writable v TPre ex76_before /\ targets_inside ex76_before
  /\ no_handlers ex76_before /\ lines_given v ex76_before /\ usual_docstring (b_meta ex76_before) /\ zlen (b_argnames ex76_before) = nargs_of (b_meta ex76_before)
  /\ exists co b', bytecode_to_code v TPre (fun _ _ _ => Some 0) keq0 None None true true ex76_before = Ok co
     /\ plainly_written v TPre (co_varnames co) ex76_before
     /\ bytecode_from_code v TPre true false co = Ok b' /\ b_items b' <> b_items ex76_before
     /\ bytecode_to_code v TPre (fun _ _ _ => Some 0) keq0 None None true true b' = Ok co.
Ltac ex76_tac v :=
  split; [apply check_writable_ok; [now vm_compute|]; vm_compute; reflexivity|];
  split; [apply check_inside_ok; vm_compute; reflexivity|];
  split; [apply (check_lines_ok v); vm_compute; reflexivity|]; split; [apply check_lines_ok; vm_compute; reflexivity|];
  split; [exact Logic.I|]; split; [vm_compute; reflexivity|];
  do 2 eexists; split; [vm_compute; reflexivity|]; split; [apply check_written_ok; vm_compute; reflexivity|];
  split; [vm_compute; reflexivity|]; split; [vm_compute; discriminate|vm_compute; reflexivity].
Example C76_before_311_ex38 : ex76_ok V38. Proof. ex76_tac V38. Qed.
Example C76_before_311_ex39 : ex76_ok V39. Proof. ex76_tac V39. Qed.
Example C76_before_311_ex310 : ex76_ok V310. Proof. ex76_tac V310. Qed.
