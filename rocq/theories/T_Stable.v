(** Property theorems: rewriting a code object that this library wrote changes nothing (C76). *)
From Verif Require Import PyBase OpTable CPy CPyEffect Table311 TablesEx P_Base P_OpTable M_Instr M_Tables M_Concrete S_Args S_Lines S_Dis S_Asm S_Prog S_Slots S_Ident S_Code S_Written M_Convert M_Bytecode M_Full
  P_Except P_LinesCode P_Conv P_Conv2 P_Layout P_AsmProps P_Ident P_Ident3 P_Code P_Code2 P_From P_Written P_Written2 P_Proper P_CfgTo2 P_CfgSeq P_CfgFrom4 P_Only2 P_Moved P_Again T_Except T_Lines T_Asm T_Args T_Ident T_Meta T_Code T_Full T_Only T_Again T_Written T_Rewrite.
From Verif Require Import M_Cfg M_Stack S_Cfg P_Full.
Open Scope string_scope.
Open Scope list_scope.
Open Scope Z_scope.

(** The docstring is not set, a string or None. *)
Definition usual_docstring (m : meta) : Prop :=
  match m_docstring m with OUnset | OStr _ | ONone => True | _ => False end.
(** Different locations in force are recorded differently.  (A location with a line only, and one
    with a line and the same end line, are recorded alike.) *)
Definition recorded_apart (b : bytecode) : Prop := forall n a l h n' a' l' h',
  In (n, a, l, h) (source b) -> In (n', a', l', h') (source b) -> kept_loc l = kept_loc l' -> l = l'.

Lemma kept_bare l : map bare (map kept_in_code l) = map kept_in_code (map bare l).
Proof. rewrite !map_map. apply map_ext. intros [[[n a] lo] h]. reflexivity. Qed.

(** *** lists with moved locations *)
Lemma in_moved f items i : In (BI i) (map (P_Written2.moved f) items) ->
  exists j, In (BI j) items /\ i_name i = i_name j /\ i_op i = i_op j /\ i_arg i = i_arg j.
Proof. intros I. apply in_map_iff in I. destruct I as ([j| | | |] & E & I); try discriminate E. injection E as <-. exists j. auto. Qed.
Lemma legal_moved f v T b b' : b_items b' = map (P_Written2.moved f) (b_items b) -> all_legal v T b -> all_legal v T b'.
Proof. intros E L i I. rewrite E in I. destruct (in_moved _ _ _ I) as (j & J & E1 & E2 & E3). unfold legal_instr. rewrite E1, E2, E3. now apply L. Qed.
Lemma cacheless_moved f items : no_cache items -> no_cache (map (P_Written2.moved f) items).
Proof. intros L i I. destruct (in_moved _ _ _ I) as (j & J & E1 & _). rewrite E1. now apply L. Qed.
Lemma paired_moved f items : forall op ids, paired op ids (map (P_Written2.moved f) items) = paired op ids items.
Proof. induction items as [|x r IH]; intros op ids; [reflexivity|]. destruct x; cbn; now rewrite ?IH. Qed.
Lemma proper_moved f T items : S_Cfg.proper T items -> S_Cfg.proper T (map (P_Written2.moved f) items).
Proof.
  intros [P1 P2 P3]. constructor; [now rewrite paired_moved| |].
  - intros it I. apply in_map_iff in I. destruct I as (x & <- & I). specialize (P2 x I). destruct x; exact P2.
  - intros it n I J. apply in_map_iff in I. destruct I as (x & <- & I). assert (K : In (BLabel n) items) by (apply (P3 x); [exact I|destruct x; exact J]).
    change (BLabel n) with (P_Written2.moved f (BLabel n)). now apply in_map.
Qed.

Lemma raw_docless v T ca cb n m x y : but_docstring (cb_meta ca) = but_docstring (cb_meta cb) -> cb_items ca = cb_items cb -> cb_consts ca = cb_consts cb ->
  cb_names ca = cb_names cb -> cb_varnames ca = cb_varnames cb ->
  to_code_raw v T ca n = Ok x -> to_code_raw v T cb m = Ok y -> alike x y.
Proof.
  intros E1 E2 E3 E4 E5 A B.
  set (ca' := mkCB (cb_meta cb) (cb_items ca) (cb_consts ca) (cb_names ca) (cb_varnames ca) (cb_ex ca)).
  assert (A' : to_code_raw v T ca' n = Ok x).
  { rewrite <- A. unfold to_code_raw, assemble_code, ca'. cbn [cb_meta cb_items cb_consts cb_names cb_varnames cb_ex].
    unfold but_docstring in E1. destruct (cb_meta ca), (cb_meta cb). cbn in *. injection E1 as -> -> -> -> -> -> -> -> -> ->. reflexivity. }
  exact (proj1 (raw_alike v T ca' cb n m x y eq_refl E2 E3 E4 E5 A' B)).
Qed.

(** The code object shows what the concrete bytecode shows, with the locations that are recorded. *)
Lemma reread : forall v T keq passes b cb n co conserve b',
  wf_optable v T = true -> PY311 v = true -> all_legal v T b -> all_members v b -> sound_key keq ->
  no_cache (b_items b) -> try_blocks (b_items b) ->
  (forall l k, used_label l (b_items b) -> position (b_items b) l = Some k -> (k < ninstrs (b_items b))%nat) ->
  to_concrete v T keq passes b = Ok cb ->
  free_not_local v cb ->
  (forall i n, In (BI i) (b_items b) -> is_dual v T (i_op i) = true -> In n (locals_of (i_arg i)) ->
     In n (firstn 16 (cb_varnames cb))) ->
  (forall e, In e (cb_ex cb) -> exists k, (k < length (instrs_of (cb_items cb)))%nat
     /\ e_start e = offset_of v (instrs_of (cb_items cb)) k) ->
  locations_kept v b ->
  usual_docstring (b_meta b) ->
  to_code_raw v T cb n = Ok co ->
  bytecode_from_code v T true conserve co = Ok b' ->
  exists b2, to_bytecode v T cb true conserve = Ok b2 /\ b_items b' = map (P_Written2.moved kept_loc) (b_items b2)
  /\ b_meta b' = b_meta b2 /\ b_argnames b' = b_argnames b2 /\ source b' = map kept_in_code (source b2).
Proof.
  intros v T keq passes b cb n co conserve b' wf P11 HL HM HK NC TB HE H FN HP HS LO UD TO B'.
  destruct (written_moved v T keq passes b cb n co conserve wf P11 HL HM HK NC TB HE H FN HP HS LO TO)
    as (b2 & cb1 & b1 & E2 & F2 & F1 & E1 & I1 & LC & C1 & V1 & X5 & M1 & M2).
  destruct (assembled_consts v T keq passes b cb wf H) as (CM & CD & _).
  unfold bytecode_from_code in B'. rewrite F1 in B'. cbn [bind] in B'. rewrite E1 in B'. injection B' as ->.
  exists b2. split; [exact E2|]. split; [exact I1|].
  destruct (to_bytecode_meta v T cb true conserve b2 E2) as [BM2 BA2]. destruct (to_bytecode_meta v T cb1 true conserve b' E1) as [BM1 BA1].
  assert (ME : b_meta b' = b_meta b2).
  { rewrite BM1, BM2, X5, C1. cbn.
    assert (DS : set_docstring (set_docstring OUnset (cb_consts cb)) (cb_consts cb) = set_docstring (m_docstring (cb_meta cb)) (cb_consts cb)).
    { rewrite CM. unfold usual_docstring in UD. clear - UD CD. destruct (m_docstring (b_meta b)) eqn:D; try contradiction;
        destruct (cb_consts cb) as [|k ks]; cbn in *; try (specialize (CD ltac:(discriminate)); discriminate CD); try reflexivity;
        try (specialize (CD ltac:(discriminate)); injection CD as ->; reflexivity). destruct k; reflexivity. }
    now rewrite DS. }
  split; [exact ME|]. split; [rewrite BA1, BA2, X5, V1; reflexivity|].
  unfold source. rewrite I1, ME. rewrite (program_moved kept_loc _ LC (line_loc (Some (m_first_lineno (b_meta b2))))). reflexivity.
Qed.

(** A Bytecode that says what was read back is written as the same code object. *)
Lemma again_moved : forall v T keq passes passes' b cb n co conserve b2 bx cb' n' co',
  wf_optable v T = true -> PY311 v = true -> all_legal v T b -> all_members v b -> sound_key keq -> (forall x, keq x x = true) ->
  no_cache (b_items b) -> try_blocks (b_items b) ->
  (forall l k, used_label l (b_items b) -> position (b_items b) l = Some k -> (k < ninstrs (b_items b))%nat) ->
  to_concrete v T keq passes b = Ok cb ->
  free_not_local v cb ->
  (forall i n, In (BI i) (b_items b) -> is_dual v T (i_op i) = true -> In n (locals_of (i_arg i)) ->
     In n (firstn 16 (cb_varnames cb))) ->
  (forall e, In e (cb_ex cb) -> exists k, (k < length (instrs_of (cb_items cb)))%nat
     /\ e_start e = offset_of v (instrs_of (cb_items cb)) k) ->
  locations_kept v b ->
  plainly_written v T (cb_varnames cb) b ->
  zlen (b_argnames b) = nargs_of (b_meta b) ->
  recorded_apart b ->
  to_code_raw v T cb n = Ok co ->
  to_bytecode v T cb true conserve = Ok b2 ->
  all_legal v T bx -> no_cache (b_items bx) -> b_meta bx = b_meta b2 -> b_argnames bx = b_argnames b2 ->
  map bare (source bx) = map bare (map kept_in_code (source b2)) ->
  to_concrete v T keq passes' bx = Ok cb' -> to_code_raw v T cb' n' = Ok co' ->
  alike co' co.
Proof.
  intros v T keq passes passes' b cb n co conserve b2 bx cb' n' co' wf P11 HL HM HK RF NC TB HE H FN HP HS LO PW AN RA TO E1 LX CX MX AX SX E2 TO'.
  destruct (again_setup v T keq passes b cb conserve b2 wf HL HM HK RF NC TB HE H FN HP HS PW AN E1)
    as (SO & LB & NC' & AR & CM & d & cbs & BM & ES & X1 & X2 & X3 & X4 & X5 & _).
  set (bd := mkB (with_doc (b_meta b) d) (b_argnames b) (b_items b)) in *.
  pose proof (to_concrete_own kept_loc v T keq passes bd cbs ES) as EO.
  destruct (to_concrete_only v T keq passes' passes bx (own_b kept_loc bd) cb' (mkCB (cb_meta cbs) (map (mv_item kept_loc) (cb_items cbs)) (cb_consts cbs) (cb_names cbs) (cb_varnames cbs) (cb_ex cbs)) LX (legal_own kept_loc v T bd HL) CX (cacheless_own kept_loc bd NC)
    (eq_trans MX BM) (eq_trans AX AR)) as (R1 & R2 & R3 & R4 & R5); [|exact E2|exact EO|].
  { rewrite SX, source_own, SO. reflexivity. }
  cbn [cb_meta cb_items cb_consts cb_names cb_varnames] in R1, R2, R3, R4, R5. rewrite X1 in R2. rewrite X2 in R3. rewrite X3 in R4. rewrite X4 in R5. rewrite X5 in R1.
  set (cbd := mkCB (with_doc (b_meta b) d) (cb_items cb) (cb_consts cb) (cb_names cb) (cb_varnames cb) (cb_ex cb)).
  assert (TD : to_code_raw v T cbd n = Ok co).
  { rewrite <- TO. unfold to_code_raw, assemble_code, cbd. cbn [cb_meta cb_items cb_consts cb_names cb_varnames cb_ex]. now rewrite CM. }
  destruct (to_concrete_assembled v T keq wf passes b cb H) as (vn & K0 & gs0 & Kf & gs & en & A).
  pose proof (groups' v T keq wf _ _ _ _ _ _ _ _ A HL HM HK NC HP) as GS.
  pose proof (cb_code v T keq _ _ _ _ _ _ _ _ A) as CC.
  pose proof (from_source v T keq wf _ _ _ _ _ _ _ _ A HL GS) as FS.
  assert (IN : forall c, In (CI c) (cb_items cb) -> exists x1 x2 l x4, c_loc c = Some l /\ In (x1, x2, l, x4) (source b)).
  { intros c I. rewrite CC in I. apply in_map_iff in I. destruct I as (c' & E & I). injection E as ->. exact (FS c I). }
  apply (raw_moved v T cb' cbd n' n co' co P11); cbn [cbd cb_meta cb_items cb_consts cb_names cb_varnames]; try assumption.
  - intros c I. destruct (IN c I) as (x1 & x2 & l & x4 & E & J). exists l. split; [exact E|]. exact (proj1 (LO _ _ _ _ J)).
  - intros c c' l k I I' E E' K. destruct (IN c I) as (x1 & x2 & l0 & x4 & F & J). destruct (IN c' I') as (y1 & y2 & k0 & y4 & F' & J').
    rewrite E in F. injection F as <-. rewrite E' in F'. injection F' as <-. exact (RA _ _ _ _ _ _ _ _ J J' K).
Qed.

(** C76.  The code object written from a Bytecode, disassembled and written again, is the same but
    at most for the stack size (a parameter of ConcreteBytecode.to_code()) and for the division of
    the exception table into entries (which protects the same instructions: C75, C49). *)
Theorem C76_rewriting_is_stable_partial : forall v T keq passes passes' b cb n co conserve b' cb' n' co',
  wf_optable v T = true -> PY311 v = true -> all_legal v T b -> all_members v b -> sound_key keq -> (forall x, keq x x = true) ->
  no_cache (b_items b) -> try_blocks (b_items b) ->
  (forall l k, used_label l (b_items b) -> position (b_items b) l = Some k -> (k < ninstrs (b_items b))%nat) ->
  to_concrete v T keq passes b = Ok cb ->
  free_not_local v cb ->
  (forall i n, In (BI i) (b_items b) -> is_dual v T (i_op i) = true -> In n (locals_of (i_arg i)) ->
     In n (firstn 16 (cb_varnames cb))) ->
  (forall e, In e (cb_ex cb) -> exists k, (k < length (instrs_of (cb_items cb)))%nat
     /\ e_start e = offset_of v (instrs_of (cb_items cb)) k) ->
  locations_kept v b ->
  plainly_written v T (cb_varnames cb) b ->
  zlen (b_argnames b) = nargs_of (b_meta b) ->
  usual_docstring (b_meta b) -> recorded_apart b ->
  to_code_raw v T cb n = Ok co ->
  bytecode_from_code v T true conserve co = Ok b' ->
  to_concrete v T keq passes' b' = Ok cb' -> to_code_raw v T cb' n' = Ok co' ->
  alike co' co.
Proof.
  intros v T keq passes passes' b cb n co conserve b' cb' n' co' wf P11 HL HM HK RF NC TB HE H FN HP HS LO PW AN UD FR TO B' H' TO'.
  destruct (reread v T keq passes b cb n co conserve b' wf P11 HL HM HK NC TB HE H FN HP HS LO UD TO B') as (b2 & E2 & I2 & M2 & A2 & S2).
  pose proof (disassembled_legal v T cb true conserve b2 wf E2) as L2.
  pose proof (disassembled_no_cache v T keq passes b cb conserve b2 wf HL HM HK NC TB HE H FN HP HS E2) as C2.
  apply (again_moved v T keq passes passes' b cb n co conserve b2 b' cb' n' co'); try assumption.
  - exact (legal_moved _ v T b2 b' I2 L2).
  - rewrite I2. now apply cacheless_moved.
  - now rewrite S2.
Qed.
Print Assumptions C76_rewriting_is_stable_partial.

Lemma instr_source l pos : forall cur op i, In (BI i) l -> exists lo h, In (i_name i, arg_of pos (i_arg i), lo, h) (located cur (walk pos op l)).
Proof.
  induction l as [|x r IH]; intros cur op i I; [destruct I|]. destruct I as [->|I].
  - cbn [walk located]. cbv zeta. do 2 eexists. left. reflexivity.
  - destruct x; cbn [walk located]; cbv zeta; try (eapply IH; eauto; fail).
    match goal with |- context [located ?c (walk ?p ?o r)] => destruct (IH c o i I) as (lo & h & J) end. exists lo, h. now right.
Qed.
Lemma source_instr l pos n a lo h : forall cur op, In (n, a, lo, h) (located cur (walk pos op l)) ->
  exists i, In (BI i) l /\ i_name i = n /\ arg_of pos (i_arg i) = a.
Proof.
  induction l as [|x r IH]; intros cur op I; cbn [walk located] in I; [destruct I|]. cbv zeta in I.
  destruct x; try (destruct (IH _ _ I) as (j & J & K); exists j; split; [now right|exact K]).
  destruct I as [I|I]; [|destruct (IH _ _ I) as (j & J & K); exists j; split; [now right|exact K]].
  injection I as <- <- _ _. eexists. split; [left; reflexivity|auto].
Qed.
Lemma plainly_source v T vs b b' : all_legal v T b -> all_legal v T b' -> source b' = source b -> plainly_written v T vs b -> plainly_written v T vs b'.
Proof.
  intros L L' SO PW i I.
  destruct (instr_source (b_items b') (position (b_items b')) (line_loc (Some (m_first_lineno (b_meta b')))) None i I) as (lo & h & J).
  change (In (i_name i, arg_of (position (b_items b')) (i_arg i), lo, h) (source b')) in J. rewrite SO in J. unfold source in J.
  destruct (source_instr _ _ _ _ _ _ _ _ J) as (j & J1 & J2 & J3).
  assert (O : i_op i = i_op j). { destruct (L' i I) as (O1 & _), (L j J1) as (O2 & _). rewrite J2 in O2. congruence. }
  destruct (PW j J1) as [P1 P2].
  destruct (i_arg i) eqn:EA; try (assert (X : i_arg j = i_arg i) by (rewrite EA; destruct (i_arg j); cbn in J3; congruence); rewrite <- EA, <- X, O; auto; fail).
  rewrite O. split.
  - intros P. exfalso. destruct (P1 P) as [X|(a & X)]; rewrite X in J3; discriminate.
  - intros _ x _ Q. inversion Q.
Qed.

(** C76 for Bytecode.to_code() and Bytecode.from_code(), whatever the options. *)
Theorem C76_to_code_again_partial : forall v T se se' keq passes passes' stacksize stacksize' check check' depths depths' b co conserve b' co',
  wf_optable v T = true -> PY311 v = true -> sound_key keq -> (forall x, keq x x = true) ->
  writable v T b -> targets_inside b -> locations_kept v b -> recorded_apart b ->
  usual_docstring (b_meta b) -> zlen (b_argnames b) = nargs_of (b_meta b) ->
  bytecode_to_code v T se keq passes stacksize check depths b = Ok co ->
  pairs_near v T b (co_varnames co) -> free_apart v co -> entries_begin v T co -> plainly_written v T (co_varnames co) b ->
  bytecode_from_code v T true conserve co = Ok b' ->
  bytecode_to_code v T se' keq passes' stacksize' check' depths' b' = Ok co' ->
  alike co' co.
Proof.
  intros v T se se' keq passes passes' st st' check check' depths depths' b co conserve b' co' wf P11 HK RF W TI LK FR UD AN E HP FA EB PW B' E'.
  destruct (to_code_split _ _ _ _ _ _ _ _ _ _ E) as (bx & cb & n & E1 & E2 & D).
  assert (RW : rewritten v T b bx) by (destruct D as [[_ D]|(-> & _)]; [eapply through_writable; eauto|now apply rewritten_refl]).
  destruct RW as (W' & SO & ME & AR & PN).
  assert (FI : co_varnames co = cb_varnames cb /\ co_freevars co = m_freevars (cb_meta cb)).
  { clear - E2. unfold to_code_raw in E2. destruct (assemble_code v T cb) as [code ln]. inv_ok. auto. }
  destruct FI as (VN & FV). pose proof (PN _ HP) as HP'. rewrite VN in HP'.
  pose proof (entries_starts v T keq (passes_of passes) bx cb n co wf P11 HK W' E1 HP' E2 EB) as HS.
  assert (FN : free_not_local v cb) by (unfold free_not_local; rewrite <- VN, <- FV; exact FA).
  assert (HE : forall l k, used_label l (b_items bx) -> position (b_items bx) l = Some k -> (k < ninstrs (b_items bx))%nat).
  { apply inside_used; [apply W'|]. unfold targets_inside. rewrite SO. exact TI. }
  assert (PW' : plainly_written v T (cb_varnames cb) bx).
  { rewrite <- VN. eapply plainly_source; [apply W|apply W'|exact SO|exact PW]. }
  pose proof (writable_blocks _ _ _ W') as TB. destruct W' as [L M C P BR LO].
  assert (AN' : zlen (b_argnames bx) = nargs_of (b_meta bx)) by now rewrite AR, ME.
  assert (LK' : locations_kept v bx) by (unfold locations_kept; rewrite SO; exact LK).
  assert (UD' : usual_docstring (b_meta bx)) by now rewrite ME.
  assert (RA : recorded_apart bx) by (unfold recorded_apart; rewrite SO; exact FR).
  destruct (reread v T keq (passes_of passes) bx cb n co conserve b' wf P11 L M HK C TB HE E1 FN HP' HS LK' UD' E2 B') as (b2 & Q & I2 & M2 & A2 & S2).
  destruct (to_concrete_assembled v T keq wf (passes_of passes) bx cb E1) as (vn & K0 & gs0 & Kf & gs & en & A).
  assert (FX : P_Decode.frees_apart v cb) by exact FN.
  destruct (assembled_shown_proper v T keq wf _ _ _ _ _ _ _ _ A L M HK C TB FX HP' HE HS conserve b2 Q) as (C2 & P2 & _).
  pose proof (legal_moved _ v T b2 b' I2 (disassembled_legal v T cb true conserve b2 wf Q)) as L'.
  assert (C' : no_cache (b_items b')) by (rewrite I2; now apply cacheless_moved).
  assert (P' : S_Cfg.proper T (b_items b')) by (rewrite I2; now apply proper_moved).
  destruct (moved_split v T se' keq passes' st' check' depths' b' co' L' C' P' E') as (by_ & cb' & n' & F1 & F2 & (ML & MC & MS & MM & MA) & _).
  apply (again_moved v T keq (passes_of passes) (passes_of passes') bx cb n co conserve b2 by_ cb' n' co'); try assumption.
  - congruence.
  - congruence.
  - rewrite (said_bare _ _ MS). now rewrite S2.
Qed.
Print Assumptions C76_to_code_again_partial.

(** The program of C70, with a location for every instruction *)
Definition check_recorded (b : bytecode) : bool :=
  forallb (fun x => forallb (fun y => implb (M_Tables.loc_eqb (kept_loc (snd (fst x))) (kept_loc (snd (fst y)))) (M_Tables.loc_eqb (snd (fst x)) (snd (fst y)))) (source b)) (source b).
Lemma check_recorded_ok b : check_recorded b = true -> recorded_apart b.
Proof.
  unfold check_recorded. rewrite forallb_forall. intros H n a l h n' a' l' h' I J K. specialize (H _ I). rewrite forallb_forall in H. specialize (H _ J).
  cbn [fst snd] in H. rewrite K in H. assert (X : M_Tables.loc_eqb (kept_loc l') (kept_loc l') = true) by now apply loc_eqb_eq. rewrite X in H. now apply loc_eqb_eq.
Qed.
Fixpoint lines_on (k : Z) (items : list bitem) : list bitem :=
  match items with
  | [] => []
  | BI i :: r => BI (mkInstr (i_name i) (i_op i) (i_arg i)
      (Some (if Z.even k then mkLoc (Some k) (Some (k + 1)) (Some 2) (Some 200) else mkLoc (Some (2 * k)) None None None))) :: lines_on (k + 1) r
  | x :: r => x :: lines_on k r
  end.
Definition ex76 : bytecode := mkB (b_meta ex70) (b_argnames ex70) (lines_on 7 (b_items ex70)).
Example C76_ex : writable V311 T311 ex76 /\ targets_inside ex76 /\ locations_kept V311 ex76 /\ recorded_apart ex76
  /\ usual_docstring (b_meta ex76) /\ zlen (b_argnames ex76) = nargs_of (b_meta ex76)
  /\ exists co b', bytecode_to_code V311 T311 dis_effect311 keq0 None None true true ex76 = Ok co
     /\ pairs_near V311 T311 ex76 (co_varnames co) /\ free_apart V311 co /\ entries_begin V311 T311 co
     /\ plainly_written V311 T311 (co_varnames co) ex76
     /\ bytecode_from_code V311 T311 true false co = Ok b' /\ b_items b' <> b_items ex76
     /\ bytecode_to_code V311 T311 dis_effect311 keq0 None None true true b' = Ok co.
Proof.
  split; [apply check_writable_ok; [exact T311_wf|]; vm_compute; reflexivity|].
  split; [apply check_inside_ok; vm_compute; reflexivity|]. split; [apply check_kept_ok; vm_compute; reflexivity|].
  split; [apply check_recorded_ok; vm_compute; reflexivity|]. split; [exact Logic.I|]. split; [vm_compute; reflexivity|].
  match goal with |- exists co b', ?r = _ /\ _ => let x := eval vm_compute in r in match x with Ok ?c => exists c end end.
  match goal with |- exists b', _ /\ _ /\ _ /\ _ /\ _ /\ ?r = _ /\ _ => let x := eval vm_compute in r in match x with Ok ?c => exists c end end.
  split; [vm_compute; reflexivity|]. split; [intros i n _ D; exfalso; unfold is_dual in D; discriminate D|].
  split; [discriminate|]. split; [apply check_begin_ok; vm_compute; reflexivity|].
  split; [apply check_written_ok; vm_compute; reflexivity|]. split; [vm_compute; reflexivity|].
  split; [vm_compute; discriminate|vm_compute; reflexivity].
Qed.

(** The conditions are needed.  Two instructions one after the other, the first with a line, the
    second with the same line and the same end line: two entries in the location table, then one. *)
Definition ex_alike : bytecode := mkB meta0 []
  [BI (mkInstr "NOP" 9 OUnset (Some (mkLoc (Some 3) None None None)));
   BI (mkInstr "NOP" 9 OUnset (Some (mkLoc (Some 3) (Some 3) None None)));
   ins "LOAD_CONST" (OInt 7); ins "RETURN_VALUE" OUnset].
Theorem C76_recorded_alike_refuted : ~ forall b co b' co', writable V311 T311 b -> targets_inside b -> locations_kept V311 b ->
  usual_docstring (b_meta b) -> zlen (b_argnames b) = nargs_of (b_meta b) ->
  bytecode_to_code V311 T311 dis_effect311 keq0 None None true true b = Ok co ->
  free_apart V311 co -> entries_begin V311 T311 co -> plainly_written V311 T311 (co_varnames co) b ->
  bytecode_from_code V311 T311 true false co = Ok b' ->
  bytecode_to_code V311 T311 dis_effect311 keq0 None None true true b' = Ok co' ->
  alike co' co.
Proof.
  intros H.
  assert (W : writable V311 T311 ex_alike) by (apply check_writable_ok; [exact T311_wf|]; vm_compute; reflexivity).
  assert (TI : targets_inside ex_alike) by (apply check_inside_ok; vm_compute; reflexivity).
  assert (LK : locations_kept V311 ex_alike) by (apply check_kept_ok; vm_compute; reflexivity).
  specialize (H ex_alike).
  destruct (bytecode_to_code V311 T311 dis_effect311 keq0 None None true true ex_alike) as [co|] eqn:E; [|vm_compute in E; discriminate E].
  vm_compute in E. injection E as <-.
  match type of H with forall co b' co', _ -> _ -> _ -> _ -> _ -> Ok ?c = _ -> _ => specialize (H c) end.
  match type of H with context [bytecode_from_code V311 T311 true false ?c] => let x := eval vm_compute in (bytecode_from_code V311 T311 true false c) in
    match x with Ok ?b => specialize (H b) end end.
  match type of H with context [bytecode_to_code V311 T311 dis_effect311 keq0 None None true true ?b = _] =>
    let x := eval vm_compute in (bytecode_to_code V311 T311 dis_effect311 keq0 None None true true b) in match x with Ok ?c => specialize (H c) end end.
  match type of H with context [alike ?x ?y] => assert (X : alike x y) end.
  { apply H; clear H; try assumption; try exact Logic.I; try reflexivity.
    - discriminate.
    - apply check_begin_ok; vm_compute; reflexivity.
    - apply check_written_ok; vm_compute; reflexivity. }
  destruct X as [_ _ _ _ _ _ _ [_ X]]. discriminate X.
Qed.
Print Assumptions C76_recorded_alike_refuted.

(** A docstring that is a number is the first constant of the code object, but no docstring when read back. *)
Definition ex_number : bytecode := mkB (with_doc meta0 (OInt 5)) []
  [BI (mkInstr "LOAD_CONST" 100 (OInt 7) (Some (mkLoc (Some 3) (Some 3) None None))); BI (mkInstr "RETURN_VALUE" 83 OUnset (Some (mkLoc (Some 4) (Some 4) None None)))].
Theorem C76_docstring_refuted : ~ forall b co b' co', writable V311 T311 b -> targets_inside b -> locations_kept V311 b -> recorded_apart b ->
  zlen (b_argnames b) = nargs_of (b_meta b) ->
  bytecode_to_code V311 T311 dis_effect311 keq0 None None true true b = Ok co ->
  free_apart V311 co -> entries_begin V311 T311 co -> plainly_written V311 T311 (co_varnames co) b ->
  bytecode_from_code V311 T311 true false co = Ok b' ->
  bytecode_to_code V311 T311 dis_effect311 keq0 None None true true b' = Ok co' ->
  alike co' co.
Proof.
  intros H.
  assert (W : writable V311 T311 ex_number) by (apply check_writable_ok; [exact T311_wf|]; vm_compute; reflexivity).
  assert (TI : targets_inside ex_number) by (apply check_inside_ok; vm_compute; reflexivity).
  assert (LK : locations_kept V311 ex_number) by (apply check_kept_ok; vm_compute; reflexivity).
  assert (RA : recorded_apart ex_number) by (apply check_recorded_ok; vm_compute; reflexivity).
  specialize (H ex_number).
  destruct (bytecode_to_code V311 T311 dis_effect311 keq0 None None true true ex_number) as [co|] eqn:E; [|vm_compute in E; discriminate E].
  vm_compute in E. injection E as <-.
  match type of H with forall co b' co', _ -> _ -> _ -> _ -> _ -> Ok ?c = _ -> _ => specialize (H c) end.
  match type of H with context [bytecode_from_code V311 T311 true false ?c] => let x := eval vm_compute in (bytecode_from_code V311 T311 true false c) in
    match x with Ok ?b => specialize (H b) end end.
  match type of H with context [bytecode_to_code V311 T311 dis_effect311 keq0 None None true true ?b = _] =>
    let x := eval vm_compute in (bytecode_to_code V311 T311 dis_effect311 keq0 None None true true b) in match x with Ok ?c => specialize (H c) end end.
  match type of H with context [alike ?x ?y] => assert (X : alike x y) end.
  { apply H; clear H; try assumption; try exact Logic.I; try reflexivity.
    - discriminate.
    - apply check_begin_ok; vm_compute; reflexivity.
    - apply check_written_ok; vm_compute; reflexivity. }
  destruct X as [_ _ _ X _ _ _ _]. discriminate X.
Qed.
Print Assumptions C76_docstring_refuted.
