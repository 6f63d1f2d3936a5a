(** Property theorems: C74 and C75 before 3.11, where code keeps of a location the line only. *)
From Verif Require Import PyBase OpTable CPy CPyEffect TablesEx P_Base P_OpTable M_Instr M_Tables M_Concrete S_Args S_Lines S_Dis S_Asm S_Prog S_Slots S_Ident S_Code S_Old S_Written M_Convert M_Bytecode M_Cfg M_Stack M_Full
  P_Except P_LinesCode P_Conv P_Conv2 P_Layout P_AsmProps P_Ident P_Ident2 P_Ident3 P_Code P_Code2 P_From P_Old3 P_Written P_Written2 P_Written3 P_CfgTo2 P_CfgSeq T_Except T_Lines T_Asm T_Args T_Ident T_Meta T_Code T_Full T_Only T_Again T_Written T_Rewrite.
Open Scope string_scope.
Open Scope list_scope.
Open Scope Z_scope.

(** C74 before 3.11.  What to_code() has written, from_code() reads: the same instructions in order,
    opcodes, arguments and sizes, each with the line in force (its own or inherited); the same
    tables and attributes but for the qualified name, which code does not have.  Lines begin at 1;
    on 3.10 no instruction is explicitly without line (those that are may be read with another
    line: C12_linetable_refuted). *)
Theorem C74_before_311_partial : forall v T cb n co, wf_optable v T = true -> PY311 v = false ->
  to_code_raw v T cb n = Ok co ->
  whole v T (instrs_of (cb_items cb)) ->
  (PY310 v = true -> Forall (fun it => ~ no_line it) (cb_items cb)) ->
  let xs := lined (m_first_lineno (cb_meta cb)) (cb_items cb) in
  1 <= m_first_lineno (cb_meta cb) -> Forall (fun x => 1 <= snd x) xs ->
  exists cb1, from_code v T co false = Ok cb1
  /\ Forall2 read_before xs (cb_items cb1)
  /\ cb_consts cb1 = cb_consts cb /\ cb_names cb1 = cb_names cb /\ cb_varnames cb1 = cb_varnames cb
  /\ cb_ex cb1 = []
  /\ let m := cb_meta cb in
     cb_meta cb1 = mkMeta (m_argcount m) (m_posonly m) (m_kwonly m) (m_first_lineno m) (m_name m) (m_qualname meta0) (m_filename m)
                     (set_docstring OUnset (cb_consts cb)) (m_cellvars m) (m_freevars m) (m_flags m).
Proof.
  intros v T cb n co wf P11 TC W NL xs FP LP.
  pose proof (whole_okc v T wf _ P11 W) as OK.
  destruct (written_readable v T cb n co wf P11 TC OK NL FP LP) as (cb1 & F). exists cb1. split; [exact F|].
  split; [exact (written_back v T cb n co wf P11 TC OK NL cb1 F)|].
  destruct (written_shape v T cb n co P11 TC OK) as (bs & _ & ->). unfold from_code in F. rewrite P11 in F.
  apply bind_ok in F. destruct F as (l & _ & F). apply bind_ok in F. destruct F as (l' & _ & F). injection F as <-. cbn. auto 8.
Qed.
Print Assumptions C74_before_311_partial.

(** ** C75 *)
Definition line_only (l : loc) : loc := line_loc (l_lineno l).
Definition kept_before_311 (x : string * parg * loc * option handler) : string * parg * loc * option handler :=
  let '(n, a, l, h) := x in (n, a, line_only l, h).
(** The locations of the program are locations, with lines. *)
Definition lines_given (v : pyver) (b : bytecode) : Prop :=
  forall n a l h, In (n, a, l, h) (source b) -> coherent_loc v l /\ l_lineno l <> None.
(** There are no try blocks (they came with 3.11). *)
Definition no_handlers (b : bytecode) : Prop := forall n a l h, In (n, a, l, h) (source b) -> h = None.

Lemma block_handled items : forall st pos op cur id t la d, bracketed st items -> In (BTB id t la d) items ->
  exists n a lo h, In (n, a, lo, Some h) (located cur (walk pos op items)).
Proof.
  induction items as [|x r IH]; intros st pos op cur id t la d B I; [destruct I|]. destruct I as [->|I].
  - cbn [bracketed] in B. destruct B as [_ B]. cbn [walk]. destruct (block_shows r pos (Some (arg_of pos t, la)) cur id B) as (n & a & lo & J). eauto 6.
  - destruct x; cbn [walk located]; cbv zeta; cbn [bracketed] in B.
    + match goal with |- context [located ?c (walk ?p ?o r)] => destruct (IH _ p o c id t la d B I) as (n & a & lo & h & J) end. exists n, a, lo, h. now right.
    + eapply IH; eauto.
    + eapply IH; eauto.
    + destruct B. eapply IH; eauto.
    + destruct B. eapply IH; eauto.
Qed.
Lemma no_ends items : forall st id, bracketed st items -> (forall id t la d, ~ In (BTB id t la d) items) -> st = None -> ~ In (BTE id) items.
Proof.
  induction items as [|x r IH]; intros st id B N S0 I; [destruct I|]. subst st. assert (N' : forall id t la d, ~ In (BTB id t la d) r) by (intros i t la d J; apply (N i t la d); now right).
  destruct x; cbn [bracketed option_map] in B; destruct I as [I|I]; try discriminate I; try (eapply IH; eauto; fail).
  - exact (N id0 target lasti depth (or_introl eq_refl)).
  - destruct B. discriminate.
  - destruct B. discriminate.
Qed.
Lemma no_entries v T keq m items K gs Kf : trace v T keq m items K gs Kf -> k_ex K = [] ->
  (forall id t la d, ~ In (BTB id t la d) items) -> (forall id, ~ In (BTE id) items) -> k_ex Kf = [].
Proof.
  induction 1 as [|it items K1 body K2 tr K3 caches gs Kf CB KI IE FC KC TR IH]; intros E NB NE; [exact E|].
  apply IH.
  - destruct (flush_inv v T _ _ _ FC) as (cs & _ & _ & _ & X & _). rewrite X.
    assert (Y : k_ex K2 = k_ex K1); [|destruct K2; cbn in *; congruence].
    destruct it; cbn [item_effect] in IE.
    + destruct IE as (? & ? & ? & ? & ? & ? & ? & ? & _ & _ & _ & _ & _ & _ & _ & _ & Q & _). exact Q.
    + destruct IE as (_ & _ & _ & _ & _ & _ & _ & _ & _ & _ & _ & Q). exact Q.
    + destruct IE as (_ & _ & _ & _ & _ & _ & _ & _ & _ & _ & _ & Q). exact Q.
    + destruct (NB id target lasti depth). now left.
    + destruct (NE id). now left.
  - intros id t la d I. apply (NB id t la d). now right.
  - intros id I. apply (NE id). now right.
Qed.
Lemma no_dual_before v T op : PY311 v = false -> is_dual v T op = false.
Proof. intros P. unfold is_dual. destruct v; vm_compute in P; try discriminate P; reflexivity. Qed.
Lemma lined_own cs : (forall c, In c cs -> exists l z, c_loc c = Some l /\ l_lineno l = Some z) -> forall cur,
  lined cur (map CI cs) = map (fun c => (c, match c_loc c with Some l => match l_lineno l with Some z => z | None => 0 end | None => 0 end)) cs.
Proof.
  induction cs as [|c cs IH]; intros H cur; [reflexivity|]. destruct (H c (or_introl eq_refl)) as (l & z & E1 & E2).
  cbn [map lined]. unfold line_shown. rewrite E1, E2. cbv zeta. f_equal. apply IH. intros d I. apply H. now right.
Qed.
Lemma coherent_line v l z : PY311 v = false -> coherent_loc v l -> l_lineno l = Some z -> 1 <= z.
Proof.
  unfold coherent_loc, new_location. intros P H E. rewrite E in H. apply bind_ok in H. destruct H as (u & G & _). revert G.
  unfold check_location, min_lineno. rewrite P. destruct (Z.ltb_spec z 1); [discriminate|lia].
Qed.

Lemma written_moved_before : forall v T keq passes b cb n co conserve,
  wf_optable v T = true -> PY311 v = false -> all_legal v T b -> all_members v b -> sound_key keq ->
  no_cache (b_items b) -> try_blocks (b_items b) -> no_handlers b ->
  (forall l k, used_label l (b_items b) -> position (b_items b) l = Some k -> (k < ninstrs (b_items b))%nat) ->
  to_concrete v T keq passes b = Ok cb ->
  lines_given v b -> 1 <= m_first_lineno (b_meta b) ->
  to_code_raw v T cb n = Ok co ->
  exists b2 cb1 b1, to_bytecode v T cb true conserve = Ok b2 /\ Forall2 (same_instr v T cb) (source b) (source b2)
  /\ from_code v T co false = Ok cb1 /\ to_bytecode v T cb1 true conserve = Ok b1
  /\ b_items b1 = map (P_Written2.moved line_only) (b_items b2) /\ (forall i, In (BI i) (b_items b2) -> i_loc i <> None)
  /\ cb_consts cb1 = cb_consts cb /\ cb_varnames cb1 = cb_varnames cb
  /\ (let m := cb_meta cb in
     cb_meta cb1 = mkMeta (m_argcount m) (m_posonly m) (m_kwonly m) (m_first_lineno m) (m_name m) (m_qualname meta0) (m_filename m)
                     (set_docstring OUnset (cb_consts cb)) (m_cellvars m) (m_freevars m) (m_flags m))
  /\ cb_ex cb = [].
Proof.
  intros v T keq passes b cb n co conserve wf P11 HL HM HK NC TB NH HE H LO FP TO.
  assert (P13 : PY313 v = true -> False) by (intros Q; destruct v; vm_compute in Q, P11; congruence).
  assert (HP : forall i n, In (BI i) (b_items b) -> is_dual v T (i_op i) = true -> In n (locals_of (i_arg i)) -> In n (firstn 16 (cb_varnames cb))).
  { intros i x _ D. rewrite (no_dual_before v T _ P11) in D. discriminate. }
  destruct (to_concrete_assembled v T keq wf passes b cb H) as (vn & K0 & gs0 & Kf & gs & en & A).
  assert (NB : forall id t la d, ~ In (BTB id t la d) (b_items b)).
  { intros id t la d I. destruct (block_handled _ None (position (b_items b)) None (line_loc (Some (m_first_lineno (b_meta b)))) _ _ _ _ (proj2 TB) I) as (nm & a & lo & h & J).
    pose proof (NH nm a lo (Some h) J). discriminate. }
  assert (EX : cb_ex cb = []).
  { destruct (as_K0 _ _ _ _ _ _ _ _ _ _ _ A) as (tr & K0E). pose proof (as_entries _ _ _ _ _ _ _ _ _ _ _ A) as EN.
    rewrite (no_entries v T keq _ _ _ _ _ (as_trace _ _ _ _ _ _ _ _ _ _ _ A)) in EN.
    - cbn in EN. injection EN as <-. now rewrite (as_cb _ _ _ _ _ _ _ _ _ _ _ A).
    - now rewrite K0E.
    - exact NB.
    - intros id. exact (no_ends _ None id (proj2 TB) NB eq_refl). }
  destruct (C23_identity_partial v T keq passes b cb conserve wf HL HM HK NC TB HE H) as (b2 & E2 & F2).
  { intros Q. destruct (P13 Q). } { exact HP. } { rewrite EX. intros e []. }
  pose proof (groups' v T keq wf _ _ _ _ _ _ _ _ A HL HM HK NC HP) as GS.
  pose proof (cb_code v T keq _ _ _ _ _ _ _ _ A) as CC.
  pose proof (groups_whole v T wf _ _ GS) as W.
  pose proof (from_source v T keq wf _ _ _ _ _ _ _ _ A HL GS) as FS.
  assert (MI : instrs_of (cb_items cb) = concat gs) by (rewrite CC; clear; induction (concat gs) as [|c l IH]; [reflexivity|]; unfold instrs_of in *; cbn; now rewrite IH).
  assert (W' : whole v T (instrs_of (cb_items cb))) by now rewrite MI.
  assert (ME : m_first_lineno (cb_meta cb) = m_first_lineno (b_meta b)) by now rewrite (as_cb _ _ _ _ _ _ _ _ _ _ _ A).
  assert (OWN : forall c, In c (concat gs) -> exists l z, c_loc c = Some l /\ l_lineno l = Some z /\ 1 <= z).
  { intros c I. destruct (FS c I) as (x1 & x2 & l & x4 & E & J). destruct (LO _ _ _ _ J) as [CL NL]. destruct (l_lineno l) as [z|] eqn:EL; [|congruence].
    exists l, z. split; [exact E|]. split; [exact EL|]. exact (coherent_line v l z P11 CL EL). }
  assert (LI : forall cur, lined cur (cb_items cb) = map (fun c => (c, match c_loc c with Some l => match l_lineno l with Some z => z | None => 0 end | None => 0 end)) (concat gs)).
  { intros cur. rewrite CC. apply lined_own. intros c I. destruct (OWN c I) as (l & z & E1 & E2' & _). eauto. }
  destruct (C74_before_311_partial v T cb n co wf P11 TO W') as (cb1 & F1 & R & X1 & X2 & X3 & X4 & X5).
  { intros _. rewrite CC. apply Forall_forall. intros it I. apply in_map_iff in I. destruct I as (c & <- & I). destruct (OWN c I) as (l & z & E1 & E2' & _). cbn [no_line]. rewrite E1, E2'. discriminate. }
  { now rewrite ME. }
  { rewrite LI. apply Forall_forall. intros x I. apply in_map_iff in I. destruct I as (c & <- & I). destruct (OWN c I) as (l & z & E1 & E2' & Z1). cbn [snd]. rewrite E1, E2'. exact Z1. }
  assert (F2' : Forall2 (fun c y => exists d, y = CI d /\ same_place line_only c d) (concat gs) (cb_items cb1)).
  { rewrite LI in R. revert R OWN. clear. generalize (cb_items cb1). induction (concat gs) as [|c cs IH]; intros ys R OWN; inversion_clear R as [|? y ? ys' R1 R2]; [constructor|].
    constructor; [|apply IH; [exact R2|intros d I; apply OWN; now right]]. destruct y as [d|z]; [|destruct R1]. destruct R1 as (Q1 & Q2 & Q3 & Q4 & Q5). exists d. split; [reflexivity|].
    cbn [fst snd] in *. destruct (OWN c (or_introl eq_refl)) as (l & z & E1 & E2 & _). rewrite E1, E2 in Q5. unfold same_place. repeat (split; [assumption|]). exists l. split; [exact E1|]. unfold line_only. rewrite E2. exact Q5. }
  destruct (moved_bytecode v T cb cb1 line_only (concat gs) true conserve b2 X1 X2 X3) as (LC & b1 & E1 & I1 & M1 & M2); try assumption.
  { now rewrite EX. } { rewrite X5. reflexivity. } { rewrite X5. reflexivity. } { now apply (whole_no_ext v T). }
  exists b2, cb1, b1. repeat (split; [assumption|]). exact EX.
Qed.

(** C75 before 3.11: the same program, with the lines. *)
Theorem C75_code_round_trip_before_311_partial : forall v T keq passes b cb n co conserve,
  wf_optable v T = true -> PY311 v = false -> all_legal v T b -> all_members v b -> sound_key keq ->
  no_cache (b_items b) -> try_blocks (b_items b) -> no_handlers b ->
  (forall l k, used_label l (b_items b) -> position (b_items b) l = Some k -> (k < ninstrs (b_items b))%nat) ->
  to_concrete v T keq passes b = Ok cb ->
  lines_given v b -> 1 <= m_first_lineno (b_meta b) ->
  to_code_raw v T cb n = Ok co ->
  exists b', bytecode_from_code v T true conserve co = Ok b'
  /\ Forall2 (same_instr v T cb) (map kept_before_311 (source b)) (source b').
Proof.
  intros v T keq passes b cb n co conserve wf P11 HL HM HK NC TB NH HE H LO FP TO.
  destruct (written_moved_before v T keq passes b cb n co conserve wf P11 HL HM HK NC TB NH HE H LO FP TO)
    as (b2 & cb1 & b1 & E2 & F2 & F1 & E1 & I1 & LC & _).
  exists b1. split; [unfold bytecode_from_code; rewrite F1; exact E1|].
  unfold source. rewrite I1, (program_moved line_only _ LC (line_loc (Some (m_first_lineno (b_meta b2))))).
  fold (source b2). fold (source b) in F2. fold (source b2) in F2. fold (source b). clear - F2.
  induction F2 as [|[[[m a] l] h] [[[m' a'] l'] h'] xs ys (-> & -> & -> & A) F IH]; [constructor|]. cbn [map]. constructor; [|exact IH].
  repeat (split; [reflexivity|]). exact A.
Qed.
Print Assumptions C75_code_round_trip_before_311_partial.

(** C75 for Bytecode.to_code() and Bytecode.from_code(), whatever the options. *)
Theorem C75_to_code_before_311_partial : forall v T se keq passes stacksize check depths b co conserve,
  wf_optable v T = true -> PY311 v = false -> sound_key keq -> writable v T b -> targets_inside b ->
  no_handlers b -> lines_given v b -> 1 <= m_first_lineno (b_meta b) ->
  bytecode_to_code v T se keq passes stacksize check depths b = Ok co ->
  exists b', bytecode_from_code v T true conserve co = Ok b'
  /\ Forall2 (same_instr v T (tables co)) (map kept_before_311 (source b)) (source b').
Proof.
  intros v T se keq passes st check depths b co conserve wf P11 HK W TI NH LG FP E.
  destruct (to_code_split _ _ _ _ _ _ _ _ _ _ E) as (bx & cb & n & E1 & E2 & D).
  assert (RW : rewritten v T b bx) by (destruct D as [[_ D]|(-> & _)]; [eapply through_writable; eauto|now apply rewritten_refl]).
  destruct RW as (W' & SO & ME & AR & PN).
  assert (VN : co_varnames co = cb_varnames cb).
  { clear - E2. unfold to_code_raw in E2. destruct (assemble_code v T cb) as [code ln]. inv_ok. auto. }
  destruct (C75_code_round_trip_before_311_partial v T keq (passes_of passes) bx cb n co conserve wf P11 (w_legal _ _ _ W') (w_members _ _ _ W') HK (w_caches _ _ _ W') (writable_blocks _ _ _ W'))
    as (b' & E3 & F); try assumption.
  - unfold no_handlers. rewrite SO. exact NH.
  - apply inside_used; [apply W'|]. unfold targets_inside. rewrite SO. exact TI.
  - unfold lines_given. rewrite SO. exact LG.
  - now rewrite ME.
  - exists b'. split; [exact E3|]. rewrite SO in F. clear - F VN. induction F as [|x y xs ys Q F IH]; constructor; [|exact IH].
    eapply same_instr_tables; [|exact Q]. cbn. exact VN.
Qed.
Print Assumptions C75_to_code_before_311_partial.

(** Its hypotheses are met, on 3.8 to 3.10, by a loop with two jumps that need an EXTENDED_ARG,
    lines inherited and going back, and columns that are lost. *)
Definition ex_before : bytecode := mkB meta0 []
  ([BLabel 0; BI (mkInstr "LOAD_NAME" 101 (OStr "x") (Some (mkLoc (Some 700) (Some 701) (Some 4) (Some 5))));
    BI (mkInstr "POP_JUMP_IF_FALSE" 114 (OLabel 1) None); BSet 3]
   ++ flat_map (fun _ => [BI (mkInstr "LOAD_CONST" 100 (OInt 5) None); BI (mkInstr "POP_TOP" 1 OUnset None)]) (seq 0 150)
   ++ [BI (mkInstr "LOAD_NAME" 101 (OStr "x") (Some (line_loc (Some 4)))); BI (mkInstr "POP_JUMP_IF_TRUE" 115 (OLabel 0) None);
       BLabel 1; BI (mkInstr "LOAD_CONST" 100 ONone (Some (line_loc (Some 2)))); BI (mkInstr "RETURN_VALUE" 83 OUnset None)]).
Definition check_lines (v : pyver) (b : bytecode) : bool :=
  forallb (fun x => coherentb v (snd (fst x)) && match l_lineno (snd (fst x)) with Some _ => true | None => false end
                    && match snd x with None => true | Some _ => false end) (source b).
Lemma check_lines_ok v b : check_lines v b = true -> lines_given v b /\ no_handlers b.
Proof.
  unfold check_lines. rewrite forallb_forall. intros H. split; intros n a l h I; specialize (H _ I); cbn [fst snd] in H; rewrite !andb_true_iff in H; destruct H as [[H1 H2] H3].
  - split; [now apply coherentb_ok|]. destruct (l_lineno l); [discriminate|discriminate H2].
  - destruct h; [discriminate H3|reflexivity].
Qed.
Definition ex_before_ok (v : pyver) : Prop := writable v TPre ex_before /\ targets_inside ex_before
  /\ no_handlers ex_before /\ lines_given v ex_before
  /\ exists co b', bytecode_to_code v TPre (fun _ _ _ => Some 0) keq0 None None true true ex_before = Ok co
     /\ bytecode_from_code v TPre true false co = Ok b'
     /\ nth_error (source b') 1 = Some ("POP_JUMP_IF_FALSE", PTo (Some 304%nat), line_loc (Some 700), None)
     /\ nth_error (source b') 303 = Some ("POP_JUMP_IF_TRUE", PTo (Some 0%nat), line_loc (Some 4), None)
     /\ nth_error (source ex_before) 1 = Some ("POP_JUMP_IF_FALSE", PTo (Some 304%nat), mkLoc (Some 700) (Some 701) (Some 4) (Some 5), None)
     /\ b_items b' <> b_items ex_before.
Ltac ex_before_tac v :=
  split; [apply check_writable_ok; [now vm_compute|]; vm_compute; reflexivity|];
  split; [apply check_inside_ok; vm_compute; reflexivity|];
  split; [apply (check_lines_ok v); vm_compute; reflexivity|]; split; [apply check_lines_ok; vm_compute; reflexivity|];
  do 2 eexists; split; [vm_compute; reflexivity|]; split; [vm_compute; reflexivity|];
  split; [vm_compute; reflexivity|]; split; [vm_compute; reflexivity|]; split; [vm_compute; reflexivity|vm_compute; discriminate].
Example C75_before_311_ex38 : ex_before_ok V38. Proof. ex_before_tac V38. Qed.
Example C75_before_311_ex39 : ex_before_ok V39. Proof. ex_before_tac V39. Qed.
Example C75_before_311_ex310 : ex_before_ok V310. Proof. ex_before_tac V310. Qed.

(** An instruction that is explicitly without line does not come back on 3.10 with the others as
    they were: the instructions after it lose their line (C12_linetable_refuted). *)
Definition ex_no_line_before : bytecode := mkB meta0 []
  [BI (mkInstr "NOP" 9 OUnset (Some (line_loc (Some 5)))); BI (mkInstr "NOP" 9 OUnset (Some (line_loc None)));
   BI (mkInstr "LOAD_CONST" 100 ONone (Some (line_loc (Some 5)))); BI (mkInstr "RETURN_VALUE" 83 OUnset None)].
Theorem C75_no_line_310_refuted : exists co b',
  bytecode_to_code V310 TPre (fun _ _ _ => Some 0) keq0 None (Some 1) true true ex_no_line_before = Ok co
  /\ bytecode_from_code V310 TPre true false co = Ok b'
  /\ map (fun x => l_lineno (snd (fst x))) (source ex_no_line_before) = [Some 5; None; Some 5; Some 5]
  /\ map (fun x => l_lineno (snd (fst x))) (source b') = [Some 5; None; None; None].
Proof.
  do 2 eexists. split; [vm_compute; reflexivity|]. split; [vm_compute; reflexivity|]. split; vm_compute; reflexivity.
Qed.
Print Assumptions C75_no_line_310_refuted.
