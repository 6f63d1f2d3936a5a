(** Property theorems: Bytecode.to_code(), then Bytecode.from_code() (C75). *)
From Verif Require Import PyBase OpTable CPy CPyEffect Table311 TablesEx P_Base P_OpTable M_Instr M_Tables M_Concrete S_Args S_Lines S_Dis S_Asm S_Prog S_Slots S_Ident S_Code S_Written M_Convert M_Bytecode M_Cfg M_Stack M_Full
  P_Except P_LinesCode P_Conv P_Conv2 P_Layout P_AsmProps P_Ident P_Ident2 P_Ident3 P_Code P_Code2 P_From P_Written P_Written2 P_CfgTo2 P_CfgSeq T_Except T_Lines T_Asm T_Args T_Ident T_Meta T_Code T_Full T_Only T_Again T_Written.
Open Scope string_scope.
Open Scope list_scope.
Open Scope Z_scope.

(** Jumps and handlers lead to instructions of the program (not to its end). *)
Definition targets_inside (b : bytecode) : Prop :=
  forall n a l h t, In (n, a, l, h) (source b) -> (a = PTo (Some t) \/ exists la, h = Some (PTo (Some t), la)) ->
  (t < length (source b))%nat.

Lemma source_len b : length (source b) = ninstrs (b_items b).
Proof. unfold source, program. rewrite <- wg_walk. apply located_len. Qed.
Lemma block_shows items : forall pos op cur id, bracketed (Some (id, false)) items ->
  exists n a l, In (n, a, l, op) (located cur (walk pos op items)).
Proof.
  induction items as [|x r IH]; intros pos op cur id B; cbn [bracketed] in B; [discriminate|].
  destruct x; cbn [walk located]; cbv zeta.
  - do 3 eexists. left. reflexivity.
  - exact (IH _ _ _ _ B).
  - exact (IH _ _ _ _ B).
  - destruct B; discriminate.
  - destruct B; discriminate.
Qed.
Lemma block_instr items : forall st pos op cur id l la d, bracketed st items -> In (BTB id (OLabel l) la d) items ->
  exists n a lo, In (n, a, lo, Some (PTo (pos l), la)) (located cur (walk pos op items)).
Proof.
  induction items as [|x r IH]; intros st pos op cur id l la d B I; [destruct I|]. destruct I as [->|I].
  - cbn [bracketed] in B. destruct B as [_ B]. cbn [walk]. cbn [arg_of]. eapply block_shows; eauto.
  - destruct x; cbn [walk located]; cbv zeta; cbn [bracketed] in B.
    + match goal with |- context [located ?c (walk ?p ?o r)] => destruct (IH _ p o c id l la d B I) as (n & a & lo & J) end. exists n, a, lo. now right.
    + eapply IH; eauto.
    + eapply IH; eauto.
    + destruct B. eapply IH; eauto.
    + destruct B. eapply IH; eauto.
Qed.
Lemma jump_shows items : forall pos op cur i l, In (BI i) items -> i_arg i = OLabel l ->
  exists n lo h, In (n, PTo (pos l), lo, h) (located cur (walk pos op items)).
Proof.
  induction items as [|x r IH]; intros pos op cur i l I E; [destruct I|]. destruct I as [->|I].
  - cbn [walk located]. rewrite E. cbn [arg_of]. cbv zeta. do 3 eexists. left. reflexivity.
  - destruct x; cbn [walk located]; cbv zeta; try (eapply IH; eauto; fail).
    match goal with |- context [located ?c (walk ?p ?o r)] => destruct (IH p o c i l I E) as (n & lo & h & J) end. exists n, lo, h. now right.
Qed.
Lemma inside_used b : bracketed None (b_items b) -> targets_inside b ->
  forall l k, used_label l (b_items b) -> position (b_items b) l = Some k -> (k < ninstrs (b_items b))%nat.
Proof.
  intros B TI l k U P. rewrite <- source_len. destruct U as [(i & I & E)|(id & la & d & I)].
  - destruct (jump_shows (b_items b) (position (b_items b)) None (line_loc (Some (m_first_lineno (b_meta b)))) i l I E) as (n & lo & h & J).
    rewrite P in J. eapply (TI n (PTo (Some k)) lo h k); [exact J|now left].
  - destruct (block_instr (b_items b) None (position (b_items b)) None (line_loc (Some (m_first_lineno (b_meta b)))) id l la d B I) as (n & a & lo & J).
    rewrite P in J. eapply (TI n a lo _ k); [exact J|right; eauto].
Qed.

Lemma same_arg_tables v T cb cb' op x y : cb_varnames cb' = cb_varnames cb -> same_arg v T cb op x y -> same_arg v T cb' op x y.
Proof. intros E S. induction S; try (constructor; auto; fail). apply sa_cell; auto. now rewrite E. Qed.
Lemma same_instr_tables v T cb cb' x y : cb_varnames cb' = cb_varnames cb -> same_instr v T cb x y -> same_instr v T cb' x y.
Proof.
  destruct x as [[[n a] l] h], y as [[[n' a'] l'] h']. intros E (E1 & E2 & E3 & A). repeat (split; [assumption|]).
  destruct a, a'; auto. destruct A as (op & O & S). exists op. split; [exact O|]. eapply same_arg_tables; eauto.
Qed.

Lemma rans_group T gs : forall off r, In r (rans T off gs) -> exists p c rest, nth_error gs p = Some (c :: rest)
  /\ r_start r = off + zlen (code T (concat (firstn p gs))).
Proof.
  induction gs as [|g gs IH]; intros off r I; [destruct I|]. destruct g as [|c rest]; cbn [rans] in I.
  - destruct (IH _ _ I) as (p & c & rest & G & Q). exists (S p), c, rest. split; [exact G|]. cbn [firstn concat app]. exact Q.
  - destruct I as [<-|I]; [exists 0%nat, c, rest; split; [reflexivity|cbn; lia]|].
    destruct (IH _ _ I) as (p & c' & rest' & G & Q). exists (S p), c', rest'. split; [exact G|]. rewrite Q. cbn [firstn concat]. rewrite code_app, zlen_app. lia.
Qed.

(** Every entry of the exception table begins where an instruction does (with its EXTENDED_ARG). *)
Definition entries_begin (v : pyver) (T : optable) (co : codeobj) : Prop :=
  forall s n t d la, In (s, n, t, d, la) (table_entries co) -> exists r, In r (instructions v T co) /\ r_start r = 2 * s.
(** No free variable has the name of a local one (3.13). *)
Definition free_apart (v : pyver) (co : codeobj) : Prop :=
  PY313 v = true -> forall n, In n (co_freevars co) -> ~ In n (co_varnames co).

(** What C75 asks of a concrete bytecode, read from the code object *)
Lemma entries_starts v T keq passes b cb n co : wf_optable v T = true -> PY311 v = true -> sound_key keq -> writable v T b ->
  to_concrete v T keq passes b = Ok cb -> pairs_near v T b (cb_varnames cb) ->
  to_code_raw v T cb n = Ok co -> entries_begin v T co ->
  forall e, In e (cb_ex cb) -> exists k, (k < length (instrs_of (cb_items cb)))%nat /\ e_start e = offset_of v (instrs_of (cb_items cb)) k.
Proof.
  intros wf P11 HK W H HP TO EB e I. pose proof (writable_blocks v T b W) as TB. destruct W as [HL HM NC PR BR LO].
  destruct (to_concrete_assembled v T keq wf passes b cb H) as (vn & K0 & gs0 & Kf & gs & en & A).
  pose proof (instructions_are v T keq wf _ _ _ _ _ _ _ _ A HL HM HK NC HP _ _ TO) as INS.
  pose proof (cb_code v T keq _ _ _ _ _ _ _ _ A) as CC.
  assert (MI : instrs_of (cb_items cb) = concat gs) by (rewrite CC; clear; induction (concat gs) as [|c l IH]; [reflexivity|]; unfold instrs_of in *; cbn; now rewrite IH).
  assert (EX : parse_exception_table (co_exceptiontable co) = cb_ex cb).
  { unfold to_code_raw in TO. destruct (assemble_code v T cb). rewrite P11 in TO. apply bind_ok in TO. destruct TO as (ln & _ & TO).
    apply bind_ok in TO. destruct TO as (ex & EE & TO). injection TO as <-. exact (C10_exception_table_round_trip _ _ EE). }
  assert (TE : table_entries co = map (fun e => (e_start e, e_stop e + 1 - e_start e, e_target e, e_depth e, e_lasti e)) (cb_ex cb)).
  { unfold table_entries. rewrite entries_parse. change (parse_exception_table_loop _ _) with (parse_exception_table (co_exceptiontable co)). now rewrite EX. }
  destruct (EB (e_start e) (e_stop e + 1 - e_start e) (e_target e) (e_depth e) (e_lasti e)) as (r & R1 & R2).
  { rewrite TE. apply in_map_iff. eauto. }
  rewrite INS in R1. destruct (rans_group T gs 0 r R1) as (p & c & rest & G & Q).
  exists (start gs p). rewrite MI. split.
  - unfold start. pose proof (nth_error_split gs p G) as (l1 & l2 & E & L). rewrite E at 2. rewrite E, firstn_app, <- L, firstn_all, Nat.sub_diag. cbn [firstn].
    rewrite app_nil_r, concat_app, app_length. cbn. lia.
  - pose proof (group_off v T keq wf _ _ _ _ _ _ _ _ A p) as GO.
    rewrite GO in Q. unfold ub in Q. replace (PY310 v) with true in Q by (clear - P11; destruct v; try reflexivity; discriminate).
    rewrite R2 in Q. clear - Q. lia.
Qed.

(** C75 for Bytecode.to_code() and Bytecode.from_code(), whatever the options: the same program. *)
Theorem C75_to_code_from_code_partial : forall v T se keq passes stacksize check depths b co conserve,
  wf_optable v T = true -> PY311 v = true -> sound_key keq -> writable v T b -> targets_inside b -> locations_kept v b ->
  bytecode_to_code v T se keq passes stacksize check depths b = Ok co ->
  pairs_near v T b (co_varnames co) -> free_apart v co -> entries_begin v T co ->
  exists b', bytecode_from_code v T true conserve co = Ok b'
  /\ Forall2 (same_instr v T (tables co)) (map kept_in_code (source b)) (source b').
Proof.
  intros v T se keq passes st check depths b co conserve wf P11 HK W TI LK E HP FA EB.
  destruct (to_code_split _ _ _ _ _ _ _ _ _ _ E) as (bx & cb & n & E1 & E2 & D).
  assert (RW : rewritten v T b bx) by (destruct D as [[_ D]|(-> & _)]; [eapply through_writable; eauto|now apply rewritten_refl]).
  destruct RW as (W' & SO & ME & AR & PN).
  assert (FI : co_varnames co = cb_varnames cb /\ co_cellvars co = m_cellvars (cb_meta cb) /\ co_freevars co = m_freevars (cb_meta cb)).
  { clear - E2. unfold to_code_raw in E2. destruct (assemble_code v T cb) as [code ln]. inv_ok. auto. }
  destruct FI as (VN & _ & FV). pose proof (PN _ HP) as HP'. rewrite VN in HP'.
  destruct (C75_code_round_trip_partial v T keq (passes_of passes) bx cb n co conserve wf P11 (w_legal _ _ _ W') (w_members _ _ _ W') HK (w_caches _ _ _ W') (writable_blocks _ _ _ W'))
    as (b' & E3 & F); try assumption.
  - apply inside_used; [apply W'|]. unfold targets_inside. rewrite SO. exact TI.
  - unfold free_not_local. rewrite <- VN, <- FV. exact FA.
  - exact (entries_starts v T keq (passes_of passes) bx cb n co wf P11 HK W' E1 HP' E2 EB).
  - unfold locations_kept. rewrite SO. exact LK.
  - exists b'. split; [exact E3|]. rewrite SO in F. clear - F VN. induction F as [|x y xs ys S F IH]; constructor; [|exact IH].
    eapply same_instr_tables; [|exact S]. cbn. exact VN.
Qed.
Print Assumptions C75_to_code_from_code_partial.

(** Its hypotheses, met by the program of C23 with the default options; the code object is the one
    that goes through the graph. *)
Definition check_inside (b : bytecode) : bool :=
  forallb (fun x => let '(n, a, l, h) := x in
    match a with PTo (Some t) => Nat.ltb t (length (source b)) | _ => true end
    && match h with Some (PTo (Some t), _) => Nat.ltb t (length (source b)) | _ => true end) (source b).
Lemma check_inside_ok b : check_inside b = true -> targets_inside b.
Proof.
  unfold check_inside. rewrite forallb_forall. intros H n a l h t I D. specialize (H _ I). cbv beta iota in H. apply andb_true_iff in H. destruct H as [H1 H2].
  destruct D as [->|(la & ->)]; now apply Nat.ltb_lt.
Qed.
Definition check_begin (v : pyver) (T : optable) (co : codeobj) : bool :=
  forallb (fun x => let '(s, _, _, _, _) := x in existsb (fun r => r_start r =? 2 * s) (instructions v T co)) (table_entries co).
Lemma check_begin_ok v T co : check_begin v T co = true -> entries_begin v T co.
Proof.
  unfold check_begin. rewrite forallb_forall. intros H s n t d la I. specialize (H _ I). cbv beta iota in H. apply existsb_exists in H.
  destruct H as (r & R & E). exists r. split; [exact R|]. now apply Z.eqb_eq.
Qed.
Example C75_to_code_ex : writable V311 T311 ex51 /\ targets_inside ex51 /\ locations_kept V311 ex51
  /\ exists co b', bytecode_to_code V311 T311 dis_effect311 keq0 None None true true ex51 = Ok co
     /\ pairs_near V311 T311 ex51 (co_varnames co) /\ free_apart V311 co /\ entries_begin V311 T311 co
     /\ bytecode_from_code V311 T311 true false co = Ok b' /\ length (source b') = 313%nat
     /\ nth_error (source b') 3 = nth_error (map kept_in_code (source ex51)) 3 /\ b_items b' <> b_items ex51.
Proof.
  split; [apply check_writable_ok; [exact T311_wf|]; vm_compute; reflexivity|].
  split; [apply check_inside_ok; vm_compute; reflexivity|]. split; [apply check_kept_ok; vm_compute; reflexivity|].
  do 2 eexists. split; [vm_compute; reflexivity|]. split; [intros i n _ D; exfalso; unfold is_dual in D; discriminate D|].
  split; [discriminate|]. split; [apply check_begin_ok; vm_compute; reflexivity|]. split; [vm_compute; reflexivity|].
  split; [vm_compute; reflexivity|]. split; [vm_compute; reflexivity|vm_compute; discriminate].
Qed.
