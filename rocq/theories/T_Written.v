(** Property theorems: what to_code() writes, from_code() reads back (C74). *)
From Verif Require Import PyBase OpTable CPy CPyEffect Table311 TablesEx P_Base P_OpTable M_Instr M_Tables M_Concrete S_Args S_Lines S_Dis S_Asm S_Prog S_Slots S_Ident S_Code S_Written M_Convert M_Bytecode M_Full
  P_Except P_LinesCode P_Conv P_Conv2 P_Layout P_AsmProps P_Ident P_Ident3 P_Code P_Code2 P_From P_Written P_Written2 T_Except T_Lines T_Asm T_Args T_Ident T_Code T_Full.
Open Scope string_scope.
Open Scope list_scope.
Open Scope Z_scope.

Lemma placed_filled items : forall prev cur, placed prev cur items = filled prev cur items.
Proof. induction items as [|[c|z] r IH]; intros prev cur; cbn [placed filled]; [reflexivity| |apply IH]. cbv zeta. now rewrite IH. Qed.
Lemma placed_instrs items : forall prev cur, map fst (placed prev cur items) = instrs_of items.
Proof.
  induction items as [|[c|z] r IH]; intros prev cur; cbn [placed instrs_of flat_map app map fst]; [reflexivity| |apply IH].
  f_equal. apply IH.
Qed.
Lemma whole_sized v T cs : whole v T cs -> Forall (fun c => c_size c = zlen (assemble T c)) cs.
Proof.
  induction 1 as [|c ks rest OR NC SZ L FK W IH]; [constructor|]. constructor; [exact SZ|]. apply Forall_app. split; [|exact IH].
  clear - FK. induction FK as [|d ks I FK IH]; constructor; [|exact IH]. destruct I as (_ & O & A & S2 & [X|X]); unfold assemble; rewrite A, O, X, ?S2; reflexivity.
Qed.
Lemma sized_items T items : Forall (fun c => c_size c = zlen (assemble T c)) (instrs_of items) -> Forall (sized T) items.
Proof.
  induction items as [|[c|z] r IH]; intros F; [constructor| |].
  - cbn [instrs_of flat_map app] in F. inversion_clear F as [|? ? F1 F2]. constructor; [exact F1|now apply IH].
  - constructor; [exact Logic.I|]. apply IH. exact F.
Qed.
Lemma code_of_instrs T items : code_of T items = code T (instrs_of items).
Proof. unfold code_of, code. induction items as [|[c|z] r IH]; [reflexivity| |exact IH]. cbn [flat_map instrs_of app map concat]. f_equal. exact IH. Qed.

(** C74.  What ConcreteBytecode.to_code() has written on 3.11 and later, from_code() reads: the same
    instructions in order, opcodes, arguments and sizes, each with what the location table keeps of
    the location it was written with; the same tables, exception table and attributes (the
    docstring is found in the constants).  The instructions must be as code holds them (each with
    its size and its caches), and the locations must be there again when they are read:
    InstrLocation refuses line 0 (see C74_line_zero_refuted). *)
Theorem C74_written_is_read_partial : forall v T cb n co, wf_optable v T = true -> PY311 v = true ->
  to_code_raw v T cb n = Ok co ->
  whole v T (instrs_of (cb_items cb)) ->
  (forall c l, In (CI c) (cb_items cb) -> c_loc c = Some l -> coherent_loc v l) ->
  let xs := placed None (m_first_lineno (cb_meta cb)) (cb_items cb) in
  Forall (fun x => coherent_loc v (kept_loc (snd x))) xs ->
  exists cb1, from_code v T co false = Ok cb1
  /\ Forall2 read_back xs (cb_items cb1)
  /\ cb_consts cb1 = cb_consts cb /\ cb_names cb1 = cb_names cb /\ cb_varnames cb1 = cb_varnames cb
  /\ cb_ex cb1 = cb_ex cb
  /\ let m := cb_meta cb in
     cb_meta cb1 = mkMeta (m_argcount m) (m_posonly m) (m_kwonly m) (m_first_lineno m) (m_name m) (m_qualname m) (m_filename m)
                     (set_docstring OUnset (cb_consts cb)) (m_cellvars m) (m_freevars m) (m_flags m).
Proof.
  intros v T cb n co wf P11 TC W CO xs RD.
  pose proof (sized_items T _ (whole_sized v T _ W)) as SZ.
  assert (EX : Forall entry_ok (cb_ex cb)).
  { unfold to_code_raw in TC. destruct (assemble_code v T cb). rewrite P11 in TC. apply bind_ok in TC. destruct TC as (ln & _ & TC).
    apply bind_ok in TC. destruct TC as (ex & EX & _). apply assemble_table_total. eauto. }
  assert (LK : Forall (loc_item_ok v) (cb_items cb)).
  { apply Forall_forall. intros [c|z] I; [|exact Logic.I]. intros l Hl. pose proof (CO _ _ I Hl) as CL. split; [exact CL|]. intros SP.
    apply in_split in I. destruct I as (pre & post & Hs). exact (C13_spanning_location_fails v T cb n co pre c post l P11 Hs Hl CL SP TC). }
  destruct (location_code v T cb n P11 SZ LK EX) as (co' & E' & CC & FL & PO). rewrite TC in E'. injection E' as <-.
  destruct (written_read v T wf P11 _ W xs (placed_instrs _ _ _) RD) as (l0 & l & U & R & F2).
  unfold from_code, disassemble_code. rewrite P11, CC, PO, code_of_instrs, <- placed_filled.
  change (flat_map (fun p => repeat (recorded (snd p)) (Z.to_nat (zlen (assemble T (fst p)) / 2))) xs) with (flat_map (pos_of T) xs).
  fold xs.
  match goal with |- context [flat_map ?f xs] => change (flat_map f xs) with (flat_map (pos_of T) xs) end.
  rewrite U. cbn [bind]. rewrite R. cbn [bind]. eexists. split; [reflexivity|]. cbn [cb_items cb_consts cb_names cb_varnames cb_ex cb_meta].
  split; [exact F2|]. unfold to_code_raw in TC. destruct (assemble_code v T cb) as [bs lns]. rewrite P11 in TC.
  apply bind_ok in TC. destruct TC as (ln & _ & TC). apply bind_ok in TC. destruct TC as (ex & EE & TC). injection TC as <-.
  cbn. repeat (split; [reflexivity|]). split; [exact (C10_exception_table_round_trip _ _ EE)|reflexivity].
Qed.
Print Assumptions C74_written_is_read_partial.

(** C75 *)

(** What is kept of an instruction of the program: all of it but its location, of which the
    location table keeps the recorded part. *)
Definition kept_in_code (x : string * parg * loc * option handler) : string * parg * loc * option handler :=
  let '(n, a, l, h) := x in (n, a, kept_loc l, h).
(** The locations of the program are locations, and so is what is recorded of them. *)
Definition locations_kept (v : pyver) (b : bytecode) : Prop :=
  forall n a l h, In (n, a, l, h) (source b) -> coherent_loc v l /\ coherent_loc v (kept_loc l).

Lemma placed_own items : (forall c, In (CI c) items -> c_loc c <> None) -> forall prev cur,
  Forall (fun x => c_loc (fst x) = Some (snd x)) (placed prev cur items).
Proof.
  induction items as [|[c|z] r IH]; intros H prev cur; cbn [placed]; [constructor| |].
  - constructor; [|apply IH; intros d I; apply H; now right]. cbn [fst snd]. destruct (c_loc c) eqn:E; [reflexivity|].
    exfalso. apply (H c); [now left|exact E].
  - apply IH. intros d I. apply H. now right.
Qed.
Lemma whole_no_ext v T cs : whole v T cs -> forall c, In c cs -> c_name c <> "EXTENDED_ARG".
Proof.
  induction 1 as [|c ks rest OR NC SZ L FK W IH]; intros d I; [destruct I|]. destruct I as [<-|I]; [apply OR|].
  apply in_app_or in I. destruct I as [I|I]; [|now apply IH]. rewrite Forall_forall in FK. destruct (FK d I) as (-> & _). discriminate.
Qed.

(** The disassembly of the code object is that of the concrete bytecode it was made of, with the
    locations that are kept. *)
Lemma written_moved : forall v T keq passes b cb n co conserve,
  wf_optable v T = true -> PY311 v = true -> all_legal v T b -> all_members v b -> sound_key keq ->
  no_cache (b_items b) -> try_blocks (b_items b) ->
  (forall l k, used_label l (b_items b) -> position (b_items b) l = Some k -> (k < ninstrs (b_items b))%nat) ->
  to_concrete v T keq passes b = Ok cb ->
  free_not_local v cb ->
  (forall i n, In (BI i) (b_items b) -> is_dual v T (i_op i) = true -> In n (locals_of (i_arg i)) ->
     In n (firstn 16 (cb_varnames cb))) ->
  (forall e, In e (cb_ex cb) -> exists k, (k < length (instrs_of (cb_items cb)))%nat
     /\ e_start e = offset_of v (instrs_of (cb_items cb)) k) ->
  locations_kept v b ->
  to_code_raw v T cb n = Ok co ->
  exists b2 cb1 b1, to_bytecode v T cb true conserve = Ok b2 /\ Forall2 (same_instr v T cb) (source b) (source b2)
  /\ from_code v T co false = Ok cb1 /\ to_bytecode v T cb1 true conserve = Ok b1
  /\ b_items b1 = map (moved kept_loc) (b_items b2) /\ (forall i, In (BI i) (b_items b2) -> i_loc i <> None)
  /\ cb_consts cb1 = cb_consts cb /\ cb_varnames cb1 = cb_varnames cb
  /\ (let m := cb_meta cb in
     cb_meta cb1 = mkMeta (m_argcount m) (m_posonly m) (m_kwonly m) (m_first_lineno m) (m_name m) (m_qualname m) (m_filename m)
                     (set_docstring OUnset (cb_consts cb)) (m_cellvars m) (m_freevars m) (m_flags m))
  /\ m_first_lineno (b_meta b1) = m_first_lineno (cb_meta cb1) /\ m_first_lineno (b_meta b2) = m_first_lineno (cb_meta cb).
Proof.
  intros v T keq passes b cb n co conserve wf P11 HL HM HK NC TB HE H FN HP HS LO TO.
  destruct (C23_identity_partial v T keq passes b cb conserve wf HL HM HK NC TB HE H FN HP HS) as (b2 & E2 & F2).
  destruct (to_concrete_assembled v T keq wf passes b cb H) as (vn & K0 & gs0 & Kf & gs & en & A).
  pose proof (groups' v T keq wf _ _ _ _ _ _ _ _ A HL HM HK NC HP) as GS.
  pose proof (cb_code v T keq _ _ _ _ _ _ _ _ A) as CC.
  pose proof (groups_whole v T wf _ _ GS) as W.
  pose proof (from_source v T keq wf _ _ _ _ _ _ _ _ A HL GS) as FS.
  assert (MI : instrs_of (cb_items cb) = concat gs) by (rewrite CC; clear; induction (concat gs) as [|c l IH]; [reflexivity|]; unfold instrs_of in *; cbn; now rewrite IH).
  assert (IN : forall c, In (CI c) (cb_items cb) -> In c (concat gs)).
  { intros c I. rewrite CC in I. apply in_map_iff in I. destruct I as (d & E & I). now injection E as ->. }
  assert (W' : whole v T (instrs_of (cb_items cb))) by now rewrite MI.
  assert (OWN : forall c, In (CI c) (cb_items cb) -> c_loc c <> None).
  { intros c I. destruct (FS c (IN c I)) as (? & ? & ? & ? & -> & _). discriminate. }
  pose proof (placed_own (cb_items cb) OWN None (m_first_lineno (cb_meta cb))) as PO.
  pose proof (placed_instrs (cb_items cb) None (m_first_lineno (cb_meta cb))) as PI.
  destruct (C74_written_is_read_partial v T cb n co wf P11 TO W') as (cb1 & F1 & R & X1 & X2 & X3 & X4 & X5).
  { intros c l I E. destruct (FS c (IN c I)) as (x1 & x2 & x3 & x4 & E' & J). rewrite E in E'. injection E' as ->. exact (proj1 (LO _ _ _ _ J)). }
  { set (xs := placed None (m_first_lineno (cb_meta cb)) (cb_items cb)) in *. apply Forall_forall. intros [c l] I.
    pose proof (in_map fst _ _ I) as J. rewrite PI, MI in J. cbn [fst] in J. destruct (FS c J) as (x1 & x2 & x3 & x4 & E' & J').
    rewrite Forall_forall in PO. pose proof (PO _ I) as PO'. cbn [fst snd] in *. rewrite E' in PO'. injection PO' as ->. exact (proj2 (LO _ _ _ _ J')). }
  assert (F2' : Forall2 (fun c y => exists d, y = CI d /\ same_place kept_loc c d) (concat gs) (cb_items cb1)).
  { rewrite <- MI, <- PI. set (xs := placed None (m_first_lineno (cb_meta cb)) (cb_items cb)) in *. clear - PO R.
    induction R as [|x y xs ys RB R IH]; [constructor|]. inversion_clear PO as [|? ? P1 P2]. cbn [map]. constructor; [|apply IH; exact P2].
    destruct y as [d|z]; [|destruct RB]. destruct RB as (R1 & R2 & R3 & R4 & R5). exists d. split; [reflexivity|].
    unfold same_place. repeat (split; [assumption|]). exists (snd x). split; assumption. }
  destruct (moved_bytecode v T cb cb1 kept_loc (concat gs) true conserve b2 X1 X2 X3 X4) as (LC & b1 & E1 & I1 & M1 & M2); try assumption.
  { rewrite X5. reflexivity. } { rewrite X5. reflexivity. } { now apply (whole_no_ext v T). }
  exists b2, cb1, b1. tauto.
Qed.

(** C75.  A Bytecode that is assembled to a code object and read back from it gives the same
    program: the conditions are those of C23, and the locations must be such that they can be read
    again (C74). *)
Theorem C75_code_round_trip_partial : forall v T keq passes b cb n co conserve,
  wf_optable v T = true -> PY311 v = true -> all_legal v T b -> all_members v b -> sound_key keq ->
  no_cache (b_items b) -> try_blocks (b_items b) ->
  (forall l k, used_label l (b_items b) -> position (b_items b) l = Some k -> (k < ninstrs (b_items b))%nat) ->
  to_concrete v T keq passes b = Ok cb ->
  free_not_local v cb ->
  (forall i n, In (BI i) (b_items b) -> is_dual v T (i_op i) = true -> In n (locals_of (i_arg i)) ->
     In n (firstn 16 (cb_varnames cb))) ->
  (forall e, In e (cb_ex cb) -> exists k, (k < length (instrs_of (cb_items cb)))%nat
     /\ e_start e = offset_of v (instrs_of (cb_items cb)) k) ->
  locations_kept v b ->
  to_code_raw v T cb n = Ok co ->
  exists b', bytecode_from_code v T true conserve co = Ok b'
  /\ Forall2 (same_instr v T cb) (map kept_in_code (source b)) (source b').
Proof.
  intros v T keq passes b cb n co conserve wf P11 HL HM HK NC TB HE H FN HP HS LO TO.
  destruct (written_moved v T keq passes b cb n co conserve wf P11 HL HM HK NC TB HE H FN HP HS LO TO)
    as (b2 & cb1 & b1 & E2 & F2 & F1 & E1 & I1 & LC & _ & _ & X5 & M1 & M2).
  exists b1. split; [unfold bytecode_from_code; rewrite F1; exact E1|].
  unfold source. rewrite I1. rewrite (program_moved kept_loc _ LC (line_loc (Some (m_first_lineno (b_meta b2))))).
  fold (source b2). fold (source b) in F2. fold (source b2) in F2. fold (source b). clear - F2.
  induction F2 as [|[[[n a] l] h] [[[n' a'] l'] h'] xs ys (-> & -> & -> & A) F IH]; [constructor|]. cbn [map]. constructor; [|exact IH].
  repeat (split; [reflexivity|]). exact A.
Qed.
Print Assumptions C75_code_round_trip_partial.

(** The program of C23 (a loop, EXTENDED_ARG, inline caches, a try block, inherited lines) goes
    through a code object and back. *)
Definition check_kept (v : pyver) (b : bytecode) : bool :=
  forallb (fun x => coherentb v (snd (fst x)) && coherentb v (kept_loc (snd (fst x)))) (source b).
Lemma coherentb_ok v l : coherentb v l = true -> coherent_loc v l.
Proof.
  unfold coherentb, coherent_loc. intros H. destruct (new_location _ _ _ _ _) as [x|e] eqn:E; [|discriminate].
  f_equal. unfold new_location in E. do 6 (apply bind_ok in E; destruct E as (? & _ & E)). injection E as <-. now destruct l.
Qed.
Lemma check_kept_ok v b : check_kept v b = true -> locations_kept v b.
Proof.
  unfold check_kept. rewrite forallb_forall. intros H n a l h I. specialize (H _ I). cbn [fst snd] in H.
  apply andb_true_iff in H. destruct H. split; now apply coherentb_ok.
Qed.
Example C75_ex : locations_kept V311 ex23
  /\ exists cb co b', to_concrete V311 T311 keq0 default_passes ex23 = Ok cb /\ to_code_raw V311 T311 cb 1 = Ok co
     /\ bytecode_from_code V311 T311 true true co = Ok b'
     /\ nth_error (source b') 1 = Some ("POP_JUMP_FORWARD_IF_TRUE", PTo (Some 306%nat), mkLoc (Some 4) (Some 4) None None, None)
     /\ nth_error (source ex23) 1 = Some ("POP_JUMP_FORWARD_IF_TRUE", PTo (Some 306%nat), mkLoc (Some 4) None None None, None)
     /\ b_items b' <> b_items ex23 /\ length (co_code co) = 630%nat.
Proof.
  split; [apply check_kept_ok; vm_compute; reflexivity|]. do 3 eexists. split; [vm_compute; reflexivity|]. split; [vm_compute; reflexivity|].
  split; [vm_compute; reflexivity|]. split; [vm_compute; reflexivity|]. split; [vm_compute; reflexivity|]. split; [vm_compute; discriminate|vm_compute; reflexivity].
Qed.

(** An instruction at line 0 (allowed on 3.11 and later) can be written, but not read again: the
    location table gives it the end line 0, which InstrLocation refuses. *)
Definition ex_line0 : bytecode := mkB meta0 []
  [BI (mkInstr "LOAD_CONST" 100 ONone (Some (line_loc (Some 0)))); BI (mkInstr "RETURN_VALUE" 83 OUnset (Some (line_loc (Some 1))))].
Theorem C74_line_zero_refuted : writable V311 T311 ex_line0
  /\ exists co, bytecode_to_code V311 T311 dis_effect311 keq0 None None true true ex_line0 = Ok co
     /\ bytecode_from_code V311 T311 true false co = Err ValueError
     /\ from_code V311 T311 co false = Err ValueError.
Proof.
  split; [apply check_writable_ok; [exact T311_wf|]; vm_compute; reflexivity|].
  eexists. split; [vm_compute; reflexivity|]. split; vm_compute; reflexivity.
Qed.
Print Assumptions C74_line_zero_refuted.

(** A ConcreteBytecode with an argument of three bytes and a forced EXTENDED_ARG, inline caches, a
    SetLineno and instructions without location: its hypotheses, and what is read back. *)
Definition cache : cinstr := mkC "CACHE" 0 (Some 0) None None 2.
Definition ex_conc : cbytecode :=
  mkCB meta0
    [CSet 7; CI (mkC "LOAD_CONST" 100 (Some 70000) None None 6);
     CI (mkC "LOAD_FAST" 124 (Some 0) (Some (mkLoc (Some 8) (Some 9) (Some 1) (Some 2))) (Some 2) 6);
     CI (mkC "LOAD_ATTR" 106 (Some 0) None None 2); CI cache; CI cache; CI cache; CI cache;
     CSet 12; CI (mkC "RETURN_VALUE" 83 None None None 2)] [ONone] ["a"] ["x"] [mkEx 0 1 2 0 true].
Example C74_ex :
  (exists co, to_code_raw V311 T311 ex_conc 1 = Ok co)
  /\ whole V311 T311 (instrs_of (cb_items ex_conc))
  /\ (forall c l, In (CI c) (cb_items ex_conc) -> c_loc c = Some l -> coherent_loc V311 l)
  /\ Forall (fun x => coherent_loc V311 (kept_loc (snd x))) (placed None (m_first_lineno (cb_meta ex_conc)) (cb_items ex_conc)).
Proof.
  assert (CA : inline_cache cache) by (unfold inline_cache; cbn; intuition).
  split; [eexists; vm_compute; reflexivity|]. split.
  { change (instrs_of (cb_items ex_conc)) with
      (mkC "LOAD_CONST" 100 (Some 70000) None None 6 :: [] ++ mkC "LOAD_FAST" 124 (Some 0) (Some (mkLoc (Some 8) (Some 9) (Some 1) (Some 2))) (Some 2) 6 :: []
       ++ mkC "LOAD_ATTR" 106 (Some 0) None None 2 :: [cache; cache; cache; cache] ++ mkC "RETURN_VALUE" 83 None None None 2 :: [] ++ []).
    repeat match goal with
    | |- whole _ _ [] => constructor
    | |- whole _ _ (_ :: _) => apply whole_cons; [|discriminate|vm_compute; reflexivity|vm_compute; reflexivity|repeat (constructor; [exact CA|]); constructor|]
    end.
    - split; [|split; [discriminate|discriminate]]. unfold legal_cinstr. cbn [c_name c_op c_arg c_ext c_size].
      split; [vm_compute; reflexivity|]. split; [vm_compute; reflexivity|]. split; [split; [lia|left; vm_compute; reflexivity]|]. exists 3. split; [reflexivity|]. split; [lia|]. split; [reflexivity|right; vm_compute; discriminate].
    - split; [|split; [discriminate|]]. unfold legal_cinstr. cbn [c_name c_op c_arg c_ext c_size].
      split; [vm_compute; reflexivity|]. split; [vm_compute; reflexivity|]. split; [split; [lia|left; vm_compute; reflexivity]|reflexivity].
      cbn. intros k H. injection H as <-. lia.
    - split; [|split; [discriminate|discriminate]]. unfold legal_cinstr. cbn [c_name c_op c_arg c_ext c_size].
      split; [vm_compute; reflexivity|]. split; [vm_compute; reflexivity|]. split; [split; [lia|left; vm_compute; reflexivity]|]. exists 1. split; [reflexivity|]. split; [lia|]. split; [reflexivity|now left].
    - split; [|split; [discriminate|discriminate]]. unfold legal_cinstr. cbn [c_name c_op c_arg c_ext c_size].
      split; [vm_compute; reflexivity|]. split; [vm_compute; reflexivity|]. split; [vm_compute; reflexivity|]. exists 1. split; [reflexivity|]. split; [lia|reflexivity]. }
  split.
  - intros c l I E. cbn in I. repeat (destruct I as [I|I]; [try discriminate; injection I as <-; cbn in E; try discriminate; injection E as <-; apply coherentb_ok; vm_compute; reflexivity|]). destruct I.
  - repeat (constructor; [apply coherentb_ok; vm_compute; reflexivity|]). constructor.
Qed.
