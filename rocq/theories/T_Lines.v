(** Property theorems about line numbers in code objects: C11 - C14.
    [to_code_raw] is ConcreteBytecode.to_code once the optional recomputation is done. *)
From Verif Require Import PyBase OpTable Table311 TablesEx CPy M_Instr M_Tables M_Concrete
  S_Lines P_Base P_Lines P_Locs P_Except P_LinesCode.
Open Scope string_scope.
Open Scope list_scope.
Open Scope Z_scope.

(** C11. On 3.8 and 3.9 assembly always succeeds, and the interpreter finds for every byte
    of every instruction the line in force at that instruction. *)
Theorem C11_lnotab_lines : forall v T cb stacksize,
  PY310 v = false -> Forall (sized T) (cb_items cb) ->
  exists co, to_code_raw v T cb stacksize = Ok co
  /\ co_code co = code_of T (cb_items cb) /\ co_firstlineno co = m_first_lineno (cb_meta cb)
  /\ forall pre c post q, cb_items cb = pre ++ CI c :: post ->
     zlen (code_of T pre) <= q < zlen (code_of T pre) + zlen (assemble T c) ->
     addr2line 0 (co_firstlineno co) q (co_linetable co)
     = current_line (m_first_lineno (cb_meta cb)) (pre ++ [CI c]).
Proof. exact lnotab_code. Qed.
Print Assumptions C11_lnotab_lines.

Definition ex_nop (l : option loc) : citem := CI (mkC "NOP" 9 None l None 2).
Definition at_line (z : Z) : option loc := Some (line_loc (Some z)).
Definition ex_cb (items : list citem) : cbytecode := mkCB meta0 items [] [] [] [].

Example C11_ex :
  let cb := ex_cb (ex_nop (at_line 5) :: repeat (ex_nop (at_line 900)) 200 ++
                   [CSet 3; ex_nop None]) in
  Forall (sized TPre) (cb_items cb)
  /\ exists co, to_code_raw V39 TPre cb 1 = Ok co
     /\ map (fun q => addr2line 0 1 q (co_linetable co)) [0; 1; 2; 400; 402; 403]
        = [5; 5; 900; 900; 3; 3].
Proof.
  split; [repeat (constructor; [reflexivity|]); constructor|].
  eexists. split; vm_compute; reflexivity.
Qed.

(** C12 is false: a run without line is not ended by the line it interrupted. *)
Theorem C12_linetable_refuted :
  ~ (forall T cb stacksize, wf_optable V310 T = true -> Forall (sized T) (cb_items cb) ->
     exists co, to_code_raw V310 T cb stacksize = Ok co
     /\ forall pre c post q, cb_items cb = pre ++ CI c :: post ->
        zlen (code_of T pre) <= q < zlen (code_of T pre) + zlen (assemble T c) ->
        linetable_line 0 (co_firstlineno co) q (co_linetable co)
        = Some (line_shown (current_line (m_first_lineno (cb_meta cb)) pre) c)).
Proof.
  intros H.
  destruct (H TPre (ex_cb [ex_nop (at_line 5); ex_nop (Some (line_loc None)); ex_nop (at_line 5)]) 1)
    as (co & E & R); [vm_compute; reflexivity|repeat (constructor; [reflexivity|]); constructor|].
  vm_compute in E. injection E as <-.
  specialize (R [ex_nop (at_line 5); ex_nop (Some (line_loc None))] _ [] 4 eq_refl).
  vm_compute in R. assert (Some None = Some (Some 5)) by (apply R; split; congruence).
  discriminate.
Qed.
Print Assumptions C12_linetable_refuted.

(** Two other ways in which 3.10 tables go wrong: a run without line longer than 254 bytes
    gets the previous line after 254 bytes; a SetLineno before a run without line shifts
    the line after it. *)
Example C12_long_run :
  exists co, to_code_raw V310 TPre (ex_cb (ex_nop (at_line 5) :: repeat (ex_nop (Some (line_loc None))) 130)) 1
   = Ok co /\ map (fun q => linetable_line 0 1 q (co_linetable co)) [0; 2; 254; 256]
              = [Some (Some 5); Some None; Some None; Some (Some 5)].
Proof. eexists. split; vm_compute; reflexivity. Qed.
Example C12_setlineno :
  exists co, to_code_raw V310 TPre (ex_cb [ex_nop (at_line 5); CSet 8; ex_nop (Some (line_loc None));
                                           ex_nop (at_line 9)]) 1
   = Ok co /\ map (fun q => linetable_line 0 1 q (co_linetable co)) [0; 2; 4]
              = [Some (Some 5); Some None; Some (Some 6)].
Proof. eexists. split; vm_compute; reflexivity. Qed.

(** C12, proved part: whenever the runs of instructions without line avoid the three
    situations above, every byte of every instruction is shown with its line, or without
    line.  Missing: the other programs, for which the claim is false. *)
Theorem C12_linetable_partial : forall T cb stacksize,
  Forall (sized T) (cb_items cb) ->
  no_line_runs_ok (m_first_lineno (cb_meta cb)) (m_first_lineno (cb_meta cb)) None (cb_items cb) ->
  exists co, to_code_raw V310 T cb stacksize = Ok co
  /\ co_code co = code_of T (cb_items cb) /\ co_firstlineno co = m_first_lineno (cb_meta cb)
  /\ forall pre c post q, cb_items cb = pre ++ CI c :: post ->
     zlen (code_of T pre) <= q < zlen (code_of T pre) + zlen (assemble T c) ->
     linetable_line 0 (co_firstlineno co) q (co_linetable co)
     = Some (line_shown (current_line (m_first_lineno (cb_meta cb)) pre) c).
Proof. exact linetable_code. Qed.
Print Assumptions C12_linetable_partial.

(** In particular for every program in which no instruction is explicitly without line;
    assembly succeeds for every program. *)
Theorem C12_linetable_all_lines_partial : forall T cb stacksize,
  Forall (sized T) (cb_items cb) ->
  exists co, to_code_raw V310 T cb stacksize = Ok co
  /\ (Forall (fun it => ~ no_line it) (cb_items cb) ->
      forall pre c post q, cb_items cb = pre ++ CI c :: post ->
      zlen (code_of T pre) <= q < zlen (code_of T pre) + zlen (assemble T c) ->
      linetable_line 0 (co_firstlineno co) q (co_linetable co)
      = Some (Some (current_line (m_first_lineno (cb_meta cb)) (pre ++ [CI c])))).
Proof.
  intros T cb st F. destruct (linetable_code_total T cb st F) as (co & E).
  exists co. split; [assumption|]. intros N pre c post q X B.
  destruct (linetable_code T cb st F (no_line_free _ _ _ N)) as (co' & E' & _ & _ & R).
  assert (co' = co) by congruence. subst co'. rewrite (R pre c post q X B).
  f_equal. rewrite current_line_app. set (cur := current_line _ pre).
  unfold line_shown, current_line. cbn [fold_left].
  rewrite X in N. apply Forall_app in N as [_ N]. inversion_clear N as [|? ? N1 _].
  cbn [no_line] in N1. destruct (c_loc c) as [l|]; [|reflexivity].
  destruct (l_lineno l); [reflexivity|tauto].
Qed.
Print Assumptions C12_linetable_all_lines_partial.

Example C12_ex :
  let cb := ex_cb ([ex_nop (at_line 5); ex_nop (Some (line_loc None)); ex_nop (at_line 600)]
                   ++ repeat (ex_nop None) 200 ++ [CSet 2; ex_nop None]) in
  Forall (sized TPre) (cb_items cb)
  /\ no_line_runs_ok 1 1 None (cb_items cb)
  /\ exists co, to_code_raw V310 TPre cb 1 = Ok co
     /\ map (fun q => linetable_line 0 1 q (co_linetable co)) [0; 2; 4; 404; 406; 408]
        = [Some (Some 5); Some None; Some (Some 600); Some (Some 600); Some (Some 2); None].
Proof.
  split; [repeat (constructor; [reflexivity|]); constructor|].
  split; [vm_compute; repeat split; congruence|].
  eexists. split; vm_compute; reflexivity.
Qed.

(** C13. On 3.11+ every code unit of every located instruction has exactly its position
    (a location without columns is recorded as ending on its line).  Assembly fails for a
    location over several lines without columns, and for no other. *)
Theorem C13_location_table : forall v T cb stacksize,
  PY311 v = true -> Forall (sized T) (cb_items cb) -> Forall (located v) (cb_items cb) ->
  (forall pre c post l, cb_items cb = pre ++ CI c :: post -> c_loc c = Some l ->
     ~ spans_without_columns l) ->
  Forall entry_ok (cb_ex cb) ->
  exists co, to_code_raw v T cb stacksize = Ok co
  /\ co_code co = code_of T (cb_items cb)
  /\ co_positions (co_firstlineno co) (co_linetable co)
     = flat_map (fun c => repeat (match c_loc c with Some l => recorded l | None => (None, None, None, None) end)
                            (Z.to_nat (zlen (assemble T c) / 2)))
         (instrs_of (cb_items cb)).
Proof.
  intros v T cb st V F L S X.
  destruct (location_code v T cb st V F) as (co & E & C & FL & P); [|assumption|].
  { rewrite Forall_forall in L |- *. intros [c|z] I'; [|exact I]. cbn [loc_item_ok].
    intros l Hl. apply in_split in I' as Hs. destruct Hs as (pre & post & Hs).
    specialize (L _ I'). destruct L as (l' & A & B). assert (l' = l) by congruence. subst.
    split; [assumption|]. eapply S; eauto. }
  exists co. split; [assumption|]. split; [assumption|]. rewrite P.
  clear - L. generalize (m_first_lineno (cb_meta cb)), (@None loc).
  induction L as [|[c|z] items L1 L2 IH]; intros cur prev; cbn [filled instrs_of flat_map];
    [reflexivity| |apply IH].
  fold (instrs_of items). cbn [app]. destruct L1 as (l & A & _). rewrite A.
  cbn [flat_map fst snd]. rewrite A, IH. reflexivity.
Qed.
Print Assumptions C13_location_table.

Theorem C13_spanning_location_fails : forall v T cb stacksize co pre c post l,
  PY311 v = true -> cb_items cb = pre ++ CI c :: post -> c_loc c = Some l ->
  coherent_loc v l -> spans_without_columns l -> to_code_raw v T cb stacksize <> Ok co.
Proof.
  intros v T cb st co pre c post l V X L C S H.
  eapply locations_code_bad; eassumption.
Qed.
Print Assumptions C13_spanning_location_fails.

Example C13_ex :
  let l1 := Some (mkLoc (Some 7) (Some 7) (Some 4) (Some 15)) in
  let l2 := Some (mkLoc (Some 900) (Some 1200) (Some 80) (Some 2)) in
  let cb := ex_cb (ex_nop (at_line 5) :: ex_nop l1 :: repeat (ex_nop l2) 20) in
  Forall (sized T311) (cb_items cb) /\ Forall (located V311) (cb_items cb)
  /\ exists co, to_code_raw V311 T311 cb 1 = Ok co
     /\ firstn 3 (co_positions 1 (co_linetable co))
        = [(Some 5, Some 5, None, None); (Some 7, Some 7, Some 4, Some 15);
           (Some 900, Some 1200, Some 80, Some 2)]
     /\ length (co_positions 1 (co_linetable co)) = 22%nat.
Proof.
  split; [repeat (constructor; [reflexivity|]); constructor|].
  split. { repeat (constructor; [eexists; split; [reflexivity|vm_compute; reflexivity]|]). constructor. }
  eexists. split; [vm_compute; reflexivity|]. split; vm_compute; reflexivity.
Qed.

(** C14 is false on 3.11+ when a ConcreteBytecode is assembled as it is: an instruction
    without location takes the location of the previous one, whatever SetLineno says. *)
Theorem C14_inherited_line_refuted :
  ~ (forall v T cb stacksize co, wf_optable v T = true -> Forall (sized T) (cb_items cb) ->
     Forall (fun it => ~ no_line it) (cb_items cb) ->
     to_code_raw v T cb stacksize = Ok co -> PY311 v = true ->
     map (fun p => fst (fst (fst p))) (co_positions (co_firstlineno co) (co_linetable co))
     = flat_map (fun n => match nth_error (cb_items cb) n with
         | Some (CI c) => repeat (Some (current_line (m_first_lineno (cb_meta cb)) (firstn (S n) (cb_items cb))))
                            (Z.to_nat (zlen (assemble T c) / 2))
         | _ => [] end) (seq 0 (length (cb_items cb)))).
Proof.
  intros H.
  destruct (to_code_raw V311 T311 (ex_cb [ex_nop (at_line 5); CSet 8; ex_nop None]) 1)
    as [co|] eqn:E; [|vm_compute in E; discriminate].
  specialize (H V311 T311 (ex_cb [ex_nop (at_line 5); CSet 8; ex_nop None]) 1 co T311_wf).
  assert (F : Forall (sized T311) (cb_items (ex_cb [ex_nop (at_line 5); CSet 8; ex_nop None]))).
  { repeat (constructor; [reflexivity|]); constructor. }
  assert (N : Forall (fun it => ~ no_line it) (cb_items (ex_cb [ex_nop (at_line 5); CSet 8; ex_nop None]))).
  { repeat constructor; intros X; vm_compute in X; congruence || exact X. }
  specialize (H F N E eq_refl). vm_compute in E. injection E as <-. vm_compute in H. discriminate.
Qed.
Print Assumptions C14_inherited_line_refuted.

(** C14, proved part for code objects made from a ConcreteBytecode as it is: on 3.8 and
    3.9 for every program, on 3.10 for every program without explicit "no line" ... *)
Theorem C14_inherited_line_before_311_partial : forall v T cb stacksize,
  PY311 v = false -> Forall (sized T) (cb_items cb) ->
  (v = V310 -> Forall (fun it => ~ no_line it) (cb_items cb)) ->
  exists co, to_code_raw v T cb stacksize = Ok co
  /\ forall pre c post q, cb_items cb = pre ++ CI c :: post ->
     zlen (code_of T pre) <= q < zlen (code_of T pre) + zlen (assemble T c) ->
     (if PY310 v then linetable_line 0 (co_firstlineno co) q (co_linetable co)
      else Some (Some (addr2line 0 (co_firstlineno co) q (co_linetable co))))
     = Some (Some (current_line (m_first_lineno (cb_meta cb)) (pre ++ [CI c]))).
Proof.
  intros v T cb st V F N. destruct (PY310 v) eqn:V10.
  - assert (v = V310) by (destruct v; vm_compute in *; congruence). subst v.
    destruct (C12_linetable_all_lines_partial T cb st F) as (co & E & R). eauto.
  - destruct (lnotab_code v T cb st V10 F) as (co & E & _ & _ & R).
    exists co. split; [assumption|]. intros. now rewrite (R pre c post q).
Qed.
Print Assumptions C14_inherited_line_before_311_partial.

(** ... and on 3.11+ for every program without SetLineno and without explicit "no line":
    the line of each code unit is the line in force. *)
Theorem C14_inherited_line_311_partial : forall v T cb stacksize,
  PY311 v = true -> Forall (sized T) (cb_items cb) ->
  Forall (fun it => ~ no_line it /\ exists c, it = CI c) (cb_items cb) ->
  (forall pre c post l, cb_items cb = pre ++ CI c :: post -> c_loc c = Some l ->
     coherent_loc v l /\ ~ spans_without_columns l) ->
  Forall entry_ok (cb_ex cb) ->
  exists co, to_code_raw v T cb stacksize = Ok co
  /\ map (fun p => fst (fst (fst p))) (co_positions (co_firstlineno co) (co_linetable co))
     = flat_map (fun n => match nth_error (cb_items cb) n with
         | Some (CI c) => repeat (Some (current_line (m_first_lineno (cb_meta cb)) (firstn (S n) (cb_items cb))))
                            (Z.to_nat (zlen (assemble T c) / 2))
         | _ => [] end) (seq 0 (length (cb_items cb))).
Proof.
  intros v T cb st V F N S X.
  destruct (location_code v T cb st V F) as (co & E & C & FL & P); [|assumption|].
  { rewrite Forall_forall. intros [c|z] I'; [|exact I]. cbn [loc_item_ok].
    intros l Hl. apply in_split in I' as Hs. destruct Hs as (pre & post & Hs). eapply S; eauto. }
  exists co. split; [assumption|]. rewrite P. apply filled_lines. exact N.
Qed.
Print Assumptions C14_inherited_line_311_partial.

Example C14_ex :
  let cb := ex_cb [ex_nop None; ex_nop (at_line 5); ex_nop None] in
  exists co, to_code_raw V311 T311 cb 1 = Ok co
  /\ map (fun p => fst (fst (fst p))) (co_positions 1 (co_linetable co)) = [Some 1; Some 5; Some 5].
Proof. eexists. split; vm_compute; reflexivity. Qed.
