(** Property theorems about the round trip of a code object: C03. *)
From Verif Require Import PyBase OpTable Table311 TablesEx CPy M_Instr M_Tables M_Concrete P_Base P_OpTable
  S_Lines S_Round P_Round P_Round2 P_Round3.
Open Scope string_scope.
Open Scope list_scope.
Open Scope Z_scope.

(** C03 is false in one case: an EXTENDED_ARG before a NOP is lost when EXTENDED_ARG are folded
    (which the library does by default), together with its two bytes. *)
Theorem C03_code_round_trip_refuted :
  ~ (forall v T co cb s co', wf_optable v T = true -> Nat.Even (length (co_code co)) ->
     (forall k op b, nth_error (co_code co) (2 * k) = Some op -> nth_error (co_code co) (2 * k + 1) = Some b ->
        exists name, opmap T name = Some op /\ 0 <= b < 256 /\ (opcode_has_argument v T op = false -> b = 0)) ->
     from_code v T co false = Ok cb -> to_code_raw v T cb s = Ok co' -> co_code co' = co_code co).
Proof.
  intros H.
  pose (co := mkCode 0 0 0 0 1 0 [144; 0; 9; 0; 100; 0; 83; 0] [ONone] [] [] "f" "f" "f" 1 [131; 0] [] [] []).
  destruct (from_code V311 T311 co false) as [cb|] eqn:F; [|vm_compute in F; discriminate].
  destruct (to_code_raw V311 T311 cb 1) as [co'|] eqn:TC.
  - specialize (H V311 T311 co cb 1 co' T311_wf ltac:(exists 4%nat; reflexivity)).
    assert (K : forall k op b, nth_error (co_code co) (2 * k) = Some op -> nth_error (co_code co) (2 * k + 1) = Some b ->
        exists name, opmap T311 name = Some op /\ 0 <= b < 256 /\ (opcode_has_argument V311 T311 op = false -> b = 0)).
    { intros k op b N1 N2. destruct k as [|[|[|[|k]]]]; [cbn in N1, N2; injection N1 as <-; injection N2 as <- ..|].
      - exists "EXTENDED_ARG". repeat split; try lia. 
      - exists "NOP". repeat split; try lia.
      - exists "LOAD_CONST". repeat split; try lia.
      - exists "RETURN_VALUE". repeat split; try lia.
      - exfalso. assert (X : nth_error (co_code co) (2 * S (S (S (S k)))) <> None) by congruence. apply nth_error_Some in X. cbn in X. lia. }
    specialize (H K F TC). vm_compute in F. injection F as <-.
    vm_compute in TC. injection TC as <-. vm_compute in H. discriminate.
  - vm_compute in F. injection F as <-. vm_compute in TC. discriminate.
Qed.
Print Assumptions C03_code_round_trip_refuted.

(** C03, proved part: the bytes come back for all code in which EXTENDED_ARG stands before
    instructions that take an argument, folded or not, on every version.  Missing: the case
    above, for which the claim is false. *)
Theorem C03_code_round_trip_partial : forall v T co extended_arg cb stacksize co',
  wf_optable v T = true -> normal v T 0 false (co_code co) ->
  from_code v T co extended_arg = Ok cb -> to_code_raw v T cb stacksize = Ok co' ->
  co_code co' = co_code co.
Proof. intros v T co e cb s co' wf. exact (round_bytes v T wf co e cb s co'). Qed.
Print Assumptions C03_code_round_trip_partial.

(** Such code is accepted: if the opcodes are not instrumented ones, the arguments written with
    EXTENDED_ARG are in range, and the lines and columns of the code object are coherent. *)
Theorem C03_code_accepted_partial : forall v T co extended_arg,
  wf_optable v T = true -> normal v T 0 false (co_code co) ->
  (forall k op, nth_error (co_code co) (2 * k) = Some op -> op < t_min_instrumented T) ->
  (extended_arg = false -> forall n op a,
     In (n, op, a) (executed (t_extended_arg T) 0 0 (co_code co)) -> a <= 2147483647) ->
  (PY311 v = true -> forall l el c ec, In (l, el, c, ec) (co_positions (co_firstlineno co) (co_linetable co)) ->
     exists lo, new_location v l el c ec = Ok lo) ->
  (PY311 v = false -> 1 <= co_firstlineno co /\ forall q z, In (q, Some z) (line_starts v co) -> 1 <= z) ->
  exists cb, from_code v T co extended_arg = Ok cb.
Proof.
  intros v T co e wf N OB AR PO LN. unfold from_code.
  assert (D : exists l, disassemble_code v T co = Ok l).
  { unfold disassemble_code. destruct (PY311 v) eqn:P.
    - apply (from_units_total v T wf (length (co_code co)) (co_code co) 0 false 0 _ (le_n _) P N OB eq_refl). now apply PO.
    - destruct (LN eq_refl) as [L1 L2].
      assert (X := from_bytes_total v T wf (length (co_code co)) [] (co_code co) 0 false (line_starts v co) (Some (co_firstlineno co)) P (le_n _) eq_refl N OB).
      replace (units v (2 * 0)) with 0 in X by (unfold units; destruct (OFFSET_AS_INSTRUCTION v); reflexivity). apply X.
      + intros q z G. apply (dget_In Z.eqb) in G; [|intros; now apply Z.eqb_eq]. eauto.
      + intros z Q. injection Q as <-. exact L1. }
  destruct D as (l & D). rewrite D. cbn [bind]. destruct (disassemble_bytes v T wf _ _ N D) as [B U]. destruct e; [cbn [bind]; eauto|].
  destruct (remove_total v T wf l [] (Forall_nil _) U) as (l' & R).
  - rewrite B. exact (AR eq_refl).
  - change (zlen []) with 0 in R. rewrite R. cbn [bind]. eauto.
Qed.
Print Assumptions C03_code_accepted_partial.

(** On 3.11+ the result can always be assembled, and every code unit keeps its position and
    every entry of the exception table comes back, provided there is one position per code
    unit, none spans lines without columns (which the library cannot write, see C13), and, when
    EXTENDED_ARG are folded, an EXTENDED_ARG has the position of its instruction. *)
Theorem C03_positions_round_trip_partial : forall v T co extended_arg cb stacksize,
  wf_optable v T = true -> PY311 v = true -> normal v T 0 false (co_code co) ->
  let pos := co_positions (co_firstlineno co) (co_linetable co) in
  (2 * length pos = length (co_code co))%nat ->
  (forall p, In p pos -> match p with (Some l, Some el, None, _) => l = el | _ => True end) ->
  (extended_arg = false -> forall k, nth_error (co_code co) (2 * k) = Some (t_extended_arg T) ->
     nth_error pos k = nth_error pos (S k)) ->
  from_code v T co extended_arg = Ok cb ->
  exists co', to_code_raw v T cb stacksize = Ok co'
  /\ co_positions (co_firstlineno co') (co_linetable co') = pos
  /\ parse_exception_table (co_exceptiontable co') = parse_exception_table (co_exceptiontable co).
Proof.
  intros v T co e cb s wf P N pos LP SP SE F. apply (round_positions v T wf co e cb s P N LP); auto.
  intros p IP. specialize (SP p IP). unfold spanning. destruct p as [[[[l|] [el|]] [c|]] ec]; tauto.
Qed.
Print Assumptions C03_positions_round_trip_partial.

(** The other attributes come back whatever the code. *)
Theorem C03_attributes_round_trip : forall v T co extended_arg cb stacksize co',
  from_code v T co extended_arg = Ok cb -> to_code_raw v T cb stacksize = Ok co' ->
  co_argcount co' = co_argcount co /\ co_posonly co' = co_posonly co /\ co_kwonly co' = co_kwonly co
  /\ co_flags co' = co_flags co /\ co_consts co' = co_consts co /\ co_names co' = co_names co
  /\ co_varnames co' = co_varnames co /\ co_nlocals co' = zlen (co_varnames co)
  /\ co_filename co' = co_filename co /\ co_name co' = co_name co
  /\ (PY311 v = true -> co_qualname co' = co_qualname co)
  /\ co_firstlineno co' = co_firstlineno co /\ co_freevars co' = co_freevars co
  /\ co_cellvars co' = co_cellvars co /\ co_stacksize co' = stacksize.
Proof.
  intros v T co e cb s co' F TC. unfold from_code in F. inv_ok. unfold to_code_raw in TC.
  destruct (assemble_code v T _) as [code ln]. inv_ok. cbn. repeat split. intros ->. reflexivity.
Qed.
Print Assumptions C03_attributes_round_trip.

(** A function with a call, an EXTENDED_ARG, an exception table and positions. *)
Definition ex_code : codeobj :=
  mkCode 0 0 0 0 3 3
    ([151; 0; 144; 1; 116; 2] ++ concat (repeat [0; 0] 5) ++ [144; 0; 144; 2; 100; 7; 171; 1] ++ concat (repeat [0; 0] 4) ++ [1; 0; 100; 0; 83; 0])
    [ONone; OInt 5] ["print"] [] "f.py" "f" "f" 10
    [0xE8; 0; 0x96; 0x35; 0xF7; 4; 1; 6; 10; 0xDA; 4; 9] [130; 5; 18; 3] [] [].
Example C03_ex :
  normal V311 T311 0 false (co_code ex_code)
  /\ exists cb co', from_code V311 T311 ex_code false = Ok cb /\ to_code_raw V311 T311 cb 3 = Ok co'
     /\ length (cb_items cb) = 16%nat /\ length (co_code co') = 38%nat
     /\ length (co_positions 10 (co_linetable ex_code)) = 19%nat
     /\ map (nth_error (co_positions 10 (co_linetable co'))) [0; 1; 8; 16]%nat
        = [Some (Some 10, Some 10, None, None); Some (Some 10, Some 10, Some 19, Some 24);
           Some (Some 12, Some 13, Some 5, Some 9); Some (Some 13, Some 13, Some 4, Some 9)]
     /\ parse_exception_table (co_exceptiontable co') = [mkEx 2 6 18 1 true].
Proof.
  split; [apply (normalb_normal V311 T311 T311_wf 100); [cbn; lia|vm_compute; reflexivity]|].
  eexists. eexists. split; [vm_compute; reflexivity|]. split; [vm_compute; reflexivity|]. vm_compute. repeat split.
Qed.
