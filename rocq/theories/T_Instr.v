(** Property theorems about single instructions and locations: C01, C02, C04 - C08 and
    the instruction part of C48. *)
From Verif Require Import PyBase OpTable Table311 CPy M_Instr P_Base P_Asm S_Args P_Instr P_Instr2.
Open Scope string_scope.
Open Scope list_scope.
Open Scope Z_scope.

(** C01. *)
Theorem C01_size_is_encoded_length : forall v T name arg l i,
  wf_optable v T = true ->
  new_cinstr v T name arg l None = Ok i ->
  zlen (assemble T i) = c_size i
  /\ exists k, c_size i = 2 * k
       /\ digits256 (match c_arg i with Some a => a | None => 0 end) k.
Proof.
  intros v T name arg l i wf H. apply new_cinstr_ok in H. destruct H as (V & _ & _ & _ & X).
  exact (assemble_size_auto v T wf i V X).
Qed.
Print Assumptions C01_size_is_encoded_length.

Example C01_ex : exists i, new_cinstr V311 T311 "LOAD_CONST" (OInt 70000) None None = Ok i
  /\ c_size i = 6.
Proof. eexists. split; vm_compute; reflexivity. Qed.

(** C02. Any instruction, with any forced number of EXTENDED_ARG, followed by anything. *)
Theorem C02_assembled_instruction_decodes : forall v T name arg l ext i rest,
  wf_optable v T = true ->
  new_cinstr v T name arg l ext = Ok i -> name <> "EXTENDED_ARG" ->
  executed (t_extended_arg T) 0 0 (assemble T i ++ rest) =
    (zlen (assemble T i) / 2 - 1, c_op i, match c_arg i with Some a => a | None => 0 end)
    :: executed (t_extended_arg T) 0 0 rest
  /\ c_arg i = carg_of arg /\ opmap T name = Some (c_op i).
Proof.
  intros v T name arg l ext i rest wf H N. apply new_cinstr_ok in H.
  destruct H as (V & A & B & _ & _). subst name.
  split; [apply (assemble_decode v T wf i rest V N)|]. split; [assumption|apply V].
Qed.
Print Assumptions C02_assembled_instruction_decodes.

Example C02_ex : exists i, new_cinstr V311 T311 "LOAD_CONST" (OInt 70000) None (Some 3) = Ok i
  /\ executed (t_extended_arg T311) 0 0 (assemble T311 i) = [(3, 100, 70000)].
Proof. eexists. split; vm_compute; reflexivity. Qed.

(** C04 is false: three ways in which the size is not the number of bytes. *)
Theorem C04_forced_size_refuted :
  ~ (forall v T name arg l ext i, wf_optable v T = true ->
       new_cinstr v T name arg l ext = Ok i -> zlen (assemble T i) = c_size i).
Proof.
  intros H.
  specialize (H V311 T311 "NOP" OUnset None (Some 1)
    (mkC "NOP" 9 None None (Some 1) 4) T311_wf eq_refl). discriminate H.
Qed.
Print Assumptions C04_forced_size_refuted.

Example C04_too_small : exists i, new_cinstr V311 T311 "LOAD_CONST" (OInt 70000) None (Some 1) = Ok i
  /\ c_size i = 4 /\ zlen (assemble T311 i) = 6.
Proof. eexists. repeat split; vm_compute; reflexivity. Qed.
Example C04_zero : exists i, new_cinstr V311 T311 "LOAD_CONST" (OInt 300) None (Some 0) = Ok i
  /\ c_size i = 2 /\ zlen (assemble T311 i) = 4.
Proof. eexists. repeat split; vm_compute; reflexivity. Qed.

(** C04, what holds: the size is right exactly when the forced number is at least the
    number of EXTENDED_ARG the argument needs (or is 0 without argument). *)
Theorem C04_forced_size_partial : forall v T name arg l n i k,
  wf_optable v T = true ->
  new_cinstr v T name arg l (Some n) = Ok i ->
  digits256 (match c_arg i with Some a => a | None => 0 end) k ->
  (zlen (assemble T i) = c_size i <->
   match c_arg i with Some _ => k - 1 <= n | None => n = 0 end).
Proof.
  intros v T name arg l n i k wf H D. apply new_cinstr_ok in H.
  destruct H as (V & _ & _ & _ & X).
  destruct (assemble_size_forced v T wf i n k V X D) as [A B]. rewrite A, B.
  assert (1 <= k) by apply D. destruct (c_arg i) as [a|]; [|lia].
  destruct (Z.eqb_spec n 0); lia.
Qed.
Print Assumptions C04_forced_size_partial.

(** C05 for Instr. *)
Theorem C05_instr_stays_legal : forall v T name arg ln lo i ops,
  wf_optable v T = true -> new_instr v T name arg ln lo = Ok i ->
  legal_instr v T (run v T i ops).
Proof.
  intros v T name arg ln lo i ops wf H. apply run_legal; [assumption|].
  now apply (new_instr_val v T wf) in H.
Qed.
Print Assumptions C05_instr_stays_legal.

Theorem C05_failed_mutation_changes_nothing : forall v T i o i' e,
  wf_optable v T = true -> instr_step v T i o = (i', Err e) -> i' = i.
Proof. intros v T i o i' e wf. exact (instr_step_err v T wf i o i' e). Qed.
Print Assumptions C05_failed_mutation_changes_nothing.

(** A successful set() stores what was given. *)
Theorem C05_set_stores : forall v T i n a i',
  wf_optable v T = true -> instr_step v T i (IopSet n a) = (i', Ok tt) ->
  i_name i' = n /\ i_arg i' = a /\ i_loc i' = i_loc i.
Proof.
  intros v T i n a i' wf H. destruct (instr_set_spec v T wf _ _ _ _ _ H) as (A & B & C & _).
  auto.
Qed.
Print Assumptions C05_set_stores.

(** C05 for ConcreteInstr. *)
Theorem C05_concrete_stays_legal : forall v T name arg l ext i ops,
  wf_optable v T = true -> new_cinstr v T name arg l ext = Ok i ->
  legal_cinstr v T (crun v T i ops).
Proof.
  intros v T name arg l ext i ops wf H. apply crun_legal; [assumption|].
  apply valid_legal; [assumption|]. now apply new_cinstr_ok in H.
Qed.
Print Assumptions C05_concrete_stays_legal.

Theorem C05_failed_concrete_mutation_changes_nothing : forall v T i o i' e,
  cinstr_step v T i o = (i', Err e) -> i' = i.
Proof. intros v T i o i' e. exact (cinstr_step_err v T i o i' e). Qed.
Print Assumptions C05_failed_concrete_mutation_changes_nothing.

(** The history goes through both successes and failures. *)
Example C05_ex :
  exists i, new_instr V311 T311 "LOAD_CONST" (OInt 3) (LLine 7) None = Ok i
  /\ run V311 T311 i [IopName "NOP"; IopSet "LOAD_FAST" (OStr "x"); IopArg (OInt 2)]
     = mkInstr "LOAD_FAST" 124 (OStr "x") (Some (line_loc (Some 7))).
Proof. eexists. split; vm_compute; reflexivity. Qed.

(** C06. *)
Theorem C06_instr_accepts_documented_arguments : forall v T name arg,
  wf_optable v T = true ->
  ((exists i, new_instr v T name arg LUnset None = Ok i) <->
   exists op, opmap T name = Some op /\ op < t_min_instrumented T
     /\ name <> "EXTENDED_ARG" /\ doc_arg v T op arg).
Proof.
  intros v T name arg wf. rewrite (new_instr_iff v T wf). cbn. intuition.
Qed.
Print Assumptions C06_instr_accepts_documented_arguments.

Example C06_ex : exists i, new_instr V311 T311 "LOAD_GLOBAL" (OTuple [OBool true; OStr "f"])
   LUnset None = Ok i.
Proof. eexists. vm_compute. reflexivity. Qed.
Example C06_ex_rejected : new_instr V311 T311 "LOAD_GLOBAL" (OStr "f") LUnset None = Err TypeError.
Proof. vm_compute. reflexivity. Qed.

(** C07. *)
Theorem C07_location_accepts_coherent : forall v l el c ec,
  (exists lo, new_location v l el c ec = Ok lo) <-> coherent v l el c ec.
Proof. exact new_location_iff. Qed.
Print Assumptions C07_location_accepts_coherent.

Theorem C07_location_stores : forall v l el c ec lo,
  new_location v l el c ec = Ok lo -> lo = mkLoc l el c ec.
Proof. exact new_location_val. Qed.
Print Assumptions C07_location_stores.

Example C07_ex : new_location V311 (Some 3) (Some 4) (Some 9) (Some 2)
  = Ok (mkLoc (Some 3) (Some 4) (Some 9) (Some 2)).
Proof. reflexivity. Qed.

(** C08. *)
Theorem C08_line_setter : forall v l x,
  (detailed l -> set_lineno v l x = (l, Err RuntimeError))
  /\ (~ detailed l -> line_ok v x ->
      exists l', set_lineno v l x = (l', Ok tt) /\ loc_lineno l' = x /\ ~ detailed l')
  /\ (~ detailed l -> ~ line_ok v x -> exists e, set_lineno v l x = (l, Err e)).
Proof. exact set_lineno_spec. Qed.
Print Assumptions C08_line_setter.

(** C48, instructions: copy() of an Instr is the same instruction. *)
Theorem C48_instr_copy : forall v T name arg ln lo i ops,
  wf_optable v T = true -> new_instr v T name arg ln lo = Ok i ->
  instr_copy v T (run v T i ops) = Ok (run v T i ops).
Proof.
  intros v T name arg ln lo i ops wf H. apply instr_copy_ok; [assumption|].
  eapply C05_instr_stays_legal; eauto.
Qed.
Print Assumptions C48_instr_copy.

(** copy() of a ConcreteInstr keeps name, argument and location ... *)
Theorem C48_concrete_copy_partial : forall v T name arg l ext i ops,
  wf_optable v T = true -> new_cinstr v T name arg l ext = Ok i ->
  exists c, cinstr_copy v T (crun v T i ops) = Ok c
    /\ c_name c = c_name (crun v T i ops) /\ c_op c = c_op (crun v T i ops)
    /\ c_arg c = c_arg (crun v T i ops) /\ c_loc c = c_loc (crun v T i ops)
    /\ (c_ext (crun v T i ops) = None -> c = crun v T i ops).
Proof.
  intros v T name arg l ext i ops wf H.
  pose proof (C05_concrete_stays_legal v T name arg l ext i ops wf H) as L.
  set (j := crun v T i ops) in *.
  eexists. split; [apply cinstr_copy_ok; assumption|]. cbn.
  repeat split. intros X. apply legal_valid in L; [|assumption].
  pose proof (vc_size _ _ _ L) as S. rewrite X in S.
  destruct j; cbn in *. now subst.
Qed.
Print Assumptions C48_concrete_copy_partial.

(** ... but not the forced EXTENDED_ARG, hence not the encoded size. *)
Theorem C48_concrete_copy_size_refuted :
  ~ (forall v T name arg l ext i c, wf_optable v T = true ->
      new_cinstr v T name arg l ext = Ok i -> cinstr_copy v T i = Ok c -> c_size c = c_size i).
Proof.
  intros H.
  specialize (H V311 T311 "LOAD_CONST" (OInt 3) None (Some 1)
    (mkC "LOAD_CONST" 100 (Some 3) None (Some 1) 4)
    (mkC "LOAD_CONST" 100 (Some 3) None None 2) T311_wf eq_refl eq_refl). discriminate H.
Qed.
Print Assumptions C48_concrete_copy_size_refuted.
