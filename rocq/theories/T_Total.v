(** Property theorems: every well-formed program is assembled (C56). *)
From Verif Require Import PyBase OpTable CPy Table311 TablesEx P_Base P_OpTable M_Instr M_Tables M_Concrete M_Convert S_Args S_Lines S_Asm S_Prog S_Slots S_Dis S_Ident S_Code
  M_Bytecode M_Cfg M_Stack S_Cfg CPyEffect P_CfgSeq P_CfgFrom P_Ident P_Full T_Asm T_Args T_Ident T_Meta T_Code M_Full T_Full S_Total P_Total3 P_Total4.
Open Scope string_scope.
Open Scope list_scope.
Open Scope Z_scope.

(** C56.  Bytecode.to_concrete_bytecode() of an assemblable program raises nothing but the
    RuntimeError of too few passes. *)
Theorem C56_assembles_or_more_passes : forall v T se keq passes b,
  wf_optable v T = true -> assemblable v T b ->
  to_concrete_bytecode v T se keq passes false b = Err RuntimeError
  \/ exists cb, to_concrete_bytecode v T se keq passes false b = Ok cb.
Proof.
  intros v T se keq passes b wf A. unfold to_concrete_bytecode. rewrite andb_false_r. cbn [bind]. now apply assemble_total.
Qed.
Print Assumptions C56_assembles_or_more_passes.

(** With three passes for each jump, and one more, it always returns. *)
Theorem C56_assembles : forall v T se keq passes b,
  wf_optable v T = true -> assemblable v T b ->
  3 * zlen (filter takes_label (b_items b)) < Z.of_nat (passes_of passes) ->
  exists cb, to_concrete_bytecode v T se keq passes false b = Ok cb.
Proof.
  intros v T se keq passes b wf A L. unfold to_concrete_bytecode. rewrite andb_false_r. cbn [bind]. now apply assemble_ok.
Qed.
Print Assumptions C56_assembles.

(** Bytecode.to_code() with a given stack size: it returns a code object, which runs the program.
    Where the paired instructions of 3.13 use variables beyond the sixteenth, it still returns. *)
Theorem C56_code_made : forall v T se keq passes stacksize check b,
  wf_optable v T = true -> sound_key keq -> assemblable v T b -> recordable v b -> locations_ok v b ->
  3 * zlen (filter takes_label (b_items b)) < Z.of_nat (passes_of passes) ->
  exists co, bytecode_to_code v T se keq passes (Some stacksize) check false b = Ok co
  /\ co_stacksize co = stacksize
  /\ (pairs_near v T b (co_varnames co) -> runs v T co (source b)).
Proof.
  intros v T se keq passes s check b wf SK A R LO L.
  destruct (assemble_ok v T keq wf (passes_of passes) b A L) as (cb & E).
  destruct (record_total v T keq wf (passes_of passes) b cb s A R E) as (co & E2).
  assert (W : writable v T b).
  { pose proof (am_build _ _ _ A) as AB. constructor; try apply AB; [intros i I; apply (am_legal _ _ _ AB i I)|intros i I; apply (am_legal _ _ _ AB i I)|exact LO]. }
  exists co. split; [|split].
  - unfold bytecode_to_code, to_concrete_bytecode, concrete_to_code. rewrite andb_false_r. cbn [bind]. rewrite andb_false_r. cbn [bind]. rewrite E. cbn [bind]. exact E2.
  - unfold to_code_raw in E2. destruct (assemble_code v T cb) as [x y]. apply bind_ok in E2. destruct E2 as (? & _ & E2).
    apply bind_ok in E2. destruct E2 as (? & _ & E2). injection E2 as <-. reflexivity.
  - intros PN. apply (write_ok v T keq (passes_of passes) b b cb s co wf SK); auto.
    split; [exact W|]. repeat split; auto.
Qed.
Print Assumptions C56_code_made.

(** ** Examples *)
Definition check_buildable (v : pyver) (T : optable) (b : bytecode) : bool :=
  let items := b_items b in
  check_writable v T b
  && forallb (fun x => let '(k, (n, a, l, h)) := x in
       match a, opmap T n with
       | PTo (Some t), Some op => if z_mem op (t_hasjrel T) then if str_contains "BACKWARD" n then (t <=? k)%nat else (k <? t)%nat else true
       | _, _ => true end) (combine (seq 0 (length (source b))) (source b))
  && forallb (fun it => match it with
       | BI i => (match i_arg i with
                 | OCell n => str_mem n (m_cellvars (b_meta b)) | OFree n => str_mem n (m_freevars (b_meta b)) | _ => true end)
                 && (if is_dual v T (i_op i) then match i_arg i with OTuple [OStr _; OStr _] => true | _ => false end else true)
       | _ => true end) items
  && (zlen (filter an_instr items) <=? 1000000)
  && (zlen (b_argnames b) + zlen (m_cellvars (b_meta b)) + zlen (m_freevars (b_meta b)) <=? 2000000000)
  && forallb (fun x => match l_col (snd (fst x)), l_end_lineno (snd (fst x)) with
       | None, Some e => match l_lineno (snd (fst x)) with Some s => s =? e | None => false end | _, _ => true end) (source b).
Definition check_assemblable (v : pyver) (T : optable) (b : bytecode) : bool :=
  check_buildable v T b && forallb (fun it => match it with BTB _ _ _ None => false | BTB _ _ _ (Some z) => 0 <=? z | _ => true end) (b_items b).
Lemma numbered_nth {A} (l : list A) : forall s k x, nth_error l k = Some x ->
  nth_error (combine (seq s (length l)) l) k = Some ((s + k)%nat, x).
Proof.
  induction l as [|y l IH]; intros s [|k] x E; cbn in E; try discriminate.
  - injection E as ->. cbn. now rewrite Nat.add_0_r.
  - cbn. rewrite (IH (S s) k x E). now rewrite Nat.add_succ_r.
Qed.
Lemma check_buildable_ok v T b : wf_optable v T = true -> check_buildable v T b = true ->
  buildable v T b /\ locations_fit v b /\ locations_ok v b.
Proof.
  unfold check_buildable. intros wf X. do 5 (apply andb_true_iff in X; destruct X as [X ?]).
  rename H3 into D, H2 into F, H1 into S1, H0 into S2, H into LL.
  pose proof (check_writable_ok v T b wf X) as [W1 W2 W3 W4 W5 W6].
  rewrite forallb_forall in D, F, LL.
  split; [|split; [|exact W6]].
  - constructor; auto; try (apply Z.leb_le; assumption).
    + intros k n t l h op N O J.
      assert (I : In (k, (n, PTo (Some t), l, h)) (combine (seq 0 (length (source b))) (source b))).
      { apply nth_error_In with (n := k). rewrite (numbered_nth _ 0 _ _ N). reflexivity. }
      specialize (D _ I). cbv beta iota in D. rewrite O in D.
      apply z_mem_In in J. rewrite J in D. destruct (str_contains _ _); [now apply Nat.leb_le|now apply Nat.ltb_lt].
    + intros i n I _ E. specialize (F _ I). cbv beta iota in F. rewrite E in F. apply andb_true_iff in F. now apply str_mem_In.
    + intros i n I _ E. specialize (F _ I). cbv beta iota in F. rewrite E in F. apply andb_true_iff in F. now apply str_mem_In.
    + intros i I E. specialize (F _ I). cbv beta iota in F. rewrite E in F. apply andb_true_iff in F. destruct F as [_ F].
      destruct (i_arg i) as [|?|?|?|t| |?|?|?|?|?|?|?|? ?]; try discriminate; destruct t as [|[] [|[] []]]; try discriminate; eauto.
  - intros _ n a l h I. split; [apply (W6 _ _ _ _ I)|]. specialize (LL _ I). cbn [fst snd] in LL. intros (C & e & E & N).
    rewrite C, E in LL. destruct (l_lineno l) as [z|]; [|discriminate]. apply Z.eqb_eq in LL. congruence.
Qed.
Lemma check_assemblable_ok v T b : wf_optable v T = true -> check_assemblable v T b = true ->
  assemblable v T b /\ recordable v b /\ locations_ok v b.
Proof.
  intros wf X. apply andb_true_iff in X. destruct X as [X F]. destruct (check_buildable_ok v T b wf X) as (A & LF & LO).
  rewrite forallb_forall in F. split; [|split; [|exact LO]]; constructor; auto.
  - intros id t la d I. specialize (F _ I). cbv beta iota in F. destruct d; [eauto|discriminate].
  - intros _ id t la z I. specialize (F _ I). cbv beta iota in F. now apply Z.leb_le.
Qed.

(** The program of C51 with the depth given, and a loop: the hypotheses are met with the default
    number of passes, and the jumps need several passes. *)
Definition ex56 : bytecode := mkB meta0 ["x"]
  ([BSet 4; ins "RESUME" (OInt 0); BLabel 5; ins "LOAD_FAST" (OStr "x"); ins "POP_JUMP_FORWARD_IF_FALSE" (OLabel 1);
    ins "LOAD_FAST" (OStr "x"); BTB 7 (OLabel 3) true (Some 1); ins "LOAD_GLOBAL" (OTuple [OBool true; OStr "f"]); ins "POP_TOP" OUnset; ins "POP_TOP" OUnset; BTE 7;
    BSet 9; ins "POP_TOP" OUnset]
   ++ repeat (ins "NOP" OUnset) 300
   ++ [ins "JUMP_BACKWARD" (OLabel 5); BLabel 1; ins "LOAD_CONST" ONone; ins "RETURN_VALUE" OUnset; BLabel 3; ins "POP_TOP" OUnset; ins "POP_TOP" OUnset; ins "RETURN_VALUE" OUnset]).
Example C56_ex : assemblable V311 T311 ex56 /\ recordable V311 ex56 /\ locations_ok V311 ex56
  /\ 3 * zlen (filter takes_label (b_items ex56)) < Z.of_nat (passes_of None)
  /\ to_concrete_bytecode V311 T311 dis_effect311 keq0 (Some 1%nat) false ex56 = Err RuntimeError.
Proof.
  destruct (check_assemblable_ok V311 T311 ex56 T311_wf) as (A & B & C); [vm_compute; reflexivity|].
  split; [exact A|]. split; [exact B|]. split; [exact C|]. split; vm_compute; reflexivity.
Qed.
