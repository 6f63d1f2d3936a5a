(** Property theorems: the whole of to_code() (C51, C52, C53). *)
From Verif Require Import PyBase OpTable CPy Table311 TablesEx CPyEffect P_Base M_Instr M_Tables M_Concrete M_Convert M_Bytecode M_Cfg M_Stack M_Full
  S_Args S_Lines S_Asm S_Prog S_Slots S_Dis S_Cfg S_Stack S_Ident S_Code
  P_Stack4 P_CfgSeq P_CfgTo2 P_Full T_Asm T_Args T_Ident T_Code T_Meta.
Open Scope string_scope.
Open Scope list_scope.
Open Scope Z_scope.

(** ** C51 *)

(** A Bytecode that can be written: its instructions are legal, it has no CACHE of its own, labels
    are defined, try blocks are paired and not empty. *)
Record writable (v : pyver) (T : optable) (b : bytecode) : Prop := {
  w_legal : all_legal v T b;
  w_members : all_members v b;
  w_caches : no_cache (b_items b);
  w_proper : proper T (b_items b);
  w_blocks : bracketed None (b_items b);
  w_locs : locations_ok v b }.

Lemma writable_blocks v T b : writable v T b -> try_blocks (b_items b).
Proof. intros W. split; [|apply (w_blocks _ _ _ W)]. apply (paired_nodup _ None []). apply (S_Cfg.proper_try _ _ (w_proper _ _ _ W)). Qed.

(** what the trip through a graph does to it *)
Definition rewritten (v : pyver) (T : optable) (b b' : bytecode) : Prop :=
  writable v T b' /\ source b' = source b /\ b_meta b' = b_meta b /\ b_argnames b' = b_argnames b
  /\ forall vars, pairs_near v T b vars -> pairs_near v T b' vars.
Lemma rewritten_ok v T b b' : writable v T b ->
  program (b_items b') = program (b_items b) /\ proper T (b_items b') /\ b_meta b' = b_meta b /\ b_argnames b' = b_argnames b
  /\ (bracketed None (b_items b) -> try_blocks (b_items b'))
  /\ Forall2 renamed (filter is_instr (b_items b)) (filter is_instr (b_items b')) -> rewritten v T b b'.
Proof.
  intros [L M C P B LO] (PR & P' & ME & AR & TB & RN).
  assert (SO : source b' = source b) by (unfold source; now rewrite PR, ME).
  split; [constructor|repeat (split; [assumption|])].
  - intros i J. destruct (renamed_in _ _ _ RN J) as (i0 & J0 & R). eapply renamed_legal; [exact R|]. now apply L.
  - intros i J. destruct (renamed_in _ _ _ RN J) as (i0 & J0 & _ & _ & _ & R). specialize (M _ J0).
    destruct (i_arg i0); try (rewrite R; exact M); destruct R as (m & ->); exact Logic.I.
  - intros i J. destruct (renamed_in _ _ _ RN J) as (i0 & J0 & N & _). rewrite N. now apply C.
  - exact P'.
  - now apply TB.
  - unfold locations_ok. rewrite SO. exact LO.
  - intros vars PN i x J D I. destruct (renamed_in _ _ _ RN J) as (i0 & J0 & N & O & _ & R). rewrite O in D. apply (PN i0 x J0 D).
    destruct (i_arg i0); try (rewrite R in I; exact I); destruct R as (m & R); rewrite R in I; destruct I.
Qed.
Lemma through_writable v T se check depths b b' n : writable v T b -> through_graph v T se check depths b = Ok (b', n) -> rewritten v T b b'.
Proof. intros W E. apply rewritten_ok; [exact W|]. eapply through_ok; [apply (w_proper _ _ _ W)|exact E]. Qed.

(** the two ways to write it *)
Lemma to_code_split v T se keq passes stacksize check depths b co :
  bytecode_to_code v T se keq passes stacksize check depths b = Ok co ->
  exists b' cb n, to_concrete v T keq (passes_of passes) b' = Ok cb /\ to_code_raw v T cb n = Ok co
  /\ (((stacksize = None \/ PY311 v && depths = true) /\ through_graph v T se check depths b = Ok (b', n))
      \/ (b' = b /\ stacksize = Some n /\ PY311 v && depths = false)).
Proof.
  unfold bytecode_to_code. intros E. apply bind_ok in E. destruct E as ([[b' n] d] & E1 & E). apply bind_ok in E. destruct E as (cb & E2 & E).
  exists b', cb, n.
  destruct stacksize as [s|].
  - destruct (PY311 v && depths) eqn:Q.
    + apply bind_ok in E1. destruct E1 as ([b1 n1] & E0 & E1). injection E1 as -> -> <-.
      unfold to_concrete_bytecode in E2. rewrite andb_false_r in E2. cbn [bind] in E2.
      unfold concrete_to_code in E. rewrite andb_false_r in E. cbn [bind] in E.
      split; [exact E2|split; [exact E|left; split; [auto|exact E0]]].
    + injection E1 as <- <- <-. unfold to_concrete_bytecode in E2. rewrite Q in E2. cbn [bind] in E2.
      unfold concrete_to_code in E. rewrite Q in E. cbn [bind] in E.
      split; [exact E2|split; [exact E|right; auto]].
  - apply bind_ok in E1. destruct E1 as ([b1 n1] & E0 & E1). injection E1 as -> -> <-.
    unfold to_concrete_bytecode in E2. rewrite andb_false_r in E2. cbn [bind] in E2.
    unfold concrete_to_code in E. rewrite andb_false_r in E. cbn [bind] in E.
      split; [exact E2|split; [exact E|left; split; [auto|exact E0]]].
Qed.

Lemma write_ok v T keq passes b b' cb n co : wf_optable v T = true -> sound_key keq -> rewritten v T b b' ->
  to_concrete v T keq passes b' = Ok cb -> to_code_raw v T cb n = Ok co -> pairs_near v T b (co_varnames co) ->
  runs v T co (source b).
Proof.
  intros wf HK (W' & <- & _ & _ & PN) E1 E2 HP.
  assert (VN : co_varnames co = cb_varnames cb).
  { unfold to_code_raw in E2. destruct (assemble_code v T cb) as [code ln]. inv_ok. reflexivity. }
  rewrite VN in HP. destruct W' as [L M C P B LO] eqn:EW.
  eapply C50_code_runs_program_partial; eauto. eapply writable_blocks; eauto.
Qed.
Lemma rewritten_refl v T b : writable v T b -> rewritten v T b b.
Proof. intros W. split; [exact W|auto]. Qed.

(** C51.  Whatever the options of to_code(), the code object, read as the interpreter reads it, is
    the program of the Bytecode. *)
Theorem C51_to_code_runs_program_partial : forall v T se keq passes stacksize check depths b co,
  wf_optable v T = true -> sound_key keq -> writable v T b ->
  bytecode_to_code v T se keq passes stacksize check depths b = Ok co ->
  pairs_near v T b (co_varnames co) ->
  runs v T co (source b).
Proof.
  intros v T se keq passes st check depths b co wf HK W E HP.
  destruct (to_code_split _ _ _ _ _ _ _ _ _ _ E) as (b' & cb & n & E1 & E2 & D).
  eapply write_ok; eauto. destruct D as [[_ D]|(-> & _)]; [eapply through_writable; eauto|now apply rewritten_refl].
Qed.
Print Assumptions C51_to_code_runs_program_partial.

(** The same for the graph made from a Bytecode, whatever the options of its to_code(), *)
Theorem C51_graph_to_code_runs_program_partial : forall v T se keq stacksize check depths b g co,
  wf_optable v T = true -> sound_key keq -> writable v T b ->
  from_bytecode T b = Ok g -> cfg_to_code v T se keq stacksize check depths g = Ok co ->
  pairs_near v T b (co_varnames co) ->
  runs v T co (source b).
Proof.
  intros v T se keq st check depths b g co wf HK W EF E HP. unfold cfg_to_code in E.
  apply bind_ok in E. destruct E as ([g' n] & EC & E). apply bind_ok in E. destruct E as (b' & ET & E).
  destruct (to_code_split _ _ _ _ _ _ _ _ _ _ E) as (b2 & cb & n2 & E1 & E2 & D).
  destruct D as [[[D|D] _]|(-> & _)]; [discriminate|rewrite andb_false_r in D; discriminate|].
  assert (X : Forall2 like (g_heap g) (g_heap g') /\ g_order g' = g_order g /\ g_meta g' = g_meta g /\ g_argnames g' = g_argnames g).
  { destruct st; [|exact (compute_heap _ _ _ _ _ _ _ _ EC)]. injection EC as <- <-. repeat split. apply like_refl. }
  destruct X as (X1 & X2 & X3 & X4).
  eapply write_ok; eauto. apply rewritten_ok; [exact W|]. eapply back_ok; eauto. apply (w_proper _ _ _ W).
Qed.
Print Assumptions C51_graph_to_code_runs_program_partial.

(** and for a ConcreteBytecode, when it is not written as it stands: the program is the one
    to_bytecode() shows. *)
Theorem C51_concrete_to_code_runs_program_partial : forall v T se keq stacksize check depths cb b co,
  wf_optable v T = true -> sound_key keq ->
  stacksize = None \/ PY311 v && depths = true ->
  to_bytecode v T cb true false = Ok b -> writable v T b ->
  concrete_to_code v T se keq stacksize check depths cb = Ok co ->
  pairs_near v T b (co_varnames co) ->
  runs v T co (source b).
Proof.
  intros v T se keq st check depths cb b co wf HK ST EB W E HP. unfold concrete_to_code in E.
  apply bind_ok in E. destruct E as ([cb2 n] & E & E2).
  assert (X : (b <- to_bytecode v T cb true false;; ' (b, size) <- through_graph v T se check depths b;;
      cb <- to_concrete_bytecode v T se keq None false b;; Ok (cb, size)) = Ok (cb2, n)).
  { destruct st; [|exact E]. destruct ST as [ST|ST]; [discriminate|]. now rewrite ST in E. }
  clear E. rewrite EB in X. cbn [bind] in X. apply bind_ok in X. destruct X as ([b' n'] & X1 & X). apply bind_ok in X. destruct X as (cb' & X2 & X).
  injection X as -> ->. unfold to_concrete_bytecode in X2. rewrite andb_false_r in X2. cbn [bind] in X2.
  eapply write_ok; eauto. eapply through_writable; eauto.
Qed.
Print Assumptions C51_concrete_to_code_runs_program_partial.

(** The attributes of the code object are those of the Bytecode. *)
Theorem C51_attributes : forall v T se keq passes stacksize check depths b co,
  wf_optable v T = true -> proper T (b_items b) ->
  bytecode_to_code v T se keq passes stacksize check depths b = Ok co ->
  let m := b_meta b in
  co_argcount co = m_argcount m /\ co_posonly co = m_posonly m /\ co_kwonly co = m_kwonly m
  /\ co_flags co = m_flags m /\ co_name co = m_name m /\ co_filename co = m_filename m
  /\ (PY311 v = true -> co_qualname co = m_qualname m) /\ co_firstlineno co = m_first_lineno m
  /\ co_freevars co = m_freevars m /\ co_cellvars co = m_cellvars m
  /\ co_nlocals co = zlen (co_varnames co) /\ (exists more, co_varnames co = b_argnames b ++ more)
  /\ (m_docstring m <> OUnset -> hd_error (co_consts co) = Some (m_docstring m)).
Proof.
  intros v T se keq passes st check depths b co wf P E m.
  destruct (to_code_split _ _ _ _ _ _ _ _ _ _ E) as (b' & cb & n & E1 & E2 & D).
  assert (X : b_meta b' = b_meta b /\ b_argnames b' = b_argnames b).
  { destruct D as [[_ D]|(-> & _)]; [|auto]. destruct (through_ok _ _ _ _ _ _ _ _ P D) as (_ & _ & A & B & _). auto. }
  destruct X as [X1 X2]. destruct (assembled_consts v T keq _ b' cb wf E1) as (M & DS & t & V). rewrite X1, X2 in *. subst m.
  unfold to_code_raw in E2. destruct (assemble_code v T cb) as [code ln]. inv_ok. cbn. rewrite M, V. repeat split; [now intros ->|eauto|].
  intros N. specialize (DS N). destruct (cb_consts cb); cbn in *; congruence.
Qed.
Print Assumptions C51_attributes.

(** ** Examples *)
Definition check_writable (v : pyver) (T : optable) (b : bytecode) : bool :=
  let items := b_items b in
  check_legal v T b
  && forallb (fun it => match it with BI i => match i_arg i with OCompare _ | OIntr1 _ | OIntr2 _ => false | _ => true end | _ => true end) items
  && negb (existsb (fun it => is_cache (Some it)) items)
  && paired None [] items
  && forallb (fun it => match it with
       | BI i => if has_jump T i then match i_arg i with OLabel _ => true | _ => false end
                 else match i_arg i with OLabel _ | OBlock _ => false | _ => true end
       | BTB _ (OLabel _) _ _ => true | BTB _ _ _ _ => false | _ => true end) items
  && forallb (fun it => forallb (fun n => existsb (fun x => match x with BLabel m => Nat.eqb n m | _ => false end) items) (target it)) items
  && match brs None items with Some None => true | _ => false end
  && check_locations v b.
Lemma check_writable_ok v T b : wf_optable v T = true -> check_writable v T b = true -> writable v T b.
Proof.
  unfold check_writable. intros wf X. repeat (apply andb_true_iff in X; destruct X as [X ?]). rename H5 into M, H4 into C, H3 into P1, H2 into P2, H1 into P3, H0 into B, H into LO.
  constructor.
  - now apply check_legal_ok.
  - intros i I. rewrite forallb_forall in M. specialize (M _ I). cbv beta iota in M. destruct (i_arg i); try exact Logic.I; discriminate.
  - intros i I E. apply negb_true_iff in C. rewrite <- not_true_iff_false in C. apply C. apply existsb_exists. exists (BI i). split; [exact I|].
    cbn. now apply String.eqb_eq.
  - constructor.
    + exact P1.
    + intros it I. rewrite forallb_forall in P2. specialize (P2 _ I). destruct it as [i| | |id t la d|]; cbn in *; auto.
      * destruct (has_jump T i); [destruct (i_arg i); try discriminate; eauto|]. intros n. destruct (i_arg i); split; congruence.
      * destruct t; try discriminate. eauto.
    + intros it n I J. rewrite forallb_forall in P3. specialize (P3 _ I). rewrite forallb_forall in P3. specialize (P3 _ J).
      apply existsb_exists in P3. destruct P3 as (x & IX & EX). destruct x; try discriminate. apply Nat.eqb_eq in EX. now subst.
  - apply bracketed_brs. destruct (brs None (b_items b)) as [[|]|]; congruence.
  - now apply check_locations_ok.
Qed.

(** A function for 3.11 with a try block whose stack depth is not given, a jump over several
    hundred instructions, inline caches, and lines that are inherited. *)
Definition ex51 : bytecode := mkB meta0 ["x"]
  ([BSet 4; ins "RESUME" (OInt 0); ins "LOAD_FAST" (OStr "x"); ins "POP_JUMP_FORWARD_IF_FALSE" (OLabel 1);
    ins "LOAD_FAST" (OStr "x"); BTB 7 (OLabel 3) true None; ins "LOAD_GLOBAL" (OTuple [OBool true; OStr "f"]); ins "POP_TOP" OUnset; ins "POP_TOP" OUnset; BTE 7;
    BSet 9; ins "POP_TOP" OUnset]
   ++ repeat (ins "NOP" OUnset) 300
   ++ [BLabel 1; ins "LOAD_CONST" ONone; ins "RETURN_VALUE" OUnset; BLabel 3; ins "POP_TOP" OUnset; ins "POP_TOP" OUnset; ins "RETURN_VALUE" OUnset]).
Example C51_ex : writable V311 T311 ex51
  /\ exists co, bytecode_to_code V311 T311 dis_effect311 keq0 None None true true ex51 = Ok co
     /\ pairs_near V311 T311 ex51 (co_varnames co)
     /\ length (instructions V311 T311 co) = 313%nat
     /\ co_stacksize co = 3
     /\ map (find_handler co) [4; 5; 12; 13] = [None; Some (316, 1, true); Some (316, 1, true); None].
Proof.
  split; [apply check_writable_ok; [exact T311_wf|]; vm_compute; reflexivity|].
  eexists. split; [vm_compute; reflexivity|]. split; [intros i n _ D; exfalso; unfold is_dual in D; discriminate D|].
  repeat split; vm_compute; reflexivity.
Qed.
