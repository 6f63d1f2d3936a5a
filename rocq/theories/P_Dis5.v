(** Where the instructions given to the disassembler come from (C22). *)
From Verif Require Import PyBase OpTable CPy P_Base P_OpTable P_Asm M_Instr M_Tables M_Concrete S_Args S_Lines S_Asm S_Prog S_Dis
  P_Instr P_Instr2 P_Jumps P_Jumps2 P_AsmProps P_Dis P_Dis2 P_Dis3 P_Dis4.
Open Scope string_scope.
Open Scope list_scope.
Open Scope Z_scope.

Lemma instrs_split items : forall k c, nth_error (instrs_of items) k = Some c ->
  exists pre post, items = pre ++ CI c :: post /\ length (instrs_of pre) = k.
Proof.
  induction items as [|[d|z] items IH]; intros k c N; cbn [instrs_of flat_map app] in N; [destruct k; discriminate N| |].
  - destruct k as [|k]; cbn [nth_error] in N.
    + injection N as ->. exists [], items. auto.
    + destruct (IH k c N) as (pre & post & -> & L). exists (CI d :: pre), post. split; [reflexivity|]. cbn. now f_equal.
  - destruct (IH k c N) as (pre & post & -> & L). exists (CSet z :: pre), post. auto.
Qed.

Lemma ex_ends_In n e cur l : forall m, In (n, e) (ex_ends_at m cur l) -> In e l.
Proof.
  induction l as [|f l IH]; intros m I; cbn [ex_ends_at] in I; [destruct I|]. apply in_app_or in I. destruct I as [I|I]; [|right; eauto].
  destruct (e_stop f =? cur); [|destruct I]. destruct I as [I|[]]. injection I as _ ->. now left.
Qed.

Lemma dis_markers v T cb prune conserve tg created o l ps cr : dis v T cb prune conserve tg created o l ps cr ->
  forall id t la d, In (BTB id t la d) (concat ps) -> exists e, In e (cb_ex cb) /\ la = e_lasti e /\ d = (if conserve then Some (e_depth e) else None).
Proof.
  induction 1 as [|created o ln c l tb cr1 body ends cr2 ps cr3 TB BO EE D IH]; intros id t la d I; [destruct I|].
  cbn [concat] in I. rewrite !in_app_iff in I. destruct I as [[I|[I|[I|I]]]|I]; [| | | |eauto].
  - destruct (z_mem o tg); [|destruct I]. destruct I as [I|[]]; discriminate.
  - unfold tb_here in TB. pose proof (ex_start_spec o (cb_ex cb) 0) as SP. destruct (ex_start_at 0 o (cb_ex cb)) as [[n e]|].
    + destruct SP as (i & _ & N & _). destruct (nat_mem n created); injection TB as <- <-; [destruct I|]. destruct I as [I|[]]. unfold make_tb in I. injection I as _ _ <- <-.
      exists e. split; [eapply nth_error_In; eauto|auto].
    + injection TB as <- <-. destruct I.
  - unfold body_of in BO. destruct (prune && String.eqb (c_name c) "CACHE"); [destruct BO as [-> _]; destruct I|]. destruct BO as (i & x & -> & _). destruct I as [I|[]]; discriminate.
  - assert (X : forall es cr0 en cr', (forall n e, In (n, e) es -> In e (cb_ex cb)) -> emit_ends conserve cr0 es = (en, cr') -> In (BTB id t la d) en ->
      exists e, In e (cb_ex cb) /\ la = e_lasti e /\ d = (if conserve then Some (e_depth e) else None)).
    { clear. induction es as [|[n e] es IH]; intros cr0 en cr' F H I; cbn [emit_ends] in H.
      - injection H as <- <-. destruct I.
      - assert (F' : forall n e, In (n, e) es -> In e (cb_ex cb)) by (intros; eapply F; right; eauto).
        destruct (nat_mem n cr0).
        + destruct (emit_ends conserve cr0 es) eqn:Q. injection H as <- <-. destruct I as [I|I]; [discriminate|eauto].
        + destruct (emit_ends conserve (n :: cr0) es) eqn:Q. injection H as <- <-. destruct I as [I|[I|I]]; [|discriminate|eauto].
          unfold make_tb in I. injection I as _ _ <- <-. exists e. split; [apply (F n e); now left|auto]. }
    apply (X _ _ _ _) with (2 := EE); [|exact I]. intros n e J. apply in_rev in J. eapply ex_ends_In; eauto.
Qed.

Section Main.
  Variables (v : pyver) (T : optable).
  Hypothesis wf : wf_optable v T = true.

  Lemma ordinary_plain items : (forall c, In c (instrs_of items) -> ordinary v T c) -> plain_code v T items.
  Proof.
    intros O c I. destruct (O c I) as ((OM & LT & AR & SZ) & NX & EX). split; [exact OM|]. split; [|split; [exact NX|]].
    - unfold pos. destruct (c_ext c) as [n|].
      + specialize (EX n eq_refl). rewrite SZ. clear - EX. split; [lia|]. zdm.
      + destruct SZ as (k & -> & K & _). clear - K. split; [lia|]. zdm.
    - intros J E. rewrite E in AR. pose proof (wf_base v T wf _ _ OM LT) as W. cbv zeta in W. destruct W as (_ & W & _).
      cbn [existsb] in W. rewrite J in W. cbn in W. congruence.
  Qed.

  Lemma remove_ordinary l : forall nb ext l', (forall c, In c (instrs_of l) -> valid_cinstr v T c /\ c_ext c = None) -> 0 <= nb ->
    remove_extended_args v T nb ext l = Ok l' -> forall c, In c (instrs_of l') -> ordinary v T c.
  Proof.
    induction l as [|[c|z] l IH]; intros nb ext l' H NB R d I; cbn [remove_extended_args] in R.
    - destruct ext; [discriminate|]. injection R as <-. destruct I.
    - assert (HT : forall c, In c (instrs_of l) -> valid_cinstr v T c /\ c_ext c = None) by (intros; apply H; cbn; auto).
      destruct (H c) as [V X]; [cbn; auto|].
      destruct (String.eqb (c_name c) "EXTENDED_ARG") eqn:Q.
      + apply (IH (nb + 1) _ l' HT ltac:(clear - NB; lia) R d I).
      + apply String.eqb_neq in Q. destruct ext as [e|].
        * apply bind_ok in R. destruct R as (c' & NC & R). apply bind_ok in R. destruct R as (r & R' & R). injection R as <-.
          cbn [instrs_of flat_map app] in I. destruct I as [<-|I].
          -- apply new_cinstr_ok in NC. destruct NC as (V' & N' & _ & _ & E').
             split; [now apply valid_legal|]. split; [congruence|]. intros n En. assert (n = nb) by congruence. lia.
          -- apply (IH _ _ _ HT (Z.le_refl 0) R'). exact I.
        * apply bind_ok in R. destruct R as (r & R' & R). injection R as <-. cbn [instrs_of flat_map app] in I. destruct I as [<-|I].
          -- split; [now apply valid_legal|]. split; [exact Q|]. intros n En. congruence.
          -- apply (IH _ _ _ HT NB R'). exact I.
    - apply bind_ok in R. destruct R as (r & R' & R). injection R as <-. apply (IH _ _ _ H NB R'). exact I.
  Qed.

  Lemma disassemble_valid co l : disassemble_code v T co = Ok l -> forall c, In c (instrs_of l) -> valid_cinstr v T c /\ c_ext c = None.
  Proof.
    unfold disassemble_code. destruct (PY311 v).
    - generalize (dis_units v T 0 0 (co_code co)) (co_positions (co_firstlineno co) (co_linetable co)). intros us. revert l.
      induction us as [|[n a] us IH]; intros l pos H c I; cbn [from_units] in H.
      + injection H as <-. destruct I.
      + destruct (match pos with [] => ((None, None, None, None), []) | p :: ps => (p, ps) end) as [[[[p1 p2] p3] p4] ps].
        apply bind_ok in H. destruct H as (lo & _ & H). apply bind_ok in H. destruct H as (nm & _ & H).
        apply bind_ok in H. destruct H as (i & NI & H). apply bind_ok in H. destruct H as (r & R & H). injection H as <-.
        cbn [instrs_of flat_map app] in I. destruct I as [<-|I]; [|exact (IH _ _ R c I)].
        apply new_cinstr_ok in NI. tauto.
    - generalize (Some (co_firstlineno co)) (line_starts v co). generalize 0. generalize (length (co_code co)). intros n. revert l.
      induction n as [|n IH]; intros l o ln st H c I; cbn [from_bytes] in H; [injection H as <-; destruct I|].
      destruct (o <? _); [|injection H as <-; destruct I].
      apply bind_ok in H. destruct H as (i & NI & H). apply bind_ok in H. destruct H as (r & R & H). injection H as <-.
      cbn [instrs_of flat_map app] in I. destruct I as [<-|I]; [|exact (IH _ _ _ _ R c I)].
      unfold disassemble in NI. inv_ok. match goal with H : new_cinstr _ _ _ _ _ _ = Ok _ |- _ => apply new_cinstr_ok in H; tauto end.
  Qed.

  Lemma from_code_ordinary co cb : from_code v T co false = Ok cb -> forall c, In c (instrs_of (cb_items cb)) -> ordinary v T c.
  Proof.
    unfold from_code. intros H. apply bind_ok in H. destruct H as (l & D & H). apply bind_ok in H. destruct H as (l' & R & H). injection H as <-. cbn.
    apply (remove_ordinary l 0 None l' (disassemble_valid co l D) (Z.le_refl 0) R).
  Qed.

  Lemma to_bytecode_fold cb items prune conserve : (forall c, In c (instrs_of items) -> c_name c <> "EXTENDED_ARG") ->
    remove_extended_args v T 0 None (cb_items cb) = Ok items ->
    to_bytecode v T cb prune conserve
    = to_bytecode v T (mkCB (cb_meta cb) items (cb_consts cb) (cb_names cb) (cb_varnames cb) (cb_ex cb)) prune conserve.
  Proof.
    intros N R. unfold to_bytecode. cbn [cb_items cb_meta cb_consts cb_names cb_varnames cb_ex]. rewrite R, (remove_none v T items N). cbn [bind].
    assert (LP : forall tg l cr o, to_bytecode_loop v T cb prune conserve tg cr o l
       = to_bytecode_loop v T (mkCB (cb_meta cb) items (cb_consts cb) (cb_names cb) (cb_varnames cb) (cb_ex cb)) prune conserve tg cr o l).
    { intros tg. induction l as [|[ln c] l IH]; intros cr o; [reflexivity|]. cbn [to_bytecode_loop]. cbn [cb_ex].
      destruct (match ex_start_at 0 o (cb_ex cb) with Some (n, e) => _ | None => _ end) as [tb cr'].
      change (decode_arg v T (mkCB (cb_meta cb) items (cb_consts cb) (cb_names cb) (cb_varnames cb) (cb_ex cb)) (c_op c) (c_arg c))
        with (decode_arg v T cb (c_op c) (c_arg c)).
      match goal with |- bind ?x _ = bind ?x _ => destruct x as [body|] end; cbn [bind]; [|reflexivity].
      destruct (emit_ends _ _ _) as [ends cr'']. rewrite IH. reflexivity. }
    rewrite LP. reflexivity.
  Qed.

  Lemma from_code_fold co cb cb' prune conserve : from_code v T co true = Ok cb -> from_code v T co false = Ok cb' ->
    to_bytecode v T cb prune conserve = to_bytecode v T cb' prune conserve.
  Proof.
    intros H H'. assert (O := from_code_ordinary co cb' H'). unfold from_code in H, H'. apply bind_ok in H. destruct H as (l & D & H).
    rewrite D in H'. cbn [bind] in H, H'. injection H as <-. apply bind_ok in H'. destruct H' as (l' & R & H'). injection H' as <-.
    rewrite (to_bytecode_fold _ l'); [reflexivity| |exact R]. intros c I. now destruct (O c I) as (_ & X & _).
  Qed.
End Main.
