(** Reading what was written: disassembling it (3.11+). *)
From Verif Require Import PyBase OpTable CPy P_Base P_OpTable M_Instr M_Tables M_Concrete M_Convert M_Full S_Args S_Lines S_Dis S_Asm S_Prog S_Slots S_Ident S_Written
  P_Asm P_Instr2 P_Layout P_Layout2 P_Dis2 P_CfgFrom3 P_Conv2 P_Jumps P_Ident P_Ident2 P_Ident3 P_Code P_Code2.
Open Scope string_scope.
Open Scope list_scope.
Open Scope Z_scope.

(** ** What the assembler makes is whole *)
Section Whole.
  Variables (v : pyver) (T : optable).
  Hypothesis wf : wf_optable v T = true.
  Lemma made_ordinary c : made v T c -> c_name c <> "EXTENDED_ARG" -> ordinary v T c.
  Proof.
    intros [V X] NE. split; [|split; [exact NE|]].
    - exact (valid_legal v T wf c V).
    - intros n Q. congruence.
  Qed.
  Lemma groups_whole items gs : Forall2 (group v T) items gs -> whole v T (concat gs).
  Proof.
    induction 1 as [|it g items gs G F IH]; [constructor|]. cbn [concat]. destruct it; cbn in G; try (subst g; exact IH).
    destruct G as (c & -> & M & N & O & NE & NC). cbn [app]. constructor; auto.
    - now apply made_ordinary.
    - destruct M as [V X]. symmetry. apply (assemble_size_auto v T wf c V X).
    - destruct (group_len v T wf c M) as [_ Q]. unfold zlen. rewrite repeat_length. lia.
    - apply Forall_forall. intros d I. apply repeat_spec in I. subst d. unfold inline_cache, cache_at. cbn. auto 6.
  Qed.
End Whole.

(** ** Disassembling where the locations have changed *)
Definition moved (f : loc -> loc) (it : bitem) : bitem :=
  match it with BI i => BI (mkInstr (i_name i) (i_op i) (i_arg i) (option_map f (i_loc i))) | _ => it end.

Section Moved.
  Variables (v : pyver) (T : optable) (cb cb1 : cbytecode) (f : loc -> loc).
  Hypothesis HC : cb_consts cb1 = cb_consts cb.
  Hypothesis HN : cb_names cb1 = cb_names cb.
  Hypothesis HV : cb_varnames cb1 = cb_varnames cb.
  Hypothesis HX : cb_ex cb1 = cb_ex cb.
  Hypothesis HCe : m_cellvars (cb_meta cb1) = m_cellvars (cb_meta cb).
  Hypothesis HF : m_freevars (cb_meta cb1) = m_freevars (cb_meta cb).

  Definition same_place (c d : cinstr) : Prop :=
    c_name d = c_name c /\ c_op d = c_op c /\ c_arg d = c_arg c /\ c_size d = c_size c
    /\ exists l, c_loc c = Some l /\ c_loc d = Some (f l).

  Lemma decode_same op a : decode_arg v T cb1 op a = decode_arg v T cb op a.
  Proof. unfold decode_arg, cells_lookup, locals_lookup, cells_lookup. now rewrite HC, HN, HV, HCe, HF. Qed.
  Lemma jump_same c d o : same_place c d -> get_jump_target v T d o = get_jump_target v T c o.
  Proof. intros (N & O & A & S & _). unfold get_jump_target, use_cache_opcodes. now rewrite N, O, A, S. Qed.
  Lemma targets_same l l' : Forall2 same_place l l' -> forall o, jump_targets_of v T o l' = jump_targets_of v T o l.
  Proof.
    induction 1 as [|c d l l' S F IH]; intros o; [reflexivity|]. cbn [jump_targets_of]. rewrite (jump_same _ _ o S), IH.
    destruct S as (_ & _ & _ & S & _). now rewrite S.
  Qed.
  Lemma moved_ends conserve es : forall created, map (moved f) (fst (emit_ends conserve created es)) = fst (emit_ends conserve created es).
  Proof.
    induction es as [|[n e] es IH]; intros created; [reflexivity|]. cbn [emit_ends]. destruct (nat_mem n created).
    - specialize (IH created). destruct (emit_ends conserve created es). cbn in *. now rewrite IH.
    - specialize (IH (n :: created)). destruct (emit_ends conserve (n :: created) es). unfold make_tb. cbn in *. now rewrite IH.
  Qed.
  Lemma loop_moved prune conserve tg l l' : Forall2 (fun x y => same_place (snd x) (snd y)) l l' -> forall created o out labels cr,
    to_bytecode_loop v T cb prune conserve tg created o l = Ok (out, labels, cr) ->
    to_bytecode_loop v T cb1 prune conserve tg created o l' = Ok (map (moved f) out, labels, cr).
  Proof.
    induction 1 as [|[z c] [z' d] l l' S F IH]; intros created o out labels cr H; cbn [to_bytecode_loop] in *.
    - injection H as <- <- <-. reflexivity.
    - cbn [snd] in S. rewrite HX. rewrite (jump_same _ _ o S). destruct S as (N & O & A & SZ & lo & L1 & L2).
      rewrite N, O, A, SZ, L2, decode_same. rewrite L1 in H.
      destruct (match ex_start_at 0 o (cb_ex cb) with Some (n, e) => _ | None => _ end) as [tb cr1] eqn:TB in *.
      apply bind_ok in H. destruct H as (body & HB & H).
      assert (MT : map (moved f) tb = tb).
      { destruct (ex_start_at 0 o (cb_ex cb)) as [[n e]|]; [destruct (nat_mem n created)|]; injection TB as <- <-; reflexivity. }
      match goal with |- bind ?X _ = _ => assert (BO : X = Ok (map (moved f) body)) end.
      { destruct (prune && _).
        - destruct (get_jump_target v T c o); [discriminate|]. injection HB as <-. reflexivity.
        - apply bind_ok in HB. destruct HB as (x & DA & HB). cbn [bind] in HB. apply bind_ok in HB. destruct HB as (j & NI & HB). injection HB as <-.
          rewrite DA. cbn [bind]. unfold new_instr in NI |- *. apply bind_ok in NI. destruct NI as (op & R & NI). apply bind_ok in NI. destruct NI as (u & CK & NI).
          injection NI as <-. rewrite R. cbn [bind]. rewrite CK. reflexivity. }
      rewrite BO. cbn [bind].
      pose proof (moved_ends conserve (rev (ex_ends_at 0 (o + (if OFFSET_AS_INSTRUCTION v then c_size c / 2 - 1 else c_size c - 2)) (cb_ex cb))) cr1) as ME.
      destruct (emit_ends _ _ _) as [ends cr2] eqn:EE in *. cbn [fst] in ME.
      apply bind_ok in H. destruct H as ([[r labels'] cr'] & HR & H). injection H as <- <- <-.
      rewrite (IH _ _ _ _ _ HR). cbn [bind]. rewrite !map_app, MT, ME. destruct (z_mem o tg); reflexivity.
  Qed.
End Moved.

(** ** the location of every instruction of the assembled program is one of the source *)
Lemma from_source v T keq (wf : wf_optable v T = true) b cb vn K0 gs0 Kf gs en :
  assembled v T keq b cb vn K0 gs0 Kf gs en ->
  (forall i, In (BI i) (b_items b) -> legal_instr v T i) ->
  Forall2 (group v T) (b_items b) gs ->
  forall c, In c (concat gs) -> exists n a l h, c_loc c = Some l
    /\ In (n, a, l, h) (located (line_loc (Some (m_first_lineno (b_meta b)))) (program (b_items b))).
Proof.
  intros A HL GS c I. apply In_nth_error in I. destruct I as [k I]. destruct (concat_inv gs k c I) as (p & g & j & G & J & _).
  destruct (nth_error (b_items b) p) as [it|] eqn:Hp.
  - pose proof (Forall2_at _ _ _ _ _ _ GS Hp G) as GR. destruct it; cbn in GR; try (subst g; now destruct j).
    do 4 eexists. split; [apply (loc_of v T keq wf _ _ _ _ _ _ _ _ A HL p i c Hp); exists g; split; [exact G|eapply nth_error_In; eauto]|].
    eapply nth_error_In. eapply source_nth. exact Hp.
  - apply nth_error_None in Hp. apply nth_some_lt in G. rewrite <- (Forall2_len _ _ _ GS) in G. lia.
Qed.

(** ** programs with moved locations *)
Lemma position_moved f l n : position (map (moved f) l) n = position l n.
Proof. induction l as [|x l IH]; [reflexivity|]. cbn [map position]. rewrite IH. destruct x; reflexivity. Qed.
Lemma walk_moved f l : (forall i, In (BI i) l -> i_loc i <> None) -> forall pos op cur cur',
  located cur' (walk pos op (map (moved f) l)) = map (fun x => let '(n, a, lo, h) := x in (n, a, f lo, h)) (located cur (walk pos op l)).
Proof.
  induction l as [|x l IH]; intros H pos op cur cur'; [reflexivity|].
  assert (H' : forall i, In (BI i) l -> i_loc i <> None) by (intros i I; apply H; now right).
  destruct x; cbn [map moved walk located]; try apply (IH H').
  destruct (i_loc i) as [lo|] eqn:E; [|exfalso; apply (H i); [now left|exact E]]. cbn [i_name i_arg i_loc option_map]. f_equal. apply (IH H').
Qed.
Lemma walk_ext pos pos' l : (forall n, pos n = pos' n) -> forall op, walk pos op l = walk pos' op l.
Proof.
  intros H. assert (A : forall o, arg_of pos o = arg_of pos' o) by (intros o; destruct o; cbn; congruence).
  induction l as [|x l IH]; intros op; [reflexivity|]. destruct x; cbn; rewrite ?A, ?IH; reflexivity.
Qed.
Lemma program_moved f l : (forall i, In (BI i) l -> i_loc i <> None) -> forall cur cur',
  located cur' (program (map (moved f) l)) = map (fun x => let '(n, a, lo, h) := x in (n, a, f lo, h)) (located cur (program l)).
Proof. intros H cur cur'. unfold program. rewrite (walk_ext _ (position l)) by apply position_moved. now apply walk_moved. Qed.

Lemma loop_locs v T cb prune conserve tg l : forall created o out labels cr,
  to_bytecode_loop v T cb prune conserve tg created o l = Ok (out, labels, cr) -> forall i, In (BI i) out -> i_loc i <> None.
Proof.
  induction l as [|[lineno c] l IH]; intros created o out labels cr H i I; cbn [to_bytecode_loop] in H.
  - injection H as <- <- <-. destruct I.
  - destruct (match ex_start_at 0 o (cb_ex cb) with Some (n, e) => _ | None => _ end) as [tb cr1] eqn:TB in H.
    apply bind_ok in H. destruct H as (body & HB & H).
    destruct (emit_ends _ _ _) as [ends cr2] eqn:EE in H.
    apply bind_ok in H. destruct H as ([[r labels'] cr'] & HR & H). injection H as <- <- <-.
    assert (NT : ~ In (BI i) tb).
    { destruct (ex_start_at 0 o (cb_ex cb)) as [[n e]|]; [destruct (nat_mem n created)|]; injection TB as <- <-; cbn; intuition discriminate. }
    assert (NE : ~ In (BI i) ends).
    { change ends with (fst (ends, cr2)). rewrite <- EE. clear. generalize cr1. 
      induction (rev (ex_ends_at 0 (o + (if OFFSET_AS_INSTRUCTION v then c_size c / 2 - 1 else c_size c - 2)) (cb_ex cb))) as [|[n e] es IH]; intros cr; cbn [emit_ends]; [intros []|].
      destruct (nat_mem n cr).
      - specialize (IH cr). destruct (emit_ends conserve cr es). cbn in *. intros [E|E]; [discriminate|tauto].
      - specialize (IH (n :: cr)). destruct (emit_ends conserve (n :: cr) es). cbn in *. unfold make_tb. intros [E|[E|E]]; [discriminate|discriminate|tauto]. }
    rewrite !in_app_iff in I. destruct I as [I|[I|[I|[I|I]]]]; try tauto.
    + destruct (z_mem o tg); cbn in I; intuition discriminate.
    + destruct (prune && _).
      * destruct (get_jump_target v T c o); [discriminate|]. injection HB as <-. destruct I.
      * apply bind_ok in HB. destruct HB as (x & DA & HB). apply bind_ok in HB. destruct HB as (lo & LO & HB).
        apply bind_ok in HB. destruct HB as (j & NI & HB). injection HB as <-. destruct I as [I|[]]. injection I as ->.
        unfold new_instr in NI. apply bind_ok in NI. destruct NI as (op & _ & NI). apply bind_ok in NI. destruct NI as (u & _ & NI). injection NI as <-. discriminate.
    + eapply IH; eauto.
Qed.

(** ** the whole disassembly *)
Lemma no_ext_kept v T l : (forall c, In (CI c) l -> c_name c <> "EXTENDED_ARG") -> remove_extended_args v T 0 None l = Ok l.
Proof.
  induction l as [|[c|z] l IH]; intros H; [reflexivity| |]; cbn [remove_extended_args].
  - rewrite (proj2 (String.eqb_neq _ _) (H c (or_introl eq_refl))), IH by (intros d I; apply H; now right). reflexivity.
  - rewrite IH by (intros d I; apply H; now right). reflexivity.
Qed.

Lemma normalize_two f l l' : Forall2 (fun c y => exists d, y = CI d /\ same_place f c d) l l' -> forall z z',
  Forall2 (fun x y => same_place f (snd x) (snd y)) (normalize_lineno z (map CI l)) (normalize_lineno z' l').
Proof.
  induction 1 as [|c y l l' (d & -> & S) F IH]; intros z z'; [constructor|]. cbn [map normalize_lineno]. constructor; [exact S|]. apply IH.
Qed.

Theorem moved_bytecode v T cb cb1 f cs prune conserve b2 :
  cb_consts cb1 = cb_consts cb -> cb_names cb1 = cb_names cb -> cb_varnames cb1 = cb_varnames cb -> cb_ex cb1 = cb_ex cb ->
  m_cellvars (cb_meta cb1) = m_cellvars (cb_meta cb) -> m_freevars (cb_meta cb1) = m_freevars (cb_meta cb) ->
  cb_items cb = map CI cs -> (forall c, In c cs -> c_name c <> "EXTENDED_ARG") ->
  Forall2 (fun c y => exists d, y = CI d /\ same_place f c d) cs (cb_items cb1) ->
  to_bytecode v T cb prune conserve = Ok b2 ->
  (forall i, In (BI i) (b_items b2) -> i_loc i <> None) /\
  exists b1, to_bytecode v T cb1 prune conserve = Ok b1 /\ b_items b1 = map (moved f) (b_items b2)
  /\ m_first_lineno (b_meta b1) = m_first_lineno (cb_meta cb1) /\ m_first_lineno (b_meta b2) = m_first_lineno (cb_meta cb).
Proof.
  intros HC HN HV HX HCe HF IT NE F2 TB.
  assert (IO : Forall2 (same_place f) cs (instrs_of (cb_items cb1))).
  { clear - F2. induction F2 as [|c y l l' (d & -> & S) F IH]; [constructor|]. cbn. constructor; [exact S|exact IH]. }
  assert (R1 : remove_extended_args v T 0 None (cb_items cb1) = Ok (cb_items cb1)).
  { apply no_ext_kept. clear - F2 NE. induction F2 as [|c y l l' (d & -> & S) F IH]; [intros c []|].
    intros x [E|I]; [injection E as <-; destruct S as (N & _); rewrite N; apply NE; now left|]. apply IH; [|exact I]. intros e J. apply NE. now right. }
  assert (R0 : remove_extended_args v T 0 None (cb_items cb) = Ok (cb_items cb)).
  { rewrite IT. apply no_ext_kept. intros c I. apply in_map_iff in I. destruct I as (d & E & I). injection E as ->. now apply NE. }
  unfold to_bytecode in TB |- *. rewrite R0 in TB. rewrite R1. cbn [bind] in *.
  apply bind_ok in TB. destruct TB as (u & G & TB). rewrite HX, G. cbn [bind].
  apply bind_ok in TB. destruct TB as ([[out labels] cr] & L & TB).
  assert (IC : instrs_of (cb_items cb) = cs) by (rewrite IT; clear; induction cs as [|c l IH]; [reflexivity|]; unfold instrs_of in *; cbn; now rewrite IH).
  rewrite (targets_same v T f _ _ IO), <- IC.
  rewrite IT in L at 2.
  pose proof (loop_moved v T cb cb1 f HC HN HV HX HCe HF prune conserve _ _ _ (normalize_two f cs (cb_items cb1) F2 (m_first_lineno (cb_meta cb)) (m_first_lineno (cb_meta cb1))) _ _ _ _ _ L) as L1.
  rewrite L1. cbn [bind].
  apply bind_ok in TB. destruct TB as (u1 & G1 & TB). rewrite G1. cbn [bind].
  apply bind_ok in TB. destruct TB as (u2 & G2 & TB). rewrite G2. cbn [bind]. injection TB as <-.
  split; [intros i I; exact (loop_locs _ _ _ _ _ _ _ _ _ _ _ _ L i I)|].
  eexists. split; [reflexivity|]. cbn. auto.
Qed.
