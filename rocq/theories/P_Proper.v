(** What is shown of a concrete bytecode has proper labels and try blocks. *)
From Verif Require Import PyBase OpTable CPy P_Base P_OpTable M_Instr M_Tables M_Concrete M_Convert M_Cfg S_Args S_Lines S_Prog S_Slots S_Asm S_Dis S_Cfg S_Ident S_Round S_Code
  P_Asm P_Except P_Round P_Conv2 P_Cat P_Args P_Decode P_CfgSeq P_Cfg P_Dis P_Dis2 P_Dis3 P_Dis4 P_Dis5 P_Jumps P_Jumps2 P_Layout P_Layout2 P_Try P_Dis6 P_Args2 P_Instr P_Instr2 P_AsmProps P_Conv P_Ident P_Ident2 P_Ident3 P_Code P_Code2 P_From P_From2 P_Code2.
Open Scope string_scope.
Open Scope list_scope.
Open Scope Z_scope.

Section Proper.
  Variables (v : pyver) (T : optable).
  Hypothesis wf : wf_optable v T = true.
  Variables (cb : cbytecode) (conserve : bool) (b : bytecode).
  Notation cs := (instrs_of (cb_items cb)).
  Hypothesis OR : forall c, In c cs -> ordinary v T c.
  Hypothesis TDY : tidy v cs (cb_ex cb).
  Hypothesis STA : forall e k c, In e (cb_ex cb) -> e_start e = offset_of v cs k -> nth_error cs k = Some c -> kept true c = true.
  Hypothesis HAN : forall e, In e (cb_ex cb) -> exists k, (k < length cs)%nat /\ e_target e = offset_of v cs k.
  Hypothesis TB : to_bytecode v T cb true conserve = Ok b.

  Lemma shown_proper :
    no_cache (b_items b) /\ S_Cfg.proper T (b_items b) /\ bracketed None (b_items b).
  Proof.
    pose proof (ordinary_plain v T wf _ OR) as PC.
    destruct (to_bytecode_dis v T wf cb true conserve b PC TB) as (tg & ps & cr & DS). destruct DS as [DI DT DD D DJ _ _ _].
    set (L := normalize_lineno (m_first_lineno (cb_meta cb)) (cb_items cb)) in *.
    assert (SN : map snd L = cs) by (apply normalize_snd).
    assert (PP : Forall pos (map snd L)) by (rewrite SN; apply (plain_pos v T _ PC)).
    assert (TD : tidy v (map snd L) (cb_ex cb)) by (rewrite SN; exact TDY).
    destruct (dis_nth v T wf cb true conserve tg [] 0 L ps cr D PP) as [LN NTH].
    assert (HERE : forall t, In t (offsets_from v 0 cs) -> In t tg -> In (BLabel (Z.to_nat t)) (concat ps)).
    { intros t I1 I2. rewrite (offsets_from_nth v T wf cs) in I1 by (rewrite <- SN; exact PP). apply in_map_iff in I1. destruct I1 as (k & <- & K). apply in_seq in K.
      rewrite <- SN, map_length in K. destruct (nth_error L k) as [[ln c]|] eqn:NK; [|apply nth_error_None in NK; lia].
      destruct (NTH k ln c NK) as (tb & body & ends & E & _). rewrite SN, Z.add_0_l in E. apply z_mem_In in I2. rewrite Z.add_0_l in I2. rewrite I2 in E.
      apply in_concat. eexists. split; [eapply nth_error_In; exact E|now left]. }
    assert (AT : forall i, In (BI i) (concat ps) -> exists k ln c x, nth_error L k = Some (ln, c) /\ nth_error cs k = Some c /\ c_name c <> "CACHE" /\ legal_instr v T i /\ i_name i = c_name c
      /\ decode_arg v T cb (c_op c) (c_arg c) = Ok x
      /\ i_arg i = match get_jump_target v T c (offset_of v cs k) with Some t => label_at t | None => x end
      /\ i_loc i = Some (match c_loc c with Some l => l | None => line_loc (Some ln) end)).
    { intros i I. apply in_concat in I. destruct I as (p & I1 & I2). apply In_nth_error in I1. destruct I1 as (k & NP).
      destruct (nth_error L k) as [[ln c]|] eqn:NK; [|apply nth_error_None in NK; apply nth_some_lt in NP; lia].
      destruct (NTH k ln c NK) as (tb & body & ends & E & BO & ME). rewrite NP in E. injection E as ->. rewrite !in_app_iff in I2.
      assert (IB : In (BI i) body).
      { destruct I2 as [I2|[I2|[I2|I2]]]; [|exfalso; apply (ME (BI i)); apply in_or_app; now left|exact I2|exfalso; apply (ME (BI i)); apply in_or_app; now right].
        destruct (z_mem _ tg); [destruct I2 as [I2|[]]; discriminate|destruct I2]. }
      unfold body_of in BO. cbn [andb] in BO. destruct (String.eqb_spec (c_name c) "CACHE") as [Q|Q]; [destruct BO as [-> _]; destruct IB|].
      destruct BO as (i' & x & -> & B1 & B2 & B3 & B4 & B5). destruct IB as [IB|[]]. injection IB as ->. rewrite SN, Z.add_0_l in B4.
      exists k, ln, c, x. repeat (split; [assumption|]). split; [rewrite <- SN, nth_error_map, NK; reflexivity|]. repeat (split; [assumption|]). exact B5. }
    rewrite DI.
    assert (OPS : forall i k c, legal_instr v T i -> i_name i = c_name c -> nth_error cs k = Some c -> i_op i = c_op c /\ ordinary v T c).
    { intros i k c (O1 & _) N NK. pose proof (OR c (nth_error_In _ _ NK)) as OC. pose proof OC as ((O2 & _) & _). split; [|exact OC]. rewrite N in O1. congruence. }
    assert (KEPT : forall e k c, In e (cb_ex cb) -> e_start e = offset_of v (map snd L) k -> nth_error (map snd L) k = Some c -> kept true c = true).
    { intros e k c I E N. rewrite SN in *. exact (STA e k c I E N). }
    assert (BP : bracketed None (concat ps) /\ paired None [] (concat ps) = true).
    { apply (brack v T cb true conserve tg L wf PP TD KEPT [] 0 L ps cr D [] None []).
      + reflexivity.
      + reflexivity.
      + intros n e N. split; [intros []|]. intros Q. exfalso. destruct (entry_facts v T cb L wf PP TD e (nth_error_In _ _ N)) as (s & t & B & _ & Q2).
        destruct (Q2 0%nat ltac:(lia)) as (_ & Q3 & _). rewrite offset_of_0 in Q3. lia.
      + intros e I Q. destruct (entry_facts v T cb L wf PP TD e I) as (s & t & B & _ & Q2).
        destruct (Q2 0%nat ltac:(lia)) as (_ & Q3 & _). rewrite offset_of_0 in Q3. lia.
      + intros n [].
    }
    destruct BP as [BR PA].
    split; [|split].
    - intros i I. destruct (AT i I) as (k & ln & c & x & _ & _ & Q & _ & N & _). now rewrite N.
    - split; [exact PA| |].
        * intros it I. destruct it as [i| | |id t la d|]; try exact Logic.I; cbn [arg_fits].
          -- destruct (AT i I) as (k & ln & c & x & _ & NK & _ & LI & N & DA & IA & _). destruct (OPS _ _ _ LI N NK) as [EO ((O & B & A & _) & _)].
             unfold has_jump. rewrite EO. destruct (op_has_jump T (c_op c)) eqn:OJ.
             ++ destruct (PC c (nth_error_In _ _ NK)) as (_ & _ & _ & QA). specialize (QA OJ). destruct (c_arg c) as [a|] eqn:CA; [|congruence].
                rewrite (jump_target_is v T wf c _ a O B CA OJ) in IA. rewrite IA. unfold label_at. eauto.
             ++ intros n. split; [apply (legal_not_label v T i n LI); now rewrite EO|]. intros Q. destruct LI as (_ & _ & _ & DO). rewrite Q in DO.
                unfold op_has_jump in OJ. apply orb_false_iff in OJ. destruct OJ as [OJ1 OJ2]. rewrite EO in DO.
                inversion DO; subst; try congruence; try (match goal with H : forall n, _ <> OBlock n |- _ => now apply (H n) end);
                  try (match goal with H : jumps T _ |- _ => destruct H as [H|H]; apply z_mem_In in H; congruence end).
                match goal with H : as_int _ = Some _ |- _ => discriminate H end.
          -- destruct (dis_targets _ _ _ _ _ _ _ _ _ _ _ D _ _ _ _ I) as (e & _ & ->). unfold label_at. eauto.
        * intros it n I J. destruct it as [i| | |id t la d|]; cbn [target] in J; try destruct J.
          -- destruct (AT i I) as (k & ln & c & x & _ & NK & _ & LI & N & DA & IA & _). destruct (OPS _ _ _ LI N NK) as [EO ((O & B & A & _) & _)].
             destruct (get_jump_target v T c (offset_of v cs k)) as [t|] eqn:GJ.
             ++ rewrite IA in J. unfold label_at in J. destruct J as [<-|[]].
                assert (JT : In t (jump_targets_of v T 0 cs)) by (apply (jump_targets_in v T cs 0 k c t NK); now rewrite Z.add_0_l).
                apply HERE; [now apply DJ|]. rewrite DT. apply in_or_app. now left.
             ++ exfalso. destruct (op_has_jump T (c_op c)) eqn:OJ.
                ** destruct (PC c (nth_error_In _ _ NK)) as (_ & _ & _ & QA). specialize (QA OJ). destruct (c_arg c) as [a|] eqn:CA; [|congruence].
                   rewrite (jump_target_is v T wf c _ a O B CA OJ) in GJ. discriminate.
                ** destruct (i_arg i) eqn:IQ; try solve [destruct J]. eapply (legal_not_label v T i _ LI); [now rewrite EO|exact IQ].
          -- destruct (dis_targets _ _ _ _ _ _ _ _ _ _ _ D _ _ _ _ I) as (e & IE & ->). unfold label_at in J. destruct J as [<-|[]].
             apply HERE; [|rewrite DT; apply in_or_app; right; now apply in_map].
             destruct (HAN e IE) as (h & LH & E3). rewrite E3.
             rewrite (offsets_from_nth v T wf cs) by (rewrite <- SN; exact PP). apply in_map_iff. exists h. split; [lia|]. apply in_seq. lia.
    - exact BR.
  Qed.
End Proper.

Section Assembled.
  Variables (v : pyver) (T : optable) (keq : pyobj -> pyobj -> bool).
  Hypothesis wf : wf_optable v T = true.
  Variables (b : bytecode) (cb : cbytecode) (vn : list string) (K0 : conv) (gs0 : list (list cinstr)) (Kf : conv)
    (gs : list (list cinstr)) (en : list exentry).
  Hypothesis A : assembled v T keq b cb vn K0 gs0 Kf gs en.
  Notation items := (b_items b).
  Notation cs := (concat gs).
  Notation ib := (start gs).
  Hypothesis HL : forall i, In (BI i) items -> legal_instr v T i.
  Hypothesis HM : forall i, In (BI i) items -> real_member v (i_arg i).
  Hypothesis HK : forall x y, keq x y = true -> x = y.
  Hypothesis NC : no_cache items.
  Hypothesis TBL : try_blocks items.
  Hypothesis FN : frees_apart v cb.
  Hypothesis HP : forall i n, In (BI i) items -> is_dual v T (i_op i) = true -> In n (locals_of (i_arg i)) -> In n (firstn 16 (cb_varnames cb)).
  Hypothesis HE : forall l k, used_label l items -> position items l = Some k -> (k < ninstrs items)%nat.
  Hypothesis HS : forall e, In e (cb_ex cb) -> exists k, (k < length (instrs_of (cb_items cb)))%nat /\ e_start e = offset_of v (instrs_of (cb_items cb)) k.

  Lemma start_kept p c : nth_error cs (ib p) = Some c -> kept true c = true.
  Proof.
    intros N. destruct (concat_inv gs (ib p) c N) as (p' & g & j & G & J & E).
    assert (J0 : j = 0%nat).
    { pose proof (nth_some_lt _ _ _ J) as LJ. destruct (Nat.lt_trichotomy p p') as [Q|[Q|Q]].
      - pose proof (start_mono gs p p' ltac:(lia)). lia.
      - subst. lia.
      - pose proof (start_mono gs (S p') p ltac:(lia)) as M. rewrite (start_S gs p' g G) in M. lia. }
    subst j. destruct (nth_error items p') as [it|] eqn:Hp.
    - pose proof (groups v T keq wf _ _ _ _ _ _ _ _ A HL HM HK NC FN HP) as F. pose proof (P_Code2.Forall2_at _ _ _ _ _ _ F Hp G) as GR.
      destruct it; cbn in GR; try (subst g; discriminate J). destruct GR as (c' & n & -> & N1 & _). cbn in J. injection J as ->.
      unfold kept. cbn. apply negb_true_iff, String.eqb_neq. rewrite N1. apply NC. eapply nth_error_In; eauto.
    - apply nth_error_None in Hp. apply nth_some_lt in G. rewrite <- (proj1 (laid v T keq wf _ _ _ _ _ _ _ _ A HL)) in Hp. lia.
  Qed.

  Lemma assembled_shown_proper conserve b' : to_bytecode v T cb true conserve = Ok b' ->
    no_cache (b_items b') /\ S_Cfg.proper T (b_items b') /\ bracketed None (b_items b').
  Proof.
    destruct (P_Ident3.cb_is v T keq _ _ _ _ _ _ _ _ A) as (CI1 & CI2 & CE & CM).
    pose proof (tidy_en v T keq wf _ _ _ _ _ _ _ _ A TBL HS) as TE.
    apply (shown_proper v T wf cb conserve b').
    - intros c I. rewrite CI2 in I.
      pose proof (as_made _ _ _ _ _ _ _ _ _ _ _ A) as F. rewrite Forall_forall in F. destruct (F c I) as [V E].
      split; [eapply valid_legal; eauto|]. split; [|intros n E'; congruence].
      intros X. apply In_nth_error in I. destruct I as [k N].
      assert (K : kept true c = true) by (unfold kept; rewrite X; reflexivity).
      destruct (kept_from v T keq wf _ _ _ _ _ _ _ _ A HL HM HK NC FN HP k c N K) as (p & i & rest & Hp & G & _).
      destruct (head v T keq wf _ _ _ _ _ _ _ _ A HL HM HK FN HP _ _ Hp) as (c' & rest' & G' & N' & _).
      rewrite G in G'. injection G' as <- <-. destruct (HL i (nth_error_In _ _ Hp)) as (_ & _ & L3 & _). congruence.
    - rewrite CI2, CE. exact TE.
    - intros e k c I E N. rewrite CE in I. rewrite CI2 in E, N. apply In_nth_error in I. destruct I as [n I].
      destruct (entries v T keq wf _ _ _ _ _ _ _ _ A TBL n e I) as (id & p & q & t & la & d & l & ql & _ & _ & _ & _ & _ & _ & E6 & E7 & E8 & E9).
      pose proof (POS v T keq wf _ _ _ _ _ _ _ _ A) as PO. pose proof (nth_some_lt _ _ _ N) as LK. pose proof (start_le gs q) as LQ.
      assert (X : k = ib p); [|subst k; exact (start_kept p c N)].
      pose proof (exec_between v cs (ib p) PO ltac:(lia)) as X. rewrite <- E7, E in X.
      destruct (Nat.lt_trichotomy k (ib p)) as [L|[L|L]]; [|exact L|].
      + pose proof (proj2 (off_lt_iff v cs k (ib p) PO ltac:(lia) ltac:(lia)) L). lia.
      + destruct X as [_ X]. apply (off_lt_iff v cs k (S (ib p)) PO) in X; lia.
    - intros e I. rewrite CE in I. rewrite CI2. apply In_nth_error in I. destruct I as [n N].
      destruct (entries v T keq wf _ _ _ _ _ _ _ _ A TBL n e N) as (id & p & q & t & la & d & l & ql & E1 & B & E2 & E3 & E4 & _). subst t.
      exists (ib ql). split; [|exact E4].
      eapply (label_inside v T keq wf _ _ _ _ _ _ _ _ A HL HM HK FN HP HE); [eapply used_handler; eauto|exact E3].
  Qed.
End Assembled.
