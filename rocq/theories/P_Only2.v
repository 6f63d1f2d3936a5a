(** Assembly depends only on the program, continued: to_concrete (C69). *)
From Verif Require Import PyBase OpTable P_Base M_Instr M_Tables M_Concrete M_Convert S_Args S_Asm S_Prog S_Ident P_Conv P_Conv2 P_CfgTo2 P_Only T_Asm T_Code.
Open Scope string_scope.
Open Scope list_scope.
Open Scope Z_scope.

Definition bare (x : string * parg * loc * option handler) : string * parg * loc * option handler := let '(n, a, l, _) := x in (n, a, l, None).
Lemma listing_source pos l : forall o cur, listing pos cur l = map bare (located cur (walk pos o l)).
Proof.
  induction l as [|x r IH]; intros o cur; [reflexivity|]. destruct x; cbn; rewrite <- ?IH; try reflexivity; apply IH.
Qed.

Lemma to_concrete_only v T keq passes1 passes2 a b ca cb : all_legal v T a -> all_legal v T b ->
  no_cache (b_items a) -> no_cache (b_items b) ->
  b_meta a = b_meta b -> b_argnames a = b_argnames b -> map bare (source a) = map bare (source b) ->
  to_concrete v T keq passes1 a = Ok ca -> to_concrete v T keq passes2 b = Ok cb ->
  cb_meta ca = cb_meta cb /\ cb_items ca = cb_items cb /\ cb_consts ca = cb_consts cb /\ cb_names ca = cb_names cb /\ cb_varnames ca = cb_varnames cb.
Proof.
  intros LA LB NA NB EM EN ES HA HB. unfold to_concrete in HA, HB. rewrite <- EM, <- EN in HB.
  set (m := b_meta a) in *. set (cs := match m_docstring m with OUnset => [] | d => fst (add_const keq [] d) end) in *.
  apply bind_ok in HA. destruct HA as ([KA insA] & HA & JA). apply bind_ok in JA. destruct JA as ([ia ea] & JA & XA). injection XA as <-.
  apply bind_ok in HB. destruct HB as ([KB insB] & HB & JB). apply bind_ok in JB. destruct JB as ([ib eb] & JB & XB). injection XB as <-.
  cbn [cb_meta cb_items cb_consts cb_names cb_varnames].
  unfold concrete_instructions in HA, HB.
  apply bind_ok in HA. destruct HA as (va & PA & HA). apply bind_ok in HB. destruct HB as (vb & PB & HB).
  set (cur := line_loc (Some (m_first_lineno m))) in *.
  set (pa := position (b_items a)) in *. set (pb := position (b_items b)) in *.
  assert (OA : forall i, In (BI i) (b_items a) -> opmap T (i_name i) = Some (i_op i)) by (intros i J; apply (LA i J)).
  assert (OB : forall i, In (BI i) (b_items b) -> opmap T (i_name i) = Some (i_op i)) by (intros i J; apply (LB i J)).
  assert (LL : listing pa cur (b_items a) = listing pb cur (b_items b)).
  { rewrite (listing_source pa _ None), (listing_source pb _ None). unfold source in ES. rewrite <- EM in ES. exact ES. }
  assert (VV : va = vb).
  { unfold prescan in PA, PB. destruct (PY313 v); [|congruence].
    apply bind_ok in PA. destruct PA as (ra & PA & XA). apply bind_ok in PB. destruct PB as (rb & PB & XB).
    destruct (prescan_canon v T pa _ OA _ cur _ PA) as (s1 & Q1). destruct (prescan_canon v T pb _ OB _ cur _ PB) as (s2 & Q2).
    rewrite LL in Q1. cbn [fst] in Q1, Q2. congruence. }
  subst vb. set (K0 := mkK [] [] [] [] 0 false cs [] va cur [] [] false) in *.
  apply bind_ok in HA. destruct HA as (K1a & FA & HA). apply bind_ok in HB. destruct HB as (K1b & FB & HB).
  apply bind_ok in HA. destruct HA as (K2a & GA & HA). apply bind_ok in HB. destruct HB as (K2b & GB & HB).
  apply bind_ok in HA. destruct HA as (ja & VA & HA). injection HA as <- <-. apply bind_ok in HB. destruct HB as (jb & VB & HB). injection HB as <- <-.
  destruct (run_canon v T keq m pa K0 K0 cur eq_refl eq_refl eq_refl _ _ NA OA FA) as (Ca & Ea & COa & _ & Ja).
  destruct (run_canon v T keq m pb K0 K0 cur eq_refl eq_refl eq_refl _ _ NB OB FB) as (Cb & Eb & COb & _ & Jb).
  rewrite LL in Ea. rewrite Ea in Eb. injection Eb as <-.
  assert (FIN : forall K K', (core K = core Ca \/ exists C1, flush_caches v T Ca None = Ok C1 /\ core K = core C1) -> flush_caches v T K None = Ok K' ->
     exists C1, flush_caches v T Ca None = Ok C1 /\ core K' = core C1 /\ k_jumps K' = k_jumps K /\ k_labels K' = k_labels K).
  { intros K K' CO F. destruct (flush_core v T K K K' eq_refl F) as (K3 & Q3 & _ & J3 & L3 & _). assert (K3 = K') by congruence. subst K3.
    destruct CO as [CO|(C1 & FC & CO)].
    - destruct (flush_core v T _ _ _ CO F) as (C1 & A1 & A2 & A3 & _). exists C1. auto.
    - destruct (flush_core v T _ _ _ CO F) as (C2 & A1 & A2 & _).
      destruct (flush_core v T _ _ _ (core_self Ca) FC) as (C3 & A5 & _ & _ & _ & _ & R3). assert (C3 = C1) by congruence. subst C3.
      rewrite (flush_idem v T _ R3) in A1. injection A1 as <-. exists C1. repeat split; auto. }
  destruct (FIN _ _ COa GA) as (C1 & Q1 & R1 & J1 & L1). destruct (FIN _ _ COb GB) as (C2 & Q2 & R2 & J2 & L2).
  rewrite Q1 in Q2. injection Q2 as <-. assert (CC : core K2a = core K2b) by congruence.
  rewrite (fix_vars_core v T m _ _ CC) in VA. rewrite VA in VB. injection VB as <-.
  assert (TB := CC). unfold core in TB. injection TB as _ _ _ T1 T2 T3 _ _. rewrite T1, T2, T3.
  assert (IE : ia = ib); [|subst; auto].
  eapply jumps_same; [|exact JA|exact JB].
  assert (LBa : forall n, dget Nat.eqb (k_labels K2a) n = option_map (place v T keq m K0 (map (canon1 T) (listing pa cur (b_items a)))) (pa n)).
  { intros n. rewrite L1. eapply (run_labels v T keq m pa K0 K0 cur (b_items a)); eauto; try reflexivity. now rewrite app_nil_r. }
  assert (LBb : forall n, dget Nat.eqb (k_labels K2b) n = option_map (place v T keq m K0 (map (canon1 T) (listing pa cur (b_items a)))) (pb n)).
  { intros n. rewrite L2, LL. eapply (run_labels v T keq m pb K0 K0 cur (b_items b)); eauto; try reflexivity. now rewrite app_nil_r. }
  rewrite J1, J2. rewrite Ja in Jb. clear - Jb LBa LBb. revert Jb. generalize (k_jumps K1a), (k_jumps K1b).
  induction l as [|[x1 x2] r IH]; intros [|[y1 y2] r'] E; cbn in E; try discriminate; constructor.
  - injection E as E1 E2 _. cbn [fst snd]. split; [exact E1|]. rewrite LBa, LBb. f_equal.
    destruct (pa x2), (pb y2); cbn in E2; congruence.
  - apply IH. now injection E.
Qed.
