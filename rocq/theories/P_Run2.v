(** The exception table of a code object made through a graph, and the handlers of the graph. *)
From Coq Require Import Lia.
From Verif Require Import PyBase OpTable P_Base M_Instr M_Tables M_Concrete M_Convert M_Bytecode M_Cfg M_Stack M_Full
  S_Args S_Asm S_Slots S_Prog S_Ident S_Dis S_Cfg S_Stack S_Code S_Run P_CfgSeq P_CfgFrom2 P_CfgFrom4 P_CfgTo P_CfgTo2 P_CfgTo3 P_Layout P_Code2
  P_Stack P_Stack4 P_Full P_Run P_Ident T_Asm T_Args T_Ident T_Code T_Cfg2 T_Full.
Open Scope string_scope.
Open Scope list_scope.
Open Scope Z_scope.

(** ** A graph made from a Bytecode *)
Lemma tb_ids_dd l : forall s, tb_ids (dd s l) = tb_ids l.
Proof.
  induction l as [|x l IH]; intros s; [reflexivity|]. destruct x; cbn; try apply IH.
  - f_equal. apply IH.
  - destruct (nat_mem id s); cbn; apply IH.
Qed.
Lemma graph_nodup T l hs lk : graph_of T l hs lk -> NoDup (tb_ids (flat hs)).
Proof. intros G. rewrite <- (tb_ids_dd _ []). apply (paired_nodup _ None []). apply (q_pair _ _ _ _ G). Qed.
Lemma tb_unique l : NoDup (tb_ids l) -> forall id t la d t' la' d', In (BTB id t la d) l -> In (BTB id t' la' d') l ->
  t = t' /\ la = la' /\ d = d'.
Proof.
  induction l as [|x l IH]; intros ND id t la d t' la' d' J J'; [destruct J|].
  assert (IDS : forall id t la d, In (BTB id t la d) l -> In id (tb_ids l)).
  { intros i a c e K. apply tb_ids_in. apply In_nth_error in K. destruct K as [p K]. exists p, a, c, e. exact K. }
  destruct x as [i|n|z|id0 t0 la0 d0|id0]; cbn in ND;
    try (destruct J as [J|J]; [discriminate|]; destruct J' as [J'|J']; [discriminate|]; eapply IH; eauto; fail).
  inversion ND as [|? ? NI ND']; subst. destruct J as [J|J]; destruct J' as [J'|J'].
  - injection J as <- <- <- <-. injection J' as <- <- <-. auto.
  - injection J as <- <- <- <-. apply IDS in J'. contradiction.
  - injection J' as <- <- <- <-. apply IDS in J. contradiction.
  - eapply IH; eauto.
Qed.
Lemma tb_find l : NoDup (tb_ids l) -> forall id t la d, In (BTB id t la d) l -> find_tb id l = Some (t, la, d).
Proof.
  intros ND id t la d J. destruct (find_tb id l) as [[[t' la'] d']|] eqn:F.
  - apply find_tb_in in F. destruct (tb_unique _ ND _ _ _ _ _ _ _ J F) as (-> & -> & ->). reflexivity.
  - exfalso. clear ND. induction l as [|x l IH]; [destruct J|]. destruct J as [->|J].
    + cbn in F. rewrite Nat.eqb_refl in F. discriminate.
    + destruct x; cbn in F; auto. destruct (Nat.eqb id id0); [discriminate|auto].
Qed.
Lemma in_heap g n it : In it (k_items (blk g n)) -> In it (flat (g_heap g)).
Proof.
  unfold blk, flat. destruct (nth_error (g_heap g) n) as [k|] eqn:E; [|intros []]. intros J. apply in_flat_map. exists k. split; [eapply nth_error_In; eauto|exact J].
Qed.
Lemma graph_coherent T l g lk : graph_of T l (g_heap g) lk -> coherent g.
Proof.
  intros G n m id t t' la la' d d' J J'. apply in_heap in J, J'. destruct (tb_unique _ (graph_nodup _ _ _ _ G) _ _ _ _ _ _ _ J J') as (-> & -> & _). auto.
Qed.
Lemma all_flat g : g_order g = seq 0 (length (g_heap g)) -> all_items g = flat (g_heap g).
Proof.
  intros O. unfold all_items. rewrite O. transitivity (flat (map (blk g) (seq 0 (length (g_heap g))))); [|now rewrite blk_nth].
  unfold flat. now rewrite flat_map_concat_map, (flat_map_concat_map k_items), map_map.
Qed.

Section H.
  Variables (v : pyver) (T : optable) (se : oracle) (keq : pyobj -> pyobj -> bool) (check : bool) (passes : nat)
    (b b' : bytecode) (cb : cbytecode) (size : Z) (co : codeobj) (g : cfg) (H : nat -> Z).
  Hypothesis wf : wf_optable v T = true.
  Hypothesis HK : sound_key keq.
  Hypothesis WR : writable v T b.
  Hypothesis FR : from_bytecode T b = Ok g.
  Hypothesis TG : through_graph v T se check true b = Ok (b', size).
  Hypothesis TC : to_concrete v T keq passes b' = Ok cb.
  Hypothesis CO : to_code_raw v T cb size = Ok co.
  Hypothesis PN : pairs_near v T b (co_varnames co).
  Hypothesis P311 : PY311 v = true.
  Notation first := (first_depth v (m_flags (b_meta b))).
  Notation ef := (eff v T se check).
  Notation cov := (protected (source b) g).
  Notation At := (at_ T ef g first H cov).
  Hypothesis REG : regular T ef g first H cov.
  Hypothesis MET : forall n i id h la sd, elem g n i = Some (BTB id (OBlock h) la sd) -> exists d o, At (n, i, d, o).

  Lemma size_is : co_stacksize co = size.
  Proof using CO. pose proof CO as X. clear - X. unfold to_code_raw in X. destruct (assemble_code v T cb) as [code ln]. apply bind_ok in X. destruct X as (? & _ & X). apply bind_ok in X. destruct X as (? & _ & X). injection X as <-. reflexivity. Qed.
  Lemma b_runs : runs v T co (source b).
  Proof. eapply write_ok; eauto. eapply through_writable; eauto. Qed.

  Lemma known : well_formed T (b_items b) g /\ g_order g = seq 0 (length (g_heap g)) /\ coherent g /\ first_depth v (m_flags (g_meta g)) = first.
  Proof using WR FR. clear REG MET.
    pose proof (w_proper _ _ _ WR) as PR. destruct (C27_from_bytecode T b PR) as (g1 & E1 & WF). rewrite FR in E1. injection E1 as <-.
    destruct (from_ok T b PR) as (g1 & lk & E1 & G & _ & O & M & _). rewrite FR in E1. injection E1 as <-.
    split; [exact WF|]. split; [exact O|]. split; [eapply graph_coherent; exact G|]. rewrite M. destruct (b_meta b). reflexivity.
  Qed.

  Lemma computed : exists g', compute_stacksize v T se check true g = Ok (g', size) /\ cfg_to_bytecode T g' = Ok b'
    /\ outcome v T se check true g H cov (g', size).
  Proof using WR FR TG P311 REG. clear MET.
    destruct (through_split _ _ _ _ _ _ _ _ TG) as (g1 & g' & E1 & E2 & E3). rewrite FR in E1. injection E1 as <-.
    exists g'. split; [exact E2|]. split; [exact E3|]. destruct known as (_ & _ & COH & FD).
    assert (X := compute_good v T se check true g H cov). rewrite FD in X at 1.
    specialize (X REG COH (or_introl P311)). rewrite E2 in X. exact X.
  Qed.

  (** a handler of the code object is one of the graph, with the depth it has there *)
  Lemma handlers n i d o x k r u target depth la : At (n, i, d, o) -> elem g n i = Some (BI x) -> numbered g n i k ->
    nth_error (instructions v T co) k = Some r -> PY311 v = true -> r_at r <= 2 * u < r_end r ->
    find_handler co u = Some (target, depth, la) ->
    exists h, cov n i h la /\ depth = H h /\ begins v T co (before g h) = Some (2 * target).
  Proof.
    intros A E N R _ U F. destruct known as (WF & OR & COH & FD). destruct computed as (g' & EC & ET & OUT).
    destruct (compute_heap _ _ _ _ _ _ _ _ EC) as (LK & O' & M' & A').
    pose proof (w_proper _ _ _ WR) as PR.
    destruct (from_ok T b PR) as (g1 & lk & E1 & G & _). rewrite FR in E1. injection E1 as <-.
    pose proof (graph_like _ _ _ _ _ G LK) as G'.
    destruct (through_writable _ _ _ _ _ _ _ _ WR TG) as (W' & SO & _ & _ & PN'). specialize (PN' _ PN).
    destruct (to_concrete_assembled v T keq wf passes b' cb TC) as (vn & K0 & gs0 & Kf & gs & en & AS).
    assert (VN : co_varnames co = cb_varnames cb).
    { pose proof CO as X. unfold to_code_raw in X. destruct (assemble_code v T cb) as [code ln]. apply bind_ok in X. destruct X as (? & _ & X). apply bind_ok in X. destruct X as (? & _ & X). injection X as <-. reflexivity. }
    rewrite VN in PN'.
    destruct (code_handler v T keq wf b' cb vn K0 gs0 Kf gs en AS (w_legal _ _ _ W') (w_members _ _ _ W') HK (w_caches _ _ _ W')
      (writable_blocks _ _ _ W') PN' co size CO (w_locs _ _ _ W') k r u target depth la P311 R U F) as (id & l & t & J & PO & B & SN).
    fold (source b') in SN. rewrite SO in SN.
    assert (LEN : length (g_heap g') = length (g_heap g)) by (symmetry; eapply Forall2_len; exact LK).
    assert (OR' : g_order g' = seq 0 (length (g_heap g'))) by now rewrite O', LEN.
    destruct (to_depths T g' b') with (id := id) (n := l) (la := la) (d := Some depth) as (id' & J').
    { intros i0 t0 la0 d0 X. rewrite (all_flat g' OR') in *. exists d0. apply tb_find; [eapply graph_nodup; exact G'|exact X]. }
    { intros i0 t0 la0 d0 X. rewrite (all_flat g' OR') in X. apply (q_fits _ _ _ _ G') in X. cbn in X. destruct X as (n0 & k0 & _ & ->). eauto. }
    { exact ET. } { exact J. }
    (* the block *)
    assert (JG : exists m j sd, In m (g_order g) /\ elem g m j = Some (BTB id' (OBlock l) la sd)).
    { unfold all_items in J'. apply in_flat_map in J'. destruct J' as (m & JM & J'). rewrite O' in JM. exists m.
      apply In_nth_error in J'. destruct J' as (j & J').
      unfold blk in J'. destruct (nth_error (g_heap g') m) as [k'|] eqn:Q; [|destruct j; discriminate].
      destruct (like_nth _ _ _ _ LK Q) as (k0 & Q0 & _ & I).
      assert (X : nth_error (map no_depth (k_items k0)) j = Some (BTB id' (OBlock l) la None)).
      { rewrite <- I. rewrite (map_nth_error no_depth _ _ J'). reflexivity. }
      rewrite nth_error_map in X. destruct (nth_error (k_items k0) j) as [y|] eqn:Y; [|discriminate]. cbn in X. injection X as X.
      destruct y; try discriminate. cbn in X. injection X as -> -> ->. exists j, depth0. split; [exact JM|].
      unfold elem, blk. rewrite Q0. exact Y. }
    destruct JG as (m & j & sd & JM & EG).
    destruct (MET _ _ _ _ _ _ EG) as (dm & om & AM). destruct OUT as (_ & _ & O3 & _). rewrite FD in O3.
    specialize (O3 eq_refl _ _ _ _ _ _ _ _ AM EG).
    assert (DH : depth = H l).
    { rewrite (all_flat g' OR') in J'. unfold flat in J'. apply in_flat_map in J'. destruct J' as (k' & K1 & K2).
      specialize (O3 _ _ _ _ K1 K2). now injection O3. }
    destruct (wf_handlers _ _ _ WF id' (OBlock l) la sd) as (n0 & k0 & b0 & Q & OK & _).
    { unfold all_items. apply in_flat_map. exists m. split; [exact JM|eapply nth_error_In; exact EG]. }
    injection Q as <-. pose proof (order_nth g OR _ _ OK) as ->.
    (* where it begins *)
    assert (T0 : t = before g k0).
    { destruct (to_ok T _ _ lk g' G' eq_refl OR') as [(X & _)|(out & X & _ & PO' & _ & _ & LP)]; [congruence|].
      rewrite ET in X. injection X as ->. cbn [b_items] in *.
      assert (JL : In (BLabel k0) out).
      { eapply (proper_labels _ _ PO'); [exact J|]. cbn. now left. }
      rewrite (LP _ JL) in PO. injection PO as <-.
      unfold before. rewrite <- (nd_ninstrs (flat (firstn k0 (g_heap g')))), (like_flat (firstn k0 (g_heap g))), nd_ninstrs; [|now apply Forall2_firstn].
      f_equal. rewrite OR. clear - OK. unfold flat. rewrite <- (blk_nth g) at 1. rewrite firstn_map.
      rewrite flat_map_concat_map, (flat_map_concat_map (fun n => k_items (blk g n))), map_map. reflexivity. }
    exists k0. split; [|split; [exact DH|rewrite <- T0; exact B]].
    exists x, k, t, k0. repeat (split; [assumption|]). exact T0.
  Qed.
End H.
