(** The program shown by the disassembler (C22). *)
From Verif Require Import PyBase OpTable P_Base P_OpTable M_Instr M_Tables M_Concrete S_Args S_Lines S_Asm S_Prog S_Dis
  M_Bytecode M_Cfg S_Cfg P_Cfg P_CfgSeq P_CfgTo2 P_Instr P_Instr2 P_Jumps P_Jumps2 P_AsmProps P_Dis P_Dis2.
Open Scope string_scope.
Open Scope list_scope.
Open Scope Z_scope.

Lemma nth_split_concat {A} (ps : list (list A)) k p : nth_error ps k = Some p ->
  concat ps = concat (firstn k ps) ++ p ++ concat (skipn (S k) ps).
Proof.
  revert k. induction ps as [|q ps IH]; intros [|k] N; try discriminate N.
  - injection N as ->. reflexivity.
  - cbn [firstn concat skipn nth_error] in *. rewrite (IH k N) at 1. now rewrite <- app_assoc.
Qed.

Lemma kept_before_S prune cs k c : nth_error cs k = Some c ->
  kept_before prune cs (S k) = (kept_before prune cs k + (if kept prune c then 1 else 0))%nat.
Proof.
  unfold kept_before. intros N. assert (E : firstn (S k) cs = firstn k cs ++ [c]).
  { clear - N. revert k N. induction cs as [|d cs IH]; intros [|k] N; try discriminate N; cbn in *; [now injection N as ->|]. now rewrite IH. }
  rewrite E, filter_app, app_length. cbn. destruct (kept prune c); reflexivity.
Qed.

(** concatenation of pieces of length 0 or 1 *)
Lemma concat_units {A} (prs : list (list A)) prune cs : length prs = length cs ->
  (forall k c pr, nth_error cs k = Some c -> nth_error prs k = Some pr -> length pr = if kept prune c then 1%nat else 0%nat) ->
  length (concat prs) = kept_before prune cs (length cs)
  /\ forall k, length (concat (firstn k prs)) = kept_before prune cs k.
Proof.
  intros L U. assert (X : forall k, length (concat (firstn k prs)) = kept_before prune cs k).
  { unfold kept_before. revert cs L U. induction prs as [|pr prs IH]; intros [|c cs] L U k; try discriminate L.
    - now rewrite !firstn_nil.
    - destruct k as [|k]; [reflexivity|]. cbn [firstn concat filter]. rewrite app_length, (U 0%nat c pr eq_refl eq_refl).
      cbn in L. injection L as L. rewrite (IH cs L (fun j => U (S j)) k). destruct (kept prune c); reflexivity. }
  split; [|exact X]. rewrite <- (X (length cs)), <- L, firstn_all. reflexivity.
Qed.

Lemma nth_error_skipn' {A} (l : list A) n : forall k, nth_error (skipn n l) k = nth_error l (n + k).
Proof. revert l. induction n as [|n IH]; intros [|x l] k; try reflexivity; cbn; [now destruct k|]. apply IH. Qed.

Section Main.
  Variables (v : pyver) (T : optable).
  Hypothesis wf : wf_optable v T = true.

  Lemma offset_inj cs i j : Forall pos cs -> (i <= length cs)%nat -> (j <= length cs)%nat -> offset_of v cs i = offset_of v cs j -> i = j.
  Proof.
    intros P Li Lj E. pose proof (off_lt_iff v cs i j P Li Lj). pose proof (off_lt_iff v cs j i P Lj Li). lia.
  Qed.

  Lemma legal_not_label i l : legal_instr v T i -> op_has_jump T (i_op i) = false -> i_arg i <> OLabel l.
  Proof.
    intros (OM & LT & NX & C) J E. rewrite E in C.
    unfold op_has_jump in J. apply orb_false_iff in J. destruct J as [J1 J2].
    inversion C; subst; try congruence; try (match goal with H : forall n, _ <> OLabel n |- _ => now apply (H l) end);
    try (match goal with H : jumps T _ |- _ => destruct H as [H|H]; apply z_mem_In in H; congruence end).
    match goal with H : as_int _ = Some _ |- _ => discriminate H end.
  Qed.

  Definition shown (cb : cbytecode) (prune : bool) (items : list bitem) : Prop :=
    let cs := instrs_of (cb_items cb) in
    length (program items) = kept_before prune cs (length cs)
    /\ forall pre c post, cb_items cb = pre ++ CI c :: post -> kept prune c = true ->
       let k := length (instrs_of pre) in
       exists arg h, nth_error (program items) (kept_before prune cs k)
           = Some (PInstr (c_name c) arg (Some match c_loc c with Some l => l
                | None => line_loc (Some (current_line (m_first_lineno (cb_meta cb)) (pre ++ [CI c]))) end) h)
       /\ (op_has_jump T (c_op c) = true -> exists k', (k' < length cs)%nat
             /\ offset_of v cs k' = jumps_to v T c (offset_of v cs k) /\ arg = PTo (Some (kept_before prune cs k')))
       /\ (op_has_jump T (c_op c) = false -> exists x, decode_arg v T cb (c_op c) (c_arg c) = Ok x /\ arg = PObj x)
       /\ (tidy v cs (cb_ex cb) -> match covering v cs (cb_ex cb) k with
             | None => h = None
             | Some e => exists k', (k' < length cs)%nat /\ offset_of v cs k' = e_target e
                 /\ h = Some (PTo (Some (kept_before prune cs k')), e_lasti e) end).

  Lemma plain_pos items : plain_code v T items -> Forall pos (instrs_of items).
  Proof. intros PC. apply Forall_forall. intros c I. apply (PC c I). Qed.

  (** labels of the pieces *)
  Lemma piece_facts cb prune conserve targets l ps cr : dis v T cb prune conserve targets [] 0 l ps cr -> Forall pos (map snd l) ->
    length ps = length l /\ forall k ln c, nth_error l k = Some (ln, c) -> exists p rest, nth_error ps k = Some p
      /\ p = (if z_mem (offset_of v (map snd l) k) targets then [BLabel (Z.to_nat (offset_of v (map snd l) k))] else []) ++ rest
      /\ (forall m, ~ In (BLabel m) rest) /\ ninstrs p = if kept prune c then 1%nat else 0%nat.
  Proof.
    intros D P. destruct (dis_nth v T wf cb prune conserve targets _ _ _ _ _ D P) as [L N]. split; [exact L|].
    intros k ln c NK. destruct (N k ln c NK) as (tb & body & ends & E & BO & TE). cbn [Z.add] in *.
    eexists _, (tb ++ body ++ ends). split; [exact E|]. split; [reflexivity|].
    assert (NB : body = [] /\ kept prune c = false \/ exists i, body = [BI i] /\ kept prune c = true).
    { unfold body_of in BO. unfold kept. destruct (prune && String.eqb (c_name c) "CACHE"); [left; tauto|right]. destruct BO as (i & x & -> & _). eauto. }
    assert (NTE : forall l', (forall it, In it l' -> match it with BTB _ _ _ _ | BTE _ => True | _ => False end) -> ninstrs l' = 0%nat).
    { intros l' H. induction l' as [|x l' IH]; [reflexivity|]. rewrite ninstrs_cons, IH by (intros; apply H; now right).
      specialize (H x (or_introl eq_refl)). destruct x; cbn; tauto. }
    split.
    - intros m I. rewrite !in_app_iff in I. assert (TE' := TE (BLabel m)). rewrite in_app_iff in TE'.
      destruct I as [I|[I|I]]; [tauto| |tauto]. destruct NB as [[-> _]|(i & -> & _)]; [destruct I|]. destruct I as [I|[]]; discriminate.
    - rewrite !ninstrs_app, (NTE tb), (NTE ends) by (intros; apply TE; rewrite in_app_iff; tauto).
      assert (Z0 : ninstrs (if z_mem (offset_of v (map snd l) k) targets then [BLabel (Z.to_nat (offset_of v (map snd l) k))] else []) = 0%nat) by (destruct (z_mem _ _); reflexivity).
      rewrite Z0. destruct NB as [[-> ->]|(i & -> & ->)]; reflexivity.
  Qed.

  Lemma label_positions cb prune conserve targets l ps cr k : dis v T cb prune conserve targets [] 0 l ps cr -> Forall pos (map snd l) ->
    (k < length l)%nat -> z_mem (offset_of v (map snd l) k) targets = true ->
    position (concat ps) (Z.to_nat (offset_of v (map snd l) k)) = Some (kept_before prune (map snd l) k).
  Proof.
    intros D P K M. destruct (piece_facts _ _ _ _ _ _ _ D P) as [L N].
    assert (EN : forall j, (j < length l)%nat -> exists ln c, nth_error l j = Some (ln, c)).
    { intros j J. destruct (nth_error l j) as [[ln c]|] eqn:Q; [eauto|]. apply nth_error_None in Q. lia. }
    destruct (EN k K) as (ln & c & NK). destruct (N k ln c NK) as (p & rest & E & EP & NL & _). rewrite M in EP.
    rewrite (nth_split_concat ps k p E), position_app, EP.
    assert (NONE : ~ In (BLabel (Z.to_nat (offset_of v (map snd l) k))) (rest ++ concat (skipn (S k) ps))).
    { rewrite in_app_iff. intros [X|X]; [now apply NL in X|]. apply in_concat in X. destruct X as (q & Q1 & Q2).
      apply In_nth_error in Q1. destruct Q1 as (j & J). rewrite nth_error_skipn' in J.
      assert (JL : (S k + j < length l)%nat) by (rewrite <- L; apply nth_error_Some; congruence).
      destruct (EN _ JL) as (ln' & c' & NJ). destruct (N _ _ _ NJ) as (q' & rest' & E' & EP' & NL' & _). rewrite J in E'. injection E' as <-.
      rewrite EP' in Q2. apply in_app_or in Q2. destruct Q2 as [Q2|Q2]; [|now apply NL' in Q2].
      destruct (z_mem (offset_of v (map snd l) (S k + j)) targets); [|destruct Q2]. destruct Q2 as [Q2|[]]. injection Q2 as Q2.
      assert (X1 := off_nonneg v (map snd l) k P). assert (X2 := off_nonneg v (map snd l) (S k + j) P).
      assert (X3 : offset_of v (map snd l) k < offset_of v (map snd l) (S k + j)) by (apply offset_strict; [exact P|lia|rewrite map_length; lia]).
      apply Z2Nat.inj in Q2; [clear - X3 Q2; apply (Z.lt_irrefl (offset_of v (map snd l) k)); rewrite <- Q2 at 2; exact X3|exact X2|exact X1]. }
    cbn [app position]. rewrite (position_none _ _ NONE), Nat.eqb_refl. f_equal.
    rewrite Nat.add_0_r. clear - L N EN. revert k. 
    assert (G : forall k, (k <= length l)%nat -> ninstrs (concat (firstn k ps)) = kept_before prune (map snd l) k).
    { induction k as [|k IH]; intros K; [reflexivity|]. destruct (EN k ltac:(lia)) as (ln & c & NK). destruct (N k ln c NK) as (p & rest & E & _ & _ & NI).
      assert (F : firstn (S k) ps = firstn k ps ++ [p]).
      { clear - E. revert k E. induction ps as [|d ps IH]; intros [|k] E; try discriminate E; cbn in *; [now injection E as ->|]. now rewrite IH. }
      rewrite F, concat_app, ninstrs_app, IH by lia. cbn [concat]. rewrite app_nil_r, NI.
      symmetry. apply kept_before_S. rewrite nth_error_map, NK. reflexivity. }
    intros k. destruct (le_lt_dec k (length l)) as [X|X]; [now apply G|].
    rewrite (firstn_all2 ps) by lia. rewrite <- (firstn_all ps), L, (G (length l) (Nat.le_refl _)). unfold kept_before.
    now rewrite !firstn_all2 by (rewrite map_length; lia).
  Qed.
End Main.
