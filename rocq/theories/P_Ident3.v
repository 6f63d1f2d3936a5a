(** Assembling and then disassembling gives the same program. *)
From Verif Require Import PyBase OpTable P_Base P_OpTable M_Instr M_Tables M_Concrete M_Convert S_Args S_Lines S_Prog S_Slots S_Asm S_Dis S_Ident
  P_Asm P_Instr P_Instr2 P_Conv P_Conv2 P_Cat P_Decode P_Args P_Args2 P_CfgSeq P_Dis P_Dis2 P_Dis3 P_Dis4 P_Dis5 P_Dis6 P_Try P_Jumps P_Jumps2 P_Layout P_Layout2 P_AsmProps P_Ident P_Ident2.
Open Scope string_scope.
Open Scope list_scope.
Open Scope Z_scope.

Lemma instrs_map cs : instrs_of (map CI cs) = cs.
Proof. induction cs as [|c cs IH]; [reflexivity|]. cbn. f_equal. exact IH. Qed.

Lemma to_bytecode_meta v T cb prune conserve b : to_bytecode v T cb prune conserve = Ok b ->
  let m := cb_meta cb in
  b_meta b = mkMeta (m_argcount m) (m_posonly m) (m_kwonly m) (m_first_lineno m) (m_name m)
             (m_qualname m) (m_filename m) (set_docstring (m_docstring m) (cb_consts cb))
             (m_cellvars m) (m_freevars m) (m_flags m)
  /\ b_argnames b = firstn (Z.to_nat (nargs_of m)) (cb_varnames cb).
Proof.
  unfold to_bytecode. intros H. apply bind_ok in H. destruct H as (items & _ & H). apply bind_ok in H. destruct H as (u & _ & H).
  apply bind_ok in H. destruct H as ([[out labels] cr] & _ & H). apply bind_ok in H. destruct H as (u2 & _ & H).
  apply bind_ok in H. destruct H as (u3 & _ & H). injection H as <-. split; reflexivity.
Qed.

Lemma ninstrs_mono l : forall a b, (a <= b)%nat -> (ninstrs (firstn a l) <= ninstrs (firstn b l))%nat.
Proof.
  unfold ninstrs. induction l as [|x l IH]; intros a b L; [now rewrite !firstn_nil|].
  destruct a as [|a]; [cbn; lia|]. destruct b as [|b]; [lia|]. cbn. specialize (IH a b ltac:(lia)).
  destruct (is_instr x); cbn; lia.
Qed.
Lemma ninstrs_S l p i : nth_error l p = Some (BI i) -> ninstrs (firstn (S p) l) = S (ninstrs (firstn p l)).
Proof. intros N. rewrite (firstn_S_nth _ _ _ N). unfold ninstrs. rewrite filter_app, app_length. cbn. lia. Qed.

Lemma Forall2_nth_intro {A B} (R : A -> B -> Prop) l : forall l', length l = length l' ->
  (forall k x y, nth_error l k = Some x -> nth_error l' k = Some y -> R x y) -> Forall2 R l l'.
Proof.
  induction l as [|x l IH]; intros [|y l'] L H; try discriminate L; constructor.
  - apply (H 0%nat); reflexivity.
  - apply IH; [cbn in L; congruence|]. intros k a c. apply (H (S k)).
Qed.

Section S.
  Variables (v : pyver) (T : optable) (keq : pyobj -> pyobj -> bool).
  Hypothesis wf : wf_optable v T = true.
  Variables (b : bytecode) (cb : cbytecode) (vn : list string) (K0 : conv) (gs0 : list (list cinstr)) (Kf : conv)
    (gs : list (list cinstr)) (en : list exentry).
  Hypothesis A : assembled v T keq b cb vn K0 gs0 Kf gs en.
  Notation items := (b_items b).
  Notation cs := (concat gs).
  Notation ib := (start gs).
  Hypothesis HL : forall i, In (BI i) items -> legal_instr v T i.
  Hypothesis HM : forall i, In (BI i) items -> real_member v (i_arg i).
  Hypothesis HK : forall x y, keq x y = true -> x = y.
  Hypothesis NC : no_cache items.
  Hypothesis TBL : try_blocks items.
  Hypothesis FN : frees_apart v cb.
  Hypothesis HP : forall i n, In (BI i) items -> is_dual v T (i_op i) = true -> In n (locals_of (i_arg i)) -> In n (firstn 16 (cb_varnames cb)).
  Hypothesis HE : forall l k, used_label l items -> position items l = Some k -> (k < ninstrs items)%nat.
  Hypothesis HS : forall e, In e (cb_ex cb) -> exists k, (k < length (instrs_of (cb_items cb)))%nat /\ e_start e = offset_of v (instrs_of (cb_items cb)) k.

  Lemma cb_is : cb_items cb = map CI cs /\ instrs_of (cb_items cb) = cs /\ cb_ex cb = en /\ cb_meta cb = b_meta b.
  Proof. rewrite (as_cb _ _ _ _ _ _ _ _ _ _ _ A). cbn. rewrite instrs_map. auto. Qed.

  Lemma laid : length gs = length items /\ forall p it g, nth_error items p = Some it -> nth_error gs p = Some g ->
      produced v T it (explicit_cache (nth_error items (S p))) g.
  Proof.
    destruct (assembled_laid v T keq wf _ _ _ _ _ _ _ _ A (opmap_of_legal v T _ HL)) as [_ LO].
    apply laid_nth in LO; [exact LO|exact wf..].
  Qed.

  Lemma jump_label i : In (BI i) items -> op_has_jump T (i_op i) = true -> exists l, i_arg i = OLabel l.
  Proof.
    intros I J. apply In_nth_error in I. destruct I as [p Hp]. pose proof (nth_error_In _ _ Hp) as I.
    destruct (HL i I) as (L1 & L2 & L3 & L4). pose proof (category_of v T wf _ _ L1 L2) as C.
    destruct (step_at _ _ _ _ _ _ _ _ _ _ _ _ _ A Hp) as (K1 & body & K2 & caches & Hg & He & _).
    cbn [item_effect] in He. destruct He as (co & na & va & first & name & arg & kind & c0 & E & _).
    destruct C as [C|C|C|C|C|C|C|C]; destruct C as (E1 & E2 & E3 & E4 & E5 & E6 & E7); try congruence.
    unfold encode_arg in E. rewrite E2, E3, E4, E5, E6, E7 in E.
    inversion L4; subst; try congruence; eauto; exfalso.
    all: try (match goal with H : In _ _ |- _ => apply z_mem_In in H; congruence end).
    - match goal with H : OBlock _ = _ |- _ => rewrite <- H in E; discriminate E end.
    - match goal with H : simple_name _ _ _ |- _ => destruct H as ([H|H] & _); apply z_mem_In in H; congruence end.
    - unfold is_intrinsic in E7. match goal with H : is_intrinsic1 _ _ _ = true |- _ => rewrite H in E7; discriminate end.
    - unfold is_intrinsic in E7. match goal with H : is_intrinsic2 _ _ _ = true |- _ => rewrite H, orb_true_r in E7; discriminate end.
    - match goal with H : plain _ _ _ |- _ => destruct H as (PJ & _) end. apply PJ. unfold op_has_jump in J. apply orb_true_iff in J.
      destruct J as [J|J]; apply z_mem_In in J; [now left|now right].
  Qed.

  (** the instruction made for an instruction *)
  Lemma head p i : nth_error items p = Some (BI i) -> exists c rest, nth_error gs p = Some (c :: rest) /\ c_name c = i_name i /\ c_op c = i_op i
    /\ (op_has_jump T (i_op i) = false -> exists y, decode_arg v T cb (c_op c) (c_arg c) = Ok y /\ same_arg v T cb (i_op i) (i_arg i) y).
  Proof.
    intros Hp. pose proof (nth_error_In _ _ Hp) as I. pose proof (HL i I) as HLi. pose proof HLi as (L1 & L2 & L3 & L4).
    pose proof (category_of v T wf _ _ L1 L2) as C.
    destruct (op_has_jump T (i_op i)) eqn:J.
    - destruct (jump_label i I J) as [l El].
      destruct (labels_resolve v T keq wf _ _ _ _ _ _ _ _ p i l A HL Hp El) as (q & c & rest & _ & G & N & O & _).
      exists c, rest. repeat (split; [assumption|]). discriminate.
    - destruct (is_dual v T (i_op i)) eqn:D.
      + destruct (pairs_read v T keq wf _ _ _ _ _ _ _ _ _ _ A Hp HLi D) as (x & y & Ea & X).
        assert (X1 : In x (firstn 16 (cb_varnames cb))) by (apply (HP i x I D); rewrite Ea; cbn; auto).
        assert (X2 : In y (firstn 16 (cb_varnames cb))) by (apply (HP i y I D); rewrite Ea; cbn; auto).
        assert (UP : forall z, In z (firstn 16 (cb_varnames cb)) -> In z (firstn 17 (cb_varnames cb))).
        { intros z. generalize (cb_varnames cb). clear. intros l. change 17%nat with (S 16). generalize 16%nat. intros n. revert l.
          induction n as [|n IH]; intros l; [intros []|]. destruct l as [|a l]; [intros []|]. cbn [firstn]. intros [<-|H]; [now left|right; now apply IH]. }
        destruct X as [(c & rest & G & N & O & R)|(c1 & c2 & rest & _ & [Y|Y] & _)]; [|exfalso; apply Y; now apply UP|exfalso; apply Y; now apply UP].
        exists c, rest. repeat (split; [assumption|]). intros _. rewrite O. eapply reads_shown; eauto.
      + assert (NL : forall l, i_arg i <> OLabel l) by (intros l; eapply legal_not_label; eauto).
        destruct (args_read v T keq wf HK _ _ _ _ _ _ _ _ _ _ A Hp HLi (HM i I) NL D) as (c & rest & G & N & O & R).
        exists c, rest. repeat (split; [assumption|]). intros _. rewrite O. eapply reads_shown; eauto.
  Qed.

  Lemma groups : Forall2 grouped items gs.
  Proof.
    destruct laid as [LL LO].
    assert (N : forall p it g, nth_error items p = Some it -> nth_error gs p = Some g -> grouped it g).
    { intros p it g Hp Hg. pose proof (LO _ _ _ Hp Hg) as P. destruct it; cbn [produced] in P; try exact P.
      assert (X : explicit_cache (nth_error items (S p)) = false).
      { destruct (nth_error items (S p)) as [[j| | | |]|] eqn:E; try reflexivity. cbn. apply String.eqb_neq. apply NC. eapply nth_error_In; eauto. }
      rewrite X in P. destruct P as (before & c & -> & [(-> & N & O)|(c1 & -> & D & DS & _)]).
      - exists c. eexists. split; [reflexivity|]. auto.
      - exfalso. destruct (head _ _ Hp) as (c' & rest & G & N & O & _). rewrite Hg in G. injection G as <- _.
        destruct (single_names v T _ _ _ DS) as (P3 & S1 & _). destruct (wf_singles v T wf _ P3 S1) as (o1 & O1 & _ & _ & O4 & _).
        destruct (HL i (nth_error_In _ _ Hp)) as (L1 & _). rewrite N, L1 in O1. injection O1 as <-. congruence. }
    clear - LL N. revert N LL. generalize items gs. induction l as [|it l IH]; intros [|g gs1] N LL; try discriminate LL; constructor.
    - apply (N 0%nat); reflexivity.
    - apply IH; [|cbn in LL; congruence]. intros p it' g' Hp Hg. apply (N (S p)); assumption.
  Qed.

  Lemma kept_ib p : kept_before true cs (ib p) = ninstrs (firstn p items).
  Proof. unfold kept_before. rewrite firstn_start. apply grouped_count; [exact groups|exact NC]. Qed.

  Lemma POS : Forall pos cs.
  Proof. eapply pos_gs; eauto. Qed.

  Lemma ib_lt p q : (p < q)%nat -> (exists i, nth_error items p = Some (BI i)) -> (ib p < ib q)%nat.
  Proof.
    intros L (i & Hp). destruct (head _ _ Hp) as (c & rest & G & _). pose proof (start_lt gs p q _ G L) as X. cbn in X. lia.
  Qed.

  Lemma label_inside l q : used_label l items -> label_position l items q -> (ib q < length cs)%nat.
  Proof.
    intros U P. pose proof (HE l _ U (position_label _ _ _ P)) as L.
    destruct (instr_at _ _ L) as (p & i & Hp & E).
    assert (Q : (q <= p)%nat).
    { destruct (le_lt_dec q p) as [|X]; [assumption|]. pose proof (ninstrs_mono items (S p) q ltac:(lia)) as Y.
      rewrite (ninstrs_S _ _ _ Hp) in Y. lia. }
    pose proof (start_mono gs q p Q). pose proof (ib_lt p (S p) ltac:(lia) (ex_intro _ i Hp)). pose proof (start_le gs (S p)). lia.
  Qed.

  (** the exception table *)
  Lemma entries n e : nth_error en n = Some e -> exists id p q t la d l ql,
    nth_error (tb_ids items) n = Some id /\ block items p q id t la d /\ t = OLabel l /\ label_position l items ql
    /\ e_target e = offset_of v cs (ib ql) /\ e_lasti e = la /\ (ib p < ib q)%nat
    /\ e_start e = executed_at v cs (ib p) /\ e_stop e = executed_at v cs (ib q - 1)
    /\ forall k, (k < length cs)%nat -> (e_start e <= executed_at v cs k <= e_stop e <-> (ib p <= k < ib q)%nat).
  Proof.
    intros N. destruct (try_entries v T keq wf _ _ _ _ _ _ _ _ A (blocks_proper _ TBL)) as [L H].
    assert (X : exists id, nth_error (tb_ids items) n = Some id).
    { destruct (nth_error (tb_ids items) n) as [id|] eqn:E; [eauto|]. apply nth_error_None in E. apply nth_some_lt in N. lia. }
    destruct X as [id E]. pose proof (nth_error_In _ _ E) as I. apply tb_ids_in in I. destruct I as (p & t & la & d & Hp).
    destruct TBL as [ND BR]. destruct (begin_block items BR p id t la d Hp) as [q B]. pose proof B as (_ & _ & Hq & _).
    destruct (H n id p q t la d E Hp Hq) as (e' & l & ql & H1 & H2 & H3 & H4 & H5 & H6 & H7 & H8 & H9 & H10).
    rewrite N in H1. injection H1 as <-. exists id, p, q, t, la, d, l, ql. auto 12.
  Qed.

  Lemma blocks_apart p q id t la d p' q' id' t' la' d' : block items p q id t la d -> block items p' q' id' t' la' d' ->
    p = p' \/ (q < p')%nat \/ (q' < p)%nat.
  Proof.
    intros (B1 & B2 & B3 & B4 & _) (C1 & C2 & C3 & C4 & _).
    destruct (Nat.lt_trichotomy p p') as [L|[L|L]]; [right; left|now left|right; right].
    - destruct (Nat.lt_trichotomy q p') as [M|[M|M]]; [exact M|subst; congruence|]. specialize (B4 p' _ ltac:(lia) C2). discriminate.
    - destruct (Nat.lt_trichotomy q' p) as [M|[M|M]]; [exact M|subst; congruence|]. specialize (C4 p _ ltac:(lia) B2). discriminate.
  Qed.

  Lemma executed_lt j k : (j < k)%nat -> (k < length cs)%nat -> executed_at v cs j < executed_at v cs k.
  Proof.
    intros L M. pose proof (exec_between v cs j POS ltac:(lia)). pose proof (exec_between v cs k POS M).
    assert (offset_of v cs (S j) <= offset_of v cs k); [|lia].
    destruct (Nat.eq_dec (S j) k) as [->|]; [lia|]. pose proof (proj2 (off_lt_iff v cs (S j) k POS ltac:(lia) ltac:(lia)) ltac:(lia)). lia.
  Qed.

  Lemma tidy_en : tidy v cs en.
  Proof.
    split.
    - intros e I. pose proof I as I'. apply In_nth_error in I'. destruct I' as [n N].
      destruct (entries n e N) as (id & p & q & t & la & d & l & ql & E1 & B & E2 & E3 & E4 & E5 & E6 & E7 & E8 & E9).
      exists (ib p), (ib q - 1)%nat. pose proof (start_le gs q). split; [lia|]. split; [|exact E8].
      destruct cb_is as (_ & CI' & CE & _). destruct (HS e) as (k & K1 & K2); [now rewrite CE|]. rewrite CI' in K1, K2.
      pose proof (exec_between v cs (ib p) POS ltac:(lia)) as X. rewrite <- E7, K2 in X.
      assert (k = ib p); [|now subst].
      destruct (Nat.lt_trichotomy k (ib p)) as [L|[L|L]]; [|exact L|].
      + pose proof (proj2 (off_lt_iff v cs k (ib p) POS ltac:(lia) ltac:(lia)) L). lia.
      + destruct X as [_ X]. apply (off_lt_iff v cs k (S (ib p)) POS) in X; lia.
    - intros m n e f L M N.
      destruct (entries m e M) as (id & p & q & t & la & d & l & ql & E1 & B & E2 & E3 & E4 & E5 & E6 & E7 & E8 & _).
      destruct (entries n f N) as (id' & p' & q' & t' & la' & d' & l' & ql' & F1 & C & F2 & F3 & F4 & F5 & F6 & F7 & F8 & _).
      destruct (blocks_apart _ _ _ _ _ _ _ _ _ _ _ _ B C) as [X|[X|X]].
      + exfalso. subst p'. destruct B as (_ & B & _), C as (_ & C & _). rewrite B in C. injection C as -> _ _ _.
        destruct TBL as [ND _]. pose proof (nth_some_lt _ _ _ E1) as L1. rewrite (proj1 (NoDup_nth_error _) ND m n L1) in L; [lia|congruence].
      + left. rewrite E8, F7. pose proof (start_mono gs q p' ltac:(lia)). pose proof (start_le gs q'). apply executed_lt; lia.
      + right. rewrite E7, F8. pose proof (start_mono gs q' p ltac:(lia)). pose proof (start_le gs q). apply executed_lt; lia.
  Qed.

  Lemma starts_distinct : NoDup (map e_start en).
  Proof.
    pose proof tidy_en as [T1 T2]. apply NoDup_nth_error. intros m n L E. rewrite map_length in L. rewrite !nth_error_map in E.
    destruct (nth_error en m) as [e|] eqn:M; [|apply nth_error_None in M; lia].
    destruct (nth_error en n) as [f|] eqn:N; [|discriminate]. cbn in E. injection E as E.
    assert (SE : forall n e, nth_error en n = Some e -> e_start e <= e_stop e).
    { intros n' e' N'. destruct (entries _ _ N') as (id & p & q & t & la & d & l & ql & _ & _ & _ & _ & _ & _ & E6 & E7 & E8 & E9).
      pose proof (start_le gs q). destruct (E9 (ib p) ltac:(lia)) as [_ X]. specialize (X ltac:(lia)). lia. }
    pose proof (SE _ _ M). pose proof (SE _ _ N).
    destruct (Nat.lt_trichotomy m n) as [X|[X|X]]; [|exact X|].
    - destruct (T2 m n e f X M N); lia.
    - destruct (T2 n m f e X N M); lia.
  Qed.

  (** where a kept instruction comes from *)
  Lemma kept_from k c : nth_error cs k = Some c -> kept true c = true -> exists p i rest, nth_error items p = Some (BI i)
    /\ nth_error gs p = Some (c :: rest) /\ k = ib p.
  Proof.
    intros N K. destruct (concat_inv gs k c N) as (p & g & j & G & J & ->). destruct laid as [LL _].
    destruct (nth_error items p) as [it|] eqn:Hp; [|apply nth_error_None in Hp; apply nth_some_lt in G; lia].
    assert (GR : grouped it g).
    { pose proof groups as F. clear - F Hp G. revert p Hp G. induction F as [|x y l l' Q F IH]; intros [|p] Hp G; try discriminate; cbn in *.
      - injection Hp as ->. injection G as ->. exact Q.
      - eauto. }
    destruct it; cbn in GR; try (subst g; now destruct j).
    destruct GR as (c' & n & -> & _). exists p, i. destruct j as [|j].
    - injection J as ->. exists (repeat (cache_at (c_loc c)) n). split; [first [reflexivity|exact Hp]|]. split; [exact G|]. lia.
    - cbn in J. apply nth_error_In, repeat_spec in J. subst c. discriminate K.
  Qed.

  Lemma same_place k p : (k < length cs)%nat -> offset_of v cs k = offset_of v cs (ib p) -> k = ib p.
  Proof. intros L E. apply (offset_inj v T wf cs k (ib p) POS); [lia|apply start_le|exact E]. Qed.

  Lemma used_jump p i l : nth_error items p = Some (BI i) -> i_arg i = OLabel l -> used_label l items.
  Proof. intros N E. left. exists i. split; [eapply nth_error_In; eauto|exact E]. Qed.
  Lemma used_handler p q id l la d : block items p q id (OLabel l) la d -> used_label l items.
  Proof. intros (_ & N & _). right. exists id, la, d. eapply nth_error_In; eauto. Qed.

  Lemma nth_head p c rest : nth_error gs p = Some (c :: rest) -> nth_error cs (ib p) = Some c.
  Proof. intros G. pose proof (nth_group gs p _ 0%nat c G eq_refl) as X. now rewrite Nat.add_0_r in X. Qed.

  Lemma jump_lands p i c rest : nth_error items p = Some (BI i) -> nth_error gs p = Some (c :: rest) -> op_has_jump T (c_op c) = true -> c_op c = i_op i ->
    exists l q, i_arg i = OLabel l /\ label_position l items q /\ (ib q < length cs)%nat
      /\ jumps_to v T c (offset_of v cs (ib p)) = offset_of v cs (ib q).
  Proof.
    intros Hp G J O. rewrite O in J. destruct (jump_label i (nth_error_In _ _ Hp) J) as [l El].
    destruct (labels_resolve v T keq wf _ _ _ _ _ _ _ _ p i l A HL Hp El) as (q & c' & rest' & P & G' & _ & _ & X).
    rewrite G in G'. injection G' as <- <-. exists l, q. split; [exact El|]. split; [exact P|]. split; [|exact X].
    eapply label_inside; [eapply used_jump; eauto|exact P].
  Qed.

  Theorem disassembles conserve : exists b', to_bytecode v T cb true conserve = Ok b'
    /\ Forall2 (same_instr v T cb) (located (line_loc (Some (m_first_lineno (b_meta b)))) (program items))
          (located (line_loc (Some (m_first_lineno (b_meta b')))) (program (b_items b'))).
  Proof.
    destruct cb_is as (CI1 & CI2 & CE & CM).
    assert (MADE : forall c, In c cs -> made v T c).
    { pose proof (as_made _ _ _ _ _ _ _ _ _ _ _ A) as F. rewrite Forall_forall in F. exact F. }
    assert (ORD : forall c, In c (instrs_of (cb_items cb)) -> ordinary v T c).
    { intros c I. rewrite CI2 in I. destruct (MADE c I) as [V E]. split; [eapply valid_legal; eauto|]. split.
      - intros X. pose proof I as I'. apply In_nth_error in I'. destruct I' as [k N].
        assert (K : kept true c = true) by (unfold kept; rewrite X; reflexivity).
        destruct (kept_from k c N K) as (p & i & rest & Hp & G & _). destruct (head _ _ Hp) as (c' & rest' & G' & N' & _).
        rewrite G in G'. injection G' as <- <-. destruct (HL i (nth_error_In _ _ Hp)) as (_ & _ & L3 & _). congruence.
      - intros n E'. congruence. }
    assert (HD : forall k c, nth_error cs k = Some c -> kept true c = true -> exists p i rest, nth_error items p = Some (BI i)
       /\ nth_error gs p = Some (c :: rest) /\ k = ib p /\ c_name c = i_name i /\ c_op c = i_op i
       /\ c_loc c = Some (fold_left next_loc (firstn (S p) items) (line_loc (Some (m_first_lineno (b_meta b)))))
       /\ (op_has_jump T (i_op i) = false -> exists y, decode_arg v T cb (c_op c) (c_arg c) = Ok y /\ same_arg v T cb (i_op i) (i_arg i) y)).
    { intros k c N K. destruct (kept_from k c N K) as (p & i & rest & Hp & G & E). exists p, i, rest.
      destruct (head _ _ Hp) as (c' & rest' & G' & N' & O' & D). rewrite G in G'. injection G' as <- <-.
      repeat (split; [assumption|]). split; [|exact D].
      apply (loc_fold v T keq wf _ _ _ _ _ _ _ _ p i c A HL Hp). exists (c :: rest). split; [exact G|now left]. }
    destruct (to_bytecode_total v T wf cb true conserve ORD) as [b' B'].
    - intros pre c post E K.
      assert (N : nth_error cs (length (instrs_of pre)) = Some c).
      { rewrite <- CI2, E. unfold instrs_of. rewrite flat_map_app, nth_error_app2, Nat.sub_diag by lia. reflexivity. }
      destruct (HD _ c N K) as (p & i & rest & Hp & G & Ek & Nm & O & LO & D). split.
      + intros J. rewrite O in J. destruct (D J) as (y & D1 & D2). exists y. split; [exact D1|].
        destruct (HL i (nth_error_In _ _ Hp)) as (L1 & L2 & L3 & L4). rewrite O. eapply same_doc; eauto. eapply category_of; eauto.
      + intros X. congruence.
    - rewrite CE. exact starts_distinct.
    - rewrite CI2. intros k c N J.
      assert (K : kept true c = true).
      { unfold kept. cbn. apply negb_true_iff, String.eqb_neq. intros X. destruct (MADE c (nth_error_In _ _ N)) as [V _].
        pose proof (cache_no_jump v T wf c 0 X) as Y. destruct (valid_legal v T wf c V) as (O1 & O2 & O3 & _). specialize (Y O1 O2).
        destruct (c_arg c) as [a|] eqn:Ea.
        - rewrite (jump_target_is v T wf c 0 a O1 O2 Ea J) in Y. discriminate.
        - pose proof (category_of v T wf _ _ O1 O2) as C. destruct C as [C|C|C|C|C|C|C|C]; destruct C as (E1 & _); try congruence. }
      destruct (HD k c N K) as (p & i & rest & Hp & G & -> & Nm & O & _).
      destruct (jump_lands p i c rest Hp G J O) as (l & q & _ & _ & L & E). exists (ib q). split; [exact L|]. now rewrite E.
    - rewrite CE, CI2. intros e I. apply In_nth_error in I. destruct I as [n N].
      destruct (entries n e N) as (id & p & q & t & la & d & l & ql & E1 & B & E2 & E3 & E4 & _). subst t.
      exists (ib ql). split; [eapply label_inside; [eapply used_handler; eauto|exact E3]|]. now rewrite E4.
    - exists b'. split; [exact B'|].
      assert (MB : m_first_lineno (b_meta b') = m_first_lineno (b_meta b)).
      { destruct (to_bytecode_meta v T cb true conserve b' B') as [M _]. rewrite M. cbn. now rewrite CM. }
      rewrite MB.
      destruct (to_bytecode_shown v T wf cb true conserve b' (ordinary_plain v T wf _ ORD) B') as [SL SN].
      rewrite CI2 in SL. rewrite CE, CI2 in SN.
      assert (AT : forall p i, nth_error items p = Some (BI i) -> exists a h,
        nth_error (program (b_items b')) (ninstrs (firstn p items)) = Some (PInstr (i_name i) a
           (Some (fold_left next_loc (firstn (S p) items) (line_loc (Some (m_first_lineno (b_meta b)))))) h)
        /\ h = og (arg_of (position items)) None (firstn p items)
        /\ match arg_of (position items) (i_arg i), a with
           | PTo k, PTo k' => k = k'
           | PObj o, PObj o' => exists op, opmap T (i_name i) = Some op /\ same_arg v T cb op o o'
           | _, _ => False end).
      { intros p i Hp. destruct (head _ _ Hp) as (c & rest & G & _). pose proof (nth_head _ _ _ G) as N.
        assert (K : kept true c = true).
        { destruct (head _ _ Hp) as (c' & rest' & G' & N' & _). rewrite G in G'. injection G' as <- <-.
          unfold kept. cbn. apply negb_true_iff, String.eqb_neq. rewrite N'. apply NC. eapply nth_error_In; eauto. }
        destruct (HD _ c N K) as (p' & i' & rest' & Hp' & G' & E' & Nm & O & LO & D).
        assert (p' = p).
        { destruct (Nat.lt_trichotomy p p') as [L|[L|L]]; [|congruence|].
          - pose proof (ib_lt p p' L (ex_intro _ i Hp)). lia.
          - pose proof (ib_lt p' p L (ex_intro _ i' Hp')). lia. }
        subst p'. rewrite Hp in Hp'. injection Hp' as <-. rewrite G in G'. injection G' as <-.
        destruct (instrs_split (cb_items cb) (ib p) c) as (pre & post & E & Lk); [now rewrite CI2|].
        destruct (SN pre c post E K) as (arg & h & S1 & S2 & S3 & S4). rewrite Lk, kept_ib in S1. rewrite Lk in S2, S4.
        rewrite LO, Nm in S1. exists arg, h. split; [exact S1|]. split.
        - specialize (S4 tidy_en). destruct TBL as [ND BR].
          destruct (open_in items BR (arg_of (position items)) p i Hp) as [[OG NB]|(p1 & q1 & id & t & la & d & B & L & OG)]; rewrite OG.
          + destruct (covering v cs en (ib p)) as [e|] eqn:CV; [|exact S4]. exfalso.
            unfold covering in CV. apply find_some in CV. destruct CV as [I CV]. apply andb_prop in CV. rewrite !Z.leb_le in CV.
            apply In_nth_error in I. destruct I as [n Nn].
            destruct (entries n e Nn) as (id & p1 & q1 & t & la & d & l & ql & _ & B & _ & _ & _ & _ & _ & _ & _ & X).
            apply X in CV; [|eapply nth_some_lt; eauto]. apply (NB _ _ _ _ _ _ B).
            split.
            * destruct (Nat.lt_trichotomy p1 p) as [Z|[Z|Z]]; [exact Z| |].
              -- subst p1. destruct B as (_ & B & _). congruence.
              -- pose proof (ib_lt p p1 Z (ex_intro _ i Hp)). lia.
            * destruct (le_lt_dec q1 p) as [Z|Z]; [|exact Z]. pose proof (start_mono gs q1 p Z). lia.
          + assert (IN : exists e, In e en /\ e_start e <= executed_at v cs (ib p) <= e_stop e).
            { pose proof B as (_ & B2 & B3 & _).
              assert (I : In id (tb_ids items)) by (apply tb_ids_in; eauto). apply In_nth_error in I. destruct I as [n Nn].
              destruct (try_entries v T keq wf _ _ _ _ _ _ _ _ A (blocks_proper _ TBL)) as [_ H].
              destruct (H n id p1 q1 t la d Nn B2 B3) as (e & l & ql & H1 & _ & _ & _ & _ & _ & _ & _ & _ & H10).
              exists e. split; [eapply nth_error_In; eauto|]. apply H10; [eapply nth_some_lt; eauto|].
              change (instrs_before gs) with ib. pose proof (start_mono gs p1 p ltac:(lia)). pose proof (ib_lt p q1 ltac:(lia) (ex_intro _ i Hp)). lia. }
            destruct (covering v cs en (ib p)) as [e|] eqn:CV.
            * destruct S4 as (k' & K1 & K2 & ->). unfold covering in CV. apply find_some in CV. destruct CV as [I CV].
              apply andb_prop in CV. rewrite !Z.leb_le in CV. apply In_nth_error in I. destruct I as [n Nn].
              destruct (entries n e Nn) as (id' & p2 & q2 & t' & la' & d' & l & ql & _ & C & E2 & E3 & E4 & E5 & _ & _ & _ & X).
              apply X in CV; [|eapply nth_some_lt; eauto].
              assert (Y : (p2 < p < q2)%nat).
              { split.
                - destruct (Nat.lt_trichotomy p2 p) as [Z|[Z|Z]]; [exact Z| |].
                  + subst p2. destruct C as (_ & C & _). congruence.
                  + pose proof (ib_lt p p2 Z (ex_intro _ i Hp)). lia.
                - destruct (le_lt_dec q2 p) as [Z|Z]; [|exact Z]. pose proof (start_mono gs q2 p Z). lia. }
              destruct (blocks_apart _ _ _ _ _ _ _ _ _ _ _ _ B C) as [Z|[Z|Z]]; [|lia|lia]. subst p2.
              pose proof B as (_ & B2 & _). pose proof C as (_ & C2 & _). rewrite B2 in C2. injection C2 as <- -> -> <-.
              subst t'. rewrite E4 in K2. apply same_place in K2; [|exact K1]. subst k'. rewrite kept_ib, E5. cbn [arg_of].
              now rewrite (position_label _ _ _ E3).
            * exfalso. destruct IN as (e & I & CVe). unfold covering in CV. pose proof (find_none _ _ CV e I) as Z. cbv beta in Z.
              apply andb_false_iff in Z. rewrite !Z.leb_gt in Z. lia.
        - destruct (op_has_jump T (c_op c)) eqn:J.
          + destruct (S2 eq_refl) as (k' & K1 & K2 & ->). destruct (jump_lands p i c rest Hp G J O) as (l & q & El & P & L & E2).
            rewrite El. cbn [arg_of]. rewrite E2 in K2. apply same_place in K2; [|exact K1]. subst k'. rewrite kept_ib. now apply position_label.
          + destruct (S3 eq_refl) as (x & D1 & ->). rewrite O in J. destruct (D J) as (y & D2 & D3). rewrite D1 in D2. injection D2 as ->.
            pose proof (HL i (nth_error_In _ _ Hp)) as HLi. pose proof HLi as (L1 & L2 & L3 & L4).
            assert (NL : forall l, i_arg i <> OLabel l) by (intros l; exact (legal_not_label v T i l HLi J)).
            destruct (i_arg i); cbn [arg_of]; try (exists (i_op i); split; [exact L1|exact D3]). now exfalso; eapply NL. }
      assert (LEN : length (program (b_items b')) = ninstrs items).
      { rewrite SL. replace (length cs) with (ib (length gs)).
        - rewrite kept_ib. destruct laid as [LL _]. rewrite LL, firstn_all. reflexivity.
        - unfold start. now rewrite firstn_all. }
      assert (OWN : forall k, (k < length (program (b_items b')))%nat -> exists n a lo h, nth_error (program (b_items b')) k = Some (PInstr n a (Some lo) h)).
      { intros k L. rewrite LEN in L. destruct (instr_at _ _ L) as (p & i & Hp & ->). destruct (AT p i Hp) as (a & h & E & _). eauto. }
      set (cur := line_loc (Some (m_first_lineno (b_meta b)))) in *.
      destruct (located_own _ OWN cur) as [LO1 LO2].
      apply Forall2_nth_intro.
      + rewrite LO1, LEN. unfold program. rewrite <- wg_walk. apply located_len.
      + intros k x y X Y. assert (L : (k < ninstrs items)%nat).
        { apply nth_some_lt in Y. now rewrite LO1, LEN in Y. }
        destruct (instr_at _ _ L) as (p & i & Hp & ->). rewrite (source_nth items p i cur Hp) in X. injection X as <-.
        destruct (AT p i Hp) as (a & h & E & Eh & Ea). rewrite (LO2 _ _ _ _ _ E) in Y. injection Y as <-.
        unfold same_instr. auto.
  Qed.
End S.
