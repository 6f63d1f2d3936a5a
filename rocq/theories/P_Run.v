(** Running a code object and walking through the graph it was made from. *)
From Coq Require Import Lia.
From Verif Require Import PyBase OpTable M_Instr M_Tables M_Concrete M_Convert M_Bytecode M_Cfg M_Stack M_Full
  S_Args S_Slots S_Prog S_Cfg S_Stack S_Code S_Run P_Base P_OpTable P_Cat P_CfgSeq P_CfgFrom3 P_CfgFrom4 P_CfgTo2 P_Ident P_Ident3 P_Jumps P_Stack P_Code2 T_Code.
Open Scope string_scope.
Open Scope list_scope.
Open Scope Z_scope.

(** ** Where instructions begin *)
Section Begins.
  Variables (v : pyver) (T : optable).

  Definition base (off : Z) (ext : option (Z * Z)) : Z := match ext with Some (s, _) => s | None => off end.

  Lemma listing_starts m : forall code off ext skip, (length code <= m)%nat -> base off ext <= off ->
    (forall k r, nth_error (listing v T off ext skip code) k = Some r -> base off ext <= r_start r < off + zlen code)
    /\ (forall k k' r r', (k < k')%nat -> nth_error (listing v T off ext skip code) k = Some r ->
          nth_error (listing v T off ext skip code) k' = Some r' -> r_start r < r_start r').
  Proof.
    induction m as [|m IH]; intros code off ext skip L B.
    { destruct code; [|cbn in L; lia]. split; intros [|k]; discriminate. }
    destruct code as [|op [|b rest]]; [split; intros [|k]; discriminate..|]. cbn [listing].
    assert (Z2 : zlen (op :: b :: rest) = 2 + zlen rest) by (unfold zlen; cbn [length]; lia).
    assert (LR : (length rest <= m)%nat) by (cbn in L; lia).
    destruct (0 <? skip).
    { destruct (IH rest (off + 2) None (skip - 1) LR) as [I1 I2]; [cbn; lia|]. cbn [base] in *. split; [|exact I2].
      intros k r E. apply I1 in E. destruct ext as [[s e]|]; cbn [base] in *; lia. }
    destruct (op =? t_extended_arg T).
    { match goal with |- context [listing v T _ (Some (?s, ?e)) _ _] =>
        destruct (IH rest (off + 2) (Some (s, e)) 0 LR) as [I1 I2] end; [cbn; destruct ext as [[? ?]|]; cbn in *; lia|].
      cbn [base] in *. split; [|exact I2]. intros k r E. apply I1 in E. destruct ext as [[s e]|]; cbn [base] in *; lia. }
    destruct (IH rest (off + 2) None (caches_of v T op) LR) as [I1 I2]; [cbn; lia|]. cbn [base] in I1.
    assert (ZR : 0 <= zlen rest) by (unfold zlen; lia).
    split.
    - intros [|k] r E; cbn [nth_error] in E.
      + injection E as <-. cbn [r_start]. destruct ext as [[s e]|]; cbn [base] in *; lia.
      + apply I1 in E. destruct ext as [[s e]|]; cbn [base] in *; lia.
    - intros [|k] [|k'] r r' LT E E'; try lia; cbn [nth_error] in E, E'.
      + injection E as <-. apply I1 in E'. cbn [r_start]. destruct ext as [[s e]|]; cbn [base] in *; lia.
      + eapply I2; [|exact E|exact E']. lia.
  Qed.

  Lemma begins_inj co k k' z : begins v T co k = Some z -> begins v T co k' = Some z -> k = k'.
  Proof.
    unfold begins. destruct (listing_starts (length (co_code co)) (co_code co) 0 None 0) as [S1 S2]; [lia|cbn; lia|].
    fold (instructions v T co) in S1, S2.
    destruct (nth_error (instructions v T co) k) as [r|] eqn:E; destruct (nth_error (instructions v T co) k') as [r'|] eqn:E'.
    - intros Q Q'. injection Q as <-. injection Q' as Q'. destruct (Nat.lt_trichotomy k k') as [L|[L|L]]; [|exact L|].
      + specialize (S2 _ _ _ _ L E E'). lia.
      + specialize (S2 _ _ _ _ L E' E). lia.
    - intros Q. injection Q as <-. destruct (Nat.eqb k' _); [|discriminate]. intros Q. injection Q as Q. apply S1 in E. lia.
    - destruct (Nat.eqb k _); [|discriminate]. intros Q Q'. injection Q as <-. injection Q' as Q'. apply S1 in E'. lia.
    - destruct (Nat.eqb k _) eqn:A; [|discriminate]. destruct (Nat.eqb k' _) eqn:A'; [|discriminate].
      apply Nat.eqb_eq in A, A'. intros _ _. congruence.
  Qed.

  Lemma listing_args m : forall code off ext skip, (length code <= m)%nat -> forall r, In r (listing v T off ext skip code) ->
    if opcode_has_argument v T (r_op r) then exists a, r_arg r = Some a else r_arg r = None.
  Proof.
    induction m as [|m IH]; intros code off ext skip L r.
    { destruct code; [|cbn in L; lia]. intros []. }
    destruct code as [|op [|b rest]]; [intros []..|]. cbn [listing].
    assert (LR : (length rest <= m)%nat) by (cbn in L; lia).
    destruct (0 <? skip); [apply IH; exact LR|]. destruct (op =? t_extended_arg T); [apply IH; exact LR|].
    intros [<-|J]; [|eapply IH; eauto]. cbn [r_op r_arg]. destruct (opcode_has_argument v T op); eauto.
  Qed.
  Lemma instruction_arg co r : In r (instructions v T co) ->
    if opcode_has_argument v T (r_op r) then exists a, r_arg r = Some a else r_arg r = None.
  Proof. apply (listing_args (length (co_code co))). lia. Qed.
End Begins.

(** ** Effects *)
Section Effect.
  Variables (v : pyver) (T : optable) (se : oracle).
  Hypothesis wf : wf_optable v T = true.
  Hypothesis ON : only_numbers v T se.

  (** stack_effect() is the effect of the instruction that stands in the code *)
  Lemma effect_real co x r j : legal_instr v T x -> In r (instructions v T co) -> r_op r = i_op x ->
    ((exists n, i_arg x = OLabel n \/ i_arg x = OBlock n) \/ reads v T (tables co) (r_op r) (r_arg r) (i_arg x)) ->
    stack_effect v T se x j = of_option ValueError (se (r_op r) (r_arg r) j).
  Proof.
    intros (L1 & L2 & L3 & L4) R O A. pose proof (instruction_arg v T co r R) as RA. pose proof (category_of v T wf _ _ L1 L2) as CAT.
    unfold stack_effect. rewrite O in *. destruct (opcode_has_argument v T (i_op x)) eqn:HA; [|now rewrite RA].
    destruct RA as (a & RA). rewrite RA in *. cbn [negb].
    assert (NF : In (i_op x) (t_hasjrel T ++ t_hasjabs T ++ t_hasconst T ++ t_haslocal T ++ t_hasfree T ++ t_hascompare T) ->
      is_bitflag v T (i_op x) = false /\ is_bitflag2 v T (i_op x) = false).
    { intros J. destruct CAT as [C|C|C|(C1 & C2 & C3 & C4 & C5 & C6 & C7)|C|C|C|C]; auto. exfalso.
      unfold op_has_jump in C1. apply orb_false_iff in C1. destruct C1 as [C0 C1].
      rewrite !in_app_iff, <- !z_mem_In in J. intuition congruence. }
    assert (REF : is_bitflag v T (i_op x) = false -> is_bitflag2 v T (i_op x) = false ->
      In (i_op x) (t_hasjrel T ++ t_hasjabs T ++ t_hasconst T ++ t_haslocal T ++ t_hasname T ++ t_hasfree T ++ t_hascompare T) ->
      forall b, se (i_op x) (Some b) j = se (i_op x) (Some a) j).
    { intros B1 B2 J b. destruct (ON (i_op x) a j) as [_ X]. destruct (ON (i_op x) b j) as [_ Y]. rewrite B1, B2 in *. cbn in X, Y.
      rewrite X, Y; auto. }
    assert (FL : is_bitflag v T (i_op x) || is_bitflag2 v T (i_op x) = true -> se (i_op x) (Some (if Z.testbit a 0 then 1 else 0)) j = se (i_op x) (Some a) j).
    { intros B. destruct (ON (i_op x) a j) as [X _]. rewrite (X B), Zmod_odd, Z.bit0_odd. reflexivity. }
    assert (SIMPLE : In (i_op x) (t_hasjrel T ++ t_hasjabs T ++ t_hasconst T ++ t_haslocal T ++ t_hasfree T ++ t_hascompare T) ->
      forall b, of_option ValueError (se (i_op x) (Some b) j) = of_option ValueError (se (i_op x) (Some a) j)).
    { intros J b. destruct (NF J) as [B1 B2]. f_equal. apply REF; auto. rewrite !in_app_iff in *. tauto. }
    destruct A as [(n & A)|A].
    { assert (J : jumps T (i_op x)).
      { destruct A as [A|A]; rewrite A in L4; inversion L4; subst; auto; try congruence; try discriminate. }
      assert (Y : of_option ValueError (se (i_op x) (Some 0) j) = of_option ValueError (se (i_op x) (Some a) j)).
      { apply SIMPLE. unfold jumps in J. rewrite !in_app_iff. tauto. }
      destruct A as [A|A]; rewrite A; exact Y. }
    inversion A as [|a0 x0 K1 K2|a0 x0 K1 K2|a0 x0 K1 K2 K3|a0 x0 y0 K1 K2 K3|a0 n K1 K2 K3 K4|a0 b n K1 K2 K3|a0 b c n K1 K2 K3 K4|a0 x0 K1 K2|a0 K1|a0 K1|a0 K1]; subst.
    - (* a number *) assert (NC : z_mem (i_op x) (t_hasconst T) = false).
      { apply not_true_iff_false. rewrite z_mem_In. apply K1. }
      destruct (i_arg x); try discriminate; cbn [as_int] in *; rewrite NC; congruence.
    - (* a constant *) destruct NF as [B1 B2]; [rewrite !in_app_iff; tauto|]. apply z_mem_In in K1 as Z1. rewrite B1, B2, Z1.
      assert (Y := SIMPLE ltac:(rewrite !in_app_iff; tauto) 0). destruct (i_arg x); cbn [as_int]; exact Y.
    - (* a variable *) assert (Y := SIMPLE ltac:(rewrite !in_app_iff; tauto) 0).
      destruct K3 as [F _]. inversion F; subst; cbn [as_int]; exact Y.
    - (* two variables *) assert (ILO : In (i_op x) (t_haslocal T)).
      { apply z_mem_In. destruct CAT as [C|C|C|C|C|C|C|C]; try congruence. apply C. }
      destruct NF as [B1 B2]; [rewrite !in_app_iff; tauto|]. rewrite B1, B2. cbn [as_int]. apply SIMPLE. rewrite !in_app_iff; tauto.
    - (* a name *) cbn [as_int]. f_equal. apply REF; auto. rewrite !in_app_iff; tauto.
    - (* a flag and a name *) rewrite K1. cbn [length Nat.eqb guard bind nth_error of_option as_int]. f_equal. apply FL. now rewrite K1.
    - (* two flags and a name *) rewrite K1. assert (B1 : is_bitflag v T (i_op x) = false).
      { destruct CAT as [C|C|C|C1 C2 C3 C|C|C|C|C]; try assumption. rewrite K1, andb_true_r in C. exact C. }
      rewrite B1. cbn [length Nat.eqb guard bind nth_error of_option as_int]. f_equal. apply FL. rewrite K1. apply orb_true_r.
    - (* a variable of a closure *) assert (Y := SIMPLE ltac:(rewrite !in_app_iff; tauto) 0).
      destruct K2 as [NS F]. destruct (PY311 v); inversion F; subst; cbn [as_int]; exact Y.
    - (* a comparison *) cbn [as_int]. destruct (z_mem (i_op x) (t_hasconst T)); apply SIMPLE; rewrite !in_app_iff; tauto.
    - (* the number of a function *) cbn [as_int]. assert (NC : z_mem (i_op x) (t_hasconst T) = false).
      { destruct CAT as [C|C|C|C|C|C|C|C]; try apply C. destruct C as (_ & _ & _ & _ & _ & _ & C). unfold is_intrinsic in C. rewrite K1 in C. discriminate. }
      now rewrite NC.
    - cbn [as_int]. assert (NC : z_mem (i_op x) (t_hasconst T) = false).
      { destruct CAT as [C|C|C|C|C|C|C|C]; try apply C. destruct C as (_ & _ & _ & _ & _ & _ & C). unfold is_intrinsic in C. rewrite K1, orb_true_r in C. discriminate. }
      now rewrite NC.
  Qed.
End Effect.

Lemma filter_nth (l : list bitem) : forall k x, nth_error (filter is_instr l) k = Some x ->
  exists p i, x = BI i /\ nth_error l p = Some (BI i) /\ k = ninstrs (firstn p l).
Proof.
  intros k x E. assert (L : (k < ninstrs l)%nat) by (unfold ninstrs; apply nth_error_Some; congruence).
  destruct (instr_at l k L) as (p & i & N & ->). exists p, i. split; [|auto].
  assert (X : l = firstn p l ++ BI i :: skipn (S p) l) by now apply nth_split'.
  rewrite X in E at 1. rewrite filter_app in E. cbn [filter is_instr] in E. unfold ninstrs in E.
  rewrite nth_error_app2, Nat.sub_diag in E by lia. cbn in E. congruence.
Qed.
Lemma nth_filter (a c : list bitem) x : nth_error (filter is_instr (a ++ BI x :: c)) (ninstrs a) = Some (BI x).
Proof. rewrite filter_app. unfold ninstrs. rewrite nth_error_app2, Nat.sub_diag by lia. reflexivity. Qed.

Lemma nth_firstn {A} (l : list A) : forall i j, (j < i)%nat -> nth_error (firstn i l) j = nth_error l j.
Proof. induction l as [|x l IH]; intros [|i] [|j] L; try lia; try reflexivity. cbn. apply IH. lia. Qed.

(** ** The graph and the code *)
Section Sim.
  Variables (v : pyver) (T : optable) (se : oracle) (check : bool) (b : bytecode) (co : codeobj) (g : cfg).
  Hypothesis wf : wf_optable v T = true.
  Hypothesis ON : only_numbers v T se.
  Hypothesis AU : check = true -> adds_up v T se.
  Hypothesis HL : forall i, In (BI i) (b_items b) -> legal_instr v T i.
  Hypothesis PR : proper T (b_items b).
  Hypothesis W : well_formed T (b_items b) g.
  Hypothesis OR : g_order g = seq 0 (length (g_heap g)).
  Hypothesis RUN : runs v T co (source b).
  Notation ef := (eff v T se check).
  Notation items := (b_items b).

  Lemma order_nth m n : nth_error (g_order g) m = Some n -> n = m.
  Proof.
    rewrite OR. intros E. assert (L : (m < length (seq 0 (length (g_heap g))))%nat) by (apply nth_error_Some; congruence).
    rewrite seq_length in L. rewrite (nth_error_nth' _ 0%nat) in E by now rewrite seq_length. injection E as <-. now rewrite seq_nth.
  Qed.
  Lemma order_lt m : (m < length (g_order g))%nat -> nth_error (g_order g) m = Some m.
  Proof. intros L. destruct (nth_error (g_order g) m) as [n|] eqn:E; [now rewrite <- (order_nth _ _ E)|]. apply nth_error_None in E. lia. Qed.
  Lemma numbered_is n i k : numbered g n i k <-> (n < length (g_order g))%nat /\ k = (before g n + ninstrs (firstn i (k_items (blk g n))))%nat.
  Proof.
    split.
    - intros (m & E & ->). pose proof (order_nth _ _ E) as ->. split; [apply nth_error_Some; congruence|reflexivity].
    - intros [L ->]. exists n. split; [now apply order_lt|reflexivity].
  Qed.
  Lemma before_S n : (n < length (g_order g))%nat -> before g (S n) = (before g n + ninstrs (k_items (blk g n)))%nat.
  Proof.
    intros L. unfold before. assert (E : firstn (S n) (g_order g) = firstn n (g_order g) ++ [n]).
    { pose proof (order_lt n L) as E. rewrite (nth_split' _ _ _ E) at 1.
      assert (L1 : length (firstn n (g_order g)) = n) by (rewrite firstn_length; lia).
      rewrite firstn_app, L1, firstn_all2 by lia. replace (S n - n)%nat with 1%nat by lia. reflexivity. }
    rewrite E, flat_map_app, ninstrs_app. cbn [flat_map]. now rewrite app_nil_r.
  Qed.
  Lemma before_all : before g (length (g_order g)) = ninstrs (all_items g).
  Proof. unfold before. now rewrite firstn_all. Qed.
  Lemma before_mono m n : (m <= n)%nat -> (n <= length (g_order g))%nat -> (before g m <= before g n)%nat.
  Proof.
    intros L LN. induction L as [|n L IH]; [lia|]. rewrite before_S by lia. assert (before g m <= before g n)%nat by (apply IH; lia). lia.
  Qed.
  (** every block but the last has an instruction *)
  Lemma has_instr n : (S n < length (g_order g))%nat -> (0 < ninstrs (k_items (blk g n)))%nat.
  Proof.
    intros L. destruct (proj2 (wf_blocks _ _ _ W) n n (S n)) as (i & J); [apply order_lt; lia..|].
    apply in_split in J. destruct J as (x & y & ->). rewrite ninstrs_app, ninstrs_cons. cbn. lia.
  Qed.
  Lemma before_lt m n : (m < n)%nat -> (n < length (g_order g))%nat -> (before g m < before g n)%nat.
  Proof.
    intros L LN. assert (X : (before g (S m) <= before g n)%nat) by (apply before_mono; lia).
    rewrite before_S in X by lia. pose proof (has_instr m). lia.
  Qed.
  Lemma before_inj m n : (m < length (g_order g))%nat -> (n < length (g_order g))%nat -> before g m = before g n -> m = n.
  Proof.
    intros L1 L2 E. destruct (Nat.lt_trichotomy m n) as [L|[L|L]]; [|exact L|]; apply before_lt in L; auto; lia.
  Qed.

  Lemma graph_nth n i x k : elem g n i = Some (BI x) -> numbered g n i k -> nth_error (filter is_instr (all_items g)) k = Some (BI x).
  Proof.
    intros E N. apply numbered_is in N. destruct N as [L ->].
    assert (X : all_items g = (flat_map (fun n => k_items (blk g n)) (firstn n (g_order g)) ++ firstn i (k_items (blk g n)))
              ++ BI x :: (skipn (S i) (k_items (blk g n)) ++ flat_map (fun n => k_items (blk g n)) (skipn (S n) (g_order g)))).
    { unfold all_items. rewrite (nth_split' _ _ _ (order_lt n L)) at 1. rewrite flat_map_app. cbn [flat_map].
      rewrite (nth_split' _ _ _ E) at 1. rewrite <- !app_assoc. reflexivity. }
    rewrite X. unfold before. rewrite <- ninstrs_app. apply nth_filter.
  Qed.

  (** the instruction in the Bytecode and in the code *)
  Lemma in_code n i x k : elem g n i = Some (BI x) -> numbered g n i k ->
    exists y l h r, In (BI y) items /\ nth_error (source b) k = Some (i_name x, arg_of (position items) (i_arg y), l, h)
      /\ nth_error (instructions v T co) k = Some r /\ r_op r = i_op x /\ opname T (r_op r) = Some (i_name x)
      /\ i_op y = i_op x /\ same_argument items g (i_arg y) (i_arg x) /\ legal_instr v T x
      /\ ((exists n, i_arg x = OLabel n \/ i_arg x = OBlock n) \/ reads v T (tables co) (r_op r) (r_arg r) (i_arg x)).
  Proof.
    intros E N. pose proof (graph_nth _ _ _ _ E N) as G.
    destruct (Forall2_nth _ _ _ _ _ (wf_same _ _ _ W) G) as (y0 & Y & S1).
    destruct (filter_nth _ _ _ Y) as (p & y & -> & NP & ->). destruct S1 as (N1 & O1 & _ & A1).
    pose proof (source_nth items p y (line_loc (Some (m_first_lineno (b_meta b)))) NP) as SN. fold (source b) in SN.
    rewrite <- N1 in SN. destruct RUN as [R1 R2].
    destruct (nth_error (instructions v T co) (ninstrs (firstn p items))) as [r|] eqn:ER.
    2:{ apply nth_error_None in ER. rewrite R1 in ER. assert (nth_error (source b) (ninstrs (firstn p items)) <> None) by congruence.
        apply nth_error_Some in H. lia. }
    destruct (R2 _ _ _ _ _ _ SN ER) as (Q1 & Q2 & _). assert (JY : In (BI y) items) by (eapply nth_error_In; eauto).
    destruct (HL y JY) as (L1 & L2 & L3 & L4).
    assert (OP : r_op r = i_op x) by (rewrite N1 in Q1; congruence).
    assert (LX : legal_instr v T x).
    { unfold legal_instr. rewrite N1, O1. repeat (split; [assumption|]).
      unfold same_argument in A1. destruct (i_arg y) eqn:AY; try (rewrite A1; exact L4).
      destruct A1 as (m & t & _ & -> & _). apply doc_block. inversion L4; subst; auto; try congruence; try discriminate. }
    do 4 eexists. split; [exact JY|]. split; [exact SN|]. split; [reflexivity|]. split; [exact OP|].
    split; [now apply (opmap_opname v T wf)|].
    split; [now symmetry|]. split; [exact A1|]. split; [exact LX|].
    unfold same_argument in A1. destruct (i_arg y) eqn:AY; try (right; rewrite A1; exact Q2).
    left. destruct A1 as (m & t & _ & -> & _). eauto.
  Qed.

  Lemma effect_same n i x k r j : elem g n i = Some (BI x) -> numbered g n i k -> nth_error (instructions v T co) k = Some r ->
    match se (r_op r) (r_arg r) (Some j) with
    | Some e => exists p q, ef x j = Some (p, q) /\ p + q = e
    | None => ef x j = None
    end.
  Proof.
    intros E N R. destruct (in_code _ _ _ _ E N) as (y & l & h & r' & _ & _ & R' & OP & _ & _ & _ & LX & RD).
    rewrite R in R'. injection R' as <-.
    pose proof (effect_real v T se wf ON co x r (Some j) LX (nth_error_In _ _ R) OP RD) as X.
    unfold eff, used_effect. destruct check eqn:CK.
    - specialize (AU eq_refl x (Some j) LX). rewrite X in AU. destruct (se (r_op r) (r_arg r) (Some j)); cbn [of_option] in AU.
      + destruct (pre_and_post v T se x (Some j)) as [[p q]|]; [|destruct AU]. eauto.
      + destruct (pre_and_post v T se x (Some j)) as [[p q]|]; [destruct AU|]. reflexivity.
    - rewrite X. destruct (se (r_op r) (r_arg r) (Some j)); cbn [of_option bind]; [|reflexivity]. do 2 eexists. split; [reflexivity|lia].
  Qed.

  Lemma total : length (instructions v T co) = ninstrs (all_items g).
  Proof.
    destruct RUN as [R1 _]. rewrite R1. unfold source, program. rewrite <- wg_walk, located_len. unfold ninstrs.
    apply (Forall2_len _ _ _ (wf_same _ _ _ W)).
  Qed.

  (** jumps go to blocks, which begin where the jump in the code goes *)
  Lemma jump_target n i x k r : elem g n i = Some (BI x) -> numbered g n i k -> nth_error (instructions v T co) k = Some r ->
    has_jump T x = true -> exists t, i_arg x = OBlock t /\ (t < length (g_order g))%nat /\ begins v T co (before g t) = Some (goes_to v T r).
  Proof.
    intros E N R J. destruct (in_code _ _ _ _ E N) as (y & l & h & r' & JY & SN & R' & OP & NM & OY & A & LX & _).
    rewrite R in R'. injection R' as <-. destruct RUN as [_ R2]. destruct (R2 _ _ _ _ _ _ SN R) as (_ & Q & _).
    pose proof (proper_args _ _ PR _ JY) as F. cbn in F. unfold has_jump in *. rewrite OY, J in F. destruct F as (m & F).
    rewrite F in *. cbn [same_argument arg_of] in A, Q. destruct A as (j & t & OJ & AX & PO). rewrite PO in Q.
    pose proof (order_nth _ _ OJ) as ->. exists j. split; [exact AX|]. split; [apply nth_error_Some; congruence|exact Q].
  Qed.

  Lemma final_never n : is_final_name n = false <-> ~ In n never_next.
  Proof.
    unfold is_final_name, is_uncond_jump_name, never_next. rewrite <- not_true_iff_false, orb_true_iff, !str_mem_In. cbn [In]. tauto.
  Qed.

  Lemma at_end n i k : elem g n i = None -> numbered g n i k -> k = before g (S n).
  Proof.
    intros E N. apply numbered_is in N. destruct N as [L ->]. rewrite before_S by exact L.
    unfold elem in E. apply nth_error_None in E. now rewrite firstn_all2.
  Qed.
  Lemma next_is n m : (n < length (g_order g))%nat -> k_next (blk g n) = Some m -> m = S n /\ (m < length (g_order g))%nat.
  Proof.
    intros L E. apply (wf_next _ _ _ W n n m (order_lt n L)) in E. destruct E as [E _]. pose proof (order_nth _ _ E) as ->. split; [reflexivity|].
    apply nth_error_Some. congruence.
  Qed.
  Lemma numbered_S n i k it : elem g n i = Some it -> numbered g n i k -> numbered g n (S i) (k + (if is_instr it then 1 else 0)).
  Proof.
    intros E N. apply numbered_is in N. destruct N as [L ->]. apply numbered_is. split; [exact L|].
    unfold elem in E. assert (X : firstn (S i) (k_items (blk g n)) = firstn i (k_items (blk g n)) ++ [it]).
    { clear - E. revert i E. induction (k_items (blk g n)) as [|y l IH]; intros [|i] E; try discriminate; cbn in *; [now injection E as ->|].
      f_equal. now apply IH. }
    rewrite X, ninstrs_app, ninstrs_cons. unfold ninstrs at 3. cbn. lia.
  Qed.
  Lemma numbered_0 n : (n < length (g_order g))%nat -> numbered g n 0 (before g n).
  Proof. intros L. apply numbered_is. split; [exact L|]. cbn. lia. Qed.
  Lemma ran_of n i x k : elem g n i = Some (BI x) -> numbered g n i k -> exists r, nth_error (instructions v T co) k = Some r.
  Proof. intros E N. destruct (in_code _ _ _ _ E N) as (y & l & h & r & _ & _ & R & _). eauto. Qed.

  (** ** From the graph to the code *)
  Lemma step_code n i d o c' k : step T ef g (n, i, d, o) c' -> numbered g n i k ->
    exists n' i' d' o' k', c' = (n', i', d', o') /\ numbered g n' i' k' /\ csteps v T se co (k, d) (k', d').
  Proof.
    intros S N. inversion S as [b0 i0 d0 o0 z E|b0 i0 d0 o0 id h la sd E|b0 i0 d0 o0 id E|b0 i0 d0 o0 x pre post E F EF|b0 i0 d0 o0 x t pre post E J A EF|b0 i0 d0 o0 m E M]; subst.
    1-3: do 5 eexists; split; [reflexivity|]; split; [exact (numbered_S _ _ _ _ E N)|]; cbn [is_instr]; rewrite Nat.add_0_r; apply cs_refl.
    - destruct (ran_of _ _ _ _ E N) as (r & R). pose proof (effect_same _ _ _ _ _ false E N R) as Y.
      destruct (in_code _ _ _ _ E N) as (y & l & h & r' & _ & _ & R' & _ & NM & _). rewrite R in R'. injection R' as <-.
      do 5 eexists. split; [reflexivity|]. split; [exact (numbered_S _ _ _ _ E N)|]. cbn [is_instr]. rewrite Nat.add_1_r.
      destruct (se (r_op r) (r_arg r) (Some false)) as [e|] eqn:SE; [|congruence]. destruct Y as (p & q & Y & Q). rewrite EF in Y. injection Y as -> ->.
      replace (d + p + q) with (d + e) by lia. eapply cs_more; [apply cs_refl|]. eapply cs_next; eauto. apply final_never. exact F.
    - destruct (ran_of _ _ _ _ E N) as (r & R). pose proof (effect_same _ _ _ _ _ true E N R) as Y.
      destruct (in_code _ _ _ _ E N) as (y & l & h & r' & _ & _ & R' & OP & NM & _). rewrite R in R'. injection R' as <-.
      destruct (jump_target _ _ _ _ _ E N R J) as (t' & A' & L & B). rewrite A in A'. injection A' as <-.
      do 5 eexists. split; [reflexivity|]. split; [apply numbered_0; exact L|].
      destruct (se (r_op r) (r_arg r) (Some true)) as [e|] eqn:SE; [|congruence]. destruct Y as (p & q & Y & Q). rewrite EF in Y. injection Y as -> ->.
      replace (d + p + q) with (d + e) by lia. eapply cs_more; [apply cs_refl|]. eapply cs_jump; eauto. unfold has_jump in J. now rewrite OP.
    - assert (L : (n < length (g_order g))%nat) by (apply numbered_is in N; apply N).
      destruct (next_is n m L M) as [-> LM]. rewrite (at_end _ _ _ E N).
      do 5 eexists. split; [reflexivity|]. split; [apply numbered_0; exact LM|]. apply cs_refl.
  Qed.
  Lemma csteps_trans a c e : csteps v T se co a c -> csteps v T se co c e -> csteps v T se co a e.
  Proof. intros A B. induction B; auto. eapply cs_more; eauto. Qed.
  Lemma steps_code n i d o k c' : steps T ef g (n, i, d, o) c' -> numbered g n i k ->
    exists n' i' d' o' k', c' = (n', i', d', o') /\ numbered g n' i' k' /\ csteps v T se co (k, d) (k', d').
  Proof.
    intros S N. induction S as [|c1 c2 S IH ST].
    - do 5 eexists. split; [reflexivity|]. split; [exact N|apply cs_refl].
    - destruct IH as (n1 & i1 & d1 & o1 & k1 & -> & N1 & C1). destruct (step_code _ _ _ _ _ _ ST N1) as (n2 & i2 & d2 & o2 & k2 & -> & N2 & C2).
      do 5 eexists. split; [reflexivity|]. split; [exact N2|]. eapply csteps_trans; eauto.
  Qed.

  (** ** From the code to the graph *)
  Section Forward.
    Variables (first : Z) (H : nat -> Z) (cov : nat -> nat -> nat -> bool -> Prop).
    Notation At := (at_ T ef g first H cov).
    Hypothesis COV : forall n i h la, cov n i h la -> (h < length (g_order g))%nat.

    Lemma at_inside c : At c -> let '(n, i, d, o) := c in
      (n < length (g_order g))%nat /\ (forall x, In (BI x) (firstn i (k_items (blk g n))) -> is_final x = false)
      /\ (forall id h la, o = Some (id, h, la) -> (h < length (g_order g))%nat).
    Proof.
      induction 1 as [n l E|c c' A IH S|c h la A IH M].
      - assert (L : (0 < length (g_order g))%nat) by (rewrite E; cbn; lia). pose proof (order_lt 0 L) as X. rewrite E in X. injection X as ->.
        split; [exact L|]. split; [intros x []|discriminate].
      - destruct c as [[[n i] d] o]. destruct IH as (L & F & O).
        assert (ADD : forall it, elem g n i = Some it -> (forall x, it = BI x -> is_final x = false) ->
                  forall x, In (BI x) (firstn (Datatypes.S i) (k_items (blk g n))) -> is_final x = false).
        { intros it E N x J. apply In_nth_error in J. destruct J as [j J]. destruct (Nat.eq_dec j i) as [->|NE].
          - unfold elem in E. rewrite nth_firstn in J by lia. rewrite E in J. injection J as ->. now apply N.
          - assert (LJ : (j < Datatypes.S i)%nat). { pose proof (nth_some_lt _ _ _ J) as X. rewrite firstn_length in X. lia. }
            rewrite nth_firstn in J by lia. apply F. eapply nth_error_In. rewrite nth_firstn; [exact J|lia]. }
        inversion S as [b0 i0 d0 o0 z E|b0 i0 d0 o0 id h la sd E|b0 i0 d0 o0 id E|b0 i0 d0 o0 x pre post E FI EF|b0 i0 d0 o0 x t pre post E J AX EF|b0 i0 d0 o0 m E M]; subst.
        + split; [exact L|]. split; [apply (ADD _ E); discriminate|exact O].
        + split; [exact L|]. split; [apply (ADD _ E); discriminate|]. intros id' h' la' Q. injection Q as <- <- <-.
          destruct (wf_handlers _ _ _ W id (OBlock h) la sd) as (m & k & t & Q & OK & _).
          { unfold all_items. apply in_flat_map. exists n. split; [eapply nth_error_In; apply order_lt; exact L|]. eapply nth_error_In. exact E. }
          injection Q as ->. pose proof (order_nth _ _ OK) as ->. apply nth_error_Some. congruence.
        + split; [exact L|]. split; [apply (ADD _ E); discriminate|]. intros id' h' la' Q. destruct o as [[[i1 h1] l1]|]; [|discriminate].
          cbn in Q. destruct (Nat.eqb id i1); [discriminate|]. eauto.
        + split; [exact L|]. split; [apply (ADD _ E)|exact O]. intros y Q. injection Q as <-. exact FI.
        + assert (N : exists k, numbered g n i k) by (eexists; apply numbered_is; split; [exact L|reflexivity]). destruct N as (k & N).
          destruct (ran_of _ _ _ _ E N) as (r & R). destruct (jump_target _ _ _ _ _ E N R J) as (t' & A' & LT & _). rewrite AX in A'. injection A' as <-.
          split; [exact LT|]. split; [intros y []|]. intros id h la Q. destruct (is_final x && _); [discriminate|eauto].
        + destruct (next_is n m L M) as [-> LM]. split; [exact LM|]. split; [intros y []|exact O].
      - destruct c as [[[n i] d] o]. destruct IH as (L & F & O). split; [|split; [intros x []|discriminate]].
        destruct M as [(id & ->)|M]; [eapply O; reflexivity|eapply COV; exact M].
    Qed.

    (** to the next instruction of the block, or to its end *)
    Lemma advance_in m : forall n i d o k, (length (k_items (blk g n)) - i <= m)%nat -> At (n, i, d, o) -> numbered g n i k ->
      exists i' o', At (n, i', d, o') /\ numbered g n i' k /\ (elem g n i' = None \/ exists x, elem g n i' = Some (BI x)).
    Proof.
      induction m as [|m IH]; intros n i d o k L A N.
      { exists i, o. split; [exact A|]. split; [exact N|]. left. unfold elem. apply nth_error_None. lia. }
      destruct (elem g n i) as [it|] eqn:E; [|exists i, o; auto].
      assert (LN : (n < length (g_order g))%nat) by (apply numbered_is in N; apply N).
      assert (J : In it (k_items (blk g n))) by (eapply nth_error_In; exact E).
      assert (LI : (i < length (k_items (blk g n)))%nat) by (apply nth_error_Some; unfold elem in E; congruence).
      assert (GO : forall o', step T ef g (n, i, d, o) (n, S i, d, o') -> is_instr it = false ->
        exists i' o', At (n, i', d, o') /\ numbered g n i' k /\ (elem g n i' = None \/ exists x, elem g n i' = Some (BI x))).
      { intros o' S NI. apply (IH n (Datatypes.S i) d o' k); [lia|eapply at_step; eauto|].
        pose proof (numbered_S _ _ _ _ E N) as X. rewrite NI, Nat.add_0_r in X. exact X. }
      destruct it as [x|l|z|id t la sd|id].
      - exists i, o. eauto.
      - exfalso. pose proof (wf_iter _ _ _ W n (nth_error_In _ _ (order_lt n LN))) as BI. apply in_split in J. destruct J as (a & c & Q). rewrite Q in BI.
        clear - BI. induction a as [|y a IHa]; [discriminate|]. cbn [app block_iter] in BI. apply bind_ok in BI. destruct BI as (? & _ & BI). auto.
      - eapply GO; [eapply st_line; exact E|reflexivity].
      - destruct (wf_handlers _ _ _ W id t la sd) as (n0 & k0 & t0 & -> & _).
        { unfold all_items. apply in_flat_map. exists n. split; [eapply nth_error_In; apply order_lt; exact LN|exact J]. }
        eapply GO; [eapply st_begin; exact E|reflexivity].
      - eapply GO; [eapply st_end; exact E|reflexivity].
    Qed.

    Lemma advance n i d o k : At (n, i, d, o) -> numbered g n i k -> (k < ninstrs (all_items g))%nat ->
      exists n' i' o' x, At (n', i', d, o') /\ numbered g n' i' k /\ elem g n' i' = Some (BI x).
    Proof.
      intros A N K. destruct (advance_in _ n i d o k (Nat.le_refl _) A N) as (i1 & o1 & A1 & N1 & [E1|(x & E1)]); [|eauto 8].
      pose proof (at_inside _ A1) as (L & F & _). rewrite (at_end _ _ _ E1 N1) in *.
      assert (LS : (S n < length (g_order g))%nat).
      { destruct (Nat.lt_ge_cases (S n) (length (g_order g))) as [X|X]; [exact X|]. exfalso.
        replace (S n) with (length (g_order g)) in K by lia. rewrite before_all in K. lia. }
      assert (NX : k_next (blk g n) = Some (S n)).
      { apply (wf_next _ _ _ W n n (S n) (order_lt n L)). split; [now apply order_lt|].
        pose proof (has_instr n LS) as HI. unfold elem in E1. apply nth_error_None in E1. rewrite firstn_all2 in F by exact E1.
        clear - HI F. revert HI F. generalize (k_items (blk g n)). intros l. induction l as [|y l IH] using rev_ind; [cbn; lia|].
        intros HI F. destruct (is_instr y) eqn:Y.
        - destruct y; try discriminate. exists l, i, []. split; [reflexivity|]. split; [reflexivity|]. apply F. apply in_or_app. right. now left.
        - destruct IH as (a & i & c & -> & NC & FI).
          + rewrite ninstrs_app, ninstrs_cons, Y in HI. change (ninstrs []) with 0%nat in HI. lia.
          + intros x J. apply F. apply in_or_app. now left.
          + exists a, i, (c ++ [y]). rewrite <- app_assoc. split; [reflexivity|]. split; [|exact FI].
            rewrite ninstrs_app, NC, ninstrs_cons, Y. reflexivity. }
      assert (A2 : At (S n, O, d, o1)) by (eapply at_step; [exact A1|eapply st_next; eauto]).
      destruct (advance_in _ (S n) O d o1 _ (Nat.le_refl _) A2 (numbered_0 _ LS)) as (i3 & o3 & A3 & N3 & [E3|(x & E3)]); [|eauto 8].
      exfalso. pose proof (at_end _ _ _ E3 N3) as X. pose proof (before_S (S n) LS) as X2.
      destruct (Nat.lt_ge_cases (S (S n)) (length (g_order g))) as [Y|Y].
      - pose proof (has_instr _ Y). lia.
      - replace (S (S n)) with (length (g_order g)) in X by lia. rewrite before_all in X. lia.
    Qed.

    (** a handler in the code is one of the graph, with the depth it has there *)
    Hypothesis HAND : forall n i d o x k r u target depth la, At (n, i, d, o) -> elem g n i = Some (BI x) -> numbered g n i k ->
      nth_error (instructions v T co) k = Some r -> PY311 v = true -> r_at r <= 2 * u < r_end r ->
      find_handler co u = Some (target, depth, la) ->
      exists h, cov n i h la /\ depth = H h /\ begins v T co (before g h) = Some (2 * target).

    Lemma reached_at k d : reached v T se co first (k, d) -> exists n i o, At (n, i, d, o) /\ numbered g n i k.
    Proof.
      intros R. remember (k, d) as c eqn:C. revert k d C. induction R as [|c1 c2 R IH S]; intros k d C.
      - injection C as <- <-. destruct (wf_blocks _ _ _ W) as [NE _]. destruct (g_order g) as [|n l] eqn:EO; [congruence|].
        exists n, O, None. split; [eapply at_entry; exact EO|]. exists O. rewrite EO. split; [reflexivity|]. reflexivity.
      - subst c2. destruct c1 as [k1 d1]. destruct (IH _ _ eq_refl) as (n0 & i0 & o0 & A0 & N0).
        assert (K : (k1 < ninstrs (all_items g))%nat).
        { rewrite <- total. inversion S; subst; eapply nth_some_lt; eauto. }
        destruct (advance _ _ _ _ _ A0 N0 K) as (n & i & o & x & A & N & E). clear A0 N0 n0 i0 o0.
        destruct (in_code _ _ _ _ E N) as (y & l & h & r & _ & _ & R' & OP & NM & _).
        inversion S as [k0 d0 r0 n0 e Q1 Q2 Q3 Q4|k0 d0 r0 k' e Q1 Q2 Q3 Q4|k0 d0 r0 u tg depth la k' Q0 Q1 Q2 Q3 Q4]; subst; rewrite R' in Q1; injection Q1 as <-.
        + pose proof (effect_same _ _ _ _ _ false E N R') as Y. rewrite Q4 in Y. destruct Y as (p & q & Y & Z). exists n, (Datatypes.S i), o.
          split; [|pose proof (numbered_S _ _ _ _ E N) as X; cbn [is_instr] in X; rewrite Nat.add_1_r in X; exact X].
          replace (d1 + e) with (d1 + p + q) by lia. eapply at_step; [exact A|]. eapply st_instr; eauto.
          apply final_never. rewrite NM in Q2. injection Q2 as <-. exact Q3.
        + pose proof (effect_same _ _ _ _ _ true E N R') as Y. rewrite Q4 in Y. destruct Y as (p & q & Y & Z).
          assert (J : has_jump T x = true) by (unfold has_jump; now rewrite <- OP).
          destruct (jump_target _ _ _ _ _ E N R' J) as (t & AX & LT & B). pose proof (begins_inj _ _ _ _ _ _ Q3 B) as ->.
          replace (d1 + e) with (d1 + p + q) by lia. do 3 eexists. split; [eapply at_step; [exact A|eapply st_jump; eauto]|apply numbered_0; exact LT].
        + destruct (HAND _ _ _ _ _ _ _ _ _ _ _ A E N R' Q0 Q2 Q3) as (h' & C1 & -> & B). pose proof (begins_inj _ _ _ _ _ _ Q4 B) as ->.
          exists h', O, None. split; [eapply at_raise; [exact A|right; exact C1]|apply numbered_0; eapply COV; exact C1].
    Qed.
  End Forward.
End Sim.

Lemma source_length b : length (source b) = ninstrs (b_items b).
Proof. unfold source, program. now rewrite <- wg_walk, located_len. Qed.
