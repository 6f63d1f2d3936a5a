(** Lemmas for assembling and then disassembling: the source side. *)
From Verif Require Import PyBase OpTable P_Base M_Instr M_Concrete S_Prog S_Asm S_Cfg S_Ident P_Cfg P_CfgSeq P_CfgFrom P_CfgTo2 P_Conv P_Try P_Jumps P_Jumps2 P_Layout P_AsmProps.
Open Scope string_scope.
Open Scope list_scope.
Open Scope Z_scope.

Lemma firstn_S_nth {A} (l : list A) k x : nth_error l k = Some x -> firstn (S k) l = firstn k l ++ [x].
Proof. revert k. induction l as [|y l IH]; intros [|k] H; try discriminate H; cbn in *; [now injection H as ->|]. now rewrite (IH k H). Qed.
Lemma nth_split' {A} (l : list A) k x : nth_error l k = Some x -> l = firstn k l ++ x :: skipn (S k) l.
Proof. revert k. induction l as [|y l IH]; intros [|k] H; try discriminate H; cbn in *; [now injection H as ->|]. f_equal. now apply IH. Qed.

(** ** The instructions of the source, one by one *)
Lemma located_walk f p : forall items o cur, located cur (wg f o items) =
  located cur (wg f o (firstn p items)) ++ located (fold_left next_loc (firstn p items) cur) (wg f (og f o (firstn p items)) (skipn p items)).
Proof.
  induction p as [|p IH]; intros [|it items] o cur; try reflexivity.
  destruct it; cbn [wg og firstn skipn fold_left located next_loc app]; rewrite (IH items); reflexivity.
Qed.

Lemma located_len f items : forall o cur, length (located cur (wg f o items)) = ninstrs items.
Proof.
  induction items as [|it items IH]; intros o cur; [reflexivity|].
  unfold ninstrs in *. destruct it; cbn [wg located filter is_instr length]; rewrite ?IH; reflexivity.
Qed.

Lemma source_nth items p i cur : nth_error items p = Some (BI i) ->
  nth_error (located cur (program items)) (ninstrs (firstn p items))
  = Some (i_name i, arg_of (position items) (i_arg i), fold_left next_loc (firstn (S p) items) cur,
          og (arg_of (position items)) None (firstn p items)).
Proof.
  intros N. unfold program. rewrite <- wg_walk, (located_walk _ p), nth_error_app2; rewrite located_len; [|lia].
  rewrite Nat.sub_diag. rewrite (firstn_S_nth _ _ _ N), fold_left_app.
  assert (E : skipn p items = BI i :: skipn (S p) items).
  { clear - N. revert p N. induction items as [|y l IH]; intros [|k] H; try discriminate H; cbn in *; [now injection H as ->|]. now apply IH. }
  rewrite E. reflexivity.
Qed.

Lemma instr_at items : forall m, (m < ninstrs items)%nat -> exists p i, nth_error items p = Some (BI i) /\ m = ninstrs (firstn p items).
Proof.
  induction items as [|it items IH]; intros m L; [cbn in L; lia|].
  destruct (is_instr it) eqn:E.
  - destruct it; try discriminate E. destruct m as [|m]; [exists 0%nat, i; now split|].
    destruct (IH m) as (p & j & H1 & H2). { unfold ninstrs in *. cbn in L. lia. }
    exists (S p), j. split; [exact H1|]. unfold ninstrs in *. cbn. now f_equal.
  - destruct (IH m) as (p & j & H1 & H2). { unfold ninstrs in *. cbn in L. now rewrite E in L. }
    exists (S p), j. split; [exact H1|]. unfold ninstrs in *. cbn. now rewrite E.
Qed.

Lemma position_label items l q : label_position l items q -> position items l = Some (ninstrs (firstn q items)).
Proof.
  intros [H1 H2]. rewrite (nth_split' _ _ _ H1) at 1. rewrite position_app. cbn [position].
  rewrite (position_none (skipn (S q) items)).
  - rewrite Nat.eqb_refl. f_equal. lia.
  - intros I. apply In_nth_error in I. destruct I as [k I]. apply (H2 (S q + k)%nat); [lia|].
    rewrite <- I. clear. revert k. generalize (S q). intros n. revert items. induction n as [|n IH]; intros items k; [reflexivity|].
    destruct items; [now destruct k|]. apply IH.
Qed.

(** ** The target side: instructions with their own location *)
Lemma located_own l : (forall k, (k < length l)%nat -> exists n a lo h, nth_error l k = Some (PInstr n a (Some lo) h)) ->
  forall cur, length (located cur l) = length l
  /\ forall k n a lo h, nth_error l k = Some (PInstr n a (Some lo) h) -> nth_error (located cur l) k = Some (n, a, lo, h).
Proof.
  induction l as [|x l IH]; intros H cur; [split; [reflexivity|]; intros [|k]; discriminate|].
  destruct (H 0%nat) as (n & a & lo & h & E); [cbn; lia|]. cbn in E. injection E as ->. cbn [located].
  destruct (IH (fun k L => H (S k) ltac:(cbn; lia)) lo) as [IH1 IH2]. split; [cbn; now rewrite IH1|].
  intros [|k] n' a' lo' h' N; cbn in N |- *; [now injection N as <- <- <- <-|]. now apply IH2.
Qed.

(** ** Try blocks *)
Definition marker (it : bitem) : bool := match it with BTB _ _ _ _ | BTE _ => true | _ => false end.
Definition next_st (st : option (nat * bool)) (it : bitem) : option (nat * bool) :=
  match it with
  | BTB id _ _ _ => Some (id, false)
  | BTE _ => None
  | BI _ => option_map (fun x => (fst x, true)) st
  | _ => st
  end.
Definition after (st : option (nat * bool)) (a : list bitem) := fold_left next_st a st.

Lemma bracketed_app a b : forall st, bracketed st (a ++ b) -> bracketed (after st a) b.
Proof.
  induction a as [|it a IH]; intros st H; [exact H|]. unfold after. cbn [fold_left]. apply IH.
  destruct it; cbn in H |- *; tauto.
Qed.

Lemma after_unmarked a : (forall it, In it a -> marker it = false) -> forall st,
  (after st a = None <-> st = None) /\ (forall id s, after st a = Some (id, s) -> exists s', st = Some (id, s') /\ (s = true -> s' = true \/ exists i, In (BI i) a))
  /\ forall f o, og f o a = o.
Proof.
  induction a as [|it a IH]; intros NM st.
  - split; [cbn; tauto|]. split; [intros id s H; exists s; cbn in H; auto|reflexivity].
  - assert (M : marker it = false) by (apply NM; now left).
    destruct (IH (fun x I => NM x (or_intror I)) (next_st st it)) as (I1 & I2 & I3).
    unfold after in *. cbn [fold_left]. split; [|split].
    + rewrite I1. destruct it; try discriminate M; cbn; try tauto. destruct st; cbn; [|tauto]. split; discriminate.
    + intros id s H. destruct (I2 id s H) as (s' & E & K).
      destruct it; try discriminate M; cbn in E; try (exists s'; split; [exact E|]; intros X; destruct (K X) as [|[i' ?]]; [now left|right; exists i'; now right]).
      destruct st as [[id0 s0]|]; [|discriminate]. cbn in E. injection E as -> <-. exists s0. split; [reflexivity|].
      intros _. right. exists i. now left.
    + intros f o. destruct it; try discriminate M; cbn; apply I3.
Qed.

Lemma last_marker a : (forall it, In it a -> marker it = false)
  \/ exists a1 m a2, a = a1 ++ m :: a2 /\ marker m = true /\ forall it, In it a2 -> marker it = false.
Proof.
  induction a as [|it a IH]; [left; intros it []|]. destruct IH as [IH|(a1 & m & a2 & -> & M & N)].
  - destruct (marker it) eqn:M; [right; exists [], it, a; auto|]. left. intros x [<-|I]; auto.
  - right. exists (it :: a1), m, a2. auto.
Qed.
Lemma first_marker a : (forall it, In it a -> marker it = false)
  \/ exists a1 m a2, a = a1 ++ m :: a2 /\ marker m = true /\ forall it, In it a1 -> marker it = false.
Proof.
  induction a as [|it a IH]; [left; intros it []|]. destruct (marker it) eqn:M.
  - right. exists [], it, a. split; [reflexivity|]. split; [exact M|intros x []].
  - destruct IH as [IH|(a1 & m & a2 & -> & M' & N)].
    + left. intros x [<-|I]; auto.
    + right. exists (it :: a1), m, a2. split; [reflexivity|]. split; [exact M'|]. intros x [<-|I]; auto.
Qed.

(** A block: from a TryBegin to its TryEnd. *)
Definition block (items : list bitem) (p q id : nat) (t : pyobj) (la : bool) (d : option Z) : Prop :=
  (p < q)%nat /\ nth_error items p = Some (BTB id t la d) /\ nth_error items q = Some (BTE id)
  /\ (forall r it, (p < r < q)%nat -> nth_error items r = Some it -> marker it = false)
  /\ exists r i, (p < r < q)%nat /\ nth_error items r = Some (BI i).

Lemma mid_nth {A} (a b c : list A) x r : (length a <= r < length a + length b)%nat ->
  nth_error (a ++ b ++ c) r = Some x -> In x b.
Proof.
  intros L N. rewrite nth_error_app2, nth_error_app1 in N by lia. eapply nth_error_In; eauto.
Qed.

Section Blocks.
  Variable items : list bitem.
  Hypothesis BR : bracketed None items.

  Lemma cut_block a1 id t la d a2 b : items = a1 ++ BTB id t la d :: a2 ++ BTE id :: b ->
    (forall it, In it a2 -> marker it = false) -> (exists i, In (BI i) a2) ->
    block items (length a1) (length a1 + S (length a2)) id t la d.
  Proof.
    intros E N (i & I). split; [lia|]. rewrite E. split; [|split; [|split]].
    - rewrite nth_error_app2, Nat.sub_diag; [reflexivity|lia].
    - rewrite nth_error_app2 by lia. replace (length a1 + S (length a2) - length a1)%nat with (S (length a2)) by lia.
      cbn [nth_error]. rewrite nth_error_app2, Nat.sub_diag by lia. reflexivity.
    - intros r it L H. apply N. apply (mid_nth (a1 ++ [BTB id t la d]) a2 (BTE id :: b) it r).
      + rewrite app_length. cbn. lia.
      + rewrite <- app_assoc. exact H.
    - apply In_nth_error in I. destruct I as [k I]. pose proof (nth_some_lt _ _ _ I) as L.
      exists (length a1 + S k)%nat, i. split; [lia|]. rewrite nth_error_app2 by lia.
      replace (length a1 + S k - length a1)%nat with (S k) by lia. cbn [nth_error]. rewrite nth_error_app1 by lia. exact I.
  Qed.

  Lemma begin_block p id t la d : nth_error items p = Some (BTB id t la d) -> exists q, block items p q id t la d.
  Proof.
    intros N. pose proof (nth_split' _ _ _ N) as E. pose proof BR as B. rewrite E in B. apply bracketed_app in B.
    cbn [bracketed] in B. destruct B as [_ B].
    assert (LP : length (firstn p items) = p). { pose proof (nth_some_lt _ _ _ N). rewrite firstn_length. lia. }
    destruct (first_marker (skipn (S p) items)) as [NM|(a1 & m & a2 & E2 & M & NM)].
    - exfalso. rewrite <- (app_nil_r (skipn (S p) items)) in B. apply bracketed_app in B. cbn in B.
      destruct (after_unmarked _ NM (Some (id, false))) as (X & _). apply X in B. discriminate.
    - rewrite E2 in B. apply bracketed_app in B. destruct (after_unmarked _ NM (Some (id, false))) as (X1 & X2 & _).
      destruct m; try discriminate M; cbn [bracketed] in B; destruct B as [B _].
      + apply X1 in B. discriminate.
      + destruct (X2 _ _ B) as (s' & S1 & S2). injection S1 as <- <-.
        destruct (S2 eq_refl) as [|I]; [discriminate|]. rewrite E2 in E.
        exists (length (firstn p items) + S (length a1))%nat. rewrite <- LP at 1. eapply cut_block; eauto.
  Qed.

  Lemma end_block q id : nth_error items q = Some (BTE id) -> exists p t la d, block items p q id t la d.
  Proof.
    intros N. pose proof (nth_split' _ _ _ N) as E. pose proof BR as B. rewrite E in B. apply bracketed_app in B.
    cbn [bracketed] in B. destruct B as [B _].
    assert (LP : length (firstn q items) = q). { pose proof (nth_some_lt _ _ _ N). rewrite firstn_length. lia. }
    destruct (last_marker (firstn q items)) as [NM|(a1 & m & a2 & E2 & M & NM)].
    - exfalso. destruct (after_unmarked _ NM None) as (X & _). assert (Y : after None (firstn q items) = None) by now apply X. congruence.
    - rewrite E2 in B. unfold after in B. rewrite fold_left_app in B. cbn [fold_left] in B. fold (after None a1) in B.
      fold (after (next_st (after None a1) m) a2) in B. destruct (after_unmarked _ NM (next_st (after None a1) m)) as (X1 & X2 & _).
      destruct (X2 _ _ B) as (s' & S1 & S2). destruct m; try discriminate M; cbn in S1; [|discriminate].
      injection S1 as -> <-. destruct (S2 eq_refl) as [|I]; [discriminate|].
      exists (length a1), target, lasti, depth.
      assert (LQ : q = (length a1 + S (length a2))%nat). { rewrite <- LP, E2, app_length. reflexivity. }
      rewrite LQ at 1. rewrite E2, <- app_assoc in E. eapply cut_block; eauto.
  Qed.

  Lemma open_in f p i : nth_error items p = Some (BI i) ->
    (og f None (firstn p items) = None /\ forall p1 q1 id t la d, block items p1 q1 id t la d -> ~ (p1 < p < q1)%nat)
    \/ exists p1 q1 id t la d, block items p1 q1 id t la d /\ (p1 < p < q1)%nat /\ og f None (firstn p items) = Some (f t, la).
  Proof.
    intros N. assert (LP : length (firstn p items) = p). { pose proof (nth_some_lt _ _ _ N). rewrite firstn_length. lia. }
    assert (NF : forall r, (r < p)%nat -> nth_error items r = nth_error (firstn p items) r).
    { intros r L. rewrite <- (firstn_skipn p items) at 1. apply nth_error_app1. lia. }
    destruct (last_marker (firstn p items)) as [NM|(a1 & m & a2 & E2 & M & NM)].
    - left. split. { destruct (after_unmarked _ NM None) as (_ & _ & X). apply X. }
      intros p1 q1 id t la d (_ & B & _) L. rewrite NF in B by lia. apply nth_error_In in B. apply NM in B. discriminate.
    - assert (X : og f None (firstn p items) = og f (og f None a1) [m]).
      { rewrite E2, og_app. change (m :: a2) with ([m] ++ a2). rewrite og_app.
        destruct (after_unmarked _ NM None) as (_ & _ & Y). apply Y. }
      assert (P0 : nth_error items (length a1) = Some m).
      { rewrite NF by (rewrite <- LP, E2, app_length; cbn; lia). rewrite E2, nth_error_app2, Nat.sub_diag by lia. reflexivity. }
      assert (LA : (length a1 < p)%nat) by (rewrite <- LP, E2, app_length; cbn; lia).
      destruct m; try discriminate M; cbn in X.
      + right. destruct (begin_block _ _ _ _ _ P0) as (q & B). exists (length a1), q, id, target, lasti, depth.
        split; [exact B|]. split; [|exact X]. split; [exact LA|].
        destruct B as (B1 & B2 & B3 & _). destruct (Nat.lt_trichotomy p q) as [L|[L|L]]; [exact L| |].
        * subst q. rewrite N in B3. discriminate.
        * exfalso. rewrite NF in B3 by lia. rewrite E2, nth_error_app2 in B3 by lia.
          replace (q - length a1)%nat with (S (q - length a1 - 1)) in B3 by lia. cbn [nth_error] in B3.
          apply nth_error_In in B3. apply NM in B3. discriminate.
      + left. split; [exact X|]. intros p1 q1 id' t la d (_ & B & _ & U & _) L.
        destruct (Nat.lt_trichotomy p1 (length a1)) as [Z|[Z|Z]].
        * apply U in P0; [discriminate|lia].
        * rewrite Z, P0 in B. discriminate.
        * rewrite NF in B by lia. rewrite E2, nth_error_app2 in B by lia.
          replace (p1 - length a1)%nat with (S (p1 - length a1 - 1)) in B by lia. cbn [nth_error] in B.
          apply nth_error_In in B. apply NM in B. discriminate.
  Qed.
End Blocks.

Lemma tb_ids_in items id : In id (tb_ids items) <-> exists p t la d, nth_error items p = Some (BTB id t la d).
Proof.
  unfold tb_ids. rewrite in_flat_map. split.
  - intros (it & I & J). destruct it; try destruct J as []; try destruct H. subst. apply In_nth_error in I. destruct I as [p I]. eauto.
  - intros (p & t & la & d & N). exists (BTB id t la d). split; [eapply nth_error_In; eauto|now left].
Qed.

Lemma blocks_proper items : try_blocks items -> S_Asm.proper_try items.
Proof.
  intros [ND BR]. split; [exact ND|]. intros p id t la d N. destruct (begin_block items BR p id t la d N) as (q & B).
  exists q. pose proof B as (B1 & _ & B3 & B4 & r & i & B5 & B6). split; [exact B1|]. split; [exact B3|]. split; [|eauto].
  intros q' N'. destruct (end_block items BR q' id N') as (p' & t' & la' & d' & C). destruct C as (C1 & C2 & _ & C4 & _).
  assert (p' = p) by (eapply unique_tb; eauto). subst p'.
  destruct (Nat.lt_trichotomy q q') as [L|[L|L]]; [|congruence|].
  - assert (X : marker (BTE id) = false) by (apply (C4 q); [lia|exact B3]). discriminate.
  - assert (X : marker (BTE id) = false) by (apply (B4 q'); [lia|exact N']). discriminate.
Qed.
