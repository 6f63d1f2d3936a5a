(** Disassembly as a program: instructions, jump targets and handlers (C22, C23). *)
From Verif Require Import PyBase OpTable P_Base P_OpTable M_Instr M_Tables M_Concrete S_Args S_Lines S_Asm S_Prog S_Dis
  M_Bytecode M_Cfg S_Cfg P_Cfg P_CfgSeq P_Instr P_Instr2 P_Jumps P_Jumps2 P_AsmProps P_Dis.
Open Scope string_scope.
Open Scope list_scope.
Open Scope Z_scope.

Lemma find_unique {A} (p : A -> bool) l x : In x l -> p x = true -> (forall y, In y l -> p y = true -> y = x) -> find p l = Some x.
Proof.
  intros I P U. destruct (find p l) as [y|] eqn:F.
  - apply find_some in F. destruct F as [F1 F2]. now rewrite (U y F1 F2).
  - rewrite (find_none _ _ F x I) in P. discriminate.
Qed.
Lemma find_all_false {A} (p : A -> bool) l : (forall y, In y l -> p y = false) -> find p l = None.
Proof. intros U. destruct (find p l) as [y|] eqn:F; [|reflexivity]. apply find_some in F. destruct F as [F1 F2]. rewrite (U y F1) in F2. discriminate. Qed.
Lemma find_ext_in {A} (p q : A -> bool) l : (forall y, In y l -> p y = q y) -> find p l = find q l.
Proof. induction l as [|x l IH]; intros U; [reflexivity|]. cbn. rewrite <- (U x) by (now left). destruct (p x); [reflexivity|]. apply IH. intros y I. apply U. now right. Qed.

Lemma ex_start_spec o l : forall m, match ex_start_at m o l with
  | Some (n, e) => exists i, n = (m + i)%nat /\ nth_error l i = Some e /\ e_start e = o
  | None => forall e, In e l -> e_start e <> o end.
Proof.
  induction l as [|e l IH]; intros m; cbn [ex_start_at]; [intros e []|].
  destruct (Z.eqb_spec (e_start e) o) as [E|E].
  - exists 0%nat. split; [lia|]. auto.
  - specialize (IH (S m)). destruct (ex_start_at (S m) o l) as [[n f]|].
    + destruct IH as (i & -> & N & SE). exists (S i). split; [lia|]. auto.
    + intros f [<-|I]; auto.
Qed.
Lemma ex_ends_none cur l : (forall e, In e l -> e_stop e <> cur) -> forall m, ex_ends_at m cur l = [].
Proof.
  induction l as [|e l IH]; intros H m; [reflexivity|]. cbn [ex_ends_at]. assert (N : e_stop e <> cur) by (apply H; now left).
  apply Z.eqb_neq in N. rewrite N. apply IH. intros f I. apply H. now right.
Qed.
Lemma ex_ends_one cur l e : forall i m, nth_error l i = Some e -> e_stop e = cur ->
  (forall j f, nth_error l j = Some f -> e_stop f = cur -> j = i) -> ex_ends_at m cur l = [((m + i)%nat, e)].
Proof.
  induction l as [|g l IH]; intros i m N E U; [destruct i; discriminate N|]. cbn [ex_ends_at]. destruct i as [|i]; cbn in N.
  - injection N as ->. rewrite E, Z.eqb_refl, ex_ends_none, Nat.add_0_r; [reflexivity|].
    intros f I F. apply In_nth_error in I. destruct I as (j & J). specialize (U (S j) f J F). discriminate.
  - assert (X : e_stop g <> cur). { intros X. specialize (U 0%nat g eq_refl X). discriminate. }
    apply Z.eqb_neq in X. rewrite X. cbn [app]. rewrite (IH i (S m) N E), Nat.add_succ_r; [reflexivity|].
    intros j f J F. specialize (U (S j) f J F). now injection U.
Qed.

Lemma off_lt_iff v cs i j : Forall pos cs -> (i <= length cs)%nat -> (j <= length cs)%nat -> (offset_of v cs i < offset_of v cs j <-> (i < j)%nat).
Proof.
  intros P Li Lj. split; intros H.
  - destruct (le_lt_dec j i) as [L|L]; [|exact L]. pose proof (off_le v cs j i P L). lia.
  - now apply offset_strict.
Qed.
Lemma exec_between v cs k : Forall pos cs -> (k < length cs)%nat -> offset_of v cs k <= executed_at v cs k < offset_of v cs (S k).
Proof.
  intros P L. unfold executed_at. destruct (nth_error cs k) as [c|] eqn:N; [|apply nth_error_None in N; lia].
  rewrite (offset_of_S v cs k c N). assert (Q : pos c) by (rewrite Forall_forall in P; apply P; eapply nth_error_In; eauto).
  destruct Q as [Q1 Q2]. clear - Q1 Q2. destruct v; cbn; zdm.
Qed.

Section Walk.
  Variables (v : pyver) (T : optable) (cb : cbytecode) (prune conserve : bool) (targets : list Z) (L : list (Z * cinstr)).
  Hypothesis wf : wf_optable v T = true.
  Let cs := map snd L.
  Let ex := cb_ex cb.
  Hypothesis P : Forall pos cs.
  Variable f : pyobj -> parg.

  Definition hl (e : option exentry) : option handler := option_map (fun e => (f (label_at (e_target e)), e_lasti e)) e.
  Definition open_at (o : Z) := find (fun e => (e_start e <? o) && (o <=? e_stop e)) ex.
  Definition in_at (o : Z) := find (fun e => (e_start e <=? o) && (o <=? e_stop e)) ex.

  Lemma entry_facts : tidy v cs ex -> forall e, In e ex -> exists s t, (s <= t < length cs)%nat /\ e_start e <= e_stop e
    /\ forall k, (k <= length cs)%nat ->
       (e_start e <= offset_of v cs k <-> (s <= k)%nat) /\ (e_start e < offset_of v cs k <-> (s < k)%nat)
       /\ (e_start e = offset_of v cs k <-> s = k)
       /\ (offset_of v cs k <= e_stop e <-> (k <= t)%nat) /\ ((k < length cs)%nat -> (e_stop e = executed_at v cs k <-> t = k))
       /\ ((k < length cs)%nat -> (e_start e <= executed_at v cs k <-> (s <= k)%nat) /\ (executed_at v cs k <= e_stop e <-> (k <= t)%nat)).
  Proof.
    intros [TD _] e I. destruct (TD e I) as (s & t & B & E1 & E2). exists s, t. split; [exact B|].
    pose proof (exec_between v cs t P ltac:(lia)) as XT. pose proof (off_le v cs s t P ltac:(lia)).
    split; [rewrite E1, E2; lia|]. intros k K. rewrite E1, E2.
    pose proof (off_lt_iff v cs s k P ltac:(lia) K). pose proof (off_lt_iff v cs k s P K ltac:(lia)).
    pose proof (off_lt_iff v cs k t P K ltac:(lia)). pose proof (off_lt_iff v cs t k P ltac:(lia) K).
    pose proof (off_lt_iff v cs (S t) k P ltac:(lia) K). pose proof (off_lt_iff v cs k (S t) P K ltac:(lia)).
    assert (EQ : t = k -> executed_at v cs t = executed_at v cs k) by congruence.
    assert (OE : s = k -> offset_of v cs s = offset_of v cs k) by congruence.
    assert (OS : (S t <= k)%nat -> offset_of v cs (S t) <= offset_of v cs k) by (intros; now apply off_le).
    split; [lia|]. split; [lia|]. split; [lia|]. split; [lia|].
    assert (AUX : (k < length cs)%nat -> offset_of v cs k <= executed_at v cs k < offset_of v cs (S k)) by (apply exec_between; exact P).
    assert (OK : (S k <= t)%nat -> offset_of v cs (S k) <= offset_of v cs t) by (intros; now apply off_le).
    split; intros K'; specialize (AUX K').
    - split; [|intros; lia]. intros E. destruct (lt_eq_lt_dec t k) as [[X|X]|X]; [|exact X|]; exfalso.
      + specialize (OS X). lia.
      + specialize (OK X). lia.
    - pose proof (off_lt_iff v cs s (S k) P ltac:(lia) ltac:(lia)).
      assert (OKS : (S k <= s)%nat -> offset_of v cs (S k) <= offset_of v cs s) by (intros; now apply off_le).
      split.
      + split; [|lia]. intros. destruct (le_lt_dec s k) as [X|X]; [exact X|]. specialize (OKS X). lia.
      + split.
        * intros. destruct (le_lt_dec k t) as [X|X]; [exact X|]. specialize (OS X). lia.
        * intros X. destruct (Nat.eq_dec k t) as [->|NE]; [lia|]. assert (Y : (S k <= t)%nat) by lia. specialize (OK Y). lia.
  Qed.

  Lemma apart_unique : tidy v cs ex -> forall x m n e g, nth_error ex m = Some e -> nth_error ex n = Some g ->
    e_start e <= x <= e_stop e -> e_start g <= x <= e_stop g -> m = n.
  Proof.
    intros [_ A] x m n e g M N B1 B2. destruct (lt_eq_lt_dec m n) as [[X|X]|X]; [exfalso|exact X|exfalso].
    - destruct (A m n e g X M N); lia.
    - destruct (A n m g e X N M); lia.
  Qed.
  Lemma apart_same : tidy v cs ex -> forall x e g, In e ex -> In g ex ->
    e_start e <= x <= e_stop e -> e_start g <= x <= e_stop g -> e = g.
  Proof.
    intros TD x e g I J B1 B2. apply In_nth_error in I, J. destruct I as (m & M), J as (n & N).
    pose proof (apart_unique TD x m n e g M N B1 B2). congruence.
  Qed.

  Lemma covering_in k : tidy v cs ex -> (k < length cs)%nat -> covering v cs ex k = in_at (offset_of v cs k).
  Proof.
    intros TD K. unfold covering, in_at. apply find_ext_in. intros e I. destruct (entry_facts TD e I) as (s & t & B & _ & F).
    destruct (F k ltac:(lia)) as (F1 & _ & _ & F2 & _ & F3). destruct (F3 K) as [F4 F5].
    apply eq_true_iff_eq. rewrite !andb_true_iff, !Z.leb_le. tauto.
  Qed.

  Lemma only_try_wg l : (forall it, In it l -> match it with BTB _ _ _ _ | BTE _ => True | _ => False end) -> forall h, wg f h l = [].
  Proof.
    induction l as [|x l IH]; intros H h; [reflexivity|]. assert (X := H x (or_introl eq_refl)).
    assert (Y : forall h, wg f h l = []) by (apply IH; intros; apply H; now right). destruct x; try destruct X; cbn; apply Y.
  Qed.
  Lemma ends_only es : forall cr0 ends cr', emit_ends conserve cr0 es = (ends, cr') ->
      forall it, In it ends -> match it with BTB _ _ _ _ | BTE _ => True | _ => False end.
  Proof.
    induction es as [|[n e] es IH]; intros cr0 ends cr' H it I; cbn [emit_ends] in H.
    - injection H as <- <-. destruct I.
    - destruct (nat_mem n cr0).
      + destruct (emit_ends conserve cr0 es) eqn:Q. injection H as <- <-. destruct I as [<-|I]; [exact Logic.I|exact (IH _ _ _ Q it I)].
      + destruct (emit_ends conserve (n :: cr0) es) eqn:Q. injection H as <- <-. destruct I as [<-|[<-|I]]; [exact Logic.I..|exact (IH _ _ _ Q it I)].
  Qed.
  Lemma tb_only cr o tb cr1 : tb_here cb conserve cr o = (tb, cr1) -> forall it, In it tb -> match it with BTB _ _ _ _ | BTE _ => True | _ => False end.
  Proof.
    unfold tb_here. intros TB it I. destruct (ex_start_at 0 o (cb_ex cb)) as [[n e]|]; [destruct (nat_mem n cr)|]; injection TB as <- <-; [destruct I|destruct I as [<-|[]]; exact Logic.I|destruct I].
  Qed.

  Definition inv (created : list nat) (o : Z) : Prop := forall n e, nth_error ex n = Some e -> (In n created <-> e_start e < o).

  (** one step of the handler state *)
  Lemma step_tb created k tb cr1 : tidy v cs ex -> (k < length cs)%nat -> inv created (offset_of v cs k) ->
    tb_here cb conserve created (offset_of v cs k) = (tb, cr1) ->
    og f (hl (open_at (offset_of v cs k))) tb = hl (in_at (offset_of v cs k))
    /\ inv cr1 (offset_of v cs (S k)).
  Proof.
    intros TD K IV TB. set (o := offset_of v cs k) in *.
    assert (NXT : forall e, In e ex -> (e_start e < offset_of v cs (S k) <-> e_start e <= o)).
    { intros e I. destruct (entry_facts TD e I) as (s & t & B & _ & F). destruct (F k ltac:(lia)) as (F1 & _). destruct (F (S k) ltac:(lia)) as (_ & F2 & _).
      unfold o. rewrite F1, F2. lia. }
    unfold tb_here in TB. pose proof (ex_start_spec o (cb_ex cb) 0) as SP. fold ex in SP, TB.
    destruct (ex_start_at 0 o ex) as [[n e]|].
    - destruct SP as (i & -> & N & SE). cbn [Nat.add] in TB. assert (I : In e ex) by (eapply nth_error_In; eauto).
      assert (NC : nat_mem i created = false).
      { destruct (nat_mem i created) eqn:X; [|reflexivity]. apply nat_mem_In in X. rewrite (IV i e N) in X. lia. }
      rewrite NC in TB. injection TB as <- <-. split.
      + cbn. symmetry. unfold in_at. destruct (entry_facts TD e I) as (s & t & B & ST & _).
        rewrite (find_unique _ _ e I); [reflexivity| |].
        * rewrite andb_true_iff, !Z.leb_le. lia.
        * intros g J Y. rewrite andb_true_iff, !Z.leb_le in Y. symmetry. apply (apart_same TD o); auto. lia.
      + intros m g M. rewrite NXT by (eapply nth_error_In; eauto). cbn [In]. rewrite (IV m g M). split.
        * intros [->|X]; [|lia]. assert (g = e) by congruence. subst g. lia.
        * intros X. destruct (Z.eq_dec (e_start g) o) as [Y|Y]; [left|right; lia].
          apply (apart_unique TD o i m e g N M); [|].
          -- destruct (entry_facts TD e I) as (s & t & B & ST & _). lia.
          -- destruct (entry_facts TD g ltac:(eapply nth_error_In; eauto)) as (s & t & B & ST & _). lia.
    - injection TB as <- <-. split.
      + cbn. f_equal. unfold open_at, in_at. apply find_ext_in. intros e I. specialize (SP e I). apply eq_true_iff_eq.
        rewrite !andb_true_iff, Z.ltb_lt, !Z.leb_le. lia.
      + intros m g M. assert (J : In g ex) by (eapply nth_error_In; eauto). rewrite NXT by exact J. rewrite (IV m g M). specialize (SP g J). lia.
  Qed.
  Lemma step_ends cr1 k ends cr2 : tidy v cs ex -> (k < length cs)%nat -> inv cr1 (offset_of v cs (S k)) ->
    emit_ends conserve cr1 (rev (ex_ends_at 0 (executed_at v cs k) (cb_ex cb))) = (ends, cr2) ->
    og f (hl (in_at (offset_of v cs k))) ends = hl (open_at (offset_of v cs (S k))) /\ cr2 = cr1.
  Proof.
    intros TD K IV EE. fold ex in EE.
    destruct (existsb (fun e => e_stop e =? executed_at v cs k) ex) eqn:X.
    - apply existsb_exists in X. destruct X as (e & I & Q). apply Z.eqb_eq in Q. pose proof I as I'. apply In_nth_error in I'. destruct I' as (i & N).
      destruct (entry_facts TD e I) as (s & t & B & ST & F). destruct (F k ltac:(lia)) as (F1 & F2 & _ & F4 & F5 & F6). destruct (F6 K) as [F7 F8].
      assert (t = k) by (now apply F5). subst t.
      rewrite (ex_ends_one _ ex e i 0 N Q) in EE.
      2:{ intros j g J E. apply (apart_unique TD (executed_at v cs k) j i g e J N).
          - destruct (entry_facts TD g ltac:(eapply nth_error_In; eauto)) as (s' & t' & B' & ST' & F'). lia.
          - lia. }
      cbn [rev app Nat.add emit_ends] in EE.
      assert (MEM : nat_mem i cr1 = true). { apply nat_mem_In. rewrite (IV i e N). destruct (F (S k) ltac:(lia)) as (_ & G & _). rewrite G. lia. }
      rewrite MEM in EE. injection EE as <- <-. split; [|reflexivity]. cbn. unfold open_at. rewrite find_all_false; [reflexivity|].
      intros g J. apply not_true_iff_false. rewrite andb_true_iff, Z.ltb_lt, Z.leb_le. intros [Y1 Y2].
      destruct (entry_facts TD g J) as (s' & t' & B' & ST' & F').
      destruct (F' (S k) ltac:(lia)) as (G1 & G2 & _ & G4 & _). destruct (F' k ltac:(lia)) as (H1 & H2 & _ & H4 & _).
      rewrite G2 in Y1. rewrite G4 in Y2.
      assert (e = g). { apply (apart_same TD (offset_of v cs k)); auto; split.
        - apply F1. lia. - apply F4. lia. - apply H1. lia. - apply H4. lia. }
      subst g. destruct (F (S k) ltac:(lia)) as (_ & _ & _ & G5 & _). rewrite <- G4, G5 in Y2. lia.
    - assert (NE : forall e, In e ex -> e_stop e <> executed_at v cs k).
      { intros e I Q. assert (existsb (fun e => e_stop e =? executed_at v cs k) ex = true); [|congruence].
        apply existsb_exists. exists e. split; [exact I|]. now apply Z.eqb_eq. }
      rewrite (ex_ends_none _ _ NE) in EE. cbn in EE. injection EE as <- <-. split; [|reflexivity]. cbn [og].
      f_equal. unfold open_at, in_at. apply find_ext_in. intros e I. destruct (entry_facts TD e I) as (s & t & B & ST & F).
      destruct (F k ltac:(lia)) as (F1 & F2 & _ & F4 & F5 & _). destruct (F (S k) ltac:(lia)) as (G1 & G2 & _ & G4 & _).
      specialize (NE e I). rewrite (F5 K) in NE. apply eq_true_iff_eq.
      rewrite !andb_true_iff, Z.ltb_lt, !Z.leb_le. rewrite F1, F4, G2, G4. lia.
  Qed.

  Lemma dis_walk created o l ps cr : dis v T cb prune conserve targets created o l ps cr -> forall a h, L = a ++ l -> o = offset_of v cs (length a) ->
    exists prs, wg f h (concat ps) = concat prs /\ length prs = length l
    /\ forall j ln c, nth_error l j = Some (ln, c) -> exists body hj, nth_error prs j = Some (wg f hj body)
       /\ body_of v T cb prune ln c (offset_of v cs (length a + j)) body
       /\ (tidy v cs ex -> inv created o -> h = hl (open_at o) -> hj = hl (in_at (offset_of v cs (length a + j)))).
  Proof.
    induction 1 as [|created o ln c l tb cr1 body ends cr2 ps cr3 TB BO EE D IH]; intros a h EL EO.
    - exists []. repeat split. intros [|j] ? ? N; discriminate N.
    - assert (NC : nth_error cs (length a) = Some c).
      { unfold cs. rewrite EL, map_app, nth_error_app2; rewrite map_length; [|lia]. now rewrite Nat.sub_diag. }
      assert (KL : (length a < length cs)%nat) by (apply nth_error_Some; congruence).
      assert (PC : pos c) by (rewrite Forall_forall in P; apply P; eapply nth_error_In; eauto).
      assert (CUR : o + in_units v (c_size c - 2) = executed_at v cs (length a)) by (unfold executed_at; rewrite NC, EO; reflexivity).
      assert (ON : o + in_units v (c_size c - 2) + in_units v 2 = offset_of v cs (S (length a))).
      { rewrite (offset_of_S v cs _ c NC), EO. pose proof (cut_unit v c PC). clear - H. lia. }
      rewrite CUR in EE.
      set (h1 := og f h tb). set (h2 := og f h1 ends).
      destruct (IH (a ++ [(ln, c)]) h2) as (prs & W & LP & N).
      { rewrite EL, <- app_assoc. reflexivity. }
      { rewrite ON, app_length. cbn [length]. now rewrite Nat.add_1_r. }
      exists (wg f h1 body :: prs). split; [|split].
      + cbn [concat]. rewrite !wg_app. rewrite (only_try_wg tb (tb_only _ _ _ _ TB)), (only_try_wg ends (ends_only _ _ _ _ EE)).
        assert (LB : forall h, wg f h (if z_mem o targets then [BLabel (Z.to_nat o)] else []) = []) by (intros; destruct (z_mem o targets); reflexivity).
        assert (LO : forall h, og f h (if z_mem o targets then [BLabel (Z.to_nat o)] else []) = h) by (intros; destruct (z_mem o targets); reflexivity).
        rewrite LB, !LO. fold h1. cbn [app]. rewrite app_nil_r.
        assert (OB : forall h, og f h body = h).
        { intros h'. unfold body_of in BO. destruct (prune && String.eqb (c_name c) "CACHE"); [now destruct BO as [-> _]|destruct BO as (i & x & -> & _); reflexivity]. }
        rewrite !og_app, ?LO. fold h1. rewrite ?OB. fold h2. rewrite W. reflexivity.
      + cbn. now rewrite LP.
      + intros [|j] ln' d NJ; cbn [nth_error] in NJ |- *.
        * injection NJ as <- <-. exists body, h1. rewrite Nat.add_0_r, <- EO. split; [reflexivity|]. split; [exact BO|].
          intros TD IV ->. rewrite EO in IV, TB. unfold h1. rewrite EO. now apply (step_tb created (length a) tb cr1).
        * destruct (N j ln' d NJ) as (b' & hj & A & B & C). exists b', hj. rewrite app_length in B, C. cbn [length] in B, C.
          replace (length a + 1 + j)%nat with (length a + S j)%nat in B, C by lia. split; [exact A|]. split; [exact B|].
          intros TD IV HH. rewrite EO in IV, TB, HH. destruct (step_tb created (length a) tb cr1 TD KL IV TB) as [S1 S2].
          destruct (step_ends cr1 (length a) ends cr2 TD KL S2 EE) as [S3 ->].
          apply C; [exact TD|now rewrite ON|]. unfold h2, h1. rewrite HH, S1, S3, ON. reflexivity.
  Qed.
End Walk.
