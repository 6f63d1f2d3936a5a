(** The stack depths of the handlers shown by the disassembler (C73). *)
From Verif Require Import PyBase OpTable P_Base P_OpTable M_Instr M_Tables M_Concrete S_Args S_Lines S_Asm S_Prog S_Dis S_Code
  M_Bytecode M_Cfg S_Cfg P_Cfg P_CfgSeq P_CfgTo2 P_Instr P_Instr2 P_Jumps P_Jumps2 P_AsmProps P_Dis P_Dis2 P_Dis3 P_Dis4 P_Code2.
Open Scope string_scope.
Open Scope list_scope.
Open Scope Z_scope.

Lemma td_app l1 l2 : forall c, try_depths c (l1 ++ l2) = try_depths c l1 ++ try_depths (dst c l1) l2.
Proof. induction l1 as [|x l1 IH]; intros c; [reflexivity|]. destruct x; cbn; rewrite ?IH; reflexivity. Qed.
Lemma only_try_td l : (forall it, In it l -> match it with BTB _ _ _ _ | BTE _ => True | _ => False end) -> forall c, try_depths c l = [].
Proof.
  induction l as [|x l IH]; intros H h; [reflexivity|]. assert (X := H x (or_introl eq_refl)).
  assert (Y : forall h, try_depths h l = []) by (apply IH; intros; apply H; now right). destruct x; try destruct X; cbn; apply Y.
Qed.

Section Walk.
  Variables (v : pyver) (T : optable) (cb : cbytecode) (prune conserve : bool) (targets : list Z) (L : list (Z * cinstr)).
  Hypothesis wf : wf_optable v T = true.
  Notation cs := (map snd L).
  Notation ex := (cb_ex cb).
  Hypothesis P : Forall pos cs.

  Definition hd (e : option exentry) : option (option Z) := option_map (fun e => if conserve then Some (e_depth e) else None) e.

  (** one step of the handler state *)
  Lemma step_tb_d created k tb cr1 : tidy v cs ex -> (k < length cs)%nat -> inv cb created (offset_of v cs k) ->
    tb_here cb conserve created (offset_of v cs k) = (tb, cr1) ->
    dst (hd (open_at cb (offset_of v cs k))) tb = hd (in_at cb (offset_of v cs k))
    /\ inv cb cr1 (offset_of v cs (S k)).
  Proof.
    intros TD K IV TB. set (o := offset_of v cs k) in *.
    assert (NXT : forall e, In e ex -> (e_start e < offset_of v cs (S k) <-> e_start e <= o)).
    { intros e I. destruct (entry_facts v T cb L wf P TD e I) as (s & t & B & _ & F). destruct (F k ltac:(lia)) as (F1 & _). destruct (F (S k) ltac:(lia)) as (_ & F2 & _).
      unfold o. rewrite F1, F2. lia. }
    unfold tb_here in TB. pose proof (ex_start_spec o (cb_ex cb) 0) as SP. 
    destruct (ex_start_at 0 o ex) as [[n e]|].
    - destruct SP as (i & -> & N & SE). cbn [Nat.add] in TB. assert (I : In e ex) by (eapply nth_error_In; eauto).
      assert (NC : nat_mem i created = false).
      { destruct (nat_mem i created) eqn:X; [|reflexivity]. apply nat_mem_In in X. rewrite (IV i e N) in X. lia. }
      rewrite NC in TB. injection TB as <- <-. split.
      + cbn. symmetry. unfold in_at. destruct (entry_facts v T cb L wf P TD e I) as (s & t & B & ST & _).
        rewrite (find_unique _ _ e I); [reflexivity| |].
        * rewrite andb_true_iff, !Z.leb_le. lia.
        * intros g J Y. rewrite andb_true_iff, !Z.leb_le in Y. symmetry. apply (apart_same v T cb L wf TD o); auto. lia.
      + intros m g M. rewrite NXT by (eapply nth_error_In; eauto). cbn [In]. rewrite (IV m g M). split.
        * intros [->|X]; [|lia]. assert (g = e) by congruence. subst g. lia.
        * intros X. destruct (Z.eq_dec (e_start g) o) as [Y|Y]; [left|right; lia].
          apply (apart_unique v T cb L wf TD o i m e g N M); [|].
          -- destruct (entry_facts v T cb L wf P TD e I) as (s & t & B & ST & _). lia.
          -- destruct (entry_facts v T cb L wf P TD g ltac:(eapply nth_error_In; eauto)) as (s & t & B & ST & _). lia.
    - injection TB as <- <-. split.
      + cbn. f_equal. unfold open_at, in_at. apply find_ext_in. intros e I. specialize (SP e I). apply eq_true_iff_eq.
        rewrite !andb_true_iff, Z.ltb_lt, !Z.leb_le. lia.
      + intros m g M. assert (J : In g ex) by (eapply nth_error_In; eauto). rewrite NXT by exact J. rewrite (IV m g M). specialize (SP g J). lia.
  Qed.
  Lemma step_ends_d cr1 k ends cr2 : tidy v cs ex -> (k < length cs)%nat -> inv cb cr1 (offset_of v cs (S k)) ->
    emit_ends conserve cr1 (rev (ex_ends_at 0 (executed_at v cs k) (cb_ex cb))) = (ends, cr2) ->
    dst (hd (in_at cb (offset_of v cs k))) ends = hd (open_at cb (offset_of v cs (S k))) /\ cr2 = cr1.
  Proof.
    intros TD K IV EE. 
    destruct (existsb (fun e => e_stop e =? executed_at v cs k) ex) eqn:X.
    - apply existsb_exists in X. destruct X as (e & I & Q). apply Z.eqb_eq in Q. pose proof I as I'. apply In_nth_error in I'. destruct I' as (i & N).
      destruct (entry_facts v T cb L wf P TD e I) as (s & t & B & ST & F). destruct (F k ltac:(lia)) as (F1 & F2 & _ & F4 & F5 & F6). destruct (F6 K) as [F7 F8].
      assert (t = k) by (now apply F5). subst t.
      rewrite (ex_ends_one _ ex e i 0 N Q) in EE.
      2:{ intros j g J E. apply (apart_unique v T cb L wf TD (executed_at v cs k) j i g e J N).
          - destruct (entry_facts v T cb L wf P TD g ltac:(eapply nth_error_In; eauto)) as (s' & t' & B' & ST' & F'). lia.
          - lia. }
      cbn [rev app Nat.add emit_ends] in EE.
      assert (MEM : nat_mem i cr1 = true). { apply nat_mem_In. rewrite (IV i e N). destruct (F (S k) ltac:(lia)) as (_ & G & _). rewrite G. lia. }
      rewrite MEM in EE. injection EE as <- <-. split; [|reflexivity]. cbn. unfold open_at. rewrite find_all_false; [reflexivity|].
      intros g J. apply not_true_iff_false. rewrite andb_true_iff, Z.ltb_lt, Z.leb_le. intros [Y1 Y2].
      destruct (entry_facts v T cb L wf P TD g J) as (s' & t' & B' & ST' & F').
      destruct (F' (S k) ltac:(lia)) as (G1 & G2 & _ & G4 & _). destruct (F' k ltac:(lia)) as (H1 & H2 & _ & H4 & _).
      rewrite G2 in Y1. rewrite G4 in Y2.
      assert (e = g). { apply (apart_same v T cb L wf TD (offset_of v cs k)); auto; split.
        - apply F1. lia. - apply F4. lia. - apply H1. lia. - apply H4. lia. }
      subst g. destruct (F (S k) ltac:(lia)) as (_ & _ & _ & G5 & _). rewrite <- G4, G5 in Y2. lia.
    - assert (NE : forall e, In e ex -> e_stop e <> executed_at v cs k).
      { intros e I Q. assert (existsb (fun e => e_stop e =? executed_at v cs k) ex = true); [|congruence].
        apply existsb_exists. exists e. split; [exact I|]. now apply Z.eqb_eq. }
      rewrite (ex_ends_none _ _ NE) in EE. cbn in EE. injection EE as <- <-. split; [|reflexivity]. cbn [dst].
      f_equal. unfold open_at, in_at. apply find_ext_in. intros e I. destruct (entry_facts v T cb L wf P TD e I) as (s & t & B & ST & F).
      destruct (F k ltac:(lia)) as (F1 & F2 & _ & F4 & F5 & _). destruct (F (S k) ltac:(lia)) as (G1 & G2 & _ & G4 & _).
      specialize (NE e I). rewrite (F5 K) in NE. apply eq_true_iff_eq.
      rewrite !andb_true_iff, Z.ltb_lt, !Z.leb_le. rewrite F1, F4, G2, G4. lia.
  Qed.

  Lemma dis_walk_d created o l ps cr : dis v T cb prune conserve targets created o l ps cr -> forall a h, L = a ++ l -> o = offset_of v cs (length a) ->
    exists prs, try_depths h (concat ps) = concat prs /\ length prs = length l
    /\ forall j ln c, nth_error l j = Some (ln, c) -> exists body hj, nth_error prs j = Some (try_depths hj body)
       /\ body_of v T cb prune ln c (offset_of v cs (length a + j)) body
       /\ (tidy v cs ex -> inv cb created o -> h = hd (open_at cb o) -> hj = hd (in_at cb (offset_of v cs (length a + j)))).
  Proof.
    induction 1 as [|created o ln c l tb cr1 body ends cr2 ps cr3 TB BO EE D IH]; intros a h EL EO.
    - exists []. repeat split. intros [|j] ? ? N; discriminate N.
    - assert (NC : nth_error cs (length a) = Some c).
      { rewrite EL, map_app, nth_error_app2; rewrite map_length; [|lia]. now rewrite Nat.sub_diag. }
      assert (KL : (length a < length cs)%nat) by (apply nth_error_Some; congruence).
      assert (PC : pos c) by (rewrite Forall_forall in P; apply P; eapply nth_error_In; eauto).
      assert (CUR : o + in_units v (c_size c - 2) = executed_at v cs (length a)) by (unfold executed_at; rewrite NC, EO; reflexivity).
      assert (ON : o + in_units v (c_size c - 2) + in_units v 2 = offset_of v cs (S (length a))).
      { rewrite (offset_of_S v cs _ c NC), EO. pose proof (cut_unit v c PC). clear - H. lia. }
      rewrite CUR in EE.
      set (h1 := dst h tb). set (h2 := dst h1 ends).
      destruct (IH (a ++ [(ln, c)]) h2) as (prs & W & LP & N).
      { rewrite EL, <- app_assoc. reflexivity. }
      { rewrite ON, app_length. cbn [length]. now rewrite Nat.add_1_r. }
      exists (try_depths h1 body :: prs). split; [|split].
      + cbn [concat]. rewrite !td_app. rewrite (only_try_td tb (tb_only cb conserve _ _ _ _ TB)), (only_try_td ends (ends_only conserve _ _ _ _ EE)).
        assert (LB : forall h, try_depths h (if z_mem o targets then [BLabel (Z.to_nat o)] else []) = []) by (intros; destruct (z_mem o targets); reflexivity).
        assert (LO : forall h, dst h (if z_mem o targets then [BLabel (Z.to_nat o)] else []) = h) by (intros; destruct (z_mem o targets); reflexivity).
        rewrite LB, !LO. fold h1. cbn [app]. rewrite app_nil_r.
        assert (OB : forall h, dst h body = h).
        { intros h'. unfold body_of in BO. destruct (prune && String.eqb (c_name c) "CACHE"); [now destruct BO as [-> _]|destruct BO as (i & x & -> & _); reflexivity]. }
        rewrite !dst_app, ?LO. fold h1. rewrite ?OB. fold h2. rewrite W. reflexivity.
      + cbn. now rewrite LP.
      + intros [|j] ln' d NJ; cbn [nth_error] in NJ |- *.
        * injection NJ as <- <-. exists body, h1. rewrite Nat.add_0_r, <- EO. split; [reflexivity|]. split; [exact BO|].
          intros TD IV ->. rewrite EO in IV, TB. unfold h1. rewrite EO. now apply (step_tb_d created (length a) tb cr1).
        * destruct (N j ln' d NJ) as (b' & hj & A & B & C). exists b', hj. rewrite app_length in B, C. cbn [length] in B, C.
          replace (length a + 1 + j)%nat with (length a + S j)%nat in B, C by lia. split; [exact A|]. split; [exact B|].
          intros TD IV HH. rewrite EO in IV, TB, HH. destruct (step_tb_d created (length a) tb cr1 TD KL IV TB) as [S1 S2].
          destruct (step_ends_d cr1 (length a) ends cr2 TD KL S2 EE) as [S3 ->].
          apply C; [exact TD|now rewrite ON|]. unfold h2, h1. rewrite HH, S1, S3, ON. reflexivity.
  Qed.
End Walk.

Section Main.
  Variables (v : pyver) (T : optable).
  Hypothesis wf : wf_optable v T = true.

  Theorem to_bytecode_depths cb prune conserve b : plain_code v T (cb_items cb) -> to_bytecode v T cb prune conserve = Ok b ->
    let cs := instrs_of (cb_items cb) in tidy v cs (cb_ex cb) ->
    length (try_depths None (b_items b)) = kept_before prune cs (length cs)
    /\ forall k c, nth_error cs k = Some c -> kept prune c = true ->
       nth_error (try_depths None (b_items b)) (kept_before prune cs k) = Some (hd conserve (covering v cs (cb_ex cb) k)).
  Proof.
    intros PC H cs0 TD. destruct (to_bytecode_dis v T wf cb prune conserve b PC H) as (targets & ps & cr & DS).
    destruct DS as [DI DT DD D DJ DH DM DA]. set (L := normalize_lineno (m_first_lineno (cb_meta cb)) (cb_items cb)) in *.
    assert (SN : map snd L = instrs_of (cb_items cb)) by (apply normalize_snd).
    assert (P : Forall pos (map snd L)) by (rewrite SN; apply (plain_pos v T _ PC)).
    unfold cs0 in *. rewrite <- SN in *. set (cs := map snd L) in *.
    assert (LL : length L = length cs) by (unfold cs; now rewrite map_length).
    destruct (dis_walk_d v T cb prune conserve targets L wf P _ _ _ _ _ D [] None eq_refl) as (prs & W & LP & N).
    { symmetry. apply offset_of_0. }
    assert (LEN : forall k c pr, nth_error cs k = Some c -> nth_error prs k = Some pr -> length pr = if kept prune c then 1%nat else 0%nat).
    { intros k c pr NC NP. unfold cs in NC. rewrite nth_error_map in NC. destruct (nth_error L k) as [[ln d]|] eqn:NL; [|discriminate]. injection NC as ->.
      destruct (N k ln c NL) as (body & hj & E & BO & _). assert (pr = try_depths hj body) by congruence. subst pr. unfold body_of in BO. unfold kept.
      destruct (prune && String.eqb (c_name c) "CACHE"); [now destruct BO as [-> _]|]. destruct BO as (i & x & -> & _). reflexivity. }
    destruct (concat_units prs prune cs) as [C1 C2]; [rewrite LP; exact LL|exact LEN|].
    rewrite DI, W. split; [exact C1|].
    intros k c NC KP. assert (NL : exists ln, nth_error L k = Some (ln, c)).
    { unfold cs in NC. rewrite nth_error_map in NC. destruct (nth_error L k) as [[ln d]|]; [|discriminate]. injection NC as ->. eauto. }
    destruct NL as (ln & NL). destruct (N k _ c NL) as (body & hj & NP & BO & HJ). cbn [length Nat.add] in BO, HJ.
    assert (KL : (k < length cs)%nat) by (apply nth_error_Some; congruence).
    unfold body_of in BO. unfold kept in KP. destruct (prune && String.eqb (c_name c) "CACHE"); [discriminate KP|].
    fold cs in HJ. destruct BO as (i & x & -> & _). cbn [try_depths] in NP.
    rewrite <- C2, (nth_split_concat prs k _ NP). rewrite nth_error_app2, Nat.sub_diag by lia. cbn [app nth_error]. f_equal.
    assert (IV0 : inv cb [] 0).
    { intros n e NE. split; [intros []|]. intros S0. destruct TD as [TD _]. destruct (TD e (nth_error_In _ _ NE)) as (s & t & B & ES & _).
      rewrite ES in S0. pose proof (off_nonneg v cs s P). lia. }
    assert (OPEN0 : open_at cb 0 = None).
    { unfold open_at. apply find_all_false. intros e I. apply not_true_iff_false. rewrite andb_true_iff, Z.ltb_lt. intros [S0 _].
      apply In_nth_error in I. destruct I as (n & NE). now apply (IV0 n e NE) in S0. }
    replace (covering v cs (cb_ex cb) k) with (in_at cb (offset_of v cs k)) by (symmetry; exact (covering_in v T cb L wf P k TD KL)).
    apply HJ; [exact TD|exact IV0|now rewrite OPEN0].
  Qed.
End Main.
