(** The Bytecode made of a code object can be written: try blocks, labels, arguments. *)
From Verif Require Import PyBase OpTable CPy P_Base P_OpTable M_Instr M_Tables M_Concrete M_Convert M_Cfg S_Args S_Lines S_Prog S_Slots S_Asm S_Dis S_Cfg S_Ident S_Round S_Code
  P_Asm P_Except P_Round P_Conv2 P_Cat P_Args P_Decode P_CfgSeq P_Cfg P_Dis P_Dis2 P_Dis3 P_Dis4 P_Dis5 P_Jumps P_Jumps2 P_Ident P_Code P_From.
Open Scope string_scope.
Open Scope list_scope.
Open Scope Z_scope.

Section Try.
  Variables (v : pyver) (T : optable) (cb : cbytecode) (prune conserve : bool) (targets : list Z) (L : list (Z * cinstr)).
  Hypothesis wf : wf_optable v T = true.
  Notation cs := (map snd L).
  Notation ex := (cb_ex cb).
  Hypothesis P : Forall pos cs.
  Hypothesis TD : tidy v cs ex.
  (** ranges start with a kept instruction *)
  Hypothesis KEPT : forall e k c, In e ex -> e_start e = offset_of v cs k -> nth_error cs k = Some c -> kept prune c = true.

  Definition rel (st : option (nat * bool)) (o : Z) : Prop :=
    match st with
    | None => forall e, In e ex -> ~ (e_start e < o <= e_stop e)
    | Some (n, bl) => bl = true /\ exists e, nth_error ex n = Some e /\ e_start e < o <= e_stop e
    end.

  Lemma brack created o l ps cr : dis v T cb prune conserve targets created o l ps cr -> forall a st opened, L = a ++ l -> o = offset_of v cs (length a) ->
    P_Dis2.inv cb created o -> rel st o -> (forall n, In n opened -> exists e, nth_error ex n = Some e /\ e_start e < o) ->
    bracketed st (concat ps) /\ paired (option_map fst st) opened (concat ps) = true.
  Proof.
    induction 1 as [created o|created o ln c l tb cr1 body ends cr2 ps cr3 TB BO EE D IH]; intros a st opened EL EO IV RE OP.
    - split; [|reflexivity]. destruct st as [[n bl]|]; [exfalso|reflexivity]. destruct RE as (_ & e & N & B).
      rewrite app_nil_r in EL. subst a.
      destruct (entry_facts v T cb L wf P TD e (nth_error_In _ _ N)) as (s & t & X & _ & Q).
      destruct (Q (length L)) as (_ & _ & _ & Q4 & _); [rewrite map_length; apply Nat.le_refl|]. rewrite map_length in X. rewrite EO in B. lia.
    - assert (NC : nth_error cs (length a) = Some c).
      { rewrite EL, map_app, nth_error_app2; rewrite map_length; [|lia]. now rewrite Nat.sub_diag. }
      assert (KL : (length a < length cs)%nat) by (apply nth_error_Some; congruence).
      assert (PC : pos c) by (rewrite Forall_forall in P; apply P; eapply nth_error_In; eauto).
      assert (CUR : o + in_units v (c_size c - 2) = executed_at v cs (length a)) by (unfold executed_at; rewrite NC, EO; reflexivity).
      assert (ON : o + in_units v (c_size c - 2) + in_units v 2 = offset_of v cs (S (length a))).
      { rewrite (offset_of_S v cs _ c NC), EO. pose proof (cut_unit v c PC). clear - H. lia. }
      rewrite CUR in EE.
      assert (EA : L = (a ++ [(ln, c)]) ++ l) by (rewrite EL, <- app_assoc; reflexivity).
      assert (OA : o + in_units v (c_size c - 2) + in_units v 2 = offset_of v cs (length (a ++ [(ln, c)]))).
      { rewrite ON, app_length. cbn [length]. now rewrite Nat.add_1_r. }
      rewrite EO in IV, TB.
      destruct (step_tb v T cb conserve L wf P (fun _ => PTo None) created (length a) tb cr1 TD KL IV TB) as [_ S2].
      destruct (step_ends v T cb conserve L wf P (fun _ => PTo None) cr1 (length a) ends cr2 TD KL S2 EE) as [_ EC]. subst cr2.
      specialize (IH (a ++ [(ln, c)])). rewrite ON in IH, OA.
      assert (NXT : forall e, In e ex -> (e_start e < offset_of v cs (S (length a)) <-> e_start e <= o)
         /\ (offset_of v cs (S (length a)) <= e_stop e <-> (o <= e_stop e /\ e_stop e <> executed_at v cs (length a)))
         /\ (e_stop e = executed_at v cs (length a) -> e_start e <= o <= e_stop e) /\ e_start e <= e_stop e).
      { intros e I. destruct (entry_facts v T cb L wf P TD e I) as (s & t & B & LE & Q). destruct (Q (length a) ltac:(lia)) as (F1 & _ & _ & F4 & F5 & _). destruct (Q (S (length a)) ltac:(lia)) as (_ & F2 & _ & G4 & _).
        specialize (F5 KL). rewrite EO. rewrite F1, F2, F4, G4, F5. clear - B LE. repeat split; try lia; intros; apply Nat.lt_eq_cases in H || idtac; lia. }
      (* the markers *)
      assert (ENDS : (ends = [] /\ forall e, In e ex -> e_stop e <> executed_at v cs (length a))
                   \/ exists n e, ends = [BTE n] /\ nth_error ex n = Some e /\ e_stop e = executed_at v cs (length a)).
      { destruct (existsb (fun e => e_stop e =? executed_at v cs (length a)) ex) eqn:X.
        - right. apply existsb_exists in X. destruct X as (e & I & Q). apply Z.eqb_eq in Q. pose proof I as I'. apply In_nth_error in I'. destruct I' as (i & N).
          rewrite (ex_ends_one _ ex e i 0 N Q) in EE.
          2:{ intros j g J E. apply (apart_unique v T cb L wf TD (executed_at v cs (length a)) j i g e J N).
              - destruct (NXT g (nth_error_In _ _ J)) as (_ & _ & _ & X). lia.
              - destruct (NXT e I) as (_ & _ & _ & X). lia. }
          cbn [rev app Nat.add emit_ends] in EE.
          assert (MEM : nat_mem i cr1 = true). { apply nat_mem_In. rewrite (S2 i e N). destruct (NXT e I) as (X1 & _ & X3 & _). apply X1. now apply X3. }
          rewrite MEM in EE. injection EE as <-. exists i, e. auto.
        - left. assert (NE : forall e, In e ex -> e_stop e <> executed_at v cs (length a)).
          { intros e I Q. assert (existsb (fun e => e_stop e =? executed_at v cs (length a)) ex = true); [|congruence].
            apply existsb_exists. exists e. split; [exact I|]. now apply Z.eqb_eq. }
          rewrite (ex_ends_none _ _ NE) in EE. cbn in EE. injection EE as <-. auto. }
      assert (TBS : (tb = [] /\ forall e, In e ex -> e_start e <> o)
                 \/ exists n e, tb = [make_tb conserve n e] /\ nth_error ex n = Some e /\ e_start e = o).
      { unfold tb_here in TB. rewrite <- EO in TB, IV. pose proof (ex_start_spec o ex 0) as SP. destruct (ex_start_at 0 o ex) as [[n e]|].
        - destruct SP as (i & -> & N & SE). right. cbn [Nat.add] in TB.
          assert (X : nat_mem i created = false).
          { destruct (nat_mem i created) eqn:X; [|reflexivity]. apply nat_mem_In in X. rewrite (IV i e N) in X. lia. }
          rewrite X in TB. injection TB as <- _. exists i, e. auto.
        - left. injection TB as <- _. auto. }
      assert (BODY : (body = [] /\ kept prune c = false) \/ exists i, body = [BI i]).
      { unfold body_of in BO. unfold kept. destruct (prune && String.eqb (c_name c) "CACHE"); [left; tauto|right]. destruct BO as (i & x & -> & _). eauto. }
      cbn [concat]. rewrite <- !app_assoc.
      assert (LB : forall st op x, (bracketed st ((if z_mem o targets then [BLabel (Z.to_nat o)] else []) ++ x) <-> bracketed st x)
                 /\ paired (option_map fst st) op ((if z_mem o targets then [BLabel (Z.to_nat o)] else []) ++ x) = paired (option_map fst st) op x).
      { intros st' op' x. destruct (z_mem o targets); cbn; tauto. }
      rewrite (proj1 (LB _ opened _)), (proj2 (LB _ _ _)). clear LB.
      assert (REST : forall st' opened', rel st' (offset_of v cs (S (length a))) ->
         (forall n, In n opened' -> exists e, nth_error ex n = Some e /\ e_start e < offset_of v cs (S (length a))) ->
         bracketed st' (concat ps) /\ paired (option_map fst st') opened' (concat ps) = true).
      { intros st' opened' R' O'. apply IH; auto. }
      (* from the state inside to the end *)
      assert (AFTER : forall st' opened', match st' with
            | None => forall e, In e ex -> ~ (e_start e <= o <= e_stop e)
            | Some (n, bl) => bl = true /\ exists e, nth_error ex n = Some e /\ e_start e <= o <= e_stop e end ->
         (forall n, In n opened' -> exists e, nth_error ex n = Some e /\ e_start e < offset_of v cs (S (length a))) ->
         bracketed st' (ends ++ concat ps) /\ paired (option_map fst st') opened' (ends ++ concat ps) = true).
      { intros st' opened' R' O'. destruct ENDS as [[-> NE]|(n & e & -> & N & Q)].
        - apply REST; [|exact O']. destruct st' as [[n bl]|]; cbn [rel].
          + destruct R' as (-> & e & N & B). split; [reflexivity|]. exists e. split; [exact N|]. pose proof (nth_error_In _ _ N) as I.
            destruct (NXT e I) as (X1 & X2 & _). rewrite X1, X2. specialize (NE e I). tauto.
          + intros e I B. apply (R' e I). destruct (NXT e I) as (X1 & X2 & _). rewrite X1, X2 in B. tauto.
        - pose proof (nth_error_In _ _ N) as I. destruct (NXT e I) as (_ & _ & X3 & _). specialize (X3 Q). destruct st' as [[m bl]|].
          + destruct R' as (-> & g & M & B). pose proof (apart_unique v T cb L wf TD o m n g e M N B X3). subst m. assert (g = e) by congruence. subst g.
            cbn [app bracketed paired option_map fst]. rewrite Nat.eqb_refl. cbn [andb].
            destruct (REST None opened') as [R1 R2]; [|exact O'|].
            * cbn [rel]. intros g J B'. destruct (NXT g J) as (X1 & X2 & _). rewrite X1, X2 in B'.
              assert (g = e) by (apply (apart_same v T cb L wf TD o); tauto). subst g. tauto.
            * auto.
          + exfalso. exact (R' e I X3). }
      destruct TBS as [[-> NS]|(n & e & -> & N & SE)].
      + cbn [app].
        assert (R' : match st with
            | None => forall e, In e ex -> ~ (e_start e <= o <= e_stop e)
            | Some (n, bl) => bl = true /\ exists e, nth_error ex n = Some e /\ e_start e <= o <= e_stop e end).
        { destruct st as [[n bl]|]; cbn [rel] in RE.
          - destruct RE as (-> & e & N & B). split; [reflexivity|]. exists e. split; [exact N|lia].
          - intros e I B. specialize (NS e I). apply (RE e I). lia. }
        assert (O' : forall n, In n opened -> exists e, nth_error ex n = Some e /\ e_start e < offset_of v cs (S (length a))).
        { intros n I. destruct (OP n I) as (e & N & B). exists e. split; [exact N|]. destruct (NXT e (nth_error_In _ _ N)) as (X1 & _). apply X1. lia. }
        destruct (AFTER st opened R' O') as [A1 A2]. destruct BODY as [[-> _]|(i & ->)]; [auto|]. cbn [app bracketed paired].
        split; [|exact A2]. destruct st as [[n bl]|]; [|exact A1]. destruct RE as (-> & _). exact A1.
      + pose proof (nth_error_In _ _ N) as I. destruct (NXT e I) as (X1 & _ & _ & LE).
        assert (st = None).
        { destruct st as [[m bl]|]; [exfalso|reflexivity]. destruct RE as (_ & g & M & B).
          pose proof (apart_unique v T cb L wf TD o m n g e M N ltac:(lia) ltac:(lia)). subst m. assert (g = e) by congruence. subst g. lia. }
        subst st. destruct BODY as [[_ K]|(i & ->)].
        { exfalso. rewrite (KEPT e (length a) c I) in K; [discriminate|lia|exact NC]. }
        unfold make_tb. cbn [app bracketed paired option_map fst]. 
        assert (NM : nat_mem n opened = false).
        { destruct (nat_mem n opened) eqn:X; [|reflexivity]. apply nat_mem_In in X. destruct (OP n X) as (g & G & B). assert (g = e) by congruence. subst g. lia. }
        rewrite NM. cbn [negb andb].
        destruct (AFTER (Some (n, true)) (n :: opened)) as [A1 A2].
        * split; [reflexivity|]. exists e. split; [exact N|lia].
        * intros m [<-|J]; [exists e; split; [exact N|apply X1; lia]|]. destruct (OP m J) as (g & G & B). exists g. split; [exact G|].
          destruct (NXT g (nth_error_In _ _ G)) as (X1' & _). apply X1'. lia.
        * auto.
  Qed.
End Try.

Lemma dis_targets v T cb prune conserve tg created o l ps cr : dis v T cb prune conserve tg created o l ps cr ->
  forall id t la d, In (BTB id t la d) (concat ps) -> exists e, In e (cb_ex cb) /\ t = label_at (e_target e).
Proof.
  induction 1 as [|created o ln c l tb cr1 body ends cr2 ps cr3 TB BO EE D IH]; intros id t la d I; [destruct I|].
  cbn [concat] in I. rewrite !in_app_iff in I. destruct I as [[I|[I|[I|I]]]|I]; [| | | |eauto].
  - destruct (z_mem o tg); [|destruct I]. destruct I as [I|[]]; discriminate.
  - unfold tb_here in TB. pose proof (ex_start_spec o (cb_ex cb) 0) as SP. destruct (ex_start_at 0 o (cb_ex cb)) as [[n e]|].
    + destruct SP as (i & _ & N & _). destruct (nat_mem n created); injection TB as <- <-; [destruct I|]. destruct I as [I|[]]. unfold make_tb in I. injection I as _ <- _ _.
      exists e. split; [eapply nth_error_In; eauto|auto].
    + injection TB as <- <-. destruct I.
  - unfold body_of in BO. destruct (prune && String.eqb (c_name c) "CACHE"); [destruct BO as [-> _]; destruct I|]. destruct BO as (i & x & -> & _). destruct I as [I|[]]; discriminate.
  - assert (X : forall es cr0 en cr', (forall n e, In (n, e) es -> In e (cb_ex cb)) -> emit_ends conserve cr0 es = (en, cr') -> In (BTB id t la d) en ->
      exists e, In e (cb_ex cb) /\ t = label_at (e_target e)).
    { clear. induction es as [|[n e] es IH]; intros cr0 en cr' F H I; cbn [emit_ends] in H.
      - injection H as <- <-. destruct I.
      - assert (F' : forall n e, In (n, e) es -> In e (cb_ex cb)) by (intros; eapply F; right; eauto).
        destruct (nat_mem n cr0).
        + destruct (emit_ends conserve cr0 es) eqn:Q. injection H as <- <-. destruct I as [I|I]; [discriminate|eauto].
        + destruct (emit_ends conserve (n :: cr0) es) eqn:Q. injection H as <- <-. destruct I as [I|[I|I]]; [|discriminate|eauto].
          unfold make_tb in I. injection I as _ <- _ _. exists e. split; [apply (F n e); now left|auto]. }
    apply (X _ _ _ _) with (2 := EE); [|exact I]. intros n e J. apply in_rev in J. eapply ex_ends_In; eauto.
Qed.

Lemma walk_own items f : (forall i, In (BI i) items -> exists l, i_loc i = Some l) -> forall h cur n a l h', In (n, a, l, h') (S_Ident.located cur (walk f h items)) ->
  exists i, In (BI i) items /\ i_loc i = Some l.
Proof.
  induction items as [|it items IH]; intros O h cur n a l h' I; [destruct I|].
  assert (O' : forall i, In (BI i) items -> exists l, i_loc i = Some l) by (intros; apply O; now right).
  destruct it; cbn [walk S_Ident.located] in I; try (destruct (IH O' _ _ _ _ _ _ I) as (j & J & Q); exists j; split; [now right|exact Q]).
  destruct I as [I|I]; [|destruct (IH O' _ _ _ _ _ _ I) as (j & J & Q); exists j; split; [now right|exact Q]].
  destruct (O i (or_introl eq_refl)) as (l' & E). rewrite E in I. injection I as _ _ <- _. exists i. split; [now left|exact E].
Qed.

Section Writable.
  Variables (v : pyver) (T : optable).
  Hypothesis wf : wf_optable v T = true.
  Variables (cb : cbytecode) (conserve : bool) (b : bytecode).
  Notation cs := (instrs_of (cb_items cb)).
  Hypothesis OR : forall c, In c cs -> ordinary v T c.
  Hypothesis TDY : tidy v cs (cb_ex cb).
  Hypothesis STA : forall e k c, In e (cb_ex cb) -> e_start e = offset_of v cs k -> nth_error cs k = Some c -> kept true c = true.
  Hypothesis HAN : forall e, In e (cb_ex cb) -> exists k, (k < length cs)%nat /\ e_target e = offset_of v cs k.
  Hypothesis CON : forall x, In x (cb_consts cb) -> constant_object x.
  Hypothesis FRE : frees_apart v cb.
  Hypothesis DER : forall c, In c cs -> c_name c <> "CACHE" -> deref_is_cell v T cb (c_op c) (c_arg c).
  Hypothesis LO : forall c, In c cs -> exists l, c_loc c = Some l /\ coherent_loc v l.
  Hypothesis TB : to_bytecode v T cb true conserve = Ok b.

  Lemma shown_writable :
    (forall i, In (BI i) (b_items b) -> legal_instr v T i)
    /\ (forall i, In (BI i) (b_items b) -> real_member v (i_arg i))
    /\ no_cache (b_items b) /\ S_Cfg.proper T (b_items b) /\ bracketed None (b_items b)
    /\ (forall n a l h cur, In (n, a, l, h) (S_Ident.located cur (program (b_items b))) -> coherent_loc v l)
    /\ (forall i, In (BI i) (b_items b) -> exists c l, In c cs /\ c_loc c = Some l /\ i_loc i = Some l
         /\ i_name i = c_name c /\ (op_has_jump T (c_op c) = false -> decode_arg v T cb (c_op c) (c_arg c) = Ok (i_arg i))).
  Proof.
    pose proof (ordinary_plain v T wf _ OR) as PC.
    destruct (to_bytecode_dis v T wf cb true conserve b PC TB) as (tg & ps & cr & DS). destruct DS as [DI DT DD D DJ _ _ _].
    set (L := normalize_lineno (m_first_lineno (cb_meta cb)) (cb_items cb)) in *.
    assert (SN : map snd L = cs) by (apply normalize_snd).
    assert (PP : Forall pos (map snd L)) by (rewrite SN; apply (plain_pos v T _ PC)).
    assert (TD : tidy v (map snd L) (cb_ex cb)) by (rewrite SN; exact TDY).
    destruct (dis_nth v T wf cb true conserve tg [] 0 L ps cr D PP) as [LN NTH].
    assert (HERE : forall t, In t (offsets_from v 0 cs) -> In t tg -> In (BLabel (Z.to_nat t)) (concat ps)).
    { intros t I1 I2. rewrite (offsets_from_nth v T wf cs) in I1 by (rewrite <- SN; exact PP). apply in_map_iff in I1. destruct I1 as (k & <- & K). apply in_seq in K.
      rewrite <- SN, map_length in K. destruct (nth_error L k) as [[ln c]|] eqn:NK; [|apply nth_error_None in NK; lia].
      destruct (NTH k ln c NK) as (tb & body & ends & E & _). rewrite SN, Z.add_0_l in E. apply z_mem_In in I2. rewrite Z.add_0_l in I2. rewrite I2 in E.
      apply in_concat. eexists. split; [eapply nth_error_In; exact E|now left]. }
    assert (AT : forall i, In (BI i) (concat ps) -> exists k ln c x, nth_error L k = Some (ln, c) /\ nth_error cs k = Some c /\ c_name c <> "CACHE" /\ legal_instr v T i /\ i_name i = c_name c
      /\ decode_arg v T cb (c_op c) (c_arg c) = Ok x
      /\ i_arg i = match get_jump_target v T c (offset_of v cs k) with Some t => label_at t | None => x end
      /\ i_loc i = Some (match c_loc c with Some l => l | None => line_loc (Some ln) end)).
    { intros i I. apply in_concat in I. destruct I as (p & I1 & I2). apply In_nth_error in I1. destruct I1 as (k & NP).
      destruct (nth_error L k) as [[ln c]|] eqn:NK; [|apply nth_error_None in NK; apply nth_some_lt in NP; lia].
      destruct (NTH k ln c NK) as (tb & body & ends & E & BO & ME). rewrite NP in E. injection E as ->. rewrite !in_app_iff in I2.
      assert (IB : In (BI i) body).
      { destruct I2 as [I2|[I2|[I2|I2]]]; [|exfalso; apply (ME (BI i)); apply in_or_app; now left|exact I2|exfalso; apply (ME (BI i)); apply in_or_app; now right].
        destruct (z_mem _ tg); [destruct I2 as [I2|[]]; discriminate|destruct I2]. }
      unfold body_of in BO. cbn [andb] in BO. destruct (String.eqb_spec (c_name c) "CACHE") as [Q|Q]; [destruct BO as [-> _]; destruct IB|].
      destruct BO as (i' & x & -> & B1 & B2 & B3 & B4 & B5). destruct IB as [IB|[]]. injection IB as ->. rewrite SN, Z.add_0_l in B4.
      exists k, ln, c, x. repeat (split; [assumption|]). split; [rewrite <- SN, nth_error_map, NK; reflexivity|]. repeat (split; [assumption|]). exact B5. }
    rewrite DI.
    assert (OPS : forall i k c, legal_instr v T i -> i_name i = c_name c -> nth_error cs k = Some c -> i_op i = c_op c /\ ordinary v T c).
    { intros i k c (O1 & _) N NK. pose proof (OR c (nth_error_In _ _ NK)) as OC. pose proof OC as ((O2 & _) & _). split; [|exact OC]. rewrite N in O1. congruence. }
    assert (KEPT : forall e k c, In e (cb_ex cb) -> e_start e = offset_of v (map snd L) k -> nth_error (map snd L) k = Some c -> kept true c = true).
    { intros e k c I E N. rewrite SN in *. exact (STA e k c I E N). }
    assert (BP : bracketed None (concat ps) /\ paired None [] (concat ps) = true).
    { apply (brack v T cb true conserve tg L wf PP TD KEPT [] 0 L ps cr D [] None []).
      + reflexivity.
      + reflexivity.
      + intros n e N. split; [intros []|]. intros Q. exfalso. destruct (entry_facts v T cb L wf PP TD e (nth_error_In _ _ N)) as (s & t & B & _ & Q2).
        destruct (Q2 0%nat ltac:(lia)) as (_ & Q3 & _). rewrite offset_of_0 in Q3. lia.
      + intros e I Q. destruct (entry_facts v T cb L wf PP TD e I) as (s & t & B & _ & Q2).
        destruct (Q2 0%nat ltac:(lia)) as (_ & Q3 & _). rewrite offset_of_0 in Q3. lia.
      + intros n [].
    }
    destruct BP as [BR PA].
    split; [|split; [|split; [|split; [|split; [|split]]]]].
    - intros i I. destruct (AT i I) as (k & ln & c & x & _ & _ & _ & Q & _). exact Q.
    - intros i I. destruct (AT i I) as (k & ln & c & x & _ & NK & NCA & LI & N & DA & IA & _). destruct (OPS _ _ _ LI N NK) as [EO ((O & B & A & _) & _)]. rewrite IA.
      destruct (get_jump_target v T c (offset_of v cs k)) eqn:GJ; [exact Logic.I|].
      destruct (op_has_jump T (c_op c)) eqn:OJ.
      { exfalso. destruct (PC c (nth_error_In _ _ NK)) as (_ & _ & _ & QA). specialize (QA OJ). destruct (c_arg c) as [a|] eqn:CA; [|congruence].
        rewrite (jump_target_is v T wf c _ a O B CA OJ) in GJ. discriminate. }
      assert (CONST : In (c_op c) (t_hasconst T) -> real_member v x).
      { intros HC. apply z_mem_In in HC. unfold decode_arg in DA. rewrite HC in DA.
        assert (IX : In x (cb_consts cb)).
        { apply py_index_at in DA; [destruct DA as [_ DA]; eapply nth_error_In; exact DA|]. destruct (c_arg c); [clear - A; lia|lia]. }
        pose proof (CON x IX) as CX. destruct x; try exact Logic.I; destruct CX. }
      destruct (in_dec Z.eq_dec (c_op c) (t_hasconst T)) as [HC|HC]; [now apply CONST|].
      destruct (shown_reads v T cb (c_op c) (c_arg c) x (category_of v T wf _ _ O B) OJ) as [[_ Q]|[Q _]]; auto.
      + destruct (c_arg c); [|exact A]. clear - A. lia.
      + exact (DER c (nth_error_In _ _ NK) NCA).
    - intros i I. destruct (AT i I) as (k & ln & c & x & _ & _ & Q & _ & N & _). now rewrite N.
    - split; [exact PA| |].
        * intros it I. destruct it as [i| | |id t la d|]; try exact Logic.I; cbn [arg_fits].
          -- destruct (AT i I) as (k & ln & c & x & _ & NK & _ & LI & N & DA & IA & _). destruct (OPS _ _ _ LI N NK) as [EO ((O & B & A & _) & _)].
             unfold has_jump. rewrite EO. destruct (op_has_jump T (c_op c)) eqn:OJ.
             ++ destruct (PC c (nth_error_In _ _ NK)) as (_ & _ & _ & QA). specialize (QA OJ). destruct (c_arg c) as [a|] eqn:CA; [|congruence].
                rewrite (jump_target_is v T wf c _ a O B CA OJ) in IA. rewrite IA. unfold label_at. eauto.
             ++ intros n. split; [apply (legal_not_label v T i n LI); now rewrite EO|]. intros Q. destruct LI as (_ & _ & _ & DO). rewrite Q in DO.
                unfold op_has_jump in OJ. apply orb_false_iff in OJ. destruct OJ as [OJ1 OJ2]. rewrite EO in DO.
                inversion DO; subst; try congruence; try (match goal with H : forall n, _ <> OBlock n |- _ => now apply (H n) end);
                  try (match goal with H : jumps T _ |- _ => destruct H as [H|H]; apply z_mem_In in H; congruence end).
                match goal with H : as_int _ = Some _ |- _ => discriminate H end.
          -- destruct (dis_targets _ _ _ _ _ _ _ _ _ _ _ D _ _ _ _ I) as (e & _ & ->). unfold label_at. eauto.
        * intros it n I J. destruct it as [i| | |id t la d|]; cbn [target] in J; try destruct J.
          -- destruct (AT i I) as (k & ln & c & x & _ & NK & _ & LI & N & DA & IA & _). destruct (OPS _ _ _ LI N NK) as [EO ((O & B & A & _) & _)].
             destruct (get_jump_target v T c (offset_of v cs k)) as [t|] eqn:GJ.
             ++ rewrite IA in J. unfold label_at in J. destruct J as [<-|[]].
                assert (JT : In t (jump_targets_of v T 0 cs)) by (apply (jump_targets_in v T cs 0 k c t NK); now rewrite Z.add_0_l).
                apply HERE; [now apply DJ|]. rewrite DT. apply in_or_app. now left.
             ++ exfalso. destruct (op_has_jump T (c_op c)) eqn:OJ.
                ** destruct (PC c (nth_error_In _ _ NK)) as (_ & _ & _ & QA). specialize (QA OJ). destruct (c_arg c) as [a|] eqn:CA; [|congruence].
                   rewrite (jump_target_is v T wf c _ a O B CA OJ) in GJ. discriminate.
                ** destruct (i_arg i) eqn:IQ; try solve [destruct J]. eapply (legal_not_label v T i _ LI); [now rewrite EO|exact IQ].
          -- destruct (dis_targets _ _ _ _ _ _ _ _ _ _ _ D _ _ _ _ I) as (e & IE & ->). unfold label_at in J. destruct J as [<-|[]].
             apply HERE; [|rewrite DT; apply in_or_app; right; now apply in_map].
             destruct (HAN e IE) as (h & LH & E3). rewrite E3.
             rewrite (offsets_from_nth v T wf cs) by (rewrite <- SN; exact PP). apply in_map_iff. exists h. split; [lia|]. apply in_seq. lia.
    - exact BR.
    - intros n a l h cur I. unfold program in I. apply walk_own in I.
      + destruct I as (i & I & E). destruct (AT i I) as (k & ln & c & x & _ & NK & _ & _ & _ & _ & _ & IL).
        destruct (LO c (nth_error_In _ _ NK)) as (l' & EL & CL). rewrite EL in IL. congruence.
      + intros i J. destruct (AT i J) as (k & ln & c & x & _ & _ & _ & _ & _ & _ & _ & IL). eauto.
    - intros i I. destruct (AT i I) as (k & ln & c & x & _ & NK & _ & _ & N & DA & IA & IL). pose proof (nth_error_In _ _ NK) as IC.
      destruct (LO c IC) as (l & EL & _). rewrite EL in IL. exists c, l. repeat (split; [assumption|]). intros OJ.
      rewrite (no_jump_target v T c _ OJ) in IA. now rewrite IA.
  Qed.
End Writable.

Section FromWritable.
  Variables (v : pyver) (T : optable).
  Hypothesis wf : wf_optable v T = true.
  Hypothesis P11 : PY311 v = true.
  Variables (co : codeobj) (cb : cbytecode) (conserve : bool) (b : bytecode).
  Hypothesis AC : as_compiled v T co.
  Hypothesis F : from_code v T co false = Ok cb.
  Hypothesis TB : to_bytecode v T cb true conserve = Ok b.
  Notation cs := (instrs_of (cb_items cb)).

  Lemma from_code_writable :
    (forall i, In (BI i) (b_items b) -> legal_instr v T i)
    /\ (forall i, In (BI i) (b_items b) -> real_member v (i_arg i))
    /\ no_cache (b_items b) /\ S_Cfg.proper T (b_items b) /\ bracketed None (b_items b)
    /\ (forall n a l h cur, In (n, a, l, h) (S_Ident.located cur (program (b_items b))) -> coherent_loc v l)
    /\ (forall i, In (BI i) (b_items b) -> exists c l, In c cs /\ c_loc c = Some l /\ i_loc i = Some l
         /\ i_name i = c_name c /\ (op_has_jump T (c_op c) = false -> decode_arg v T cb (c_op c) (c_arg c) = Ok (i_arg i))).
  Proof.
    destruct (grouped v T wf P11 co cb AC F) as (gs & GS & GR).
    destruct (from_facts v T wf P11 co cb AC F) as (OI & OK & CO & FC & FN & FV & FCE & FFR & FL & EX & LO).
    assert (PP : Forall pos cs) by exact (poss v T wf P11 co cb AC F).
    apply (shown_writable v T wf cb conserve b (from_code_ordinary v T wf co cb F) (is_tidy v T wf P11 co cb AC F gs GS GR)).
    - intros e k c I E N. destruct (entry_at v T wf P11 co cb AC F gs GS GR e I) as (p & q & h & PQ & _ & E1 & _).
      destruct (nth_error gs p) as [g|] eqn:G; [|apply nth_error_None in G; lia].
      pose proof GR as GR'. rewrite Forall_forall in GR'. destruct (GR' g (nth_error_In _ _ G)) as (c0 & ks & -> & _ & NC & _).
      pose proof (head_at cb gs GS p c0 ks G) as H0.
      assert (k = start gs p).
      { apply (offset_inj v T wf cs); [exact PP|apply nth_some_lt in N; lia|apply nth_some_lt in H0; lia|congruence]. }
      subst k. rewrite H0 in N. injection N as <-. unfold kept. cbn. now rewrite (proj2 (String.eqb_neq _ _) NC).
    - intros e IE. destruct (entry_at v T wf P11 co cb AC F gs GS GR e IE) as (p & q & h & _ & LH & _ & _ & E3).
      exists (start gs h). split; [|exact E3]. destruct (nth_error gs h) as [g|] eqn:G; [|apply nth_error_None in G; lia].
      rewrite Forall_forall in GR. destruct (GR g (nth_error_In _ _ G)) as (c0 & ks & -> & _).
      exact (nth_some_lt _ _ _ (head_at cb gs GS h c0 ks G)).
    - rewrite FC. exact (ac_consts _ _ _ AC).
    - intros _ y I1. rewrite FFR in I1. rewrite FV. exact (ac_free _ _ _ AC y I1).
    - intros c IC NCA _ HF a0 n0 EA AA. rewrite FV in AA. rewrite FCE.
      assert (IG : exists p j ks c0, nth_error gs p = Some (c0 :: ks) /\ nth_error (c0 :: ks) j = Some c).
      { apply In_nth_error in IC. destruct IC as (k & NK). rewrite GS in NK. destruct (concat_inv gs k c NK) as (p & g & j & G & J & _). rewrite Forall_forall in GR.
        destruct (GR g (nth_error_In _ _ G)) as (c0 & ks & -> & _). eauto 8. }
      destruct IG as (p & j & ks & c0 & G & J).
      assert (c = c0).
      { destruct j as [|j]; cbn in J; [congruence|]. exfalso. rewrite Forall_forall in GR. destruct (GR _ (nth_error_In _ _ G)) as (c1 & ks1 & Q & _ & _ & _ & FK).
        injection Q as <- <-. rewrite Forall_forall in FK. destruct (FK c (nth_error_In _ _ J)) as (Q & _). contradiction. }
      subst c0. pose proof (ran_at v T wf P11 co cb AC F gs GS GR p c ks G) as RA. apply nth_error_In in RA.
      exact (ac_deref _ _ _ AC _ a0 n0 RA HF EA AA).
    - exact LO.
    - exact TB.
  Qed.
End FromWritable.
