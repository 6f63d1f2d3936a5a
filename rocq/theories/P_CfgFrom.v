(** The graph built by from_bytecode: the sequence of its elements. *)
From Verif Require Import PyBase OpTable P_Base M_Instr M_Concrete M_Bytecode M_Cfg S_Prog S_Cfg P_Cfg P_CfgSeq.
Open Scope list_scope.
Open Scope Z_scope.

(** ** The first pass *)
Fixpoint lastidx (p : bitem -> bool) (l : list bitem) : option nat :=
  match l with
  | [] => None
  | x :: r => match lastidx p r with Some j => Some (S j) | None => if p x then Some 0%nat else None end
  end.
Definition is_lab (n : nat) (x : bitem) : bool := match x with BLabel m => Nat.eqb n m | _ => false end.
Definition is_end (n : nat) (x : bitem) : bool := match x with BTE m => Nat.eqb n m | _ => false end.

Lemma lastidx_some p l i : lastidx p l = Some i -> exists x, nth_error l i = Some x /\ p x = true.
Proof.
  revert i. induction l as [|x r IH]; intros i E; [discriminate|]. cbn in E.
  destruct (lastidx p r) as [j|]; [injection E as <-; now apply IH|].
  destruct (p x) eqn:P; [|discriminate]. injection E as <-. exists x. auto.
Qed.
Lemma lastidx_none p l x : In x l -> p x = true -> lastidx p l <> None.
Proof.
  induction l as [|y r IH]; intros J P; [contradiction|]. cbn. destruct J as [->|J].
  - rewrite P. destruct (lastidx p r); discriminate.
  - specialize (IH J P). destruct (lastidx p r); congruence.
Qed.
Lemma lastidx_lab l n i : lastidx (is_lab n) l = Some i -> nth_error l i = Some (BLabel n).
Proof.
  intros E. apply lastidx_some in E. destruct E as (x & H & P). destruct x; try discriminate.
  apply Nat.eqb_eq in P. subst. exact H.
Qed.
Lemma lastidx_end l n i : lastidx (is_end n) l = Some i -> nth_error l i = Some (BTE n).
Proof.
  intros E. apply lastidx_some in E. destruct E as (x & H & P). destruct x; try discriminate.
  apply Nat.eqb_eq in P. subst. exact H.
Qed.

Lemma position_last l n : position l n = option_map (fun i => ninstrs (firstn i l)) (lastidx (is_lab n) l).
Proof.
  induction l as [|x r IH]; [reflexivity|]. cbn [position lastidx]. rewrite IH.
  destruct (lastidx (is_lab n) r) as [j|]; cbn [option_map firstn].
  - f_equal. change (x :: firstn j r) with ([x] ++ firstn j r). now rewrite ninstrs_app.
  - destruct x as [|m| | |]; cbn; try reflexivity. now destruct (Nat.eqb n m).
Qed.

Lemma pass1_ok T l : (forall it, In it l -> arg_fits T it) -> forall index P,
  exists P', from_pass1 index P l = Ok P'
    /\ p_jumps P' = p_jumps P ++ flat_map target l
    /\ (forall n, dget Nat.eqb (p_labels P') n = match lastidx (is_lab n) l with Some j => Some (index + j)%nat | None => dget Nat.eqb (p_labels P) n end)
    /\ (forall n, dget Nat.eqb (p_ends P') n = match lastidx (is_end n) l with Some j => Some (index + j)%nat | None => dget Nat.eqb (p_ends P) n end).
Proof.
  induction l as [|x r IH]; intros F index P.
  { exists P. cbn. rewrite app_nil_r. auto. }
  assert (F' : forall it, In it r -> arg_fits T it) by (intros; apply F; now right).
  assert (G : forall P0, (forall n, lastidx (is_lab n) r = None -> dget Nat.eqb (p_labels P0) n = if is_lab n x then Some index else dget Nat.eqb (p_labels P) n) ->
    (forall n, lastidx (is_end n) r = None -> dget Nat.eqb (p_ends P0) n = if is_end n x then Some index else dget Nat.eqb (p_ends P) n) ->
    p_jumps P0 = p_jumps P ++ target x ->
    exists P', from_pass1 (S index) P0 r = Ok P'
    /\ p_jumps P' = p_jumps P ++ flat_map target (x :: r)
    /\ (forall n, dget Nat.eqb (p_labels P') n = match lastidx (is_lab n) (x :: r) with Some j => Some (index + j)%nat | None => dget Nat.eqb (p_labels P) n end)
    /\ (forall n, dget Nat.eqb (p_ends P') n = match lastidx (is_end n) (x :: r) with Some j => Some (index + j)%nat | None => dget Nat.eqb (p_ends P) n end)).
  { intros P0 H1 H2 H3. destruct (IH F' (S index) P0) as (P' & E & J & L & N). exists P'. split; [exact E|].
    split; [rewrite J, H3, <- app_assoc; reflexivity|]. split; intros n.
    - rewrite L. cbn [lastidx]. destruct (lastidx (is_lab n) r) as [j|] eqn:Q; [f_equal; lia|].
      rewrite H1 by exact Q. destruct (is_lab n x); [f_equal; lia|reflexivity].
    - rewrite N. cbn [lastidx]. destruct (lastidx (is_end n) r) as [j|] eqn:Q; [f_equal; lia|].
      rewrite H2 by exact Q. destruct (is_end n x); [f_equal; lia|reflexivity]. }
  assert (FX := F x (or_introl eq_refl)).
  destruct x as [i|n|z|id t la d|id]; cbn [from_pass1 arg_fits target] in *.
  - assert (K : exists P0, (match i_arg i with OLabel n => from_pass1 (S index) (mkP1 (p_labels P) (p_jumps P ++ [n]) (p_ends P)) r
                 | _ => from_pass1 (S index) P r end) = from_pass1 (S index) P0 r /\ p_labels P0 = p_labels P /\ p_ends P0 = p_ends P
                 /\ p_jumps P0 = p_jumps P ++ match i_arg i with OLabel n => [n] | _ => [] end).
    { destruct (i_arg i); try (exists P; rewrite app_nil_r; auto; fail). eexists. split; [reflexivity|]. auto. }
    destruct K as (P0 & -> & L0 & E0 & J0). apply G; [| |exact J0]; intros; now rewrite ?L0, ?E0.
  - apply G; cbn; [| |now rewrite app_nil_r]; intros m _; [|reflexivity]. rewrite dg_set. reflexivity.
  - apply G; cbn; [| |now rewrite app_nil_r]; reflexivity.
  - destruct FX as (n & ->). apply G; cbn; reflexivity.
  - apply G; cbn; [| |now rewrite app_nil_r]; intros m _; [reflexivity|]. rewrite dg_set. reflexivity.
Qed.

Lemma starts_ok labels jumps : (forall n, In n jumps -> dget Nat.eqb labels n <> None) ->
  (forall n m i, dget Nat.eqb labels n = Some i -> dget Nat.eqb labels m = Some i -> n = m) ->
  exists starts, block_starts labels jumps = Ok starts
    /\ forall i n, dget Nat.eqb starts i = Some n <-> In n jumps /\ dget Nat.eqb labels n = Some i.
Proof.
  intros H INJ. unfold block_starts.
  assert (G : forall jumps' d jumps0, jumps = jumps0 ++ jumps' ->
    (forall i n, dget Nat.eqb d i = Some n <-> In n jumps0 /\ dget Nat.eqb labels n = Some i) ->
    exists starts, foldM (fun d n => i <- of_option KeyError (dget Nat.eqb labels n) ;; Ok (dset Nat.eqb d i n)) jumps' d = Ok starts
    /\ forall i n, dget Nat.eqb starts i = Some n <-> In n jumps /\ dget Nat.eqb labels n = Some i).
  { induction jumps' as [|n r IH]; intros d jumps0 E D.
    - exists d. rewrite app_nil_r in E. subst. auto.
    - assert (HN : dget Nat.eqb labels n <> None) by (apply H; rewrite E; apply in_app_iff; right; now left).
      cbn [foldM]. destruct (dget Nat.eqb labels n) as [i|] eqn:L; [|congruence]. cbn [of_option bind].
      destruct (IH (dset Nat.eqb d i n) (jumps0 ++ [n])) as (st & E2 & S2).
      + rewrite <- app_assoc. exact E.
      + intros j m. rewrite dg_set, in_app_iff. cbn. destruct (Nat.eqb j i) eqn:Q.
        * apply Nat.eqb_eq in Q. subst j. split.
          -- intros X. injection X as <-. auto.
          -- intros [_ X]. f_equal. eapply INJ; eassumption.
        * apply Nat.eqb_neq in Q. rewrite D. split; [tauto|]. intros [[J|[<-|[]]] X]; [auto|congruence].
      + exists st. split; [exact E2|exact S2]. }
  apply (G jumps [] []); [reflexivity|]. intros i n. cbn. split; [discriminate|intros [[] _]].
Qed.

(** ** The main loop, seen as a sequence *)
(** state of the bracketing of the list and of the sequence built *)
Definition brel (f : pyobj -> nat) (active : option (nat * pyobj * bool)) (st : option (nat * bool)) (u : tst) : Prop :=
  match st, u with
  | None, TC _ => True
  | Some (_, fl), TO h ok => (fl = true -> ok = true) /\ exists a t la, active = Some (a, t, la) /\ h = (f t, la)
  | _, _ => False
  end.
Section Loop.
  Context (T : optable) (P : pass1) (l : list bitem).

  Record seqinv (F pre : list bitem) (tbs : list (nat * list nat)) (fresh : nat)
    (add : list (nat * list nat)) (active : option (nat * pyobj * bool)) : Prop := {
    v_walk : forall f, wg f None F = wg f None pre;
    v_open : forall f, og f None F = match active with Some (_, t, la) => Some (f t, la) | None => None end;
    v_openp : forall f, og f None pre = match active with Some (_, t, la) => Some (f t, la) | None => None end;
    v_pair : paired None [] F = true;
    v_ins : filter is_instr F = filter is_instr pre;
    v_cur : match active with
            | None => fst (pst None [] F) = None
            | Some (a, _, _) => exists ks k, dget Nat.eqb tbs a = Some (ks ++ [k]) /\ fst (pst None [] F) = Some k
            end;
    v_fresh : forall n, In n (snd (pst None [] F)) -> (n < fresh)%nat;
    v_act : fst (pst None [] pre) = option_map (fun x => fst (fst x)) active;
    v_act2 : forall a t la, active = Some (a, t, la) -> exists d, In (BTB a t la d) pre;
    v_keys : forall a, dget Nat.eqb tbs a <> None -> In a (snd (pst None [] pre));
    v_known : forall id t la d, In (BTB id t la d) F -> In id (flat_map snd tbs);
    v_fits : forall x, In x F -> arg_fits T x;
    v_targets : forall x n, In x F -> In n (target x) -> exists y, In y pre /\ In n (target y);
    v_depth : forall id t la d, In (BTB id t la d) F -> exists id' d', In (BTB id' t la d') pre /\ (d = None \/ d = d');
    v_adds : NoDup (map fst add);
    v_br : forall f st, brs None pre = Some st -> exists u, trun f (TC None) F = Some u /\ brel f active st u;
    v_nolab : forall n, ~ In (BLabel n) F;
    v_addk : forall lab ks, dget Nat.eqb add lab = Some ks -> ks <> [];
    v_add : forall lab ks k, dget Nat.eqb add lab = Some ks -> In k ks ->
      exists a e i, (exists y, In y l /\ In lab (target y)) /\ dget Nat.eqb (p_ends P) a = Some e /\ dget Nat.eqb (p_labels P) lab = Some i /\ (e <= i)%nat
        /\ (exists a1 t la d b1, F = a1 ++ BTB k t la d :: b1 /\ (ninstrs a1 < ninstrs (firstn e l))%nat)
        /\ ((exists a2 b2, F = a2 ++ BTE k :: b2 /\ (ninstrs a2 <= ninstrs (firstn e l))%nat)
            \/ (fst (pst None [] F) = Some k /\ exists t la, active = Some (a, t, la))) }.

  Hypothesis PR : proper T l.
  Hypothesis PL : forall n, dget Nat.eqb (p_labels P) n = lastidx (is_lab n) l.
  Hypothesis PE : forall n, dget Nat.eqb (p_ends P) n = lastidx (is_end n) l.

  Lemma ninstrs_filter (a b : list bitem) : filter is_instr a = filter is_instr b -> ninstrs a = ninstrs b.
  Proof. unfold ninstrs. now intros ->. Qed.

  (** While a try block is open its TryEnd is still to come. *)
  Lemma end_later pre rest a e : l = pre ++ rest -> fst (pst None [] pre) = Some a ->
    dget Nat.eqb (p_ends P) a = Some e -> (length pre <= e)%nat.
  Proof.
    intros E O H. rewrite PE in H. apply lastidx_end in H.
    destruct (Nat.leb (length pre) e) eqn:L; [now apply Nat.leb_le|]. apply Nat.leb_gt in L. exfalso.
    assert (PP := proper_try _ _ PR). rewrite E, paired_app in PP. apply andb_true_iff in PP. destruct PP as [PP _].
    rewrite E, nth_error_app1 in H by exact L.
    apply nth_error_split in H. destruct H as (p & q & -> & _).
    rewrite paired_app in PP. apply andb_true_iff in PP. destruct PP as [_ PP].
    rewrite pst_app in O. cbn [paired pst] in PP, O. apply andb_true_iff in PP. destruct PP as [PO PP].
    destruct (fst (pst None [] p)) as [a'|] eqn:OP; [|discriminate]. apply Nat.eqb_eq in PO. subst a'.
    assert (J : In a (snd (pst None [] p))) by (apply pst_open_in; [discriminate|exact OP]).
    apply (paired_closed _ None _ a J) in PP; [|discriminate]. now destruct PP.
  Qed.

  Lemma ninstrs_prefix (p q : list bitem) e : l = p ++ q -> (length p <= e)%nat -> (ninstrs p <= ninstrs (firstn e l))%nat.
  Proof.
    intros -> L. rewrite firstn_app, firstn_all2, ninstrs_app by exact L. lia.
  Qed.

  Section Step.
    Context (F pre : list bitem) (tbs : list (nat * list nat)) (fresh : nat)
      (add : list (nat * list nat)) (active : option (nat * pyobj * bool)).
    Context (rest : list bitem).

    (** what happens to the entries of [add] when the sequence is extended *)
    Lemma add_ext new active' : seqinv F pre tbs fresh add active ->
      (forall k a t la e, fst (pst None [] F) = Some k -> active = Some (a, t, la) -> dget Nat.eqb (p_ends P) a = Some e ->
         (exists a2 b2, F ++ new = a2 ++ BTE k :: b2 /\ (ninstrs a2 <= ninstrs (firstn e l))%nat)
         \/ (fst (pst None [] (F ++ new)) = Some k /\ active' = Some (a, t, la))) ->
      forall lab ks k, dget Nat.eqb add lab = Some ks -> In k ks ->
      exists a e i, (exists y, In y l /\ In lab (target y)) /\ dget Nat.eqb (p_ends P) a = Some e /\ dget Nat.eqb (p_labels P) lab = Some i /\ (e <= i)%nat
        /\ (exists a1 t la d b1, F ++ new = a1 ++ BTB k t la d :: b1 /\ (ninstrs a1 < ninstrs (firstn e l))%nat)
        /\ ((exists a2 b2, F ++ new = a2 ++ BTE k :: b2 /\ (ninstrs a2 <= ninstrs (firstn e l))%nat)
            \/ (fst (pst None [] (F ++ new)) = Some k /\ exists t la, active' = Some (a, t, la))).
    Proof.
      intros V H lab ks k D J. destruct (v_add _ _ _ _ _ _ V lab ks k D J) as
        (a & e & i & A0 & A1 & A2 & A3 & (a1 & t1 & la1 & d1 & b1 & A4 & A5) & A6).
      exists a, e, i. split; [exact A0|]. split; [exact A1|]. split; [exact A2|]. split; [exact A3|]. split.
      - exists a1, t1, la1, d1. eexists. split; [rewrite A4, <- app_assoc; reflexivity|exact A5].
      - destruct A6 as [(a2 & b2 & A6 & A7)|(A6 & t & la & A7)].
        + left. exists a2. eexists. split; [rewrite A6, <- app_assoc; reflexivity|exact A7].
        + destruct (H k a t la e A6 A7 A1) as [X|[X Y]]; [now left|right; eauto].
    Qed.

  End Step.
  Section Step2.
    Context (F pre : list bitem) (tbs : list (nat * list nat)) (fresh : nat)
      (add : list (nat * list nat)) (active : option (nat * pyobj * bool)).
    Context (rest : list bitem).

    (** an element without effect on try blocks, copied *)
    Lemma s_plain x : seqinv F pre tbs fresh add active -> (is_instr x = true \/ exists z, x = BSet z) -> arg_fits T x ->
      seqinv (F ++ [x]) (pre ++ [x]) tbs fresh add active.
    Proof.
      intros V X JX.
      assert (PS : forall op u, pst op u [x] = (op, u)) by (destruct x; destruct X as [X|(z & X)]; try discriminate; reflexivity).
      assert (OG : forall f o, og f o [x] = o) by (destruct x; destruct X as [X|(z & X)]; try discriminate; reflexivity).
      assert (PX : forall op u, paired op u [x] = true) by (destruct x; destruct X as [X|(z & X)]; try discriminate; reflexivity).
      assert (NB : forall id t la d, x <> BTB id t la d) by (intros; intros ->; destruct X as [X|(z & X)]; discriminate).
      constructor.
      - intros f. now rewrite !wg_app, (v_walk _ _ _ _ _ _ V), (v_open _ _ _ _ _ _ V), (v_openp _ _ _ _ _ _ V).
      - intros f. now rewrite og_app, OG, (v_open _ _ _ _ _ _ V).
      - intros f. now rewrite og_app, OG, (v_openp _ _ _ _ _ _ V).
      - now rewrite paired_app, (v_pair _ _ _ _ _ _ V), PX.
      - now rewrite !filter_app, (v_ins _ _ _ _ _ _ V).
      - rewrite pst_app, PS. exact (v_cur _ _ _ _ _ _ V).
      - rewrite pst_app, PS. exact (v_fresh _ _ _ _ _ _ V).
      - rewrite pst_app, PS. exact (v_act _ _ _ _ _ _ V).
      - intros a t la E. destruct (v_act2 _ _ _ _ _ _ V a t la E) as (d & J). exists d. apply in_app_iff. now left.
      - rewrite pst_app, PS. exact (v_keys _ _ _ _ _ _ V).
      - intros id t la d J. apply in_app_iff in J. destruct J as [J|[J|[]]]; [|now destruct (NB id t la d)].
        eapply (v_known _ _ _ _ _ _ V); eassumption.
      - intros y J. apply in_app_iff in J. destruct J as [J|[<-|[]]]; [now apply (v_fits _ _ _ _ _ _ V)|exact JX].
      - intros y n J N. apply in_app_iff in J. destruct J as [J|[<-|[]]].
        + destruct (v_targets _ _ _ _ _ _ V y n J N) as (w & Jw & Nw). exists w. split; [apply in_app_iff; now left|exact Nw].
        + exists x. split; [apply in_app_iff; right; now left|exact N].
      - intros id t la d J. apply in_app_iff in J. destruct J as [J|[J|[]]]; [|now destruct (NB id t la d)].
        destruct (v_depth _ _ _ _ _ _ V id t la d J) as (id' & d2 & Q & QD). exists id', d2. split; [apply in_app_iff; now left|exact QD].
      - exact (v_adds _ _ _ _ _ _ V).
      - intros f st H. rewrite brs_app in H. destruct (brs None pre) as [st0|] eqn:H0; [|discriminate].
        destruct (v_br _ _ _ _ _ _ V f st0 H0) as (u & TU & R). rewrite trun_app, TU.
        destruct X as [X|(z & ->)].
        + destruct x; try discriminate. cbn in H |- *. injection H as <-. destruct st0 as [(id, fl)|], u as [m|h ok]; cbn in R; try contradiction.
          * eexists. split; [reflexivity|]. cbn. split; [auto|]. apply R.
          * eexists. split; [reflexivity|]. exact Logic.I.
        + cbn in H |- *. injection H as <-. exists u. split; [|exact R]. now destruct u.
      - intros m J. apply in_app_iff in J. destruct J as [J|[->|[]]]; [now apply (v_nolab _ _ _ _ _ _ V) in J|].
        destruct X as [X|(z & X)]; discriminate.
      - exact (v_addk _ _ _ _ _ _ V).
      - eapply add_ext; [exact V|]. intros k a t la e A B C. right. rewrite pst_app, PS. auto.
    Qed.

    (** a label, not copied *)
    Lemma s_label n : seqinv F pre tbs fresh add active -> seqinv F (pre ++ [BLabel n]) tbs fresh add active.
    Proof.
      intros V. constructor; try apply V.
      - intros f. rewrite wg_app. cbn. now rewrite app_nil_r, (v_walk _ _ _ _ _ _ V).
      - intros f. now rewrite og_app, (v_openp _ _ _ _ _ _ V).
      - rewrite filter_app. cbn. now rewrite app_nil_r, (v_ins _ _ _ _ _ _ V).
      - rewrite pst_app. exact (v_act _ _ _ _ _ _ V).
      - intros a t la E. destruct (v_act2 _ _ _ _ _ _ V a t la E) as (d & J). exists d. apply in_app_iff. now left.
      - rewrite pst_app. exact (v_keys _ _ _ _ _ _ V).
      - intros y m J N. destruct (v_targets _ _ _ _ _ _ V y m J N) as (w & Jw & Nw). exists w. split; [apply in_app_iff; now left|exact Nw].
      - intros id t la d J. destruct (v_depth _ _ _ _ _ _ V id t la d J) as (id' & d2 & Q & QD). exists id', d2. split; [apply in_app_iff; now left|exact QD].
      - intros f st H. rewrite brs_app in H. destruct (brs None pre) as [st0|] eqn:H0; [|discriminate].
        cbn in H. injection H as <-. exact (v_br _ _ _ _ _ _ V f st0 H0).
    Qed.

    (** a TryBegin *)
    Lemma s_begin id t la d : seqinv F pre tbs fresh add active -> l = pre ++ BTB id t la d :: rest ->
      active = None /\
      seqinv (F ++ [BTB fresh t la d]) (pre ++ [BTB id t la d]) (dset Nat.eqb tbs id [fresh]) (fresh + 1)
        add (Some (id, t, la)).
    Proof.
      intros V E. assert (PP := proper_try _ _ PR). rewrite E, paired_app in PP. apply andb_true_iff in PP. destruct PP as [_ PP].
      cbn in PP. apply andb_true_iff in PP. destruct PP as [PP _]. apply andb_true_iff in PP. destruct PP as [PO PN].
      apply negb_true_iff in PN. rewrite (v_act _ _ _ _ _ _ V) in PO.
      assert (AN : active = None) by (destruct active; [discriminate|reflexivity]). split; [exact AN|]. subst active.
      assert (C0 := v_cur _ _ _ _ _ _ V). cbn in C0.
      assert (FN : ~ In fresh (snd (pst None [] F))) by (intros J; apply (v_fresh _ _ _ _ _ _ V) in J; lia).
      assert (DN : dget Nat.eqb tbs id = None).
      { destruct (dget Nat.eqb tbs id) eqn:Q; [|reflexivity]. assert (X : dget Nat.eqb tbs id <> None) by congruence.
        apply (v_keys _ _ _ _ _ _ V) in X. apply nat_mem_In in X. congruence. }
      assert (KN : forall n, In n (flat_map snd tbs) \/ n = fresh -> In n (flat_map snd (dset Nat.eqb tbs id [fresh]))).
      { clear - DN. induction tbs as [|(a, x) r IH]; cbn; intros n J.
        - destruct J as [[]| ->]. now left.
        - cbn in DN. destruct (Nat.eqb id a); [discriminate|]. cbn. apply in_app_iff.
          destruct J as [J| ->]; [apply in_app_iff in J; destruct J as [J|J]|]; [now left|right; apply IH; auto|right; apply IH; auto]. }
      constructor.
      - intros f. rewrite !wg_app, (v_walk _ _ _ _ _ _ V). cbn. reflexivity.
      - intros f. now rewrite og_app.
      - intros f. now rewrite og_app.
      - rewrite paired_app, (v_pair _ _ _ _ _ _ V), C0. cbn.
        destruct (nat_mem fresh (snd (pst None [] F))) eqn:M; [apply nat_mem_In in M; contradiction|reflexivity].
      - rewrite !filter_app, (v_ins _ _ _ _ _ _ V). reflexivity.
      - exists [], fresh. rewrite dg_set, Nat.eqb_refl, pst_app. auto.
      - rewrite pst_app. cbn. intros n [<-|J]; [lia|]. apply (v_fresh _ _ _ _ _ _ V) in J. lia.
      - rewrite pst_app. reflexivity.
      - intros a t' la' Q. injection Q as <- <- <-. exists d. apply in_app_iff. right. now left.
      - intros a D. rewrite dg_set in D. rewrite pst_app. cbn. destruct (Nat.eqb a id) eqn:Q.
        + apply Nat.eqb_eq in Q. now left.
        + right. now apply (v_keys _ _ _ _ _ _ V).
      - intros id' t' la' d' J. apply in_app_iff in J. destruct J as [J|[J|[]]].
        + apply (v_known _ _ _ _ _ _ V) in J. apply KN. now left.
        + injection J as <- _ _ _. apply KN. now right.
      - intros y J. apply in_app_iff in J. destruct J as [J|[<-|[]]]; [now apply (v_fits _ _ _ _ _ _ V)|].
        assert (X := proper_args _ _ PR (BTB id t la d)). cbn in X. cbn. apply X. rewrite E. apply in_app_iff. right. now left.
      - intros y n J N. apply in_app_iff in J. destruct J as [J|[<-|[]]].
        + destruct (v_targets _ _ _ _ _ _ V y n J N) as (w & Jw & Nw). exists w. split; [apply in_app_iff; now left|exact Nw].
        + exists (BTB id t la d). split; [apply in_app_iff; right; now left|exact N].
      - intros id' t' la' d' J. apply in_app_iff in J. destruct J as [J|[J|[]]].
        + destruct (v_depth _ _ _ _ _ _ V id' t' la' d' J) as (id2 & d2 & Q & QD). exists id2, d2. split; [apply in_app_iff; now left|exact QD].
        + injection J as <- <- <- <-. exists id, d. split; [apply in_app_iff; right; now left|now right].
      - exact (v_adds _ _ _ _ _ _ V).
      - intros f st H. rewrite brs_app in H. destruct (brs None pre) as [st0|] eqn:H0; [|discriminate].
        destruct (v_br _ _ _ _ _ _ V f st0 H0) as (u & TU & R). rewrite trun_app, TU.
        cbn in H. destruct st0; [discriminate|]. injection H as <-. destruct u as [m|h ok]; [|contradiction].
        eexists. split; [reflexivity|]. cbn. split; [discriminate|eauto].
      - intros m J. apply in_app_iff in J. destruct J as [J|[J|[]]]; [now apply (v_nolab _ _ _ _ _ _ V) in J|discriminate].
      - exact (v_addk _ _ _ _ _ _ V).
      - eapply add_ext; [exact V|]. intros k a t' la' e A B. discriminate.
    Qed.

    (** a TryEnd *)
    Lemma s_end id : seqinv F pre tbs fresh add active -> l = pre ++ BTE id :: rest ->
      exists t la ks k, active = Some (id, t, la) /\ dget Nat.eqb tbs id = Some (ks ++ [k]) /\
      seqinv (F ++ [BTE k]) (pre ++ [BTE id]) tbs fresh add None.
    Proof.
      intros V E. assert (PP := proper_try _ _ PR). rewrite E, paired_app in PP. apply andb_true_iff in PP. destruct PP as [_ PP].
      cbn in PP. apply andb_true_iff in PP. destruct PP as [PO _].
      destruct (fst (pst None [] pre)) as [a|] eqn:OP; [|discriminate]. apply Nat.eqb_eq in PO. subst a.
      assert (A0 := v_act _ _ _ _ _ _ V). rewrite OP in A0. destruct active as [((a, t), la)|] eqn:AC; [|discriminate].
      cbn in A0. injection A0 as <-. assert (C0 := v_cur _ _ _ _ _ _ V). cbn in C0. destruct C0 as (ks & k & D & C).
      exists t, la, ks, k. split; [reflexivity|]. split; [exact D|]. constructor.
      - intros f. rewrite !wg_app, (v_walk _ _ _ _ _ _ V). reflexivity.
      - intros f. now rewrite og_app.
      - intros f. now rewrite og_app.
      - rewrite paired_app, (v_pair _ _ _ _ _ _ V), C. cbn. now rewrite Nat.eqb_refl.
      - rewrite !filter_app, (v_ins _ _ _ _ _ _ V). reflexivity.
      - now rewrite pst_app.
      - rewrite pst_app. cbn. exact (v_fresh _ _ _ _ _ _ V).
      - now rewrite pst_app.
      - discriminate.
      - rewrite pst_app. exact (v_keys _ _ _ _ _ _ V).
      - intros id' t' la' d' J. apply in_app_iff in J. destruct J as [J|[J|[]]]; [|discriminate].
        eapply (v_known _ _ _ _ _ _ V); eassumption.
      - intros y J. apply in_app_iff in J. destruct J as [J|[<-|[]]]; [now apply (v_fits _ _ _ _ _ _ V)|exact Logic.I].
      - intros y n J N. apply in_app_iff in J. destruct J as [J|[<-|[]]]; [|contradiction].
        destruct (v_targets _ _ _ _ _ _ V y n J N) as (w & Jw & Nw). exists w. split; [apply in_app_iff; now left|exact Nw].
      - intros id' t' la' d' J. apply in_app_iff in J. destruct J as [J|[J|[]]]; [|discriminate].
        destruct (v_depth _ _ _ _ _ _ V id' t' la' d' J) as (id2 & d2 & Q & QD). exists id2, d2. split; [apply in_app_iff; now left|exact QD].
      - exact (v_adds _ _ _ _ _ _ V).
      - intros f st H. rewrite brs_app in H. destruct (brs None pre) as [st0|] eqn:H0; [|discriminate].
        destruct (v_br _ _ _ _ _ _ V f st0 H0) as (u & TU & R). rewrite trun_app, TU.
        cbn in H. destruct st0 as [(id', [])|]; try discriminate. destruct (Nat.eqb id id'); [|discriminate]. injection H as <-.
        destruct u as [m|h ok]; [contradiction|]. destruct R as [R _]. rewrite (R eq_refl). cbn. eexists. split; [reflexivity|]. exact Logic.I.
      - intros m J. apply in_app_iff in J. destruct J as [J|[J|[]]]; [now apply (v_nolab _ _ _ _ _ _ V) in J|discriminate].
      - exact (v_addk _ _ _ _ _ _ V).
      - eapply add_ext; [exact V|]. intros k' a t' la' e A B C'. left. exists F, []. rewrite C in A. injection A as <-.
        split; [reflexivity|]. injection B as <- <- <-. rewrite (ninstrs_filter F pre (v_ins _ _ _ _ _ _ V)).
        eapply ninstrs_prefix; [exact E|]. eapply end_later; eauto.
    Qed.

    (** the open try block is cut in two *)
    Lemma s_split a t la ks k : seqinv F pre tbs fresh add active -> active = Some (a, t, la) -> l = pre ++ rest ->
      dget Nat.eqb tbs a = Some (ks ++ [k]) -> (exists X li, F = X ++ [BI li]) ->
      seqinv (F ++ [BTE k; BTB fresh t la None]) pre (dset Nat.eqb tbs a ((ks ++ [k]) ++ [fresh])) (fresh + 1) add active.
    Proof.
      intros V -> E D (X0 & li & FX). assert (C0 := v_cur _ _ _ _ _ _ V). cbn in C0. destruct C0 as (ks' & k' & D' & C).
      rewrite D in D'. injection D' as D'. apply app_inj_tail in D'. destruct D' as [<- <-].
      assert (FN : ~ In fresh (snd (pst None [] F))) by (intros J; apply (v_fresh _ _ _ _ _ _ V) in J; lia).
      assert (KN : forall n, In n (flat_map snd tbs) \/ n = fresh -> In n (flat_map snd (dset Nat.eqb tbs a ((ks ++ [k]) ++ [fresh])))).
      { clear - D. revert D. induction tbs as [|(b, x) r IH]; cbn; intros D n J; [discriminate|].
        destruct (Nat.eqb a b).
        - injection D as ->. cbn. rewrite !in_app_iff in *. destruct J as [[J|J]| ->]; cbn; tauto.
        - cbn. rewrite in_app_iff in *. destruct J as [[J|J]| ->]; [now left|right; apply IH; auto|right; apply IH; auto]. }
      constructor.
      - intros f. rewrite wg_app, (v_walk _ _ _ _ _ _ V). cbn. now rewrite app_nil_r.
      - intros f. now rewrite og_app.
      - apply (v_openp _ _ _ _ _ _ V).
      - rewrite paired_app, (v_pair _ _ _ _ _ _ V), C. cbn. rewrite Nat.eqb_refl. cbn.
        destruct (nat_mem fresh (snd (pst None [] F))) eqn:M; [apply nat_mem_In in M; contradiction|reflexivity].
      - rewrite filter_app. cbn. now rewrite app_nil_r, (v_ins _ _ _ _ _ _ V).
      - exists (ks ++ [k]), fresh. rewrite dg_set, Nat.eqb_refl, pst_app. auto.
      - rewrite pst_app. cbn. intros n [<-|J]; [lia|]. apply (v_fresh _ _ _ _ _ _ V) in J. lia.
      - apply (v_act _ _ _ _ _ _ V).
      - apply (v_act2 _ _ _ _ _ _ V).
      - intros b DB. rewrite dg_set in DB. apply (v_keys _ _ _ _ _ _ V). destruct (Nat.eqb b a) eqn:Q; [|exact DB].
        apply Nat.eqb_eq in Q. subst. congruence.
      - intros id' t' la' d' J. apply in_app_iff in J. destruct J as [J|[J|[J|[]]]]; [|discriminate|].
        + apply (v_known _ _ _ _ _ _ V) in J. apply KN. now left.
        + injection J as <- _ _ _. apply KN. now right.
      - intros y J. apply in_app_iff in J. destruct J as [J|[<-|[<-|[]]]]; [now apply (v_fits _ _ _ _ _ _ V)|exact Logic.I|].
        destruct (v_act2 _ _ _ _ _ _ V a t la eq_refl) as (d & J).
        assert (X := proper_args _ _ PR (BTB a t la d)). cbn in X. cbn. apply X. rewrite E. apply in_app_iff. now left.
      - intros y n J N. apply in_app_iff in J. destruct J as [J|[<-|[<-|[]]]]; [|contradiction|].
        + exact (v_targets _ _ _ _ _ _ V y n J N).
        + destruct (v_act2 _ _ _ _ _ _ V a t la eq_refl) as (d & J). exists (BTB a t la d). auto.
      - intros id' t' la' d' J. apply in_app_iff in J. destruct J as [J|[J|[J|[]]]]; [|discriminate|].
        + exact (v_depth _ _ _ _ _ _ V id' t' la' d' J).
        + injection J as _ <- <- <-. destruct (v_act2 _ _ _ _ _ _ V a t la eq_refl) as (d & J). exists a, d. auto.
      - exact (v_adds _ _ _ _ _ _ V).
      - intros f st H. destruct (v_br _ _ _ _ _ _ V f st H) as (u & TU & R). rewrite trun_app, TU.
        assert (OK : forall h ok, u = TO h ok -> ok = true).
        { intros h ok ->. rewrite FX, trun_app in TU. destruct (trun f (TC None) X0) as [[]|]; cbn in TU; congruence. }
        assert (S0 := v_act _ _ _ _ _ _ V). cbn in S0.
        assert (st <> None).
        { intros ->. clear - H S0. assert (G : forall l st0 op op1, brs st0 l = Some None -> (st0 = None <-> op = None) -> fst (pst op op1 l) = None).
          { clear. induction l as [|x r IH]; intros st0 op op1 H E; [cbn in *; apply E; congruence|]. cbn in H.
            destruct (bstep st0 x) as [s1|] eqn:B; [|discriminate].
            destruct x as [i|n|z|id t la d|id]; cbn in B |- *.
            - injection B as <-. eapply IH; [exact H|]. destruct st0 as [(?, ?)|]; cbn; rewrite <- E; intuition discriminate.
            - injection B as <-. eapply IH; eauto.
            - injection B as <-. eapply IH; eauto.
            - destruct st0; [discriminate|]. injection B as <-. eapply IH; [exact H|]. intuition discriminate.
            - destruct st0 as [(?, [])|]; try discriminate. destruct (Nat.eqb id n); [|discriminate]. injection B as <-. eapply IH; [exact H|]. tauto. }
          rewrite (G pre None None [] H) in S0; [discriminate|tauto]. }
        destruct st as [(id, fl)|]; [|congruence]. destruct u as [m|h ok]; [contradiction|]. destruct R as [_ (a' & t' & la' & Q & ->)].
        injection Q as <- <- <-. rewrite (OK _ _ eq_refl). cbn. rewrite same_h_refl. eexists. split; [reflexivity|].
        cbn. split; [auto|]. eauto.
      - intros m J. apply in_app_iff in J. destruct J as [J|[J|[J|[]]]]; [now apply (v_nolab _ _ _ _ _ _ V) in J|discriminate..].
      - exact (v_addk _ _ _ _ _ _ V).
      - eapply add_ext; [exact V|]. intros k' a' t' la' e A B C'. left. exists F, [BTB fresh t la None]. rewrite C in A. injection A as <-.
        split; [reflexivity|]. injection B as <- <- <-. rewrite (ninstrs_filter F pre (v_ins _ _ _ _ _ _ V)).
        eapply ninstrs_prefix; [exact E|]. eapply end_later; [exact E| |exact C']. rewrite (v_act _ _ _ _ _ _ V). reflexivity.
    Qed.

    (** a TryEnd to insert at the target of a jump out of the open try block *)
    Lemma s_add a t la ks k li X n i e : i_arg li = OLabel n -> seqinv F pre tbs fresh add active -> active = Some (a, t, la) -> l = pre ++ rest ->
      dget Nat.eqb tbs a = Some (ks ++ [k]) -> F = X ++ [BI li] ->
      dget Nat.eqb (p_labels P) n = Some i -> dget Nat.eqb (p_ends P) a = Some e -> (e <= i)%nat ->
      seqinv F pre tbs fresh (dset Nat.eqb add n (match dget Nat.eqb add n with Some l => l | None => [] end ++ [k])) active.
    Proof.
      intros LI V -> E D FX L EN LE. assert (C0 := v_cur _ _ _ _ _ _ V). cbn in C0. destruct C0 as (ks' & k' & D' & C).
      rewrite D in D'. injection D' as D'. apply app_inj_tail in D'. destruct D' as [<- <-].
      constructor; try apply V.
      { apply ds_keys. exact (v_adds _ _ _ _ _ _ V). }
      { intros lab ks0 DA. rewrite dg_set in DA. destruct (Nat.eqb lab n); [|exact (v_addk _ _ _ _ _ _ V lab ks0 DA)].
        injection DA as <-. intros Z. apply app_eq_nil in Z. destruct Z. discriminate. }
      intros lab ks0 k0 DA J. rewrite dg_set in DA. destruct (Nat.eqb lab n) eqn:Q; [|exact (v_add _ _ _ _ _ _ V lab ks0 k0 DA J)].
      apply Nat.eqb_eq in Q. subst lab. injection DA as <-. apply in_app_iff in J. destruct J as [J|[<-|[]]].
      - destruct (dget Nat.eqb add n) as [l0|] eqn:DA; [|contradiction]. exact (v_add _ _ _ _ _ _ V n l0 k0 DA J).
      - exists a, e, i. split.
        { destruct (v_targets _ _ _ _ _ _ V (BI li) n) as (y & Jy & Ny); [rewrite FX; apply in_app_iff; right; now left|cbn; rewrite LI; now left|].
          exists y. split; [rewrite E; apply in_app_iff; now left|exact Ny]. }
        split; [exact EN|]. split; [exact L|]. split; [exact LE|]. split.
        + assert (J : In k (snd (pst None [] F))) by (apply pst_open_in; [discriminate|exact C]).
          apply pst_ids in J. destruct J as [[]|(t1 & la1 & d1 & J)].
          apply in_split in J. destruct J as (a1 & b1 & J). exists a1, t1, la1, d1, b1. split; [exact J|].
          assert (N1 : ninstrs F = ninstrs pre) by (apply ninstrs_filter; exact (v_ins _ _ _ _ _ _ V)).
          assert (N2 : (ninstrs pre <= ninstrs (firstn e l))%nat).
          { eapply ninstrs_prefix; [exact E|]. eapply end_later; [exact E| |exact EN]. rewrite (v_act _ _ _ _ _ _ V). reflexivity. }
          assert (N3 : (ninstrs a1 < ninstrs F)%nat).
          { rewrite J in FX. destruct (cut _ _ _ _ _ FX) as [(m & X1 & X2)|(m & X1 & X2)].
            - rewrite J, X2, ninstrs_app, ninstrs_cons, ninstrs_app. cbn. lia.
            - destruct m as [|y m]; [discriminate|]. injection X2 as _ X2. destruct m; discriminate. }
          lia.
        + right. split; [exact C|]. eauto.
    Qed.
  End Step2.
End Loop.
