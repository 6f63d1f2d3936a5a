(** compute_stacksize: proofs. *)
From Coq Require Import Lia.
From Verif Require Import PyBase OpTable M_Instr M_Concrete M_Bytecode M_Flags M_Cfg M_Stack S_Cfg S_Stack P_Base P_Cfg P_Stack P_StackL P_Stack2 P_Stack3.
Open Scope string_scope.
Open Scope list_scope.
Open Scope Z_scope.

Lemma fold_max_ge l : forall r, r <= fold_left Z.max l r /\ forall x, In x l -> x <= fold_left Z.max l r.
Proof.
  induction l as [|y l IH]; intros r; cbn [fold_left]; [split; [lia|intros x []]|].
  destruct (IH (Z.max r y)) as [A B]. split; [lia|]. intros x [<-|X]; [lia|auto].
Qed.

Lemma dget_in {V} (d : list (nat * V)) k x : dget Nat.eqb d k = Some x -> In x (map snd d).
Proof.
  induction d as [|[a b] d IH]; cbn; [discriminate|]. destruct (Nat.eqb k a); intros E; [injection E as ->; auto|right; auto].
Qed.

Lemma no_order {T ef g first H cov} c : g_order g = [] -> ~ at_ T ef g first H cov c.
Proof. intros E A. induction A; auto. congruence. Qed.

Lemma first_depth_eq v flags : initial_size v flags = first_depth v flags.
Proof.
  unfold initial_size, first_depth, has_flag, GENERATOR, COROUTINE, ASYNC_GENERATOR.
  change (Z.lor 32 (Z.lor 128 512)) with (2^5 + (2^7 + 2^9)).
  assert (X : negb (Z.land flags (2^5 + (2^7 + 2^9)) =? 0) = Z.testbit flags 5 || Z.testbit flags 7 || Z.testbit flags 9).
  { change (2^5 + (2^7 + 2^9)) with (Z.lor (2^5) (Z.lor (2^7) (2^9))). rewrite !Z.land_lor_distr_r.
    assert (BT : forall k, 0 <= k -> (Z.land flags (2^k) =? 0) = negb (Z.testbit flags k)).
    { intros k K. destruct (Z.testbit flags k) eqn:B; cbn [negb].
      - apply Z.eqb_neq. intros E. assert (Y : Z.testbit (Z.land flags (2^k)) k = true).
        { rewrite Z.land_spec, B, Z.pow2_bits_true by exact K. reflexivity. }
        rewrite E, Z.bits_0 in Y. discriminate.
      - apply Z.eqb_eq. apply Z.bits_inj'. intros n N. rewrite Z.land_spec, Z.bits_0.
        destruct (Z.eq_dec n k) as [->|NE]; [rewrite B; reflexivity|].
        rewrite Z.pow2_bits_false by auto. apply Bool.andb_false_r. }
    assert (OR : forall a b, 0 <= a -> 0 <= b -> (Z.lor a b =? 0) = (a =? 0) && (b =? 0)).
    { intros a b A B. destruct (Z.eqb_spec (Z.lor a b) 0) as [E|E].
      - apply Z.lor_eq_0_iff in E. destruct E as [-> ->]. reflexivity.
      - destruct (Z.eqb_spec a 0) as [->|]; auto. destruct (Z.eqb_spec b 0) as [->|]; auto. }
    assert (LN : forall k, 0 <= k -> 0 <= Z.land flags (2^k)).
    { intros k K. apply Z.land_nonneg. right. apply Z.pow_nonneg. lia. }
    rewrite !OR; try apply Z.lor_nonneg; repeat split; try (apply LN; lia).
    rewrite !BT by lia. destruct (Z.testbit flags 5), (Z.testbit flags 7), (Z.testbit flags 9); reflexivity. }
  rewrite X. destruct v; reflexivity.
Qed.

(** ** Storing the depths *)

Definition all_depth (id : nat) (z : Z) (h : list block) : Prop :=
  forall b t la sd, In b h -> In (BTB id t la sd) (k_items b) -> sd = Some z.

Lemma all_depth_of id z g : (forall b i t la sd, elem g b i = Some (BTB id t la sd) -> sd = Some z) -> all_depth id z (g_heap g).
Proof.
  intros X b t la sd IB IT. apply In_nth_error in IB. destruct IB as [n IB]. apply In_nth_error in IT. destruct IT as [i IT].
  apply (X n i t la). unfold elem, blk. rewrite IB. exact IT.
Qed.
Lemma all_depth_elem id z g b i t la sd : all_depth id z (g_heap g) -> elem g b i = Some (BTB id t la sd) -> sd = Some z.
Proof.
  intros X EL. apply (X (blk g b) t la).
  - unfold elem, blk in *. destruct (nth_error (g_heap g) b) eqn:Q; [eapply nth_error_In; eauto|destruct i; discriminate].
  - eapply nth_error_In. exact EL.
Qed.
Lemma store_other id id' z d h : id <> id' -> all_depth id z h -> all_depth id z (store_depth id' d h).
Proof.
  intros NE A b t la sd IB IT. unfold store_depth in IB. apply in_map_iff in IB. destruct IB as (b0 & <- & IB).
  cbn [k_items] in IT. unfold set_depth in IT. apply in_map_iff in IT. destruct IT as (x & E & IT).
  destruct x as [| | |id0 t0 la0 d0|]; try discriminate.
  destruct (Nat.eqb_spec id' id0) as [<-|NE2]; [congruence|]. injection E as -> -> -> ->. eapply A; eauto.
Qed.
Lemma store_same id z h : all_depth id z (store_depth id z h).
Proof.
  intros b t la sd IB IT. unfold store_depth in IB. apply in_map_iff in IB. destruct IB as (b0 & <- & IB).
  cbn [k_items] in IT. unfold set_depth in IT. apply in_map_iff in IT. destruct IT as (x & E & IT).
  destruct x as [| | |id0 t0 la0 d0|]; try discriminate.
  destruct (Nat.eqb_spec id id0) as [<-|NE2]; [congruence|]. congruence.
Qed.

Definition store1 (C : common) (h : list block) (x : tbinfo) : res (list block) :=
  let '(id, t, _) := x in
  match t with
  | OBlock b =>
      s <- of_option KeyError (dget Nat.eqb (c_ex_start C) b) ;;
      _ <- guard (0 <=? s) AssertionError ;;
      Ok (store_depth id s h)
  | _ => Err KeyError
  end.

Lemma store_fold C id z xs : forall h h', foldM (store1 C) xs h = Ok h' ->
  (forall t la, In (id, t, la) xs -> exists b, t = OBlock b /\ dget Nat.eqb (c_ex_start C) b = Some z) ->
  all_depth id z h \/ (exists t la, In (id, t, la) xs) -> all_depth id z h'.
Proof.
  induction xs as [|[[i t] la] xs IH]; intros h h' E V X.
  - injection E as <-. destruct X as [X|(t & la & [])]. exact X.
  - cbn [foldM] in E. unfold store1 at 1 in E. destruct t as [| | | | | | | b | | | | | |]; try discriminate E.
    destruct (dget Nat.eqb (c_ex_start C) b) as [s|] eqn:D; [|discriminate E]. cbn [of_option bind] in E.
    unfold guard in E. destruct (0 <=? s); [|discriminate E]. cbn [bind] in E.
    eapply IH; [exact E| |].
    + intros t' la' IN. apply (V t' la'). right. exact IN.
    + destruct (Nat.eq_dec i id) as [->|NE].
      * left. destruct (V (OBlock b) la (or_introl eq_refl)) as (b' & Y1 & Y2). injection Y1 as <-.
        rewrite D in Y2. injection Y2 as ->. apply store_same.
      * destruct X as [X|(t' & la' & [X|X])].
        -- left. apply store_other; auto.
        -- congruence.
        -- right. eauto.
Qed.

Lemma store_skip C id z xs : forall h h', foldM (store1 C) xs h = Ok h' ->
  (forall t la, ~ In (id, t, la) xs) -> all_depth id z h -> all_depth id z h'.
Proof.
  induction xs as [|[[i t] la] xs IH]; intros h h' E V X; [injection E as <-; exact X|].
  cbn [foldM] in E. unfold store1 at 1 in E. destruct t as [| | | | | | | b | | | | | |]; try discriminate E.
  destruct (dget Nat.eqb (c_ex_start C) b) as [s|] eqn:D; [|discriminate E]. cbn [of_option bind] in E.
  unfold guard in E. destruct (0 <=? s); [|discriminate E]. cbn [bind] in E.
  eapply IH; [exact E| |].
  - intros t' la' IN. apply (V t' la'). right. exact IN.
  - apply store_other; [|exact X]. intros ->. apply (V (OBlock b) la). left. reflexivity.
Qed.

Lemma fold_store_skip id z d dead : forall h, ~ In id dead -> all_depth id z h ->
  all_depth id z (fold_left (fun h id => store_depth id d h) dead h).
Proof.
  induction dead as [|i dead IH]; intros h N X; cbn [fold_left]; [exact X|].
  apply IH; [intros Y; apply N; right; exact Y|]. apply store_other; [|exact X]. intros ->. apply N. left. reflexivity.
Qed.
Lemma fold_store_same id d dead : forall h, In id dead \/ all_depth id d h ->
  all_depth id d (fold_left (fun h id => store_depth id d h) dead h).
Proof.
  induction dead as [|i dead IH]; intros h X; cbn [fold_left]; [destruct X as [[]|X]; exact X|].
  apply IH. destruct (Nat.eq_dec i id) as [->|NE]; [right; apply store_same|].
  destruct X as [[X|X]|X]; [congruence|left; exact X|right; apply store_other; auto].
Qed.

Lemma unmet_in T g C dead : unmet_tbs T g C = Ok dead -> forall id, In id dead <->
  exists n t la, In n (g_order g) /\ dget Nat.eqb (c_starts C) n = Some [] /\ In (BTB id t la None) (k_items (blk g n)).
Proof.
  unfold unmet_tbs. intros E id. apply bind_ok in E. destruct E as (l & M & E). injection E as <-.
  rewrite in_concat. revert l M. induction (g_order g) as [|n ns IH]; intros l M; cbn [mapM] in M.
  { injection M as <-. split; [intros (x & [] & _)|intros (n & t & la & [] & _)]. }
  apply bind_ok in M. destruct M as (x & X & M). apply bind_ok in M. destruct M as (l' & M & E). injection E as <-.
  specialize (IH _ M).
  assert (HD : In id x <-> exists t la, dget Nat.eqb (c_starts C) n = Some [] /\ In (BTB id t la None) (k_items (blk g n))).
  { destruct (dget Nat.eqb (c_starts C) n) as [[|f fs]|].
    - apply bind_ok in X. destruct X as (u & _ & X). injection X as <-. rewrite in_flat_map. split.
      + intros ([y|y|y|id' t la [sd|]|y] & I1 & I2); try (destruct I2; fail).
        destruct I2 as [->|[]]. exists t, la. auto.
      + intros (t & la & _ & I1). exists (BTB id t la None). split; [exact I1|left; reflexivity].
    - injection X as <-. split; [intros []|intros (t & la & Y & _); discriminate Y].
    - injection X as <-. split; [intros []|intros (t & la & Y & _); discriminate Y]. }
  split.
  - intros (y & [<-|I1] & I2).
    + apply HD in I2. destruct I2 as (t & la & Y1 & Y2). exists n, t, la. split; [left; reflexivity|auto].
    + destruct IH as [IH _]. destruct IH as (n' & t & la & Y0 & Y1 & Y2); [eauto|]. exists n', t, la. split; [right; exact Y0|auto].
  - intros (n' & t & la & [<-|Y0] & Y1 & Y2).
    + exists x. split; [left; reflexivity|]. apply HD. eauto.
    + destruct IH as [_ IH]. destruct IH as (y & I1 & I2); [eauto 6|]. exists y. split; [right; exact I1|exact I2].
Qed.

(** only depths change *)
Definition like (b b' : block) : Prop := k_next b' = k_next b /\ map no_depth (k_items b') = map no_depth (k_items b).
Lemma store_like id d h : Forall2 like h (store_depth id d h).
Proof.
  induction h as [|b h IH]; cbn; constructor; auto. split; [reflexivity|]. cbn [k_items].
  unfold set_depth. rewrite map_map. apply map_ext. intros [| | |id' t la sd|]; auto.
  destruct (Nat.eqb id id'); reflexivity.
Qed.
Lemma like_refl h : Forall2 like h h.
Proof. induction h; constructor; auto. split; reflexivity. Qed.
Lemma like_trans a : forall b c, Forall2 like a b -> Forall2 like b c -> Forall2 like a c.
Proof.
  induction a as [|x a IH]; intros b c A B; inversion A as [|? y ? b' P PA]; subst; inversion B as [|? z ? c' Q QB]; subst; constructor; eauto.
  destruct P as [P1 P2], Q as [Q1 Q2]. split; congruence.
Qed.
Lemma fold_store_like dead d : forall h, Forall2 like h (fold_left (fun h id => store_depth id d h) dead h).
Proof.
  induction dead as [|i dead IH]; intros h; cbn [fold_left]; [apply like_refl|].
  eapply like_trans; [apply store_like|apply IH].
Qed.
Lemma foldM_store_like C xs : forall h h', foldM (store1 C) xs h = Ok h' -> Forall2 like h h'.
Proof.
  induction xs as [|[[i t] la] xs IH]; intros h h' E.
  - injection E as <-. apply like_refl.
  - cbn [foldM] in E. unfold store1 at 1 in E. destruct t as [| | | | | | | b | | | | | |]; try discriminate E.
    destruct (dget Nat.eqb (c_ex_start C) b) as [s|] eqn:D; [|discriminate E]. cbn [of_option bind] in E.
    unfold guard in E. destruct (0 <=? s); [|discriminate E]. cbn [bind] in E.
    eapply like_trans; [apply store_like|eapply IH; exact E].
Qed.

Lemma like_blk g h' n : Forall2 like (g_heap g) h' ->
  like (blk g n) (blk (mkG (g_meta g) (g_argnames g) h' (g_order g) (g_index g)) n).
Proof.
  intros F. unfold blk. cbn [g_heap]. revert n. generalize dependent h'. generalize (g_heap g).
  induction l as [|b l IH]; intros h' F n; inversion F; subst.
  - destruct n; split; reflexivity.
  - destruct n as [|n]; cbn [nth_error]; auto.
Qed.

(** ** The whole computation *)

Section W.
  Variables (v : pyver) (T : optable) (se : oracle) (check depths : bool) (g : cfg) (H : nat -> Z)
    (cov : nat -> nat -> nat -> bool -> Prop).
  Notation ef := (eff v T se check).
  Notation first := (first_depth v (m_flags (g_meta g))).
  Notation At := (at_ T ef g first H cov).
  Hypothesis R : regular T ef g first H cov.
  Hypothesis CO : coherent g.
  Hypothesis TK : try_known v g.

  Lemma inv0 : Inv v T se check g first H cov (common0 g).
  Proof.
    constructor; cbn [common0 c_starts c_seen c_ex_start c_ex_max c_tbs].
    - intros b B. rewrite !dget_const. apply nat_mem_in in B. rewrite B. repeat split; discriminate.
    - intros b l. rewrite dget_const. destruct (nat_mem b (g_order g)) eqn:E; [|discriminate]. intros _. apply nat_mem_in, E.
    - intros b f (l & E & IN). cbn [common0 c_starts] in E. rewrite dget_const in E.
      destruct (nat_mem b (g_order g)); [|discriminate]. injection E as <-. destruct IN.
    - intros h s. rewrite !dget_const. destruct (nat_mem h (g_order g)); [|discriminate]. intros E. injection E as <-.
      pose proof (reg_depth _ _ _ _ _ _ R h). split; lia.
    - intros id t la [].
  Qed.

  Lemma fin0 b f : ~ fin (common0 g) b f.
  Proof.
    intros (l & E & IN). cbn [common0 c_starts] in E. rewrite dget_const in E.
    destruct (nat_mem b (g_order g)); [|discriminate]. injection E as <-. destruct IN.
  Qed.

  Definition outcome (p : cfg * Z) : Prop :=
    let '(g', n) := p in
    (forall b i d o, At (b, i, d, o) -> d <= Z.max n first)
    /\ ~ underflow T ef g first H cov
    /\ (depths = true -> forall b i d o id h la sd, At (b, i, d, o) -> elem g b i = Some (BTB id (OBlock h) la sd) ->
          all_depth id (H h) (g_heap g'))
    /\ (forall id z, (forall b i d h la, ~ At (b, i, d, Some (id, h, la))) ->
          all_depth id z (g_heap g) -> all_depth id z (g_heap g'))
    /\ (forall id m t la, (forall b i d h la, ~ At (b, i, d, Some (id, h, la))) -> In m (g_order g) ->
          In (BTB id t la None) (k_items (blk g m)) -> (forall d o, ~ At (m, O, d, o)) -> all_depth id 32768 (g_heap g')).

  Lemma compute_good : good v T se check g first H cov outcome (compute_stacksize v T se check depths g).
  Proof.
    unfold compute_stacksize, compute_nested. destruct (g_order g) as [|n l] eqn:EO.
    { cbn [good outcome]. split; [|split; [|split; [|split]]].
      - intros b i d o A. destruct (no_order _ EO A).
      - intros (b & i & d & o & x & j & pre & post & A & _). destruct (no_order _ EO A).
      - intros _ b i d o id h la sd A. destruct (no_order _ EO A).
      - intros id z _ X. exact X.
      - intros id m t la _ IN. rewrite EO in IN. destruct IN. }
    assert (A0 : At (n, O, first, None)) by (eapply at_entry; eauto).
    rewrite first_depth_eq.
    assert (CP : cpre v T se check g first H cov 0 n first first 0 0 None None (common0 g)).
    { constructor; cbn [common0 c_seen]; auto; try discriminate; try lia.
      - apply inv0.
      - intros _ m [].
      - intros _. eapply way_entry; eauto.
      - congruence.
      - congruence. }
    eapply good_bind.
    { apply (run_ok v T se check g first H cov R CO TK (visit_fuel g) 0 n first first 0 0 None None (common0 g) CP). }
    intros [r C] RUN [V1 V2 V3 V4 V5 _ _]. cbn [fst snd] in *. specialize (V5 eq_refl).
    set (n' := fold_left Z.max (map snd (c_ex_max C)) r).
    destruct (fold_max_ge (map snd (c_ex_max C)) r) as [G1 G2]. fold n' in G1, G2.
    set (M := Z.max n' first).
    assert (EB : Eb first H (n :: c_seen (common0 g)) C M).
    { split; [unfold M; lia|]. intros k m _ _ X. apply dget_in in X. apply G2 in X. unfold M. lia. }
    assert (FIN : forall b f, fin C b f -> low v T se check g first H cov b f ->
                  closed v T se check g first H cov C M b (k_items (blk g b)) (start_of f)).
    { intros b f F L. destruct (e_new _ _ _ _ _ _ _ _ _ _ _ _ V4 b f F) as [X|K]; [destruct (fin0 _ _ X)|].
      apply K; [exact L|unfold M; lia|exact EB]. }
    assert (ENT : forall m l', g_order g = m :: l' -> ldone v T se check g first H cov C m).
    { intros m l' E. rewrite EO in E. injection E as <- <-. exact V5. }
    assert (HAN : forall h, goal H C h -> ldone v T se check g first H cov C h).
    { intros h X. destruct (inv_ex _ _ _ _ _ _ _ _ _ V3 h _ X) as [_ Y]. auto. }
    assert (SHO : forall b i d o id h la sd, At (b, i, d, o) -> elem g b i = Some (BTB id (OBlock h) la sd) ->
      showing T ef g first H b i d id h la -> ldone v T se check g first H cov C b -> goal H C h).
    { intros b i d o id h la sd A E SH LD.
      apply (shown_goal v T se check g first H cov R CO TK (visit_fuel g) n l 0 0 (common0 g) (r, C) b i d o id h la sd); auto.
      intros m (f & F & _). exact (fin0 _ _ F). }
    pose proof (at_bound v T se check g first H cov R C M FIN ENT HAN SHO) as BND.
    pose proof (no_underflow v T se check g first H cov R C M FIN ENT HAN SHO) as NU.
    pose proof (P_Stack3.at_begin v T se check g first H cov R C M FIN ENT HAN SHO) as BEG.
    eapply (good_bind _ _ _ _ _ _ _ _ (fun dead => unmet_tbs T g C = Ok dead)).
    { unfold unmet_tbs. destruct (mapM _ (g_order g)) as [x|e] eqn:MM; [cbn; auto|]. cbn [bind good].
      assert (X : (e = ValueError \/ e = KeyError) /\ ~ complete T ef g).
      { clear - MM. revert MM. assert (IN : incl (g_order g) (g_order g)) by (intros y Y; exact Y). revert IN.
        generalize (g_order g) at 1 3. intros l. revert e. induction l as [|m l IH]; intros e IN MM; [discriminate|].
        cbn [mapM] in MM. destruct (dget Nat.eqb (c_starts C) m) as [[|]|]; cbn [bind] in MM.
        - destruct (block_iter T (k_items (blk g m))) as [u|e'] eqn:BI; cbn [bind] in MM.
          + match type of MM with context [mapM ?f l] => destruct (mapM f l) as [y|e2] eqn:M2 end; [discriminate|].
            cbn [bind] in MM. injection MM as ->. apply IH; auto. intros y Y. apply IN. right. exact Y.
          + injection MM as ->. split.
            * left. clear - BI. induction (k_items (blk g m)) as [|y l IH]; [discriminate|]. cbn [block_iter] in BI.
              destruct (elem_check T y l) eqn:EC; cbn [bind] in BI; [auto|].
              injection BI as ->. eapply elem_check_err. exact EC.
            * intros W. pose proof (com_iter _ _ _ W m (IN m (or_introl eq_refl))) as Y. congruence.
        - match type of MM with context [mapM ?f l] => destruct (mapM f l) as [y|e2] eqn:M2 end; [discriminate|].
          cbn [bind] in MM. injection MM as ->. apply IH; auto. intros y Y. apply IN. right. exact Y.
        - match type of MM with context [mapM ?f l] => destruct (mapM f l) as [y|e2] eqn:M2 end; [discriminate|].
          cbn [bind] in MM. injection MM as ->. apply IH; auto. intros y Y. apply IN. right. exact Y. }
      destruct X as [X1 X2]. split; [intros ->; destruct X1; discriminate|]. intros W. destruct (X2 W). }
    intros dead _ DEAD. pose proof (unmet_in T g C dead DEAD) as DIN.
    set (heap := fold_left (fun h id => store_depth id 32768 h) dead (g_heap g)).
    change (good v T se check g first H cov outcome (heap <- (if depths then foldM (store1 C) (c_tbs C) heap else Ok heap) ;;
      Ok (mkG (g_meta g) (g_argnames g) heap (n :: l) (g_index g), n'))).
    eapply (good_bind _ _ _ _ _ _ _ _ (fun h => depths = true -> forall b i d o id h0 la sd,
      At (b, i, d, o) -> elem g b i = Some (BTB id (OBlock h0) la sd) -> all_depth id (H h0) h)).
    - clear DEAD DIN. destruct depths; [|cbn; discriminate].
      destruct (foldM (store1 C) (c_tbs C) heap) as [h'|e] eqn:FM.
      + cbn [good]. intros _ b i d o id h la sd A E. destruct (BEG _ _ _ _ _ _ _ _ A E) as [B1 B2].
        eapply store_fold; [exact FM| |right; eauto].
        intros t la' IN. destruct (inv_tbs _ _ _ _ _ _ _ _ _ V3 _ _ _ IN) as (h2 & b2 & i2 & d2 & -> & A2).
        exists h2. split; [reflexivity|].
        destruct (at_open v T se check g first H cov _ A2 _ _ _ eq_refl) as (m & sd2 & I2).
        destruct (CO b m id (OBlock h) (OBlock h2) la la' sd sd2) as [Q _].
        { apply nth_error_In with i. exact E. } { exact I2. }
        injection Q as <-. exact B2.
      + cbn [good]. generalize dependent heap. intros heap FM. clear - FM V3 R. revert FM.
        assert (IN : incl (c_tbs C) (c_tbs C)) by (intros y Y; exact Y). revert IN. generalize (c_tbs C) at 1 3.
        intros xs. revert heap. induction xs as [|[[id t] la] xs IH]; intros heap IN FM; [discriminate|].
        cbn [foldM] in FM. unfold store1 at 1 in FM.
        destruct (inv_tbs _ _ _ _ _ _ _ _ _ V3 _ _ _ (IN _ (or_introl eq_refl))) as (h2 & b2 & i2 & d2 & -> & A2).
        destruct (dget Nat.eqb (c_ex_start C) h2) as [s|] eqn:D; cbn [of_option bind] in FM.
        * destruct (inv_ex _ _ _ _ _ _ _ _ _ V3 _ _ D) as [HS _].
          destruct (reg_depth _ _ _ _ _ _ R h2) as [H1 H2]. assert (H3 : (0 <=? s) = true) by (apply Z.leb_le; lia).
          rewrite H3 in FM. cbn [guard bind] in FM. eapply IH; [|exact FM]. intros y Y. apply IN. right. exact Y.
        * injection FM as <-. split; [discriminate|]. intros W. exfalso.
          destruct (at_order v T se check g first H cov R W _ A2) as [_ K]. specialize (K _ _ _ eq_refl).
          destruct (inv_keys _ _ _ _ _ _ _ _ _ V3 _ K) as (_ & X & _). auto.
    - intros h' FM ST. cbn [good outcome]. split; [exact BND|]. split; [exact NU|]. split; [exact ST|].
      assert (REST : forall id z, (forall b i d h la, ~ At (b, i, d, Some (id, h, la))) ->
                all_depth id z heap -> all_depth id z h').
      { intros id z NA X. destruct depths; [|injection FM as <-; exact X].
        eapply store_skip; [exact FM| |exact X].
        intros t la IN. destruct (inv_tbs _ _ _ _ _ _ _ _ _ V3 _ _ _ IN) as (h2 & b2 & i2 & d2 & -> & A2). exact (NA _ _ _ _ _ A2). }
      split.
      + intros id z NA X. apply REST; [exact NA|]. apply fold_store_skip; [|exact X].
        intros IN. apply DIN in IN. destruct IN as (m & t & la & _ & _ & Y).
        unfold blk in Y. destruct (nth_error (g_heap g) m) as [k|] eqn:Q; [|destruct Y].
        specialize (X k t la None (nth_error_In _ _ Q) Y). discriminate X.
      + intros id m t la NA IN Y NE. apply REST; [exact NA|]. apply fold_store_same. left. apply DIN.
        rewrite EO in IN. exists m, t, la. rewrite EO. split; [exact IN|]. split; [|exact Y].
        destruct (inv_keys _ _ _ _ _ _ _ _ _ V3 m) as (K & _ & _); [rewrite EO; exact IN|].
        destruct (dget Nat.eqb (c_starts C) m) as [[|f fs]|] eqn:D; [reflexivity| |congruence].
        destruct (inv_at _ _ _ _ _ _ _ _ _ V3 m f) as (d & o & A & _); [exists (f :: fs); split; [exact D|left; reflexivity]|].
        destruct (NE _ _ A).
  Qed.
End W.

(** ** Only depths change, whatever the graph *)
Lemma compute_like v T se check depths g g' n : compute_stacksize v T se check depths g = Ok (g', n) ->
  same_but_depths g g'.
Proof.
  unfold compute_stacksize, compute_nested. destruct (g_order g) as [|m l] eqn:EO.
  { intros E. injection E as <- <-. repeat split. }
  intros E. apply bind_ok in E. destruct E as ([r C] & _ & E). apply bind_ok in E. destruct E as (dead & _ & E).
  match type of E with bind ?x _ = _ => destruct x as [h'|] eqn:F; [|discriminate E] end. cbn [bind] in E. injection E as <- <-.
  assert (L : Forall2 like (g_heap g) h').
  { destruct depths.
    - eapply like_trans; [apply fold_store_like|]. eapply foldM_store_like. exact F.
    - injection F as <-. apply fold_store_like. }
  split; [reflexivity|]. split; [reflexivity|]. split; [cbn [g_order]; congruence|]. split; [reflexivity|].
  intros k. rewrite <- EO. exact (like_blk g h' k L).
Qed.
