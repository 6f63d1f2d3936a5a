(** The graph built by from_bytecode: insertion of TryEnd, labels replaced by blocks. *)
From Verif Require Import PyBase OpTable P_Base M_Instr M_Concrete M_Convert M_Bytecode M_Cfg S_Prog S_Cfg P_Cfg P_Bytecode P_CfgSeq P_CfgFrom P_CfgFrom2.
Open Scope list_scope.
Open Scope Z_scope.

(** ** Insertion of TryEnd *)
Definition ext (b b' : block) : Prop :=
  k_next b' = k_next b /\ exists ks, k_items b' = map BTE ks ++ k_items b.

Lemma upd_split {A} n (x y : A) l : nth_error l n = Some y -> upd n x l = firstn n l ++ x :: skipn (S n) l.
Proof.
  revert l. induction n as [|n IH]; intros [|z l] E; try discriminate; [reflexivity|]. cbn. f_equal. now apply IH.
Qed.
Lemma upd_upd {A} n (x y : A) l : upd n x (upd n y l) = upd n x l.
Proof. revert l. induction n as [|n IH]; intros [|z l]; cbn; try reflexivity. f_equal. apply IH. Qed.

Definition cover (bs : list block) (m k : nat) : Prop :=
  In (BTE k) (flat (firstn m bs)) \/ ended k (flat (skipn m bs)) = true.

Record insinv (F : list bitem) (bs0 bs : list block) (Q : nat -> nat -> Prop) : Prop := {
  n_pair : paired None [] (dd [] (flat bs)) = true;
  n_walk : forall f, wg f None (dd [] (flat bs)) = wg f None F;
  n_br : forall f st, trun f st (dd [] (flat bs)) = trun f st F;
  n_ext : Forall2 ext bs0 bs;
  n_cover : forall m k, Q m k -> cover bs m k }.

Lemma flat_cut bs m : flat bs = flat (firstn m bs) ++ flat (skipn m bs).
Proof. now rewrite <- flat_app, firstn_skipn. Qed.

Lemma Forall2_upd {A B} (R : A -> B -> Prop) l l' m x y y' : Forall2 R l l' -> nth_error l' m = Some y ->
  (R x y -> R x y') -> nth_error l m = Some x -> Forall2 R l (upd m y' l').
Proof.
  intros H. revert m. induction H as [|a b l l' HR H IH]; intros [|m] E HY EX; try discriminate; cbn in *.
  - injection E as ->. injection EX as ->. constructor; auto.
  - constructor; [exact HR|]. now apply IH.
Qed.
Lemma Forall2_nth {A B} (R : A -> B -> Prop) l l' m y : Forall2 R l l' -> nth_error l' m = Some y ->
  exists x, nth_error l m = Some x /\ R x y.
Proof.
  intros H. revert m. induction H as [|a b l l' HR H IH]; intros [|m] E; try discriminate; cbn in *.
  - injection E as ->. eauto. - eauto.
Qed.
Lemma Forall2_nth1 {A B} (R : A -> B -> Prop) l l' m x : Forall2 R l l' -> nth_error l m = Some x ->
  exists y, nth_error l' m = Some y /\ R x y.
Proof.
  intros H. revert m. induction H as [|a b l l' HR H IH]; intros [|m] E; try discriminate; cbn in *.
  - injection E as ->. eauto. - eauto.
Qed.

Lemma Forall2_len {A B} (R : A -> B -> Prop) l l' : Forall2 R l l' -> length l = length l'.
Proof. induction 1; cbn; congruence. Qed.

Lemma ins_one F bs0 bs Q m k b : insinv F bs0 bs Q -> Q m k -> nth_error bs m = Some b ->
  insinv F bs0 (upd m (mkBlk (BTE k :: k_items b) (k_next b)) bs) Q.
Proof.
  intros V QK NB.
  assert (U := upd_split m (mkBlk (BTE k :: k_items b) (k_next b)) b bs NB).
  assert (SK : flat (skipn m bs) = k_items b ++ flat (skipn (S m) bs)).
  { assert (X : skipn m bs = b :: skipn (S m) bs).
    { clear - NB. revert m NB. induction bs as [|z r IH]; intros [|m] E; try discriminate; cbn in *; [congruence|now apply IH]. }
    now rewrite X. }
  assert (FU : flat (upd m (mkBlk (BTE k :: k_items b) (k_next b)) bs) = flat (firstn m bs) ++ BTE k :: flat (skipn m bs)).
  { rewrite U, flat_app, SK. reflexivity. }
  assert (LM : (m < length bs)%nat) by (apply nth_error_Some; congruence).
  assert (LF : length (firstn m bs) = m) by (rewrite firstn_length; lia).
  destruct (insert_end k (flat (skipn m bs)) (flat (firstn m bs)) [] None []) as (I1 & I2 & I3).
  { rewrite <- flat_cut. exact (n_pair _ _ _ _ V). }
  { destruct (n_cover _ _ _ _ V m k QK) as [C|C]; auto. }
  rewrite <- FU, <- flat_cut in *. constructor.
  - exact I1.
  - intros f. rewrite I2. apply (n_walk _ _ _ _ V).
  - intros f st. rewrite I3. apply (n_br _ _ _ _ V).
  - destruct (Forall2_nth _ _ _ _ _ (n_ext _ _ _ _ V) NB) as (b0 & N0 & _).
    eapply Forall2_upd; [exact (n_ext _ _ _ _ V)|exact NB| |exact N0].
    intros (E1 & ks & E2). split; [exact E1|]. exists (k :: ks). cbn. now rewrite E2.
  - intros m' k' Q'. destruct (n_cover _ _ _ _ V m' k' Q') as [C|C].
    + left. rewrite U, firstn_app, LF.
      destruct (Nat.leb m' m) eqn:L.
      * apply Nat.leb_le in L. rewrite firstn_firstn, Nat.min_l by lia. rewrite flat_app. apply in_app_iff. now left.
      * apply Nat.leb_gt in L.
        rewrite firstn_firstn, Nat.min_r by lia. destruct (m' - m)%nat as [|j] eqn:J; [lia|]. cbn [firstn].
        assert (X : flat (firstn m' bs) = flat (firstn m bs) ++ k_items b ++ flat (firstn j (skipn (S m) bs))).
        { rewrite (firstn_skipn_nth _ _ _ NB) at 1. rewrite firstn_app, LF, J, firstn_firstn, Nat.min_r by lia. cbn [firstn].
          rewrite flat_app. reflexivity. }
        rewrite X in C. rewrite flat_app. cbn [flat flat_map k_items]. cbn.
        apply in_app_iff in C. apply in_app_iff. destruct C as [C|C]; [now left|right]. now right.
    + destruct (Nat.leb m' m) eqn:L.
      * right. apply Nat.leb_le in L. rewrite U, skipn_app, LF. replace (m' - m)%nat with 0%nat by lia. cbn [skipn].
        assert (X : skipn m' bs = skipn m' (firstn m bs) ++ b :: skipn (S m) bs).
        { rewrite (firstn_skipn_nth _ _ _ NB) at 1. rewrite skipn_app, LF. now replace (m' - m)%nat with 0%nat by lia. }
        rewrite X in C. rewrite flat_app in *. cbn [flat flat_map k_items app] in *. now apply ended_insert.
      * right. apply Nat.leb_gt in L. rewrite U, skipn_app, LF.
        assert (X : skipn m' bs = skipn m' (firstn m bs) ++ skipn (m' - m) (b :: skipn (S m) bs)).
        { rewrite (firstn_skipn_nth _ _ _ NB) at 1. now rewrite skipn_app, LF. }
        rewrite X in C. destruct (m' - m)%nat as [|j] eqn:J; [lia|]. exact C.
Qed.

Lemma ins_many F bs0 Q m tes : forall bs existing b, insinv F bs0 bs Q -> (forall k, In k tes -> Q m k) ->
  nth_error bs m = Some b ->
  insinv F bs0 (upd m (mkBlk (insert_ends existing (k_items b) tes) (k_next b)) bs) Q.
Proof.
  induction tes as [|k r IH]; intros bs existing b V HQ NB; cbn [insert_ends].
  - assert (X : upd m (mkBlk (k_items b) (k_next b)) bs = bs); [|now rewrite X].
    clear - NB. revert m NB. induction bs as [|z l IH]; intros [|m] E; try discriminate; cbn in *.
    + injection E as ->. now destruct b. + f_equal. now apply IH.
  - destruct (nat_mem k existing); [apply IH; auto; intros; apply HQ; now right|].
    assert (V1 := ins_one F bs0 bs Q m k b V (HQ k (or_introl eq_refl)) NB).
    assert (N1 : nth_error (upd m (mkBlk (BTE k :: k_items b) (k_next b)) bs) m = Some (mkBlk (BTE k :: k_items b) (k_next b))).
    { rewrite upd_nth by (apply nth_error_Some; congruence). now rewrite Nat.eqb_refl. }
    assert (V2 := IH _ (k :: existing) _ V1 (fun j J => HQ j (or_intror J)) N1). rewrite upd_upd in V2. exact V2.
Qed.

Lemma ins_all F bs0 labels add : forall bs, 
  (forall lab tes, In (lab, tes) add -> exists m, dget Nat.eqb labels lab = Some m /\ (m < length bs0)%nat) ->
  insinv F bs0 bs (fun m k => exists lab tes, In (lab, tes) add /\ In k tes /\ dget Nat.eqb labels lab = Some m) ->
  exists bs', foldM (insert_try_ends labels) add bs = Ok bs'
    /\ insinv F bs0 bs' (fun m k => False).
Proof.
  intros bs HL V. match type of V with insinv _ _ _ ?q => set (Q := q) in * end.
  assert (G : forall a bs, incl a add -> insinv F bs0 bs Q -> exists bs', foldM (insert_try_ends labels) a bs = Ok bs' /\ insinv F bs0 bs' Q).
  { clear bs V. induction a as [|(lab, tes) r IH]; intros bs IN V; [exists bs; split; [reflexivity|exact V]|].
    destruct (HL lab tes (IN _ (or_introl eq_refl))) as (m & D & L).
    assert (LB : length bs = length bs0) by (symmetry; eapply Forall2_len; apply V).
    destruct (nth_error bs m) as [b|] eqn:NB; [|apply nth_error_None in NB; lia].
    cbn [foldM insert_try_ends]. rewrite D. cbn [of_option bind]. rewrite NB. cbn [of_option bind].
    apply IH; [intros x J; apply IN; now right|]. apply ins_many; auto.
    intros k J. exists lab, tes. split; [apply IN; now left|auto]. }
  destruct (G add bs (fun x J => J) V) as (bs' & E & V'). exists bs'. split; [exact E|].
  constructor; try apply V'. contradiction.
Qed.

(** ** Labels replaced by blocks *)
Definition res1 (lk : nat -> option nat) (x y : bitem) : Prop :=
  match x with
  | BI i => y = BI (mkInstr (i_name i) (i_op i) (match i_arg i with OLabel n => match lk n with Some k => OBlock k | None => OLabel n end | o => o end) (i_loc i))
            /\ forall n, i_arg i = OLabel n -> lk n <> None
  | BTB id t la d => exists n k, t = OLabel n /\ lk n = Some k /\ y = BTB id (OBlock k) la d
  | x => y = x
  end.

Lemma mapM_ok {A B} (f : A -> res B) (R : A -> B -> Prop) l :
  (forall x, In x l -> exists y, f x = Ok y /\ R x y) -> exists l', mapM f l = Ok l' /\ Forall2 R l l'.
Proof.
  induction l as [|x r IH]; intros H; [exists []; auto|].
  destruct (H x (or_introl eq_refl)) as (y & E & RY). destruct IH as (l' & E' & R'); [intros; apply H; now right|].
  exists (y :: l'). cbn. rewrite E. cbn. rewrite E'. cbn. auto.
Qed.

Lemma resolve_ok T labels known (bs : list block) :
  (forall x, In x (flat bs) -> arg_fits T x) ->
  (forall x n, In x (flat bs) -> In n (target x) -> dget Nat.eqb labels n <> None) ->
  (forall id t la d, In (BTB id t la d) (flat bs) -> In id known) ->
  exists hs, mapM (resolve_block labels known) bs = Ok hs
    /\ Forall2 (fun b h => k_next h = k_next b /\ Forall2 (res1 (dget Nat.eqb labels)) (k_items b) (k_items h)) bs hs.
Proof.
  intros A L K. apply mapM_ok. intros b J.
  assert (S : forall x, In x (k_items b) -> In x (flat bs)) by (intros x H; apply in_flat_map; eauto).
  destruct (mapM_ok (resolve_item labels known) (res1 (dget Nat.eqb labels)) (k_items b)) as (items & E & R).
  - intros x JX. apply S in JX. assert (AX := A x JX). assert (LX := L x). destruct x as [i|n|z|id t la d|id]; cbn [resolve_item res1] in *; try (eexists; split; reflexivity).
    + destruct (i_arg i) eqn:Q; try (eexists; split; [reflexivity|]; split; [destruct i; cbn in *; congruence|discriminate]).
      specialize (LX n JX). cbn in LX. rewrite Q in LX. specialize (LX (or_introl eq_refl)).
      destruct (dget Nat.eqb labels n) as [k|] eqn:D; [|congruence]. cbn. eexists. split; [reflexivity|]. split; [reflexivity|].
      intros m E. injection E as <-. congruence.
    + destruct AX as (n & ->). assert (KN := K id _ la d JX). apply nat_mem_In in KN. rewrite KN.
      specialize (LX n JX). cbn in LX. specialize (LX (or_introl eq_refl)).
      destruct (dget Nat.eqb labels n) as [k|] eqn:D; [|congruence]. cbn. eexists. split; [reflexivity|]. eauto.
  - exists (mkBlk items (k_next b)). unfold resolve_block. rewrite E. cbn. auto.
Qed.

Lemma Forall2_flat (R : bitem -> bitem -> Prop) bs hs :
  Forall2 (fun b h => k_next h = k_next b /\ Forall2 R (k_items b) (k_items h)) bs hs -> Forall2 R (flat bs) (flat hs).
Proof. induction 1 as [|b h bs hs (N & H) _ IH]; cbn; [constructor|]. apply Forall2_app; assumption. Qed.

Lemma dd_res1 lk l l' : Forall2 (res1 lk) l l' -> forall seen, Forall2 (res1 lk) (dd seen l) (dd seen l').
Proof.
  induction 1 as [|x y l l' R _ IH]; intros seen; [constructor|].
  destruct x as [i|n|z|id t la d|id]; cbn in R.
  - destruct R as [-> R]. cbn. constructor; [split; [reflexivity|exact R]|auto].
  - subst y. cbn. constructor; [reflexivity|auto].
  - subst y. cbn. constructor; [reflexivity|auto].
  - destruct R as (n & k & -> & L & ->). cbn. constructor; [cbn; eauto|auto].
  - subst y. cbn. destruct (nat_mem id seen); [auto|]. constructor; [reflexivity|auto].
Qed.

(** an argument function on blocks that says the same as one on labels *)
Definition same_args (lk : nat -> option nat) (f f2 : pyobj -> parg) : Prop :=
  (forall n k, lk n = Some k -> f (OBlock k) = f2 (OLabel n))
  /\ (forall o, (forall n, o <> OLabel n) -> (forall n, o <> OBlock n) -> f o = f2 o).

Definition no_block (x : bitem) : Prop := match x with BI i => forall n, i_arg i <> OBlock n | _ => True end.
Lemma fits_no_block T x : arg_fits T x -> no_block x.
Proof.
  destruct x as [i| | | |]; cbn; auto. destruct (has_jump T i); [|intros H n; apply H].
  intros (m & E) n. congruence.
Qed.

Lemma wg_res1 lk f f2 l l' : same_args lk f f2 -> (forall x, In x l -> no_block x) -> Forall2 (res1 lk) l l' ->
  forall o, wg f o l' = wg f2 o l.
Proof.
  intros (S1 & S2) NB H. induction H as [|x y l l' R _ IH]; intros o; [reflexivity|].
  assert (IH' : forall o, wg f o l' = wg f2 o l) by (apply IH; intros; apply NB; now right). clear IH.
  assert (NX := NB x (or_introl eq_refl)).
  destruct x as [i|n|z|id t la d|id]; cbn in R.
  - destruct R as [-> R]. cbn. rewrite IH'. f_equal. f_equal. cbn in NX.
    destruct (i_arg i) eqn:Q; try (apply S2; intros; first [discriminate|apply NX]).
    destruct (lk n) as [k|] eqn:L; [now apply S1|]. destruct (R n eq_refl L).
  - subst y. apply IH'.
  - subst y. cbn. now rewrite IH'.
  - destruct R as (n & k & -> & L & ->). cbn. now rewrite IH', (S1 n k L).
  - subst y. apply IH'.
Qed.

Lemma paired_res1 lk l l' : Forall2 (res1 lk) l l' -> forall op u, paired op u l' = paired op u l.
Proof.
  induction 1 as [|x y l l' R _ IH]; intros op u; [reflexivity|].
  destruct x as [i|n|z|id t la d|id]; cbn in R; try (subst y; cbn; now rewrite ?IH).
  - destruct R as [-> R]. apply IH.
  - destruct R as (n & k & -> & L & ->). cbn. now rewrite IH.
Qed.

Lemma trun_res1 lk f f2 l l' : (forall n k, lk n = Some k -> f (OBlock k) = f2 (OLabel n)) -> Forall2 (res1 lk) l l' ->
  forall st, trun f st l' = trun f2 st l.
Proof.
  intros S1 H. induction H as [|x y l l' R _ IH]; intros st; [reflexivity|].
  destruct x as [i|n|z|id t la d|id]; cbn in R.
  - destruct R as [-> R]. cbn. destruct st; apply IH.
  - subst y. cbn. destruct st; apply IH.
  - subst y. cbn. destruct st; apply IH.
  - destruct R as (n & k & -> & L & ->). cbn. destruct st; [|reflexivity]. now rewrite (S1 n k L), IH.
  - subst y. cbn. destruct st as [|h []]; auto.
Qed.
