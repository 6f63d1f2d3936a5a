(** Lemmas on the comparison of graphs. *)
From Verif Require Import PyBase OpTable P_Base P_OpTable M_Instr M_Tables M_Concrete M_Convert M_Bytecode M_Cfg M_Stack M_Full M_Equal S_Eq S_Cfg S_Equal P_Eq P_Eq2 P_Stack.
Open Scope string_scope.
Open Scope list_scope.
Open Scope Z_scope.

Lemma F2_impl {A B} (P Q : A -> B -> Prop) l m : (forall a b, P a b -> Q a b) -> Forall2 P l m -> Forall2 Q l m.
Proof. induction 2; constructor; auto. Qed.

Lemma strings_eqb l : forall m, list_eqb String.eqb l m = true <-> l = m.
Proof.
  induction l as [|x l IH]; intros [|y m]; cbn; split; try discriminate; auto.
  - rewrite andb_true_iff, String.eqb_eq, IH. intros [-> ->]. reflexivity.
  - intros [= -> ->]. rewrite String.eqb_refl. now apply IH.
Qed.

Lemma attributes_eqb_ok m n : attributes_eqb m n = true <-> same_attributes m n.
Proof. unfold attributes_eqb, same_attributes. rewrite !andb_true_iff, !Z.eqb_eq, !String.eqb_eq, !strings_eqb. tauto. Qed.

Section Flat.
  Variables (v : pyver) (T : optable) (keq : pyobj -> pyobj -> bool).

  (** how TryBegins are numbered *)
  Definition number (tbs : list (nat * nat)) (it : bitem) : list (nat * nat) :=
    match it with BTB id _ _ _ => if dmem Nat.eqb tbs id then tbs else dset Nat.eqb tbs id (length tbs) | _ => tbs end.
  Definition numbers (tbs : list (nat * nat)) (l : list bitem) : list (nat * nat) := fold_left number l tbs.

  Definition sane (tbs : list (nat * nat)) : Prop :=
    (forall a k, dget Nat.eqb tbs a = Some k -> (k < length tbs)%nat)
    /\ (forall a b k, dget Nat.eqb tbs a = Some k -> dget Nat.eqb tbs b = Some k -> a = b).
  Definition more (tbs tbs' : list (nat * nat)) : Prop := forall a k, dget Nat.eqb tbs a = Some k -> dget Nat.eqb tbs' a = Some k.

  Lemma dmem_get (d : list (nat * nat)) k : dmem Nat.eqb d k = match dget Nat.eqb d k with Some _ => true | None => false end.
  Proof. reflexivity. Qed.
  Lemma dset_length (d : list (nat * nat)) k x : dget Nat.eqb d k = None -> length (dset Nat.eqb d k x) = S (length d).
  Proof.
    induction d as [|[a y] d IH]; [reflexivity|]. cbn [dget dset]. destruct (Nat.eqb k a); [discriminate|]. intros H. cbn [length]. now rewrite IH.
  Qed.

  Lemma number_sane tbs it : sane tbs -> sane (number tbs it) /\ more tbs (number tbs it).
  Proof.
    intros [S1 S2]. destruct it; try (split; [now split|intros ? ?; auto]). cbn [number]. rewrite dmem_get.
    destruct (dget Nat.eqb tbs id) as [x|] eqn:D; [split; [now split|intros ? ?; auto]|]. pose proof (dset_length tbs id (length tbs) D) as L. split; [split|].
    - intros a k H. rewrite L. destruct (Nat.eq_dec a id) as [->|N].
      + rewrite dget_dset_same in H. injection H as <-. lia.
      + rewrite dget_dset_other in H by exact N. specialize (S1 _ _ H). lia.
    - intros a b k H1 H2. destruct (Nat.eq_dec a id) as [->|N1], (Nat.eq_dec b id) as [->|N2].
      + reflexivity.
      + rewrite dget_dset_same in H1. rewrite dget_dset_other in H2 by exact N2. injection H1 as <-. specialize (S1 _ _ H2). lia.
      + rewrite dget_dset_same in H2. rewrite dget_dset_other in H1 by exact N1. injection H2 as <-. specialize (S1 _ _ H1). lia.
      + rewrite dget_dset_other in H1 by exact N1. rewrite dget_dset_other in H2 by exact N2. eapply S2; eauto.
    - intros a k H. destruct (Nat.eq_dec a id) as [->|N]; [congruence|]. now rewrite dget_dset_other.
  Qed.
  Lemma numbers_sane l : forall tbs, sane tbs -> sane (numbers tbs l) /\ more tbs (numbers tbs l).
  Proof.
    induction l as [|it l IH]; intros tbs H; [split; [exact H|intros ? ?; auto]|]. destruct (number_sane tbs it H) as [A B].
    destruct (IH _ A) as [C D]. split; [exact C|]. intros a k X. apply D, B, X.
  Qed.
  Lemma sane_nil : sane [].
  Proof. split; cbn; intros; discriminate. Qed.

  (** what stands for an element *)
  Definition grel (g : cfg) (tbs : list (nat * nat)) (it : bitem) (f : gflat) : Prop :=
    match it, f with
    | BI i, GJump c => has_jump T i = true /\ c_name c = i_name i /\ c_loc c = i_loc i
        /\ exists n x, i_arg i = OBlock n /\ get_block_index g n = Ok x /\ c_arg c = Some x
    | BI i, GPlain j => j = i /\ has_jump T i = false
    | BSet z, GSet w => w = z
    | BTB id t la _, GTB k x lb => la = lb /\ dget Nat.eqb tbs id = Some k /\ exists n, t = OBlock n /\ get_block_index g n = Ok x
    | BTE id, GTE k => dget Nat.eqb tbs id = Some k
    | _, _ => False
    end.
  Lemma grel_more g tbs tbs' it f : more tbs tbs' -> grel g tbs it f -> grel g tbs' it f.
  Proof. intros M. destruct it, f; cbn; try tauto; intros; [destruct H as (? & H & ?); repeat split; auto; now apply M|now apply M]. Qed.

  Lemma trailing_find r : find a_try_end r = option_map BTE (trailing_end r).
  Proof. induction r as [|it r IH]; [reflexivity|]. destruct it; cbn [find a_try_end trailing_end]; auto. Qed.

  Lemma block_flat_spec g l : forall tbs out tbs', sane tbs -> block_flat v T g tbs l = Ok (out, tbs') ->
    tbs' = numbers tbs (live T l) /\ Forall2 (grel g tbs') (live T l) out.
  Proof.
    induction l as [|it r IH]; intros tbs out tbs' S E; cbn [block_flat] in E.
    { injection E as <- <-. split; [reflexivity|constructor]. }
    apply bind_ok in E. destruct E as (u & _ & E). destruct it as [i|n|z|id t la d|id].
    - cbn [live]. destruct (has_jump T i || is_final i) eqn:HF.
      + apply bind_ok in E. destruct E as (f & E1 & E). apply bind_ok in E. destruct E as (te & E2 & E). injection E as <- <-.
        assert (F1 : grel g tbs (BI i) f).
        { destruct (has_jump T i) eqn:HJ.
          - apply bind_ok in E1. destruct E1 as (n & En & E1). apply bind_ok in E1. destruct E1 as (x & Ex & E1). apply bind_ok in E1. destruct E1 as (c & Ec & E1).
            injection E1 as <-. cbn. unfold new_cinstr in Ec. apply bind_ok in Ec. destruct Ec as (op & _ & Ec). apply bind_ok in Ec. destruct Ec as (? & _ & Ec). injection Ec as <-.
            cbn. destruct (i_arg i) eqn:A; try discriminate En. injection En as ->. repeat split; auto. exists n, x. auto.
          - injection E1 as <-. cbn. auto. }
        rewrite trailing_find. destruct (trailing_end r) as [id|]; cbn [option_map].
        * apply bind_ok in E2. destruct E2 as (k & E2 & E3). injection E3 as <-. apply of_option_ok in E2. split; [reflexivity|]. constructor; [exact F1|]. constructor; [exact E2|constructor].
        * injection E2 as <-. split; [reflexivity|]. constructor; [exact F1|constructor].
      + apply orb_false_iff in HF. destruct HF as [HJ HF]. apply bind_ok in E. destruct E as ([out' tbs''] & E1 & E). injection E as <- <-.
        destruct (IH _ _ _ S E1) as [A B]. split; [exact A|]. constructor; [cbn; auto|exact B].
    - discriminate E.
    - apply bind_ok in E. destruct E as ([out' tbs''] & E1 & E). injection E as <- <-. destruct (IH _ _ _ S E1) as [A B]. split; [exact A|]. constructor; [reflexivity|exact B].
    - apply bind_ok in E. destruct E as (k & Ek & E). apply bind_ok in E. destruct E as (n & En & E). apply bind_ok in E. destruct E as (x & Ex & E).
      apply bind_ok in E. destruct E as ([out' tbs''] & E1 & E). injection E as <- <-. apply of_option_ok in Ek.
      change (if dmem Nat.eqb tbs id then tbs else dset Nat.eqb tbs id (length tbs)) with (number tbs (BTB id t la d)) in *.
      destruct (number_sane tbs (BTB id t la d) S) as [S' _]. destruct (IH _ _ _ S' E1) as [A B]. split; [exact A|]. constructor; [|exact B].
      cbn. split; [reflexivity|]. split; [rewrite A; now apply (numbers_sane _ _ S')|]. destruct t; try discriminate En. injection En as ->. eauto.
    - apply bind_ok in E. destruct E as (k & Ek & E). apply bind_ok in E. destruct E as ([out' tbs''] & E1 & E). injection E as <- <-. apply of_option_ok in Ek.
      destruct (IH _ _ _ S E1) as [A B]. split; [exact A|]. constructor; [|exact B]. cbn. rewrite A. now apply (numbers_sane _ _ S).
  Qed.

  Lemma blocks_flat_spec g order : forall tbs out, sane tbs -> blocks_flat v T g tbs order = Ok out ->
    let es := concat (map (fun n => live T (k_items (blk g n))) order) in Forall2 (grel g (numbers tbs es)) es out.
  Proof.
    induction order as [|n r IH]; intros tbs out S E; cbn [blocks_flat] in E.
    { injection E as <-. constructor. }
    apply bind_ok in E. destruct E as ([o1 tbs'] & E1 & E). apply bind_ok in E. destruct E as (o2 & E2 & E). injection E as <-.
    destruct (block_flat_spec g _ _ _ _ S E1) as [-> F1]. destruct (numbers_sane (live T (k_items (blk g n))) tbs S) as [S' _].
    cbn [map concat]. cbv zeta. unfold numbers. rewrite fold_left_app. apply Forall2_app; [|exact (IH _ _ S' E2)].
    eapply F2_impl; [|exact F1]. intros a b. apply grel_more. apply (numbers_sane _ _ S').
  Qed.

  (** what equality of the lists says *)
  Variables (g h : cfg).
  Hypothesis IG : indexed g.
  Hypothesis IH : indexed h.
  Lemma index_place n m x : get_block_index g n = Ok x -> get_block_index h m = Ok x -> same_place g h (OBlock n) (OBlock m).
  Proof.
    intros A B. destruct (in_dec Nat.eq_dec n (g_order g)) as [I|I]; [|rewrite (proj2 IG n I) in A; discriminate].
    destruct (in_dec Nat.eq_dec m (g_order h)) as [J|J]; [|rewrite (proj2 IH m J) in B; discriminate].
    apply In_nth_error in I, J. destruct I as (i & I), J as (j & J). destruct (proj1 IG _ _ I) as [_ A']. destruct (proj1 IH _ _ J) as [_ B'].
    assert (i = j) by (apply Nat2Z.inj; congruence). subst j. exists i, n, m. auto.
  Qed.
  Lemma place_index n m : same_place g h (OBlock n) (OBlock m) -> forall x y, get_block_index g n = Ok x -> get_block_index h m = Ok y -> x = y.
  Proof.
    intros (k & n' & m' & [= <-] & [= <-] & A & B) x y X Y. destruct (proj1 IG _ _ A) as [_ A']. destruct (proj1 IH _ _ B) as [_ B']. congruence.
  Qed.

  Lemma takes_iff i : opmap T (i_name i) = Some (i_op i) -> z_mem (i_op i) (t_hasconst T) = true <-> takes_const T (i_name i).
  Proof.
    intros N. unfold takes_const. rewrite z_mem_In. split; [eauto|]. intros (op & A & B). congruence.
  Qed.

  Definition at_same (tg th : list (nat * nat)) (a b : nat) : Prop := exists k, dget Nat.eqb tg a = Some k /\ dget Nat.eqb th b = Some k.

  Lemma rel_eq tg th x y f e : (forall i, x = BI i -> opmap T (i_name i) = Some (i_op i)) -> (forall i, y = BI i -> opmap T (i_name i) = Some (i_op i)) ->
    grel g tg x f -> grel h th y e -> gflat_eqb T keq f e = true -> same_element T keq g h (at_same tg th) x y.
  Proof.
    intros NX NY A B E. destruct x as [i|n|z|id t la d|id], f as [i0|c|z0|k0 x0 lb|k0]; cbn in A; try contradiction;
      destruct y as [j|m|w|id' t' la' d'|id'], e as [j0|c'|w0|k1 x1 lb'|k1]; cbn in B; try contradiction; cbn in E; try discriminate E.
    - destruct A as [-> A], B as [-> B]. unfold instr_eqb in E. apply andb_true_iff in E. destruct E as [E E3]. apply andb_true_iff in E. destruct E as [E1 E2].
      apply oloc_eqb_eq in E1. apply String.eqb_eq in E2. pose proof (takes_iff i (NX i eq_refl)) as TI. apply se_instr; auto; intros K; [apply TI in K; rewrite K in E3; now apply andb_true_iff in E3|].
      destruct (z_mem (i_op i) (t_hasconst T)); [exfalso; apply K; now apply TI|]. now apply andb_true_iff in E3.
    - destruct A as (A1 & A2 & A3 & n & x & A4 & A5 & A6), B as (B1 & B2 & B3 & m & y & B4 & B5 & B6). apply cinstr_eqb_eq in E. destruct E as (E1 & E2 & E3).
      apply se_jump; try congruence. rewrite A4, B4. eapply index_place; [eassumption|]. rewrite B5. congruence.
    - subst. apply Z.eqb_eq in E. subst. constructor.
    - destruct A as (-> & A1 & n & -> & A2), B as (-> & B1 & m & -> & B2). apply andb_true_iff in E. destruct E as [E E3]. apply andb_true_iff in E. destruct E as [E1 E2].
      apply Nat.eqb_eq in E1. apply Z.eqb_eq in E2. apply Bool.eqb_prop in E3. subst. constructor; [exists k1; auto|]. eapply index_place; eauto.
    - apply Nat.eqb_eq in E. subst. constructor. exists k1. auto.
  Qed.

  Lemma eq_rel (R : nat -> nat -> Prop) tg th x y f e : (forall i, x = BI i -> opmap T (i_name i) = Some (i_op i)) -> (forall i, y = BI i -> opmap T (i_name i) = Some (i_op i)) ->
    (forall a b, R a b -> dget Nat.eqb tg a = dget Nat.eqb th b) ->
    grel g tg x f -> grel h th y e -> same_element T keq g h R x y -> gflat_eqb T keq f e = true.
  Proof.
    intros NX NY RR A B E. destruct E as [i j HI HJ EN EL EP|i j HI HJ EN EL EK EA|z|a b t u la d d' RAB EP|a b RAB]; cbn in A, B;
      destruct f as [i0|c|z0|k0 x0 lb|k0]; try contradiction; destruct e as [j0|c'|w0|k1 x1 lb'|k1]; try contradiction; cbn.
    - destruct A. congruence.
    - destruct A. congruence.
    - destruct B. congruence.
    - destruct A as (A1 & A2 & A3 & n & x & A4 & A5 & A6), B as (B1 & B2 & B3 & m & y & B4 & B5 & B6). apply cinstr_eqb_eq. repeat split; try congruence.
      rewrite A4, B4 in EP. rewrite A6, B6. f_equal. eapply place_index; eauto.
    - destruct A as [-> A], B as [-> B]. unfold instr_eqb. rewrite (proj2 (oloc_eqb_eq _ _) EL), (proj2 (String.eqb_eq _ _) EN).
      pose proof (takes_iff i (NX i eq_refl)) as TI. pose proof (takes_iff j (NY j eq_refl)) as TJ. rewrite <- EN in TJ.
      destruct (z_mem (i_op i) (t_hasconst T)).
      + rewrite (proj2 TJ (proj1 TI eq_refl)). cbn. apply EK. now apply TI.
      + assert (NC : ~ takes_const T (i_name i)) by (intros K; apply TI in K; discriminate).
        destruct (z_mem (i_op j) (t_hasconst T)); [exfalso; apply NC; now apply TJ|]. cbn. now apply EA.
    - destruct A as [_ A], B as [B _]. congruence.
    - destruct A as [A _]. congruence.
    - destruct A as (A & _). congruence.
    - subst. apply Z.eqb_refl.
    - destruct A as (-> & A1 & n & -> & A2), B as (-> & B1 & m & -> & B2). rewrite (RR _ _ RAB) in A1. rewrite A1 in B1. injection B1 as ->. rewrite Nat.eqb_refl.
      rewrite (place_index _ _ EP _ _ A2 B2), Z.eqb_refl, Bool.eqb_reflx. reflexivity.
    - rewrite (RR _ _ RAB) in A. rewrite A in B. injection B as ->. apply Nat.eqb_refl.
  Qed.

  Lemma numbers_same (R : nat -> nat -> Prop) x y : one_to_one R -> Forall2 (same_element T keq g h R) x y -> forall tg th, length tg = length th ->
    (forall a b, R a b -> dget Nat.eqb tg a = dget Nat.eqb th b) -> forall a b, R a b -> dget Nat.eqb (numbers tg x) a = dget Nat.eqb (numbers th y) b.
  Proof.
    intros O F. induction F as [|p q x y E F IHF]; intros tg th L H a b RAB; [exact (H a b RAB)|].
    change (dget Nat.eqb (numbers (number tg p) x) a = dget Nat.eqb (numbers (number th q) y) b).
    destruct E as [i j HI HJ EN EL EP|i j HI HJ EN EL EK EA|z|a' b' t u la d d' R' EP|a' b' R']; try exact (IHF tg th L H a b RAB).
    cbn [number]. rewrite !dmem_get. rewrite <- (H _ _ R'). destruct (dget Nat.eqb tg a') as [k|] eqn:D; [exact (IHF tg th L H a b RAB)|].
    assert (D' : dget Nat.eqb th b' = None) by (rewrite <- (H _ _ R'); exact D).
    apply IHF; auto; [rewrite !dset_length by assumption; congruence|].
    intros a0 b0 R0. destruct (Nat.eq_dec a0 a') as [Q|Q].
    - pose proof (proj1 (O _ _ _ _ R0 R') Q) as Q'. subst. rewrite !dget_dset_same. congruence.
    - assert (Q' : b0 <> b') by (intros X; apply Q; now apply (O _ _ _ _ R0 R')). rewrite !dget_dset_other by assumption. now apply H.
  Qed.
End Flat.
