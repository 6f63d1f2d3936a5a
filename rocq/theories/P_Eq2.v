(** Equal instruction lists are the same program; renaming. *)
From Verif Require Import PyBase OpTable M_Instr M_Tables M_Concrete M_Convert M_Bytecode S_Prog S_Eq P_Base P_OpTable P_Conv2 P_Eq.
Open Scope string_scope.
Open Scope list_scope.
Open Scope Z_scope.

Fixpoint rank (l : list bitem) (k : nat) : nat :=
  match l with
  | [] => 0%nat
  | it :: r => if counted it then match k with O => 0%nat | S k' => (ninstrs [it] + rank r k')%nat end
               else rank r k
  end.
Lemma rank_0 l : rank l 0 = 0%nat.
Proof. induction l as [|it l IH]; cbn; [reflexivity|]. now destruct (counted it). Qed.
Lemma position_rank l n : position l n = option_map (rank l) (lastoff l n).
Proof.
  induction l as [|it l IH]; [reflexivity|]. cbn [position lastoff]. rewrite IH.
  destruct (lastoff l n) as [k|]; cbn [option_map].
  - destruct it; reflexivity.
  - destruct it; try reflexivity. destruct (Nat.eqb n n0); cbn; [now rewrite rank_0|reflexivity].
Qed.

Section Same.
  Variables (T : optable) (keq : pyobj -> pyobj -> bool).

  Definition irel (La Lb : list bitem) (x y : bitem) : Prop :=
    match x, y with
    | BLabel _, BLabel _ => True
    | BTE _, BTE _ => True
    | BSet z, BSet w => z = w
    | BTB _ t la _, BTB _ t' la' _ => la = la' /\ exists n m k, t = OLabel n /\ t' = OLabel m
        /\ lastoff La n = Some k /\ lastoff Lb m = Some k
    | BI i, BI j => i_name i = i_name j /\ i_loc i = i_loc j
        /\ ((exists n m k, i_arg i = OLabel n /\ i_arg j = OLabel m
             /\ lastoff La n = Some k /\ lastoff Lb m = Some k)
            \/ ((forall n, i_arg i <> OLabel n) /\ (forall n, i_arg j <> OLabel n) /\ instr_eqb T keq i j = true))
    | _, _ => False
    end.

  Lemma eq_irel La Lb : forall a b oa ob, Forall2 (frel La) a oa -> Forall2 (frel Lb) b ob ->
    Forall2 (fun x y => flat_eqb T keq x y = true) oa ob -> Forall2 (irel La Lb) a b.
  Proof.
    intros a b oa ob A. revert b ob. induction A as [|x f a oa R A IH]; intros b ob B E.
    - inversion E; subst. inversion B; subst. constructor.
    - inversion E as [|? g ? ob' Q E']; subst. inversion B as [|y ? b' ? R' B']; subst.
      constructor; [|eapply IH; eassumption].
      destruct x, f; cbn in R; try contradiction; destruct g; cbn in Q; try discriminate; destruct y; cbn in R'; try contradiction; cbn; auto.
      + destruct R as [<- N], R' as [<- N']. pose proof Q as Q'. unfold instr_eqb in Q.
        rewrite !andb_true_iff, oloc_eqb_eq, String.eqb_eq in Q. destruct Q as [[-> ->] _]. split; [reflexivity|split; [reflexivity|right; auto]].
      + destruct R as (n & k & R1 & R2 & R3 & R4 & R5), R' as (m & k' & S1 & S2 & S3 & S4 & S5).
        apply cinstr_eqb_eq in Q. destruct Q as (Q1 & Q2 & Q3). split; [congruence|split; [congruence|left]].
        exists n, m, k. repeat split; auto. rewrite S2. f_equal.
        rewrite R5, S5 in Q3. injection Q3. lia.
      + apply Z.eqb_eq in Q. congruence.
      + destruct R as (na & R1 & R2 & R3), R' as (ma & S1 & S2 & S3).
        rewrite !andb_true_iff, !Nat.eqb_eq, eqb_true_iff in Q. destruct Q as [[Q1 Q2] Q3].
        split; [congruence|]. exists na, ma, target0. repeat split; auto. congruence.
  Qed.

  Lemma irel_rank La Lb a b : Forall2 (irel La Lb) a b -> forall k, rank a k = rank b k.
  Proof.
    induction 1 as [|x y a b R F IH]; intros k; [reflexivity|].
    destruct x, y; cbn in R; try contradiction; cbn; try apply IH; destruct k; rewrite ?IH; reflexivity.
  Qed.

  Lemma irel_walk La Lb : (forall k, rank La k = rank Lb k) ->
    forall a b, Forall2 (irel La Lb) a b -> named T a -> forall h,
    Forall2 (same_pitem T keq) (walk (position La) h a) (walk (position Lb) h b).
  Proof.
    intros RK a b F. induction F as [|x y a b R F IH]; intros NA h; [constructor|].
    assert (NA' : named T a) by (intros i J; apply NA; now right).
    assert (POS : forall n m k, lastoff La n = Some k -> lastoff Lb m = Some k ->
        position La n = position Lb m /\ position La n <> None).
    { intros n m k A B. rewrite !position_rank, A, B. cbn. rewrite RK. split; [reflexivity|discriminate]. }
    destruct x, y; cbn in R; try contradiction; cbn; auto.
    - destruct R as (N & L & D). constructor; [|now apply IH]. cbn. repeat split; auto.
      destruct D as [(n & m & k & -> & -> & A & B)|(NI & NJ & Q)].
      + destruct (POS _ _ _ A B) as [P1 P2]. cbn. auto.
      + assert (AI : arg_of (position La) (i_arg i) = PObj (i_arg i)) by (destruct (i_arg i); try reflexivity; now destruct (NI n)).
        assert (AJ : arg_of (position Lb) (i_arg i0) = PObj (i_arg i0)) by (destruct (i_arg i0); try reflexivity; now destruct (NJ n)).
        rewrite AI, AJ. cbn. unfold instr_eqb in Q. rewrite !andb_true_iff in Q. destruct Q as [_ Q].
        assert (OP := NA i (or_introl eq_refl)).
        destruct (z_mem (i_op i) (t_hasconst T)) eqn:Z.
        * apply andb_true_iff in Q. split; [tauto|]. intros NC. destruct NC. exists (i_op i). split; [exact OP|]. now apply z_mem_In.
        * split; [|apply andb_true_iff in Q; tauto]. intros (op & O & I). rewrite OP in O. injection O as <-.
          apply z_mem_In in I. congruence.
    - destruct R as (-> & n & m & k & -> & -> & A & B). cbn. destruct (POS _ _ _ A B) as [-> _]. now apply IH.
  Qed.
End Same.

Lemma eq_same_program v T keq a b : named T (b_items a) ->
  bytecode_eq v T keq a b = Ok true -> same_program T keq (b_items a) (b_items b).
Proof.
  unfold bytecode_eq. intros NA E. apply bind_ok in E. destruct E as (x & X & E).
  apply bind_ok in E. destruct E as (y & Y & E). assert (E' : list_eqb (flat_eqb T keq) x y = true) by congruence.
  clear E. apply list_eqb_F in E'. apply flat_spec in X, Y.
  pose proof (eq_irel T keq _ _ _ _ _ _ X Y E') as I. unfold same_program, program.
  apply irel_walk; auto. eapply irel_rank. exact I.
Qed.

(** ** Equivalence *)
Lemma flat_no0 v T l out : flat v T l = Ok out -> Forall (fun f => match f with FTB0 _ _ _ | FJump0 _ _ => False | _ => True end) out.
Proof.
  intros E. apply flat_spec in E. revert E. generalize l at 1. intros L E.
  induction E as [|it f ? ? R E IH]; constructor; auto. destruct f, it; cbn in R; try exact Logic.I; contradiction.
Qed.

Lemma eq_refl_ok v T keq b out : equivalence keq -> flat v T (b_items b) = Ok out -> bytecode_eq v T keq b b = Ok true.
Proof.
  intros KE E. unfold bytecode_eq. rewrite E. cbn. f_equal. apply list_eqb_F. apply flat_no0 in E.
  induction E as [|f l H E IH]; constructor; auto.
  destruct f; cbn; try contradiction; rewrite ?Nat.eqb_refl, ?Z.eqb_refl, ?eqb_reflx; try reflexivity.
  - now apply instr_eqb_refl.
  - now apply cinstr_eqb_eq.
Qed.

Lemma F2_sym {A} (R : A -> A -> Prop) l m : (forall x y, R x y -> R y x) -> Forall2 R l m -> Forall2 R m l.
Proof. intros S. induction 1; constructor; auto. Qed.
Lemma F2_trans {A} (R : A -> A -> Prop) : (forall x y z, R x y -> R y z -> R x z) -> forall l m n,
  Forall2 R l m -> Forall2 R m n -> Forall2 R l n.
Proof.
  intros TR l m n F. revert n. induction F; intros k G; inversion G; subst; constructor; eauto.
Qed.

Lemma eq_sym_ok v T keq a b r : equivalence keq -> bytecode_eq v T keq a b = Ok r -> bytecode_eq v T keq b a = Ok r.
Proof.
  intros KE. unfold bytecode_eq. intros E. inv_ok. rewrite E1, E0. cbn. f_equal.
  apply eq_true_iff_eq. rewrite !list_eqb_F. split; apply F2_sym; intros; now apply flat_eqb_sym.
Qed.
Lemma eq_trans_ok v T keq a b c : equivalence keq -> bytecode_eq v T keq a b = Ok true ->
  bytecode_eq v T keq b c = Ok true -> bytecode_eq v T keq a c = Ok true.
Proof.
  intros KE. unfold bytecode_eq. intros E F.
  apply bind_ok in E. destruct E as (x & X & E). apply bind_ok in E. destruct E as (y & Y & E).
  rewrite Y in F. cbn in F. apply bind_ok in F. destruct F as (z & Z & F).
  rewrite X, Z. cbn. f_equal. assert (E' : list_eqb (flat_eqb T keq) x y = true) by congruence.
  assert (F' : list_eqb (flat_eqb T keq) y z = true) by congruence. apply list_eqb_F in E', F'. apply list_eqb_F.
  eapply F2_trans; eauto. intros; now apply (flat_eqb_trans T keq KE x0 y0 z0).
Qed.

(** ** Renaming *)
Section Rename.
  Variables (v : pyver) (T : optable) (f g : nat -> nat).
  Hypotheses (FI : injective f) (GI : injective g).

  Definition same_dict (h : nat -> nat) (d d' : list (nat * nat)) : Prop :=
    length d = length d' /\ forall n, dget Nat.eqb d' (h n) = dget Nat.eqb d n.

  Definition rflat (x : flat0) : flat0 :=
    match x with FTB0 k n la => FTB0 k (f n) la | FJump0 n c => FJump0 (f n) c | _ => x end.

  Lemma dset_len {V} (d : list (nat * V)) k x :
    length (dset Nat.eqb d k x) = (length d + if dmem Nat.eqb d k then 0 else 1)%nat.
  Proof.
    unfold dmem. induction d as [|[a y] d IH]; [reflexivity|]. cbn.
    destruct (Nat.eqb k a); cbn; [lia|]. rewrite IH. lia.
  Qed.

  Lemma same_dict_set h d d' n x : injective h -> same_dict h d d' ->
    same_dict h (dset Nat.eqb d n x) (dset Nat.eqb d' (h n) x).
  Proof.
    intros HI [L S]. split.
    - rewrite !dset_len. unfold dmem. now rewrite S, L.
    - intros m. rewrite !dget_dset, S. destruct (Nat.eqb_spec m n) as [->|N].
      + now rewrite Nat.eqb_refl.
      + destruct (Nat.eqb_spec (h m) (h n)) as [Q|]; [now apply HI in Q|reflexivity].
  Qed.

  Lemma flat_loop_ren l : forall seen index offset tbs tbs' labels labels',
    same_dict g tbs tbs' -> same_dict f labels labels' ->
    match flat_loop v T seen index offset tbs labels l with
    | Err e => flat_loop v T seen index offset tbs' labels' (map (rename_item f g) l) = Err e
    | Ok (out, lb) => exists lb', flat_loop v T seen index offset tbs' labels' (map (rename_item f g) l) = Ok (map rflat out, lb')
        /\ same_dict f lb lb'
    end.
  Proof.
    induction l as [|it l IH]; intros seen index offset tbs tbs' labels labels' ST SL.
    { cbn. now exists labels'. }
    destruct it as [i|n|z|id t la d|id]; cbn [flat_loop map rename_item iter_check bind i_arg i_name i_loc].
    - destruct (i_arg i) eqn:IA; cbn [rename_arg bind];
        try (specialize (IH seen (S index) (S offset) _ _ _ _ ST SL);
             destruct (flat_loop v T seen (S index) (S offset) tbs labels l) as [[out lb]|e]; cbn;
             [destruct IH as (lb' & -> & S'); cbn; exists lb'; split; [|exact S'];
              destruct i as [? ? ? ?]; cbn in IA; subst; reflexivity|now rewrite IH]).
      destruct (new_cinstr v T (i_name i) (OInt 0) (i_loc i) None) as [c|e]; cbn; [|reflexivity].
      specialize (IH seen (S index) (S offset) _ _ _ _ ST SL).
      destruct (flat_loop v T seen (S index) (S offset) tbs labels l) as [[out lb]|e]; cbn; [|now rewrite IH].
      destruct IH as (lb' & -> & S'). cbn. now exists lb'.
    - pose proof (same_dict_set f _ _ n offset FI SL) as SL'.
      specialize (IH seen (S index) offset _ _ _ _ ST SL').
      destruct (flat_loop v T seen (S index) offset tbs (dset Nat.eqb labels n offset) l) as [[out lb]|e]; cbn; [|now rewrite IH].
      destruct IH as (lb' & -> & S'). cbn. now exists lb'.
    - specialize (IH seen (S index) (S offset) _ _ _ _ ST SL).
      destruct (flat_loop v T seen (S index) (S offset) tbs labels l) as [[out lb]|e]; cbn; [|now rewrite IH].
      destruct IH as (lb' & -> & S'). cbn. now exists lb'.
    - destruct seen; [reflexivity|]. cbn [bind].
      assert (DM : dmem Nat.eqb tbs' (g id) = dmem Nat.eqb tbs id) by (unfold dmem; now rewrite (proj2 ST)).
      rewrite DM.
      assert (ST' : same_dict g (if dmem Nat.eqb tbs id then tbs else dset Nat.eqb tbs id (length tbs))
                              (if dmem Nat.eqb tbs id then tbs' else dset Nat.eqb tbs' (g id) (length tbs'))).
      { destruct (dmem Nat.eqb tbs id); [exact ST|]. rewrite <- (proj1 ST). now apply same_dict_set. }
      rewrite (proj2 ST'). destruct (dget Nat.eqb _ id) as [k|]; cbn; [|reflexivity].
      destruct t; cbn; try reflexivity.
      specialize (IH true (S index) offset _ _ _ _ ST' SL).
      destruct (flat_loop v T true (S index) offset _ labels l) as [[out lb]|e]; cbn; [|now rewrite IH].
      destruct IH as (lb' & -> & S'). cbn. now exists lb'.
    - rewrite (proj2 ST). destruct (dget Nat.eqb tbs id) as [k|]; cbn; [|reflexivity].
      specialize (IH false (S index) offset _ _ _ _ ST SL).
      destruct (flat_loop v T false (S index) offset tbs labels l) as [[out lb]|e]; cbn; [|now rewrite IH].
      destruct IH as (lb' & -> & S'). cbn. now exists lb'.
  Qed.

  Lemma flat_jump_ren lb lb' x : same_dict f lb lb' ->
    flat_jump v T lb' (rflat x) = match flat_jump v T lb x with Ok y => Ok (rflat y) | Err e => Err e end.
  Proof.
    intros [_ S]. destruct x; try reflexivity. cbn. rewrite S. destruct (dget Nat.eqb lb label); [|reflexivity].
    cbn. now destruct (set_arg v T c (Z.of_nat n)).
  Qed.
  Lemma flat_try_ren lb lb' x : same_dict f lb lb' -> (forall n c, x <> FJump0 n c) ->
    flat_try lb' (rflat x) = flat_try lb x.
  Proof. intros [_ S] N. destruct x; try reflexivity; [cbn; now rewrite S|now destruct (N label c)]. Qed.

  Lemma flat_rename l : flat v T (map (rename_item f g) l) = flat v T l.
  Proof.
    unfold flat. assert (S0 : forall h, same_dict h [] []) by (split; reflexivity).
    pose proof (flat_loop_ren l false 0 0 [] [] [] [] (S0 g) (S0 f)) as H.
    destruct (flat_loop v T false 0 0 [] [] l) as [[out lb]|e]; [|now rewrite H].
    destruct H as (lb' & -> & S). cbn.
    assert (M1 : mapM (flat_jump v T lb') (map rflat out) = match mapM (flat_jump v T lb) out with Ok y => Ok (map rflat y) | Err e => Err e end).
    { clear - S. induction out as [|x out IH]; [reflexivity|]. cbn. rewrite (flat_jump_ren _ _ _ S).
      destruct (flat_jump v T lb x); cbn; [|reflexivity]. rewrite IH. now destruct (mapM (flat_jump v T lb) out). }
    rewrite M1. destruct (mapM (flat_jump v T lb) out) as [o2|e] eqn:E2; [|reflexivity]. cbn.
    apply mapM_F in E2.
    assert (NJ : Forall (fun x => forall n c, x <> FJump0 n c) o2).
    { clear - E2. induction E2 as [|x y ? ? Q E2 IH]; constructor; auto. intros n c ->. destruct x; cbn in Q; try congruence.
      apply bind_ok in Q. destruct Q as (k & _ & Q). apply bind_ok in Q. destruct Q as (c' & _ & Q). discriminate. }
    clear - S NJ. induction NJ as [|x o2 N NJ IH]; [reflexivity|]. cbn. rewrite (flat_try_ren _ _ _ S N), IH. reflexivity.
  Qed.
End Rename.
