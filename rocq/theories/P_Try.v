(** Exception entries and locations along a trace of the assembler. *)
From Verif Require Import PyBase OpTable CPy M_Instr M_Tables M_Concrete M_Convert P_Base S_Args
  P_OpTable P_Asm S_Asm P_Conv P_Conv2 P_Jumps P_Jumps2 P_Layout P_Layout2.
Open Scope string_scope.
Open Scope list_scope.
Open Scope Z_scope.

Lemma mapM_nth {A B} (f : A -> res B) l r : mapM f l = Ok r ->
  length r = length l /\
  forall n a, nth_error l n = Some a -> exists b, nth_error r n = Some b /\ f a = Ok b.
Proof.
  revert r. induction l as [|x l IH]; intros r H; cbn [mapM] in H.
  - injection H as <-. split; [reflexivity|]. intros [|n]; discriminate.
  - apply bind_ok in H. destruct H as (y & H1 & H). apply bind_ok in H. destruct H as (ys & H2 & H).
    injection H as <-. destruct (IH _ H2) as [IL IN]. split; [cbn; congruence|].
    intros [|n] a Ha; cbn in Ha.
    + injection Ha as <-. exists y. now split.
    + apply IN. exact Ha.
Qed.

Lemma dset_keys {V} (d : list (nat * V)) k x :
  map fst (dset Nat.eqb d k x) = if dmem Nat.eqb d k then map fst d else map fst d ++ [k].
Proof.
  unfold dmem. induction d as [|[a y] d IH]; cbn; [reflexivity|].
  destruct (Nat.eqb_spec k a) as [->|N]; cbn; [reflexivity|].
  rewrite IH. now destruct (dget Nat.eqb d k).
Qed.
Lemma dmem_In {V} (d : list (nat * V)) k : dmem Nat.eqb d k = true <-> In k (map fst d).
Proof.
  unfold dmem. induction d as [|[a y] d IH]; cbn; [split; [discriminate|tauto]|].
  destruct (Nat.eqb_spec k a) as [->|N]; [tauto|]. rewrite IH. split; [tauto|]. intros [E|I]; congruence.
Qed.

Section S.
  Variables (v : pyver) (T : optable) (keq : pyobj -> pyobj -> bool) (m : meta).
  Notation trace := (trace v T keq m).
  Notation item_effect := (item_effect v T keq m).

  Lemma effect_ex K it body K' : item_effect K it body K' ->
    match it with
    | BTB id target lasti depth => exists d, depth = Some d
         /\ k_ex K' = dset Nat.eqb (k_ex K) id (mkXI (zlen (k_instrs K)) 0 target d lasti)
    | BTE id => exists e, dget Nat.eqb (k_ex K) id = Some e
         /\ k_ex K' = dset Nat.eqb (k_ex K) id
              (mkXI (xi_start e) (zlen (k_instrs K) - 1) (xi_target e) (xi_depth e) (xi_lasti e))
    | _ => k_ex K' = k_ex K
    end.
  Proof.
    destruct it; cbn [P_Conv.item_effect].
    - intros (co & na & va & first & name & arg & kind & c & H). tauto.
    - tauto.
    - tauto.
    - tauto.
    - tauto.
  Qed.

  Lemma trace_ex_keys items K gs Kf : trace items K gs Kf ->
    NoDup (map fst (k_ex K) ++ tb_ids items) -> map fst (k_ex Kf) = map fst (k_ex K) ++ tb_ids items.
  Proof.
    induction 1 as [|it items K1 body K2 tr K3 caches gs Kf HB Hb He HF Hc HT IH]; intros ND.
    - cbn. now rewrite app_nil_r.
    - apply effect_ex in He. apply flush_keep in HF. destruct HF as (_ & _ & HX & _). rewrite HX in IH.
      destruct it as [i|l|z|id target lasti depth|id]; cbn [tb_ids flat_map app] in *;
        fold (tb_ids items) in *; try (rewrite He in IH; auto).
      + destruct He as (d & _ & He). rewrite He, dset_keys in IH.
        assert (D : dmem Nat.eqb (k_ex K1) id = false).
        { destruct (dmem Nat.eqb (k_ex K1) id) eqn:D; [|reflexivity]. apply dmem_In in D.
          apply NoDup_remove_2 in ND. exfalso. apply ND. apply in_app_iff. now left. }
        rewrite D, <- app_assoc in IH. cbn [app] in IH. auto.
      + destruct He as (e & Hg & He). rewrite He, dset_keys in IH.
        assert (D : dmem Nat.eqb (k_ex K1) id = true) by (unfold dmem; now rewrite Hg).
        rewrite D in IH. auto.
  Qed.

  Definition no_try (id : nat) (items : list bitem) : Prop :=
    (forall t la d, ~ In (BTB id t la d) items) /\ ~ In (BTE id) items.

  Lemma trace_ex0 items K gs Kf id : trace items K gs Kf -> no_try id items ->
    dget Nat.eqb (k_ex Kf) id = dget Nat.eqb (k_ex K) id.
  Proof.
    induction 1 as [|it items K1 body K2 tr K3 caches gs Kf HB Hb He HF Hc HT IH]; intros [N1 N2]; [reflexivity|].
    apply effect_ex in He. apply flush_keep in HF. destruct HF as (_ & _ & HX & _).
    rewrite IH, HX.
    2:{ split; [intros t la d I; apply (N1 t la d); now right|intros I; apply N2; now right]. }
    destruct it as [i|l|z|id' target lasti depth|id']; try now rewrite He.
    - destruct He as (d & _ & ->). rewrite dget_dset. destruct (Nat.eqb_spec id id') as [<-|]; [|reflexivity].
      exfalso. eapply N1. now left.
    - destruct He as (e & _ & ->). rewrite dget_dset. destruct (Nat.eqb_spec id id') as [<-|]; [|reflexivity].
      exfalso. apply N2. now left.
  Qed.

  Lemma skip_notin {A} (x : A) items q : (forall q', nth_error items q' = Some x -> q' = q) ->
    (forall q', nth_error (skipn (S q) items) q' <> Some x).
  Proof.
    intros U q' E. assert (nth_error items (S q + q') = Some x).
    { rewrite <- E. clear. revert items. induction (S q) as [|n IH]; intros items; [reflexivity|].
      destruct items; [destruct q'; reflexivity|]. cbn. apply IH. }
    apply U in H. lia.
  Qed.

  Lemma trace_ex1 items K gs Kf id e q : trace items K gs Kf ->
    (forall t la d, ~ In (BTB id t la d) items) ->
    nth_error items q = Some (BTE id) -> (forall q', nth_error items q' = Some (BTE id) -> q' = q) ->
    dget Nat.eqb (k_ex K) id = Some e ->
    dget Nat.eqb (k_ex Kf) id =
      Some (mkXI (xi_start e) (zlen (k_instrs K) + Z.of_nat (start gs q) - 1) (xi_target e) (xi_depth e) (xi_lasti e)).
  Proof.
    intros HT. revert q e.
    induction HT as [|it items K1 body K2 tr K3 caches gs Kf HB Hb He HF Hc HT IH]; intros q e N1 Hq U D.
    - destruct q; discriminate.
    - apply effect_ex in He. apply flush_keep in HF. destruct HF as (_ & _ & HX & _).
      destruct q as [|q].
      + cbn in Hq. injection Hq as ->. rewrite (trace_ex0 _ _ _ _ id HT).
        2:{ split; [intros t la d I; apply (N1 t la d); now right|].
            intros I. apply In_nth_error in I. destruct I as (n & I). specialize (U (S n) I). discriminate. }
        destruct He as (e' & He1 & He2). rewrite D in He1. injection He1 as <-.
        rewrite HX, He2, dget_dset, Nat.eqb_refl, start_0. do 2 f_equal. lia.
      + cbn in Hq. rewrite (IH q e).
        * rewrite start_cons, Hc, Hb, !zlen_app, app_length. unfold zlen. do 2 f_equal. lia.
        * intros t la d I. apply (N1 t la d). now right.
        * exact Hq.
        * intros q' Hq'. specialize (U (S q') Hq'). congruence.
        * rewrite HX. destruct it as [i|l|z|id' target lasti depth|id']; try now rewrite He.
          { destruct He as (d & _ & ->). rewrite dget_dset. destruct (Nat.eqb_spec id id') as [<-|]; [|assumption].
            exfalso. eapply N1. now left. }
          { destruct He as (e' & _ & ->). rewrite dget_dset. destruct (Nat.eqb_spec id id') as [<-|]; [|assumption].
            specialize (U 0%nat eq_refl). discriminate. }
  Qed.

  Lemma trace_ex2 items K gs Kf id p q t la dp : trace items K gs Kf ->
    nth_error items p = Some (BTB id t la dp) ->
    (forall p' t' la' d', nth_error items p' = Some (BTB id t' la' d') -> p' = p) ->
    nth_error items q = Some (BTE id) -> (forall q', nth_error items q' = Some (BTE id) -> q' = q) ->
    (p < q)%nat ->
    exists d, dp = Some d /\
    dget Nat.eqb (k_ex Kf) id =
      Some (mkXI (zlen (k_instrs K) + Z.of_nat (start gs p))
                 (zlen (k_instrs K) + Z.of_nat (start gs q) - 1) t d la).
  Proof.
    intros HT. revert p q.
    induction HT as [|it items K1 body K2 tr K3 caches gs Kf HB Hb He HF Hc HT IH]; intros p q Hp Up Hq Uq L.
    - destruct p; discriminate.
    - pose proof (effect_ex _ _ _ _ He) as Hx. apply flush_keep in HF. destruct HF as (_ & _ & HX & _).
      destruct p as [|p]; destruct q as [|q]; try lia; cbn in Hp, Hq.
      + injection Hp as ->. destruct Hx as (d & Hd & Hx). exists d. split; [exact Hd|].
        rewrite (trace_ex1 _ _ _ _ id (mkXI (zlen (k_instrs K1)) 0 t d la) q HT).
        * cbn [xi_start xi_target xi_depth xi_lasti].
          rewrite start_cons, start_0, Hc, Hb, !zlen_app, app_length. unfold zlen.
          do 2 f_equal; lia.
        * intros t' la' d' I. apply In_nth_error in I. destruct I as (n & I).
          specialize (Up (S n) _ _ _ I). discriminate.
        * exact Hq.
        * intros q' Hq'. specialize (Uq (S q') Hq'). congruence.
        * rewrite HX, Hx, dget_dset, Nat.eqb_refl. reflexivity.
      + destruct (IH p q) as (d & Hd & H); auto.
        { intros p' t' la' d' H. specialize (Up (S p') _ _ _ H). congruence. }
        { intros q' H. specialize (Uq (S q') H). congruence. }
        { lia. }
        exists d. split; [exact Hd|]. rewrite H, !start_cons, Hc, Hb, !zlen_app, app_length. unfold zlen.
        do 2 f_equal; lia.
  Qed.

  (** *** Locations *)
  Definition next_loc (lo : loc) (it : bitem) : loc :=
    match it with
    | BSet z => line_loc (Some z)
    | BI i => match i_loc i with Some l => l | None => lo end
    | _ => lo
    end.

  Lemma effect_loc K it body K' : item_effect K it body K' -> k_loc K' = next_loc (k_loc K) it
    /\ Forall (fun c => c_loc c = Some (k_loc K')) body.
  Proof.
    destruct it; cbn [P_Conv.item_effect next_loc].
    - intros (co & na & va & first & name & arg & kind & c & E & Hn & Hf & _ & _ & _ & Hl & _).
      split; [exact Hl|]. rewrite Hl. apply new_cinstr_ok in Hn. destruct Hn as (_ & _ & _ & Hn & _).
      destruct first as [[n1 j1]|].
      + destruct Hf as (c1 & H1 & ->). apply new_cinstr_ok in H1. destruct H1 as (_ & _ & _ & H1 & _).
        repeat constructor; assumption.
      + subst body. repeat constructor; assumption.
    - intuition (subst; auto).
    - intuition (subst; auto).
    - intuition (subst; auto).
    - intuition (subst; auto).
  Qed.

  Lemma trace_loc items K gs Kf p i body caches : trace items K gs Kf ->
    nth_error items p = Some (BI i) -> nth_error gs p = Some (body ++ caches) ->
    forall K1 K2, item_effect K1 (BI i) body K2 ->
    k_loc K1 = fold_left next_loc (firstn p items) (k_loc K) -> 
    Forall (fun c => c_loc c = Some (fold_left next_loc (firstn (S p) items) (k_loc K))) body.
  Proof.
    intros HT Hp Hg K1 K2 He HK. apply effect_loc in He. destruct He as [He1 He2].
    assert (firstn (S p) items = firstn p items ++ [BI i]) as ->.
    { clear -Hp. revert p Hp. induction items as [|x items IH]; intros [|p] Hp; try discriminate.
      - injection Hp as ->. reflexivity.
      - cbn in Hp. change (firstn (S (S p)) (x :: items)) with (x :: firstn (S p) items).
        rewrite (IH p Hp). reflexivity. }
    rewrite fold_left_app, <- HK. cbn [fold_left]. rewrite <- He1. exact He2.
  Qed.

  Lemma trace_nth_loc items K gs Kf : trace items K gs Kf ->
    forall p i, nth_error items p = Some (BI i) ->
    exists body caches K1 K2, nth_error gs p = Some (body ++ caches) /\ item_effect K1 (BI i) body K2
      /\ body <> []
      /\ Forall (fun c => c_loc c = Some (fold_left next_loc (firstn (S p) items) (k_loc K))) body.
  Proof.
    induction 1 as [|it items K1 body K2 tr K3 caches gs Kf HB Hb He HF Hc HT IH]; intros p i Hp.
    - destruct p; discriminate.
    - pose proof (effect_loc _ _ _ _ He) as [Hl1 Hl2]. pose proof (flush_keep _ _ _ _ _ _ HF) as (_ & _ & _ & _ & _ & HX).
      destruct p as [|p]; cbn in Hp.
      + injection Hp as ->. exists body, caches, K1, K2. repeat split; auto.
        * cbn [P_Conv.item_effect] in He. destruct He as (co & na & va & first & name & arg & kind & c & _ & _ & Hf & _).
          destruct first as [[n1 j1]|]; [destruct Hf as (c1 & _ & ->)|subst body]; discriminate.
        * cbn [firstn fold_left]. rewrite <- Hl1. exact Hl2.
      + destruct (IH p i Hp) as (bo & ca & A1 & A2 & G & E & NE & F). exists bo, ca, A1, A2.
        repeat split; auto. rewrite HX, Hl1 in F. exact F.
  Qed.
End S.
