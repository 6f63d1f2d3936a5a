(** ControlFlowGraph.to_bytecode: the stack depth of the try block an instruction is in. *)
From Verif Require Import PyBase OpTable P_Base M_Instr M_Concrete M_Convert M_Bytecode M_Cfg S_Prog S_Cfg S_Code P_Cfg P_CfgSeq P_CfgFrom P_CfgFrom2 P_CfgFrom3 P_CfgFrom4 P_CfgTo P_CfgTo2 P_CfgTo3.
Open Scope list_scope.
Open Scope Z_scope.

(** The number of the TryBegin every instruction is under *)
Fixpoint cov (o : option nat) (l : list bitem) : list (option nat) :=
  match l with
  | [] => []
  | BI _ :: r => o :: cov o r
  | BTB id _ _ _ :: r => cov (Some id) r
  | BTE _ :: r => cov None r
  | _ :: r => cov o r
  end.
Lemma cov_app l1 l2 : forall o u, cov o (l1 ++ l2) = cov o l1 ++ cov (fst (pst o u l1)) l2.
Proof. induction l1 as [|x r IH]; intros o u; [reflexivity|]. destruct x; cbn; try (rewrite (IH o u); reflexivity); try apply IH. Qed.
Lemma cov_set k d l : forall o, cov o (set_depth k d l) = cov o l.
Proof. induction l as [|x r IH]; intros o; [reflexivity|]. destruct x; cbn; rewrite ?IH; auto. destruct (Nat.eqb k id); cbn; auto. Qed.
Lemma cov_quiet l o : (forall x, In x l -> quiet x) -> cov o l = [].
Proof.
  induction l as [|x r IH]; intros Q; [reflexivity|].
  assert (E : cov o r = []) by (apply IH; intros; apply Q; now right).
  assert (X := Q x (or_introl eq_refl)). destruct x; cbn in X; try contradiction; exact E.
Qed.

(** What try_depths gives, by the number of the TryBegin *)
Definition names (l : list bitem) (c : option nat) (d : option (option Z)) : Prop :=
  match c, d with None, None => True | Some k, Some d => exists t la, In (BTB k t la d) l | _, _ => False end.
Lemma cov_depths l0 : forall l c d, (forall x, In x l -> In x l0) -> names l0 c d -> Forall2 (names l0) (cov c l) (try_depths d l).
Proof.
  induction l as [|x r IH]; intros c d H N; [constructor|].
  assert (H' : forall x, In x r -> In x l0) by (intros; apply H; now right).
  destruct x as [i|n|z|id t la d'|id]; cbn; auto.
  - apply IH; auto. cbn. exists t, la. apply H. now left.
  - apply IH; auto. exact Logic.I.
Qed.

Definition merge (de d : option Z) : res (option Z) :=
  match de with
  | None => match d with None => Ok None | Some _ => Err AssertionError end
  | Some _ => depth_min de d
  end.

Section To.
  Context (f : pyobj -> parg) (g : cfg) (L : list bitem) (R : option Z -> option Z -> Prop).
  Hypothesis PL : paired None [] (dd [] L) = true.
  Hypothesis FT : forall id, find_tb id (all_items g) = find_tb id L.
  Hypothesis FB : forall id t la d, In (BTB id t la d) L -> exists n, t = OBlock n.
  Hypothesis RR : forall d, R d d.
  Hypothesis RM : forall a c id t la d id0 d0 e de d', L = a ++ BTB id t la d :: c -> In (BTB id0 t la d0) a -> In (BTB e t la de) a ->
    merge de d = Ok d' -> R d0 d' /\ R d d'.

  Definition under (tbs : list (nat * nat)) (a b : option nat) : Prop :=
    match a, b with None, None => True | Some id, Some k => dget Nat.eqb tbs id = Some k | _, _ => False end.

  Record deinv (p : list bitem) (S : tstate) : Prop := {
    e_cov : Forall2 (under (t_tbs S)) (cov None (dd [] p)) (cov None (t_out S));
    e_new : forall id k, dget Nat.eqb (t_tbs S) id = Some k -> (k < t_fresh S)%nat;
    e_lte : forall e k, t_lte S = Some (e, k, false) -> dget Nat.eqb (t_tbs S) e = Some k;
    e_dep : forall id k t la d t' la' d', dget Nat.eqb (t_tbs S) id = Some k -> find_tb id L = Some (t, la, d) ->
      In (BTB k t' la' d') (t_out S) -> t' = t /\ la' = la /\ R d d' }.

  Lemma under_more tbs id k l l' : dget Nat.eqb tbs id = None -> Forall2 (under tbs) l l' -> Forall2 (under (dset Nat.eqb tbs id k)) l l'.
  Proof.
    intros N. induction 1 as [|a b l l' U _ IH]; constructor; auto. destruct a as [a|], b as [b|]; cbn in *; auto.
    rewrite dg_set. destruct (Nat.eqb a id) eqn:Q; [|exact U]. apply Nat.eqb_eq in Q. congruence.
  Qed.

  Lemma dd_in_inv l x : forall s, In x (dd s l) -> In x l.
  Proof.
    induction l as [|y r IH]; intros s J; [exact J|]. destruct y; cbn in J; try (destruct J as [J|J]; [now left|right; eauto]).
    destruct (nat_mem id s); [right; eauto|]. destruct J as [J|J]; [now left|right; eauto].
  Qed.

  Lemma known_before p rest tbs : toinv f L p tbs -> L = p ++ rest -> forall id t la d,
    dget Nat.eqb (t_tbs tbs) id <> None -> find_tb id L = Some (t, la, d) -> In (BTB id t la d) p.
  Proof.
    intros V E id t la d D F. apply (o_dom _ _ _ _ V) in D. apply pst_ids in D. destruct D as [[]|(t1 & la1 & d1 & J)].
    apply dd_in_inv in J. rewrite E, find_tb_app in F. destruct (find_tb id p) as [[[t2 la2] d2]|] eqn:Q.
    - injection F as -> -> ->. now apply find_tb_in.
    - exfalso. clear - J Q. induction p as [|y r IH]; [destruct J|]. destruct J as [->|J]; cbn in Q; [rewrite Nat.eqb_refl in Q; discriminate|].
      destruct y; auto. destruct (Nat.eqb id id0); [discriminate|auto].
  Qed.

  Lemma de_step p x rest S S' : toinv f L p S -> deinv p S -> L = p ++ x :: rest -> to_elem g S x = Ok S' -> deinv (p ++ [x]) S'.
  Proof.
    intros V W E H.
    assert (PD : paired None [] (dd [] p ++ match x with BTE k => if nat_mem k (ends_of p) then [] else [x] | _ => [x] end) = true).
    { assert (X := PL). rewrite E in X. change (p ++ x :: rest) with (p ++ [x] ++ rest) in X. rewrite app_assoc, dd_app in X.
      rewrite paired_app in X. apply andb_true_iff in X. destruct X as [X _]. now rewrite dd_snoc in X. }
    assert (KB := known_before p (x :: rest) S V E).
    destruct S as [out tbs seen fresh ltb lte]. destruct V as [_ _ _ Vs Vd Vl _ Ve _ Vp Vq Vf _]. destruct W as [Wc Wn We Wd].
    cbn [t_out t_tbs t_seen t_fresh t_ltb t_lte] in *.
    destruct x as [i|n|z|id t la d|id]; cbn [to_elem] in H.
    - injection H as <-. constructor; cbn [t_out t_tbs t_seen t_fresh t_ltb t_lte]; auto; [|discriminate|].
      + rewrite dd_snoc, !(cov_app _ _ None []), Vq. cbn [cov]. apply Forall2_app; [exact Wc|]. constructor; [|constructor].
        destruct (fst (pst None [] (dd [] p))) as [id|] eqn:O; [|exact Logic.I]. cbn.
        assert (D : dget Nat.eqb tbs id <> None) by (apply Vd, pst_open_in; [discriminate|exact O]).
        destruct (dget Nat.eqb tbs id); [reflexivity|congruence].
      + intros id k t la d t' la' d' A B J. apply in_app_iff in J. destruct J as [J|[J|[]]]; [eauto|discriminate].
    - injection H as <-. constructor; cbn [t_out t_tbs t_seen t_fresh t_ltb t_lte]; auto.
      + rewrite dd_snoc, !(cov_app _ _ None []). cbn [cov]. now rewrite !app_nil_r.
      + intros id k t la d t' la' d' A B J. apply in_app_iff in J. destruct J as [J|[J|[]]]; [eauto|discriminate].
    - injection H as <-. constructor; cbn [t_out t_tbs t_seen t_fresh t_ltb t_lte]; auto.
      + rewrite dd_snoc, !(cov_app _ _ None []). cbn [cov]. now rewrite !app_nil_r.
      + intros id k t la d t' la' d' A B J. apply in_app_iff in J. destruct J as [J|[J|[]]]; [eauto|discriminate].
    - (* TryBegin *)
      rewrite paired_app in PD. apply andb_true_iff in PD. destruct PD as [PD1 PD]. cbn [paired] in PD.
      rewrite andb_true_r in PD. apply andb_true_iff in PD. destruct PD as [PO PN]. apply negb_true_iff in PN.
      assert (ON : fst (pst None [] (dd [] p)) = None) by (destruct (fst (pst None [] (dd [] p))); [discriminate|reflexivity]).
      rewrite (Vl ON) in H. cbn [bind] in H.
      assert (TN : dget Nat.eqb tbs id = None).
      { destruct (dget Nat.eqb tbs id) eqn:Q; [|reflexivity]. assert (X : dget Nat.eqb tbs id <> None) by congruence.
        apply Vd in X. apply nat_mem_In in X. congruence. }
      assert (FI : find_tb id L = Some (t, la, d)).
      { rewrite E, find_tb_app. cbn. rewrite Nat.eqb_refl.
        rewrite find_tb_none; [reflexivity|]. intros t' la' d' J.
        assert (X : In id (snd (pst None [] (dd [] p)))).
        { apply pst_ids. right. exists t', la', d'. clear - J. revert J. generalize (@nil nat).
          induction p as [|y r IH]; intros s J; [contradiction|]. destruct J as [->|J]; [now left|].
          destruct y; cbn; try (right; apply IH; exact J). destruct (nat_mem id0 s); [|right]; apply IH; exact J. }
        apply nat_mem_In in X. congruence. }
      assert (OLD : forall k t' la' d', In (BTB k t' la' d') out -> (k < fresh)%nat).
      { intros k t' la' d' J. apply Vf. apply pst_ids. right. eauto. }
      assert (PLAIN : deinv (p ++ [BTB id t la d])
         (mkTS (out ++ [BTB fresh t la d]) (dset Nat.eqb tbs id fresh) seen (fresh + 1)%nat (Some (t, la, fresh)) None)).
      { constructor; cbn [t_out t_tbs t_seen t_fresh t_ltb t_lte]; [| |discriminate|].
        - rewrite dd_snoc, !(cov_app _ _ None []). cbn [cov]. rewrite !app_nil_r. now apply under_more.
        - intros id' k. rewrite dg_set. destruct (Nat.eqb id' id); intros Q; [injection Q as <-; lia|]. apply Wn in Q. lia.
        - intros id' k t1 la1 d1 t' la' d' A B J. rewrite dg_set in A. apply in_app_iff in J.
          destruct (Nat.eqb id' id) eqn:Q.
          + apply Nat.eqb_eq in Q. subst. injection A as <-. rewrite FI in B. injection B as <- <- <-.
            destruct J as [J|[J|[]]]; [apply OLD in J; lia|]. injection J as <- <- <-. auto.
          + destruct J as [J|[J|[]]]; [eauto|]. injection J as <- _ _ _. apply Wn in A. lia. }
      destruct lte as [((e, k), removed)|]; [|injection H as <-; exact PLAIN].
      specialize (Ve e k removed eq_refl). destruct removed; [congruence|].
      destruct Ve as (X & Y & te & lae & de & OUT & QY & FE & _).
      rewrite FT, FE in H. cbn [of_option bind] in H.
      destruct (block_eqb te t && Bool.eqb lae la) eqn:SAME; [|injection H as <-; exact PLAIN].
      apply andb_true_iff in SAME. destruct SAME as [S1 S2]. apply eqb_prop in S2. subst lae. apply block_eqb_eq in S1. subst te.
      apply bind_ok in H. destruct H as (d' & M & H). injection H as <-. fold (merge de d) in M.
      assert (DE := We e k eq_refl).
      assert (EP : In (BTB e t la de) p) by (apply KB; [congruence|exact FE]).
      rewrite OUT, remove_last by exact QY.
      assert (SUB : forall x, In x (X ++ Y) -> In x out).
      { intros x J. rewrite OUT. rewrite in_app_iff in *. cbn. tauto. }
      constructor; cbn [t_out t_tbs t_seen t_fresh t_ltb t_lte]; [| |discriminate|].
      + rewrite dd_snoc, cov_set, (cov_app _ _ None []). cbn [cov]. rewrite app_nil_r. apply under_more; [exact TN|].
        rewrite OUT, (cov_app X _ None []) in Wc. cbn [cov] in Wc. rewrite (cov_quiet Y) in Wc by exact QY.
        rewrite (cov_app X _ None []), (cov_quiet Y) by exact QY. exact Wc.
      + intros id' k'. rewrite dg_set. destruct (Nat.eqb id' id); intros Q; [injection Q as <-|]; eauto.
      + intros id' k' t1 la1 d1 t' la' d2 A B J. rewrite dg_set in A.
        assert (J2 : exists dy, In (BTB k' t' la' dy) out /\ (k' = k -> d2 = d') /\ (k' <> k -> dy = d2)).
        { destruct (set_depth_inv _ _ _ _ J) as [[J' N]|(t3 & la3 & d3 & J' & EQ)].
          - exists d2. split; [auto|]. split; [|auto]. intros ->. destruct (N t' la' d2 eq_refl).
          - injection EQ as -> -> -> ->. exists d3. split; [auto|]. split; [auto|congruence]. }
        destruct J2 as (dy & J2 & K1 & K2).
        destruct (Nat.eqb id' id) eqn:Q.
        * apply Nat.eqb_eq in Q. subst. injection A as <-. rewrite FI in B. injection B as <- <- <-.
          destruct (Wd e k t la de t' la' dy DE FE J2) as (-> & -> & _). rewrite (K1 eq_refl).
          destruct (RM p rest id t la d e de e de d' E EP EP M). auto.
        * destruct (Wd id' k' t1 la1 d1 t' la' dy A B J2) as (-> & -> & RD). split; [reflexivity|]. split; [reflexivity|].
          destruct (Nat.eq_dec k' k) as [->|NK]; [|rewrite <- (K2 NK); exact RD]. rewrite (K1 eq_refl).
          destruct (Wd e k t la de t1 la1 dy DE FE J2) as (-> & -> & _).
          assert (IP : In (BTB id' t la d1) p) by (apply KB; [congruence|exact B]).
          destruct (RM p rest id t la d id' d1 e de d' E IP EP M). auto.
    - (* TryEnd *)
      assert (MS : nat_mem id seen = nat_mem id (ends_of p)).
      { apply eq_true_iff_eq. rewrite !nat_mem_In. unfold ends_of. rewrite ends_in. apply Vs. }
      rewrite MS in H. destruct (nat_mem id (ends_of p)) eqn:M.
      + injection H as <-. constructor; cbn [t_out t_tbs t_seen t_fresh t_ltb t_lte]; rewrite ?dd_snoc, ?M, ?app_nil_r; auto.
      + apply bind_ok in H. destruct H as (k & DK & H). apply of_option_ok in DK. injection H as <-.
        constructor; cbn [t_out t_tbs t_seen t_fresh t_ltb t_lte]; rewrite ?dd_snoc, ?M; auto.
        * rewrite !(cov_app _ _ None []). cbn [cov]. now rewrite !app_nil_r.
        * intros e' k' Q. injection Q as <- <-. exact DK.
        * intros id' k' t la d t' la' d' A B J. apply in_app_iff in J. destruct J as [J|[J|[]]]; [eauto|discriminate].
  Qed.

  Lemma de_all rest : forall p S S', toinv f L p S -> deinv p S -> L = p ++ rest -> foldM (to_elem g) rest S = Ok S' -> deinv L S'.
  Proof.
    induction rest as [|x r IH]; intros p S S' V W E H.
    - cbn in H. injection H as <-. now rewrite app_nil_r in E; subst.
    - cbn [foldM] in H. apply bind_ok in H. destruct H as (S1 & E1 & H).
      destruct (to_step f g L PL FT FB p x r S V E) as [(E2 & _)|(S2 & E2 & V')]; [congruence|].
      rewrite E1 in E2. injection E2 as <-.
      apply (IH (p ++ [x]) S1 S' V'); [eapply de_step; eauto|now rewrite <- app_assoc|exact H].
  Qed.
End To.
