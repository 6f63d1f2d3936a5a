(** No block of the graph made from a Bytecode begins by ending the same try block twice (C27). *)
From Verif Require Import PyBase OpTable M_Instr M_Concrete M_Bytecode M_Cfg S_Prog S_Legal S_Cfg P_Base P_Bytecode P_Cfg P_Cfg2 P_CfgSeq P_CfgFrom P_CfgFrom2 P_CfgFrom3 P_CfgFrom4.
Open Scope list_scope.
Open Scope Z_scope.

(** the TryEnd [l] begins with are all different *)
Definition once (l : list bitem) : Prop := forall ks r, l = map BTE ks ++ r -> NoDup ks.

Lemma paired_once l : forall op u, paired op u l = true -> once l.
Proof.
  intros op u P ks r ->. destruct ks as [|k [|k2 ks]]; [constructor|constructor; [intros []|constructor]|].
  cbn in P. apply andb_true_iff in P. destruct P as [_ P]. discriminate P.
Qed.
Lemma paired_blocks bs : forall op u, paired op u (flat bs) = true -> Forall (fun b => once (k_items b)) bs.
Proof.
  induction bs as [|b r IH]; intros op u P; [constructor|]. change (flat (b :: r)) with (k_items b ++ flat r) in P.
  rewrite paired_app in P. apply andb_true_iff in P. destruct P as [P1 P2]. constructor; [eapply paired_once; exact P1|].
  eapply IH. exact P2.
Qed.

Lemma lead l : exists ks r, l = map BTE ks ++ r /\ leading_ends l = ks /\ (forall k r', r <> BTE k :: r').
Proof.
  induction l as [|x l (ks & r & E & L & N)]; [exists [], []; repeat split; discriminate|].
  destruct x; try (exists [], (BI i :: l) || exists [], (BLabel l0 :: l) || idtac; repeat split; discriminate).
  all: try (eexists [], _; split; [reflexivity|]; split; [reflexivity|discriminate]).
  exists (id :: ks), r. cbn. rewrite <- E, L. auto.
Qed.
Lemma once_leading l : once l <-> NoDup (leading_ends l).
Proof.
  split.
  - intros O. destruct (lead l) as (ks & r & E & L & N). rewrite L. eapply O. exact E.
  - intros ND ks r ->. induction ks as [|k ks IH]; [constructor|]. cbn in ND. inversion ND as [|? ? NI ND']; subst.
    constructor; [|now apply IH]. intros J. apply NI. clear - J. induction ks as [|j ks IH]; [destruct J|]. cbn in *. destruct J as [->|J]; auto.
Qed.
Lemma insert_once tes : forall ex l, (forall k, In k (leading_ends l) -> In k ex) -> once l -> once (insert_ends ex l tes).
Proof.
  induction tes as [|k r IH]; intros ex l I O; cbn [insert_ends]; [exact O|].
  destruct (nat_mem k ex) eqn:M; [now apply IH|]. apply IH.
  - intros j [->|J]; [now left|right; auto].
  - apply once_leading. cbn. constructor; [|now apply once_leading]. intros J. apply I in J.
    assert (X : nat_mem k ex = true) by (apply existsb_exists; exists k; split; [exact J|apply Nat.eqb_refl]). congruence.
Qed.
Lemma upd_Forall {A} (Q : A -> Prop) n x l : Q x -> Forall Q l -> Forall Q (upd n x l).
Proof.
  intros HX H. revert n. induction H as [|y r HY H IH]; intros [|n]; cbn; constructor; auto.
Qed.
Lemma insert_all_once labels add : forall bs bs', Forall (fun b => once (k_items b)) bs ->
  foldM (insert_try_ends labels) add bs = Ok bs' -> Forall (fun b => once (k_items b)) bs'.
Proof.
  induction add as [|(lab, tes) r IH]; intros bs bs' F E; cbn [foldM] in E; [now injection E as <-|].
  apply bind_ok in E. destruct E as (bs1 & E1 & E). eapply IH; [|exact E].
  unfold insert_try_ends in E1. apply bind_ok in E1. destruct E1 as (n & _ & E1). apply bind_ok in E1. destruct E1 as (b & E2 & E1).
  injection E1 as <-. apply upd_Forall; [|exact F]. cbn [k_items].
  assert (O : once (k_items b)).
  { apply of_option_ok in E2. rewrite Forall_forall in F. apply F. eapply nth_error_In. exact E2. }
  apply insert_once; auto.
Qed.

Lemma resolve_leading labels known l : forall l', mapM (resolve_item labels known) l = Ok l' -> leading_ends l' = leading_ends l.
Proof.
  induction l as [|x r IH]; intros l' E; cbn [mapM] in E; [now injection E as <-|].
  apply bind_ok in E. destruct E as (y & E1 & E). apply bind_ok in E. destruct E as (r' & E2 & E). injection E as <-.
  assert (Y : match x with BTE k => y = BTE k | _ => forall k, y <> BTE k end).
  { destruct x as [i|n|z|id t la d|id]; cbn [resolve_item] in E1.
    - destruct (i_arg i); try (injection E1 as <-; discriminate). apply bind_ok in E1. destruct E1 as (k & _ & E1). injection E1 as <-. discriminate.
    - injection E1 as <-. discriminate.
    - injection E1 as <-. discriminate.
    - destruct (nat_mem id known); [|injection E1 as <-; discriminate]. destruct t; try discriminate.
      apply bind_ok in E1. destruct E1 as (k & _ & E1). injection E1 as <-. discriminate.
    - now injection E1 as <-. }
  destruct x; cbn; try (destruct y; try reflexivity; exfalso; eapply Y; reflexivity).
  subst y. cbn. f_equal. now apply IH.
Qed.
Lemma resolve_once labels known bs : forall hs, mapM (resolve_block labels known) bs = Ok hs ->
  Forall (fun b => once (k_items b)) bs -> Forall (fun b => once (k_items b)) hs.
Proof.
  induction bs as [|b r IH]; intros hs E F; cbn [mapM] in E; [injection E as <-; constructor|].
  apply bind_ok in E. destruct E as (h & E1 & E). apply bind_ok in E. destruct E as (r' & E2 & E). injection E as <-.
  inversion F as [|? ? F1 F2]; subst. constructor; [|now apply IH].
  unfold resolve_block in E1. apply bind_ok in E1. destruct E1 as (it & E1 & E3). injection E3 as <-. cbn [k_items].
  apply once_leading. apply once_leading in F1. now rewrite (resolve_leading _ _ _ _ E1).
Qed.

Lemma from_once T b g : proper T (b_items b) -> from_bytecode T b = Ok g -> Forall (fun h => once (k_items h)) (g_heap g).
Proof.
  intros PR. set (l := b_items b) in *. unfold from_bytecode. fold l.
  rewrite (iterate_paired l None []) by apply PR.
  destruct (pass1_ok T l (proper_args _ _ PR) 0 (mkP1 [] [] [])) as (P & EP & PJ & PL & PE).
  rewrite EP. cbn [bind].
  assert (PL' : forall n, dget Nat.eqb (p_labels P) n = lastidx (is_lab n) l).
  { intros n. rewrite PL. now destruct (lastidx (is_lab n) l). }
  assert (PE' : forall n, dget Nat.eqb (p_ends P) n = lastidx (is_end n) l).
  { intros n. rewrite PE. now destruct (lastidx (is_end n) l). }
  clear PL PE EP. cbn [p_jumps app] in PJ.
  assert (TG : forall n, In n (flat_map target l) -> dget Nat.eqb (p_labels P) n <> None).
  { intros n J. apply in_flat_map in J. destruct J as (it & J & N). rewrite PL'.
    eapply lastidx_none; [eapply (proper_labels _ _ PR); eassumption|]. cbn. apply Nat.eqb_refl. }
  destruct (starts_ok (p_labels P) (p_jumps P)) as (starts & ES & ST).
  { intros n. rewrite PJ. apply TG. }
  { intros n m i. rewrite !PL'. intros A B. apply lastidx_lab in A, B. congruence. }
  rewrite ES. cbn [bind].
  destruct (loop_ok T P l starts PR PL' PE' (fun i n H => proj2 (proj1 (ST i n) H)) l [] [] [] [] [] 0 [] None false None)
    as (done & cur & labels & tbs & fresh & add & active & ins & lst & EL & V & B).
  { reflexivity. }
  { constructor; try reflexivity; try (intros; cbn in *; contradiction); try discriminate; try (cbn; constructor).
    all: intros a H; cbn in H; try congruence. intros E. injection E as <-. eexists. split; [reflexivity|exact Logic.I]. }
  { constructor; try discriminate; try reflexivity; try (intros; exfalso; cbn in *; lia).
    intros k x H. destruct k; discriminate. }
  { constructor; discriminate. }
  cbn [length app] in EL. cbn [app] in EL. rewrite EL. cbn [bind f_labels f_add f_blocks f_tbs].
  set (bs0 := done ++ [mkBlk cur None]) in *.
  assert (F0 : flat bs0 = flat done ++ cur) by (unfold bs0; rewrite flat_app; cbn; now rewrite app_nil_r).
  rewrite <- F0 in V. intros E.
  apply bind_ok in E. destruct E as (bs & E1 & E). apply bind_ok in E. destruct E as (hs & E2 & E). injection E as <-. cbn [g_heap].
  eapply resolve_once; [exact E2|]. eapply insert_all_once; [|exact E1].
  eapply paired_blocks. exact (v_pair _ _ _ _ _ _ _ _ _ V).
Qed.
