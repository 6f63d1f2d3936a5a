(** to_bytecode() on graphs with a block removed or added: C78. *)
From Coq Require Import Lia.
From Verif Require Import PyBase OpTable P_Base M_Instr M_Concrete M_Convert M_Bytecode M_Cfg S_Prog S_Cfg S_List P_Cfg P_Cfg2 P_CfgSeq P_List P_List2.
Open Scope list_scope.
Open Scope Z_scope.

(** the try block open after [l] *)
Fixpoint still (g : cfg) (open : option (nat * handler)) (l : list bitem) : option (nat * handler) :=
  match l with
  | [] => open
  | BTB id t la _ :: r => still g (Some (id, (shown_arg g t, la))) r
  | BTE id :: r => still g (match open with
                            | Some (id', _) => if Nat.eqb id id' then None else open
                            | None => None end) r
  | _ :: r => still g open r
  end.
Lemma shown_app g a : forall op b, shown g op (a ++ b) = shown g op a ++ shown g (still g op a) b.
Proof. induction a as [|x a IH]; intros op b; [reflexivity|]. destruct x; cbn [app shown still]; rewrite ?IH; reflexivity. Qed.
Lemma still_none g op l : no_try l -> still g op l = op.
Proof.
  induction l as [|x l IH]; intros H; [reflexivity|]. pose proof (H x (or_introl eq_refl)) as H0.
  destruct x; cbn [still]; try contradiction; apply IH; intros y J; apply H; now right.
Qed.

Definition moved_open (p c : nat) (op : option (nat * handler)) : option (nat * handler) :=
  option_map (fun o => (fst o, (moved_arg p c (fst (snd o)), snd (snd o)))) op.
Lemma shown_moved g g' p c l : (forall x, In x l -> match x with BI i => shown_arg g' (i_arg i) = moved_arg p c (shown_arg g (i_arg i))
    | BTB _ t _ _ => shown_arg g' t = moved_arg p c (shown_arg g t) | _ => True end) ->
  forall op, shown g' (moved_open p c op) l = map (moved p c) (shown g op l) /\ still g' (moved_open p c op) l = moved_open p c (still g op l).
Proof.
  induction l as [|x r IH]; intros H op; [split; reflexivity|].
  assert (H0 := H x (or_introl eq_refl)).
  assert (HR : forall op, shown g' (moved_open p c op) r = map (moved p c) (shown g op r) /\ still g' (moved_open p c op) r = moved_open p c (still g op r))
    by (apply IH; intros y J; apply H; now right).
  destruct x as [i|q|z|id t la d|id]; cbn [shown still map].
  - destruct (HR op) as [R1 R2]. rewrite R1, R2, H0. split; [|reflexivity]. f_equal. cbn [moved]. f_equal. now destruct op as [[id [a b]]|].
  - apply HR.
  - destruct (HR op) as [R1 R2]. rewrite R1, R2. split; reflexivity.
  - rewrite H0. apply (HR (Some (id, (shown_arg g t, la)))).
  - destruct op as [[id' h]|]; cbn [moved_open option_map fst snd].
    + destruct (Nat.eqb id id'); [apply (HR None)|apply (HR (Some (id', h)))].
    + apply (HR None).
Qed.

Lemma place_le g t : forall order q, place g order t = Some q -> (q <= ninstrs (flat_map (fun n => k_items (blk g n)) order))%nat.
Proof.
  induction order as [|n r IH]; intros q E; [discriminate|]. cbn [place flat_map] in *. rewrite ninstrs_app. destruct (Nat.eqb n t).
  - injection E as <-. lia.
  - destruct (place g r t) as [q'|] eqn:P; [|discriminate]. injection E as <-. specialize (IH q' eq_refl). lia.
Qed.
Lemma place_none g t order : ~ In t order -> place g order t = None.
Proof.
  induction order as [|n r IH]; intros H; [reflexivity|]. cbn in *. destruct (Nat.eqb_spec n t); [tauto|]. rewrite IH; tauto.
Qed.

Lemma del_listable T g g' n k : listable T g -> unreferred g n -> no_try (k_items (blk g n)) ->
  nth_error (g_order g) k = Some n -> g_order g' = remove_at k (g_order g) -> g_heap g' = g_heap g ->
  listable T g' /\ exists a z p op, place g (g_order g) n = Some p /\ ninstrs (flat_map (fun m => k_items (blk g m)) (firstn k (g_order g))) = p
    /\ graph_program g = a ++ shown g op (k_items (blk g n)) ++ z
    /\ a = shown g None (flat_map (fun m => k_items (blk g m)) (firstn k (g_order g)))
    /\ graph_program g' = map (moved p (ninstrs (k_items (blk g n)))) (a ++ z).
Proof.
  intros LS [U1 U2] NT H O HP.
  assert (BK : forall m, blk g' m = blk g m) by (intros m; unfold blk; now rewrite HP).
  assert (ND := ls_order _ _ LS). destruct (nth_error_split _ _ H) as (p & s & E & LP).
  assert (F1 : firstn k (g_order g) = p) by (rewrite E, <- LP, firstn_app, Nat.sub_diag, firstn_all, app_nil_r; reflexivity).
  assert (O' : g_order g' = p ++ s).
  { rewrite O. unfold remove_at. rewrite F1, E. f_equal. rewrite <- LP. clear. induction p as [|x p IH]; [reflexivity|]. exact IH. }
  assert (NDE : NoDup (p ++ n :: s)) by (now rewrite <- E).
  assert (NP : ~ In n p /\ ~ In n s). { pose proof (NoDup_remove_2 _ _ _ NDE) as Q. rewrite in_app_iff in Q. tauto. }
  assert (SUB : forall t, In t (g_order g') -> In t (g_order g) /\ t <> n).
  { intros t J. rewrite O', in_app_iff in J. rewrite E, in_app_iff. cbn. split; [tauto|]. intros ->. tauto. }
  assert (INV : forall t, In t (g_order g) -> t <> n -> In t (g_order g')).
  { intros t J Q. rewrite O', in_app_iff. rewrite E, in_app_iff in J. cbn in J. destruct J as [J|[J|J]]; [auto|congruence|auto]. }
  set (its := fun m => k_items (blk g m)).
  assert (AI : all_items g = flat_map its p ++ k_items (blk g n) ++ flat_map its s).
  { unfold all_items. rewrite E, flat_map_app. reflexivity. }
  assert (AI' : all_items g' = flat_map its p ++ flat_map its s).
  { unfold all_items. rewrite O', <- flat_map_app. apply flat_map_ext. intros m. now rewrite BK. }
  set (P := ninstrs (flat_map its p)). set (C := ninstrs (k_items (blk g n))).
  assert (PLN : place g (g_order g) n = Some P).
  { rewrite E, place_app, place_none by tauto. cbn [place]. rewrite Nat.eqb_refl. cbn. f_equal. unfold P, its. lia. }
  assert (PLC : forall t, In t (g_order g') -> exists q, place g (g_order g) t = Some q /\ place g' (g_order g') t = Some (if Nat.leb (P + C) q then q - C else q)%nat).
  { intros t J. rewrite (place_same g g' (g_order g') t) by (intros; now rewrite BK). rewrite O' in *. rewrite E, !place_app.
    assert (TN : n <> t) by (intros <-; apply in_app_iff in J; tauto).
    destruct (place g p t) as [q|] eqn:PP.
    - exists q. split; [reflexivity|]. f_equal. apply place_le in PP. fold its in PP. fold P in PP. destruct (Nat.leb_spec (P + C) q); lia.
    - cbn [place]. destruct (Nat.eqb_spec n t); [contradiction|].
      assert (JS : In t s). { apply in_app_iff in J. destruct J as [J|J]; [|exact J]. destruct (place_some g p t J). congruence. }
      destruct (place_some g s t JS) as (q & Q). rewrite Q. cbn. fold its. fold P. fold C. eexists. split; [reflexivity|]. f_equal.
      destruct (Nat.leb_spec (P + C) (P + (C + q))); lia. }
  assert (SA : forall o, (forall t, o = OBlock t -> In t (g_order g')) -> shown_arg g' o = moved_arg P C (shown_arg g o)).
  { intros o J. destruct o; try reflexivity. destruct (PLC _ (J _ eq_refl)) as (q & Q1 & Q2). cbn [shown_arg moved_arg]. rewrite Q1, Q2. reflexivity. }
  assert (IT : forall x, In x (all_items g') -> match x with BI i => shown_arg g' (i_arg i) = moved_arg P C (shown_arg g (i_arg i))
    | BTB _ t _ _ => shown_arg g' t = moved_arg P C (shown_arg g t) | _ => True end).
  { intros x J. apply all_in in J. destruct J as (m & J & JX). rewrite BK in JX. destruct (SUB m J) as [J1 J2].
    destruct x as [i|q|z|id t la d|id]; auto.
    - apply SA. intros t A. pose proof (ls_args _ _ LS m i J1 JX) as L. rewrite A in L. apply INV; [apply L|]. intros ->. exact (U1 m i J1 J2 JX A).
    - destruct (ls_handlers _ _ LS m id t la d J1 JX) as (c & -> & L). apply SA. intros t A. injection A as ->. apply INV; [exact L|].
      intros ->. exact (U2 m id la d J1 J2 JX). }
  split.
  - constructor.
    + rewrite O'. exact (NoDup_remove_1 _ _ _ NDE).
    + intros m J. rewrite BK. apply (ls_iter _ _ LS), SUB, J.
    + intros m i J JX. rewrite BK in JX. destruct (SUB m J) as [J1 J2]. pose proof (ls_args _ _ LS m i J1 JX) as L.
      destruct (i_arg i) eqn:A; auto. split; [apply L|]. apply INV; [apply L|]. intros ->. exact (U1 m i J1 J2 JX A).
    + intros m id t la d J JX. rewrite BK in JX. destruct (SUB m J) as [J1 J2]. destruct (ls_handlers _ _ LS m id t la d J1 JX) as (c & -> & L).
      exists c. split; [reflexivity|]. apply INV; [exact L|]. intros ->. exact (U2 m id la d J1 J2 JX).
    + rewrite AI'. pose proof (ls_pairs _ _ LS) as TP. rewrite AI in TP. revert TP. generalize (@None nat), (@nil nat).
      assert (B : forall r op us, try_paired op us (k_items (blk g n) ++ r) = true -> try_paired op us r = true).
      { revert NT. generalize (k_items (blk g n)). induction l as [|x l IH]; intros NT' r op us TP; [exact TP|].
        pose proof (NT' x (or_introl eq_refl)) as N0. assert (N1 : no_try l) by (intros y J; apply NT'; now right).
        destruct x; try contradiction; cbn in TP; eauto. }
      generalize (flat_map its p). induction l as [|x l IH]; intros op us TP; [now apply B in TP|].
      destruct x as [i|q|z|id t la d|id]; cbn [app try_paired] in *; auto.
      * apply andb_true_iff in TP. destruct TP as [-> TP]. cbn. auto.
      * destruct op as [id'|]; [destruct (Nat.eqb id id'); [auto|]|]; apply andb_true_iff in TP; destruct TP as [-> TP]; cbn; auto.
  - exists (shown g None (flat_map its p)), (shown g (still g None (flat_map its p)) (flat_map its s)), P, (still g None (flat_map its p)).
    split; [exact PLN|]. rewrite F1. split; [reflexivity|]. split; [|split; [reflexivity|]].
    + unfold graph_program. rewrite AI, !shown_app. now rewrite (still_none g _ _ NT).
    + unfold graph_program. rewrite map_app, AI', shown_app. fold its. fold P. fold C.
      destruct (shown_moved g g' P C (flat_map its p)) with (op := @None (nat * handler)) as [S1 S2].
      { intros x J. apply IT. rewrite AI'. apply in_app_iff. now left. }
      change (moved_open P C None) with (@None (nat * handler)) in S1, S2. idtac. rewrite S2. transitivity (map (moved P C) (shown g None (flat_map its p)) ++ shown g' (moved_open P C (still g None (flat_map its p))) (flat_map its s)); [f_equal; exact S1|f_equal].
      apply shown_moved. intros x J. apply IT. rewrite AI'. apply in_app_iff. now right.
Qed.

Lemma add_program T g items : listable T g -> Forall (fun n => (n < length (g_heap g))%nat) (g_order g) ->
  exists more, graph_program (fst (add_block g items)) = graph_program g ++ more.
Proof.
  intros LS HB. rewrite Forall_forall in HB. set (g' := fst (add_block g items)).
  assert (BK : forall m, In m (g_order g) -> blk g' m = blk g m).
  { intros m J. unfold blk, g', add_block. cbn [fst g_heap]. now rewrite nth_error_app1 by (apply HB, J). }
  assert (O : g_order g' = g_order g ++ [length (g_heap g)]) by reflexivity.
  assert (AI : all_items g' = all_items g ++ k_items (blk g' (length (g_heap g)))).
  { unfold all_items. rewrite O, flat_map_app. cbn [flat_map]. rewrite app_nil_r. f_equal.
    assert (X : forall l, (forall m, In m l -> In m (g_order g)) -> flat_map (fun m => k_items (blk g' m)) l = flat_map (fun m => k_items (blk g m)) l).
    { induction l as [|m l IH]; intros H; [reflexivity|]. cbn [flat_map]. rewrite (BK m (H m (or_introl eq_refl))), IH; [reflexivity|]. intros x J. apply H. now right. }
    apply X. auto. }
  unfold graph_program. rewrite AI, shown_app. eexists. f_equal. apply shown_ext. intros x J. apply all_in in J. destruct J as (m & J & JX).
  assert (SA : forall t, In t (g_order g) -> place g' (g_order g') t = place g (g_order g) t).
  { intros t Jt. rewrite O, place_app, (place_same g g' (g_order g) t) by (intros; now rewrite BK).
    destruct (place_some g (g_order g) t Jt) as (q & ->). reflexivity. }
  destruct x as [i|q|z|id t la d|id]; auto.
  - pose proof (ls_args _ _ LS m i J JX) as A. destruct (i_arg i); try reflexivity. cbn [shown_arg]. f_equal. apply SA, A.
  - destruct (ls_handlers _ _ LS m id t la d J JX) as (c & -> & L). cbn [shown_arg]. f_equal. apply SA, L.
Qed.
