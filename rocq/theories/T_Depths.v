(** Property theorems: the stack depth of try blocks and ControlFlowGraph.to_bytecode() (C71). *)
From Verif Require Import PyBase OpTable Table311 P_Base M_Instr M_Concrete M_Convert M_Bytecode M_Cfg S_Prog S_Cfg S_Stack S_Code P_Cfg
  P_CfgSeq P_CfgFrom P_CfgFrom2 P_CfgFrom3 P_CfgFrom4 P_CfgTo P_CfgTo2 P_CfgTo3 P_CfgTo4 S_Asm P_Stack4 P_Full P_Run2 T_Cfg T_Cfg2.
Open Scope string_scope.
Open Scope list_scope.
Open Scope Z_scope.

(** ** Specification *)

(** The stack depth of the try block every instruction of a graph is in.  In a graph the same
    TryEnd can stand in several blocks (cfg.py:811-882): it ends its own try block only. *)
Fixpoint piece_depths (cur : option (nat * option Z)) (items : list bitem) : list (option (option Z)) :=
  match items with
  | [] => []
  | BI _ :: r => option_map snd cur :: piece_depths cur r
  | BTB id _ _ d :: r => piece_depths (Some (id, d)) r
  | BTE id :: r => piece_depths (match cur with Some (id', _) => if Nat.eqb id id' then None else cur | None => None end) r
  | _ :: r => piece_depths cur r
  end.

(** An unset depth compares as 0 (instr.py:161-167, UNSET is an int). *)
Definition deep (d : option Z) : Z := match d with Some z => z | None => 0 end.

(** In the list [items] the depths of the try blocks with the same handler never grow. *)
Definition never_grow (items : list bitem) : Prop := forall a b c id t la d id' d',
  items = a ++ BTB id' t la d' :: b ++ BTB id t la d :: c -> deep d <= deep d'.

(** The try blocks with the same handler all have the same depth, as compute_stacksize() with
    compute_exception_stack_depths=True leaves them. *)
Definition one_depth (items : list bitem) : Prop := forall id t la d id' d',
  In (BTB id t la d) items -> In (BTB id' t la d') items -> d' = d.

(** [g] is a graph as from_bytecode() makes them, its TryBegin having any depths. *)
Definition made_from (T : optable) (b : bytecode) (g : cfg) : Prop :=
  proper T (b_items b) /\ exists g0, from_bytecode T b = Ok g0 /\ same_but_depths g0 g /\ length (g_heap g) = length (g_heap g0).

(** ** Proofs *)
Lemma pieces_dd l : forall s o u, paired (option_map fst o) u (dd s l) = true -> (forall k, In k s -> In k u) ->
  (forall k d, o = Some (k, d) -> ~ In k s) -> (forall k d, o = Some (k, d) -> In k u) ->
  piece_depths o l = try_depths (option_map snd o) (dd s l).
Proof.
  induction l as [|x r IH]; intros s o u P A B C; [reflexivity|].
  destruct x as [i|n|z|id t la d|id]; cbn [piece_depths dd try_depths paired] in *.
  - f_equal. eapply IH; eauto.
  - eapply IH; eauto.
  - eapply IH; eauto.
  - apply andb_true_iff in P. destruct P as [P P3]. apply andb_true_iff in P. destruct P as [P1 P2].
    apply negb_true_iff in P2.
    assert (NI : ~ In id u) by (intros J; apply nat_mem_In in J; congruence).
    rewrite (IH s (Some (id, d)) (id :: u)); [reflexivity|exact P3|intros; right; auto| |].
    + intros k d' Q J. injection Q as <- <-. auto.
    + intros k d' Q. injection Q as <- <-. now left.
  - destruct (nat_mem id s) eqn:M.
    + apply nat_mem_In in M. assert (E : match o with Some (id', _) => if Nat.eqb id id' then None else o | None => None end = o).
      { destruct o as [[k d]|]; [|reflexivity]. destruct (Nat.eqb id k) eqn:Q; [|reflexivity]. apply Nat.eqb_eq in Q. subst. destruct (B k d eq_refl M). }
      rewrite E. eapply IH; eauto.
    + cbn [paired try_depths] in *. destruct o as [[k d]|]; cbn in P; [|discriminate].
      apply andb_true_iff in P. destruct P as [P1 P2]. apply Nat.eqb_eq in P1. subst k. rewrite Nat.eqb_refl.
      apply (IH (id :: s) None u); [exact P2| |discriminate|discriminate].
      intros k [<-|J]; [eapply C; reflexivity|auto].
Qed.

Definition related (R : option Z -> option Z -> Prop) (a b : option (option Z)) : Prop :=
  match a, b with None, None => True | Some d, Some d' => R d d' | _, _ => False end.

Lemma dd_nolab l : forall s, try_depths None (dd s (nolab l)) = try_depths None (dd s l).
Proof.
  generalize (@None (option Z)). unfold nolab.
  induction l as [|x r IH]; intros o s; [reflexivity|]. destruct x; cbn; rewrite ?IH; auto. destruct (nat_mem id s); cbn; auto.
Qed.
Lemma un1_depths l l' : Forall2 un1 l l' -> forall o, try_depths o l' = try_depths o l.
Proof.
  induction 1 as [|x y l l' U _ IH]; intros o; [reflexivity|]. destruct x as [i|n|z|id t la d|id]; cbn in U.
  - subst y. cbn. now rewrite IH.
  - subst y. apply IH.
  - subst y. apply IH.
  - destruct U as (m & _ & ->). cbn. apply IH.
  - subst y. cbn. apply IH.
Qed.
Lemma unresolve_un1 labelled known l l' : (forall id t la d, In (BTB id t la d) l -> In id known) ->
  mapM (unresolve_item labelled known) l = Ok l' -> Forall2 un1 l l'.
Proof.
  revert l'. induction l as [|x r IH]; intros l' H E; cbn in E; [injection E as <-; constructor|].
  apply bind_ok in E. destruct E as (y & E1 & E). apply bind_ok in E. destruct E as (r' & E2 & E). injection E as <-.
  constructor; [|apply IH; [intros; eapply H; right; eassumption|exact E2]].
  destruct x as [i|n|z|id t la d|id]; cbn in E1; try (injection E1 as <-; reflexivity).
  - destruct (i_arg i) eqn:A; try (injection E1 as <-; cbn; rewrite A; destruct i; cbn in *; congruence).
    destruct (nat_mem n labelled); [|discriminate]. injection E1 as <-. cbn. now rewrite A.
  - assert (K := H id t la d (or_introl eq_refl)). apply nat_mem_In in K. rewrite K in E1. destruct t; try discriminate.
    destruct (nat_mem n labelled); [|discriminate]. injection E1 as <-. cbn. eauto.
Qed.
Lemma nolab_split l a x c : l = a ++ x :: c -> is_label x = false -> nolab l = nolab a ++ x :: nolab c.
Proof. intros -> E. unfold nolab. rewrite filter_app. cbn. now rewrite E. Qed.
Lemma nolab_in l x : In x l -> is_label x = false -> In x (nolab l).
Proof. intros J E. apply filter_In. now rewrite E. Qed.

Lemma to_depth T l lk g b' (R : option Z -> option Z -> Prop) : graph_of T l (g_heap g) lk -> g_order g = seq 0 (length (g_heap g)) ->
  cfg_to_bytecode T g = Ok b' -> (forall d, R d d) ->
  (forall a c id t la d id0 d0 e de d', flat (g_heap g) = a ++ BTB id t la d :: c -> In (BTB id0 t la d0) a -> In (BTB e t la de) a ->
    merge de d = Ok d' -> R d0 d' /\ R d d') ->
  Forall2 (related R) (piece_depths None (all_items g)) (try_depths None (b_items b')).
Proof.
  intros G O E RR RM. set (hs := g_heap g) in *. unfold cfg_to_bytecode in E.
  apply bind_ok in E. destruct E as (used & EU & E). apply bind_ok in E. destruct E as (S & ES & E).
  apply bind_ok in E. destruct E as (out & EM & E). injection E as <-. cbn [b_items].
  assert (NL : forall n, ~ In (BLabel n) (flat hs)) by (intros n J; apply (q_fits _ _ _ _ G) in J; exact J).
  set (L := labelled used 0 hs).
  assert (NLL : nolab L = flat hs) by (apply labelled_nolab; exact NL).
  assert (TBL : forall S n, to_block g used S n = foldM (to_elem g) (lab used n ++ k_items (blk g n)) S).
  { intros S1 n. unfold to_block, lab. destruct (nat_mem n used); [|reflexivity]. now destruct S1. }
  assert (EL : forall S, foldM (to_block g used) (g_order g) S = foldM (to_elem g) L S).
  { intros S1. rewrite (foldM_ext _ (fun s n => foldM (to_elem g) (lab used n ++ k_items (blk g n)) s)) by (intros; apply TBL).
    rewrite (foldM_flat (to_elem g) (fun n => lab used n ++ k_items (blk g n))). f_equal. rewrite O. unfold L.
    assert (X : forall r s pre, hs = pre ++ r -> length pre = s -> flat_map (fun n => lab used n ++ k_items (blk g n)) (seq s (length r)) = labelled used s r).
    { induction r as [|b r IH]; intros s pre E LP; [reflexivity|]. cbn [length seq flat_map labelled].
      rewrite (IH (Datatypes.S s) (pre ++ [b])); [|now rewrite <- app_assoc|rewrite app_length; cbn; lia].
      rewrite <- app_assoc. f_equal. f_equal. unfold blk. fold hs. rewrite E, nth_error_app2, LP, Nat.sub_diag by lia. reflexivity. }
    apply (X hs 0%nat []); reflexivity. }
  rewrite EL in ES.
  assert (AI : all_items g = flat hs) by (apply all_flat; exact O).
  set (f := fun o : pyobj => match o with OBlock k => PTo (Some (ninstrs (flat (firstn k hs)))) | o => arg_of (position l) o end).
  assert (PL : paired None [] (dd [] L) = true) by (rewrite <- nolab_paired, NLL; exact (q_pair _ _ _ _ G)).
  assert (FT : forall id, find_tb id (all_items g) = find_tb id L) by (intros id; now rewrite AI, <- NLL, nolab_find).
  assert (FB : forall id t la d, In (BTB id t la d) L -> exists n, t = OBlock n).
  { intros id t la d J. destruct (labelled_in _ _ _ _ J) as [J'|(n & ? & _)]; [|discriminate].
    assert (FY := q_fits _ _ _ _ G _ J'). cbn in FY. destruct FY as (n & k & _ & ->). eauto. }
  destruct (to_all f g L PL FT FB L [] (mkTS [] [] [] 0 None None)) as [(EE & _)|(S' & E' & V)]; [apply to_init|reflexivity|congruence|].
  rewrite ES in E'. injection E' as <-.
  assert (W : deinv L R L S).
  { eapply (de_all f g L R PL FT FB RR); [|apply to_init| |reflexivity|exact ES].
    - intros a c id t la d id0 d0 e de d' Q J1 J2 M.
      apply (RM (nolab a) (nolab c) id t la d id0 d0 e de d'); auto using nolab_in.
      rewrite <- NLL. now apply nolab_split.
    - constructor; cbn; try discriminate. constructor. }
  assert (R1 : Forall2 un1 (t_out S) out).
  { eapply unresolve_un1; [|exact EM]. intros id t la d J. exact (proj1 (o_known _ _ _ _ V _ _ _ _ J)). }
  rewrite (un1_depths _ _ R1), AI.
  rewrite (pieces_dd (flat hs) [] None []); [|exact (q_pair _ _ _ _ G)|intros k []|discriminate|discriminate].
  cbn [option_map]. rewrite <- NLL, dd_nolab.
  assert (N1 := cov_depths (dd [] L) (dd [] L) None None (fun x J => J) Logic.I).
  assert (N2 := cov_depths (t_out S) (t_out S) None None (fun x J => J) Logic.I).
  assert (ND : NoDup (tb_ids L)) by (rewrite <- (tb_ids_dd _ []); now apply (paired_nodup _ None [])).
  assert (C := e_cov _ _ _ _ W). revert N1 N2 C. generalize (try_depths None (dd [] L)) as d1. generalize (try_depths None (t_out S)) as d2.
  generalize (cov None (dd [] L)) as c1. generalize (cov None (t_out S)) as c2.
  intros c2 c1 d2 d1 N1. revert c2 d2. induction N1 as [|a x c1 d1 A N1 IH]; intros c2 d2 N2 C; inversion C as [|? b ? c2' U C']; subst; inversion N2 as [|? y ? d2' B N2']; subst; constructor; [|eapply IH; eauto].
  destruct a as [id|], x as [d|]; cbn in A; try contradiction; destruct b as [k|]; cbn in U; try contradiction; destruct y as [d'|]; cbn in B; try contradiction; cbn; [|exact Logic.I].
  destruct A as (t & la & J). destruct B as (t' & la' & J'). apply dd_in_inv in J. apply (tb_find _ ND) in J.
  destruct (e_dep _ _ _ _ W id k t la d t' la' d' U J J') as (_ & _ & Q). exact Q.
Qed.

Lemma made_graph T b g : made_from T b g -> exists lk, graph_of T (b_items b) (g_heap g) lk /\ g_order g = seq 0 (length (g_heap g)).
Proof.
  intros (PR & g0 & E & (_ & _ & O & _ & B) & LEN). destruct (from_ok T b PR) as (g' & lk & E' & G & _ & O' & _). rewrite E in E'. injection E' as <-.
  exists lk. split; [|congruence]. eapply graph_like; [exact G|]. rewrite <- (blk_nth g), <- (blk_nth g0), LEN.
  clear - B. induction (seq 0 (length (g_heap g0))) as [|n r IH]; cbn [map]; [constructor|]. constructor; [exact (B n)|exact IH].
Qed.

Lemma merge_deep de d d' : merge de d = Ok d' -> deep d' = Z.min (deep de) (deep d).
Proof.
  destruct de as [x|], d as [y|]; cbn; try discriminate; intros E; injection E as <-; cbn.
  - destruct (y <? x) eqn:Q; [apply Z.ltb_lt in Q|apply Z.ltb_ge in Q]; cbn; lia.
  - destruct (0 <? x) eqn:Q; [apply Z.ltb_lt in Q|apply Z.ltb_ge in Q]; cbn; lia.
  - reflexivity.
Qed.

(** C71.  When the graph is made a list again, pieces of try blocks that touch and have the same
    handler are made one try block.  If the depths of the try blocks with the same handler do not
    grow along the graph, no instruction ends up in a try block deeper than the one it was in
    (an unset depth counting as 0): nothing that the handler expects on the stack is lost... *)
Theorem C71_not_deeper_partial : forall T b g b', made_from T b g -> cfg_to_bytecode T g = Ok b' ->
  never_grow (all_items g) ->
  Forall2 (related (fun d d' => deep d' <= deep d)) (piece_depths None (all_items g)) (try_depths None (b_items b')).
Proof.
  intros T b g b' M E NG. destruct (made_graph T b g M) as (lk & G & O).
  eapply to_depth; [exact G|exact O|exact E|intros; lia|].
  intros a c id t la d id0 d0 e de d' Q J1 J2 ME. rewrite (all_flat g O) in NG. apply merge_deep in ME. rewrite ME.
  apply in_split in J1. destruct J1 as (a1 & a2 & ->). rewrite <- app_assoc in Q. cbn [app] in Q.
  specialize (NG _ _ _ _ _ _ _ _ _ Q). lia.
Qed.

(** ... and if the try blocks with the same handler all have the same depth, as they have it once
    compute_stacksize() has computed the depths, every instruction keeps its depth. *)
Theorem C71_computed_kept : forall T b g b', made_from T b g -> cfg_to_bytecode T g = Ok b' ->
  one_depth (all_items g) ->
  try_depths None (b_items b') = piece_depths None (all_items g).
Proof.
  intros T b g b' M E OD. destruct (made_graph T b g M) as (lk & G & O).
  assert (F : Forall2 (related (fun d d' => d' = d)) (piece_depths None (all_items g)) (try_depths None (b_items b'))).
  { eapply to_depth; [exact G|exact O|exact E|reflexivity|].
    intros a c id t la d id0 d0 e de d' Q J1 J2 ME. rewrite (all_flat g O) in OD.
    assert (I0 : In (BTB id t la d) (flat (g_heap g))) by (rewrite Q; apply in_app_iff; right; now left).
    assert (d0 = d) by (eapply OD; [exact I0|rewrite Q; apply in_app_iff; left; eassumption]).
    assert (de = d) by (eapply OD; [exact I0|rewrite Q; apply in_app_iff; left; eassumption]).
    subst d0 de. assert (d' = d); [|auto]. unfold merge in ME. destruct d as [z|]; [|congruence].
    destruct (depth_min_cases _ _ _ ME); congruence. }
  induction F as [|x y l l' Q _ IH]; [reflexivity|]. rewrite IH. destruct x, y; cbn in Q; try contradiction; congruence.
Qed.

(** The first claim fails in general: only the last two pieces are compared (cfg.py:998-1001).  Three try
    blocks that touch, with the same handler and the depths 1, 2 and 2 are made one try block of
    depth 2, where the first instruction had 1: the list says that there are two values below
    the exception, and there is one. *)
Definition b_three : bytecode := mkB meta0 []
  [BTB 0 (OLabel 7) true (Some 1); nop; BTE 0; BTB 1 (OLabel 7) true (Some 2); nop; BTE 1;
   BTB 2 (OLabel 7) true (Some 2); nop; BTE 2; ret; BLabel 7; ret].
Theorem C71_three_pieces_refuted : exists g b', made_from T311 b_three g /\ cfg_to_bytecode T311 g = Ok b'
  /\ piece_depths None (all_items g) = [Some (Some 1); Some (Some 2); Some (Some 2); None; None]
  /\ try_depths None (b_items b') = [Some (Some 2); Some (Some 2); Some (Some 2); None; None].
Proof.
  let r := eval vm_compute in (from_bytecode T311 b_three) in match r with Ok ?g => exists g end.
  eexists. split; [|split; [vm_compute; reflexivity|split; vm_compute; reflexivity]].
  split; [|eexists; split; [vm_compute; reflexivity|split; [repeat split; reflexivity|reflexivity]]].
  constructor; [reflexivity| |].
  - intros it J. cbn in J. decompose [or] J; subst; try contradiction; cbn; eauto; intros; split; discriminate.
  - intros it n J N. cbn in J. decompose [or] J; subst; cbn in N; try contradiction; destruct N as [<-|[]]; cbn; tauto.
Qed.

(** The graph of [b_loop] (T_Cfg2), whose try block is cut in several pieces, all with depth 1 (as
    compute_stacksize() would write it): the hypotheses hold, and the list has one try block of
    depth 1 again. *)
Definition with_depth (z : Z) (g : cfg) : cfg :=
  mkG (g_meta g) (g_argnames g) (map (fun k => mkBlk (map (fun it => match it with BTB id t la _ => BTB id t la (Some z) | _ => it end) (k_items k)) (k_next k)) (g_heap g))
    (g_order g) (g_index g).
Lemma one_never items : one_depth items -> never_grow items.
Proof.
  intros O a b c id t la d id' d' ->. rewrite (O id t la d id' d'); [lia| |]; rewrite ?in_app_iff; cbn; rewrite ?in_app_iff; cbn; auto.
Qed.
Example C71_ex : exists g b', made_from T311 b_loop g /\ one_depth (all_items g) /\ never_grow (all_items g) /\ cfg_to_bytecode T311 g = Ok b'
  /\ length (filter is_try (all_items g)) = 6%nat /\ length (filter is_try (b_items b')) = 2%nat
  /\ try_depths None (b_items b') = [None] ++ repeat (Some (Some 1)) 7 ++ [None; None; None].
Proof.
  let r := eval vm_compute in (from_bytecode T311 b_loop) in match r with Ok ?g => exists (with_depth 1 g) end.
  eexists. assert (OD : forall g, one_depth (all_items g) -> one_depth (all_items g) /\ never_grow (all_items g)) by (auto using one_never).
  split; [|apply and_assoc; split; [apply OD|split; [vm_compute; reflexivity|split; [reflexivity|split; vm_compute; reflexivity]]]].
  - split; [apply ex_proper|]. eexists. split; [vm_compute; reflexivity|]. split; [|reflexivity]. repeat split; cbn; repeat (destruct n as [|n]; try reflexivity).
  - intros id t la d id' d' A B. vm_compute in A, B.
    repeat (destruct A as [A|A]; [try discriminate A|]); try contradiction;
    repeat (destruct B as [B|B]; [try discriminate B|]); try contradiction; congruence.
Qed.

Print Assumptions C71_not_deeper_partial.
Print Assumptions C71_computed_kept.
Print Assumptions C71_three_pieces_refuted.
