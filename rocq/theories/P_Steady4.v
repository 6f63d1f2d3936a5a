From Verif Require Import PyBase OpTable P_Base M_Instr M_Tables M_Concrete M_Convert M_Bytecode M_Cfg S_Legal S_Steady S_Prog S_Ident P_Steady P_Steady2 P_Steady3 P_Cfg P_Cfg2.
Open Scope list_scope.
Open Scope Z_scope.

Lemma last_keep l : last_instr_of (filter keep l) = last_instr_of l.
Proof. induction l as [|[] r IH]; cbn; rewrite ?IH; reflexivity. Qed.
Lemma jump_same T l l' : sames l l' -> get_jump T l' = get_jump T l.
Proof.
  intros F. unfold get_jump. rewrite <- (last_keep l), <- (last_keep l').
  assert (K : match last_instr_of (filter keep l), last_instr_of (filter keep l') with
    | Some i, Some j => i_op i = i_op j /\ i_arg i = i_arg j | None, None => True | _, _ => False end).
  { unfold sames in F. induction F as [|x y r r' S F IH]; [exact Logic.I|]. destruct S as [|x V]; cbn.
    - destruct (last_instr_of r), (last_instr_of r'); try contradiction; auto.
    - destruct x; try discriminate V; exact IH. }
  destruct (last_instr_of (filter keep l)), (last_instr_of (filter keep l')); try contradiction; [|reflexivity].
  destruct K as [K1 K2]. unfold has_jump. now rewrite K1, K2.
Qed.
Lemma iter_keep_eq T l : block_iter T (filter keep l) = block_iter T l.
Proof.
  induction l as [|x r IH]; [reflexivity|]. destruct x; cbn [filter keep bview]; cbn [block_iter]; rewrite ?IH; try reflexivity.
  cbn. now rewrite exists_keep.
Qed.
Lemma iter_same_eq T l l' : sames l l' -> block_iter T l' = block_iter T l.
Proof.
  intros F. rewrite <- (iter_keep_eq T l), <- (iter_keep_eq T l'). unfold sames in F.
  induction F as [|x y r r' S F IH]; [reflexivity|]. cbn. rewrite IH. f_equal.
  destruct S as [|x V]; cbn; rewrite ?(exists_same _ _ F); [reflexivity|]. destruct x; cbn; rewrite ?(exists_same _ _ F); reflexivity.
Qed.
Lemma targets_same l l' : sames l l' ->
  flat_map (fun it => match it with BTB _ (OBlock t) _ _ => [t] | _ => [] end) l'
  = flat_map (fun it => match it with BTB _ (OBlock t) _ _ => [t] | _ => [] end) l.
Proof.
  assert (K : forall l, flat_map (fun it => match it with BTB _ (OBlock t) _ _ => [t] | _ => [] end) (filter keep l)
    = flat_map (fun it => match it with BTB _ (OBlock t) _ _ => [t] | _ => [] end) l).
  { clear. induction l as [|[] r IH]; cbn; rewrite ?IH; reflexivity. }
  intros F. rewrite <- (K l), <- (K l'). unfold sames in F. induction F as [|x y r r' S F IH]; [reflexivity|]. cbn. rewrite IH. destruct S; reflexivity.
Qed.
Lemma mapM_same {A B} (f f' : A -> res B) l : (forall x, In x l -> f x = f' x) -> mapM f l = mapM f' l.
Proof. induction l as [|x r IH]; intros H; [reflexivity|]. cbn. rewrite (H x (or_introl eq_refl)). rewrite IH; [reflexivity|]. intros y J. apply H. now right. Qed.

Section Graph.
  Variables (T : optable) (g g' : cfg).
  Hypothesis order : g_order g' = g_order g.
  Hypothesis items : forall n, In n (g_order g) -> sames (k_items (blk g n)) (k_items (blk g' n)).

  Lemma used_same : used_blocks T g' = used_blocks T g.
  Proof.
    unfold used_blocks. rewrite order. f_equal. apply mapM_same. intros n J. cbv zeta.
    now rewrite (jump_same T _ _ (items n J)), (iter_same_eq T _ _ (items n J)), (targets_same _ _ (items n J)).
  Qed.
  Lemma block_same used S S' n : In n (g_order g) -> sames_state S S' -> rel sames_state (to_block g used S n) (to_block g' used S' n).
  Proof.
    intros J SS. unfold to_block. apply (elems_same g g' order items); [now apply items|].
    destruct SS as (O & A1 & A2 & A3 & A4 & A5). destruct (nat_mem n used); [|repeat split; auto].
    repeat split; cbn; auto. apply sames_app; [exact O|]. apply sames_one. now constructor.
  Qed.
  Lemma blocks_same used l : (forall n, In n l -> In n (g_order g)) -> forall S S', sames_state S S' ->
    rel sames_state (foldM (to_block g used) l S) (foldM (to_block g' used) l S').
  Proof.
    induction l as [|n r IH]; intros J S S' SS; [exact SS|]. cbn. apply rel_bind with (R := sames_state).
    - apply block_same; [apply J; now left|exact SS].
    - intros a b AB. apply IH; [|exact AB]. intros m K. apply J. now right.
  Qed.
  Lemma unresolve_same lab kn l : forall l', sames l l' -> rel sames (mapM (unresolve_item lab kn) l) (mapM (unresolve_item lab kn) l').
  Proof.
    assert (SET : forall x, keep x = false -> unresolve_item lab kn x = Ok x) by (intros []; try discriminate; reflexivity).
    assert (DROP : forall x a b, keep x = false -> sames (x :: a) b -> sames a b).
    { intros x a b K F. unfold sames in *. cbn in F. now rewrite K in F. }
    assert (DROP' : forall x a b, keep x = false -> sames a (x :: b) -> sames a b).
    { intros x a b K F. unfold sames in *. cbn in F. now rewrite K in F. }
    assert (ADD : forall x a b, keep x = false -> sames a b -> sames (x :: a) b).
    { intros x a b K F. unfold sames in *. cbn. now rewrite K. }
    assert (ADD' : forall x a b, keep x = false -> sames a b -> sames a (x :: b)).
    { intros x a b K F. unfold sames in *. cbn. now rewrite K. }
    assert (ONE : forall x y, same_elem x y -> rel same_elem (unresolve_item lab kn x) (unresolve_item lab kn y)).
    { intros x y [nm op ar l1 l2|z V]; cbn.
      - destruct ar; cbn; try constructor. destruct (nat_mem n lab); [constructor|reflexivity].
      - destruct z; try discriminate V; cbn; try (now constructor).
        destruct (nat_mem id kn); [|now constructor]. destruct target; try reflexivity. destruct (nat_mem n lab); [now constructor|reflexivity]. }
    induction l as [|x r IH]; intros l' F.
    - induction l' as [|y r' IH']; [constructor|]. destruct (keep y) eqn:K; [unfold sames in F; cbn in F; rewrite K in F; inversion F|].
      specialize (IH' (DROP' _ _ _ K F)). cbn [mapM] in *. rewrite (SET _ K). cbn [bind].
      destruct (mapM (unresolve_item lab kn) r') as [l2|]; cbn in *; [now apply ADD'|contradiction].
    - destruct (keep x) eqn:K.
      + induction l' as [|y r' IH'].
        * unfold sames in F. cbn in F. rewrite K in F. inversion F.
        * destruct (keep y) eqn:K'.
          -- unfold sames in F. cbn in F. rewrite K, K' in F. inversion F; subst. cbn. apply rel_bind with (R := same_elem); [now apply ONE|].
             intros a b AB. apply rel_bind with (R := sames); [now apply IH|]. intros c d CD. cbn.
             apply (sames_app [a] [b]); [now apply sames_one|exact CD].
          -- specialize (IH' (DROP' _ _ _ K' F)). cbn [mapM] in *. rewrite (SET _ K'). cbn [bind].
             destruct (mapM (unresolve_item lab kn) r') as [l2|e]; cbn [bind].
             ++ destruct (bind (unresolve_item lab kn x) _); cbn in *; [now apply ADD'|contradiction].
             ++ exact IH'.
      + specialize (IH _ (DROP _ _ _ K F)). cbn [mapM]. rewrite (SET _ K). cbn [bind].
        destruct (mapM (unresolve_item lab kn) r) as [l1|], (mapM (unresolve_item lab kn) l') as [l2|]; cbn in *; try contradiction; [now apply ADD|exact IH].
  Qed.
  Hypothesis meta : g_meta g' = g_meta g.
  Hypothesis args : g_argnames g' = g_argnames g.

  Lemma to_bytecode_same : rel (fun b b' => sames (b_items b) (b_items b') /\ b_meta b' = b_meta b /\ b_argnames b' = b_argnames b)
    (cfg_to_bytecode T g) (cfg_to_bytecode T g').
  Proof.
    unfold cfg_to_bytecode. rewrite used_same, order, meta, args. apply rel_eq. intros used.
    apply rel_bind with (R := sames_state); [apply blocks_same; [auto|]|].
    - repeat split; cbn; auto. constructor.
    - intros S S' (O & A1 & _). rewrite A1. apply rel_bind with (R := sames); [now apply unresolve_same|]. cbn. auto.
  Qed.
End Graph.

(** ** The locations in force *)

Fixpoint eff (cur : loc) (l : list bitem) : list loc :=
  match l with
  | [] => []
  | BI i :: r => let cur := match i_loc i with Some x => x | None => cur end in cur :: eff cur r
  | BSet z :: r => eff (line_loc (Some z)) r
  | _ :: r => eff cur r
  end.
Fixpoint skeleton (pos : nat -> option nat) (o : option handler) (l : list bitem) : list (string * parg * option handler) :=
  match l with
  | [] => []
  | BI i :: r => (i_name i, arg_of pos (i_arg i), o) :: skeleton pos o r
  | BTB _ t la _ :: r => skeleton pos (Some (arg_of pos t, la)) r
  | BTE _ :: r => skeleton pos None r
  | _ :: r => skeleton pos o r
  end.
Lemma located_split pos l : forall cur o,
  located cur (walk pos o l) = map (fun x => let '(n, a, h, c) := x in (n, a, c, h)) (combine (skeleton pos o l) (eff cur l)).
Proof. induction l as [|[] r IH]; intros cur o; cbn; rewrite ?IH; reflexivity. Qed.
Lemma skeleton_keep pos l : forall o, skeleton pos o (filter keep l) = skeleton pos o l.
Proof. induction l as [|[] r IH]; intros o; cbn; rewrite ?IH; reflexivity. Qed.
Lemma skeleton_same pos l l' : Forall2 same_elem l l' -> forall o, skeleton pos o l' = skeleton pos o l.
Proof. induction 1 as [|x y r r' S F IH]; intros o; [reflexivity|]. destruct S as [|[] V]; try discriminate V; cbn; now rewrite IH. Qed.
Lemma skeleton_ext f f' l : (forall n, f n = f' n) -> forall o, skeleton f o l = skeleton f' o l.
Proof.
  intros H. assert (K : forall a, arg_of f a = arg_of f' a) by (intros []; cbn; congruence).
  induction l as [|[] r IH]; intros o; cbn; rewrite ?IH, ?K; reflexivity.
Qed.
Lemma sames_position l l' n : sames l l' -> position l' n = position l n.
Proof. intros F. rewrite <- (position_keep l), <- (position_keep l'). now apply position_same. Qed.
Lemma sames_source cur cur' l l' : sames l l' -> eff cur' l' = eff cur l ->
  located cur' (program l') = located cur (program l).
Proof.
  intros F E. unfold program. rewrite !located_split, E. f_equal. f_equal.
  rewrite (skeleton_ext (position l') (position l)) by (intros n; now apply sames_position).
  rewrite <- (skeleton_keep _ l), <- (skeleton_keep _ l'). now apply skeleton_same.
Qed.

(** the lines of the Bytecode made from a graph are those of its blocks *)
Definition lined (x : bitem) : bool := match x with BI _ | BSet _ => true | _ => false end.
Lemma eff_lined l : forall cur, eff cur (filter lined l) = eff cur l.
Proof. induction l as [|[] r IH]; intros cur; cbn; rewrite ?IH; reflexivity. Qed.
Lemma lined_depth k d l : filter lined (set_depth k d l) = filter lined l.
Proof. unfold set_depth. induction l as [|x r IH]; [reflexivity|]. cbn. destruct x as [| | |i t la d0|]; cbn; rewrite ?IH; try reflexivity. destruct (Nat.eqb k i); reflexivity. Qed.
Lemma lined_remove l : filter lined (remove_last_end l) = filter lined l.
Proof.
  induction l as [|x r IH]; [reflexivity|]. cbn [remove_last_end]. destruct (existsb _ r); [cbn; now rewrite IH|].
  destruct x; cbn; rewrite ?IH; reflexivity.
Qed.
Lemma elem_lined g S x S' : to_elem g S x = Ok S' -> filter lined (t_out S') = filter lined (t_out S) ++ filter lined [x].
Proof.
  destruct S as [out tbs seen fresh ltb lte]. destruct x as [i|n|z|id t la d|id]; intros E; cbn [to_elem] in E.
  - injection E as <-. cbn. now rewrite filter_app.
  - injection E as <-. cbn. now rewrite filter_app.
  - injection E as <-. cbn. now rewrite filter_app.
  - apply bind_ok in E. destruct E as (o & E1 & E).
    assert (O : filter lined o = filter lined out).
    { destruct ltb as [[[t' la'] k]|]; [|now injection E1 as <-]. apply bind_ok in E1. destruct E1 as ([] & _ & E1). apply bind_ok in E1. destruct E1 as ([] & _ & E1).
      apply bind_ok in E1. destruct E1 as ([[? ?] dk] & _ & E1). apply bind_ok in E1. destruct E1 as (d' & _ & E1). injection E1 as <-. apply lined_depth. }
    assert (PL : Ok (mkTS (o ++ [BTB fresh t la d]) (dset Nat.eqb tbs id fresh) seen (fresh + 1)%nat (Some (t, la, fresh)) None) = Ok S' ->
      filter lined (t_out S') = filter lined out ++ []).
    { intros Q. injection Q as <-. cbn. rewrite filter_app, O. reflexivity. }
    cbn [filter lined t_out]. destruct lte as [[[e k] rm]|]; [|now apply PL].
    apply bind_ok in E. destruct E as ([[te lae] de] & _ & E). destruct (block_eqb te t && Bool.eqb lae la); [|now apply PL].
    apply bind_ok in E. destruct E as (d' & _ & E). destruct rm; [discriminate|]. injection E as <-. cbn. now rewrite lined_depth, lined_remove, O, app_nil_r.
  - cbn. destruct (nat_mem id seen).
    + injection E as <-. cbn. now rewrite app_nil_r.
    + apply bind_ok in E. destruct E as (k & _ & E). injection E as <-. cbn. rewrite filter_app. reflexivity.
Qed.
Lemma elems_lined g l : forall S S', foldM (to_elem g) l S = Ok S' -> filter lined (t_out S') = filter lined (t_out S) ++ filter lined l.
Proof.
  induction l as [|x r IH]; intros S S' E; cbn in E.
  - injection E as <-. now rewrite app_nil_r.
  - apply bind_ok in E. destruct E as (S1 & E1 & E). rewrite (IH _ _ E), (elem_lined _ _ _ _ E1), <- app_assoc, <- filter_app. reflexivity.
Qed.
Lemma blocks_lined g used l : forall S S', foldM (to_block g used) l S = Ok S' ->
  filter lined (t_out S') = filter lined (t_out S) ++ filter lined (flat_map (fun n => k_items (blk g n)) l).
Proof.
  induction l as [|n r IH]; intros S S' E; cbn in E.
  - injection E as <-. now rewrite app_nil_r.
  - apply bind_ok in E. destruct E as (S1 & E1 & E). rewrite (IH _ _ E). cbn. rewrite filter_app, app_assoc. f_equal.
    unfold to_block in E1. rewrite (elems_lined _ _ _ _ E1). destruct (nat_mem n used); [|reflexivity]. cbn. rewrite filter_app. cbn. now rewrite app_nil_r.
Qed.
Lemma unresolve_eff lab kn l : forall l' cur, mapM (unresolve_item lab kn) l = Ok l' -> eff cur l' = eff cur l.
Proof.
  induction l as [|x r IH]; intros l' cur E; cbn in E.
  - injection E as <-. reflexivity.
  - apply bind_ok in E. destruct E as (y & E1 & E). apply bind_ok in E. destruct E as (r' & E2 & E). injection E as <-.
    destruct x as [i|n|z|id t la d|id]; cbn in E1.
    + assert (Q : exists j, y = BI j /\ i_loc j = i_loc i).
      { destruct (i_arg i); try (injection E1 as <-; eauto). destruct (nat_mem n lab); [|discriminate]. injection E1 as <-. eexists. split; reflexivity. }
      destruct Q as (j & -> & Q). cbn. rewrite Q. f_equal. now apply IH.
    + injection E1 as <-. cbn. now apply IH.
    + injection E1 as <-. cbn. now apply IH.
    + assert (Q : exists t, y = BTB id t la d).
      { destruct (nat_mem id kn); [|injection E1 as <-; eauto]. destruct t; try discriminate. destruct (nat_mem n lab); [|discriminate]. injection E1 as <-. eauto. }
      destruct Q as (t' & ->). cbn. now apply IH.
    + injection E1 as <-. cbn. now apply IH.
Qed.
Lemma graph_eff T g b cur : cfg_to_bytecode T g = Ok b -> eff cur (b_items b) = eff cur (all_items g).
Proof.
  unfold cfg_to_bytecode. intros E. apply bind_ok in E. destruct E as (used & _ & E). apply bind_ok in E. destruct E as (S & E1 & E).
  apply bind_ok in E. destruct E as (out & E2 & E). injection E as <-. cbn [b_items]. rewrite (unresolve_eff _ _ _ _ cur E2).
  rewrite <- (eff_lined (t_out S)), (blocks_lined _ _ _ _ _ E1). cbn [t_out filter app]. now rewrite eff_lined.
Qed.

(** ** legalize() on the blocks *)

Fixpoint endloc (cur : loc) (l : list bitem) : loc :=
  match l with
  | [] => cur
  | BI i :: r => endloc (match i_loc i with Some x => x | None => cur end) r
  | BSet z :: r => endloc (line_loc (Some z)) r
  | _ :: r => endloc cur r
  end.
Lemma eff_app a b : forall cur, eff cur (a ++ b) = eff cur a ++ eff (endloc cur a) b.
Proof. induction a as [|[] r IH]; intros cur; cbn; rewrite ?IH; reflexivity. Qed.

Definition heir (c : Z) (cur : loc) (l : list bitem) : Prop :=
  forall mid y post, l = mid ++ y :: post -> bview y = VInstr None -> (forall w, In w mid -> bview w = VOther) -> cur = line_loc (Some c).
Lemma heir_other c cur x l : bview x = VOther -> heir c cur (x :: l) -> heir c cur l.
Proof. intros V H mid y post -> Vy Hm. apply (H (x :: mid) y post); [reflexivity|exact Vy|]. intros w [<-|J]; auto. Qed.
Lemma heir_line c l : heir c (line_loc (Some c)) l.
Proof. intros mid y post _ _ _. reflexivity. Qed.

Lemma block_eff v T R l : forall s c cur l' c',
  block_legalize_loop v T s c l = (l', Ok c') -> bare_after_set bview l -> plain_heirs bview (l ++ R) ->
  match s with
  | Some z => c = z /\ cur = line_loc (Some z) /\ forall y lo, In y l -> bview y = VInstr lo -> lo = None
  | None => heir c cur (l ++ R)
  end ->
  (forall cur', eff cur' (filter keep l') = eff cur l) /\ heir c' (endloc cur l) R.
Proof.
  unfold keep. induction l as [|x r IH]; intros s c cur l' c' E B P ST.
  - cbn in E. injection E as <- <-. split; [reflexivity|]. cbn. destruct s; [|exact ST]. destruct ST as (-> & -> & _). apply heir_line.
  - cbn [block_legalize_loop] in E. destruct (elem_check T x r) as [[]|]; [|discriminate].
    assert (B' := bare_tail _ _ _ B). assert (P' : plain_heirs bview (r ++ R)) by (exact (heirs_tail _ _ _ P)).
    destruct x as [[nm op ar lo]|n|z|id t la d|id].
    + cbv zeta in E. cbn [bset_loc i_name i_op i_arg i_loc] in E.
      destruct s as [z|].
      * destruct ST as (-> & -> & ST). assert (lo = None) by (apply (ST (BI (mkInstr nm op ar lo)) lo); [now left|reflexivity]). subst lo.
        destruct (set_lineno v None (LLine z)) as [lo' [[]|]] eqn:SL; [|discriminate]. apply set_line_ok in SL. subst lo'.
        destruct (block_legalize_loop v T (Some z) z r) as [r' o'] eqn:E0. injection E as <- ->. cbn.
        destruct (IH _ _ (line_loc (Some z)) _ _ E0 B' P') as [I1 I2].
        { split; [reflexivity|]. split; [reflexivity|]. intros y lo J. apply ST. now right. }
        split; [|exact I2]. intros cur'. f_equal. apply I1.
      * assert (K : forall c1 lo2, lo = Some lo2 -> (lo2 = line_loc (Some c1) \/ ~ exists z, lo2 = line_loc (Some z)) ->
          (let '(r', o) := block_legalize_loop v T None c1 r in (BI (mkInstr nm op ar lo) :: r', o)) = (l', Ok c') ->
          (forall cur', eff cur' (filter (fun x => match bview x with VSetLine _ => false | _ => true end) l') = eff cur (BI (mkInstr nm op ar lo) :: r))
          /\ heir c' (endloc cur (BI (mkInstr nm op ar lo) :: r)) R).
        { clear E. intros c1 lo2 -> SIM Q. destruct (block_legalize_loop v T None c1 r) as [r' o'] eqn:E0. injection Q as <- ->. cbn.
          destruct (IH None c1 lo2 _ _ E0 B' P') as [I1 I2].
          { intros mid y post Q Vy Hm. destruct SIM as [X|X]; [exact X|]. exfalso. apply X.
            eapply (P [] _ mid y post lo2); [cbn; rewrite Q; reflexivity|reflexivity|exact Vy|]. intros w J. left. now apply Hm. }
          split; [|exact I2]. intros cur'. f_equal. apply I1. }
        destruct lo as [[[lz|] e1 c1 c2]|]; cbn [loc_lineno l_lineno] in E.
        -- eapply K; [reflexivity| |exact E]. destruct e1, c1, c2; try (right; intros (q & Q); discriminate Q). now left.
        -- eapply K; [reflexivity| |exact E]. right. intros (q & Q); discriminate Q.
        -- assert (cur = line_loc (Some c)).
           { apply (ST [] (BI (mkInstr nm op ar None)) (r ++ R)); [reflexivity|reflexivity|]. intros w []. }
           subst cur. destruct (set_lineno v None (LLine c)) as [lo' [[]|]] eqn:SL; [|discriminate]. apply set_line_ok in SL. subst lo'.
           destruct (block_legalize_loop v T None c r) as [r' o'] eqn:E0. injection E as <- ->. cbn.
           destruct (IH None c (line_loc (Some c)) _ _ E0 B' P' (heir_line _ _)) as [I1 I2]. split; [|exact I2]. intros cur'. f_equal. apply I1.
    + destruct (block_legalize_loop v T s c r) as [r' o'] eqn:E0. injection E as <- ->. cbn. eapply IH; eauto.
      destruct s; [destruct ST as (A1 & A2 & A3); repeat split; auto; intros y lo J; apply A3; now right|]. eapply heir_other; [|exact ST]. reflexivity.
    + destruct (block_legalize_loop v T (Some z) z r) as [r' o'] eqn:E0. injection E as <- ->. cbn. eapply IH; eauto.
      cbn. split; [reflexivity|]. split; [reflexivity|]. intros y lo J W. eapply (bare_set bview (BSet z) r); eauto. reflexivity.
    + destruct (block_legalize_loop v T s c r) as [r' o'] eqn:E0. injection E as <- ->. cbn. eapply IH; eauto.
      destruct s; [destruct ST as (A1 & A2 & A3); repeat split; auto; intros y lo J; apply A3; now right|]. eapply heir_other; [|exact ST]. reflexivity.
    + destruct (block_legalize_loop v T s c r) as [r' o'] eqn:E0. injection E as <- ->. cbn. eapply IH; eauto.
      destruct s; [destruct ST as (A1 & A2 & A3); repeat split; auto; intros y lo J; apply A3; now right|]. eapply heir_other; [|exact ST]. reflexivity.
Qed.

Definition hitems (h : list block) (n : nat) : list bitem := k_items (match nth_error h n with Some b => b | None => mkBlk [] None end).
Lemma blocks_eff v T order : NoDup order -> forall h c cur h', (forall n, In n order -> (n < length h)%nat) ->
  cfg_legalize_loop v T c h order = (h', Ok tt) ->
  (forall n, In n order -> bare_after_set bview (hitems h n)) ->
  plain_heirs bview (flat_map (hitems h) order) -> heir c cur (flat_map (hitems h) order) ->
  (forall cur', eff cur' (flat_map (hitems h') order) = eff cur (flat_map (hitems h) order))
  /\ (forall n, In n order -> sames (hitems h n) (hitems h' n))
  /\ (forall n, ~ In n order -> hitems h' n = hitems h n).
Proof.
  induction 1 as [|n r NI ND IH]; intros h c cur h' L E B P ST; cbn [cfg_legalize_loop] in E.
  - injection E as <-. repeat split; auto. intros n [].
  - fold (hitems h n) in E. destruct (block_legalize v T c (hitems h n)) as [l' [c'|]] eqn:BL; [|discriminate].
    set (h1 := set_heap h n _) in E.
    assert (LN : (n < length h)%nat) by (apply L; now left).
    assert (H1 : forall m, hitems h1 m = if Nat.eqb m n then l' else hitems h m).
    { intros m. unfold hitems at 1, h1. rewrite blk_upd by exact LN. now destruct (Nat.eqb m n). }
    assert (HR : forall m, In m r -> hitems h1 m = hitems h m).
    { intros m J. rewrite H1. destruct (Nat.eqb_spec m n) as [->|]; [contradiction|reflexivity]. }
    assert (FR : flat_map (hitems h1) r = flat_map (hitems h) r).
    { clear - HR. induction r as [|m r IH]; [reflexivity|]. cbn. rewrite HR by (now left). rewrite IH; [reflexivity|]. intros k J. apply HR. now right. }
    cbn [flat_map] in P, ST.
    unfold block_legalize in BL. destruct (block_legalize_loop v T None c (hitems h n)) as [l1 [z|]] eqn:BE; [|discriminate]. injection BL as <- ->.
    assert (FE : filter (fun x => match x with BSet _ => false | _ => true end) l1 = filter keep l1) by (apply filter_ext; now intros []).
    rewrite FE in *.
    destruct (block_eff v T (flat_map (hitems h) r) _ None c cur _ _ BE (B n (or_introl eq_refl)) P ST) as [I1 I2].
    assert (P' : plain_heirs bview (flat_map (hitems h1) r)).
    { rewrite FR. clear - P. intros pre x mid y post lo Q. apply (P (hitems h n ++ pre) x mid y post lo). rewrite Q, <- app_assoc. reflexivity. }
    destruct (IH h1 c' (endloc cur (hitems h n)) h') as (K1 & K2 & K3).
    { intros m J. unfold h1, set_heap. rewrite upd_length. apply L. now right. }
    { exact E. }
    { intros m J. rewrite HR by exact J. apply B. now right. }
    { exact P'. }
    { rewrite FR. exact I2. }
    assert (HN : hitems h' n = filter keep l1).
    { rewrite K3 by exact NI. rewrite H1, Nat.eqb_refl. reflexivity. }
    split; [|split].
    + intros cur'. cbn [flat_map]. rewrite !eff_app, HN, I1, K1, FR. reflexivity.
    + intros m [<-|J].
      * rewrite HN. assert (I := block_loop_iter _ _ _ _ _ _ _ BE). destruct (block_loop_eq v T (hitems h n) None c I) as (o & EB & IO & ER).
        rewrite BE in EB. injection EB as -> <-. destruct (legalize_loop bview bset_loc v None c (hitems h n)) as [l1 [[]|]] eqn:LL; [|discriminate IO].
        cbn [fst]. assert (LS := loop_same _ _ _ _ _ LL). unfold sames.
        assert (KK : filter keep (filter keep l1) = filter keep l1).
        { clear. induction l1 as [|x r IH]; [reflexivity|]. cbn. destruct (keep x) eqn:K; cbn; [rewrite K, IH|]; auto. }
        rewrite KK. exact LS.
      * rewrite <- (HR m J). now apply K2.
    + intros m J. rewrite K3 by (intros K; apply J; now right). rewrite H1. destruct (Nat.eqb_spec m n) as [->|]; [|reflexivity]. destruct J. now left.
Qed.
