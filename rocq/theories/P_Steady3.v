From Verif Require Import PyBase OpTable P_Base M_Instr M_Tables M_Concrete M_Convert M_Bytecode M_Cfg S_Legal S_Steady S_Prog S_Ident P_Steady P_Steady2 P_Cfg P_Cfg2.
Open Scope list_scope.
Open Scope Z_scope.

Definition sames (l l' : list bitem) : Prop := Forall2 same_elem (filter keep l) (filter keep l').
Lemma same_refl x : keep x = true -> same_elem x x.
Proof. destruct x as [[]| | | |]; cbn; try discriminate; intros _; now constructor. Qed.
Lemma sames_refl l : sames l l.
Proof. unfold sames. induction l as [|x r IH]; [constructor|]. cbn. destruct (keep x) eqn:K; [|exact IH]. constructor; [now apply same_refl|exact IH]. Qed.
Lemma sames_app a a' b b' : sames a a' -> sames b b' -> sames (a ++ b) (a' ++ b').
Proof. unfold sames. rewrite !filter_app. apply Forall2_app. Qed.
Lemma sames_one x y : same_elem x y -> sames [x] [y].
Proof. intros S. unfold sames. destruct S as [|x V]; [cbn; repeat constructor|]. cbn. unfold keep. rewrite V. repeat (constructor; [now constructor|]). constructor. Qed.
Lemma sames_bset z : sames [BSet z] [].
Proof. constructor. Qed.

Lemma find_keep id l : find_tb id (filter keep l) = find_tb id l.
Proof. induction l as [|[] r IH]; cbn; rewrite ?IH; reflexivity. Qed.
Lemma find_same id l l' : sames l l' -> find_tb id l' = find_tb id l.
Proof.
  intros F. rewrite <- (find_keep id l), <- (find_keep id l'). unfold sames in F.
  induction F as [|x y r r' S F IH]; [reflexivity|]. destruct S as [|x V]; cbn; rewrite ?IH; [reflexivity|]. destruct x; try discriminate V; cbn; rewrite ?IH; reflexivity.
Qed.
Lemma depth_keep k d l : filter keep (set_depth k d l) = set_depth k d (filter keep l).
Proof. unfold set_depth. induction l as [|x r IH]; [reflexivity|]. cbn. destruct x as [| | |id0 t0 la0 d0|]; cbn; try (now rewrite IH). destruct (Nat.eqb k id0); cbn; now rewrite IH. Qed.
Lemma depth_same k d l l' : sames l l' -> sames (set_depth k d l) (set_depth k d l').
Proof.
  unfold sames. rewrite !depth_keep. intros F. induction F as [|x y r r' S F IH]; [constructor|]. cbn. constructor; [|exact IH].
  destruct S as [|x V]; [constructor|]. destruct x as [| | |id t la d0|]; try discriminate V; try (now constructor). destruct (Nat.eqb k id); now constructor.
Qed.
Lemma ends_keep l : existsb (fun y => match y with BTE _ => true | _ => false end) (filter keep l) = existsb (fun y => match y with BTE _ => true | _ => false end) l.
Proof. induction l as [|[] r IH]; cbn; rewrite ?IH; reflexivity. Qed.
Lemma remove_none l : existsb (fun y => match y with BTE _ => true | _ => false end) l = false -> remove_last_end l = l.
Proof.
  induction l as [|x r IH]; [reflexivity|]. cbn. intros E. apply orb_false_iff in E. destruct E as [E1 E2]. rewrite E2, (IH E2).
  destruct x; try reflexivity. discriminate.
Qed.
Lemma remove_keep l : filter keep (remove_last_end l) = remove_last_end (filter keep l).
Proof.
  induction l as [|x r IH]; [reflexivity|]. cbn [remove_last_end].
  destruct (existsb _ r) eqn:X.
  - cbn [filter]. destruct (keep x); [|exact IH]. cbn [remove_last_end]. rewrite ends_keep, X, IH. reflexivity.
  - assert (Y : existsb (fun y => match y with BTE _ => true | _ => false end) (filter keep r) = false) by (now rewrite ends_keep).
    assert (RN := remove_none _ X).
    destruct x; cbn [filter keep bview]; rewrite ?RN; cbn [remove_last_end]; rewrite ?Y; try reflexivity;
      try (now rewrite (remove_none _ Y)).
Qed.
Lemma ends_same l l' : Forall2 same_elem l l' -> existsb (fun y => match y with BTE _ => true | _ => false end) l' = existsb (fun y => match y with BTE _ => true | _ => false end) l.
Proof. induction 1 as [|x y r r' S F IH]; [reflexivity|]. cbn. rewrite IH. destruct S; reflexivity. Qed.
Lemma remove_same l l' : sames l l' -> sames (remove_last_end l) (remove_last_end l').
Proof.
  unfold sames. rewrite !remove_keep. intros F. induction F as [|x y r r' S F IH]; [constructor|]. cbn [remove_last_end]. rewrite (ends_same _ _ F).
  destruct (existsb _ r); [constructor; assumption|]. destruct S as [|x V]; [constructor; [constructor|exact IH]|].
  destruct x; try discriminate V; try (constructor; [now constructor|exact IH]). exact F.
Qed.

(** results *)
Definition rel {A} (R : A -> A -> Prop) (x y : res A) : Prop :=
  match x, y with Ok a, Ok b => R a b | Err e, Err e' => e = e' | _, _ => False end.
Lemma rel_bind {A B} (R : A -> A -> Prop) (Q : B -> B -> Prop) x y f f' :
  rel R x y -> (forall a b, R a b -> rel Q (f a) (f' b)) -> rel Q (bind x f) (bind y f').
Proof. destruct x, y; cbn; intros H K; try contradiction; auto. Qed.
Lemma rel_eq {A B} (Q : B -> B -> Prop) (x : res A) f f' : (forall a, rel Q (f a) (f' a)) -> rel Q (bind x f) (bind x f').
Proof. destruct x; cbn; auto. Qed.

Definition sames_state (x y : tstate) : Prop :=
  sames (t_out x) (t_out y) /\ t_tbs x = t_tbs y /\ t_seen x = t_seen y /\ t_fresh x = t_fresh y /\ t_ltb x = t_ltb y /\ t_lte x = t_lte y.

Section Graph.
  Variables (T : optable) (g g' : cfg).
  Hypothesis order : g_order g' = g_order g.
  Hypothesis items : forall n, In n (g_order g) -> sames (k_items (blk g n)) (k_items (blk g' n)).

  Lemma all_same : sames (all_items g) (all_items g').
  Proof.
    unfold all_items. rewrite order. assert (J : forall n, In n (g_order g) -> In n (g_order g)) by auto.
    revert J. generalize (g_order g) at 1 3 4. intros l. induction l as [|n r IH]; intros J; [constructor|]. cbn.
    apply sames_app; [apply items, J; now left|]. apply IH. intros m K. apply J. now right.
  Qed.

  Lemma elem_same x y S S' : same_elem x y -> sames_state S S' -> rel sames_state (to_elem g S x) (to_elem g' S' y).
  Proof.
    destruct S as [out tbs seen fresh ltb lte], S' as [out' ? ? ? ? ?]. intros SE (O & A1 & A2 & A3 & A4 & A5). cbn in *. subst.
    destruct SE as [nm op ar l l'|x V].
    - cbn. repeat split; cbn; auto. apply sames_app; [exact O|]. apply sames_one. constructor.
    - destruct x as [i|z|n|id t la d|id]; try discriminate V; cbn.
      + repeat split; cbn; auto. apply sames_app; [exact O|]. apply sames_one. now constructor.
      + apply rel_bind with (R := sames).
        * destruct t_ltb as [[[t' la'] k]|]; [|exact O]. apply rel_eq; intros []. apply rel_eq; intros [].
          rewrite (find_same k _ _ O). apply rel_eq; intros [[? ?] dk]. apply rel_eq; intros d'. cbn. now apply depth_same.
        * intros o o' OO.
          assert (PL : sames_state (mkTS (o ++ [BTB t_fresh t la d]) (dset Nat.eqb t_tbs id t_fresh) t_seen (t_fresh + 1)%nat (Some (t, la, t_fresh)) None)
            (mkTS (o' ++ [BTB t_fresh t la d]) (dset Nat.eqb t_tbs id t_fresh) t_seen (t_fresh + 1)%nat (Some (t, la, t_fresh)) None)).
          { repeat split; cbn; auto. apply sames_app; [exact OO|]. apply sames_one. now constructor. }
          destruct t_lte as [[[e k] rm]|]; [|exact PL]. rewrite (find_same e _ _ all_same). apply rel_eq; intros [[te lae] de].
          destruct (block_eqb te t && Bool.eqb lae la); [|exact PL]. apply rel_eq; intros d'. destruct rm; [reflexivity|].
          repeat split; cbn; auto. now apply depth_same, remove_same.
      + destruct (nat_mem id t_seen); [repeat split; auto|]. apply rel_eq; intros k. repeat split; cbn; auto.
        apply sames_app; [exact O|]. apply sames_one. now constructor.
  Qed.
  Lemma elem_set x S S' : keep x = false -> sames_state S S' -> exists S1, to_elem g S x = Ok S1 /\ sames_state S1 S'.
  Proof.
    destruct x; try discriminate. destruct S as [out tbs seen fresh ltb lte]. intros _ (O & A). cbn. eexists. split; [reflexivity|].
    split; [|exact A]. cbn. rewrite <- (app_nil_r (t_out S')). apply sames_app; [exact O|constructor].
  Qed.
  Lemma elem_set' x S S' : keep x = false -> sames_state S S' -> exists S1, to_elem g' S' x = Ok S1 /\ sames_state S S1.
  Proof.
    destruct x; try discriminate. destruct S' as [out tbs seen fresh ltb lte]. intros _ (O & A). cbn. eexists. split; [reflexivity|].
    split; [|exact A]. cbn. rewrite <- (app_nil_r (t_out S)). apply sames_app; [exact O|constructor].
  Qed.
  Lemma elems_same l : forall l' S S', sames l l' -> sames_state S S' -> rel sames_state (foldM (to_elem g) l S) (foldM (to_elem g') l' S').
  Proof.
    induction l as [|x r IH]; intros l' S S' F SS.
    - unfold sames in F. cbn in F. revert S S' SS. induction l' as [|y r' IH']; intros S S' SS; [exact SS|].
      cbn in F. destruct (keep y) eqn:K; [inversion F|]. cbn. destruct (elem_set' _ _ _ K SS) as (S1 & E & SS1). rewrite E. cbn. now apply IH'.
    - destruct (keep x) eqn:K.
      + revert S S' SS. induction l' as [|y r' IH']; intros S S' SS.
        * unfold sames in F. cbn in F. rewrite K in F. inversion F.
        * destruct (keep y) eqn:K'.
          -- unfold sames in F. cbn in F. rewrite K, K' in F. inversion F; subst. cbn. apply rel_bind with (R := sames_state); [now apply elem_same|].
             intros a b AB. now apply IH.
          -- cbn [foldM]. destruct (elem_set' _ _ _ K' SS) as (S1 & E & SS1). cbn [foldM]. rewrite E. cbn [bind]. apply IH'; [|exact SS1].
             unfold sames in *. cbn [filter] in F. rewrite K' in F. exact F.
      + cbn. destruct (elem_set _ _ _ K SS) as (S1 & E & SS1). rewrite E. cbn. apply IH; [|exact SS1].
        unfold sames in *. cbn [filter] in F. rewrite K in F. exact F.
  Qed.
End Graph.
