(** Proofs about which objects share a list: C79. *)
From Coq Require Import Lia.
From Verif Require Import PyBase M_Alias S_Alias.
Open Scope list_scope.
Open Scope nat_scope.

Lemma upd_len {B} (l : list B) : forall n x, length (upd n x l) = length l.
Proof. induction l as [|y l IH]; intros [|n] x; cbn; auto. Qed.
Lemma upd_same {B} (l : list B) : forall n x y, nth_error l n = Some y -> nth_error (upd n x l) n = Some x.
Proof. induction l as [|z l IH]; intros [|n] x y H; cbn in *; try discriminate; eauto. Qed.
Lemma upd_other {B} (l : list B) : forall n m x, n <> m -> nth_error (upd n x l) m = nth_error l m.
Proof. induction l as [|z l IH]; intros [|n] [|m] x H; cbn in *; try congruence; auto. Qed.
Lemma is_attr_eq a b : is_attr a b = true <-> a = b.
Proof. destruct a, b; cbn; split; congruence. Qed.

Section Proofs.
  Context {A : Type}.
  Implicit Types st : state A.

  Definition inv st (fam : list nat) : Prop :=
    length fam = length (s_objs st)
    /\ (forall i x a, nth_error (s_objs st) i = Some x -> has (o_cls x) a = true -> o_slot x a < length (s_lists st))
    /\ (forall i x a j y b, nth_error (s_objs st) i = Some x -> nth_error (s_objs st) j = Some y ->
          has (o_cls x) a = true -> has (o_cls y) b = true -> o_slot x a = o_slot y b ->
          a = b /\ (i = j \/ nth_error fam i = nth_error fam j /\ o_cls x = o_cls y /\ shared_by_copies (o_cls x) a = true)).

  Definition pushed st (fam : list nat) (st' : state A) (m : nat) : Prop :=
    exists extra x, s_lists st' = s_lists st ++ extra /\ s_objs st' = s_objs st ++ [x]
    /\ forall a, has (o_cls x) a = true ->
       (length (s_lists st) <= o_slot x a < length (s_lists st'))
         /\ (forall b, has (o_cls x) b = true -> o_slot x b = o_slot x a -> b = a)
       \/ (exists i y, nth_error (s_objs st) i = Some y /\ nth_error fam i = Some m /\ o_cls y = o_cls x
             /\ shared_by_copies (o_cls x) a = true /\ o_slot x a = o_slot y a).

  Lemma shared_has c a : shared_by_copies c a = true -> has c a = true.
  Proof. now destruct c, a. Qed.

  Lemma push_inv st fam st' m : inv st fam -> pushed st fam st' m -> inv st' (fam ++ [m]).
  Proof.
    intros (L & B & S) (extra & x & EL & EO & X).
    assert (LL : length (s_lists st) <= length (s_lists st')) by (rewrite EL, app_length; lia).
    assert (XB : forall a, has (o_cls x) a = true -> o_slot x a < length (s_lists st')).
    { intros a Ha. destruct (X a Ha) as [[? _]|(i & y & Hi & _ & C & Sh & E)]; [lia|]. rewrite E.
      assert (o_slot y a < length (s_lists st)); [|lia]. eapply B; [exact Hi|]. rewrite C. now apply shared_has. }
    assert (N : forall i z, nth_error (s_objs st') i = Some z -> (i < length (s_objs st) /\ nth_error (s_objs st) i = Some z) \/ (i = length (s_objs st) /\ z = x)).
    { intros i z H. rewrite EO in H. destruct (Nat.lt_ge_cases i (length (s_objs st))) as [Q|Q].
      - rewrite nth_error_app1 in H by exact Q. auto.
      - rewrite nth_error_app2 in H by exact Q. right. destruct (i - length (s_objs st)) as [|q] eqn:D; [|destruct q; discriminate]. injection H as <-. split; [lia|reflexivity]. }
    assert (FL : forall i, i < length (s_objs st) -> nth_error (fam ++ [m]) i = nth_error fam i) by (intros i Q; apply nth_error_app1; lia).
    assert (FN : nth_error (fam ++ [m]) (length (s_objs st)) = Some m) by (rewrite nth_error_app2 by lia; rewrite L, Nat.sub_diag; reflexivity).
    (* the new object against an old one *)
    assert (MIX : forall a j y b, nth_error (s_objs st) j = Some y -> has (o_cls x) a = true -> has (o_cls y) b = true -> o_slot x a = o_slot y b ->
      a = b /\ nth_error fam j = Some m /\ o_cls x = o_cls y /\ shared_by_copies (o_cls x) a = true).
    { intros a j y b Hj Ha Hb E. destruct (X a Ha) as [[? _]|(i & y1 & Hi & F & C & Sh & E1)].
      - exfalso. pose proof (B j y b Hj Hb). lia.
      - assert (Ha1 : has (o_cls y1) a = true) by (rewrite C; now apply shared_has).
        destruct (S i y1 a j y b Hi Hj Ha1 Hb ltac:(congruence)) as [-> [->|(F2 & C2 & _)]].
        + rewrite Hi in Hj. injection Hj as <-. auto.
        + repeat split; congruence. }
    split; [rewrite app_length, EO, app_length; cbn; lia|]. split.
    - intros i z a H Ha. destruct (N i z H) as [[_ H']|[_ ->]]; [|now apply XB]. pose proof (B i z a H' Ha). lia.
    - intros i z a j w b Hi Hj Ha Hb E. destruct (N i z Hi) as [[Qi Hi']|[-> ->]]; destruct (N j w Hj) as [[Qj Hj']|[-> ->]].
      + rewrite (FL i Qi), (FL j Qj). exact (S i z a j w b Hi' Hj' Ha Hb E).
      + destruct (MIX b i z a Hi' Hb Ha (eq_sym E)) as (-> & F & C & Sh). split; [reflexivity|]. right. rewrite (FL i Qi), FN. repeat split; congruence.
      + destruct (MIX a j w b Hj' Ha Hb E) as (-> & F & C & Sh). split; [reflexivity|]. right. rewrite FN, (FL j Qj). repeat split; congruence.
      + split; [|now left]. destruct (X a Ha) as [[_ U]|(i1 & y1 & Hi1 & F1 & C1 & S1 & E1)]; [symmetry; now apply U|].
        destruct (X b Hb) as [[_ U]|(i2 & y2 & Hi2 & F2 & C2 & S2 & E2)]; [now apply U|].
        apply (S i1 y1 a i2 y2 b Hi1 Hi2); [rewrite C1; now apply shared_has|rewrite C2; now apply shared_has|congruence].
  Qed.

  Ltac fresh_slots := intros a Ha; destruct a; cbn in *; try discriminate; left;
    (split; [rewrite ?app_length in *; cbn in *; lia|intros b Hb; destruct b; cbn in *; try discriminate; rewrite ?app_length; cbn; try reflexivity; intros; lia]).

  Lemma creates_pushed st fam st' m : creates st st' -> pushed st fam st' m.
  Proof.
    intros H. destruct H as [st c k n v|st n k v f c|st i st' H|st i st' H|st i n st' H|st i k n m' st' H].
    - destruct c; unfold construct, add_obj, init, alloc; eexists _, _; cbn [fst snd s_lists s_objs];
        (split; [rewrite <- !app_assoc; reflexivity|]); (split; [reflexivity|]); fresh_slots.
    - unfold from_code, add_obj, init, set_new, alloc; eexists _, _; cbn [fst snd s_lists s_objs];
        (split; [rewrite <- !app_assoc; reflexivity|]); (split; [reflexivity|]); fresh_slots.
    - unfold graph_of_bytecode in H. destruct (nth_error _ _) as [y|]; [|discriminate]. destruct (o_cls y) eqn:C; try discriminate. injection H as <-.
      unfold add_obj, init, copy_attr_from, set_new, alloc; eexists _, _; cbn [fst snd s_lists s_objs];
        (split; [rewrite <- !app_assoc; reflexivity|]); (split; [reflexivity|]); cbn [o_cls set_slot]; rewrite ?C; fresh_slots.
    - unfold bytecode_of_graph in H. destruct (nth_error _ _) as [y|]; [|discriminate]. destruct (o_cls y) eqn:C; try discriminate. injection H as <-.
      unfold add_obj, init, copy_attr_from, set_new, alloc; eexists _, _; cbn [fst snd s_lists s_objs];
        (split; [rewrite <- !app_assoc; reflexivity|]); (split; [reflexivity|]); cbn [o_cls set_slot]; rewrite ?C; fresh_slots.
    - unfold bytecode_of_concrete in H. destruct (nth_error _ _) as [y|]; [|discriminate]. destruct (o_cls y) eqn:C; try discriminate. injection H as <-.
      unfold add_obj, init, copy_attr_from, set_new, alloc; eexists _, _; cbn [fst snd s_lists s_objs];
        (split; [rewrite <- !app_assoc; reflexivity|]); (split; [reflexivity|]); cbn [o_cls set_slot]; rewrite ?C; fresh_slots.
    - unfold concrete_of_bytecode in H. destruct (nth_error _ _) as [y|]; [|discriminate]. destruct (o_cls y) eqn:C; try discriminate. injection H as <-.
      unfold add_obj, init, copy_attr_from, set_new, alloc; eexists _, _; cbn [fst snd s_lists s_objs];
        (split; [rewrite <- !app_assoc; reflexivity|]); (split; [reflexivity|]); cbn [o_cls set_slot]; rewrite ?C; fresh_slots.
  Qed.

  Lemma copy_pushed st fam i st' m : inv st fam -> copy st i = Some st' -> nth_error fam i = Some m -> pushed st fam st' m.
  Proof.
    unfold copy. intros (_ & B & _) H F. destruct (nth_error (s_objs st) i) as [y|] eqn:Hi; [|discriminate].
    assert (BY : forall a, has (o_cls y) a = true -> o_slot y a < length (s_lists st)) by (intros a; eapply B; exact Hi).
    destruct (o_cls y) eqn:C; try discriminate; injection H as <-;
      unfold add_obj, init, copy_attr_from, alloc; eexists _, _; cbn [fst snd s_lists s_objs];
      (split; [rewrite <- !app_assoc; reflexivity|]); (split; [reflexivity|]); cbn [o_cls set_slot]; rewrite ?C; cbn [o_cls set_slot];
      intros a Ha; destruct a; cbn in Ha; try discriminate;
      first [ right; exists i, y; now rewrite C
            | left; (split; [cbn; rewrite ?app_length; cbn; lia|]);
              intros b Hb; pose proof (BY b Hb); destruct b; cbn in Hb; try discriminate; cbn; rewrite ?app_length; cbn; try reflexivity; intros; lia ].
  Qed.

  Lemma edit_inv st fam i a f st' : inv st fam -> edit st i a f = Some st' -> inv st' fam.
  Proof.
    unfold edit. intros (L & B & SH) H. destruct (nth_error (s_objs st) i) as [x|] eqn:Hi; [|discriminate]. destruct (has (o_cls x) a); [|discriminate]. injection H as <-.
    split; [exact L|]. split; [|exact SH]. cbn. intros j y b Hj Hb. rewrite upd_len. eauto.
  Qed.
  Lemma assign_inv st fam i a l st' : inv st fam -> assign st i a l = Some st' -> inv st' fam.
  Proof.
    unfold assign, set_new, alloc. intros (L & B & SH) H. destruct (nth_error (s_objs st) i) as [x|] eqn:Hi; [|discriminate]. destruct (has (o_cls x) a) eqn:HA; [|discriminate]. injection H as <-.
    set (x' := set_slot x a (length (s_lists st))).
    assert (N : forall j y, nth_error (upd i x' (s_objs st)) j = Some y -> (j = i /\ y = x') \/ (j <> i /\ nth_error (s_objs st) j = Some y)).
    { intros j y H. destruct (Nat.eq_dec j i) as [->|D]; [|rewrite upd_other in H by auto; auto]. rewrite (upd_same _ _ _ _ Hi) in H. injection H as <-. auto. }
    assert (SX : forall b, o_slot x' b = if is_attr a b then length (s_lists st) else o_slot x b) by reflexivity.
    assert (IA : forall b, is_attr a b = true -> a = b) by (intros b; apply is_attr_eq).
    split; [cbn; now rewrite upd_len|]. split; cbn [s_lists s_objs].
    - intros j y b Hj Hb. rewrite app_length. cbn. destruct (N j y Hj) as [[-> ->]|[_ Hj']]; [|pose proof (B j y b Hj' Hb); lia].
      rewrite SX. destruct (is_attr a b); [lia|]. pose proof (B i x b Hi Hb). lia.
    - intros j y b k z c Hj Hk Hb Hc E. destruct (N j y Hj) as [[-> ->]|[Dj Hj']]; destruct (N k z Hk) as [[-> ->]|[Dk Hk']].
      + split; [|now left]. rewrite !SX in E. destruct (is_attr a b) eqn:IB; destruct (is_attr a c) eqn:IC.
        * apply IA in IB. apply IA in IC. congruence.
        * pose proof (B i x c Hi Hc). lia.
        * pose proof (B i x b Hi Hb). lia.
        * eapply SH; eauto.
      + rewrite SX in E. destruct (is_attr a b) eqn:IB; [pose proof (B k z c Hk' Hc); lia|]. exact (SH i x b k z c Hi Hk' Hb Hc E).
      + rewrite SX in E. destruct (is_attr a c) eqn:IC; [pose proof (B j y b Hj' Hb); lia|]. exact (SH j y b i x c Hj' Hi Hb Hc E).
      + eapply SH; eauto.
  Qed.

  Lemma made_inv st fam : made st fam -> inv st fam.
  Proof.
    induction 1 as [|st fam st' _ IH C|st fam i st' m _ IH C F|st fam i a f st' _ IH E|st fam i a l st' _ IH E].
    - split; [reflexivity|]. split; intros [|i]; cbn; discriminate.
    - eapply push_inv; [exact IH|]. now apply creates_pushed.
    - eapply push_inv; [exact IH|]. eapply copy_pushed; eassumption.
    - eapply edit_inv; eassumption.
    - eapply assign_inv; eassumption.
  Qed.

  (** contents *)
  Lemma contents_app (h : lheap A) e r : r < length h -> contents (h ++ e) r = contents h r.
  Proof. intros L. unfold contents. now rewrite nth_error_app1. Qed.
  Lemma contents_new (h : lheap A) l : contents (h ++ [l]) (length h) = l.
  Proof. unfold contents. now rewrite nth_error_app2, Nat.sub_diag by lia. Qed.

  (** A new object leaves what the others show. *)
  Lemma pushed_read st fam st' m j b : inv st fam -> pushed st fam st' m -> j < length (s_objs st) -> read st' j b = read st j b.
  Proof.
    intros (_ & B & _) (extra & x & EL & EO & _) J. unfold read. rewrite EO, nth_error_app1 by exact J.
    destruct (nth_error (s_objs st) j) as [y|] eqn:Hj; [|reflexivity]. destruct (has (o_cls y) b) eqn:Hb; [|reflexivity].
    rewrite EL, contents_app; [reflexivity|]. eapply B; eassumption.
  Qed.
  Lemma pushed_objs st fam st' m : pushed st fam st' m -> exists x, s_objs st' = s_objs st ++ [x].
  Proof. intros (e & x & _ & EO & _). eauto. Qed.

  Lemma edit_read st fam i a f st' : inv st fam -> edit st i a f = Some st' ->
    read st' i a = option_map f (read st i a) /\ forall j b, ~ same_list st i a j b -> read st' j b = read st j b.
  Proof.
    unfold edit, read, same_list. intros (_ & B & _) H. destruct (nth_error (s_objs st) i) as [x|] eqn:Hi; [|discriminate].
    destruct (has (o_cls x) a) eqn:Ha; [|discriminate]. injection H as <-. cbn [s_objs s_lists]. rewrite Hi, Ha. split.
    - cbn. pose proof (B i x a Hi Ha) as L. apply nth_error_Some in L. unfold contents at 1.
      destruct (nth_error (s_lists st) (o_slot x a)) as [l|] eqn:E; [|congruence]. now rewrite (upd_same _ _ _ _ E).
    - intros j b N. destruct (nth_error (s_objs st) j) as [y|] eqn:Hj; [|reflexivity]. destruct (has (o_cls y) b) eqn:Hb; [|reflexivity].
      f_equal. unfold contents at 1 3. rewrite upd_other; [reflexivity|]. intros E. apply N. exists x, y. repeat split; assumption.
  Qed.
  Lemma assign_read st fam i a l st' : inv st fam -> assign st i a l = Some st' ->
    read st' i a = Some l /\ forall j b, (j, b) <> (i, a) -> read st' j b = read st j b.
  Proof.
    unfold assign, set_new, alloc, read. intros (_ & B & _) H. destruct (nth_error (s_objs st) i) as [x|] eqn:Hi; [|discriminate].
    destruct (has (o_cls x) a) eqn:Ha; [|discriminate]. injection H as <-. cbn [s_objs s_lists]. split.
    - rewrite (upd_same _ _ _ _ Hi). cbn [o_cls set_slot o_slot]. rewrite Ha. replace (is_attr a a) with true by (symmetry; now apply is_attr_eq).
      now rewrite contents_new.
    - intros j b N. destruct (Nat.eq_dec i j) as [<-|D].
      + rewrite (upd_same _ _ _ _ Hi), Hi. cbn [o_cls set_slot o_slot]. destruct (has (o_cls x) b) eqn:Hb; [|reflexivity].
        destruct (is_attr a b) eqn:IA; [apply is_attr_eq in IA; congruence|]. rewrite contents_app; [reflexivity|]. eapply B; eassumption.
      + rewrite upd_other by exact D. destruct (nth_error (s_objs st) j) as [y|] eqn:Hj; [|reflexivity]. destruct (has (o_cls y) b) eqn:Hb; [|reflexivity].
        rewrite contents_app; [reflexivity|]. eapply B; eassumption.
  Qed.

  (** What the new object shows *)
  Lemma read_new st' objs x a : s_objs st' = objs ++ [x] ->
    read st' (length objs) a = if has (o_cls x) a then Some (contents (s_lists st') (o_slot x a)) else None.
  Proof. intros E. unfold read. now rewrite E, nth_error_app2, Nat.sub_diag by lia. Qed.

  Ltac look B := cbn [o_slot set_slot is_attr slots o_cls];
    repeat first [rewrite contents_new | rewrite contents_app by (rewrite ?app_length; cbn [length]; first [lia | pose proof (B Cellvars eq_refl); lia
      | pose proof (B Freevars eq_refl); lia | pose proof (B Argnames eq_refl); lia | pose proof (B Consts eq_refl); lia | pose proof (B Names eq_refl); lia | pose proof (B Varnames eq_refl); lia])].
  Ltac begin H y C B Hi i st := match type of H with ?op = _ => unfold op in H | _ => idtac end.

  Lemma construct_read st c k n v a :
    read (construct st c k n v) (length (s_objs st)) a
    = if has c a then Some (match a with Consts => k | Names => n | Varnames => v | _ => [] end) else None.
  Proof.
    assert (BY : forall a : attr, true = false -> 0 < 0) by discriminate.
    unfold construct, init, add_obj, alloc. destruct c; erewrite read_new by reflexivity; destruct a; cbn [has o_cls fst snd s_lists]; try reflexivity; look BY; reflexivity.
  Qed.
  Lemma from_code_read st n k v f c a :
    read (from_code st n k v f c) (length (s_objs st)) a
    = match a with Consts => Some k | Names => Some n | Varnames => Some v | Freevars => Some f | Cellvars => Some c | Argnames => None end.
  Proof.
    assert (BY : forall a : attr, true = false -> 0 < 0) by discriminate.
    unfold from_code, init, set_new, add_obj, alloc. erewrite read_new by reflexivity; destruct a; cbn [has o_cls fst snd s_lists set_slot]; try reflexivity; look BY; reflexivity.
  Qed.
  Lemma graph_of_read st fam i st' a : inv st fam -> graph_of_bytecode st i = Some st' -> read st' (length (s_objs st)) a = read st i a.
  Proof.
    unfold graph_of_bytecode. intros (_ & B & _) H. unfold read at 2. destruct (nth_error (s_objs st) i) as [y|] eqn:Hi; [|discriminate].
    assert (BY : forall a, has (o_cls y) a = true -> o_slot y a < length (s_lists st)) by (intros b; eapply B; exact Hi).
    destruct (o_cls y) eqn:C; try discriminate; injection H as <-. unfold init, copy_attr_from, set_new, add_obj, alloc.
    cbn [fst snd set_slot o_cls]. rewrite ?C. erewrite read_new by reflexivity. destruct a; cbn [has o_cls set_slot s_lists]; try reflexivity; look BY; reflexivity.
  Qed.
  Lemma of_graph_read st fam i st' a : inv st fam -> bytecode_of_graph st i = Some st' -> read st' (length (s_objs st)) a = read st i a.
  Proof.
    unfold bytecode_of_graph. intros (_ & B & _) H. unfold read at 2. destruct (nth_error (s_objs st) i) as [y|] eqn:Hi; [|discriminate].
    assert (BY : forall a, has (o_cls y) a = true -> o_slot y a < length (s_lists st)) by (intros b; eapply B; exact Hi).
    destruct (o_cls y) eqn:C; try discriminate; injection H as <-. unfold init, copy_attr_from, set_new, add_obj, alloc.
    cbn [fst snd set_slot o_cls]. rewrite ?C. erewrite read_new by reflexivity. destruct a; cbn [has o_cls set_slot s_lists]; try reflexivity; look BY; reflexivity.
  Qed.
  Lemma of_concrete_read st fam i n st' : inv st fam -> bytecode_of_concrete st i n = Some st' ->
    read st' (length (s_objs st)) Cellvars = read st i Cellvars /\ read st' (length (s_objs st)) Freevars = read st i Freevars
    /\ read st' (length (s_objs st)) Argnames = option_map (firstn n) (read st i Varnames).
  Proof.
    unfold bytecode_of_concrete. intros (_ & B & _) H. unfold read at 2 4 6. destruct (nth_error (s_objs st) i) as [y|] eqn:Hi; [|discriminate].
    assert (BY : forall a, has (o_cls y) a = true -> o_slot y a < length (s_lists st)) by (intros b; eapply B; exact Hi).
    destruct (o_cls y) eqn:C; try discriminate; injection H as <-. unfold init, copy_attr_from, set_new, add_obj, alloc.
    cbn [fst snd set_slot o_cls]. rewrite ?C. repeat (erewrite read_new by reflexivity). cbn [has o_cls set_slot s_lists option_map].
    repeat split; look BY; reflexivity.
  Qed.
  Lemma to_concrete_read st fam i k n m st' : inv st fam -> concrete_of_bytecode st i k n m = Some st' ->
    read st' (length (s_objs st)) Cellvars = read st i Cellvars /\ read st' (length (s_objs st)) Freevars = read st i Freevars
    /\ read st' (length (s_objs st)) Consts = Some k /\ read st' (length (s_objs st)) Names = Some n
    /\ read st' (length (s_objs st)) Varnames = option_map (fun l => l ++ m) (read st i Argnames).
  Proof.
    unfold concrete_of_bytecode. intros (_ & B & _) H. unfold read at 2 4 8. destruct (nth_error (s_objs st) i) as [y|] eqn:Hi; [|discriminate].
    assert (BY : forall a, has (o_cls y) a = true -> o_slot y a < length (s_lists st)) by (intros b; eapply B; exact Hi).
    destruct (o_cls y) eqn:C; try discriminate; injection H as <-. unfold init, copy_attr_from, set_new, add_obj, alloc.
    cbn [fst snd set_slot o_cls]. rewrite ?C. repeat (erewrite read_new by reflexivity). cbn [has o_cls set_slot s_lists option_map].
    repeat split; look BY; reflexivity.
  Qed.
  Lemma copy_read st fam i st' a : inv st fam -> copy st i = Some st' ->
    read st' (length (s_objs st)) a = read st i a
    /\ (same_list st' i a (length (s_objs st)) a <-> exists x, nth_error (s_objs st) i = Some x /\ shared_by_copies (o_cls x) a = true).
  Proof.
    unfold copy. intros (_ & B & _) H. unfold read at 2. destruct (nth_error (s_objs st) i) as [y|] eqn:Hi; [|discriminate].
    assert (LI : i < length (s_objs st)) by (apply nth_error_Some; congruence).
    assert (BY : forall a, has (o_cls y) a = true -> o_slot y a < length (s_lists st)) by (intros b; eapply B; exact Hi).
    assert (BA : has (o_cls y) a = true -> o_slot y a < length (s_lists st)) by apply BY.
    destruct (o_cls y) eqn:C; try discriminate; injection H as <-; unfold init, copy_attr_from, set_new, add_obj, alloc;
    cbn [fst snd set_slot o_cls]; rewrite ?C; (split; [erewrite read_new by reflexivity; destruct a; cbn [has o_cls set_slot s_lists]; try reflexivity; look BY; reflexivity|]);
    unfold same_list; cbn [s_objs]; rewrite nth_error_app1, Hi, nth_error_app2, Nat.sub_diag by lia;
    (split; [intros (x & z & E1 & E2 & H1 & H2 & E); injection E1 as <-; injection E2 as <-; exists y; (split; [reflexivity|]); rewrite C in *;
             destruct a; cbn in *; try reflexivity; try discriminate; exfalso; rewrite ?app_length in E; cbn in E; specialize (BA eq_refl); lia
            |intros (x & E1 & SH); injection E1 as <-; rewrite C in SH; eexists y, _; (split; [reflexivity|]); (split; [reflexivity|]); rewrite C;
             destruct a; cbn in SH; try discriminate; repeat split; reflexivity]).
  Qed.

  (** The families in use are numbers below the number of objects. *)
  Lemma families st family : made st family -> forall m, In m family -> m < length family.
  Proof.
    induction 1 as [|st fam st' _ IH C|st fam i st' m _ IH C F|st fam i a f st' _ IH E|st fam i a l st' _ IH E]; intros q Q; auto; [contradiction| |];
      rewrite app_length; cbn; apply in_app_iff in Q; destruct Q as [Q|[<-|[]]]; [specialize (IH q Q); lia|lia|specialize (IH q Q); lia|].
    specialize (IH m (nth_error_In _ _ F)). lia.
  Qed.
  Lemma fresh_family st family : made st family -> ~ In (length family) family.
  Proof. intros M J. pose proof (families st family M _ J). lia. Qed.
End Proofs.
