From Verif Require Import PyBase OpTable P_Base M_Instr M_Tables M_Concrete M_Convert M_Bytecode M_Cfg S_Legal S_Steady S_Prog S_Ident.
Open Scope list_scope.
Open Scope Z_scope.

Lemma set_line_ok v lo z lo' : set_lineno v lo (LLine z) = (lo', Ok tt) -> lo' = Some (line_loc (Some z)).
Proof.
  unfold set_lineno. destruct (match lo with Some _ => _ | None => false end); [discriminate|].
  destruct (new_location v (Some z) None None None) as [l|] eqn:E; [|discriminate].
  intros Q. injection Q as <-. unfold new_location in E. repeat (apply bind_ok in E; destruct E as (? & _ & E)). cbn in E.
  injection E as <-. reflexivity.
Qed.
Lemma loc_line lo z : loc_lineno lo = LLine z -> exists l, lo = Some l /\ l_lineno l = Some z.
Proof. destruct lo as [[[x|] ? ? ?]|]; cbn; intros E; try discriminate. injection E as ->. eauto. Qed.

Section Idem.
  Context {A : Type} (view : A -> lview) (set_loc : A -> option loc -> A).
  Hypothesis set_view : forall x lo lo', view x = VInstr lo -> view (set_loc x lo') = VInstr lo'.

  Lemma loop_done v l : forall c, (forall x, In x l -> exists lo, view x = VInstr (Some lo) \/ view x = VOther) ->
    legalize_loop view set_loc v None c l = (l, Ok tt).
  Proof.
    induction l as [|x r IH]; intros c H; [reflexivity|].
    assert (R : forall y, In y r -> exists lo, view y = VInstr (Some lo) \/ view y = VOther) by (intros; apply H; now right).
    cbn. destruct (H x (or_introl eq_refl)) as (lo & [-> | ->]).
    - cbn. destruct (l_lineno lo); cbn; now rewrite (IH _ R).
    - now rewrite (IH _ R).
  Qed.
  Lemma filter_done l : (forall x z, In x l -> view x <> VSetLine z) ->
    filter (fun x => match view x with VSetLine _ => false | _ => true end) l = l.
  Proof.
    induction l as [|x r IH]; intros H; [reflexivity|]. cbn. destruct (view x) eqn:V.
    - destruct (H x z (or_introl eq_refl) V).
    - f_equal. apply IH. intros y z J. apply H. now right.
    - f_equal. apply IH. intros y z J. apply H. now right.
  Qed.
  Lemma loop_located v l : forall s c l', legalize_loop view set_loc v s c l = (l', Ok tt) ->
    forall x, In x (filter (fun x => match view x with VSetLine _ => false | _ => true end) l') ->
    exists lo, view x = VInstr (Some lo) \/ view x = VOther.
  Proof.
    induction l as [|x r IH]; intros s c l' E; cbn in E.
    - injection E as <-. intros x [].
    - destruct (view x) eqn:V.
      + destruct (legalize_loop _ _ _ _ _ r) as [r' o] eqn:R. injection E as <- ->. cbn. rewrite V. eapply IH; eauto.
      + assert (K : forall lo' s' c', exists rr oo, legalize_loop view set_loc v s' c' r = (rr, oo) /\
          ((set_loc x (Some lo') :: rr, oo) = (l', Ok tt) -> forall x0 : A, In x0 (filter (fun x1 : A => match view x1 with VSetLine _ => false | _ => true end) l') ->
             exists lo : loc, view x0 = VInstr (Some lo) \/ view x0 = VOther)).
        { intros lo' s' c'. destruct (legalize_loop view set_loc v s' c' r) as [r' o] eqn:R. exists r', o. split; [reflexivity|].
          intros Q. injection Q as <- ->. intros y J. cbn in J. rewrite (set_view _ _ (Some lo') V) in J. destruct J as [<-|J].
          - exists lo'. left. eapply set_view; eauto.
          - eapply IH; eauto. }
        destruct s as [z|].
        * destruct (set_lineno v l (LLine z)) as [lo' [[]|]] eqn:SL; [|discriminate].
          apply set_line_ok in SL. subst lo'. destruct (K (line_loc (Some z)) (Some z) c) as (rr & oo & R & K'). rewrite R in E. exact (K' E).
        * assert (K2 : forall c', l <> None -> (let '(r', o) := legalize_loop view set_loc v None c' r in (x :: r', o)) = (l', Ok tt) ->
            forall x0 : A, In x0 (filter (fun x1 : A => match view x1 with VSetLine _ => false | _ => true end) l') ->
             exists lo : loc, view x0 = VInstr (Some lo) \/ view x0 = VOther).
          { clear E. intros c' N Q. destruct (legalize_loop _ _ _ _ _ r) as [r' o] eqn:R. injection Q as <- ->. cbn. rewrite V. intros y [<-|J].
            - destruct l as [l0|]; [|contradiction]. eauto.
            - eapply IH; eauto. }
          destruct l as [l0|]; cbn [loc_lineno] in E.
          { destruct (l_lineno l0); eapply K2; try exact E; discriminate. }
          destruct (set_lineno v None (LLine c)) as [lo' [[]|]] eqn:SL; [|discriminate].
          apply set_line_ok in SL. subst lo'. destruct (K (line_loc (Some c)) None c) as (rr & oo & R & K'). rewrite R in E. exact (K' E).
      + destruct (legalize_loop _ _ _ _ _ r) as [r' o] eqn:R. injection E as <- ->. cbn. rewrite V. intros y [<-|J]; [exists (line_loc None); now right|].
        eapply IH; eauto.
  Qed.
  Lemma legalize_again v first l l' : legalize view set_loc v first l [] None = (l', Ok tt) ->
    legalize view set_loc v first l' [] None = (l', Ok tt).
  Proof.
    unfold legalize. destruct (legalize_loop view set_loc v None first l) as [l1 [[]|]] eqn:E; [|discriminate].
    intros Q. injection Q as <-. assert (H := loop_located _ _ _ _ _ E).
    rewrite (loop_done _ _ _ H). f_equal. apply filter_done. intros x z J V. destruct (H _ J) as (lo & [X|X]); congruence.
  Qed.

  Lemma bare_tail x l : bare_after_set view (x :: l) -> bare_after_set view l.
  Proof. intros H pre y mid w post z lo -> Vy Vw. apply (H (x :: pre) y mid w post z lo); auto. Qed.
  Lemma bare_set x l z : bare_after_set view (x :: l) -> view x = VSetLine z -> forall y lo, In y l -> view y = VInstr lo -> lo = None.
  Proof. intros H V y lo J W. apply in_split in J. destruct J as (mid & post & ->). apply (H [] x mid y post z lo); auto. Qed.
  Lemma heirs_tail x l : plain_heirs view (x :: l) -> plain_heirs view l.
  Proof. intros H pre y mid w post lo -> Vy Vw M. apply (H (x :: pre) y mid w post lo); auto. Qed.
End Idem.

(** ** The program of a Bytecode *)

Definition keep (x : bitem) : bool := match bview x with VSetLine _ => false | _ => true end.
Lemma bset_view : forall x lo lo', bview x = VInstr lo -> bview (bset_loc x lo') = VInstr lo'.
Proof. intros [] lo lo'; cbn; try discriminate. reflexivity. Qed.
Lemma cset_view : forall x lo lo', cview x = VInstr lo -> cview (cset_loc x lo') = VInstr lo'.
Proof. intros [] lo lo'; cbn; try discriminate. reflexivity. Qed.

(** an element but for its location *)
Inductive same_elem : bitem -> bitem -> Prop :=
| se_instr n o a l l' : same_elem (BI (mkInstr n o a l)) (BI (mkInstr n o a l'))
| se_other x : bview x = VOther -> same_elem x x.
Lemma same_set_loc x lo lo' : bview x = VInstr lo -> same_elem x (bset_loc x lo').
Proof. destruct x as [[]| | | |]; cbn; try discriminate. constructor. Qed.
Lemma same_self x lo : bview x = VInstr lo -> same_elem x x.
Proof. destruct x as [[]| | | |]; cbn; try discriminate. constructor. Qed.

Lemma loop_same v l : forall s c l', legalize_loop bview bset_loc v s c l = (l', Ok tt) ->
  Forall2 same_elem (filter keep l) (filter keep l').
Proof.
  unfold keep. induction l as [|x r IH]; intros s c l' E; cbn in E.
  - injection E as <-. constructor.
  - destruct (bview x) as [z|lo|] eqn:V.
    + destruct (legalize_loop _ _ _ _ _ r) as [r' o] eqn:R. injection E as <- ->. cbn. rewrite V. eapply IH; eauto.
    + assert (K : forall lo' s' c', (let '(r', o) := legalize_loop bview bset_loc v s' c' r in (bset_loc x lo' :: r', o)) = (l', Ok tt) ->
         Forall2 same_elem (filter (fun x => match bview x with VSetLine _ => false | _ => true end) (x :: r))
            (filter (fun x => match bview x with VSetLine _ => false | _ => true end) l')).
      { clear E. intros lo' s' c'. destruct (legalize_loop _ _ _ _ _ r) as [r' o] eqn:R. intros Q. injection Q as <- ->. cbn [filter]. rewrite V, (bset_view _ _ lo' V).
        constructor; [eapply same_set_loc; eauto|eapply IH; eauto]. }
      assert (K2 : forall s' c', (let '(r', o) := legalize_loop bview bset_loc v s' c' r in (x :: r', o)) = (l', Ok tt) ->
         Forall2 same_elem (filter (fun x => match bview x with VSetLine _ => false | _ => true end) (x :: r))
            (filter (fun x => match bview x with VSetLine _ => false | _ => true end) l')).
      { clear E. intros s' c'. destruct (legalize_loop _ _ _ _ _ r) as [r' o] eqn:R. intros Q. injection Q as <- ->. cbn [filter]. rewrite V.
        constructor; [eapply same_self; eauto|eapply IH; eauto]. }
      destruct s as [z|].
      * destruct (set_lineno v lo (LLine z)) as [lo' [[]|]]; [|discriminate]. eapply K; eauto.
      * destruct (loc_lineno lo); [| eapply K2; eauto |eapply K2; eauto].
        destruct (set_lineno v lo (LLine c)) as [lo' [[]|]]; [|discriminate]. eapply K; eauto.
    + destruct (legalize_loop _ _ _ _ _ r) as [r' o] eqn:R. injection E as <- ->. cbn [filter]. rewrite V. constructor; [now constructor|eapply IH; eauto].
Qed.

Lemma position_keep l n : position (filter keep l) n = position l n.
Proof.
  induction l as [|x r IH]; [reflexivity|]. destruct x; cbn [filter keep bview]; cbn [position]; rewrite ?IH; try reflexivity.
  destruct (position r n); reflexivity.
Qed.
Lemma position_same l l' : Forall2 same_elem l l' -> forall n, position l' n = position l n.
Proof.
  intros F n. induction F as [|x y r r' S F IH]; [reflexivity|]. cbn [position]. rewrite IH. destruct S; reflexivity.
Qed.
Lemma walk_ext f f' l : (forall n, f n = f' n) -> forall o, walk f o l = walk f' o l.
Proof.
  intros H. assert (K : forall a, arg_of f a = arg_of f' a) by (intros []; cbn; congruence).
  induction l as [|[] r IH]; intros o; cbn; rewrite ?IH, ?K; reflexivity.
Qed.

Definition settled (s : option Z) (c : Z) (cur : loc) (l : list bitem) : Prop :=
  match s with
  | Some z => cur = line_loc (Some z) /\ forall y lo, In y l -> bview y = VInstr lo -> lo = None
  | None => forall mid y post, l = mid ++ y :: post -> bview y = VInstr None ->
      (forall w, In w mid -> bview w = VOther) -> cur = line_loc (Some c)
  end.

Lemma source_loop v pos l : forall s c cur cur' o l',
  legalize_loop bview bset_loc v s c l = (l', Ok tt) ->
  bare_after_set bview l -> plain_heirs bview l -> settled s c cur l ->
  located cur' (walk pos o (filter keep l')) = located cur (walk pos o l).
Proof.
  unfold keep. induction l as [|x r IH]; intros s c cur cur' o l' E B P ST; cbn in E.
  - injection E as <-. reflexivity.
  - assert (B' := bare_tail _ _ _ B). assert (P' := heirs_tail _ _ _ P).
    destruct (bview x) as [z|lo|] eqn:V.
    + destruct (legalize_loop _ _ _ _ _ r) as [r' o'] eqn:R. injection E as <- ->. cbn [filter]. rewrite V.
      destruct x; try discriminate V. injection V as ->. cbn.
      eapply IH; eauto. split; [reflexivity|]. intros y lo J W. eapply (bare_set bview (BSet z) r); eauto. reflexivity.
    + destruct x as [[nm op ar il]| | | |]; try discriminate V. cbn in V. injection V as ->.
      cbn [bset_loc] in E. cbn [i_name i_op i_arg i_loc] in *.
      destruct s as [z|].
      * destruct ST as [-> ST]. assert (lo = None) by (apply (ST (BI (mkInstr nm op ar lo)) lo); [now left|reflexivity]). subst lo.
        destruct (set_lineno v None (LLine z)) as [lo' [[]|]] eqn:SL; [|discriminate]. apply set_line_ok in SL. subst lo'.
        destruct (legalize_loop _ _ _ _ _ r) as [r' o'] eqn:R. injection E as <- ->. cbn. f_equal.
        eapply IH; eauto. split; [reflexivity|]. intros y lo J W. eapply ST; eauto. now right.
      * assert (K : forall c' lo2 l2, lo = Some lo2 -> 
          (lo2 = line_loc (Some c') \/ ~ exists z, lo2 = line_loc (Some z)) ->
          (let '(r', o) := legalize_loop bview bset_loc v None c' r in (BI (mkInstr nm op ar lo) :: r', o)) = (l2, Ok tt) ->
          located cur' (walk pos o (filter (fun x => match bview x with VSetLine _ => false | _ => true end) l2))
          = located cur (walk pos o (BI (mkInstr nm op ar lo) :: r))).
        { clear E. intros c' lo2 l2 -> SIM Q. destruct (legalize_loop _ _ _ _ _ r) as [r' o'] eqn:R. injection Q as <- ->. cbn. f_equal.
          eapply IH; eauto. intros mid y post -> Vy Hm. destruct SIM as [X|X]; [exact X|]. exfalso. apply X.
          eapply (P [] _ mid y post lo2); [reflexivity|reflexivity|exact Vy|]. intros w J. left. now apply Hm. }
        destruct lo as [[[lz|] e1 c1 c2]|]; cbn [loc_lineno l_lineno] in E.
        -- eapply K; [reflexivity| |exact E]. destruct e1, c1, c2; try (right; intros (q & Q); discriminate Q). now left.
        -- eapply K; [reflexivity| |exact E]. right. intros (q & Q); discriminate Q.
        -- assert (cur = line_loc (Some c)).
           { apply (ST [] (BI (mkInstr nm op ar None)) r); [reflexivity|reflexivity|]. intros w []. }
           subst cur. destruct (set_lineno v None (LLine c)) as [lo' [[]|]] eqn:SL; [|discriminate]. apply set_line_ok in SL. subst lo'.
           destruct (legalize_loop _ _ _ _ _ r) as [r' o'] eqn:R. injection E as <- ->. cbn. f_equal.
           eapply IH; eauto. intros mid y post _ _ _. reflexivity.
    + destruct (legalize_loop _ _ _ _ _ r) as [r' o'] eqn:R. injection E as <- ->. cbn [filter]. rewrite V.
      assert (ST' : settled s c cur r).
      { destruct s as [z|]; cbn in *.
        - destruct ST as [-> ST]. split; [reflexivity|]. intros y lo J. apply ST. now right.
        - intros mid y post -> Vy Hm. apply (ST (x :: mid) y post); [reflexivity|exact Vy|]. intros w [<-|J]; auto. }
      destruct x; try discriminate V; cbn; eapply IH; eauto.
Qed.
