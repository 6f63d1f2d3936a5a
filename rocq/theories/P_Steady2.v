From Verif Require Import PyBase OpTable P_Base M_Instr M_Tables M_Concrete M_Convert M_Bytecode M_Cfg S_Legal S_Steady P_Steady P_Cfg P_Cfg2.
Open Scope list_scope.
Open Scope Z_scope.

(** ** ConcreteBytecode before 3.11 *)

(** what the line tables see of an instruction: the same line, and no location or that line *)
Inductive same_line : Z * cinstr -> Z * cinstr -> Prop :=
| sl_same z c : same_line (z, c) (z, c)
| sl_line z n o a e s : same_line (z, mkC n o a None e s) (z, mkC n o a (Some (line_loc (Some z))) e s).

Definition ckeep (x : citem) : bool := match cview x with VSetLine _ => false | _ => true end.

Lemma normalize_loop v l : forall s c line l' line',
  legalize_loop cview cset_loc v s c l = (l', Ok tt) -> bare_after_set cview l ->
  match s with
  | Some z => line = z /\ forall y lo, In y l -> cview y = VInstr lo -> lo = None
  | None => line = c /\ line' = c
  end ->
  Forall2 same_line (normalize_lineno line l) (normalize_lineno line' (filter ckeep l')).
Proof.
  unfold ckeep. induction l as [|x r IH]; intros s c line l' line' E B ST; cbn in E.
  - injection E as <-. constructor.
  - assert (B' := bare_tail _ _ _ B). destruct x as [[nm op ar lo ex sz]|z]; cbn in E.
    + destruct s as [z|].
      * destruct ST as [-> ST]. assert (lo = None) by (apply (ST (CI (mkC nm op ar lo ex sz)) lo); [now left|reflexivity]). subst lo.
        destruct (set_lineno v None (LLine z)) as [lo' [[]|]] eqn:SL; [|discriminate]. apply set_line_ok in SL. subst lo'.
        destruct (legalize_loop _ _ _ _ _ r) as [r' o'] eqn:R. injection E as <- ->. cbn. constructor; [constructor|].
        eapply IH; eauto. cbn. split; [reflexivity|]. intros y lo J. apply ST. now right.
      * destruct ST as [-> ->]. destruct (loc_lineno lo) eqn:LO.
        -- assert (lo = None) by (destruct lo as [[[] ? ? ?]|]; cbn in LO; congruence). subst lo.
           destruct (set_lineno v None (LLine c)) as [lo' [[]|]] eqn:SL; [|discriminate]. apply set_line_ok in SL. subst lo'.
           destruct (legalize_loop _ _ _ _ _ r) as [r' o'] eqn:R. injection E as <- ->. cbn. constructor; [constructor|].
           eapply IH; eauto. cbn. auto.
        -- destruct (legalize_loop _ _ _ _ _ r) as [r' o'] eqn:R. injection E as <- ->. cbn. rewrite LO. constructor; [constructor|].
           eapply IH; eauto. cbn. auto.
        -- destruct (legalize_loop _ _ _ _ _ r) as [r' o'] eqn:R. injection E as <- ->. cbn. rewrite LO. constructor; [constructor|].
           eapply IH; eauto. cbn. auto.
    + destruct (legalize_loop _ _ _ _ _ r) as [r' o'] eqn:R. injection E as <- ->. cbn.
      eapply IH; eauto. cbn. split; [reflexivity|]. intros y lo J W. eapply (bare_set cview (CSet z) r); eauto. reflexivity.
Qed.

Definition same_lent (e e' : lent) : Prop :=
  le_off e = le_off e' /\ le_size e = le_size e' /\ le_line e = le_line e' /\ forall ref, dlineno_of e ref = dlineno_of e' ref.
Lemma assemble_same v T l l' : Forall2 same_line l l' -> forall off,
  fst (assemble_code_loop v T off l) = fst (assemble_code_loop v T off l')
  /\ Forall2 same_lent (snd (assemble_code_loop v T off l)) (snd (assemble_code_loop v T off l')).
Proof.
  induction 1 as [|x y r r' S F IH]; intros off; [split; [reflexivity|constructor]|].
  destruct S; cbn [assemble_code_loop c_size].
  - destruct (IH (off + units v (c_size c))) as [I1 I2]. destruct (assemble_code_loop v T _ r), (assemble_code_loop v T _ r'). cbn in *.
    split; [congruence|]. constructor; [|exact I2]. repeat split.
  - destruct (IH (off + units v s)) as [I1 I2]. destruct (assemble_code_loop v T _ r), (assemble_code_loop v T _ r'). cbn in *.
    split; [rewrite I1; reflexivity|]. constructor; [|exact I2]. repeat split.
Qed.
Lemma lnotab_same l l' : Forall2 same_lent l l' -> forall a b, lnotab_loop a b l = lnotab_loop a b l'.
Proof.
  induction 1 as [|x y r r' (S1 & S2 & S3 & S4) F IH]; intros a b; [reflexivity|]. cbn. rewrite S1, S3.
  destruct (_ =? 0); [apply IH|]. now rewrite IH.
Qed.
Lemma linestable_same l l' : Forall2 same_lent l l' -> forall a b d e e', same_lent e e' -> linestable_loop a b d e l = linestable_loop a b d e' l'.
Proof.
  induction 1 as [|x y r r' S F IH]; intros a b d e e' SE.
  - cbn. destruct SE as (S1 & S2 & _). now rewrite S1, S2.
  - assert (S0 := S). destruct S as (S1 & S2 & S3 & S4). cbn. rewrite S4, S1, S3.
    rewrite (IH a b d x y S0), (IH (le_off y) (le_line y) (dlineno_of y b) x y S0). reflexivity.
Qed.

Lemma raw_same v T cb cb' n : PY311 v = false -> concrete_legalize v cb = (cb', Ok tt) -> bare_after_set cview (cb_items cb) ->
  to_code_raw v T cb' n = to_code_raw v T cb n.
Proof.
  intros P. unfold concrete_legalize. destruct (legalize cview cset_loc v _ _ [] None) as [l o] eqn:E. intros Q B. injection Q as <- ->.
  unfold legalize in E. destruct (legalize_loop _ _ _ _ _ (cb_items cb)) as [l1 [[]|]] eqn:L; [|discriminate]. injection E as <-.
  assert (F : Forall2 same_line (normalize_lineno (m_first_lineno (cb_meta cb)) (cb_items cb))
                (normalize_lineno (m_first_lineno (cb_meta cb)) (filter ckeep l1))).
  { eapply normalize_loop; eauto. cbn. auto. }
  unfold to_code_raw, assemble_code. cbn [cb_meta cb_items cb_consts cb_names cb_varnames cb_ex].
  change (filter _ l1) with (filter ckeep l1).
  destruct (assemble_same v T _ _ F 0) as [I1 I2].
  destruct (assemble_code_loop v T 0 (normalize_lineno _ (cb_items cb))) as [c1 n1], (assemble_code_loop v T 0 (normalize_lineno _ (filter ckeep l1))) as [c2 n2].
  cbn [fst snd] in I1, I2. subst c2.
  assert (X : assemble_lines v (m_first_lineno (cb_meta cb)) n2 = assemble_lines v (m_first_lineno (cb_meta cb)) n1).
  { unfold assemble_lines. rewrite P. destruct (PY310 v).
    - destruct I2 as [|x y r r' S F2]; [reflexivity|]. assert (S0 := S). destruct S as (S1 & S2 & S3 & S4). cbn. rewrite S3, S4. symmetry. now apply linestable_same.
    - symmetry. unfold assemble_lnotab. now apply lnotab_same. }
  rewrite X. reflexivity.
Qed.

(** ** Graphs *)

Definition done (l : list bitem) : Prop := forall x, In x l -> exists lo, bview x = VInstr (Some lo) \/ bview x = VOther.

Lemma exists_keep l : existsb is_BI (filter keep l) = existsb is_BI l.
Proof. induction l as [|[] r IH]; cbn; rewrite ?IH; reflexivity. Qed.
Lemma iter_keep T l : block_iter T l = Ok tt -> block_iter T (filter keep l) = Ok tt.
Proof.
  induction l as [|x r IH]; cbn; intros E; [reflexivity|]. apply bind_ok in E. destruct E as ([] & E1 & E).
  specialize (IH E). destruct x; cbn [filter keep bview]; cbn [block_iter]; try exact IH; try (cbn in E1 |- *; rewrite ?exists_keep, ?E1; exact IH); now rewrite ?IH.
Qed.
Lemma exists_same l l' : Forall2 same_elem l l' -> existsb is_BI l' = existsb is_BI l.
Proof. induction 1 as [|x y r r' S F IH]; [reflexivity|]. cbn. rewrite IH. destruct S; reflexivity. Qed.
Lemma iter_same T l l' : Forall2 same_elem l l' -> block_iter T l = Ok tt -> block_iter T l' = Ok tt.
Proof.
  induction 1 as [|x y r r' S F IH]; [reflexivity|]. cbn. intros E. apply bind_ok in E. destruct E as ([] & E1 & E).
  assert (Q : elem_check T y r' = elem_check T x r).
  { destruct S; cbn; rewrite ?(exists_same _ _ F); [reflexivity|]. destruct x; cbn; rewrite ?(exists_same _ _ F); reflexivity. }
  rewrite Q, E1. now apply IH.
Qed.

Lemma block_loop_iter v T l : forall s c l' c', block_legalize_loop v T s c l = (l', Ok c') -> block_iter T l = Ok tt.
Proof.
  induction l as [|x r IH]; intros s c l' c' E; [reflexivity|]. cbn [block_legalize_loop] in E. cbn [block_iter].
  destruct (elem_check T x r) as [[]|] eqn:EC; [|discriminate]. cbn [bind].
  assert (K : forall y s0 c0, (let '(r', o) := block_legalize_loop v T s0 c0 r in (y :: r', o)) = (l', Ok c') -> block_iter T r = Ok tt).
  { clear E. intros y s0 c0. destruct (block_legalize_loop v T s0 c0 r) as [r' o] eqn:R. intros Q. injection Q as _ ->. eauto. }
  destruct x; try (eapply K; eassumption). cbv zeta in E.
  destruct s as [z|].
  - destruct (set_lineno v (i_loc i) (LLine z)) as [lo' [[]|]]; [|discriminate]. eapply K; eauto.
  - destruct (loc_lineno (i_loc i)); [|eapply K; eauto|eapply K; eauto].
    destruct (set_lineno v (i_loc i) (LLine c)) as [lo' [[]|]]; [|discriminate]. eapply K; eauto.
Qed.

Lemma block_once v T c l l' c' : block_legalize v T c l = (l', Ok c') -> done l' /\ block_iter T l' = Ok tt.
Proof.
  unfold block_legalize. destruct (block_legalize_loop v T None c l) as [l1 [z|]] eqn:E; [|discriminate]. intros Q. injection Q as <- <-.
  assert (I := block_loop_iter _ _ _ _ _ _ _ E). destruct (block_loop_eq v T l None c I) as (o & EB & IO & ER).
  rewrite E in EB. injection EB as -> <-. destruct (legalize_loop bview bset_loc v None c l) as [l1 [[]|]] eqn:L; [|discriminate IO].
  assert (FE : filter (fun x => match x with BSet _ => false | _ => true end) l1 = filter keep l1).
  { apply filter_ext. now intros []. }
  cbn [fst]. rewrite FE. split.
  - intros x J. apply (loop_located bview bset_loc bset_view v l None c l1 L x). exact J.
  - eapply iter_same; [eapply loop_same; eauto|]. now apply iter_keep.
Qed.
Lemma block_twice v T c l : done l -> block_iter T l = Ok tt -> exists c', block_legalize v T c l = (l, Ok c').
Proof.
  intros D I. destruct (block_loop_eq v T l None c I) as (o & EB & IO & ER). rewrite (loop_done bview bset_loc v l c D) in *.
  cbn [fst snd is_ok] in *. destruct o as [c'|]; [|discriminate]. exists c'. unfold block_legalize. rewrite EB. f_equal.
  rewrite <- (filter_done bview l) at 2.
  - apply filter_ext. now intros [].
  - intros x z J V. destruct (D _ J) as (lo & [X|X]); congruence.
Qed.

Definition done_block (T : optable) (h : list block) (n : nat) : Prop :=
  let l := k_items (match nth_error h n with Some b => b | None => mkBlk [] None end) in done l /\ block_iter T l = Ok tt.

Lemma upd_same {A} (l : list A) n x : nth_error l n = Some x -> upd n x l = l.
Proof. revert n. induction l as [|y l IH]; intros [|n] E; cbn in *; try discriminate; [congruence|]. now rewrite IH. Qed.
Lemma upd_out {A} (l : list A) n x : nth_error l n = None -> upd n x l = l.
Proof. revert n. induction l as [|y l IH]; intros [|n] E; cbn in *; try discriminate; try reflexivity. now rewrite IH. Qed.

Lemma graph_once v T order : forall c h h', (forall n, In n order -> (n < length h)%nat) ->
  cfg_legalize_loop v T c h order = (h', Ok tt) ->
  (forall m, done_block T h m -> done_block T h' m) /\ forall n, In n order -> done_block T h' n.
Proof.
  induction order as [|n r IH]; intros c h h' L E; cbn in E.
  - injection E as <-. split; [auto|]. intros n [].
  - set (b := match nth_error h n with Some b => b | None => mkBlk [] None end) in *.
    destruct (block_legalize v T c (k_items b)) as [l' [c'|]] eqn:B; [|discriminate].
    destruct (block_once _ _ _ _ _ _ B) as [D I].
    assert (LN : (n < length h)%nat) by (apply L; now left).
    assert (LE : forall m, In m r -> (m < length (set_heap h n (mkBlk l' (k_next b))))%nat).
    { intros m J. unfold set_heap. rewrite upd_length. apply L. now right. }
    assert (DN : done_block T (set_heap h n (mkBlk l' (k_next b))) n).
    { unfold done_block. rewrite blk_upd by exact LN. rewrite Nat.eqb_refl. split; assumption. }
    destruct (IH _ _ _ LE E) as [K1 K2]. split.
    + intros m Dm. apply K1. unfold done_block in *. rewrite blk_upd by exact LN. destruct (Nat.eqb m n); [split; assumption|exact Dm].
    + intros m [<-|J]; [now apply K1|now apply K2].
Qed.
Lemma graph_twice v T h order : forall c, (forall n, In n order -> done_block T h n) -> cfg_legalize_loop v T c h order = (h, Ok tt).
Proof.
  induction order as [|n r IH]; intros c H; [reflexivity|]. cbn. destruct (H n (or_introl eq_refl)) as [D I].
  destruct (block_twice v T c _ D I) as (c' & E). rewrite E.
  assert (Q : set_heap h n (mkBlk (k_items (match nth_error h n with Some b => b | None => mkBlk [] None end))
     (k_next (match nth_error h n with Some b => b | None => mkBlk [] None end))) = h).
  { unfold set_heap. destruct (nth_error h n) as [[]|] eqn:N; [now apply upd_same|now apply upd_out]. }
  rewrite Q. apply IH. intros m J. apply H. now right.
Qed.
