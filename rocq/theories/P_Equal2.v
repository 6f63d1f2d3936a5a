(** Comparison of graphs and of lists. *)
From Verif Require Import PyBase OpTable P_Base P_OpTable M_Instr M_Tables M_Concrete M_Convert M_Bytecode M_Cfg M_Stack M_Full M_Equal S_Prog S_Eq S_Cfg S_Stack S_Equal P_Eq P_Eq2 P_Stack P_Equal T_Stack.
Open Scope string_scope.
Open Scope list_scope.
Open Scope Z_scope.

Lemma py_eq_sym a b : py_eq a b = py_eq b a.
Proof.
  destruct (py_eq b a) eqn:E.
  - apply py_eq_norm. apply py_eq_norm in E. now symmetry.
  - destruct (py_eq a b) eqn:F; [|reflexivity]. apply py_eq_norm in F. symmetry in F. apply py_eq_norm in F. congruence.
Qed.
Lemma live_In T it l : In it (live T l) -> In it l.
Proof.
  induction l as [|x l IH]; [auto|]. cbn [live]. destruct x; try (intros [H|H]; [now left|right; auto]).
  destruct (has_jump T i || is_final i); [|intros [H|H]; [now left|right; auto]].
  intros [H|H]; [now left|]. right. destruct (find a_try_end l) as [e|] eqn:F; [|destruct H]. destruct H as [<-|[]]. now apply find_some in F.
Qed.
Lemma F2_length {A B} (R : A -> B -> Prop) l m : Forall2 R l m -> length l = length m.
Proof. induction 1; cbn; congruence. Qed.
Lemma F2_concat {A} (R : A -> A -> Prop) (l m : list (list A)) : Forall2 R (concat l) (concat m) -> map (@length A) l = map (@length A) m -> Forall2 (Forall2 R) l m.
Proof.
  revert m. induction l as [|x l IH]; intros [|y m] F L; cbn in L; try discriminate; [constructor|]. injection L as L1 L2. cbn [concat] in F.
  apply Forall2_app_inv_l in F. destruct F as (y1 & y2 & F1 & F2 & E). pose proof (F2_length _ _ _ F1) as Q.
  assert (y = y1 /\ concat m = y2) as [<- <-].
  { assert (LL : length y = length y1) by congruence. clear - E LL. revert y1 LL E. induction y as [|a y IH]; intros [|b y1] LL E; cbn in LL; try discriminate; [auto|].
    cbn in E. injection E as -> E. destruct (IH y1 ltac:(congruence) E) as [-> ->]. auto. }
  constructor; auto.
Qed.

Section Eq.
  Variables (v : pyver) (T : optable) (se : oracle) (keq : pyobj -> pyobj -> bool).

  Lemma cfg_eq_iff g h r g' h' : indexed g -> indexed h -> named_graph T g -> named_graph T h -> cfg_eq v T se keq g h = Ok (r, g', h') ->
    (r = true <-> g_argnames g = g_argnames h /\ same_attributes (g_meta g) (g_meta h) /\ same_elements T keq g h
       /\ exists size g1 h1, compute_stacksize v T se true true g = Ok (g1, size) /\ compute_stacksize v T se true true h = Ok (h1, size)).
  Proof.
    intros IG IH NG NH E. unfold cfg_eq in E.
    destruct (list_eqb String.eqb (g_argnames g) (g_argnames h)) eqn:EA; cbn [negb] in E.
    2: { injection E as <- _ _. split; [discriminate|]. intros (Q & _). apply strings_eqb in Q. congruence. }
    apply strings_eqb in EA. apply bind_ok in E. destruct E as (x & EX & E). apply bind_ok in E. destruct E as (y & EY & E).
    pose proof (blocks_flat_spec v T keq g (g_order g) [] x sane_nil EX) as FX. pose proof (blocks_flat_spec v T keq h (g_order h) [] y sane_nil EY) as FY. cbv zeta in FX, FY.
    fold (elements T g) in FX. fold (elements T h) in FY.
    assert (NX : forall it, In it (concat (elements T g)) -> forall i, it = BI i -> opmap T (i_name i) = Some (i_op i)).
    { intros it I i ->. apply in_concat in I. destruct I as (l & I & J). apply in_map_iff in I. destruct I as (n & <- & I). apply live_In in J. eapply NG; eauto. }
    assert (NY : forall it, In it (concat (elements T h)) -> forall i, it = BI i -> opmap T (i_name i) = Some (i_op i)).
    { intros it I i ->. apply in_concat in I. destruct I as (l & I & J). apply in_map_iff in I. destruct I as (n & <- & I). apply live_In in J. eapply NH; eauto. }
    assert (IFF : list_eqb (gflat_eqb T keq) x y = true <-> same_elements T keq g h).
    { rewrite list_eqb_F. split.
      - intros F. exists (at_same (numbers [] (concat (elements T g))) (numbers [] (concat (elements T h)))).
        destruct (numbers_sane (concat (elements T g)) [] sane_nil) as [[_ SG] _]. destruct (numbers_sane (concat (elements T h)) [] sane_nil) as [[_ SH] _]. split.
        + intros a b a' b' (k & A1 & B1) (k' & A2 & B2). split; intros <-; [|]; [rewrite A1 in A2; injection A2 as <-; exact (SH _ _ _ B1 B2)|rewrite B1 in B2; injection B2 as <-; exact (SG _ _ _ A1 A2)].
        + set (tg := numbers _ _) in *. set (th := numbers [] (concat (elements T h))) in *. clearbody tg th. clear SG SH EX EY E.
          revert FX FY NX NY. generalize (concat (elements T g)) (concat (elements T h)). intros la lb FX. revert lb y F. induction FX as [|p f la x PF FX IHX]; intros lb y F FY NX NY.
          * inversion F; subst. inversion FY; subst. constructor.
          * inversion F; subst. inversion FY; subst. constructor; [eapply rel_eq; eauto; [apply NX; now left|apply NY; now left]|].
            eapply IHX; eauto; intros it I; [apply NX|apply NY]; now right.
      - intros (R & O & F). pose proof (numbers_same T keq g h R _ _ O F [] [] eq_refl ltac:(reflexivity)) as RR.
        set (tg := numbers _ _) in *. set (th := numbers [] (concat (elements T h))) in *. clearbody tg th. clear EX EY E.
        revert F NX NY FX FY. generalize (concat (elements T g)) (concat (elements T h)). intros la lb F. revert x y. induction F as [|p q la lb PQ F IHF]; intros x y NX NY FX FY.
        + inversion FX; subst. inversion FY; subst. constructor.
        + inversion FX; subst. inversion FY; subst. constructor; [eapply (eq_rel T keq g h IG IH R); eauto; [apply NX; now left|apply NY; now left]|].
          eapply IHF; eauto; intros it I; [apply NX|apply NY]; now right. }
    destruct (list_eqb (gflat_eqb T keq) x y); cbn [negb] in E.
    2: { injection E as <- _ _. split; [discriminate|]. intros (_ & _ & Q & _). apply IFF in Q. discriminate. }
    pose proof (attributes_eqb_ok (g_meta g) (g_meta h)) as AT. destruct (attributes_eqb (g_meta g) (g_meta h)); cbn [negb] in E.
    2: { injection E as <- _ _. split; [discriminate|]. intros (_ & Q & _). apply AT in Q. discriminate. }
    apply bind_ok in E. destruct E as ([g1 s] & E1 & E). apply bind_ok in E. destruct E as ([h1 t] & E2 & E). injection E as <- <- <-. rewrite Z.eqb_eq. split.
    - intros ->. split; [exact EA|]. split; [now apply AT|]. split; [now apply IFF|]. eauto.
    - intros (_ & _ & _ & size & g2 & h2 & Q1 & Q2). congruence.
  Qed.

  Hypothesis K : equivalence keq.
  Lemma gflat_eqb_refl f : gflat_eqb T keq f f = true.
  Proof.
    destruct f; cbn; [now apply instr_eqb_refl|now apply cinstr_eqb_eq|apply Z.eqb_refl| |apply Nat.eqb_refl].
    now rewrite Nat.eqb_refl, Z.eqb_refl, Bool.eqb_reflx.
  Qed.
  Lemma gflat_eqb_sym f e : gflat_eqb T keq f e = true -> gflat_eqb T keq e f = true.
  Proof.
    destruct f, e; cbn; try discriminate; intros H.
    - now apply instr_eqb_sym.
    - apply cinstr_eqb_eq in H. apply cinstr_eqb_eq. intuition.
    - now rewrite Z.eqb_sym.
    - rewrite Nat.eqb_sym, Z.eqb_sym. destruct lasti, lasti0; exact H.
    - now rewrite Nat.eqb_sym.
  Qed.
  Lemma list_sym {A} (f : A -> A -> bool) l m : (forall x y, f x y = true -> f y x = true) -> list_eqb f l m = list_eqb f m l.
  Proof.
    intros S. assert (X : forall l m, list_eqb f l m = true -> list_eqb f m l = true).
    { clear l m. intros l m H. apply list_eqb_F in H. apply list_eqb_F. eapply F2_sym; [|exact H]. exact S. }
    destruct (list_eqb f l m) eqn:E1, (list_eqb f m l) eqn:E2; auto; [apply X in E1; congruence|apply X in E2; congruence].
  Qed.
  Lemma attributes_sym m n : attributes_eqb m n = attributes_eqb n m.
  Proof.
    unfold attributes_eqb. rewrite (Z.eqb_sym (m_argcount m)), (Z.eqb_sym (m_posonly m)), (Z.eqb_sym (m_kwonly m)), (Z.eqb_sym (m_flags m)), (Z.eqb_sym (m_first_lineno m)),
      (String.eqb_sym (m_filename m)), (String.eqb_sym (m_name m)), (String.eqb_sym (m_qualname m)).
    rewrite (list_sym String.eqb (m_cellvars m)), (list_sym String.eqb (m_freevars m)) by (intros x y H; now rewrite String.eqb_sym).
    rewrite (py_eq_sym (m_docstring m)). reflexivity.
  Qed.

  Lemma cfg_eq_refl g r g1 g2 : cfg_eq v T se keq g g = Ok (r, g1, g2) -> r = true.
  Proof.
    unfold cfg_eq. intros E. rewrite (proj2 (strings_eqb _ _) eq_refl) in E. cbn [negb] in E. apply bind_ok in E. destruct E as (x & EX & E). rewrite EX in E. cbn [bind] in E.
    assert (X : list_eqb (gflat_eqb T keq) x x = true) by (apply list_eqb_F; clear - K; induction x as [|f x IHx]; [constructor|constructor; [now apply gflat_eqb_refl|exact IHx]]).
    rewrite X in E. cbn [negb] in E. assert (A : attributes_eqb (g_meta g) (g_meta g) = true) by (apply attributes_eqb_ok; unfold same_attributes; repeat split; apply py_eq_refl).
    rewrite A in E. cbn [negb] in E. apply bind_ok in E. destruct E as ([g' s] & E1 & E). rewrite E1 in E. cbn [bind] in E. injection E as <- _ _. apply Z.eqb_refl.
  Qed.
  Lemma cfg_eq_sym g h r g' h' : cfg_eq v T se keq g h = Ok (r, g', h') -> cfg_eq v T se keq h g = Ok (r, h', g').
  Proof.
    unfold cfg_eq. intros E. rewrite (list_sym String.eqb (g_argnames h)) by (intros x y H; now rewrite String.eqb_sym).
    destruct (list_eqb String.eqb (g_argnames g) (g_argnames h)); cbn [negb] in *; [|injection E as <- <- <-; reflexivity].
    apply bind_ok in E. destruct E as (x & EX & E). apply bind_ok in E. destruct E as (y & EY & E). rewrite EX, EY. cbn [bind].
    rewrite (list_sym (gflat_eqb T keq) y x) by apply gflat_eqb_sym. destruct (list_eqb (gflat_eqb T keq) x y); cbn [negb] in *; [|injection E as <- <- <-; reflexivity].
    rewrite (attributes_sym (g_meta h)). destruct (attributes_eqb (g_meta g) (g_meta h)); cbn [negb] in *; [|injection E as <- <- <-; reflexivity].
    apply bind_ok in E. destruct E as ([g1 s] & E1 & E). apply bind_ok in E. destruct E as ([h1 t] & E2 & E). injection E as <- <- <-. rewrite E1, E2. cbn [bind]. now rewrite Z.eqb_sym.
  Qed.
  Lemma same_depths g : same_but_depths g g.
  Proof. repeat split. Qed.
  Lemma cfg_eq_depths g h r g' h' : cfg_eq v T se keq g h = Ok (r, g', h') -> same_but_depths g g' /\ same_but_depths h h'.
  Proof.
    unfold cfg_eq. intros E.
    destruct (list_eqb String.eqb (g_argnames g) (g_argnames h)); cbn [negb] in *; [|injection E as <- <- <-; split; apply same_depths].
    apply bind_ok in E. destruct E as (x & EX & E). apply bind_ok in E. destruct E as (y & EY & E).
    destruct (list_eqb (gflat_eqb T keq) x y); cbn [negb] in *; [|injection E as <- <- <-; split; apply same_depths].
    destruct (attributes_eqb (g_meta g) (g_meta h)); cbn [negb] in *; [|injection E as <- <- <-; split; apply same_depths].
    apply bind_ok in E. destruct E as ([g1 s] & E1 & E). apply bind_ok in E. destruct E as ([h1 t] & E2 & E). injection E as <- <- <-.
    split; eapply C30_only_depths_change; eassumption.
  Qed.
End Eq.

(** A list that is not [!=] another is [==] to it. *)
Section Ne.
  Variables (v : pyver) (T : optable) (keq : pyobj -> pyobj -> bool).
  Definition item_rel (x y : bitem) : Prop :=
    bitem_eqb T keq x y = true
    /\ (forall i, x = BI i -> opmap T (i_name i) = Some (i_op i) /\ (In (i_op i) (t_hasconst T) -> forall n, i_arg i <> OLabel n))
    /\ (forall i, y = BI i -> opmap T (i_name i) = Some (i_op i) /\ (In (i_op i) (t_hasconst T) -> forall n, i_arg i <> OLabel n))
    /\ (forall id t la d t' la' d', x = BTB id t la d -> y = BTB id t' la' d' -> t = t' /\ la = la').
  Definition flat_rel (f e : flat0) : Prop :=
    match f, e with FPlain i, FPlain j => instr_eqb T keq i j = true | _, _ => f = e end.

  Lemma instr_label i j n : instr_eqb T keq i j = true -> (In (i_op i) (t_hasconst T) -> forall n, i_arg i <> OLabel n) -> i_arg i = OLabel n ->
    i_arg j = OLabel n /\ i_name j = i_name i /\ i_loc j = i_loc i.
  Proof.
    unfold instr_eqb. intros E L A. apply andb_true_iff in E. destruct E as [E E3]. apply andb_true_iff in E. destruct E as [E1 E2]. apply oloc_eqb_eq in E1. apply String.eqb_eq in E2.
    split; [|auto]. destruct (z_mem (i_op i) (t_hasconst T)) eqn:Z; [apply z_mem_In in Z; destruct (L Z n A)|]. apply andb_true_iff in E3. destruct E3 as [_ E3]. rewrite A in E3.
    destruct (i_arg j); cbn in E3; try discriminate E3. apply Nat.eqb_eq in E3. now subst.
  Qed.
  Lemma instr_eqb_op i j : instr_eqb T keq i j = true -> opmap T (i_name i) = Some (i_op i) -> opmap T (i_name j) = Some (i_op j) -> i_op i = i_op j.
  Proof. unfold instr_eqb. intros E A B. apply andb_true_iff in E. destruct E as [E _]. apply andb_true_iff in E. destruct E as [_ E]. apply String.eqb_eq in E. congruence. Qed.

  Lemma ne_loop a b : Forall2 item_rel a b -> forall seen index offset tbs labels out labels',
    flat_loop v T seen index offset tbs labels a = Ok (out, labels') ->
    exists out', flat_loop v T seen index offset tbs labels b = Ok (out', labels') /\ Forall2 flat_rel out out'.
  Proof.
    induction 1 as [|x y a b XY F IH]; intros seen index offset tbs labels out labels' E; cbn [flat_loop] in *.
    { injection E as <- <-. exists []. split; [reflexivity|constructor]. }
    apply bind_ok in E. destruct E as (seen' & E0 & E). destruct XY as (XE & XI & YI & XB).
    destruct x as [i|n|z|id t la d|id], y as [j|m|w|id' t' la' d'|id']; cbn in XE; try discriminate XE.
    - cbn [iter_check] in *. rewrite E0. cbn [bind]. apply bind_ok in E. destruct E as (f & EF & E). apply bind_ok in E. destruct E as ([out1 l1] & E1 & E). injection E as <- <-.
      destruct (IH _ _ _ _ _ _ _ E1) as (out' & E2 & F2). destruct (XI i eq_refl) as [NI LI]. destruct (YI j eq_refl) as [NJ LJ].
      assert (X : exists f', match i_arg j with OLabel n => c <- new_cinstr v T (i_name j) (OInt 0) (i_loc j) None ;; Ok (FJump0 n c) | _ => Ok (FPlain j) end = Ok f' /\ flat_rel f f').
      { destruct (i_arg i) eqn:A; try (injection EF as <-; destruct (i_arg j) eqn:B; try (eexists; split; [reflexivity|exact XE]);
          exfalso; unfold instr_eqb in XE; apply andb_true_iff in XE; destruct XE as [_ XE]; rewrite A, B in XE;
          destruct (z_mem (i_op i) (t_hasconst T)); apply andb_true_iff in XE; destruct XE as [Z XE]; [apply z_mem_In in Z; eapply LJ; eauto|cbn in XE; discriminate XE]).
        destruct (instr_label i j n XE (fun K0 n0 Q => LI K0 n0 (eq_trans (eq_sym A) Q)) A) as (-> & -> & ->). exists f. split; [exact EF|]. apply bind_ok in EF. destruct EF as (c & _ & EF). injection EF as <-. reflexivity. }
      destruct X as (f' & EF' & FR). rewrite EF'. cbn [bind]. rewrite E2. cbn [bind]. eexists. split; [reflexivity|]. now constructor.
    - apply Nat.eqb_eq in XE. subst m. rewrite E0. cbn [bind]. apply bind_ok in E. destruct E as ([out1 l1] & E1 & E). injection E as <- <-.
      destruct (IH _ _ _ _ _ _ _ E1) as (out' & E2 & F2). rewrite E2. cbn [bind]. eexists. split; [reflexivity|]. constructor; [reflexivity|exact F2].
    - apply Z.eqb_eq in XE. subst w. rewrite E0. cbn [bind]. apply bind_ok in E. destruct E as ([out1 l1] & E1 & E). injection E as <- <-.
      destruct (IH _ _ _ _ _ _ _ E1) as (out' & E2 & F2). rewrite E2. cbn [bind]. eexists. split; [reflexivity|]. constructor; [reflexivity|exact F2].
    - apply Nat.eqb_eq in XE. subst id'. destruct (XB _ _ _ _ _ _ _ eq_refl eq_refl) as [<- <-]. cbn [iter_check] in *. rewrite E0. cbn [bind].
      apply bind_ok in E. destruct E as (k & EK & E). rewrite EK. cbn [bind]. apply bind_ok in E. destruct E as (n & EN & E). rewrite EN. cbn [bind].
      apply bind_ok in E. destruct E as ([out1 l1] & E1 & E). injection E as <- <-.
      destruct (IH _ _ _ _ _ _ _ E1) as (out' & E2 & F2). rewrite E2. cbn [bind]. eexists. split; [reflexivity|]. constructor; [reflexivity|exact F2].
    - apply Nat.eqb_eq in XE. subst id'. rewrite E0. cbn [bind]. apply bind_ok in E. destruct E as (k & EK & E). rewrite EK. cbn [bind].
      apply bind_ok in E. destruct E as ([out1 l1] & E1 & E). injection E as <- <-.
      destruct (IH _ _ _ _ _ _ _ E1) as (out' & E2 & F2). rewrite E2. cbn [bind]. eexists. split; [reflexivity|]. constructor; [reflexivity|exact F2].
  Qed.

  Lemma flat_rel_refl (KE : equivalence keq) c : flat_rel c c.
  Proof. destruct c; cbn; try reflexivity. now apply instr_eqb_refl. Qed.

  Lemma map_rel (KE : equivalence keq) (f : flat0 -> res flat0) l m : (forall i, f (FPlain i) = Ok (FPlain i)) -> Forall2 flat_rel l m -> forall x, mapM f l = Ok x -> exists y, mapM f m = Ok y
    /\ Forall2 flat_rel x y.
  Proof.
    intros P F. induction F as [|a b l m R F IH]; intros x E; cbn [mapM] in *.
    { injection E as <-. exists []. split; [reflexivity|constructor]. }
    apply bind_ok in E. destruct E as (c & E1 & E). apply bind_ok in E. destruct E as (r & E2 & E). injection E as <-. destruct (IH _ E2) as (y & E3 & F3). rewrite E3.
    assert (X : exists c', f b = Ok c' /\ flat_rel c c').
    { assert (RF : a = b -> exists c', f b = Ok c' /\ flat_rel c c') by (intros ->; exists c; split; [exact E1|now apply flat_rel_refl]).
      destruct a, b; cbn in R; try discriminate R; try (apply RF; exact R). rewrite P in E1. injection E1 as <-. rewrite P. eexists. split; [reflexivity|exact R]. }
    destruct X as (c' & E4 & R4). rewrite E4. cbn [bind]. eexists. split; [reflexivity|]. now constructor.
  Qed.
  Lemma rel_eqb l m : Forall2 flat_rel l m -> forallb (fun f => match f with FJump0 _ _ | FTB0 _ _ _ => false | _ => true end) l = true -> list_eqb (flat_eqb T keq) l m = true.
  Proof.
    induction 1 as [|a b l m R F IH]; intros A; [reflexivity|]. cbn [forallb] in A. apply andb_true_iff in A. destruct A as [A1 A2]. cbn [list_eqb]. rewrite (IH A2), andb_true_r.
    destruct a, b; cbn in R; try discriminate R; try discriminate A1; try exact R; injection R; intros; subst; cbn; rewrite ?Nat.eqb_refl, ?Z.eqb_refl, ?Bool.eqb_reflx; try reflexivity.
    now apply cinstr_eqb_eq.
  Qed.
  Lemma flat_done l x : flat v T l = Ok x -> forallb (fun f => match f with FJump0 _ _ | FTB0 _ _ _ => false | _ => true end) x = true.
  Proof.
    unfold flat. intros E. apply bind_ok in E. destruct E as ([out la] & _ & E). apply bind_ok in E. destruct E as (o2 & E2 & E3).
    assert (J : forallb (fun f => match f with FJump0 _ _ => false | _ => true end) o2 = true).
    { clear E3. revert o2 E2. induction out as [|f r IH]; intros o2 E2; cbn [mapM] in E2; [injection E2 as <-; reflexivity|].
      apply bind_ok in E2. destruct E2 as (c & E1 & E2). apply bind_ok in E2. destruct E2 as (r' & E2 & E4). injection E4 as <-. cbn [forallb]. rewrite (IH _ E2), andb_true_r.
      destruct f; cbn in E1; try (injection E1 as <-; reflexivity). apply bind_ok in E1. destruct E1 as (? & _ & E1). apply bind_ok in E1. destruct E1 as (? & _ & E1). injection E1 as <-. reflexivity. }
    clear E2. revert x E3. induction o2 as [|f r IH]; intros x E3; cbn [mapM] in E3; [injection E3 as <-; reflexivity|].
    apply bind_ok in E3. destruct E3 as (c & E1 & E3). apply bind_ok in E3. destruct E3 as (r' & E3 & E4). injection E4 as <-. cbn [forallb] in *. apply andb_true_iff in J. destruct J as [J1 J2]. rewrite (IH J2 _ E3), andb_true_r.
    destruct f; cbn in E1; try discriminate J1; try (injection E1 as <-; reflexivity). apply bind_ok in E1. destruct E1 as (? & _ & E1). injection E1 as <-. reflexivity.
  Qed.

  Lemma ne_eq (KE : equivalence keq) a b x : Forall2 item_rel (b_items a) (b_items b) -> flat v T (b_items a) = Ok x -> bytecode_eq v T keq a b = Ok true.
  Proof.
    intros F E. unfold bytecode_eq. rewrite E. cbn [bind]. pose proof (flat_done _ _ E) as D. unfold flat in E. apply bind_ok in E. destruct E as ([out la] & E1 & E). apply bind_ok in E. destruct E as (o2 & E2 & E3).
    destruct (ne_loop _ _ F _ _ _ _ _ _ _ E1) as (out' & E1' & F1). destruct (map_rel KE (flat_jump v T la) _ _ (fun i => eq_refl) F1 _ E2) as (o2' & E2' & F2). destruct (map_rel KE (flat_try la) _ _ (fun i => eq_refl) F2 _ E3) as (x' & E3' & F3).
    unfold flat. rewrite E1'. cbn [bind]. rewrite E2'. cbn [bind]. rewrite E3'. cbn [bind]. now rewrite (rel_eqb _ _ F3 D).
  Qed.
End Ne.

Lemma ne_eq_items v T keq a b r : equivalence keq ->
  (forall i, In (BI i) (b_items a) -> opmap T (i_name i) = Some (i_op i)) -> (forall i, In (BI i) (b_items b) -> opmap T (i_name i) = Some (i_op i)) ->
  (forall i n, In (BI i) (b_items a) -> In (i_op i) (t_hasconst T) -> i_arg i <> OLabel n) -> (forall i n, In (BI i) (b_items b) -> In (i_op i) (t_hasconst T) -> i_arg i <> OLabel n) ->
  (forall id t la d t' la' d', In (BTB id t la d) (b_items a) -> In (BTB id t' la' d') (b_items b) -> t = t' /\ la = la') ->
  bytecode_eq v T keq a a = Ok r -> bytecode_ne T keq a b = false -> bytecode_eq v T keq a b = Ok true.
Proof.
  intros K NA NB LA LB SO E N. unfold bytecode_eq in E. apply bind_ok in E. destruct E as (x & E & _). eapply ne_eq; [exact K| |exact E].
  unfold bytecode_ne in N. apply negb_false_iff in N. clear E x r.
  assert (X : forall l m, incl l (b_items a) -> incl m (b_items b) -> list_eqb (bitem_eqb T keq) l m = true -> Forall2 (item_rel T keq) l m).
  { induction l as [|i l IH]; intros [|j m] IL IM Q; cbn in Q; try discriminate Q; constructor.
    - apply andb_true_iff in Q. destruct Q as [Q _]. split; [exact Q|]. split; [|split].
      + intros k ->. assert (In (BI k) (b_items a)) by (apply IL; now left). split; [now apply NA|intros C n; now apply LA].
      + intros k ->. assert (In (BI k) (b_items b)) by (apply IM; now left). split; [now apply NB|intros C n; now apply LB].
      + intros id t la d t' la' d' -> ->. eapply SO; [apply IL; now left|apply IM; now left].
    - apply andb_true_iff in Q. destruct Q as [_ Q]. apply IH; [intros z Z; apply IL; now right|intros z Z; apply IM; now right|exact Q]. }
  apply X; auto; apply incl_refl.
Qed.

(** ConcreteBytecode *)
Lemma keys_eqb (keq : pyobj -> pyobj -> bool) l m : list_eqb keq l m = true <-> Forall2 (fun x y => keq x y = true) l m.
Proof.
  revert m. induction l as [|x l IH]; intros [|y m]; cbn; split; intros H; try discriminate H; try constructor; try now inversion H.
  - apply andb_true_iff in H. now destruct H.
  - apply andb_true_iff in H. apply IH. now destruct H.
  - inversion H; subst. apply andb_true_iff. split; [assumption|now apply IH].
Qed.
Lemma concrete_eq_iff v T se keq a b r : concrete_eq v T se keq a b = Ok r ->
  (r = true <-> Forall2 (fun x y => keq x y = true) (cb_consts a) (cb_consts b) /\ cb_names a = cb_names b
     /\ cb_varnames a = cb_varnames b /\ same_attributes (cb_meta a) (cb_meta b)
     /\ exists size, concrete_stacksize v T se true a = Ok size /\ concrete_stacksize v T se true b = Ok size).
Proof.
  unfold concrete_eq. intros E.
  destruct (list_eqb keq (cb_consts a) (cb_consts b)) eqn:A; cbn [negb] in E.
  2:{ injection E as <-. split; [discriminate|]. intros (H & _). apply keys_eqb in H. congruence. }
  destruct (list_eqb String.eqb (cb_names a) (cb_names b)) eqn:B; cbn [negb] in E.
  2:{ injection E as <-. split; [discriminate|]. intros (_ & H & _). apply strings_eqb in H. congruence. }
  destruct (list_eqb String.eqb (cb_varnames a) (cb_varnames b)) eqn:C; cbn [negb] in E.
  2:{ injection E as <-. split; [discriminate|]. intros (_ & _ & H & _). apply strings_eqb in H. congruence. }
  destruct (attributes_eqb (cb_meta a) (cb_meta b)) eqn:D; cbn [negb] in E.
  2:{ injection E as <-. split; [discriminate|]. intros (_ & _ & _ & H & _). apply attributes_eqb_ok in H. congruence. }
  apply bind_ok in E. destruct E as (s & E1 & E). apply bind_ok in E. destruct E as (t & E2 & E). injection E as <-. rewrite E1, E2.
  apply keys_eqb in A. apply strings_eqb in B. apply strings_eqb in C. apply attributes_eqb_ok in D. rewrite Z.eqb_eq. split.
  - intros ->. eauto 10.
  - intros (_ & _ & _ & _ & z & Z1 & Z2). congruence.
Qed.
Lemma same_attributes_refl m : same_attributes m m.
Proof. repeat split. apply py_eq_refl. Qed.
Lemma concrete_eq_refl v T se keq : equivalence keq -> forall a r, concrete_eq v T se keq a a = Ok r -> r = true.
Proof.
  intros K a r E. pose proof E as E0. apply concrete_eq_iff in E. apply E. split; [|split; [reflexivity|split; [reflexivity|split; [apply same_attributes_refl|]]]].
  - generalize (cb_consts a). induction l; constructor; [apply (proj1 K)|assumption].
  - unfold concrete_eq in E0. assert (X : forall s, list_eqb String.eqb s s = true) by (intros; now apply strings_eqb).
    assert (Y : list_eqb keq (cb_consts a) (cb_consts a) = true) by (apply keys_eqb; generalize (cb_consts a); induction l; constructor; [apply (proj1 K)|assumption]).
    rewrite Y, !X in E0. assert (Z : attributes_eqb (cb_meta a) (cb_meta a) = true) by (apply attributes_eqb_ok, same_attributes_refl). rewrite Z in E0. cbn [negb] in E0.
    apply bind_ok in E0. destruct E0 as (s & E1 & _). eauto.
Qed.
Lemma same_attributes_sym m n : same_attributes m n -> same_attributes n m.
Proof. unfold same_attributes. intros H. decompose [and] H. repeat split; try congruence. rewrite py_eq_sym. assumption. Qed.
Lemma same_attributes_trans m n o : same_attributes m n -> same_attributes n o -> same_attributes m o.
Proof.
  unfold same_attributes. intros H H'. decompose [and] H. decompose [and] H'. repeat split; try congruence.
  apply py_eq_norm. transitivity (norm (m_docstring n)); now apply py_eq_norm.
Qed.
Lemma concrete_eq_ok v T se keq a b : concrete_eq v T se keq a b = Ok true <->
  Forall2 (fun x y => keq x y = true) (cb_consts a) (cb_consts b) /\ cb_names a = cb_names b
  /\ cb_varnames a = cb_varnames b /\ same_attributes (cb_meta a) (cb_meta b)
  /\ exists size, concrete_stacksize v T se true a = Ok size /\ concrete_stacksize v T se true b = Ok size.
Proof.
  split; [intros E; pose proof (concrete_eq_iff _ _ _ _ _ _ _ E) as X; now apply X|].
  intros (A & B & C & D & s & S1 & S2). unfold concrete_eq.
  apply keys_eqb in A. apply strings_eqb in B. apply strings_eqb in C. apply attributes_eqb_ok in D. rewrite A, B, C, D. cbn [negb]. rewrite S1, S2. cbn [bind]. now rewrite Z.eqb_refl.
Qed.
Lemma concrete_eq_sym v T se keq : equivalence keq -> forall a b r, concrete_eq v T se keq a b = Ok r -> concrete_eq v T se keq b a = Ok r.
Proof.
  intros K a b r. unfold concrete_eq. rewrite (list_sym keq (cb_consts b)) by apply (proj1 (proj2 K)).
  rewrite (list_sym String.eqb (cb_names b)), (list_sym String.eqb (cb_varnames b)), (attributes_sym (cb_meta b)) by (intros x y H; now rewrite String.eqb_sym).
  destruct (list_eqb keq _ _), (list_eqb String.eqb (cb_names a) _), (list_eqb String.eqb (cb_varnames a) _), (attributes_eqb _ _); cbn [negb]; auto.
  intros E. apply bind_ok in E. destruct E as (s & E1 & E). apply bind_ok in E. destruct E as (t & E2 & E). injection E as <-. rewrite E1, E2. cbn [bind]. now rewrite Z.eqb_sym.
Qed.
Lemma concrete_eq_trans v T se keq : equivalence keq -> forall a b c, concrete_eq v T se keq a b = Ok true -> concrete_eq v T se keq b c = Ok true -> concrete_eq v T se keq a c = Ok true.
Proof.
  intros K a b c A B. apply concrete_eq_ok in A. apply concrete_eq_ok in B. apply concrete_eq_ok.
  destruct A as (A1 & A2 & A3 & A4 & s & S1 & S2), B as (B1 & B2 & B3 & B4 & t & T1 & T2).
  split; [|split; [congruence|split; [congruence|split; [eapply same_attributes_trans; eassumption|exists s; split; congruence]]]].
  clear - K A1 B1. revert A1 B1. generalize (cb_consts a) (cb_consts b) (cb_consts c). intros x y z F. revert z. induction F; intros z G; inversion G; subst; constructor; eauto. eapply (proj2 (proj2 K)); eassumption.
Qed.
Lemma concrete_ne_iff a b : concrete_ne a b = false <-> Forall2 same_citem (cb_items a) (cb_items b).
Proof.
  unfold concrete_ne. rewrite negb_false_iff. rewrite list_eqb_F. split; intros F; (eapply F2_impl; [|exact F]); intros [c|z] [d|w]; cbn; try discriminate; try tauto.
  - intros H. apply cinstr_eqb_eq in H. intuition.
  - apply Z.eqb_eq.
  - intros (? & ? & ?). now apply cinstr_eqb_eq.
  - apply Z.eqb_eq.
Qed.

Definition check_named_graph (T : optable) (g : cfg) : bool :=
  forallb (fun n => forallb (fun it => match it with BI i => match opmap T (i_name i) with Some o => o =? i_op i | None => false end | _ => true end) (k_items (blk g n))) (g_order g).
Lemma check_named_graph_ok T g : check_named_graph T g = true -> named_graph T g.
Proof.
  unfold check_named_graph, named_graph. intros H n i IN II. rewrite forallb_forall in H. specialize (H _ IN). rewrite forallb_forall in H. specialize (H _ II). cbn in H.
  destruct (opmap T (i_name i)); [|discriminate]. apply Z.eqb_eq in H. now subst.
Qed.
