(** Monotonicity, convergence and minimality of the jump passes. *)
From Verif Require Import PyBase OpTable CPy M_Instr M_Tables M_Concrete M_Convert P_Base S_Args
  P_OpTable P_Asm S_Asm P_Jumps.
Open Scope string_scope.
Open Scope list_scope.
Open Scope Z_scope.

Definition pos (c : cinstr) : Prop := 2 <= c_size c /\ c_size c mod 2 = 0.

Definition le_n (a b : list cinstr) : Prop :=
  length a = length b /\
  forall k c d, nth_error a k = Some c -> nth_error b k = Some d ->
    c_name c = c_name d /\ c_op c = c_op d /\ c_size c <= c_size d.

Lemma le_n_refl a : le_n a a.
Proof. split; [reflexivity|]. intros k c d H1 H2. rewrite H1 in H2. injection H2 as ->. repeat split; lia. Qed.

Lemma nth_same_length {A B} (a : list A) (b : list B) k x : length a = length b ->
  nth_error a k = Some x -> exists y, nth_error b k = Some y.
Proof.
  intros L H. destruct (nth_error b k) eqn:E; [eauto|]. apply nth_error_None in E.
  apply nth_some_lt in H. lia.
Qed.

Lemma le_n_trans a b c : le_n a b -> le_n b c -> le_n a c.
Proof.
  intros [L1 H1] [L2 H2]. split; [congruence|]. intros k x z Hx Hz.
  destruct (nth_same_length _ b _ _ L1 Hx) as (y & Hy).
  destruct (H1 _ _ _ Hx Hy) as (A & B & C). destruct (H2 _ _ _ Hy Hz) as (A' & B' & C').
  repeat split; congruence || lia.
Qed.

Lemma in_units_mono v x y : x <= y -> in_units v x <= in_units v y.
Proof. intros. unfold in_units. destruct v; zdm. Qed.
Lemma in_units_pos v x : 2 <= x -> 1 <= in_units v x.
Proof. intros. unfold in_units. destruct v; zdm. Qed.

Lemma le_n_cons x a y b : le_n (x :: a) (y :: b) -> le_n a b /\ c_size x <= c_size y.
Proof.
  intros [L H]. split; [split; [now injection L|]|].
  - intros k c d Hc Hd. apply (H (S k)); assumption.
  - now destruct (H 0%nat x y eq_refl eq_refl).
Qed.

Lemma off_mono v a : forall b k, le_n a b -> offset_of v a k <= offset_of v b k.
Proof.
  induction a as [|x a IH]; intros [|y b] k H; try (destruct H as [L _]; discriminate L).
  - lia.
  - destruct k as [|k]; [rewrite !offset_of_0; lia|]. apply le_n_cons in H. destruct H as [H S].
    rewrite !offset_of_cons. specialize (IH b k H). pose proof (in_units_mono v _ _ S). lia.
Qed.

Lemma off_diff v a : forall b i j, le_n a b -> (i <= j)%nat ->
  offset_of v a j - offset_of v a i <= offset_of v b j - offset_of v b i.
Proof.
  induction a as [|x a IH]; intros [|y b] i j H L; try (destruct H as [L' _]; discriminate L').
  - lia.
  - destruct i as [|i].
    + rewrite !offset_of_0. pose proof (off_mono v _ _ j H). lia.
    + destruct j as [|j]; [lia|]. apply le_n_cons in H. destruct H as [H S].
      rewrite !offset_of_cons. specialize (IH b i j H ltac:(lia)). lia.
Qed.

Lemma off_le v a : forall i j, Forall pos a -> (i <= j)%nat -> offset_of v a i <= offset_of v a j.
Proof.
  induction a as [|x a IH]; intros i j P L.
  - unfold offset_of. rewrite !firstn_nil. cbn. lia.
  - inversion_clear P as [|? ? Px Pa]. destruct Px as [Px _]. pose proof (in_units_pos v _ Px).
    destruct i as [|i]; destruct j as [|j]; try lia.
    + rewrite offset_of_0, offset_of_cons. specialize (IH 0%nat j Pa ltac:(lia)).
      rewrite offset_of_0 in IH. lia.
    + rewrite !offset_of_cons. specialize (IH i j Pa ltac:(lia)). lia.
Qed.

Lemma off_nonneg v a i : Forall pos a -> 0 <= offset_of v a i.
Proof. intros P. pose proof (off_le v a 0 i P ltac:(lia)). rewrite offset_of_0 in H. lia. Qed.

Section Jumps.
  Variables (v : pyver) (T : optable).
  Hypothesis wf : wf_optable v T = true.

  Lemma jarg_mono a b k ti c d : le_n a b -> Forall pos a -> Forall pos b ->
    nth_error a k = Some c -> nth_error b k = Some d ->
    0 <= use_cache_opcodes v T c <= 255 ->
    0 <= jarg v T c (offset_of v a k) (offset_of v a ti) ->
    0 <= jarg v T d (offset_of v b k) (offset_of v b ti) ->
    asize (jarg v T c (offset_of v a k) (offset_of v a ti))
    <= asize (jarg v T d (offset_of v b k) (offset_of v b ti)).
  Proof.
    intros Hle Pa Pb Hc Hd Hn.
    pose proof (offset_of_S v _ _ _ Hc) as Sa. pose proof (offset_of_S v _ _ _ Hd) as Sb.
    destruct (proj2 Hle _ _ _ Hc Hd) as (En & Eo & _).
    assert (Eu : use_cache_opcodes v T d = use_cache_opcodes v T c).
    { unfold use_cache_opcodes. now rewrite En, Eo. }
    unfold jarg. rewrite Eu, <- En, <- Eo, !units_in. intros A B.
    destruct (is_forward_rel_jump v T (c_name c) (c_op c)).
    - destruct (le_lt_dec ti k) as [L|L].
      + pose proof (off_le v a _ _ Pa L).
        rewrite Forall_forall in Pa. pose proof (proj1 (Pa _ (nth_error_In _ _ Hc))).
        pose proof (in_units_pos v _ H0). lia.
      + apply asize_mono. split; [exact A|].
        pose proof (off_diff v a b (S k) ti Hle L). lia.
    - destruct (is_backward_rel_jump v T (c_name c) (c_op c)).
      + destruct (le_lt_dec ti k) as [L|L].
        * apply asize_mono. split; [exact A|].
          pose proof (off_diff v a b ti (S k) Hle ltac:(lia)). lia.
        * pose proof (off_le v a _ _ Pa L). pose proof (off_le v b _ _ Pb L).
          rewrite !asize_small by lia. lia.
      + apply asize_mono. split; [exact A|]. apply off_mono. exact Hle.
  Qed.

  Variables (labels : list (nat * nat)) (jumps : list (nat * nat)).
  Hypothesis nodup : NoDup (map fst jumps).

  (** The instructions at the places of jumps. *)
  Definition jump_ok (c : cinstr) : Prop :=
    c_ext c = None /\ opmap T (c_name c) = Some (c_op c) /\ c_op c < t_min_instrumented T
    /\ c_size c <= 8.

  Definition inv (a : list cinstr) : Prop :=
    Forall pos a /\ forall k c, In k (map fst jumps) -> nth_error a k = Some c -> jump_ok c.

  Record passed (a a' : list cinstr) : Prop := {
    pa_len : length a' = length a;
    pa_other : forall k, ~ In k (map fst jumps) -> nth_error a' k = nth_error a k;
    pa_jump : forall k l, In (k, l) jumps ->
      exists ti c c', dget Nat.eqb labels l = Some ti /\ (ti <= length a)%nat
        /\ nth_error a k = Some c /\ nth_error a' k = Some c'
        /\ set_arg v T c (jarg v T c (offset_of v a k) (offset_of v a ti)) = Ok c' }.

  Lemma jump_pass_ok a a' mo : jump_pass v T labels jumps a = Ok (a', mo) ->
    passed a a' /\ (mo = true <-> exists k c c', In k (map fst jumps) /\ nth_error a k = Some c
                       /\ nth_error a' k = Some c' /\ c_size c' <> c_size c).
  Proof.
    unfold jump_pass. intros H. destruct (fix_fold _ _ _ _ _ _ _ _ _ nodup H) as (L & O & J & B).
    split.
    - split; [exact L|exact O|]. intros k l I.
      destruct (J k l I) as (ti & t & c & o & c' & A1 & A2 & A3 & A4 & A5 & A6).
      assert (Lt : (ti <= length a)%nat).
      { apply nth_some_lt in A2. rewrite label_offsets_length in A2. lia. }
      rewrite label_offsets_nth in A2 by exact Lt. injection A2 as <-.
      rewrite label_offsets_nth in A4 by (apply nth_some_lt in A3; lia). injection A4 as <-.
      exists ti, c, c'. auto 10.
    - rewrite B. split.
      + intros [X|(k & c & c' & H1 & H2 & H3)]; [discriminate|]. exists k, c, c'.
        repeat split; auto. destruct (in_dec Nat.eq_dec k (map fst jumps)); [assumption|].
        rewrite O in H2 by assumption. congruence.
      + intros (k & c & c' & _ & HH). right. exists k, c, c'. exact HH.
  Qed.

  Lemma jump_ok_caches c : jump_ok c -> 0 <= use_cache_opcodes v T c <= 255.
  Proof. intros (_ & O & L & _). apply (cache_nonneg v T wf); assumption. Qed.

  Lemma passed_jump a a' k l : passed a a' -> inv a -> In (k, l) jumps ->
    exists ti c c', dget Nat.eqb labels l = Some ti /\ (ti <= length a)%nat
      /\ nth_error a k = Some c /\ nth_error a' k = Some c'
      /\ jump_ok c /\ jump_ok c' /\ pos c' /\ c_name c' = c_name c /\ c_op c' = c_op c
      /\ c_loc c' = c_loc c
      /\ let x := jarg v T c (offset_of v a k) (offset_of v a ti) in
         0 <= x <= 2147483647 /\ c_arg c' = Some x /\ c_size c' = asize x.
  Proof.
    intros P [_ I] J. destruct (pa_jump _ _ P _ _ J) as (ti & c & c' & A1 & A2 & A3 & A4 & A5).
    assert (Jk : jump_ok c) by (apply (I k c); [apply in_map_iff; exists (k, l); now split|exact A3]).
    exists ti, c, c'. apply set_arg_ok in A5. destruct A5 as (B1 & B2 & B3 & B4 & B5 & B6 & B7 & _ & B8).
    pose proof Jk as (C1 & C2 & C3 & C4). rewrite C1 in B8, B3. fold (asize (jarg v T c (offset_of v a k) (offset_of v a ti))) in B8.
    assert (c_op c' = c_op c) by congruence.
    pose proof (asize_ge2 _ (proj1 B7)). pose proof (asize_le8 _ B7). pose proof (asize_even _ (proj1 B7)).
    repeat (split; [first [assumption | split; (congruence || lia)]|]).
    split; [|split; [|auto 10]].
    - unfold jump_ok. rewrite B3, B8. repeat split; congruence || lia.
    - unfold pos. rewrite B8. split; lia.
  Qed.

  Lemma passed_inv a a' : passed a a' -> inv a -> inv a'.
  Proof.
    intros P I. split.
    - apply Forall_forall. intros c Hc. apply In_nth_error in Hc. destruct Hc as (k & Hk).
      destruct (in_dec Nat.eq_dec k (map fst jumps)) as [J|N].
      + apply in_map_iff in J. destruct J as ([k' l] & E & J). cbn in E. subst k'.
        destruct (passed_jump _ _ _ _ P I J) as (ti & c0 & c' & _ & _ & _ & H & _ & _ & Hp & _).
        congruence.
      + rewrite (pa_other _ _ P _ N) in Hk. destruct I as [I _]. rewrite Forall_forall in I.
        apply I. now apply nth_error_In in Hk.
    - intros k c J Hk. apply in_map_iff in J. destruct J as ([k' l] & E & J). cbn in E. subst k'.
      destruct (passed_jump _ _ _ _ P I J) as (ti & c0 & c' & _ & _ & _ & H & _ & Hp & _).
      congruence.
  Qed.

  (** Comparing one pass with an upper bound. *)
  Lemma passed_below a a' e d : passed a a' -> inv a -> Forall pos e -> le_n a e ->
    length d = length a ->
    (forall k c x, ~ In k (map fst jumps) -> nth_error a k = Some c -> nth_error d k = Some x ->
       c_name c = c_name x /\ c_op c = c_op x /\ c_size c <= c_size x) ->
    (forall k l ti x y, In (k, l) jumps -> dget Nat.eqb labels l = Some ti ->
       nth_error e k = Some x -> nth_error d k = Some y ->
       c_name x = c_name y /\ c_op x = c_op y
       /\ 0 <= jarg v T x (offset_of v e k) (offset_of v e ti)
       /\ asize (jarg v T x (offset_of v e k) (offset_of v e ti)) <= c_size y) ->
    le_n a' d.
  Proof.
    intros P I Pe Le Ld Ho Hj. split; [rewrite (pa_len _ _ P); congruence|].
    intros k c x Hc Hx. destruct (in_dec Nat.eq_dec k (map fst jumps)) as [J|N].
    - apply in_map_iff in J. destruct J as ([k' l] & E & J). cbn in E. subst k'.
      destruct (passed_jump _ _ _ _ P I J)
        as (ti & c0 & c' & A1 & A2 & A3 & A4 & A5 & _ & _ & A6 & A7 & _ & A8 & A9 & A10).
      rewrite Hc in A4. injection A4 as <-.
      destruct (nth_same_length _ e _ _ (proj1 Le) A3) as (y & Hy).
      destruct (Hj _ _ _ _ _ J A1 Hy Hx) as (B1 & B2 & B3 & B4).
      destruct (proj2 Le _ _ _ A3 Hy) as (C1 & C2 & _).
      repeat split; try congruence. rewrite A10.
      etransitivity; [|exact B4]. apply jarg_mono; auto; try apply I.
      + apply jump_ok_caches. exact A5.
      + lia.
    - rewrite (pa_other _ _ P _ N) in Hc. eapply Ho; eauto.
  Qed.

  Lemma passed_mono a a' e e' : passed a a' -> passed e e' -> inv a -> inv e -> le_n a e -> le_n a' e'.
  Proof.
    intros P Q I J L. eapply (passed_below a a' e e'); eauto.
    - apply J.
    - rewrite (pa_len _ _ Q). symmetry. apply L.
    - intros k c x N Hc Hx. rewrite (pa_other _ _ Q _ N) in Hx. eapply (proj2 L); eauto.
    - intros k l ti x y Hk Hti Hx Hy.
      destruct (passed_jump _ _ _ _ Q J Hk)
        as (ti' & c0 & c' & A1 & A2 & A3 & A4 & A5 & _ & _ & A6 & A7 & _ & A8 & A9 & A10).
      rewrite A1 in Hti. injection Hti as ->. rewrite A3 in Hx. injection Hx as ->.
      rewrite A4 in Hy. injection Hy as ->. repeat split; try congruence; lia.
  Qed.

  (** *** Convergence *)
  Definition slack (a : list cinstr) : Z :=
    fold_right Z.add 0 (map (fun j => match nth_error a (fst j) with
                                      | Some c => 8 - c_size c | None => 0 end) jumps).

  Lemma slack_step a a' : inv a -> inv a' -> le_n a a' ->
    0 <= slack a' <= slack a
    /\ ((exists k c c', In k (map fst jumps) /\ nth_error a k = Some c
           /\ nth_error a' k = Some c' /\ c_size c' <> c_size c) -> slack a' <= slack a - 2).
  Proof.
    intros I I' L. unfold slack. destruct I as [P I]. destruct I' as [P' I'].
    assert (X : forall k, In k (map fst jumps) ->
      let s := match nth_error a k with Some c => 8 - c_size c | None => 0 end in
      let s' := match nth_error a' k with Some c => 8 - c_size c | None => 0 end in
      0 <= s' <= s /\ (s' <> s -> s' <= s - 2)).
    { intros k Hk. cbv zeta. destruct (nth_error a k) as [c|] eqn:E.
      - destruct (nth_same_length _ a' _ _ (proj1 L) E) as (c' & E'). rewrite E'.
        destruct (proj2 L _ _ _ E E') as (_ & _ & S). destruct (I' _ _ Hk E') as (_ & _ & _ & Q).
        rewrite Forall_forall in P, P'. pose proof (proj2 (P _ (nth_error_In _ _ E))).
        pose proof (proj2 (P' _ (nth_error_In _ _ E'))). split; [lia|]. intros; zdm.
      - assert (nth_error a' k = None) as ->.
        { apply nth_error_None. apply nth_error_None in E. destruct L as [L _]. lia. }
        split; [lia|]. lia. }
    clear P I P' I' L nodup. induction jumps as [|[k l] js IH]; cbn [map fold_right fst] in *.
    - split; [lia|]. intros (? & ? & ? & [] & _).
    - destruct IH as [IH1 IH2]; [intros k' Hk'; apply X; now right|].
      destruct (X k (or_introl eq_refl)) as [X1 X2]. split; [lia|].
      intros (k' & c & c' & [<-|Hk] & E & E' & N).
      + rewrite E, E' in *. lia.
      + assert (slack_js := IH2 ltac:(exists k', c, c'; auto)). lia.
  Qed.

  Lemma compute_jumps_converges ex passes : forall a, inv a ->
    (forall a' mo, jump_pass v T labels jumps a = Ok (a', mo) -> le_n a a') ->
    slack a < 2 * Z.of_nat passes ->
    (exists e, compute_jumps v T labels jumps ex passes a = Err e /\ e <> RuntimeError)
    \/ exists r, compute_jumps v T labels jumps ex passes a = Ok r.
  Proof.
    induction passes as [|n IH]; intros a I Hle Hs.
    - exfalso.
      assert (H : 0 <= slack a).
      { apply (slack_step a a); auto. apply le_n_refl. }
      lia.
    - cbn [compute_jumps]. destruct (jump_pass v T labels jumps a) as [[a' mo]|e] eqn:E; cbn [bind].
      + specialize (Hle _ _ eq_refl). destruct (jump_pass_ok _ _ _ E) as [P M].
        pose proof (passed_inv _ _ P I) as I'.
        destruct mo.
        * apply IH; auto.
          { intros a'' mo' E'. destruct (jump_pass_ok _ _ _ E') as [P' _].
            eapply passed_mono; eauto. }
          { destruct (slack_step a a' I I' Hle) as [_ S]. specialize (S (proj1 M eq_refl)). lia. }
        * match goal with |- context [mapM ?f ?l] => destruct (mapM f l) as [en|e] eqn:Em end;
            cbn [bind]; [right; eauto|]. left. exists e. split; [reflexivity|].
          clear -Em. revert e Em. induction ex as [|x ex' IHe]; intros e Em; cbn [mapM] in Em; [discriminate|].
          match type of Em with bind ?f _ = _ => destruct f as [y|e'] eqn:Ef end; cbn [bind] in Em.
          { match type of Em with bind ?g _ = _ => destruct g as [ys|e2] eqn:Eg end;
              cbn [bind] in Em; [discriminate|]. injection Em as <-. eapply IHe; eauto. }
          { injection Em as <-. unfold fix_entry in Ef.
            assert (PI : forall (A : Type) (l : list A) i e0, py_index l i = Err e0 -> e0 = IndexError).
            { intros A l i e0. unfold py_index. destruct (_ || _); [congruence|].
              destruct (nth_error _ _); congruence. }
            match type of Ef with bind ?g _ = _ => destruct g as [s1|e2] eqn:G1 end; cbn [bind] in Ef;
              [|apply PI in G1; congruence].
            match type of Ef with bind ?g _ = _ => destruct g as [s2|e2] eqn:G2 end; cbn [bind] in Ef;
              [|apply PI in G2; congruence].
            destruct (xi_target (snd x)) as [| | | | | |lb| | | | | | |]; cbn [bind] in Ef; try (injection Ef as <-; discriminate).
            destruct (dget Nat.eqb labels lb); cbn [of_option bind] in Ef; [|injection Ef as <-; discriminate].
            destruct (nth_error _ _); cbn [of_option bind] in Ef; [discriminate|injection Ef as <-; discriminate]. }
      + left. exists e. split; [reflexivity|]. unfold jump_pass in E. eapply fix_fold_err; eauto.
  Qed.

  (** More passes give the same result. *)
  Lemma compute_jumps_more ex p q : (p <= q)%nat -> forall a r,
    compute_jumps v T labels jumps ex p a = r -> r <> Err RuntimeError ->
    compute_jumps v T labels jumps ex q a = r.
  Proof.
    revert q. induction p as [|p IH]; intros q L a r H N; cbn [compute_jumps] in H; [congruence|].
    destruct q as [|q]; [lia|]. cbn [compute_jumps].
    destruct (jump_pass v T labels jumps a) as [[a' mo]|e]; cbn [bind] in *; [|assumption].
    destruct mo; [|assumption]. apply IH; [lia|assumption|assumption].
  Qed.

  (** The result of a successful computation. *)
  Lemma compute_jumps_ok ex passes : forall a r en, inv a ->
    compute_jumps v T labels jumps ex passes a = Ok (r, en) ->
    exists b, passed b r /\ inv b /\ inv r
      /\ (forall k c c', nth_error b k = Some c -> nth_error r k = Some c' -> c_size c' = c_size c)
      /\ length b = length a
      /\ (forall k, ~ In k (map fst jumps) -> nth_error r k = nth_error a k)
      /\ (forall k, In k (map fst jumps) -> forall c, nth_error a k = Some c ->
            exists c', nth_error r k = Some c' /\ c_name c' = c_name c /\ c_op c' = c_op c
              /\ c_loc c' = c_loc c /\ c_ext c' = None)
      /\ mapM (fun x => fix_entry v (instruction_offsets v 0 b) (label_offsets v 0 b) labels (snd x)) ex = Ok en.
  Proof.
    induction passes as [|n IH]; intros a r en I H; cbn [compute_jumps] in H; [discriminate|].
    apply bind_ok in H. destruct H as ([a' mo] & E & H).
    destruct (jump_pass_ok _ _ _ E) as [P M]. pose proof (passed_inv _ _ P I) as I'.
    assert (JJ : forall k, In k (map fst jumps) -> forall c, nth_error a k = Some c ->
            exists c', nth_error a' k = Some c' /\ c_name c' = c_name c /\ c_op c' = c_op c
              /\ c_loc c' = c_loc c /\ c_ext c' = None).
    { intros k Hk c Hc. apply in_map_iff in Hk. destruct Hk as ([k' l] & Ek & J). cbn in Ek. subst k'.
      destruct (passed_jump _ _ _ _ P I J)
        as (ti & c0 & c' & A1 & A2 & A3 & A4 & A5 & A5' & _ & A6 & A7 & A11 & _).
      rewrite Hc in A3. injection A3 as <-. exists c'. repeat split; auto. apply A5'. }
    destruct mo.
    - destruct (IH a' r en I' H) as (b & B1 & B2 & B3 & B4 & B5 & B6 & B7 & B8).
      exists b. repeat (split; [assumption|]). split; [rewrite B5; apply P|]. split; [|split; [|exact B8]].
      + intros k N. rewrite B6 by assumption. now apply P.
      + intros k Hk c Hc. destruct (JJ k Hk c Hc) as (c' & C1 & C2 & C3 & C4 & _).
        destruct (B7 k Hk c' C1) as (c'' & D1 & D2 & D3 & D4 & D5).
        exists c''. repeat split; congruence.
    - apply bind_ok in H. destruct H as (en' & Em & H). injection H as -> ->.
      exists a. split; [exact P|]. split; [exact I|]. split; [exact I'|]. split; [|split; [reflexivity|split; [|split; [exact JJ|exact Em]]]].
      + intros k c c' Hc Hc'. destruct (Z.eq_dec (c_size c') (c_size c)); [assumption|].
        exfalso. enough (false = true) by discriminate. apply M. exists k, c, c'. repeat split; auto.
        destruct (in_dec Nat.eq_dec k (map fst jumps)); [assumption|].
        rewrite (pa_other _ _ P) in Hc' by assumption. congruence.
      + apply P.
  Qed.

  (** Minimality: any consistent assignment [e] above the start is above the result. *)
  Lemma compute_jumps_least ex passes e : forall a r en, inv a ->
    compute_jumps v T labels jumps ex passes a = Ok (r, en) ->
    Forall pos e -> le_n a e ->
    (forall k l ti x, In (k, l) jumps -> dget Nat.eqb labels l = Some ti -> nth_error e k = Some x ->
       0 <= jarg v T x (offset_of v e k) (offset_of v e ti)
       /\ asize (jarg v T x (offset_of v e k) (offset_of v e ti)) <= c_size x) ->
    le_n r e.
  Proof.
    induction passes as [|n IH]; intros a r en I H Pe Le Hj; cbn [compute_jumps] in H; [discriminate|].
    apply bind_ok in H. destruct H as ([a' mo] & E & H).
    destruct (jump_pass_ok _ _ _ E) as [P M]. pose proof (passed_inv _ _ P I) as I'.
    assert (Le' : le_n a' e).
    { eapply (passed_below a a' e e); eauto.
      - symmetry. apply Le.
      - intros k c x _ Hc Hx. eapply (proj2 Le); eauto.
      - intros k l ti x y J Hti Hx Hy. rewrite Hx in Hy. injection Hy as ->.
        destruct (Hj _ _ _ _ J Hti Hx). auto. }
    destruct mo; [eapply IH; eauto|].
    apply bind_ok in H. destruct H as (en' & _ & H). injection H as -> ->. exact Le'.
  Qed.
End Jumps.
