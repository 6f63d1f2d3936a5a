(** legalize() on objects and on values. *)
From Verif Require Import PyBase OpTable P_Base M_Instr M_Tables M_Concrete M_Convert M_Bytecode M_Cfg M_Objects.
Open Scope list_scope.
Open Scope Z_scope.

Lemma filter_map {A B} (f : A -> B) (p : B -> bool) l : filter p (map f l) = map f (filter (fun x => p (f x)) l).
Proof. induction l as [|x r IH]; [reflexivity|]. cbn. rewrite IH. now destruct (p (f x)). Qed.
Lemma nodup_sub {A} (p : A -> bool) a b : NoDup (filter p (a ++ b)) -> NoDup (filter p a) /\ NoDup (filter p b)
  /\ forall x, In x a -> In x b -> p x = false.
Proof.
  rewrite filter_app. intros H.
  assert (K : forall l l' : list A, NoDup (l ++ l') -> NoDup l /\ NoDup l' /\ forall x, In x l -> ~ In x l').
  { induction l as [|x l IH]; intros l' N; cbn in *; [split; [constructor|split; [exact N|intros x []]]|].
    inversion N as [|? ? N1 N2]; subst. destruct (IH _ N2) as (X & Y & Z). rewrite in_app_iff in N1.
    split; [constructor; tauto|]. split; [exact Y|]. intros y [<-|J]; [tauto|auto]. }
  destruct (K _ _ H) as (X & Y & Z). split; [exact X|]. split; [exact Y|]. intros x J1 J2. destruct (p x) eqn:Q; [|reflexivity].
  destruct (Z x); apply filter_In; auto.
Qed.

Section Generic.
  Context {A : Type} (view : A -> lview) (set_loc : A -> option loc -> A).
  Hypothesis set_view : forall x lo lo', view x = VInstr lo -> view (set_loc x lo') = VInstr lo'.
  Definition isI (x : A) : bool := match view x with VInstr _ => true | _ => false end.

  Lemma put_same (h : @store A) r x : put h r x r = x. Proof. unfold put. now rewrite Nat.eqb_refl. Qed.
  Lemma put_other (h : @store A) r x r' : r' <> r -> put h r x r' = h r'.
  Proof. intros N. unfold put. destruct (Nat.eqb r' r) eqn:Q; [apply Nat.eqb_eq in Q; congruence|reflexivity]. Qed.

  Lemma put_isI (h : @store A) r lo lo' : view (h r) = VInstr lo -> forall r', isI (put h r (set_loc (h r) lo') r') = isI (h r').
  Proof.
    intros V r'. unfold put. destruct (Nat.eqb r' r) eqn:Q; [|reflexivity]. apply Nat.eqb_eq in Q. subst. unfold isI.
    now rewrite V, (set_view _ _ _ V).
  Qed.

  (** one step on an instruction that does not occur again *)
  Lemma step_facts (h : @store A) r lo lo' l : view (h r) = VInstr lo -> NoDup (filter (fun r => isI (h r)) (r :: l)) ->
    let h1 := put h r (set_loc (h r) lo') in
    NoDup (filter (fun r => isI (h1 r)) l) /\ map h1 l = map h l /\ ~ In r l.
  Proof.
    intros V N h1. cbn [filter] in N. unfold isI at 1 in N. rewrite V in N. inversion N as [|? ? N1 N2]; subst.
    assert (NI : ~ In r l). { intros J. apply N1. apply filter_In. split; [exact J|]. unfold isI. now rewrite V. }
    split; [|split; [|exact NI]].
    - rewrite (filter_ext _ (fun r => isI (h r))); [exact N2|]. intros r'. now apply (put_isI h r lo).
    - apply map_ext_in. intros r' J. apply put_other. congruence.
  Qed.

  Lemma oloop_ok v l : forall s c h h' o, NoDup (filter (fun r => isI (h r)) l) ->
    olegalize_loop view set_loc v s c h l = (h', o) ->
    legalize_loop view set_loc v s c (map h l) = (map h' l, o)
    /\ (forall r, ~ In r l \/ isI (h r) = false -> h' r = h r)
    /\ (forall r, isI (h' r) = isI (h r)).
  Proof.
    induction l as [|r l IH]; intros s c h h' o N E; cbn [olegalize_loop] in E.
    - injection E as <- <-. repeat split; auto.
    - cbn [map legalize_loop].
      assert (SKIP : forall s c, isI (h r) = false \/ True -> olegalize_loop view set_loc v s c h l = (h', o) ->
         legalize_loop view set_loc v s c (map h l) = (map h' l, o) /\ (forall r, ~ In r l \/ isI (h r) = false -> h' r = h r)
         /\ (forall r, isI (h' r) = isI (h r)) /\ h' r = h r).
      { intros s' c' _ E'. assert (N' : NoDup (filter (fun r => isI (h r)) l)).
        { cbn [filter] in N. destruct (isI (h r)); [inversion N; assumption|exact N]. }
        destruct (IH _ _ _ _ _ N' E') as (X & Y & Z). repeat split; auto.
        destruct (isI (h r)) eqn:Q; [|apply Y; now right]. apply Y. left. intros J. cbn [filter] in N. rewrite Q in N. inversion N as [|? ? N1 _]; subst.
        apply N1. apply filter_In. auto. }
      assert (SKIP2 : forall s c, olegalize_loop view set_loc v s c h l = (h', o) ->
         (let '(r', o') := legalize_loop view set_loc v s c (map h l) in (h r :: r', o')) = (map h' (r :: l), o)
         /\ (forall r0, ~ In r0 (r :: l) \/ isI (h r0) = false -> h' r0 = h r0) /\ (forall r, isI (h' r) = isI (h r))).
      { intros s' c' E'. destruct (SKIP s' c' (or_intror Logic.I) E') as (X & Y & Z & W). rewrite X. cbn. rewrite W. repeat split; auto.
        intros r0 [Q|Q]; apply Y; [left; tauto|now right]. }
      assert (SET : forall s c lo lo' u, view (h r) = VInstr lo ->
         match u with Err e => (put h r (set_loc (h r) lo'), Err e) | Ok _ => olegalize_loop view set_loc v s c (put h r (set_loc (h r) lo')) l end = (h', o) ->
         match u with Err e => (set_loc (h r) lo' :: map h l, Err e)
         | Ok tt => let '(r', o') := legalize_loop view set_loc v s c (map h l) in (set_loc (h r) lo' :: r', o') end = (map h' (r :: l), o)
         /\ (forall r0, ~ In r0 (r :: l) \/ isI (h r0) = false -> h' r0 = h r0) /\ (forall r, isI (h' r) = isI (h r))).
      { intros s' c' lo lo' u V E'. destruct (step_facts h r lo lo' l V N) as (N1 & M1 & NI).
        assert (PI := put_isI h r lo lo' V). set (h1 := put h r (set_loc (h r) lo')) in *.
        assert (KEEP : forall r0, ~ In r0 (r :: l) \/ isI (h r0) = false -> h1 r0 = h r0).
        { intros r0 [Q|Q]; apply put_other; [intros ->; apply Q; now left|]. intros ->. unfold isI in Q. rewrite V in Q. discriminate. }
        destruct u as [[]|e].
        - destruct (IH _ _ _ _ _ N1 E') as (X & Y & Z). rewrite M1 in X. rewrite X. cbn. rewrite (Y r (or_introl NI)).
          unfold h1 at 1. rewrite put_same. split; [reflexivity|]. split; [|intros; now rewrite Z, PI].
          intros r0 Q. rewrite <- (KEEP r0 Q). apply Y. rewrite PI. destruct Q as [Q|Q]; [left; cbn in Q; tauto|now right].
        - injection E' as <- <-. cbn. rewrite M1. unfold h1 at 1. rewrite put_same. auto. }
      destruct (view (h r)) as [z|lo|] eqn:V.
      + now apply SKIP2.
      + destruct s as [z|].
        * destruct (set_lineno v lo (LLine z)) as [lo' u]. assert (Q := SET (Some z) c lo lo' u eq_refl). destruct u as [[]|e]; auto.
        * destruct (loc_lineno lo).
          -- destruct (set_lineno v lo (LLine c)) as [lo' u]. assert (Q := SET None c lo lo' u eq_refl). destruct u as [[]|e]; auto.
          -- now apply SKIP2.
          -- now apply SKIP2.
      + now apply SKIP2.
  Qed.
End Generic.

Lemma bset_view x lo lo' : bview x = VInstr lo -> bview (bset_loc x lo') = VInstr lo'.
Proof. destruct x; cbn; intros E; try discriminate. reflexivity. Qed.

Lemma iterate_prefix l : forall s ys e, iterate s l = (ys, e) -> ys = firstn (length ys) l.
Proof.
  induction l as [|x r IH]; intros s ys e E; cbn in E; [injection E as <- <-; reflexivity|].
  destruct (iter_check s x) as [s'|]; [|injection E as <- <-; reflexivity].
  destruct (iterate s' r) as [ys' o] eqn:R. injection E as <- <-. cbn. f_equal. eauto.
Qed.

Definition is_ins (x : bitem) : bool := isI bview x.
Definition distinct (h : @store bitem) (l : list nat) : Prop := NoDup (filter (fun r => is_ins (h r)) l).

Lemma obytecode_ok v h b h' b' o : distinct h (ob_items b) -> obytecode_legalize v h b = (h', b', o) ->
  bytecode_legalize v (contents h b) = (contents h' b', o)
  /\ (forall r, ~ In r (ob_items b) \/ is_ins (h r) = false -> h' r = h r)
  /\ (forall r, is_ins (h' r) = is_ins (h r))
  /\ ob_meta b' = ob_meta b /\ ob_argnames b' = ob_argnames b.
Proof.
  intros N E. unfold obytecode_legalize in E. unfold bytecode_legalize. cbn [contents b_items b_meta b_argnames].
  destruct (iterate false (map h (ob_items b))) as [ys stop] eqn:I. assert (P := iterate_prefix _ _ _ _ I).
  set (n := length ys) in *. rewrite firstn_map in P. rewrite skipn_map.
  assert (SP := firstn_skipn n (ob_items b)). unfold distinct in N. rewrite <- SP in N. apply nodup_sub in N. destruct N as (N1 & N2 & N3).
  unfold olegalize in E. unfold legalize.
  destruct (olegalize_loop bview bset_loc v None (m_first_lineno (ob_meta b)) h (firstn n (ob_items b))) as [h1 u] eqn:L.
  destruct (oloop_ok bview bset_loc bset_view v _ _ _ _ _ _ N1 L) as (X & Y & Z). rewrite <- P in X. rewrite X.
  assert (FR : forall r, ~ In r (ob_items b) \/ is_ins (h r) = false -> h1 r = h r).
  { intros r [Q|Q]; apply Y; [left|now right]. intros J. apply Q. rewrite <- SP. apply in_app_iff. now left. }
  assert (MR : map h1 (skipn n (ob_items b)) = map h (skipn n (ob_items b))).
  { apply map_ext_in. intros r J. apply Y. destruct (in_dec Nat.eq_dec r (firstn n (ob_items b))) as [K|K]; [right; exact (N3 r K J)|now left]. }
  assert (ST : stop = None -> n = length (ob_items b)).
  { intros ->. unfold n. assert (Q : forall l s ys, iterate s l = (ys, None) -> length ys = length l).
    { clear. induction l as [|x r IH]; intros s ys E; cbn in E; [injection E as <-; reflexivity|].
      destruct (iter_check s x); [|discriminate]. destruct (iterate _ r) as [ys' o] eqn:R. injection E as <- ->. cbn. f_equal. eauto. }
    rewrite (Q _ _ _ I). now rewrite map_length. }
  destruct u as [[]|e].
  - destruct stop as [e|]; injection E as <- <- <-; cbn [ob_meta ob_argnames contents ob_items].
    + split; [|repeat split; auto]. unfold contents. cbn. rewrite map_app, MR. reflexivity.
    + split; [|repeat split; auto]. unfold contents. cbn. rewrite filter_map. reflexivity.
  - injection E as <- <- <-. split; [|repeat split; auto]. unfold contents. cbn. rewrite map_app, MR. reflexivity.
Qed.

(** ** Graphs *)

Lemma oblock_loop_ok v T l : forall s c h h' o, distinct h l ->
  oblock_legalize_loop v T s c h l = (h', o) ->
  block_legalize_loop v T s c (map h l) = (map h' l, o)
  /\ (forall r, ~ In r l \/ is_ins (h r) = false -> h' r = h r)
  /\ (forall r, is_ins (h' r) = is_ins (h r)).
Proof.
  unfold distinct, is_ins. induction l as [|r l IH]; intros s c h h' o N E; cbn [oblock_legalize_loop] in E.
  - injection E as <- <-. repeat split; auto.
  - cbn [map block_legalize_loop]. destruct (elem_check T (h r) (map h l)) as [[]|e]; [|injection E as <- <-; repeat split; auto].
    assert (SKIP2 : forall s c, oblock_legalize_loop v T s c h l = (h', o) ->
         (let '(r', o') := block_legalize_loop v T s c (map h l) in (h r :: r', o')) = (map h' (r :: l), o)
         /\ (forall r0, ~ In r0 (r :: l) \/ isI bview (h r0) = false -> h' r0 = h r0) /\ (forall r, isI bview (h' r) = isI bview (h r))).
    { intros s' c' E'. assert (N' : NoDup (filter (fun r => isI bview (h r)) l)).
      { cbn [filter] in N. destruct (isI bview (h r)); [inversion N; assumption|exact N]. }
      destruct (IH _ _ _ _ _ N' E') as (X & Y & Z). rewrite X.
      assert (W : h' r = h r).
      { destruct (isI bview (h r)) eqn:Q; [|apply Y; now right]. apply Y. left. intros J. cbn [filter] in N. rewrite Q in N. inversion N as [|? ? N1 _]; subst.
        apply N1. apply filter_In. auto. }
      cbn. rewrite W. repeat split; auto. intros r0 [Q|Q]; apply Y; [left; tauto|now right]. }
    assert (SET : forall s c i lo' u, h r = BI i ->
         match u with Err e => (put h r (bset_loc (h r) lo'), Err e) | Ok _ => oblock_legalize_loop v T s c (put h r (bset_loc (h r) lo')) l end = (h', o) ->
         match u with Err e => (bset_loc (h r) lo' :: map h l, Err e)
         | Ok tt => let '(r', o') := block_legalize_loop v T s c (map h l) in (bset_loc (h r) lo' :: r', o') end = (map h' (r :: l), o)
         /\ (forall r0, ~ In r0 (r :: l) \/ isI bview (h r0) = false -> h' r0 = h r0) /\ (forall r, isI bview (h' r) = isI bview (h r))).
    { intros s' c' i lo' u V E'. assert (V' : bview (h r) = VInstr (i_loc i)) by now rewrite V.
      destruct (step_facts bview bset_loc bset_view h r _ lo' l V' N) as (N1 & M1 & NI).
      assert (PI := put_isI bview bset_loc bset_view h r _ lo' V'). set (h1 := put h r (bset_loc (h r) lo')) in *.
      assert (KEEP : forall r0, ~ In r0 (r :: l) \/ isI bview (h r0) = false -> h1 r0 = h r0).
      { intros r0 [Q|Q]; apply put_other; [intros ->; apply Q; now left|]. intros ->. unfold isI in Q. rewrite V' in Q. discriminate. }
      destruct u as [[]|e].
      - destruct (IH _ _ _ _ _ N1 E') as (X & Y & Z). rewrite M1 in X. rewrite X. cbn. rewrite (Y r (or_introl NI)).
        unfold h1 at 1. rewrite put_same. split; [reflexivity|]. split; [|intros; now rewrite Z, PI].
        intros r0 Q. rewrite <- (KEEP r0 Q). apply Y. rewrite PI. destruct Q as [Q|Q]; [left; cbn in Q; tauto|now right].
      - injection E' as <- <-. cbn. rewrite M1. unfold h1 at 1. rewrite put_same. auto. }
    destruct (h r) as [i|n|z|id t la d|id] eqn:V; try (now apply SKIP2).
    assert (SAME : bset_loc (BI i) (i_loc i) = BI i) by (destruct i; reflexivity).
    destruct s as [z|].
    + destruct (set_lineno v (i_loc i) (LLine z)) as [lo' u]. assert (Q := SET (Some z) c i lo' u eq_refl). destruct u as [[]|e]; auto.
    + destruct (loc_lineno (i_loc i)).
      * destruct (set_lineno v (i_loc i) (LLine c)) as [lo' u]. assert (Q := SET None c i lo' u eq_refl). destruct u as [[]|e]; auto.
      * rewrite SAME. now apply SKIP2.
      * rewrite SAME. now apply SKIP2.
Qed.

Lemma oblock_ok v T l : forall c h h' l' o, distinct h l -> oblock_legalize v T c h l = (h', l', o) ->
  block_legalize v T c (map h l) = (map h' l', o)
  /\ (forall r, ~ In r l \/ is_ins (h r) = false -> h' r = h r)
  /\ (forall r, is_ins (h' r) = is_ins (h r))
  /\ (exists p, l' = filter p l).
Proof.
  intros c h h' l' o N E. unfold oblock_legalize in E. unfold block_legalize.
  destruct (oblock_legalize_loop v T None c h l) as [h1 u] eqn:L. destruct (oblock_loop_ok v T l _ _ _ _ _ N L) as (X & Y & Z). rewrite X.
  destruct u as [c'|e]; injection E as <- <- <-; (split; [|split; [exact Y|split; [exact Z|]]]).
  - rewrite filter_map. reflexivity.
  - eauto.
  - reflexivity.
  - exists (fun _ => true). clear. induction l; cbn; congruence.
Qed.

Definition refs (hp : list oblock) : list nat := flat_map ok_items hp.
Lemma upd_map {A B} (f : A -> B) n x l : map f (upd n x l) = upd n (f x) (map f l).
Proof. revert n. induction l as [|y r IH]; intros [|n]; cbn; try reflexivity. now rewrite IH. Qed.

Lemma nodup_filter {A} (p : A -> bool) l : NoDup l -> NoDup (filter p l).
Proof. apply NoDup_filter. Qed.

Lemma upd_refs (p q : nat -> bool) hp : forall n b, nth_error hp n = Some b -> NoDup (filter p (refs hp)) ->
  NoDup (filter p (refs (upd n (mkOBlk (filter q (ok_items b)) (ok_next b)) hp))).
Proof.
  assert (SUB : forall x hp n b, nth_error hp n = Some b -> In x (filter p (refs (upd n (mkOBlk (filter q (ok_items b)) (ok_next b)) hp))) -> In x (filter p (refs hp))).
  { clear. intros x. induction hp as [|y r IH]; intros [|n] b E J; cbn in E; try discriminate.
    - injection E as ->. cbn [upd refs flat_map] in *. cbn [ok_items] in J. rewrite filter_app, in_app_iff in *. destruct J as [J|J]; [left|right; exact J].
      rewrite !filter_In in J. apply filter_In. tauto.
    - cbn [upd refs flat_map] in *. rewrite filter_app, in_app_iff in *. destruct J as [J|J]; [now left|right]. eapply IH; eauto. }
  induction hp as [|y r IH]; intros [|n] b E N; cbn in E; try discriminate.
  - injection E as ->. cbn [upd refs flat_map ok_items] in *. rewrite filter_app in *.
    assert (COM : filter p (filter q (ok_items b)) = filter q (filter p (ok_items b))).
    { clear. induction (ok_items b) as [|x l IH]; [reflexivity|]. cbn. destruct (q x) eqn:Q, (p x) eqn:P; cbn; rewrite ?Q, ?P, IH; reflexivity. }
    rewrite COM. clear - N. induction (filter p (ok_items b)) as [|x l IH]; [exact N|]. cbn in *. inversion N as [|? ? N1 N2]; subst.
    destruct (q x); [|auto]. cbn. constructor; [|auto]. intros J. apply N1. rewrite in_app_iff in *. destruct J as [J|J]; [left; apply filter_In in J; tauto|now right].
  - cbn [upd refs flat_map] in *. rewrite filter_app in *.
    assert (K : forall l l' m : list nat, NoDup (l ++ l') -> NoDup m -> (forall x, In x m -> In x l') -> NoDup (l ++ m)).
    { clear. induction l as [|x l IH]; intros l' m N M S; cbn in *; [exact M|]. inversion N as [|? ? N1 N2]; subst. constructor; [|eauto].
      rewrite in_app_iff in *. intros [J|J]; auto. }
    eapply K; [exact N| |].
    + apply IH; [exact E|]. clear - N. induction (filter p (ok_items y)); [exact N|]. inversion N; auto.
    + intros x J. eapply SUB; eauto.
Qed.

Lemma ocfg_ok v T order : forall c h hp h' hp' o, distinct h (refs hp) -> ocfg_legalize_loop v T c h hp order = (h', hp', o) ->
  cfg_legalize_loop v T c (map (block_contents h) hp) order = (map (block_contents h') hp', o)
  /\ (forall r, ~ In r (refs hp) \/ is_ins (h r) = false -> h' r = h r).
Proof.
  induction order as [|n order IH]; intros c h hp h' hp' o N E; cbn [ocfg_legalize_loop] in E.
  - injection E as <- <- <-. split; [reflexivity|auto].
  - cbn [cfg_legalize_loop].
    set (b := match nth_error hp n with Some b => b | None => mkOBlk [] None end) in *.
    assert (BC : match nth_error (map (block_contents h) hp) n with Some b => b | None => mkBlk [] None end = block_contents h b).
    { unfold b. rewrite nth_error_map. now destruct (nth_error hp n). }
    rewrite BC. destruct (oblock_legalize v T c h (ok_items b)) as [[h1 l1] u] eqn:L.
    assert (NB : distinct h (ok_items b) /\ (forall b', In b' hp -> forall r, In r (ok_items b') -> ~ In r (ok_items b) \/ is_ins (h r) = false \/ b' = b)
      /\ forall r, In r (ok_items b) -> In r (refs hp)).
    { unfold b. destruct (nth_error hp n) as [b0|] eqn:Q; [|cbn; repeat split; [constructor|intros; left; tauto|intros r []]].
      destruct (nth_error_split _ _ Q) as (l & r & -> & _). unfold distinct, refs in *. rewrite flat_map_app in N. cbn [flat_map] in N.
      apply nodup_sub in N. destruct N as (N1 & N2 & N3). apply nodup_sub in N2. destruct N2 as (N4 & N5 & N6).
      split; [exact N4|]. split.
      - intros b' J r0 K. destruct (in_dec Nat.eq_dec r0 (ok_items b0)) as [I|I]; [right|now left].
        apply in_app_iff in J. destruct J as [J|[J|J]]; [left|right; congruence|left].
        + apply N3; [apply in_flat_map; eauto|apply in_app_iff; now left].
        + apply N6; [exact I|apply in_flat_map; eauto].
      - intros r0 J. apply in_flat_map. exists b0. split; [apply in_app_iff; right; now left|exact J]. }
    destruct NB as (NB & OTHER & SUB).
    destruct (oblock_ok v T _ _ _ _ _ _ NB L) as (X & Y & Z & p & LP). cbn [block_contents k_items k_next]. rewrite X.
    assert (HP : upd n (mkBlk (map h1 l1) (ok_next b)) (map (block_contents h) hp)
       = map (block_contents h1) (upd n (mkOBlk l1 (ok_next b)) hp)).
    { rewrite upd_map. unfold block_contents at 2. cbn [ok_items ok_next].
      assert (K : forall hp0 n0, (forall k b', nth_error hp0 k = Some b' -> k <> n0 -> forall r, In r (ok_items b') -> h1 r = h r) ->
         upd n0 (mkBlk (map h1 l1) (ok_next b)) (map (block_contents h) hp0) = upd n0 (mkBlk (map h1 l1) (ok_next b)) (map (block_contents h1) hp0)).
      { clear. assert (M : forall b', (forall r, In r (ok_items b') -> (h1 r : bitem) = h r) -> block_contents h b' = block_contents h1 b').
        { intros b' H. unfold block_contents. f_equal. apply map_ext_in. intros r J. symmetry. auto. }
        induction hp0 as [|y r IH]; intros [|n0] H; cbn; [reflexivity|reflexivity| |].
        - f_equal. apply map_ext_in. intros b' J. apply M. apply In_nth_error in J. destruct J as (k & J). intros r0. apply (H (Datatypes.S k) b' J). lia.
        - f_equal; [apply M; apply (H O y eq_refl); lia|]. apply IH. intros k b' E K. apply (H (Datatypes.S k) b' E). lia. }
      apply K. intros k b' Ek Kn r J. apply Y.
      destruct (in_dec Nat.eq_dec r (ok_items b)) as [I|I]; [right|now left].
      unfold b in I. destruct (nth_error hp n) as [b0|] eqn:Q; [|destruct I].
      (* two different places *)
      clear - N Ek Kn J I Q. unfold distinct, refs in N. revert k n N Ek Kn Q. induction hp as [|y rr IH]; intros [|k] [|n] N Ek Kn Q; cbn in *; try discriminate; try (exfalso; apply Kn; reflexivity).
      + injection Ek as ->. apply nodup_sub in N. destruct N as (_ & _ & N). apply N; [exact J|]. apply in_flat_map. exists b0. split; [eapply nth_error_In; eauto|exact I].
      + injection Q as ->. apply nodup_sub in N. destruct N as (_ & _ & N). apply N; [exact I|]. apply in_flat_map. exists b'. split; [eapply nth_error_In; eauto|exact J].
      + apply nodup_sub in N. destruct N as (_ & N & _). apply (IH k n N Ek); [congruence|exact Q]. }
    assert (FR : forall r, ~ In r (refs hp) \/ is_ins (h r) = false -> h1 r = h r).
    { intros r [Q|Q]; apply Y; [left; auto|now right]. }
    assert (N' : distinct h1 (refs (upd n (mkOBlk l1 (ok_next b)) hp))).
    { unfold distinct. rewrite (filter_ext _ (fun r => is_ins (h r))) by apply Z.
      unfold b in *. destruct (nth_error hp n) as [b0|] eqn:Q.
      - rewrite LP. now apply upd_refs.
      - replace (upd n (mkOBlk l1 _) hp) with hp; [exact N|]. apply nth_error_None in Q. clear - Q. revert n Q. induction hp as [|y r IH]; intros [|n] Q; cbn in *; try reflexivity; try lia. f_equal. apply IH. lia. }
    assert (RS : forall r, In r (refs (upd n (mkOBlk l1 (ok_next b)) hp)) -> In r (refs hp)).
    { intros r J. apply in_flat_map in J. destruct J as (b' & J1 & J2).
      assert (U : b' = mkOBlk l1 (ok_next b) \/ In b' hp).
      { revert J1. clear. generalize (mkOBlk l1 (ok_next b)) as bb. clear. revert n. induction hp as [|y rr IH]; intros [|n] bb J1; cbn in *; try tauto; destruct J1 as [J1|J1]; auto. destruct (IH _ _ J1); auto. }
      destruct U as [->|U]; [|apply in_flat_map; eauto]. cbn in J2. rewrite LP in J2. apply filter_In in J2. apply SUB, J2. }
    destruct u as [c1|e].
    + destruct (IH _ _ _ _ _ _ N' E) as (P1 & P2). unfold set_heap. rewrite HP. split; [exact P1|].
      intros r Q. rewrite <- (FR r Q). apply P2. rewrite Z. destruct Q as [Q|Q]; [left; auto|now right].
    + injection E as <- <- <-. unfold set_heap. rewrite HP. split; [reflexivity|exact FR].
Qed.
