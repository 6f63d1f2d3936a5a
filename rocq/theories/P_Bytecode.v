(** Lemmas on iteration and legalize. *)
From Verif Require Import PyBase OpTable M_Instr M_Tables M_Concrete M_Convert M_Bytecode S_Flags S_Legal.
Open Scope string_scope.
Open Scope list_scope.
Open Scope Z_scope.

(** ** Iteration *)
Definition is_open (seen : bool) (l : list bitem) : bool :=
  fold_left (fun s it => match it with BTB _ _ _ _ => true | BTE _ => false | _ => s end) l seen.

Lemma iterate_cases l : forall seen,
  iterate seen l = (l, None)
  \/ exists pre id t la d post, l = pre ++ BTB id t la d :: post
       /\ iterate seen l = (pre, Some RuntimeError) /\ is_open seen pre = true
       /\ iterate seen pre = (pre, None).
Proof.
  induction l as [|x l IH]; intros seen; [now left|].
  cbn [iterate]. destruct (iter_check seen x) as [s|e] eqn:C.
  - destruct (IH s) as [E|(pre & id & t & la & d & post & -> & E & O & P)]; rewrite E; [now left|].
    right. exists (x :: pre), id, t, la, d, post. repeat split; [|cbn; now rewrite C, P].
    unfold is_open in *. cbn. destruct x; cbn in C; try (injection C as <-; exact O).
    destruct seen; [discriminate|]. injection C as <-. exact O.
  - right. destruct x; cbn in C; try discriminate. destruct seen; [|discriminate].
    injection C as <-. now exists [], id, target, lasti, depth, l.
Qed.

Lemma is_open_last pre : is_open false pre = true ->
  exists p id t la d mid, pre = p ++ BTB id t la d :: mid /\ forall k, ~ In (BTE k) mid.
Proof.
  induction pre as [|x pre IH] using rev_ind; [discriminate|].
  unfold is_open. rewrite fold_left_app. cbn. fold (is_open false pre).
  destruct x; intros O; try discriminate;
    try (destruct (IH O) as (p & a & t & la & d & mid & -> & N);
         exists p, a, t, la, d; eexists; rewrite <- app_assoc; split; [reflexivity|];
         intros k J; apply in_app_iff in J; destruct J as [J|[J|[]]]; [now apply N in J|discriminate]).
  exists pre, id, target, lasti, depth, []. split; [reflexivity|now intros].
Qed.

Lemma iterate_app_ok l1 : forall seen l2, iterate seen (l1 ++ l2) = (l1 ++ l2, None) ->
  iterate (is_open seen l1) l2 = (l2, None).
Proof.
  induction l1 as [|x l1 IH]; intros seen l2 E; [exact E|].
  cbn in E. destruct (iter_check seen x) as [s|] eqn:C; [|discriminate].
  destruct (iterate s (l1 ++ l2)) as [ys e] eqn:F. injection E as -> ->.
  specialize (IH _ _ F). unfold is_open in *. cbn.
  destruct x; cbn in C; try (injection C as <-; exact IH).
  destruct seen; [discriminate|]. injection C as <-. exact IH.
Qed.

Lemma is_open_mid mid : (forall k, ~ In (BTE k) mid) -> is_open true mid = true.
Proof.
  unfold is_open. induction mid as [|x mid IH]; intros N; [reflexivity|]. cbn.
  destruct x; try (apply IH; intros k J; apply (N k); now right).
  exfalso. apply (N id). now left.
Qed.

Lemma iterate_not_nested l : iterate false l = (l, None) -> not_nested l.
Proof.
  intros E pre id t la d mid id' t' la' d' post ->.
  destruct (existsb (fun x => match x with BTE _ => true | _ => false end) mid) eqn:X.
  { apply existsb_exists in X. destruct X as (x & J & X). destruct x; try discriminate. eauto. }
  exfalso. apply iterate_app_ok in E.
  change (BTB id t la d :: mid ++ BTB id' t' la' d' :: post)
    with ((BTB id t la d :: mid) ++ BTB id' t' la' d' :: post) in E.
  apply iterate_app_ok in E.
  assert (O : is_open (is_open false pre) (BTB id t la d :: mid) = true).
  { apply (is_open_mid mid). intros k J. rewrite <- not_true_iff_false in X. apply X.
    apply existsb_exists. now exists (BTE k). }
  rewrite O in E. discriminate.
Qed.

Lemma iterate_iff l : (not_nested l -> iterate false l = (l, None))
  /\ (~ not_nested l -> exists pre id t la d post, l = pre ++ BTB id t la d :: post
        /\ iterate false l = (pre, Some RuntimeError) /\ not_nested pre).
Proof.
  destruct (iterate_cases l false) as [E|(pre & id & t & la & d & post & E & F & O & P)].
  - split; [auto|]. intros N. destruct (N (iterate_not_nested _ E)).
  - split.
    + intros N. exfalso. destruct (is_open_last _ O) as (p & a & t' & la' & d' & mid & -> & M).
      rewrite <- app_assoc in E. destruct (N _ _ _ _ _ _ _ _ _ _ _ E) as (k & J). now apply M in J.
    + intros _. exists pre, id, t, la, d, post. repeat split; auto. now apply iterate_not_nested.
Qed.

(** ** legalize *)
Section Legalize.
  Context {A : Type} (view : A -> lview) (set_loc : A -> option loc -> A) (v : pyver).
  Hypothesis set_view : forall x lo lo', view x = VInstr lo -> view (set_loc x lo') = VInstr lo'.

  (** locations that do not refuse a line *)
  Definition refuses (lo : option loc) : bool :=
    match lo with
    | Some l => match l_end_lineno l, l_col l, l_end_col l with None, None, None => false | _, _, _ => true end
    | None => false
    end.

  Lemma refuses_detailed lo : refuses lo = true <-> detailed lo.
  Proof.
    unfold detailed. destruct lo as [l|]; cbn.
    - split.
      + intros R. exists l. split; [reflexivity|].
        destruct (l_end_lineno l); [left; discriminate|].
        destruct (l_col l); [right; left; discriminate|].
        destruct (l_end_col l); [right; right; discriminate|discriminate].
      + intros (l' & E & D). injection E as <-.
        destruct (l_end_lineno l); [reflexivity|]. destruct (l_col l); [reflexivity|].
        destruct (l_end_col l); [reflexivity|]. intuition congruence.
    - split; [discriminate|]. intros (? & ? & _). discriminate.
  Qed.

  Lemma set_lineno_ok lo z : refuses lo = false -> min_lineno v <= z ->
    set_lineno v lo (LLine z) = (Some (line_loc (Some z)), Ok tt).
  Proof.
    intros R Z. unfold set_lineno. unfold refuses in R.
    destruct lo as [l|]; [rewrite R|].
    all: unfold new_location, check_location;
      destruct (z <? min_lineno v) eqn:L; [apply Z.ltb_lt in L; clear - Z L; lia|reflexivity].
  Qed.
  Lemma set_lineno_refused lo z : refuses lo = true ->
    set_lineno v lo (LLine z) = (lo, Err RuntimeError).
  Proof. unfold set_lineno, refuses. destruct lo; [|discriminate]. now intros ->. Qed.

  Definition st_set (s : option Z) (l : list A) : option Z :=
    fold_left (fun s x => match view x with VSetLine z => Some z | _ => s end) l s.
  Definition st_cur (c : Z) (l : list A) : Z :=
    fold_left (fun c x => match view x with VInstr (Some lo) => match l_lineno lo with Some z => z | None => c end | _ => c end) l c.

  Definition rel (s : option Z) (c : Z) (x x' : A) : Prop :=
    match view x with
    | VInstr lo => x' = set_loc x (match s with Some z => Some (line_loc (Some z))
                                   | None => match lo with Some _ => lo | None => Some (line_loc (Some c)) end end)
    | _ => x' = x
    end.
  Hypothesis set_id : forall x lo, view x = VInstr lo -> set_loc x lo = x.

  (** no refusal: an instruction with a detailed location under a SetLineno *)
  Fixpoint accepted (s : option Z) (l : list A) : bool :=
    match l with
    | [] => true
    | x :: r => match view x with
                | VSetLine z => accepted (Some z) r
                | VInstr lo => negb (match s with Some _ => refuses lo | None => false end) && accepted s r
                | VOther => accepted s r
                end
    end.

  Lemma loop_ok l : forall s c, accepted s l = true -> lines_ok view v l ->
    (forall z, s = Some z -> min_lineno v <= z) -> (s = None -> min_lineno v <= c) ->
    exists l', legalize_loop view set_loc v s c l = (l', Ok tt) /\ length l' = length l
      /\ forall k x, nth_error l k = Some x -> exists x', nth_error l' k = Some x'
           /\ rel (st_set s (firstn k l)) (st_cur c (firstn k l)) x x'.
  Proof.
    induction l as [|x l IH]; intros s c AC LO HS HC.
    { exists []. repeat split. intros [|k] x; discriminate. }
    assert (LO' : lines_ok view v l) by (intros y J; apply LO; now right).
    assert (LX := LO x (or_introl eq_refl)).
    cbn [legalize_loop accepted] in *. destruct (view x) as [z|lo|] eqn:V.
    - destruct (IH (Some z) c AC LO') as (l' & E & L & N).
      { intros z' Q. injection Q as <-. exact LX. } { discriminate. }
      rewrite E. exists (x :: l'). repeat split; [cbn; now rewrite L|].
      intros [|k] y; cbn.
      + intros Q. injection Q as <-. exists x. split; [reflexivity|]. unfold rel. now rewrite V.
      + rewrite V. apply N.
    - apply andb_true_iff in AC. destruct AC as [A1 AC]. apply negb_true_iff in A1.
      assert (G : forall s' c' x', (s' = s /\ (s <> None \/ c' = st_cur c [x])) ->
          min_lineno v <= c' \/ s <> None ->
          rel s c x x' ->
          exists l', (let '(r', o) := legalize_loop view set_loc v s' c' l in (x' :: r', o)) = (l', Ok tt)
            /\ length l' = S (length l)
            /\ forall k y, nth_error (x :: l) k = Some y -> exists y', nth_error l' k = Some y'
                 /\ rel (st_set s (firstn k (x :: l))) (st_cur c (firstn k (x :: l))) y y').
      { intros s' c' x' (-> & D) M R. destruct (IH s c' AC LO') as (l' & E & L & N).
        { exact HS. } { intros ->. destruct M; congruence. }
        rewrite E. exists (x' :: l'). repeat split; [cbn; now rewrite L|].
        intros [|k] y; cbn.
        - intros Q. injection Q as <-. eauto.
        - intros Q. destruct (N k y Q) as (y' & Y & RY). exists y'. split; [exact Y|].
          destruct D as [D| ->]; [|unfold st_set, st_cur in *; cbn in RY |- *; rewrite V in *; exact RY].
          (* under a SetLineno the current line is not used *)
          assert (SN : st_set s (firstn k l) <> None).
          { clear - D. unfold st_set. revert s D. induction (firstn k l) as [|w r IH]; intros s D; [exact D|].
            cbn. apply IH. destruct (view w); congruence. }
          unfold rel in *. destruct (view y); try exact RY.
          assert (SE : st_set s (x :: firstn k l) = st_set s (firstn k l)) by (unfold st_set; cbn; now rewrite V).
          rewrite ?SE. unfold st_set in *. cbn. rewrite ?V.
          destruct (fold_left _ (firstn k l) s); [exact RY|congruence]. }
      destruct s as [z|].
      + rewrite set_lineno_ok; [|exact A1|now apply HS].
        apply (G (Some z) c).
        { split; [reflexivity|left; discriminate]. } { right; discriminate. }
        unfold rel. now rewrite V.
      + destruct lo as [lo|]; cbn [loc_lineno].
        * destruct (l_lineno lo) as [z|] eqn:Z; cbn [linev_of].
          -- apply (G None z); [split; [reflexivity|right; cbn; now rewrite V, Z]|left; now apply LX|].
             unfold rel. rewrite V. symmetry. now apply set_id.
          -- apply (G None c); [split; [reflexivity|right; cbn; now rewrite V, Z]|left; now apply HC|].
             unfold rel. rewrite V. symmetry. now apply set_id.
        * rewrite set_lineno_ok; [|reflexivity|now apply HC].
          apply (G None c); [split; [reflexivity|right; cbn; now rewrite V]|left; now apply HC|].
          unfold rel. now rewrite V.
    - destruct (IH s c AC LO' HS HC) as (l' & E & L & N).
      rewrite E. exists (x :: l'). repeat split; [cbn; now rewrite L|].
      intros [|k] y; cbn.
      + intros Q. injection Q as <-. exists x. split; [reflexivity|]. unfold rel. now rewrite V.
      + rewrite V. apply N.
  Qed.

  Lemma loop_refused l : forall s c, accepted s l = false -> lines_ok view v l ->
    (forall z, s = Some z -> min_lineno v <= z) -> (s = None -> min_lineno v <= c) ->
    exists l', legalize_loop view set_loc v s c l = (l', Err RuntimeError).
  Proof.
    induction l as [|x l IH]; intros s c AC LO HS HC; [discriminate|].
    assert (LO' : lines_ok view v l) by (intros y J; apply LO; now right).
    assert (LX := LO x (or_introl eq_refl)).
    cbn [legalize_loop accepted] in *. destruct (view x) as [z|lo|] eqn:V.
    - destruct (IH (Some z) c AC LO') as (l' & E); [intros z' Q; now injection Q as <-|discriminate|].
      rewrite E. eauto.
    - destruct s as [z|].
      + destruct (refuses lo) eqn:R.
        * rewrite set_lineno_refused by assumption. eauto.
        * rewrite set_lineno_ok; [|assumption|now apply HS]. cbn in AC.
          destruct (IH (Some z) c AC LO' HS HC) as (l' & E). rewrite E. eauto.
      + cbn in AC. destruct lo as [lo|]; cbn [loc_lineno].
        * destruct (l_lineno lo) as [z|] eqn:Z; cbn [linev_of].
          -- destruct (IH None z AC LO') as (l' & E); [discriminate|intros; now apply LX|]. rewrite E. eauto.
          -- destruct (IH None c AC LO') as (l' & E); [discriminate|assumption|]. rewrite E. eauto.
        * rewrite set_lineno_ok; [|reflexivity|now apply HC].
          destruct (IH None c AC LO') as (l' & E); [discriminate|assumption|]. rewrite E. eauto.
    - destruct (IH s c AC LO' HS HC) as (l' & E). rewrite E. eauto.
  Qed.

  Lemma st_set_some l : forall s z, st_set s l = Some z ->
    last_set view l z \/ (s = Some z /\ no_set view l).
  Proof.
    induction l as [|x l IH] using rev_ind; intros s z E; [right; split; [exact E|now intros ? ? []]|].
    unfold st_set in E. rewrite fold_left_app in E. cbn in E. fold (st_set s l) in E.
    destruct (view x) eqn:V.
    - injection E as <-. left. exists l, x, []. repeat split; [exact V|now intros ? ? []].
    - destruct (IH _ _ E) as [(p & y & q & -> & VY & N)|[-> N]].
      + left. exists p, y, (q ++ [x]). rewrite <- app_assoc. repeat split; [exact VY|].
        intros w u J. apply in_app_iff in J. destruct J as [J|[<-|[]]]; [now apply N|congruence].
      + right. split; [reflexivity|]. intros w u J. apply in_app_iff in J. destruct J as [J|[<-|[]]]; [now apply N|congruence].
    - destruct (IH _ _ E) as [(p & y & q & -> & VY & N)|[-> N]].
      + left. exists p, y, (q ++ [x]). rewrite <- app_assoc. repeat split; [exact VY|].
        intros w u J. apply in_app_iff in J. destruct J as [J|[<-|[]]]; [now apply N|congruence].
      + right. split; [reflexivity|]. intros w u J. apply in_app_iff in J. destruct J as [J|[<-|[]]]; [now apply N|congruence].
  Qed.
  Lemma st_set_none l : forall s, st_set s l = None -> s = None /\ no_set view l.
  Proof.
    induction l as [|x l IH] using rev_ind; intros s E; [split; [exact E|now intros ? ? []]|].
    unfold st_set in E. rewrite fold_left_app in E. cbn in E. fold (st_set s l) in E.
    destruct (view x) eqn:V; [discriminate|destruct (IH _ E) as [-> N]..];
      (split; [reflexivity|]; intros w u J; apply in_app_iff in J; destruct J as [J|[<-|[]]]; [now apply N|congruence]).
  Qed.

  Lemma st_cur_spec first l : inherited view first l (st_cur first l).
  Proof.
    induction l as [|x l IH] using rev_ind.
    { right. split; [reflexivity|now intros ? ? []]. }
    unfold st_cur. rewrite fold_left_app. cbn. fold (st_cur first l).
    assert (K : (forall w, ~ has_line view x w) -> inherited view first (l ++ [x]) (st_cur first l)).
    { intros NX. destruct IH as [(p & y & q & -> & H & N)|[-> N]].
      - left. exists p, y, (q ++ [x]). rewrite <- app_assoc. repeat split; [exact H|].
        intros w u J. apply in_app_iff in J. destruct J as [J|[<-|[]]]; [now apply N|apply NX].
      - right. split; [reflexivity|]. intros w u J. apply in_app_iff in J. destruct J as [J|[<-|[]]]; [now apply N|apply NX]. }
    destruct (view x) as [| [lo|] |] eqn:V; try (apply K; intros w (lo' & E & _); congruence).
    destruct (l_lineno lo) as [z|] eqn:Z.
    - left. exists l, x, []. repeat split; [now exists lo|now intros ? ? []].
    - apply K. intros w (lo' & E & Q). congruence.
  Qed.

  Lemma nth_filter {B} (f : B -> bool) l k x : nth_error l k = Some x -> f x = true ->
    nth_error (filter f l) (length (filter f (firstn k l))) = Some x.
  Proof.
    revert k. induction l as [|y l IH]; intros [|k] E F; try discriminate; cbn in E.
    - injection E as ->. cbn. rewrite F. reflexivity.
    - cbn. specialize (IH k E F). now destruct (f y).
  Qed.

  Lemma filter_len_rel {B C} (f : B -> bool) (g : C -> bool) : forall l l',
    length l' = length l -> (forall k x y, nth_error l k = Some x -> nth_error l' k = Some y -> f x = g y) ->
    length (filter f l) = length (filter g l').
  Proof.
    induction l as [|x l IH]; intros [|y l'] L H; try discriminate; [reflexivity|].
    cbn. rewrite (H 0%nat x y eq_refl eq_refl).
    assert (E : length (filter f l) = length (filter g l')).
    { apply IH; [now injection L|]. intros k a b. apply (H (S k)). }
    destruct (g y); cbn; now rewrite E.
  Qed.

  Lemma accepted_spec l : forall s, accepted s l = false ->
    (exists z, s = Some z /\ exists pre y post lo, l = pre ++ y :: post /\ view y = VInstr lo /\ detailed lo)
    \/ (exists pre x mid y post lo z, l = pre ++ x :: mid ++ y :: post /\ view x = VSetLine z /\ view y = VInstr lo /\ detailed lo).
  Proof.
    induction l as [|x l IH]; intros s AC; [discriminate|]. cbn in AC.
    assert (K : forall s', accepted s' l = false ->
      s' = s ->
      (exists z, s = Some z /\ exists pre y post lo, x :: l = pre ++ y :: post /\ view y = VInstr lo /\ detailed lo)
      \/ (exists pre x0 mid y post lo z, x :: l = pre ++ x0 :: mid ++ y :: post /\ view x0 = VSetLine z /\ view y = VInstr lo /\ detailed lo)).
    { intros s' H ->. destruct (IH _ H) as [(z & -> & pre & y & post & lo & -> & Vy & D)|(pre & w & mid & y & post & lo & z & -> & Vx & Vy & D)].
      - left. exists z. split; [reflexivity|]. now exists (x :: pre), y, post, lo.
      - right. now exists (x :: pre), w, mid, y, post, lo, z. }
    destruct (view x) as [z|lo|] eqn:V; [|apply andb_false_iff in AC; destruct AC as [AC|AC]|now apply (K s)].
    - destruct (IH _ AC) as [(z' & Q & pre & y & post & lo & -> & Vy & D)|(pre & w & mid & y & post & lo & z' & -> & Vx & Vy & D)].
      + right. now exists [], x, pre, y, post, lo, z.
      + right. now exists (x :: pre), w, mid, y, post, lo, z'.
    - apply negb_false_iff in AC. destruct s as [z|]; [|discriminate]. left. exists z. split; [reflexivity|].
      exists [], x, l, lo. repeat split; [exact V|]. now apply refuses_detailed.
    - now apply (K s).
  Qed.

  Lemma accepted_false_of l : forall s,
    ((exists z, s = Some z /\ exists pre y post lo, l = pre ++ y :: post /\ view y = VInstr lo /\ detailed lo)
    \/ (exists pre x mid y post lo z, l = pre ++ x :: mid ++ y :: post /\ view x = VSetLine z /\ view y = VInstr lo /\ detailed lo))
    -> accepted s l = false.
  Proof.
    induction l as [|x l IH]; intros s D.
    { destruct D as [(z & _ & pre & y & post & lo & E & _)|(pre & w & mid & y & post & lo & z & E & _)]; destruct pre; discriminate. }
    cbn. destruct D as [(z & -> & pre & y & post & lo & E & Vy & D)|(pre & w & mid & y & post & lo & z & E & Vx & Vy & D)].
    - destruct pre as [|p pre]; injection E as <- ->.
      + rewrite Vy. apply refuses_detailed in D. now rewrite D.
      + destruct (view x); try rewrite andb_false_iff; [|right|]; apply IH; left; eexists; (split; [reflexivity|]); now exists pre, y, post, lo.
    - destruct pre as [|p pre]; injection E as <- ->.
      + rewrite Vx. apply IH. left. exists z. split; [reflexivity|]. now exists mid, y, post, lo.
      + destruct (view x); try rewrite andb_false_iff; [|right|]; apply IH; right; now exists pre, w, mid, y, post, lo, z.
  Qed.

  Lemma accepted_iff l : accepted None l = true <-> no_detail_after_set view l.
  Proof.
    split.
    - intros AC pre x mid y post lo z E Vx Vy D.
      assert (accepted None l = false); [|congruence]. apply accepted_false_of. right.
      now exists pre, x, mid, y, post, lo, z.
    - intros N. apply not_false_iff_true. intros AC.
      destruct (accepted_spec _ _ AC) as [(z & Q & _)|(pre & x & mid & y & post & lo & z & E & Vx & Vy & D)]; [discriminate|].
      eapply N; eassumption.
  Qed.

  Lemma legalize_ok first l : no_detail_after_set view l -> lines_ok view v l -> min_lineno v <= first ->
    exists l', legalize view set_loc v first l [] None = (l', Ok tt)
      /\ legalized view set_loc first l l' /\ no_set view l'.
  Proof.
    intros D LO F. apply accepted_iff in D.
    destruct (loop_ok l None first D LO) as (l1 & E & L & N); [discriminate|auto|].
    unfold legalize. rewrite E.
    assert (FE : filter (fun x => match view x with VSetLine _ => false | _ => true end) l1 = nonset view l1).
    { unfold nonset, is_set. apply filter_ext. intros x. now destruct (view x). }
    rewrite FE.
    assert (SAME : forall k x y, nth_error l k = Some x -> nth_error l1 k = Some y ->
        negb (is_set view x) = negb (is_set view y)).
    { intros k x y Q1 Q2. destruct (N k x Q1) as (y' & Q3 & R). rewrite Q2 in Q3. injection Q3 as <-.
      unfold rel in R. unfold is_set. destruct (view x) eqn:V; try (subst; now rewrite V).
      subst. now rewrite (set_view _ _ _ V). }
    eexists. split; [reflexivity|]. split.
    - split.
      + unfold nonset. symmetry. now apply filter_len_rel.
      + intros k x Q S. destruct (N k x Q) as (x' & Q' & R).
        exists x'. split.
        * replace (length (nonset view (firstn k l))) with (length (nonset view (firstn k l1))).
          { apply nth_filter; [exact Q'|]. rewrite <- (SAME k x x' Q Q'), S. reflexivity. }
          symmetry. unfold nonset. apply filter_len_rel; [rewrite !firstn_length; lia|].
          intros j a b HA HB. destruct (Nat.lt_ge_cases j k) as [J|J].
          { apply (SAME j).
            - rewrite <- HA. symmetry. clear - J. revert j J. revert k. induction l; intros [|k] [|j] J; try lia; cbn; try reflexivity; try (now destruct j); apply IHl; lia.
            - rewrite <- HB. symmetry. clear - J. revert j J. revert k. induction l1; intros [|k] [|j] J; try lia; cbn; try reflexivity; try (now destruct j); apply IHl1; lia. }
          { assert (length (firstn k l) <= k)%nat by apply firstn_le_length.
            assert (nth_error (firstn k l) j = None) by (apply nth_error_None; lia). congruence. }
        * unfold rel in R. unfold is_set in S. destruct (view x) as [|lo|] eqn:V; [discriminate| |exact R].
          eexists. split; [exact R|]. unfold new_loc.
          destruct (st_set None (firstn k l)) as [z|] eqn:SS.
          { destruct (st_set_some _ _ _ SS) as [H|[? _]]; [|discriminate]. left. eauto. }
          destruct (st_set_none _ _ SS) as [_ NS]. right. destruct lo.
          { left. repeat split; [exact NS|discriminate]. }
          { right. repeat split; [exact NS|]. eexists. split; [apply st_cur_spec|reflexivity]. }
    - intros x z J V. unfold nonset in J. apply filter_In in J. destruct J as [_ J]. unfold is_set in J. now rewrite V in J.
  Qed.

  Lemma legalize_refused first l rest stop : ~ no_detail_after_set view l -> lines_ok view v l -> min_lineno v <= first ->
    exists l', legalize view set_loc v first l rest stop = (l', Err RuntimeError).
  Proof.
    intros D LO F. rewrite <- accepted_iff in D. apply not_true_is_false in D.
    destruct (loop_refused l None first D LO) as (l1 & E); [discriminate|auto|].
    unfold legalize. rewrite E. eauto.
  Qed.
End Legalize.
