(** A decision procedure for [regular] given the (finite) list of the configurations; used
    only to show that concrete graphs meet the hypotheses of the stack size theorems. *)
From Verif Require Import PyBase OpTable M_Instr M_Concrete M_Bytecode M_Cfg S_Cfg S_Stack.
Open Scope list_scope.
Open Scope Z_scope.

Definition open_eq_dec (a b : open_try) : {a = b} + {a <> b}.
Proof. repeat decide equality. Defined.
Definition conf_eq_dec (a b : conf) : {a = b} + {a <> b}.
Proof. repeat decide equality. Defined.
Definition cmem (c : conf) (l : list conf) : bool := if in_dec conf_eq_dec c l then true else false.
Lemma cmem_in c l : cmem c l = true -> In c l.
Proof. unfold cmem. destruct (in_dec conf_eq_dec c l); [auto|discriminate]. Qed.

(** everything reached from [l] in [n] rounds, without repetition; only what is new is
    followed *)
Fixpoint grow_ {A} (dec : forall a b : A, {a = b} + {a <> b}) (f : A -> list A) (n : nat) (l new : list A) : list A :=
  match n with
  | O => l
  | S n => let more := fold_left (fun m c => if in_dec dec c l then m else if in_dec dec c m then m else c :: m) (flat_map f new) [] in
           match more with [] => l | _ => grow_ dec f n (l ++ more) more end
  end.
Definition grown {A} (dec : forall a b : A, {a = b} + {a <> b}) (f : A -> list A) (n : nat) (l : list A) : list A := grow_ dec f n l l.
Lemma grown_in {A} dec (f : A -> list A) (P : A -> Prop) : (forall x y, P x -> In y (f x) -> P y) ->
  forall n l, (forall x, In x l -> P x) -> forall x, In x (grown dec f n l) -> P x.
Proof.
  intros S n l PL. unfold grown.
  assert (G : forall n l new, (forall x, In x l -> P x) -> (forall x, In x new -> P x) -> forall x, In x (grow_ dec f n l new) -> P x); [|apply G; auto].
  clear n l PL. induction n as [|n IH]; intros l new PL PN; cbn [grow_]; auto.
  set (more := fold_left _ (flat_map f new) []).
  assert (PM : forall x, In x more -> P x).
  { assert (F : forall x, In x (flat_map f new) -> P x).
    { intros x X. apply in_flat_map in X. destruct X as (y & Y & X). eauto. }
    assert (G0 : forall x, In x (@nil A) -> P x) by (intros x []).
    unfold more. revert F G0. generalize (flat_map f new) (@nil A). intros xs. induction xs as [|y xs IHx]; cbn [fold_left]; auto.
    intros m F G0. apply IHx; [intros x X; apply F; right; exact X|].
    intros x. destruct (in_dec dec y l); auto. destruct (in_dec dec y m); auto. intros [<-|X]; auto. apply F. left. reflexivity. }
  destruct more as [|y ys] eqn:M; auto. apply IH; auto. intros x X. apply in_app_iff in X. destruct X; auto.
Qed.
Definition way_eq_dec (a b : list nat * conf) : {a = b} + {a <> b}.
Proof. repeat decide equality. Defined.

Section Check.
  Variables (T : optable) (effect : instr -> bool -> option (Z * Z)) (g : cfg) (first : Z) (H : nat -> Z).

  Definition succs (c : conf) : list conf :=
    let '(b, i, d, o) := c in
    match elem g b i with
    | None => match k_next (blk g b) with Some m => [(m, O, d, o)] | None => [] end
    | Some (BSet _) => [(b, S i, d, o)]
    | Some (BLabel _) => []
    | Some (BTB id (OBlock h) la _) => [(b, S i, d, Some (id, h, la))]
    | Some (BTB _ _ _ _) => []
    | Some (BTE id) => [(b, S i, d, close id o)]
    | Some (BI x) =>
        (if is_final x then [] else match effect x false with Some (p, q) => [(b, S i, d + p + q, o)] | None => [] end)
        ++ (if has_jump T x then
              match i_arg x, effect x true with
              | OBlock n, Some (p, q) =>
                  [(n, O, d + p + q, if is_final x && negb (Nat.eqb (length (after g b i)) 0) then None else o)]
              | _, _ => [] end
            else [])
    end.
  Definition raises (c : conf) : list conf :=
    match snd c with Some (id, h, la) => [(h, O, H h + pushed la, None)] | None => [] end.

  Lemma succs_step c c' : In c' (succs c) <-> step T effect g c c'.
  Proof.
    split.
    - destruct c as [[[b i] d] o]. unfold succs. destruct (elem g b i) as [it|] eqn:E.
      2:{ destruct (k_next (blk g b)) as [m|] eqn:N; intros X; [destruct X as [<-|[]]|destruct X]. now apply st_next. }
      destruct it as [x|z|n|id t la sd|id].
      + intros X. apply in_app_iff in X. destruct X as [X|X].
        * destruct (is_final x) eqn:F; [destruct X|]. destruct (effect x false) as [[p q]|] eqn:Q; [|destruct X].
          destruct X as [<-|[]]. eapply st_instr; eauto.
        * destruct (has_jump T x) eqn:J; [|destruct X]. destruct (i_arg x) eqn:A; try (destruct X; fail).
          destruct (effect x true) as [[p q]|] eqn:Q; [|destruct X]. destruct X as [<-|[]]. eapply st_jump; eauto.
      + intros [].
      + intros [<-|[]]. eapply st_line; eauto.
      + destruct t; try (intros []; fail). intros [<-|[]]. eapply st_begin; eauto.
      + intros [<-|[]]. eapply st_end; eauto.
    - intros X. destruct X; unfold succs; match goal with E : elem _ _ _ = _ |- _ => rewrite E end.
      + left; reflexivity.
      + left; reflexivity.
      + left; reflexivity.
      + apply in_app_iff. left. match goal with E : is_final _ = _, F : effect _ _ = _ |- _ => rewrite E, F end. left; reflexivity.
      + apply in_app_iff. right.
        match goal with E : has_jump _ _ = _, F : effect _ _ = _, A : i_arg _ = _ |- _ => rewrite E, F, A end. left; reflexivity.
      + match goal with E : k_next _ = _ |- _ => rewrite E end. left; reflexivity.
  Qed.

  (** places where a handler is in charge whatever try block is open *)
  Variable cvs : list (nat * nat * nat * bool).
  Definition cov : nat -> nat -> nat -> bool -> Prop := fun b i h la => In (b, i, h, la) cvs.
  Definition covers (c : conf) : list (nat * bool) :=
    let '(b, i, d, o) := c in
    match o with Some (_, h, la) => [(h, la)] | None => [] end
    ++ flat_map (fun q => let '(b', i', h, la) := q in if Nat.eqb b b' && Nat.eqb i i' then [(h, la)] else []) cvs.
  Lemma covers_may c h la : may_raise cov c h la <-> In (h, la) (covers c).
  Proof.
    destruct c as [[[b i] d] o]. unfold may_raise, covers, cov. rewrite in_app_iff, in_flat_map. split; intros [X|X].
    - left. destruct X as [id ->]. left. reflexivity.
    - right. exists (b, i, h, la). split; [exact X|]. rewrite !Nat.eqb_refl. left. reflexivity.
    - left. destruct o as [[[id h'] la']|]; [|destruct X]. destruct X as [X|[]]. injection X as <- <-. exists id. reflexivity.
    - right. destruct X as ([[[b' i'] h'] la'] & X1 & X2). destruct (Nat.eqb_spec b b') as [<-|]; [|destruct X2].
      destruct (Nat.eqb_spec i i') as [<-|]; [|destruct X2]. destruct X2 as [X2|[]]. injection X2 as <- <-. exact X1.
  Qed.
  Definition covraises (c : conf) : list conf := map (fun q => (fst q, O, H (fst q) + pushed (snd q), None)) (covers c).

  (** all configurations *)
  Variable L : list conf.
  Definition entryb (l : list conf) : bool := match g_order g with n :: _ => cmem (n, O, first, None) l | [] => true end.
  Definition closed : bool :=
    forallb (fun c => forallb (fun c' => cmem c' L) (succs c ++ covraises c)) L && entryb L.

  Lemma at_list c : closed = true -> at_ T effect g first H cov c -> In c L.
  Proof.
    unfold closed, entryb. intros CL A. apply andb_true_iff in CL. destruct CL as [C1 C2]. rewrite forallb_forall in C1.
    induction A as [n l E|c c' A IH ST|c h la A IH MR].
    - rewrite E in C2. now apply cmem_in.
    - specialize (C1 _ IH). rewrite forallb_forall in C1. apply cmem_in, C1. apply in_app_iff. left. now apply succs_step.
    - specialize (C1 _ IH). rewrite forallb_forall in C1. apply cmem_in, C1. apply in_app_iff. right.
      unfold covraises. apply in_map_iff. exists (h, la). split; [reflexivity|]. now apply covers_may.
  Qed.

  (** all ways *)
  Definition wsuccs (w : list nat * conf) : list (list nat * conf) :=
    flat_map (fun c' => if Nat.eqb (index_of c') 0 then if nat_mem (block_of c') (fst w) then [] else [(block_of c' :: fst w, c')]
                        else [(fst w, c')]) (succs (snd w))
    ++ flat_map (fun c' => if nat_mem (block_of c') (fst w) then [] else [(block_of c' :: fst w, c')]) (raises (snd w)).
  Variable W : list (list nat * conf).
  Definition wmem (w : list nat * conf) : bool := if in_dec way_eq_dec w W then true else false.
  Definition wclosed : bool :=
    forallb (fun w => forallb wmem (wsuccs w)) W
    && match g_order g with n :: _ => wmem ([n], (n, O, first, None)) | [] => true end.
  Lemma wmem_in w : wmem w = true -> In w W.
  Proof. unfold wmem. destruct (in_dec way_eq_dec w W); [auto|discriminate]. Qed.
  Lemma nat_mem_false x l : nat_mem x l = false <-> ~ In x l.
  Proof.
    unfold nat_mem. split.
    - intros E I'. assert (X : existsb (Nat.eqb x) l = true) by (apply existsb_exists; exists x; split; [exact I'|apply Nat.eqb_refl]). congruence.
    - intros N. apply not_true_iff_false. intros X. apply existsb_exists in X. destruct X as (y & Y & E). apply Nat.eqb_eq in E. subst. auto.
  Qed.
  Lemma way_list l c : wclosed = true -> way T effect g first H l c -> In (l, c) W.
  Proof.
    unfold wclosed. intros CL A. apply andb_true_iff in CL. destruct CL as [C1 C2]. rewrite forallb_forall in C1.
    assert (C3 : forall w w', In w W -> In w' (wsuccs w) -> In w' W).
    { intros w w' I' X. specialize (C1 _ I'). rewrite forallb_forall in C1. apply wmem_in, C1, X. }
    induction A as [n l E|l c c' A IH ST N|l c c' A IH ST N NI|l b i d id h la A IH NI].
    - rewrite E in C2. now apply wmem_in.
    - apply (C3 _ _ IH). unfold wsuccs. apply in_app_iff. left. apply in_flat_map. exists c'. split; [now apply succs_step|].
      destruct (Nat.eqb_spec (index_of c') 0); [congruence|left; reflexivity].
    - apply (C3 _ _ IH). unfold wsuccs. apply in_app_iff. left. apply in_flat_map. exists c'. split; [now apply succs_step|].
      rewrite N. cbn [Nat.eqb fst]. rewrite (proj2 (nat_mem_false _ _) NI). left. reflexivity.
    - apply (C3 _ _ IH). unfold wsuccs. apply in_app_iff. right. apply in_flat_map. eexists. split; [left; reflexivity|].
      cbn [fst block_of]. unfold block_of. cbn [fst]. rewrite (proj2 (nat_mem_false _ _) NI). left. reflexivity.
  Qed.

  (** ways that avoid a place *)
  Definition placeb (b i : nat) (c : conf) : bool := Nat.eqb (block_of c) b && Nat.eqb (index_of c) i.
  Lemma placeb_false b i c : (block_of c, index_of c) <> (b, i) -> placeb b i c = false.
  Proof.
    intros N. unfold placeb. apply not_true_iff_false. intros X. apply andb_true_iff in X. destruct X as [X Y].
    apply Nat.eqb_eq in X, Y. congruence.
  Qed.
  Definition asuccs (b i : nat) (c : conf) : list conf := filter (fun c' => negb (placeb b i c')) (succs c ++ raises c).
  Definition aclosed (b i : nat) (A : list conf) : bool :=
    forallb (fun c => forallb (fun c' => cmem c' A) (asuccs b i c)) A
    && match g_order g with n :: _ => placeb b i (n, O, first, None) || cmem (n, O, first, None) A | [] => true end.
  Lemma avoid_list b i A c : aclosed b i A = true -> avoiding T effect g first H b i c -> In c A.
  Proof.
    unfold aclosed. intros CL AV. apply andb_true_iff in CL. destruct CL as [C1 C2]. rewrite forallb_forall in C1.
    assert (C3 : forall c c', In c A -> In c' (succs c ++ raises c) -> placeb b i c' = false -> In c' A).
    { intros x x' I' X P. specialize (C1 _ I'). rewrite forallb_forall in C1. apply cmem_in, C1. unfold asuccs. apply filter_In.
      split; [exact X|]. rewrite P. reflexivity. }
    induction AV as [n l E NP|c c' AV IH ST NP|b1 i1 d id h la AV IH NP].
    - rewrite E in C2. rewrite placeb_false in C2 by exact NP. now apply cmem_in.
    - apply (C3 _ _ IH); [apply in_app_iff; left; now apply succs_step|now apply placeb_false].
    - apply (C3 _ _ IH); [apply in_app_iff; right; left; reflexivity|now apply placeb_false].
  Qed.
  Definition onlyb (A : list conf) (n : nat) : bool := negb (existsb (placeb n 0) A).
  Lemma onlyb_through b i A n : aclosed b i A = true -> onlyb A n = true -> only_through T effect g first H b i n.
  Proof.
    unfold onlyb. intros CL O d o AV. apply negb_true_iff in O. apply avoid_list with (A := A) in AV; auto.
    assert (X : existsb (placeb n 0) A = true); [|congruence]. apply existsb_exists. eexists. split; [exact AV|].
    unfold placeb, block_of, index_of. cbn [fst snd]. rewrite !Nat.eqb_refl. reflexivity.
  Qed.

  Definition endsb (b i id : nat) : bool :=
    match elem g b i with
    | Some (BTE id') => Nat.eqb id id'
    | Some (BI x) => is_final x && match hd_error (after g b i) with Some id' => Nat.eqb id id' | None => false end
    | _ => false
    end.
  Lemma endsb_ends b i id : endsb b i id = true -> ends g b i id.
  Proof.
    unfold endsb, ends. destruct (elem g b i) as [it|]; [|discriminate].
    destruct it; try discriminate.
    - intros X. apply andb_true_iff in X. destruct X as [F X]. right. eexists. split; [reflexivity|]. split; [exact F|].
      destruct (hd_error (after g b i)); [|discriminate]. apply Nat.eqb_eq in X. now subst.
    - intros X. apply Nat.eqb_eq in X. subst. auto.
  Qed.

  (** [n]: number of rounds *)
  Variable n : nat.
  Definition openb (o o' : open_try) : bool := if open_eq_dec o o' then true else false.
  Lemma openb_eq o o' : openb o o' = true -> o = o'.
  Proof. unfold openb. destruct (open_eq_dec o o'); [auto|discriminate]. Qed.
  Definition lines (c : conf) : list conf :=
    grown conf_eq_dec (fun c => filter (fun c' => negb (Nat.eqb (index_of c') 0)) (succs c)) n [c].
  Definition withins (A : list conf) (tb : nat * nat * bool) (c : conf) : list conf :=
    grown conf_eq_dec (fun c => filter (fun c' => openb (snd c') (Some tb) && (negb (Nat.eqb (index_of c') 0) || onlyb A (block_of c'))) (succs c)) n [c].
  Definition avoids (b i : nat) : list conf :=
    grown conf_eq_dec (asuccs b i) n (match g_order g with m :: _ => [(m, O, first, None)] | [] => [] end).
  Definition showingb (b i : nat) (d : Z) (id h : nat) (la : bool) : bool :=
    existsb (fun c1 => let '(b1, i1, d1, o1) := c1 in
      Nat.eqb b1 b && (d1 =? H h) && openb o1 (Some (id, h, la))
      && let A := avoids b i1 in
         aclosed b i1 A
         && existsb (fun c2 => let '(b2, i2, d2, o2) := c2 in openb o2 (Some (id, h, la)) && endsb b2 i2 id) (withins A (id, h, la) c1))
      (lines (b, S i, d, Some (id, h, la))).
  Lemma showingb_ok b i d id h la : showingb b i d id h la = true -> showing T effect g first H b i d id h la.
  Proof.
    unfold showingb, showing. intros X. apply existsb_exists in X. destruct X as ([[[b1 i1] d1] o1] & LN & X).
    cbv zeta in X. apply andb_true_iff in X. destruct X as [X X4]. apply andb_true_iff in X4. destruct X4 as [X4 X5].
    apply andb_true_iff in X. destruct X as [X X3]. apply andb_true_iff in X. destruct X as [X1 X2].
    apply Nat.eqb_eq in X1. apply Z.eqb_eq in X2. apply openb_eq in X3. subst b1 d1 o1.
    apply existsb_exists in X5. destruct X5 as ([[[b2 i2] d2] o2] & WI & X5). apply andb_true_iff in X5. destruct X5 as [X5 X6].
    apply openb_eq in X5. subst o2.
    exists i1. split.
    - revert LN. unfold lines. apply grown_in.
      + intros x y X Y. apply filter_In in Y. destruct Y as [Y N]. apply negb_true_iff in N. apply Nat.eqb_neq in N.
        eapply ln_step; [exact X|now apply succs_step|exact N].
      + intros x [<-|[]]. constructor.
    - exists b2, i2, d2. split; [|now apply endsb_ends]. revert WI. unfold withins. apply grown_in.
      + intros x y X Y. apply filter_In in Y. destruct Y as [Y N]. apply andb_true_iff in N. destruct N as [N1 N2].
        apply openb_eq in N1. eapply wi_step; [exact X|now apply succs_step|exact N1|].
        intros Z0. rewrite Z0 in N2. cbn [Nat.eqb negb orb] in N2. eapply onlyb_through; eauto.
      + intros x [<-|[]]. constructor.
  Qed.

  Definition sraises (c : conf) : list conf :=
    let '(b, i, d, o) := c in
    match elem g b i with
    | Some (BTB id (OBlock h) la _) => if showingb b i d id h la then [(h, O, H h + pushed la, None)] else []
    | _ => []
    end.
  Definition showns (l : list conf) : list conf := grown conf_eq_dec (fun c => succs c ++ sraises c) n l.
  Definition entries : list conf := match g_order g with m :: _ => [(m, O, first, None)] | [] => [] end.
  Lemma showns_ok c : In c (showns entries) -> shown T effect g first H c.
  Proof.
    unfold showns. apply grown_in.
    - intros x y X Y. apply in_app_iff in Y. destruct Y as [Y|Y]; [eapply sh_step; [exact X|now apply succs_step]|].
      destruct x as [[[b i] d] o]. unfold sraises in Y. destruct (elem g b i) as [[| | |id t la sd|]|] eqn:E; try (destruct Y; fail).
      destruct t; try (destruct Y; fail). destruct (showingb _ _ _ _ _ _) eqn:SB; [|destruct Y]. destruct Y as [<-|[]].
      eapply sh_raise; eauto. now apply showingb_ok.
    - unfold entries. destruct (g_order g) as [|m l] eqn:E; [intros x []|]. intros x [<-|[]]. eapply sh_entry; eauto.
  Qed.
  Variable SL : list conf.
  Definition shownb (h : nat) (la : bool) : bool :=
    existsb (fun c => let '(b, i, d, o) := c in
      match elem g b i with
      | Some (BTB id (OBlock h') la' _) => Nat.eqb h h' && Bool.eqb la la' && showingb b i d id h' la'
      | _ => false
      end) SL.

  (** what is checked of one configuration *)
  Definition check1 (c : conf) : bool :=
    let '(b, i, d, o) := c in
    (* reg_same *)
    match i with
    | O => forallb (fun c' => let '(b', i', d', o') := c' in if Nat.eqb b b' && Nat.eqb i' 0 then d =? d' else true) L
    | _ => true
    end
    && match elem g b i with
       | None => (* reg_next *)
           match k_next (blk g b) with
           | Some m => match k_items (blk g m) with
                       | [] => match k_next (blk g m) with None => true | Some _ => false end
                       | _ => true end
           | None => true end
       | _ => true
       end
    (* reg_cov, reg_shown *)
    && forallb (fun q => let '(b', i', h, la) := q in if Nat.eqb b b' && Nat.eqb i i' then H h <=? d else true) cvs
    && forallb (fun q => shownb (fst q) (snd q)) (covers c).
  (** and of one way *)
  Definition check2 (w : list nat * conf) : bool :=
    let '(b, i, d, o) := snd w in
    (* reg_inside *)
    match o with Some (_, h, _) => H h <=? d | None => true end
    && match elem g b i with
       | Some (BTB _ _ _ _) => match o with None => true | _ => false end
       | Some (BI x) =>
           negb (is_final x) ||
           match hd_error (after g b i) with
           | Some id =>
               match o with Some (id', h, _) => Nat.eqb id id' | None => true end
               && (has_jump T x && is_uncond_jump_name (i_name x)
                   || match o with
                      | Some (id', h, _) => match effect x false with Some (p, q) => H h <=? d + p + q | None => true end
                      | None => false end)
           | None => true end
       | _ => true
       end.

  Lemma check_regular : closed = true -> wclosed = true -> (forall h, 0 <= H h < 32768) ->
    SL = showns entries -> forallb check1 L = true -> forallb check2 W = true ->
    regular T effect g first H cov.
  Proof.
    intros CL WL HH SE CK CK2. rewrite forallb_forall in CK, CK2.
    assert (K : forall c, at_ T effect g first H cov c -> check1 c = true) by (intros c A; apply CK; now apply at_list).
    assert (K2 : forall l c, way T effect g first H l c -> check2 (l, c) = true) by (intros l c A; apply CK2; now apply way_list).
    constructor.
    - intros b d d' o o' A A'. specialize (K _ A). apply at_list in A'; auto. unfold check1 in K.
      apply andb_true_iff in K. destruct K as [K _]. apply andb_true_iff in K. destruct K as [K _]. apply andb_true_iff in K. destruct K as [K _].
      rewrite forallb_forall in K. specialize (K _ A'). cbn in K. rewrite !Nat.eqb_refl in K. cbn [andb] in K. lia.
    - exact HH.
    - intros b i d o h la A C. specialize (K _ A). unfold check1 in K.
      apply andb_true_iff in K. destruct K as [K _]. apply andb_true_iff in K. destruct K as [_ K].
      rewrite forallb_forall in K. specialize (K _ C). cbn in K. rewrite !Nat.eqb_refl in K. cbn [andb] in K. lia.
    - intros l b i d id h la A. specialize (K2 _ _ A). unfold check2 in K2. cbn [snd] in K2. apply andb_true_iff in K2. lia.
    - intros l b i d o x id A E F NJ HD. specialize (K2 _ _ A). unfold check2 in K2. cbn [snd] in K2. apply andb_true_iff in K2.
      destruct K2 as [_ K2]. rewrite E, F, HD in K2. cbn [negb orb] in K2. apply andb_true_iff in K2. destruct K2 as [K2 K3].
      apply orb_true_iff in K3. destruct K3 as [K3|K3].
      + apply andb_true_iff in K3. destruct K3 as [K3 K4]. destruct NJ; congruence.
      + destruct o as [[[id' h] la]|]; [|discriminate]. apply Nat.eqb_eq in K2. subst id'. exists h, la. split; [reflexivity|].
        intros p q EF. rewrite EF in K3. lia.
    - intros l b i d id h la x id' A E F HD. specialize (K2 _ _ A). unfold check2 in K2. cbn [snd] in K2. apply andb_true_iff in K2.
      destruct K2 as [_ K2]. rewrite E, F, HD in K2. cbn [negb orb] in K2. apply andb_true_iff in K2. destruct K2 as [K2 K3].
      now apply Nat.eqb_eq in K2.
    - intros l b i d o id t la sd A E. specialize (K2 _ _ A). unfold check2 in K2. cbn [snd] in K2. apply andb_true_iff in K2.
      destruct K2 as [_ K2]. rewrite E in K2. destruct o; [discriminate|reflexivity].
    - intros c h la A MR. specialize (K _ A). unfold check1 in K. destruct c as [[[b i] d] o].
      apply andb_true_iff in K. destruct K as [_ K]. rewrite forallb_forall in K. apply covers_may in MR. specialize (K _ MR).
      cbn [fst snd] in K. unfold shownb in K. apply existsb_exists in K. destruct K as ([[[b' i'] d'] o'] & IS & K).
      destruct (elem g b' i') as [[| | |id t la' sd|]|] eqn:E; try discriminate. destruct t as [| | | | | | |h'| | | | | |]; try discriminate.
      apply andb_true_iff in K. destruct K as [K K3]. apply andb_true_iff in K. destruct K as [K1 K4]. apply Nat.eqb_eq in K1.
      apply Bool.eqb_prop in K4. subst h' la'. exists b', i', d', o', id, sd. split; [apply showns_ok; rewrite <- SE; exact IS|].
      split; [exact E|]. now apply showingb_ok.
    - intros b i d o m A E N IT. specialize (K _ A). unfold check1 in K. rewrite E, N, IT in K.
      apply andb_true_iff in K. destruct K as [K _]. apply andb_true_iff in K. destruct K as [K _]. apply andb_true_iff in K. destruct K as [_ K].
      destruct (k_next (blk g m)); [discriminate|reflexivity].
  Qed.

  (** all lists found by [n] rounds *)
  Definition all_confs : list conf := grown conf_eq_dec (fun c => succs c ++ covraises c) n entries.
  Definition all_ways : list (list nat * conf) := grown way_eq_dec wsuccs n (map (fun c => ([block_of c], c)) entries).
End Check.

Definition regularb (T : optable) (effect : instr -> bool -> option (Z * Z)) (g : cfg) (first : Z) (H : nat -> Z)
  (cvs : list (nat * nat * nat * bool)) (n : nat) : bool :=
  let L := all_confs T effect g first H cvs n in
  let W := all_ways T effect g first H n in
  let SL := showns T effect g first H n (entries g first) in
  closed T effect g first H cvs L && wclosed T effect g first H W
  && forallb (check1 T effect g first H cvs L n SL) L && forallb (check2 T effect g H) W.
Lemma regularb_ok T effect g first H cvs n : regularb T effect g first H cvs n = true -> (forall h, 0 <= H h < 32768) ->
  regular T effect g first H (cov cvs).
Proof.
  unfold regularb. intros X HH. apply andb_true_iff in X. destruct X as [X X4]. apply andb_true_iff in X. destruct X as [X X3].
  apply andb_true_iff in X. destruct X as [X1 X2]. eapply check_regular; eauto.
Qed.

Definition try_knownb (v : pyver) (g : cfg) : bool :=
  PY311 v || forallb (fun b => forallb (fun it => match it with BTB _ _ _ _ => false | _ => true end) (k_items b)) (g_heap g).
Lemma try_knownb_ok v g : try_knownb v g = true -> try_known v g.
Proof.
  unfold try_knownb, try_known. intros X. apply orb_true_iff in X. destruct X as [X|X]; [left; exact X|right].
  intros b i id t la sd E. unfold elem, blk in E. destruct (nth_error (g_heap g) b) as [bl|] eqn:N; [|destruct i; discriminate].
  rewrite forallb_forall in X. specialize (X _ (nth_error_In _ _ N)). rewrite forallb_forall in X.
  specialize (X _ (nth_error_In _ _ E)). discriminate.
Qed.

(** the same for [complete] and [coherent] *)
Section Check2.
  Variables (T : optable) (effect : instr -> bool -> option (Z * Z)) (g : cfg).
  Definition target_in (o : pyobj) : bool := match o with OBlock m => nat_mem m (g_order g) | _ => true end.
  Definition complete1 (n : nat) : bool :=
    match block_iter T (k_items (blk g n)) with Ok _ => true | Err _ => false end
    && match k_next (blk g n) with Some m => nat_mem m (g_order g) | None => true end
    && forallb (fun it => match it with
         | BI x => target_in (i_arg x)
                   && match effect x true, effect x false with Some _, Some _ => true | _, _ => false end
         | BTB _ t _ _ => target_in t
         | BTE id => existsb (fun n' => existsb (fun it => match it with BTB id' _ _ _ => Nat.eqb id id' | _ => false end)
                                                (k_items (blk g n'))) (g_order g)
         | _ => true end) (k_items (blk g n)).
  Lemma nat_mem_in x l : nat_mem x l = true -> In x l.
  Proof. unfold nat_mem. intros X. apply existsb_exists in X. destruct X as (y & Y & E). apply Nat.eqb_eq in E. now subst. Qed.

  Lemma check_complete : forallb complete1 (g_order g) = true -> complete T effect g.
  Proof.
    intros CK. rewrite forallb_forall in CK.
    assert (IT : forall n it, In n (g_order g) -> In it (k_items (blk g n)) -> _) by
      (intros n it N X; specialize (CK n N); unfold complete1 in CK; apply andb_true_iff in CK; destruct CK as [_ CK];
       rewrite forallb_forall in CK; exact (CK it X)).
    constructor.
    - intros n N. specialize (CK n N). unfold complete1 in CK. destruct (block_iter T (k_items (blk g n))) as [[]|]; [reflexivity|discriminate].
    - intros n m N [[(x & X & A)|(id & la & sd & X)]|F].
      + specialize (IT _ _ N X). cbn in IT. rewrite A in IT. cbn [target_in] in IT. apply andb_true_iff in IT. apply nat_mem_in. tauto.
      + specialize (IT _ _ N X). cbn in IT. now apply nat_mem_in.
      + specialize (CK n N). unfold complete1 in CK. unfold falls in F. rewrite F in CK.
        apply andb_true_iff in CK. destruct CK as [CK _]. apply andb_true_iff in CK. apply nat_mem_in. tauto.
    - intros n x j N X. specialize (IT _ _ N X). cbn in IT. apply andb_true_iff in IT. destruct IT as [_ IT].
      destruct (effect x true) eqn:E1, (effect x false) eqn:E2; try discriminate. destruct j; congruence.
    - intros n id N X. specialize (IT _ _ N X). cbn in IT. apply existsb_exists in IT. destruct IT as (n' & N' & IT).
      apply existsb_exists in IT. destruct IT as (it & I' & IT). destruct it; try discriminate. apply Nat.eqb_eq in IT. subst. eauto 7.
  Qed.

  (** two TryBegin of the same identity are at the same place in the list of all elements *)
  Definition pyobj_blockb (a b : pyobj) : bool := match a, b with OBlock n, OBlock m => Nat.eqb n m | _, _ => false end.
  Definition coherentb : bool :=
    forallb (fun b => forallb (fun it => match it with
      | BTB id t la _ => forallb (fun b' => forallb (fun it' => match it' with
          | BTB id' t' la' _ => if Nat.eqb id id' then pyobj_blockb t t' && Bool.eqb la la' else true
          | _ => true end) (k_items b')) (g_heap g)
      | _ => true end) (k_items b)) (g_heap g).
  Lemma check_coherent : coherentb = true -> coherent g.
  Proof.
    unfold coherentb, coherent. intros CK n m id t t' la la' d d' X Y.
    assert (HP : forall k it, In it (k_items (blk g k)) -> In (blk g k) (g_heap g)).
    { intros k it I'. unfold blk in *. destruct (nth_error (g_heap g) k) eqn:E; [eapply nth_error_In; eauto|destruct I']. }
    rewrite forallb_forall in CK. specialize (CK _ (HP _ _ X)). rewrite forallb_forall in CK. specialize (CK _ X). cbn in CK.
    rewrite forallb_forall in CK. specialize (CK _ (HP _ _ Y)). rewrite forallb_forall in CK. specialize (CK _ Y). cbn in CK.
    rewrite Nat.eqb_refl in CK. apply andb_true_iff in CK. destruct CK as [K1 K2]. apply Bool.eqb_prop in K2. subst.
    destruct t, t'; try discriminate. apply Nat.eqb_eq in K1. subst. auto.
  Qed.
End Check2.

(** ** Blocks entered with different depths *)
Section Steps.
  Variables (T : optable) (effect : instr -> bool -> option (Z * Z)) (g : cfg).
  Definition stepsb (L : list conf) : bool := forallb (fun c => forallb (fun c' => cmem c' L) (succs T effect g c)) L.
  Lemma steps_list L c c' : stepsb L = true -> In c L -> steps T effect g c c' -> In c' L.
  Proof.
    unfold stepsb. rewrite forallb_forall. intros CL IN ST. induction ST as [|c1 c2 ST IH S1]; auto. specialize (CL _ IH).
    rewrite forallb_forall in CL. apply cmem_in, CL. apply succs_step. exact S1.
  Qed.
  Definition growth1 (n : nat) (c : conf) : bool :=
    let l := grown conf_eq_dec (succs T effect g) n [c] in
    cmem c l && stepsb l
    && forallb (fun c' => negb (Nat.eqb (block_of c) (block_of c') && Nat.eqb (index_of c') 0) || (snd (fst c') <=? snd (fst c))) l.
  Definition growthb (n : nat) (L : list conf) : bool := forallb (fun c => negb (Nat.eqb (index_of c) 0) || growth1 n c) L.
  Lemma growth_ok n L b d d' o o' : growthb n L = true -> In (b, O, d, o) L ->
    steps T effect g (b, O, d, o) (b, O, d', o') -> d' <= d.
  Proof.
    unfold growthb. rewrite forallb_forall. intros X IN ST. specialize (X _ IN).
    apply orb_true_iff in X. destruct X as [X|X]; [discriminate X|]. unfold growth1 in X. apply andb_prop in X. destruct X as [X X3].
    apply andb_prop in X. destruct X as [X1 X2]. pose proof (steps_list _ _ _ X2 (cmem_in _ _ X1) ST) as Y.
    rewrite forallb_forall in X3. specialize (X3 _ Y). apply orb_true_iff in X3. destruct X3 as [X3|X3]; [|apply Z.leb_le in X3; exact X3].
    exfalso. unfold block_of, index_of in X3. cbn [fst snd] in X3. rewrite !Nat.eqb_refl in X3. discriminate X3.
  Qed.
End Steps.
