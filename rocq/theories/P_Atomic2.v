(** What compute_stacksize leaves behind when it raises: C77. *)
From Coq Require Import Lia.
From Verif Require Import PyBase OpTable M_Instr M_Tables M_Concrete M_Convert M_Bytecode M_Cfg M_Stack M_Atomic M_Objects S_Cfg S_Stack P_Base P_Cfg P_Stack P_Stack2.
Open Scope string_scope.
Open Scope list_scope.
Open Scope Z_scope.

Definition then_ {A} (P : A -> Prop) (r : res A) : Prop := match r with Ok a => P a | Err _ => True end.
Lemma then_bind {A B} (P : A -> Prop) (Q : B -> Prop) m f : then_ P m -> (forall a, m = Ok a -> P a -> then_ Q (f a)) -> then_ Q (bind m f).
Proof. destruct m; cbn; auto. Qed.
Lemma then_true {A} (r : res A) : then_ (fun _ => True) r.
Proof. destruct r; exact Logic.I. Qed.

Section Depths.
  Variables (v : pyver) (T : optable) (se : oracle) (check : bool) (g : cfg).
  Hypothesis TG : forall n id t la d, In n (g_order g) -> In (BTB id t la d) (k_items (blk g n)) -> exists b, t = OBlock b /\ In b (g_order g).
  Hypothesis NN : forall n x j p, In n (g_order g) -> In (BI x) (k_items (blk g n)) -> used_effect v T se check x j = Ok p -> 0 <= snd p.

  Record keyed (C : common) : Prop := {
    ke_start : forall n, In n (g_order g) -> exists s, dget Nat.eqb (c_ex_start C) n = Some s /\ 0 <= s;
    ke_starts : forall n l, dget Nat.eqb (c_starts C) n = Some l -> In n (g_order g);
    ke_tbs : forall id t la, In (id, t, la) (c_tbs C) -> exists b, t = OBlock b /\ In b (g_order g) }.

  Lemma keyed_seen C s : keyed C -> keyed (mkSC s (c_starts C) (c_tbs C) (c_ex_start C) (c_ex_max C)).
  Proof. intros [A B D]. constructor; assumption. Qed.
  Lemma keyed_unsee b C : keyed C -> keyed (unsee b C).
  Proof. apply keyed_seen. Qed.

  Definition callk (call : visit) : Prop := forall b size mx mn exh pd C, 0 <= size -> 0 <= mn -> keyed C ->
    then_ (fun p => keyed (snd p)) (call b size mx mn exh pd C).

  Lemma handler_k call t la mx mn C : callk call -> 0 <= mn -> keyed C -> then_ keyed (compute_handler call t la mx mn C).
  Proof.
    intros CK N K. unfold compute_handler. destruct t; try exact Logic.I.
    destruct (dget Nat.eqb (c_ex_start C) _) as [s|] eqn:D; cbn [of_option bind then_]; [|exact Logic.I].
    destruct (mn <? s); [|exact K]. eapply then_bind; [apply CK; assumption|]. intros [r C1] _ [A B D']. cbn [snd then_] in *.
    constructor; cbn [c_ex_start c_starts c_tbs]; auto. intros m IN. rewrite dg_set.
    destruct (Nat.eqb_spec m n) as [->|]; [exists mn; split; [reflexivity|exact N]|apply A, IN].
  Qed.
  Lemma update_k e size mx mn : 0 <= snd e -> 0 <= mn -> then_ (fun q => 0 <= fst (fst q) /\ 0 <= snd q) (update_size e size mx mn).
  Proof. intros P N. unfold update_size. destruct (Z.ltb_spec (size + fst e) 0); cbn; [exact Logic.I|lia]. Qed.

  Lemma loop_k call b : callk call -> In b (g_order g) -> forall rest size mx mn cur C, incl rest (k_items (blk g b)) ->
    0 <= size -> 0 <= mn -> keyed C ->
    then_ (fun p => keyed (snd p)) (block_loop v T se check g call b rest size mx mn cur C).
  Proof.
    intros CK IB. induction rest as [|it r IH]; intros d mx mn cur C IC ND NM K; cbn [block_loop].
    - apply (then_bind (fun p => keyed (snd p))).
      + destruct (k_next (blk g b)) as [m|]; [|exact K]. destruct (k_items (blk g m)); [exact K|]. apply CK; assumption.
      + intros [m C1] _ K1. cbn [snd then_] in *. apply keyed_unsee, K1.
    - apply (then_bind (fun _ => True)); [apply then_true|]. intros _ _ _.
      assert (IR : incl r (k_items (blk g b))) by (intros x X; apply IC; right; exact X).
      assert (IT : In it (k_items (blk g b))) by (apply IC; left; reflexivity).
      destruct it as [x|l|z|id t la sd|id]; auto.
      + apply (then_bind (fun q => keyed (snd (fst q)))).
        * destruct (has_jump T x); [|exact K].
          destruct (used_effect v T se check x true) as [e|] eqn:UE; cbn [bind then_]; [|exact Logic.I].
          eapply then_bind; [apply update_k; [exact (NN _ _ _ _ IB IT UE)|exact NM]|]. intros [[tk m1] n1] _ [U1 U2]. cbn [fst snd] in U1, U2.
          apply (then_bind (fun _ => True)); [apply then_true|]. intros n _ _.
          eapply then_bind; [apply CK; assumption|]. intros [m2 C1] _ K1. cbn [snd] in K1.
          destruct (is_uncond_jump_name (i_name x)); [|exact K1].
          apply (then_bind keyed).
          -- destruct (trailing_end r) as [id|]; [|exact K1]. destruct cur as [[[id' t] la]|]; [|exact K1].
             destruct (Nat.eqb id id'); [|exact K1]. apply handler_k; assumption.
          -- intros C2 _ K2. cbn [then_ fst snd]. apply keyed_unsee, K2.
        * intros [[m1 C1] stop] _ K1. cbn [fst snd] in K1. destruct stop; [exact K1|].
          destruct (used_effect v T se check x false) as [e|] eqn:UE; cbn [bind then_]; [|exact Logic.I].
          eapply then_bind; [apply update_k; [exact (NN _ _ _ _ IB IT UE)|exact NM]|]. intros [[tk m2] n1] _ [U1 U2]. cbn [fst snd] in U1, U2.
          destruct (is_final x).
          -- apply (then_bind keyed).
             ++ destruct (trailing_end r) as [id|]; [|exact K1]. apply (then_bind (fun _ => True)); [apply then_true|]. intros [[t la] sd] _ _. apply handler_k; assumption.
             ++ intros C2 _ K2. cbn [then_ snd]. apply keyed_unsee, K2.
          -- apply IH; assumption.
      + destruct cur; [exact Logic.I|]. apply IH; auto. destruct K as [A B D]. constructor; auto. cbn [c_tbs]. intros id' t' la' IN.
        apply in_app_iff in IN. destruct IN as [IN|[IN|[]]]; [eapply D; exact IN|]. injection IN as <- <- <-. eapply TG; eassumption.
      + destruct cur as [[[id' t] la]|]; auto. destruct (Nat.eqb id id'); auto.
        eapply then_bind; [apply handler_k; assumption|]. intros C1 _ K1. apply IH; assumption.
  Qed.
  Lemma run_k k : callk (run v T se check g k).
  Proof.
    induction k as [|k IH]; intros b size mx mn exh pd C ND NM K; cbn [run]; [exact Logic.I|].
    destruct (nat_mem b (c_seen C)); [exact K|].
    destruct (dget Nat.eqb (c_starts C) b) as [sizes|] eqn:D; cbn [of_option bind]; [|exact Logic.I].
    destruct (negb _); [exact K|]. pose proof (ke_starts _ K _ _ D) as IB.
    apply (then_bind (fun q => 0 <= fst (fst q) /\ 0 <= snd q)).
    - destruct exh as [la|]; [|cbn; lia]. apply update_k; [cbn; destruct la; lia|exact NM].
    - intros [[d m1] n1] _ [U1 U2]. cbn [fst snd] in U1, U2. apply loop_k; auto; [intros x X; exact X|].
      destruct K as [A B D']. constructor; cbn [c_ex_start c_starts c_tbs]; auto.
      intros n l. rewrite dg_set. destruct (Nat.eqb_spec n b) as [->|]; [intros _; exact IB|apply B].
  Qed.
  Lemma keyed0 : keyed (common0 g).
  Proof.
    constructor; cbn [common0 c_ex_start c_starts c_tbs].
    - intros n IN. rewrite dget_const. apply nat_mem_in in IN. rewrite IN. exists 32768. split; [reflexivity|lia].
    - intros n l. rewrite dget_const. destruct (nat_mem n (g_order g)) eqn:E; [|discriminate]. intros _. apply nat_mem_in, E.
    - intros id t la [].
  Qed.
End Depths.

Lemma depths_done g C : keyed g C -> forall tbs h, incl tbs (c_tbs C) -> exists h', depths_run C h tbs = (h', Ok tt).
Proof.
  intros K. induction tbs as [|[[id t] la] tbs IH]; intros h IC; [exists h; reflexivity|]. cbn [depths_run].
  destruct (ke_tbs _ _ K id t la (IC _ (or_introl eq_refl))) as (b & -> & IB). destruct (ke_start _ _ K b IB) as (s & -> & NS).
  destruct (Z.leb_spec 0 s); [|lia]. apply IH. intros x X. apply IC. right. exact X.
Qed.
Lemma unmet_block_done T l : block_iter T l = Ok tt -> forall h, exists h', unmet_block T h l = (h', Ok tt).
Proof.
  induction l as [|it r IH]; intros B h; [exists h; reflexivity|]. cbn [unmet_block]. cbn [block_iter] in B. apply bind_ok in B.
  destruct B as (u & E & B). rewrite E. apply IH, B.
Qed.
Lemma unmet_done T g C order : (forall n, In n order -> block_iter T (k_items (blk g n)) = Ok tt) -> forall h, exists h', unmet_run T g C h order = (h', Ok tt).
Proof.
  induction order as [|n order IH]; intros B h; [exists h; reflexivity|]. cbn [unmet_run].
  assert (B' : forall m, In m order -> block_iter T (k_items (blk g m)) = Ok tt) by (intros m M; apply B; right; exact M).
  destruct (dget Nat.eqb (c_starts C) n) as [[|f l]|]; auto.
  destruct (unmet_block_done T _ (B n (or_introl eq_refl)) h) as (h1 & ->). apply IH, B'.
Qed.

Lemma compute_unchanged v T se check depths g g' e :
  (forall n, In n (g_order g) -> block_iter T (k_items (blk g n)) = Ok tt) ->
  (forall n id t la d, In n (g_order g) -> In (BTB id t la d) (k_items (blk g n)) -> exists b, t = OBlock b /\ In b (g_order g)) ->
  (forall n x j p, In n (g_order g) -> In (BI x) (k_items (blk g n)) -> used_effect v T se check x j = Ok p -> 0 <= snd p) ->
  compute_run v T se check depths g = (g', Err e) -> g' = g.
Proof.
  intros BI TG NN E. unfold compute_run in E. cbv zeta in E. destruct (g_order g) as [|n l] eqn:O; [congruence|].
  destruct (run _ _ _ _ _ _ _ _ _ _ _ _ _) as [[r C]|x] eqn:R; [|congruence]. exfalso.
  assert (K : keyed g C).
  { pose proof (run_k v T se check g) as H. rewrite O in H. specialize (H TG NN (visit_fuel g) n (initial_size v (m_flags (g_meta g))) 0 0 None None (common0 g)).
    rewrite R in H. apply H; [unfold initial_size; destruct (_ && _); lia|lia|apply keyed0]. }
  destruct (unmet_done T g C (n :: l) BI (g_heap g)) as (h & U). rewrite U in E.
  destruct depths; [|congruence]. destruct (depths_done g C K (c_tbs C) h (fun x X => X)) as (h' & D). rewrite D in E. congruence.
Qed.

(** Both models agree. *)
Lemma unmet_block_agree T l : forall h, unmet_block T h l = match block_iter T l with
    | Ok _ => (fold_left (fun h id => store_depth id 32768 h) (flat_map (fun it => match it with BTB id _ _ None => [id] | _ => [] end) l) h, Ok tt)
    | Err e => (fst (unmet_block T h l), Err e) end.
Proof.
  induction l as [|it r IH]; intros h; [reflexivity|]. cbn [unmet_block block_iter flat_map].
  destruct (elem_check T it r) as [u|x]; cbn [bind]; [|reflexivity]. rewrite IH. destruct (block_iter T r); [|reflexivity].
  rewrite fold_left_app. destruct it as [| | |id t la [d|]|]; reflexivity.
Qed.
Lemma unmet_agree T g C order : forall h, unmet_run T g C h order =
  match mapM (fun n => match dget Nat.eqb (c_starts C) n with
         | Some [] => _ <- block_iter T (k_items (blk g n)) ;;
             Ok (flat_map (fun it => match it with BTB id _ _ None => [id] | _ => [] end) (k_items (blk g n)))
         | _ => Ok [] end) order with
  | Ok ls => (fold_left (fun h id => store_depth id 32768 h) (concat ls) h, Ok tt)
  | Err e => (fst (unmet_run T g C h order), Err e)
  end.
Proof.
  induction order as [|n order IH]; intros h; [reflexivity|]. cbn [unmet_run mapM].
  destruct (dget Nat.eqb (c_starts C) n) as [[|f l]|]; cbn [bind]; [rewrite (unmet_block_agree T _ h); destruct (block_iter T (k_items (blk g n))); cbn [bind]; [|reflexivity]| |];
    rewrite IH; destruct (mapM _ order); cbn [bind concat app]; rewrite ?fold_left_app; reflexivity.
Qed.
Lemma depths_agree C tbs : forall h, foldM (fun h (x : tbinfo) =>
                          let '(id, t, _) := x in
                          match t with
                          | OBlock b =>
                              s <- of_option KeyError (dget Nat.eqb (c_ex_start C) b) ;;
                              _ <- guard (0 <=? s) AssertionError ;;
                              Ok (store_depth id s h)
                          | _ => Err KeyError
                          end) tbs h = match depths_run C h tbs with (h', Ok _) => Ok h' | (_, Err e) => Err e end.
Proof.
  induction tbs as [|[[id t] la] tbs IH]; intros h; [reflexivity|]. cbn [foldM depths_run].
  destruct t; try reflexivity. destruct (dget Nat.eqb (c_ex_start C) _) as [s|]; cbn [of_option bind]; [|reflexivity].
  unfold guard. destruct (0 <=? s); cbn [bind]; [apply IH|reflexivity].
Qed.
Lemma compute_agree v T se check depths g : compute_stacksize v T se check depths g =
  match compute_run v T se check depths g with (g', Ok n) => Ok (g', n) | (_, Err e) => Err e end.
Proof.
  unfold compute_stacksize, compute_nested, compute_run. cbv zeta. destruct (g_order g) as [|n l] eqn:O; [reflexivity|].
  destruct (run _ _ _ _ _ _ _ _ _ _ _ _ _) as [[r C]|x]; cbn [bind]; [|reflexivity].
  unfold unmet_tbs. rewrite O, unmet_agree. destruct (mapM _ (n :: l)) as [ls|x]; cbn [bind]; [|reflexivity].
  destruct depths; [|reflexivity]. rewrite depths_agree. destruct (depths_run _ _ _) as [h [u|x]]; reflexivity.
Qed.

(** legalize() on objects *)
Definition as_before (h h' : @store bitem) : Prop :=
  forall r i, h r = BI i -> exists i', h' r = BI i' /\ i_name i' = i_name i /\ i_op i' = i_op i /\ i_arg i' = i_arg i.
Lemma before_refl h : as_before h h.
Proof. intros r i E. exists i. auto. Qed.
Lemma before_trans a b c : as_before a b -> as_before b c -> as_before a c.
Proof. intros P Q r i E. destruct (P r i E) as (j & E1 & A & B & D). destruct (Q r j E1) as (k & E2 & A' & B' & D'). exists k. repeat split; congruence. Qed.
Lemma before_put h r lo : as_before h (put h r (bset_loc (h r) lo)).
Proof.
  intros r' i E. unfold put. destruct (Nat.eqb_spec r' r) as [->|]; [|exists i; auto]. rewrite E. eexists. split; [reflexivity|]. auto.
Qed.
Lemma oloop_before v l : forall s c h h' o, olegalize_loop bview bset_loc v s c h l = (h', o) -> as_before h h'.
Proof.
  induction l as [|x l IH]; intros s c h h' o E; cbn [olegalize_loop] in E; [injection E as <- <-; apply before_refl|].
  destruct (bview (h x)) as [z|lo|].
  - eapply IH; exact E.
  - destruct s as [z|].
    + destruct (set_lineno v lo (LLine z)) as [lo' [u|e]]; [eapply before_trans; [apply before_put|eapply IH; exact E]|injection E as <- <-; apply before_put].
    + destruct (loc_lineno lo); [|eapply IH; exact E|eapply IH; exact E].
      destruct (set_lineno v lo (LLine c)) as [lo' [u|e]]; [eapply before_trans; [apply before_put|eapply IH; exact E]|injection E as <- <-; apply before_put].
  - eapply IH; exact E.
Qed.
Lemma legalize_keeps v h b h' b' o : obytecode_legalize v h b = (h', b', o) -> as_before h h'.
Proof.
  intros E. unfold obytecode_legalize in E. destruct (iterate false (map h (ob_items b))) as [ys stop].
  unfold olegalize in E. destruct (olegalize_loop _ _ _ _ _ h (firstn (length ys) (ob_items b))) as [h1 u] eqn:L.
  apply oloop_before in L. destruct u as [[]|e]; [destruct stop|]; injection E as <- _ _; exact L.
Qed.
Lemma legalize_list_kept v h b h' b' e : obytecode_legalize v h b = (h', b', Err e) -> b' = b.
Proof.
  intros E. unfold obytecode_legalize in E. destruct (iterate false (map h (ob_items b))) as [ys stop].
  unfold olegalize in E. destruct (olegalize_loop _ _ _ _ _ h (firstn (length ys) (ob_items b))) as [h1 u] eqn:L.
  destruct b as [m a l]. cbn [ob_meta ob_argnames ob_items] in *.
  destruct u as [[]|x]; [destruct stop|]; injection E as _ <-; try discriminate; now rewrite firstn_skipn.
Qed.
