(** The stack size computation: termination (C32). *)
From Coq Require Import Lia.
From Verif Require Import PyBase OpTable M_Instr M_Concrete M_Bytecode M_Flags M_Cfg M_Stack S_Cfg S_Stack P_Base P_Cfg P_Stack.
Open Scope string_scope.
Open Scope list_scope.
Open Scope Z_scope.

Definition stops {A} (P : A -> Prop) (r : res A) : Prop :=
  match r with Ok a => P a | Err e => e <> Nontermination end.

Lemma stops_bind {A B} (P : A -> Prop) (Q : B -> Prop) m f :
  stops P m -> (forall a, m = Ok a -> P a -> stops Q (f a)) -> stops Q (bind m f).
Proof. destruct m; simpl; auto. Qed.
Lemma stops_option {A} e (o : option A) : e <> Nontermination -> stops (fun a => o = Some a) (of_option e o).
Proof. destruct o; simpl; auto. Qed.
Lemma stops_imp {A} (P Q : A -> Prop) r : (forall a, P a -> Q a) -> stops P r -> stops Q r.
Proof. destruct r; simpl; auto. Qed.

Section Term.
  Variables (v : pyver) (T : optable) (se : oracle) (check : bool) (g : cfg).

  Lemma stops_elem it r : stops (fun _ => True) (elem_check T it r).
  Proof.
    destruct (elem_check T it r) eqn:E; simpl; auto. intros ->.
    unfold elem_check in E. destruct it as [i|l|z|id t la d|id]; try discriminate.
    - destruct (has_jump T i); [|discriminate]. destruct (existsb is_BI r); [discriminate|]. destruct (i_arg i); discriminate.
    - destruct t; discriminate.
  Qed.
  Lemma stops_stack_effect x j : stops (fun _ => True) (stack_effect v T se x j).
  Proof.
    destruct (stack_effect v T se x j) as [|e] eqn:X; simpl; auto. intros ->.
    unfold stack_effect, guard, of_option in X.
    repeat match type of X with
           | context [match ?y with _ => _ end] => destruct y; cbn [bind] in X
           | context [if ?y then _ else _] => destruct y; cbn [bind] in X
           end; congruence.
  Qed.
  Lemma stops_effect x j : stops (fun _ => True) (used_effect v T se check x j).
  Proof.
    unfold used_effect, pre_and_post. destruct check.
    - eapply stops_bind; [apply stops_stack_effect|]. intros z _ _.
      destruct (static_effect v T (i_name x)); simpl; auto.
      destruct (dynamic_effect v T (i_name x) z (i_arg x) (Some j)) as [[q|e]|] eqn:D; simpl; auto.
      intros ->. unfold dynamic_effect, of_option in D.
      destruct (as_int (i_arg x)); cbn [bind] in D;
      repeat match type of D with context [if ?y then _ else _] => destruct y end; congruence.
    - eapply stops_bind; [apply stops_stack_effect|]. intros z _ _. simpl. auto.
  Qed.
  Lemma stops_update p d mx mn : stops (fun _ => True) (update_size p d mx mn).
  Proof. unfold update_size. destruct (_ <? _); simpl; auto; discriminate. Qed.

  Record wfc (C : common) : Prop := {
    wfc_nd : NoDup (c_seen C);
    wfc_in : incl (c_seen C) (g_order g);
    wfc_keys : forall b l, dget Nat.eqb (c_starts C) b = Some l -> In b (g_order g) }.

  Definition same (C C' : common) : Prop := c_seen C' = c_seen C /\ wfc C'.

  Definition callt (call : visit) (k : nat) : Prop := forall b size mx mn exh pd C,
    wfc C -> (length (g_order g) < k + length (c_seen C))%nat ->
    stops (fun p => same C (snd p)) (call b size mx mn exh pd C).

  Lemma same_len C C' k : same C C' -> (length (g_order g) < k + length (c_seen C))%nat ->
    (length (g_order g) < k + length (c_seen C'))%nat.
  Proof. intros [-> _]. auto. Qed.

  Lemma stops_handler call k t la mx mn C : callt call k -> wfc C ->
    (length (g_order g) < k + length (c_seen C))%nat ->
    stops (fun C' => same C C') (compute_handler call t la mx mn C).
  Proof.
    intros OKc W L. unfold compute_handler. destruct t; try (simpl; discriminate).
    eapply stops_bind; [apply stops_option; discriminate|]. intros s _ _.
    destruct (mn <? s); [|simpl; split; auto].
    eapply stops_bind; [apply OKc; auto|]. intros [r C1] _ [S1 W1]. simpl. split; [exact S1|].
    destruct W1 as [W1 W2 W3]. constructor; auto.
  Qed.

  Lemma wfc_unsee b s C : wfc C -> c_seen C = b :: s -> c_seen (unsee b C) = s /\ wfc (unsee b C).
  Proof.
    intros [W1 W2 W3] E. assert (X : c_seen (unsee b C) = s).
    { unfold unsee. cbn [c_seen]. rewrite E in *. apply filter_self. inversion W1; auto. }
    split; [exact X|]. constructor; [| |exact W3]; rewrite X; rewrite E in W1, W2.
    - inversion W1; auto.
    - intros y Y. apply W2. right. exact Y.
  Qed.

  Lemma stops_loop call k b s : callt call k -> forall rest d mx mn cur C, wfc C -> c_seen C = b :: s ->
    (length (g_order g) < k + length (c_seen C))%nat ->
    stops (fun p => c_seen (snd p) = s /\ wfc (snd p)) (block_loop v T se check g call b rest d mx mn cur C).
  Proof.
    intros OKc. induction rest as [|it r IH]; intros d mx mn cur C W S0 L; cbn [block_loop].
    - apply (stops_bind (fun p => same C (snd p))).
      + destruct (k_next (blk g b)) as [m|]; [|simpl; split; auto].
        destruct (k_items (blk g m)); [simpl; split; auto|]. apply OKc; auto.
      + intros [m C1] _ [S1 W1]. simpl. cbn [snd] in *. apply wfc_unsee; congruence.
    - eapply stops_bind; [apply stops_elem|]. intros _ _ _.
      destruct it as [x|l|z|id t la sd|id]; auto.
      + apply (stops_bind (fun q => let '(_, C1, stop) := q in
                 if stop : bool then c_seen C1 = s /\ wfc C1 else same C C1)).
        * destruct (has_jump T x); [|simpl; split; auto].
          eapply stops_bind; [apply stops_effect|]. intros e _ _.
          eapply stops_bind; [apply stops_update|]. intros [[tk m1] n1] _ _.
          apply (stops_bind (fun _ => True)); [destruct (i_arg x); simpl; auto; discriminate|]. intros n _ _.
          eapply stops_bind; [apply OKc; auto|]. intros [m2 C1] _ SM. cbn [snd] in SM.
          destruct (is_uncond_jump_name (i_name x)); [|exact SM].
          apply (stops_bind (fun C2 => same C1 C2)).
          -- destruct (trailing_end r) as [id|]; [|simpl; split; auto; apply SM].
             destruct cur as [[[id' t] la]|]; [|simpl; split; auto; apply SM].
             destruct (Nat.eqb id id'); [|simpl; split; auto; apply SM].
             eapply stops_handler; [exact OKc|apply SM|eapply same_len; [exact SM|exact L]].
          -- intros C2 _ [S2 W2]. simpl. destruct SM as [S1 W1]. apply wfc_unsee; congruence.
        * intros [[m1 C1] stop] _ Q. destruct stop; [simpl; exact Q|].
          eapply stops_bind; [apply stops_effect|]. intros e _ _.
          eapply stops_bind; [apply stops_update|]. intros [[tk m2] n1] _ _.
          destruct (is_final x).
          -- apply (stops_bind (fun C2 => same C1 C2)).
             ++ destruct (trailing_end r) as [id|]; [|simpl; split; auto; apply Q].
                eapply stops_bind; [apply stops_option; discriminate|]. intros [[t la] sd] _ _.
                eapply stops_handler; [exact OKc|apply Q|eapply same_len; [exact Q|exact L]].
             ++ intros C2 _ [S2 W2]. simpl. destruct Q as [S1 W1]. apply wfc_unsee; congruence.
          -- apply IH; [apply Q|destruct Q; congruence|eapply same_len; [exact Q|exact L]].
      + destruct cur; [simpl; discriminate|]. apply IH; auto. destruct W as [W1 W2 W3]; constructor; auto.
      + destruct cur as [[[id' t] la]|]; auto. destruct (Nat.eqb id id'); auto.
        eapply stops_bind; [eapply stops_handler; eauto|]. intros C1 _ Q.
        apply IH; [apply Q|destruct Q; congruence|eapply same_len; [exact Q|exact L]].
  Qed.

  Lemma stops_run k : callt (run v T se check g k) k.
  Proof.
    induction k as [|k IH]; intros b size mx mn exh pd C W L; cbn [run].
    - exfalso. pose proof (NoDup_incl_length (wfc_nd C W) (wfc_in C W)). lia.
    - destruct (nat_mem b (c_seen C)) eqn:SE; [simpl; split; auto|].
      destruct (dget Nat.eqb (c_starts C) b) as [sizes|] eqn:D; cbn [of_option bind]; [|discriminate].
      destruct (negb _); [simpl; split; auto|].
      eapply (stops_bind (fun _ => True)).
      { destruct exh; [apply stops_update|simpl; auto]. }
      intros [[d m1] n1] _ _.
      assert (NI : ~ In b (c_seen C)).
      { intros IN. unfold nat_mem in SE. assert (X : existsb (Nat.eqb b) (c_seen C) = true).
        { apply existsb_exists. exists b. split; [exact IN|apply Nat.eqb_refl]. } congruence. }
      eapply stops_imp; [|eapply (stops_loop _ k b (c_seen C)); [exact IH| |reflexivity|]].
      + intros q [Q1 Q2]. split; auto.
      + destruct W as [W1 W2 W3]. constructor; cbn [c_seen c_starts].
        * constructor; auto.
        * intros y [<-|Y]; [eapply W3; exact D|auto].
        * intros y l. rewrite dg_set. destruct (Nat.eqb_spec y b) as [->|]; [intros _; eapply W3; exact D|apply W3].
      + cbn [c_seen length]. lia.
  Qed.
End Term.

Lemma dget_const {V} (x : V) l n : dget Nat.eqb (map (fun n => (n, x)) l) n = if nat_mem n l then Some x else None.
Proof.
  induction l as [|y l IH]; cbn; auto. rewrite IH. unfold nat_mem. cbn.
  destruct (Nat.eqb n y); cbn; auto.
Qed.
Lemma nat_mem_in n l : nat_mem n l = true <-> In n l.
Proof.
  unfold nat_mem. rewrite existsb_exists. split.
  - intros (y & Y & Q). apply Nat.eqb_eq in Q. subst. exact Y.
  - intros X. exists n. split; [exact X|apply Nat.eqb_refl].
Qed.

Lemma wfc0 g : wfc g (common0 g).
Proof.
  constructor; cbn [common0 c_seen c_starts].
  - constructor.
  - intros x [].
  - intros b l. rewrite dget_const. destruct (nat_mem b (g_order g)) eqn:E; [|discriminate]. intros _. apply nat_mem_in, E.
Qed.

Lemma mapM_stops {A B} (f : A -> res B) l : (forall a, stops (fun _ => True) (f a)) -> stops (fun _ => True) (mapM f l).
Proof.
  intros S. induction l as [|x l IH]; simpl; auto.
  eapply stops_bind; [apply S|]. intros y _ _. eapply stops_bind; [exact IH|]. intros ys _ _. simpl. auto.
Qed.
Lemma foldM_stops {A B} (f : A -> B -> res A) l : (forall a b, stops (fun _ => True) (f a b)) ->
  forall a, stops (fun _ => True) (foldM f l a).
Proof.
  intros S. induction l as [|x l IH]; intros a; simpl; auto.
  eapply stops_bind; [apply S|]. intros y _ _. apply IH.
Qed.
Lemma stops_iter T l : stops (fun _ => True) (block_iter T l).
Proof. induction l as [|x l IH]; simpl; auto. eapply stops_bind; [apply stops_elem|]. auto. Qed.

Lemma compute_stops v T se check depths g : compute_stacksize v T se check depths g <> Err Nontermination.
Proof.
  assert (X : stops (fun _ => True) (compute_stacksize v T se check depths g)).
  { unfold compute_stacksize, compute_nested. destruct (g_order g) as [|n l] eqn:E; [simpl; auto|].
    eapply stops_bind.
    - apply (stops_run v T se check g (visit_fuel g)); [apply wfc0|]. unfold visit_fuel. lia.
    - intros [r C] _ _. apply (stops_bind (fun _ => True)).
      + unfold unmet_tbs. eapply stops_bind; [apply mapM_stops|].
        * intros m. destruct (dget Nat.eqb (c_starts C) m) as [[|]|]; simpl; auto.
          eapply stops_bind; [apply stops_iter|]. simpl. auto.
        * simpl. auto.
      + intros dead _ _. apply (stops_bind (fun _ => True)); [|simpl; auto].
        destruct depths; [|simpl; auto]. apply foldM_stops. intros h [[id t] la]. destruct t; try (simpl; discriminate).
        eapply stops_bind; [apply stops_option; discriminate|]. intros s _ _.
        unfold guard. destruct (0 <=? s); simpl; auto; discriminate. }
  intros Y. rewrite Y in X. simpl in X. congruence.
Qed.
