(** Flag inference: from occurrences in the sequence to the specification. *)
From Verif Require Import PyBase OpTable CPy M_Instr M_Tables M_Concrete M_Flags S_Args S_Flags
  P_Base P_OpTable P_Cat P_Flags.
Open Scope string_scope.
Open Scope list_scope.
Open Scope Z_scope.

Definition forget (x : string * Z * pyobj) : string * pyobj := let '(n, _, a) := x in (n, a).

Lemma uses_b ms R : existsb (named ms) R = true <-> uses ms (map forget R).
Proof.
  unfold uses. rewrite existsb_exists. split.
  - intros ([[n op] a] & I & H). exists n, a. split; [|now apply str_mem_In].
    apply in_map_iff. now exists (n, op, a).
  - intros (n & a & I & H). apply in_map_iff in I. destruct I as ([[n' op] a'] & E & I).
    injection E as -> ->. exists (n, op, a). split; [exact I|]. now apply str_mem_In.
Qed.

Lemma resumed_iff w R : resumed_b w R = true <-> resumed (map forget R) w.
Proof.
  induction R as [|[[n op] a] R IH].
  - split; [discriminate|]. intros (pre & y & b & z & post & E & _). destruct pre; discriminate.
  - cbn [resumed_b map forget]. rewrite orb_true_iff, IH. split.
    + intros [H|(pre & y & b & z & post & E & H)].
      * apply andb_prop in H. destruct H as [H1 H2]. apply String.eqb_eq in H1. subst n.
        destruct R as [|[[m op'] b] R]; [discriminate|]. apply andb_prop in H2. destruct H2 as [H2 H3].
        apply String.eqb_eq in H2. subst m. destruct (as_int b) as [z|] eqn:Z0; [|discriminate].
        exists [], a, b, z, (map forget R). repeat split; [exact Z0| |].
        -- intros X. apply Z.eqb_eq in X. rewrite X in H3. destruct w; [reflexivity|discriminate].
        -- intros ->. apply eqb_prop in H3. now apply Z.eqb_eq.
      * exists ((n, a) :: pre), y, b, z, post. rewrite E. auto.
    + intros (pre & y & b & z & post & E & H1 & H2). destruct pre as [|x pre].
      * left. cbn in E. injection E as -> -> E. rewrite String.eqb_refl.
        destruct R as [|[[m op'] b'] R]; [discriminate|]. cbn in E. injection E as -> -> E.
        rewrite String.eqb_refl, H1. cbn. apply eqb_true_iff.
        destruct w; [now apply Z.eqb_eq, H2|]. apply Z.eqb_neq. intros X. apply H2 in X. discriminate.
      * right. injection E as _ E. exists pre, y, b, z, post. auto.
Qed.

(** ** Sequences on which the loop returns *)

Lemma loop_no_raise v T concrete fuel : forall l s s', (length l <= fuel)%nat ->
  infer_loop v T concrete fuel l s = Ok s' -> Forall (fun x => forall e, x <> FRaise e) l.
Proof.
  assert (NR : forall l x l', next_real l = Ok (x, l') -> Forall (fun x => forall e, x <> FRaise e) l' ->
     Forall (fun x => forall e, x <> FRaise e) l).
  { induction l as [|y l IH]; cbn; [discriminate|]. intros x l' H F.
    destruct y; try discriminate; constructor; try discriminate.
    - eauto.
    - injection H as _ <-. exact F.
    - injection H as _ <-. exact F. }
  induction fuel as [|f IH]; intros l s s' L E.
  { destruct l; [constructor|cbn in L; lia]. }
  destruct l as [|x l]; [constructor|]. cbn in L.
  destruct x as [| | |n op a]; cbn [infer_loop] in E; try discriminate.
  { constructor; [discriminate|]. eapply IH; [|exact E]. lia. }
  constructor; [discriminate|]. destruct s as [opt fr asy gen pos].
  repeat match type of E with
  | (if ?b then _ else _) = _ => destruct b
  end; try (eapply IH; [|exact E]; lia).
  destruct (next_real l) as [[ni l'']|] eqn:N; [|discriminate]. cbn [bind] in E.
  pose proof (next_real_spec _ _ _ N) as [L1 _].
  apply (NR _ _ _ N). destruct ni; try discriminate.
  destruct (String.eqb name "RESUME"); [|discriminate]. cbn [guard bind] in E.
  destruct (as_int arg); [|discriminate]. cbn [of_option bind] in E.
  match type of E with (if ?b then _ else _) = _ => destruct b end; (eapply IH; [|exact E]; lia).
Qed.

Lemma fitems_listing l : forall seen, Forall (fun x => forall e, x <> FRaise e) (fitems seen l) ->
  map forget (reals (fitems seen l)) = listing_of l.
Proof.
  induction l as [|x l IH]; intros seen F; [reflexivity|].
  destruct x; cbn [fitems listing_of flat_map app] in *.
  - inversion F; subst. cbn. f_equal. eauto.
  - inversion F; subst. cbn. eauto.
  - inversion F; subst. cbn. eauto.
  - destruct seen; inversion F; subst; [now destruct (H1 RuntimeError)|]. cbn. eauto.
  - inversion F; subst. cbn. eauto.
Qed.

Lemma citems_listing l : map forget (reals (map fitem_of_citem l)) = clisting_of l.
Proof.
  induction l as [|x l IH]; [reflexivity|]. destruct x; cbn; [now f_equal|exact IH].
Qed.

Section Bridge.
  Variables (v : pyver) (T : optable).
  Hypothesis wf : wf_optable v T = true.
  Hypothesis wff : wf_flags v T = true.

  Lemma fitems_wf l seen : Forall (fun x => match x with BI i => legal_instr v T i | _ => True end) l ->
    Forall (fun x => wfop T x /\ doc_arg v T (snd (fst x)) (snd x)) (reals (fitems seen l)).
  Proof.
    intros F. revert seen. induction F as [|x l Hx F IH]; intros seen; [constructor|].
    destruct x; cbn [fitems]; try exact (IH _).
    - cbn. constructor; [|exact (IH _)]. destruct Hx as (A & B & C & D). cbn. auto.
    - destruct seen; [constructor|exact (IH _)].
  Qed.

  Lemma citems_wf l : Forall (fun x => match x with CI c => legal_cinstr v T c | _ => True end) l ->
    Forall (wfop T) (reals (map fitem_of_citem l)).
  Proof.
    intros F. induction F as [|x l Hx F IH]; [constructor|].
    destruct x; cbn; [|exact IH]. constructor; [|exact IH]. destruct Hx as (A & B & _). cbn. auto.
  Qed.

  (** an abstract instruction counts as using a cell exactly when its argument designates one *)
  Lemma freeish_iff n op a : wfop T (n, op, a) -> doc_arg v T op a ->
    freeish v T false (n, op, a) = true <-> (~ In op (t_hasconst T) /\ designates a).
  Proof.
    intros W D. pose proof W as [H L]. pose proof (category_of v T wf n op H L) as C.
    unfold freeish. cbn [negb andb].
    destruct (z_mem op (t_hasfree T)) eqn:F.
    - cbn [orb].
      assert (X : is_dual v T op = false /\ is_bitflag v T op = false /\ is_bitflag2 v T op = false
        /\ opcode_has_argument v T op = true
        /\ ~ In op (t_hasconst T) /\ ~ In op (t_haslocal T) /\ ~ In op (t_hasname T)
        /\ ~ In op (t_hascompare T) /\ is_intrinsic v T op = false /\ op_has_jump T op = false).
      { destruct C as [C|C|C|C|C|C|C|C]; destruct C as (E1 & E2 & E3 & E4 & E5 & E6 & E7); try congruence.
        repeat split; auto using mem_false. }
      destruct X as (X1 & X2 & X3 & X4 & X5 & X6 & X7 & X9 & X10 & X12).
      unfold is_intrinsic in X10. apply orb_false_iff in X10. destruct X10 as [X10 X11].
      apply no_jump in X12. split; [|reflexivity]. intros _. split; [exact X5|].
      inversion D; subst; try congruence; try tauto; cbn; auto;
      try match goal with H : simple_name _ _ _ |- _ => destruct H as ([?|?] & _); tauto end;
      try match goal with H : jumps _ _ |- _ => destruct H; tauto end.
      match goal with H : plain _ _ _ |- _ => destruct H as (_ & N & _) end.
      apply z_mem_In in F. contradiction.
    - apply mem_false in F. cbn [orb]. rewrite orb_true_iff.
      assert (LC : z_mem op (t_haslocal T) = true -> ~ In op (t_hasconst T)).
      { intros X. destruct C as [C|C|C|C|C|C|C|C]; destruct C as (E1 & E2 & E3 & E4 & E5 & E6 & E7); try congruence;
        auto using mem_false. }
      inversion D; subst; try contradiction;
        try (cbn; rewrite !andb_false_r; split; [intros [|]; discriminate|]; intros [_ X]; cbn in X; try contradiction;
             destruct X as [[s0 [X|X]]|[s0 [X|X]]]; discriminate).
      + match goal with X : In op (t_haslocal T) |- _ => apply z_mem_In in X; rename X into Y end.
        match goal with X : PY313 v = true |- _ => rewrite X end. rewrite Y. cbn. split; auto.
      + match goal with X : In op (t_haslocal T) |- _ => apply z_mem_In in X; rename X into Y end.
        match goal with X : PY313 v = true |- _ => rewrite X end. rewrite Y. cbn. split; auto.
      + match goal with X : is_dual v T op = true |- _ => pose proof X as XD; rewrite X end.
        pose proof (dual_local v T wf _ _ _ W XD) as Y.
        match goal with X : exists s, x = _ \/ _, X' : exists s, y = _ \/ _ |- _ =>
          destruct X as [s1 [->| ->]]; destruct X' as [s2 [->| ->]] end; cbn; rewrite ?andb_false_r.
        * split; [intros [|]; discriminate|]. intros [_ [[s0 [X|X]]|[s0 [X|X]]]]; discriminate.
        * split; [|now left]. intros _. split; [auto|]. right. eauto.
        * split; [|now left]. intros _. split; [auto|]. left. eauto.
        * split; [|now left]. intros _. split; [auto|]. left. eauto.
      + match goal with X : In op (t_hasconst T) |- _ => rename X into Y end.
        destruct (z_mem op (t_haslocal T)) eqn:ML; [now destruct (LC eq_refl)|].
        destruct (is_dual v T op) eqn:MD; [now rewrite (dual_local v T wf _ _ _ W MD) in ML|].
        rewrite andb_false_r. cbn. split; [intros [|]; discriminate|tauto].
      + match goal with X : as_int a = Some _ |- _ => destruct a; try discriminate X end; cbn; rewrite !andb_false_r;
          (split; [intros [|]; discriminate|]); intros [_ []].
  Qed.

  Lemma touches_iff R : Forall (fun x => wfop T x /\ doc_arg v T (snd (fst x)) (snd x)) R ->
    existsb (freeish v T false) R = true <-> touches_cells T (map forget R).
  Proof.
    intros F. rewrite Forall_forall in F. rewrite existsb_exists. unfold touches_cells. split.
    - intros ([[n op] a] & I & H). destruct (F _ I) as [W D]. apply freeish_iff in H; [|exact W|exact D].
      exists n, a, op. destruct H, W. repeat split; auto. apply in_map_iff. now exists (n, op, a).
    - intros (n & a & op & I & H & N & D). apply in_map_iff in I. destruct I as ([[n' op'] a'] & E & I).
      injection E as -> ->. destruct (F _ I) as [W D']. destruct W as [W1 W2].
      assert (op' = op) as -> by congruence.
      exists (n, op, a). split; [exact I|]. apply freeish_iff; auto. now split.
  Qed.

  Lemma awaits_iff R : awaits_b v R = true <-> awaits v (map forget R).
  Proof.
    unfold awaits_b, awaits. now rewrite orb_true_iff, andb_true_iff, uses_b, resumed_iff.
  Qed.
  Lemma yields_iff R : yields_b v R = true <-> yields v (map forget R).
  Proof. unfold yields_b, yields. destruct (PY311 v); [apply resumed_iff|apply uses_b]. Qed.
  Lemma delegates_iff R : delegates_b v R = true <-> delegates v (map forget R).
  Proof. apply uses_b. Qed.
  Lemma names_iff R : names_b R = true <-> uses_names (map forget R).
  Proof. apply uses_b. Qed.
End Bridge.

(** ** Flag words *)

Lemma has_flag_has f x : has_flag f x = true <-> has f x.
Proof. unfold has_flag, has. rewrite negb_true_iff. apply Z.eqb_neq. Qed.
Lemma has_flag_hasn f x : has_flag f x = false <-> ~ has f x.
Proof. rewrite <- has_flag_has. destruct (has_flag f x); split; congruence. Qed.

(** ** Iteration of a Bytecode does not raise when TryBegin are not nested *)
Definition closed_from (seen : bool) (l : list bitem) : Prop :=
  not_nested l /\ (seen = true -> forall mid id t la d post, l = mid ++ BTB id t la d :: post ->
    exists k, In (BTE k) mid).

Lemma closed_cons seen x l : closed_from seen (x :: l) ->
  closed_from (match x with BTB _ _ _ _ => true | BTE _ => false | _ => seen end) l
  /\ (forall id t la d, x = BTB id t la d -> seen = false).
Proof.
  intros [N S]. split; [split|].
  - intros pre id t la d mid id' t' la' d' post ->. apply (N (x :: pre) id t la d mid id' t' la' d' post).
    reflexivity.
  - intros Q mid id t la d post E.
    assert (G : seen = true -> (forall k, x <> BTE k) -> exists k, In (BTE k) mid).
    { intros X NX. destruct (S X (x :: mid) id t la d post) as (k & [I|I]).
      - now rewrite E.
      - now destruct (NX k).
      - eauto. }
    destruct x; try (apply G; [exact Q|discriminate]); try discriminate.
    apply (N [] id0 target lasti depth mid id t la d post). now rewrite E.
  - intros id t la d ->. destruct seen; [|reflexivity].
    destruct (S eq_refl [] id t la d l eq_refl) as (k & []).
Qed.

Lemma closed_no_raise l : forall seen, closed_from seen l ->
  Forall (fun x => forall e, x <> FRaise e) (fitems seen l).
Proof.
  induction l as [|x l IH]; intros seen C; [constructor|].
  apply closed_cons in C. destruct C as [C B].
  destruct x; cbn [fitems]; try (constructor; [discriminate|]; now apply IH).
  rewrite (B _ _ _ _ eq_refl). constructor; [discriminate|]. now apply IH.
Qed.

(** ** The loop returns when every YIELD_VALUE is followed by RESUME *)
Lemma fitems_no_tuple l : forall seen, Forall (fun x => x <> FTuple) (fitems seen l).
Proof.
  induction l as [|x l IH]; intros seen; [constructor|].
  destruct x; cbn [fitems]; try (constructor; [discriminate|apply IH]).
  destruct seen; repeat constructor; try discriminate. apply IH.
Qed.

Lemma next_real_ok l n op a R : Forall (fun x => forall e, x <> FRaise e) l -> Forall (fun x => x <> FTuple) l ->
  reals l = (n, op, a) :: R -> exists l', next_real l = Ok (FInstr n op a, l') /\ reals l' = R
   /\ (length l' < length l)%nat /\ Forall (fun x => forall e, x <> FRaise e) l' /\ Forall (fun x => x <> FTuple) l'.
Proof.
  induction l as [|x l IH]; cbn; [discriminate|]. intros F G E.
  inversion F as [|? ? F1 F2]; inversion G as [|? ? G1 G2]; subst.
  destruct x; try (now destruct (F1 e)); try congruence.
  - destruct (IH F2 G2 E) as (l' & A & B & C & D). exists l'. repeat split; auto; try lia; apply D.
  - cbn in E. injection E as -> -> -> <-. exists l. repeat split; auto.
Qed.

Lemma loop_total v T (wf : wf_optable v T = true) concrete fuel : forall l s, (length l <= fuel)%nat ->
  Forall (wfop T) (reals l) -> resumes_follow v (map forget (reals l)) ->
  Forall (fun x => forall e, x <> FRaise e) l -> Forall (fun x => x <> FTuple) l ->
  exists s', infer_loop v T concrete fuel l s = Ok s'.
Proof.
  induction fuel as [|f IH]; intros l s L W RF F G; [eexists; reflexivity|].
  destruct l as [|x l]; [eexists; reflexivity|]. cbn in L.
  inversion F as [|? ? F1 F2]; inversion G as [|? ? G1 G2]; subst.
  destruct x as [| |e|n op a]; try (now destruct (F1 e)); try congruence.
  { cbn [infer_loop]. apply IH; auto. lia. }
  change (reals (FInstr n op a :: l)) with ((n, op, a) :: reals l) in *.
  inversion W as [|x0 R Wx Wl]; subst.
  assert (RF' : resumes_follow v (map forget (reals l))).
  { intros P pre y post E. apply (RF P ((n, a) :: pre) y post). cbn [map forget]. now rewrite E. }
  cbn [infer_loop]. destruct s as [opt fr asy gen pos].
  destruct (unoptimized_op T op); [apply IH; auto; lia|].
  destruct (async_op v T op); [apply IH; auto; lia|].
  destruct (yield_op T op) eqn:Y.
  - destruct (PY311 v) eqn:P; [|apply IH; auto; lia].
    rewrite (yield_named v T wf _ _ _ Wx) in Y. apply String.eqb_eq in Y. subst n.
    destruct (RF P [] a (map forget (reals l)) eq_refl) as (a' & z & rest & E & Z0).
    destruct (reals l) as [|[[m op'] b] R] eqn:ER; [discriminate|]. cbn in E. injection E as -> -> E.
    destruct (next_real_ok l _ _ _ _ F2 G2 ER) as (l' & N & R1 & L1 & F3 & G3).
    rewrite N. cbn [bind]. rewrite String.eqb_refl. cbn [guard bind]. rewrite Z0. cbn [of_option bind].
    inversion Wl; subst.
    assert (RF2 : resumes_follow v (map forget (reals l'))).
    { intros _ pre y post E'. apply (RF' P (("RESUME", a') :: pre) y post). cbn [map forget]. now rewrite E'. }
    destruct (Z.land z 3 =? 3); apply IH; auto; lia.
  - destruct (generator_like_op v T op); [apply IH; auto; lia|].
    destruct (z_mem op (t_hasfree T)); [apply IH; auto; lia|].
    destruct (negb concrete && is_dual v T op && dual_cell a); [apply IH; auto; lia|].
    destruct (PY313 v && z_mem op (t_haslocal T) && is_cell_or_free a); apply IH; auto; lia.
Qed.

(** ** The inferred word *)
Definition word (opt fr : bool) (k flags : Z) : Z :=
  Z.lor (Z.lor (Z.lor (Z.lor (if opt then 1 else 0) (if fr then 0 else 64)) (Z.land flags 30)) k)
        (Z.land flags 0x800000).

Lemma infer_word v T concrete ce fv flags items ia out :
  infer_flags v T concrete ce fv flags items ia = Ok out ->
  exists s k, infer_loop v T concrete (length items) items
      (mkF true (concrete && (0 <? zlen ce) && (0 <? zlen fv)) false false false) = Ok s
    /\ kind_flag flags ia s = Ok k /\ out = word (f_optimized s) (f_has_free s) k flags.
Proof.
  unfold infer_flags. intros E.
  destruct (infer_loop _ _ _ _ _ _) as [s|] eqn:L; [|discriminate]. cbn [bind] in E.
  destruct (kind_flag flags ia s) as [k|] eqn:K; [|discriminate]. cbn [bind] in E.
  exists s, k. repeat split; auto. injection E as <-. unfold word.
  change (Z.lor (Z.lor (Z.lor NEWLOCALS VARARGS) VARKEYWORDS) NESTED) with 30.
  destruct (f_optimized s), (f_has_free s); reflexivity.
Qed.

Lemma kinds flags ia s k : kind_flag flags ia s = Ok k ->
  k = 0 \/ k = GENERATOR \/ k = COROUTINE \/ k = ITERABLE_COROUTINE \/ k = ASYNC_GENERATOR.
Proof.
  unfold kind_flag. destruct s as [o fr a g p].
  repeat match goal with
  | |- match ?b with _ => _ end = _ -> _ => destruct b
  end; try discriminate; intros E; injection E as <-;
  repeat match goal with |- context[if ?b then _ else _] => destruct b end; tauto.
Qed.

Lemma land_word opt fr k flags x :
  Z.land (word opt fr k flags) x
  = Z.lor (Z.lor (Z.lor (Z.lor (Z.land (if opt then 1 else 0) x) (Z.land (if fr then 0 else 64) x))
                        (Z.land flags (Z.land 30 x))) (Z.land k x))
          (Z.land flags (Z.land 0x800000 x)).
Proof. unfold word. now rewrite !Z.land_lor_distr_l, <- !Z.land_assoc. Qed.

Ltac bits K := destruct K as [-> |[-> |[-> |[-> | ->]]]].

Lemma word_kind opt fr k flags x : (k = 0 \/ k = GENERATOR \/ k = COROUTINE \/ k = ITERABLE_COROUTINE \/ k = ASYNC_GENERATOR) ->
  In x [GENERATOR; COROUTINE; ITERABLE_COROUTINE; ASYNC_GENERATOR] ->
  has (word opt fr k flags) x <-> k = x.
Proof.
  intros K I. unfold has. rewrite land_word.
  destruct I as [<-|[<-|[<-|[<-|[]]]]]; bits K; destruct opt, fr; cbn -[Z.lor Z.land];
    rewrite ?Z.land_0_r; vm_compute; split; congruence.
Qed.
Lemma word_opt opt fr k flags : (k = 0 \/ k = GENERATOR \/ k = COROUTINE \/ k = ITERABLE_COROUTINE \/ k = ASYNC_GENERATOR) ->
  has (word opt fr k flags) OPTIMIZED <-> opt = true.
Proof.
  intros K. unfold has. rewrite land_word.
  bits K; destruct opt, fr; cbn -[Z.lor Z.land]; rewrite ?Z.land_0_r; vm_compute; split; congruence.
Qed.
Lemma word_nofree opt fr k flags : (k = 0 \/ k = GENERATOR \/ k = COROUTINE \/ k = ITERABLE_COROUTINE \/ k = ASYNC_GENERATOR) ->
  has (word opt fr k flags) NOFREE <-> fr = false.
Proof.
  intros K. unfold has. rewrite land_word.
  bits K; destruct opt, fr; cbn -[Z.lor Z.land]; rewrite ?Z.land_0_r; vm_compute; split; congruence.
Qed.
Lemma word_kept opt fr k flags x : (k = 0 \/ k = GENERATOR \/ k = COROUTINE \/ k = ITERABLE_COROUTINE \/ k = ASYNC_GENERATOR) ->
  In x [NEWLOCALS; VARARGS; VARKEYWORDS; NESTED; FUTURE_GENERATOR_STOP] ->
  Z.land (word opt fr k flags) x = Z.land flags x.
Proof.
  intros K I. rewrite land_word.
  destruct I as [<-|[<-|[<-|[<-|[<-|[]]]]]]; bits K; destruct opt, fr; cbn -[Z.lor Z.land];
  repeat match goal with |- context[Z.land (Zpos ?a) (Zpos ?b)] =>
     let z := eval vm_compute in (Z.land (Zpos a) (Zpos b)) in change (Z.land (Zpos a) (Zpos b)) with z end;
  rewrite ?Z.land_0_r, ?Z.land_0_l, ?Z.lor_0_l, ?Z.lor_0_r; reflexivity.
Qed.

Section Infer.
  Variables (v : pyver) (T : optable).
  Hypothesis wf : wf_optable v T = true.
  Hypothesis wff : wf_flags v T = true.

  (** a concrete instruction of a free-variable opcode *)
  Definition free_opcode (P : listing) : Prop :=
    exists n a op, In (n, a) P /\ opmap T n = Some op /\ In op (t_hasfree T).

  Lemma infer_state c ia out : legal_code v T c -> infer v T c ia = Ok out ->
    exists o fr a g p k, kind_flag (code_flags c) ia (mkF o fr a g p) = Ok k
      /\ out = word o fr k (code_flags c)
      /\ (o = true <-> ~ uses_names (code_listing c)) /\ (a = true <-> awaits v (code_listing c))
      /\ (g = true <-> yields v (code_listing c)) /\ (p = true <-> delegates v (code_listing c))
      /\ (fr = true <-> match c with
                        | Abstract _ => touches_cells T (code_listing c)
                        | Concrete cb => (m_cellvars (cb_meta cb) <> [] /\ m_freevars (cb_meta cb) <> [])
                                         \/ free_opcode (code_listing c) end).
  Proof.
    intros L E.
    assert (X : exists concrete ce fv items,
      infer_flags v T concrete ce fv (code_flags c) items ia = Ok out
      /\ (forall s', infer_loop v T concrete (length items) items
           (mkF true (concrete && (0 <? zlen ce) && (0 <? zlen fv)) false false false) = Ok s' ->
          map forget (reals items) = code_listing c)
      /\ Forall (wfop T) (reals items)
      /\ (map forget (reals items) = code_listing c ->
          ((concrete && (0 <? zlen ce) && (0 <? zlen fv)) || existsb (freeish v T concrete) (reals items) = true
          <-> match c with
             | Abstract _ => touches_cells T (code_listing c)
             | Concrete cb => (m_cellvars (cb_meta cb) <> [] /\ m_freevars (cb_meta cb) <> [])
                                         \/ free_opcode (code_listing c) end))).
    { destruct c as [b|cb]; cbn [infer code_flags code_listing legal_code] in *.
      - exists false, (m_cellvars (b_meta b)), (m_freevars (b_meta b)), (fitems false (b_items b)).
        pose proof (fitems_wf v T (b_items b) false L) as W.
        split; [exact E|]. split; [|split].
        + intros s' H. apply fitems_listing. eapply loop_no_raise; [|exact H]. lia.
        + eapply Forall_impl; [|exact W]. now intros x [? ?].
        + intros H. cbn [andb orb]. rewrite <- H. now apply touches_iff.
      - exists true, (m_cellvars (cb_meta cb)), (m_freevars (cb_meta cb)), (map fitem_of_citem (cb_items cb)).
        split; [exact E|]. split; [|split].
        + intros _ _. apply citems_listing.
        + apply (citems_wf v T _ L).
        + intros H. rewrite orb_true_iff. cbn [andb].
          assert (Z1 : forall A (l : list A), (0 <? zlen l) = true <-> l <> []).
          { intros A l. destruct l; unfold zlen; cbn; split; congruence. }
          rewrite andb_true_iff, !Z1. apply or_iff_compat_l. rewrite <- H, existsb_exists. split.
          * intros ([[n op] a] & I & Q). exists n, a, op.
            pose proof (citems_wf v T _ L) as W. rewrite Forall_forall in W. destruct (W _ I) as [W1 W2].
            repeat split; [|exact W1|].
            -- apply in_map_iff. now exists (n, op, a).
            -- unfold freeish in Q. cbn [negb andb orb] in Q. rewrite orb_false_r in Q. apply orb_prop in Q.
               destruct Q as [Q|Q]; [now apply z_mem_In|].
               assert (is_cell_or_free a = false) as N.
               { unfold reals in I. apply in_flat_map in I. destruct I as (x & I1 & I2).
                 apply in_map_iff in I1. destruct I1 as (y & <- & _). destruct y as [c|]; cbn in I2; [|contradiction].
                 destruct I2 as [I2|[]]. injection I2 as _ _ <-. unfold c_pyarg. now destruct (c_arg c). }
               rewrite N, andb_false_r in Q. discriminate.
          * intros (n & a & op & I & Q1 & Q2). apply in_map_iff in I. destruct I as ([[n' op'] a'] & E1 & I).
            injection E1 as -> ->. exists (n, op', a). split; [exact I|].
            pose proof (citems_wf v T _ L) as W. rewrite Forall_forall in W. destruct (W _ I) as [W1 W2].
            assert (op' = op) as -> by congruence. unfold freeish. apply z_mem_In in Q2. now rewrite Q2. }
    destruct X as (concrete & ce & fv & items & X1 & X2 & X3 & X4).
    destruct (infer_word _ _ _ _ _ _ _ _ _ X1) as (s & k & H1 & H2 & H3).
    specialize (X2 _ H1). specialize (X4 X2).
    apply loop_spec in H1; auto. cbn [f_optimized f_has_free f_async f_gen f_possible orb andb] in H1.
    rewrite H1 in H2, H3. cbn [f_optimized f_has_free] in H3.
    do 6 eexists. split; [exact H2|]. split; [exact H3|]. cbn [andb orb].
    rewrite awaits_iff, yields_iff, delegates_iff, X2.
    split; [|split; [reflexivity|split; [reflexivity|split; [reflexivity|exact X4]]]].
    rewrite negb_true_iff, <- X2, <- names_iff. destruct (names_b (reals items)); split; congruence.
  Qed.

  Lemma infer_total c ia : legal_code v T c -> code_not_nested c -> resumes_follow v (code_listing c) ->
    (exists out, infer v T c ia = Ok out)
    \/ infer v T c ia = Err ValueError /\ awaits v (code_listing c)
       /\ (ia = Some false \/ was_iterable (code_flags c)).
  Proof.
    intros L N RF.
    assert (X : exists concrete ce fv items s,
      infer v T c ia = infer_flags v T concrete ce fv (code_flags c) items ia
      /\ infer_loop v T concrete (length items) items
           (mkF true (concrete && (0 <? zlen ce) && (0 <? zlen fv)) false false false) = Ok s
      /\ map forget (reals items) = code_listing c /\ Forall (wfop T) (reals items)).
    { destruct c as [b|cb]; cbn [infer code_flags code_listing legal_code code_not_nested] in *.
      - assert (C : closed_from false (b_items b)) by (split; [exact N|discriminate]).
        pose proof (closed_no_raise _ _ C) as NR. pose proof (fitems_listing _ _ NR) as FL.
        pose proof (fitems_wf v T (b_items b) false L) as W.
        assert (W' : Forall (wfop T) (reals (fitems false (b_items b)))).
        { eapply Forall_impl; [|exact W]. now intros x [? ?]. }
        destruct (loop_total v T wf false (length (fitems false (b_items b))) (fitems false (b_items b))
          (mkF true (false && (0 <? zlen (m_cellvars (b_meta b))) && (0 <? zlen (m_freevars (b_meta b)))) false false false)) as (s & Hs); auto.
        { now rewrite FL. } { apply fitems_no_tuple. }
        do 4 eexists. exists s. split; [reflexivity|]. auto.
      - assert (W' := citems_wf v T _ L).
        destruct (loop_total v T wf true (length (map fitem_of_citem (cb_items cb))) (map fitem_of_citem (cb_items cb))
          (mkF true (true && (0 <? zlen (m_cellvars (cb_meta cb))) && (0 <? zlen (m_freevars (cb_meta cb)))) false false false)) as (s & Hs); auto.
        { now rewrite citems_listing. }
        { apply Forall_forall. intros x I. apply in_map_iff in I. destruct I as ([]& <- & _); discriminate. }
        { apply Forall_forall. intros x I. apply in_map_iff in I. destruct I as ([]& <- & _); discriminate. }
        do 4 eexists. exists s. split; [reflexivity|]. split; [exact Hs|]. split; [apply citems_listing|exact W']. }
    destruct X as (concrete & ce & fv & items & s & X1 & X2 & X3 & X4).
    rewrite X1. unfold infer_flags. rewrite X2. cbn [bind].
    apply loop_spec in X2; auto. cbn [f_optimized f_has_free f_async f_gen f_possible orb andb] in X2.
    rewrite X2. unfold kind_flag. rewrite <- X3, <- awaits_iff.
    assert (WI : has_flag (code_flags c) COROUTINE || has_flag (code_flags c) ASYNC_GENERATOR = false ->
      has_flag (code_flags c) ITERABLE_COROUTINE = true -> was_iterable (code_flags c)).
    { intros A B. apply orb_false_iff in A. destruct A as [A1 A2]. rewrite has_flag_hasn in A1, A2.
      split; [|now apply has_flag_has]. unfold was_async. tauto. }
    destruct ia as [[|]|].
    - destruct (has_flag (code_flags c) COROUTINE || has_flag (code_flags c) ASYNC_GENERATOR) eqn:A; [left; eexists; reflexivity|].
      destruct (has_flag (code_flags c) ITERABLE_COROUTINE) eqn:B.
      + destruct (awaits_b v (reals items)); [right|left; eexists; reflexivity]. repeat split; auto.
        all: now apply WI.
      + left. destruct (awaits_b v (reals items)); [eexists; reflexivity|].
        destruct (yields_b v (reals items) || delegates_b v (reals items)); eexists; reflexivity.
    - destruct (awaits_b v (reals items)); [right; repeat split; auto|left; eexists; reflexivity].
    - destruct (has_flag (code_flags c) COROUTINE || has_flag (code_flags c) ASYNC_GENERATOR) eqn:A; [left; eexists; reflexivity|].
      destruct (has_flag (code_flags c) ITERABLE_COROUTINE) eqn:B.
      + destruct (awaits_b v (reals items)); [right|left; eexists; reflexivity]. repeat split; auto.
        all: now apply WI.
      + left. destruct (awaits_b v (reals items)); [eexists; reflexivity|].
        destruct (yields_b v (reals items) || delegates_b v (reals items)); eexists; reflexivity.
  Qed.

  (** which kind is inferred *)
  Lemma kind_table flags ia o fr a g p k P : kind_flag flags ia (mkF o fr a g p) = Ok k ->
    (a = true <-> awaits v P) -> (g = true <-> yields v P) -> (p = true <-> delegates v P) ->
    (k = ASYNC_GENERATOR <-> async_result v flags ia P /\ yields v P)
    /\ (k = COROUTINE <-> async_result v flags ia P /\ ~ yields v P)
    /\ (k = ITERABLE_COROUTINE <-> ia <> Some false /\ was_iterable flags)
    /\ (k = GENERATOR <-> ~ async_result v flags ia P /\ ~ (ia <> Some false /\ was_iterable flags)
                          /\ (yields v P \/ delegates v P)).
  Proof.
    intros E A G D. unfold async_result, was_iterable, was_async.
    rewrite <- A, <- G, <- D. clear A G D. rewrite <- !has_flag_has. unfold kind_flag in E.
    unfold ASYNC_GENERATOR, COROUTINE, ITERABLE_COROUTINE, GENERATOR in *.
    destruct (has_flag flags 128), (has_flag flags 512), (has_flag flags 256), ia as [[|]|], a, g, p;
      cbn in E; try discriminate; injection E as <-; intuition congruence.
  Qed.
End Infer.
