(** The stack size computation: proofs. *)
From Coq Require Import Lia.
From Verif Require Import PyBase OpTable M_Instr M_Concrete M_Bytecode M_Flags M_Cfg M_Stack S_Cfg S_Stack P_Base P_Cfg.
Open Scope string_scope.
Open Scope list_scope.
Open Scope Z_scope.

Lemma trailing_hd l : trailing_end l = hd_error (ends_after l).
Proof. induction l as [|[] l IH]; simpl; auto. Qed.

Lemma dget_dset_same {V} (d : list (nat * V)) k x : dget Nat.eqb (dset Nat.eqb d k x) k = Some x.
Proof. rewrite dg_set, Nat.eqb_refl. reflexivity. Qed.
Lemma dget_dset_other {V} (d : list (nat * V)) k k' x : k' <> k -> dget Nat.eqb (dset Nat.eqb d k x) k' = dget Nat.eqb d k'.
Proof. intros E. rewrite dg_set. destruct (Nat.eqb_spec k' k); congruence. Qed.

Lemma elem_skip (g : cfg) b pre it r :
  k_items (blk g b) = pre ++ it :: r -> elem g b (length pre) = Some it /\ after g b (length pre) = ends_after r.
Proof.
  intros E. unfold elem, after. rewrite E. split.
  - rewrite nth_error_app2, Nat.sub_diag by lia. reflexivity.
  - rewrite skipn_app, skipn_all2 by lia. cbn [app].
    replace (S (length pre) - length pre)%nat with 1%nat by lia. reflexivity.
Qed.
Lemma elem_end (g : cfg) b pre : k_items (blk g b) = pre -> elem g b (length pre) = None.
Proof. intros E. unfold elem. rewrite E. apply nth_error_None. lia. Qed.


(** ** Steps in a block *)
Section Line.
  Variables (T : optable) (ef : instr -> bool -> option (Z * Z)) (g : cfg).
  Notation step := (step T ef g).
  Notation line := (line T ef g).

  Lemma step_in b i d o c : step (b, i, d, o) c -> index_of c <> O -> exists d' o', c = (b, S i, d', o').
  Proof. intros ST N. inversion ST; subst; cbn in N; try congruence; eauto. Qed.

  Lemma line_idx c c' : line c c' -> block_of c' = block_of c /\ (index_of c <= index_of c')%nat.
  Proof.
    intros L. induction L as [|c1 c2 L [IH1 IH2] ST N]; auto.
    destruct c1 as [[[b i] d] o]. destruct (step_in _ _ _ _ _ ST N) as (d' & o' & ->). cbn in *. split; [auto|lia].
  Qed.

  Lemma line_trans c1 c2 c3 : line c1 c2 -> line c2 c3 -> line c1 c3.
  Proof. intros A B. induction B; auto. eapply ln_step; eauto. Qed.

  (** the depth after a step that stays in the block does not depend on the try block *)
  Lemma step_det b i d o o1 c c1 : step (b, i, d, o) c -> step (b, i, d, o1) c1 -> index_of c <> O -> index_of c1 <> O ->
    snd (fst c) = snd (fst c1) /\ (o = o1 -> c = c1).
  Proof.
    intros A B N N1. inversion A; subst; inversion B; subst; cbn in N, N1; try congruence; cbn;
      split; try reflexivity; try (intros ->); try congruence.
  Qed.

  Lemma line_split c c' i : line c c' -> (index_of c <= i <= index_of c')%nat ->
    exists d o, line c (block_of c, i, d, o) /\ line (block_of c, i, d, o) c'.
  Proof.
    intros L. revert i. induction L as [|c1 c2 L IH ST N]; intros i LE.
    - destruct c as [[[b j] d] o]. cbn in *. assert (i = j) by lia. subst i. exists d, o. split; constructor.
    - destruct c1 as [[[b1 i1] d1] o1]. destruct (step_in _ _ _ _ _ ST N) as (d' & o' & ->). cbn in *.
      destruct (Nat.eq_dec i (S i1)) as [->|NE].
      + destruct (line_idx _ _ L) as [B _]. cbn in B. exists d', o'. rewrite <- B. split; [eapply ln_step; eauto|constructor].
      + destruct (IH i) as (d & o & A1 & A2); [cbn; lia|]. exists d, o. split; auto. eapply ln_step; eauto.
  Qed.

  Lemma line_det b i0 D o1 o2 c1 c2 : line (b, i0, D, o1) c1 -> line (b, i0, D, o2) c2 -> index_of c1 = index_of c2 ->
    snd (fst c1) = snd (fst c2) /\ (o1 = o2 -> c1 = c2).
  Proof.
    intros L1. revert c2. induction L1 as [|c1 c1' L1 IH ST N]; intros c2 L2 E.
    - cbn in E. destruct L2 as [|c3 c4 L3 ST3 N3]; [split; [reflexivity|intros ->; reflexivity]|].
      exfalso. destruct c3 as [[[b3 i3] d3] o3]. destruct (step_in _ _ _ _ _ ST3 N3) as (d' & o' & ->). cbn in E.
      destruct (line_idx _ _ L3) as [_ X]. cbn in X. lia.
    - destruct c1 as [[[b1 i1] d1] q1]. destruct (step_in _ _ _ _ _ ST N) as (d' & o' & ->). cbn in E.
      destruct (line_idx _ _ L1) as [B1 X1]. cbn in B1, X1. subst b1.
      destruct L2 as [|c3 c4 L3 ST3 N3]; [cbn in E; lia|].
      destruct c3 as [[[b3 i3] d3] o3]. destruct (step_in _ _ _ _ _ ST3 N3) as (d4 & o4 & ->). cbn in E.
      destruct (line_idx _ _ L3) as [B3 X3]. cbn in B3, X3. subst b3. assert (i3 = i1) by lia. subst i3.
      destruct (IH _ L3 eq_refl) as [Y1 Y2]. cbn in Y1. subst d3.
      destruct (step_det _ _ _ _ _ _ _ ST ST3 N N3) as [Z1 Z2]. split; [exact Z1|]. intros ->. apply Z2.
      specialize (Y2 eq_refl). congruence.
  Qed.
End Line.

Section Errors.
  Variables (v : pyver) (T : optable) (se : oracle) (check : bool).
  Lemma iter_elem pre it r : block_iter T (pre ++ it :: r) = Ok tt -> elem_check T it r = Ok tt.
  Proof.
    induction pre as [|x pre IH]; cbn [app block_iter]; intros E.
    - destruct (elem_check T it r) as [[]|]; [reflexivity|discriminate].
    - destruct (elem_check T x (pre ++ it :: r)); [|discriminate]. apply IH. exact E.
  Qed.

  Lemma elem_check_err it r e : elem_check T it r = Err e -> e = ValueError.
  Proof.
    unfold elem_check. destruct it as [i|l|z|id t la d|id]; try discriminate; try congruence.
    - destruct (has_jump T i); [|discriminate]. destruct (existsb is_BI r); [congruence|].
      destruct (i_arg i); try discriminate; congruence.
    - destruct t; try discriminate; congruence.
  Qed.

  Lemma stack_effect_err x j e : stack_effect v T se x j = Err e -> e <> RuntimeError.
  Proof.
    unfold stack_effect, guard, of_option. intros X.
    repeat match type of X with
           | context [match ?y with _ => _ end] => destruct y; cbn [bind] in X
           | context [if ?y then _ else _] => destruct y; cbn [bind] in X
           end; congruence.
  Qed.

  Lemma dynamic_err n e0 arg j e : dynamic_effect v T n e0 arg j = Some (Err e) -> e <> RuntimeError.
  Proof.
    unfold dynamic_effect, of_option. intros X.
    destruct (as_int arg); cbn [bind] in X.
    - repeat match type of X with
             | context [if ?y then _ else _] => destruct y
             end; discriminate.
    - repeat match type of X with
             | context [if ?y then _ else _] => destruct y
             end; congruence.
  Qed.

  Lemma used_effect_err x j e : used_effect v T se check x j = Err e -> e <> RuntimeError.
  Proof.
    unfold used_effect, pre_and_post. intros X. destruct check.
    - destruct (stack_effect v T se x (Some j)) as [z|e'] eqn:S0; cbn [bind] in X.
      + destruct (static_effect v T (i_name x)); [discriminate|].
        destruct (dynamic_effect _ _ _ _ _ _) as [[]|] eqn:D; try discriminate.
        apply dynamic_err in D. congruence.
      + apply stack_effect_err in S0. congruence.
    - destruct (stack_effect v T se x (Some j)) as [z|e'] eqn:S0; cbn [bind] in X; [discriminate|].
      apply stack_effect_err in S0. congruence.
  Qed.

  Lemma find_tb_in id l t la d : find_tb id l = Some (t, la, d) -> In (BTB id t la d) l.
  Proof.
    induction l as [|y l IH]; cbn [find_tb]; [discriminate|].
    destruct y as [| | |id' t' la' d'|]; try (intros X; right; auto; fail).
    destruct (Nat.eqb_spec id id') as [<-|]; intros X; [injection X as <- <- <-; left; reflexivity|right; auto].
  Qed.
  Lemma find_tb_some id l t la d : In (BTB id t la d) l -> find_tb id l <> None.
  Proof.
    induction l as [|y l IH]; cbn [find_tb]; [intros []|].
    intros [->|X].
    - rewrite Nat.eqb_refl. discriminate.
    - destruct y as [| | |id' t' la' d'|]; auto. destruct (Nat.eqb id id'); [discriminate|auto].
  Qed.

  Lemma ends_in id l : hd_error (ends_after l) = Some id -> In (BTE id) l.
  Proof.
    induction l as [|y l IH]; [discriminate|]. destruct y; cbn; intros X; try (right; apply IH; exact X).
    injection X as <-. left. reflexivity.
  Qed.

  Lemma filter_self b s : ~ In b s -> filter (fun n => negb (Nat.eqb b n)) (b :: s) = s.
  Proof.
    intros N. cbn [filter]. rewrite Nat.eqb_refl. cbn [negb].
    induction s as [|x s IH]; auto. cbn [filter].
    destruct (Nat.eqb_spec b x) as [->|NE]; [destruct N; left; reflexivity|]. cbn [negb].
    rewrite IH; auto. intros X. apply N. right. exact X.
  Qed.

End Errors.
Definition eff (v : pyver) (T : optable) (se : oracle) (check : bool) (x : instr) (j : bool) : option (Z * Z) :=
  match used_effect v T se check x j with Ok p => Some p | Err _ => None end.
Definition emb (o : open_try) : option tbinfo :=
  match o with Some (id, h, la) => Some (id, OBlock h, la) | None => None end.
(** items on the stack after the start of a visit *)
Definition start_of (f : Z * option bool) : Z :=
  fst f + match snd f with Some la => pushed la | None => 0 end.
Definition fin (C : common) (b : nat) (f : Z * option bool) : Prop :=
  exists l, dget Nat.eqb (c_starts C) b = Some l /\ In f l.

Section P.
  Variables (v : pyver) (T : optable) (se : oracle) (check : bool) (g : cfg) (first : Z) (H : nat -> Z)
    (cov : nat -> nat -> nat -> bool -> Prop).
  Notation eff := (eff v T se check).
  Notation At := (at_ T eff g first H cov).
  Notation Way := (way T eff g first H).
  Notation Step := (step T eff g).

  Hypothesis R : regular T eff g first H cov.
  Hypothesis CO : coherent g.
  Hypothesis TK : try_known v g.

  (** a visit with the depth with which control enters the block *)
  Definition low (b : nat) (f : Z * option bool) : Prop := exists o, At (b, O, start_of f, o).
  Definition ldone (C : common) (b : nat) : Prop := exists f, fin C b f /\ low b f.
  Definition lowseen (C : common) : Prop := forall b, In b (c_seen C) -> ldone C b.
  Definition goal (C : common) (h : nat) : Prop := dget Nat.eqb (c_ex_start C) h = Some (H h).
  (** nothing that matters is new *)
  Definition nolow (C C' : common) : Prop :=
    (forall b f, fin C' b f -> fin C b f \/ ~ low b f) /\ forall h, goal C' h -> goal C h.

  (** bounds on the sizes recorded for the handlers not in [s] *)
  Definition Eb (s : list nat) (C : common) (M : Z) : Prop :=
    first <= M /\ forall k m, ~ In k s -> goal C k -> dget Nat.eqb (c_ex_max C) k = Some m -> m <= M.

  Fixpoint closed (C : common) (M : Z) (b : nat) (rest : list bitem) (d : Z) : Prop :=
    d <= M /\
    match rest with
    | [] => match k_next (blk g b) with
            | Some m => k_items (blk g m) = [] \/ ldone C m
            | None => True
            end
    | it :: r =>
        match it with
        | BSet _ => closed C M b r d
        | BLabel _ => False
        | BTB id t la _ => (exists h, t = OBlock h) /\ In (id, t, la) (c_tbs C) /\ closed C M b r d
        | BTE id => closed C M b r d
        | BI x =>
            (has_jump T x = true ->
               exists n pre post, i_arg x = OBlock n /\ eff x true = Some (pre, post) /\ 0 <= d + pre
                 /\ d + pre + post <= M /\ ldone C n)
            /\ (has_jump T x = false \/ is_uncond_jump_name (i_name x) = false ->
                  exists pre post, eff x false = Some (pre, post) /\ 0 <= d + pre /\ d + pre + post <= M
                    /\ (is_final x = false -> closed C M b r (d + pre + post)))
        end
    end.

  Record Inv (C : common) : Prop := {
    inv_keys : forall b, In b (g_order g) ->
      dget Nat.eqb (c_starts C) b <> None /\ dget Nat.eqb (c_ex_start C) b <> None /\ dget Nat.eqb (c_ex_max C) b <> None;
    inv_order : forall b l, dget Nat.eqb (c_starts C) b = Some l -> In b (g_order g);
    inv_at : forall b f, fin C b f -> exists d o, At (b, O, d, o) /\ d <= start_of f /\ (PY311 v = false -> d = start_of f);
    inv_ex : forall h s, dget Nat.eqb (c_ex_start C) h = Some s -> H h <= s /\ (s = H h -> ldone C h);
    inv_tbs : forall id t la, In (id, t, la) (c_tbs C) ->
      exists h b i d, t = OBlock h /\ At (b, i, d, Some (id, h, la)) }.

  Record ext (s : list nat) (m : Z) (C C' : common) : Prop := {
    e_ex : forall k, goal C k -> goal C' k /\ dget Nat.eqb (c_ex_max C') k = dget Nat.eqb (c_ex_max C) k;
    e_fin : forall b f, fin C b f -> fin C' b f;
    e_tbs : incl (c_tbs C) (c_tbs C');
    e_new : forall b f, fin C' b f -> fin C b f \/
      (low b f -> forall M, m <= M -> Eb s C' M -> closed C' M b (k_items (blk g b)) (start_of f)) }.

  Record grow (C C' : common) : Prop := {
    g_ex : forall k, goal C k -> goal C' k;
    g_fin : forall b f, fin C b f -> fin C' b f;
    g_tbs : incl (c_tbs C) (c_tbs C') }.
  Lemma ext_grow s m C C' : ext s m C C' -> grow C C'.
  Proof. intros E. constructor; [|exact (e_fin _ _ _ _ E)|exact (e_tbs _ _ _ _ E)]. intros k X. exact (proj1 (e_ex _ _ _ _ E k X)). Qed.
  Lemma grow_trans C C1 C2 : grow C C1 -> grow C1 C2 -> grow C C2.
  Proof. intros [A B D] [A' B' D']. constructor; auto. intros x X. auto. Qed.
  Lemma grow_refl C : grow C C.
  Proof. constructor; auto. intros x X; exact X. Qed.

  Lemma ldone_grow C C' b : grow C C' -> ldone C b -> ldone C' b.
  Proof. intros G (f & F & L). exists f. split; auto. apply G, F. Qed.
  Lemma lowseen_grow C C' : grow C C' -> c_seen C' = c_seen C -> lowseen C -> lowseen C'.
  Proof. intros G E L b B. rewrite E in B. eapply ldone_grow; eauto. Qed.

  Lemma closed_mono C C' M M' b rest : grow C C' -> M <= M' -> forall d,
    closed C M b rest d -> closed C' M' b rest d.
  Proof.
    intros E LE. induction rest as [|it r IH]; intros d [A B].
    - split; [lia|]. destruct (k_next (blk g b)); auto.
      destruct B as [B|B]; auto. right. eapply ldone_grow; eauto.
    - split; [lia|]. destruct it; auto.
      + destruct B as (B1 & B3). split.
        * intros J. destruct (B1 J) as (n & pre & post & X1 & X2 & X3 & X4 & X5).
          exists n, pre, post. split; [exact X1|]. split; [exact X2|]. split; [lia|]. split; [lia|].
          eapply ldone_grow; eauto.
        * intros J. destruct (B3 J) as (pre & post & X2 & X3 & X4 & X5).
          exists pre, post. split; [exact X2|]. split; [lia|]. split; [lia|]. auto.
      + destruct B as (B1 & B2 & B3). split; auto. split; auto. apply E; exact B2.
  Qed.

  Lemma Eb_back s C C' M : (forall k, goal C k -> goal C' k /\
      dget Nat.eqb (c_ex_max C') k = dget Nat.eqb (c_ex_max C) k) -> Eb s C' M -> Eb s C M.
  Proof.
    intros E [F B]. split; auto. intros k m N X Y. destruct (E k X) as [E1 E2].
    apply (B k m N E1). rewrite E2. exact Y.
  Qed.

  Lemma ext_trans s m1 m2 C C1 C2 : m1 <= m2 -> ext s m1 C C1 -> ext s m2 C1 C2 -> ext s m2 C C2.
  Proof.
    intros LE E1 E2. constructor.
    - intros k X. destruct (e_ex _ _ _ _ E1 k X) as [A B]. destruct (e_ex _ _ _ _ E2 k A) as [A' B'].
      split; auto. congruence.
    - intros b f F. apply E2, E1, F.
    - intros x X. apply E2, E1, X.
    - intros b f F. destruct (e_new _ _ _ _ E2 b f F) as [F1|N]; [|right; exact N].
      destruct (e_new _ _ _ _ E1 b f F1) as [F0|K]; [left; exact F0|right].
      intros L M LM B. eapply closed_mono; [eapply ext_grow; exact E2|apply Z.le_refl|].
      apply K; [exact L|lia|]. eapply Eb_back; [|exact B]. apply E2.
  Qed.

  Lemma ext_refl s m C : ext s m C C.
  Proof. constructor; auto. intros x X; exact X. Qed.

  Lemma ext_weaken s s' m C C' : incl s s' -> ext s' m C C' -> ext s m C C'.
  Proof.
    intros S E. constructor; try apply E.
    intros b f F. destruct (e_new _ _ _ _ E b f F) as [X|K]; [left; auto|right].
    intros L M LM B. apply K; auto.
    destruct B as [B0 B]. split; [exact B0|]. intros k z N. apply B. intros X. apply N, S, X.
  Qed.

  Lemma ext_le s m m' C C' : m <= m' -> ext s m C C' -> ext s m' C C'.
  Proof.
    intros LE E. constructor; try apply E.
    intros b f F. destruct (e_new _ _ _ _ E b f F) as [X|K]; [left; auto|right].
    intros L M LM B. apply K; auto. lia.
  Qed.

  Lemma nolow_refl C : nolow C C.
  Proof. split; auto. Qed.
  Lemma nolow_trans C C1 C2 : nolow C C1 -> nolow C1 C2 -> nolow C C2.
  Proof. intros [A A'] [B B']. split; auto. intros b f F. destruct (B b f F) as [X|X]; auto. Qed.
  Lemma nolow_unsee b C C' : nolow C C' -> nolow C (unsee b C').
  Proof. intros X. exact X. Qed.

  (** ** Outcomes *)

  Definition good {A} (P : A -> Prop) (r : res A) : Prop :=
    match r with
    | Ok a => P a
    | Err e => (e = RuntimeError -> underflow T eff g first H cov)
               /\ (complete T eff g -> e = RuntimeError \/ e = Nontermination)
    end.

  Lemma good_bind {A B} (P : A -> Prop) (Q : B -> Prop) m f :
    good P m -> (forall a, m = Ok a -> P a -> good Q (f a)) -> good Q (bind m f).
  Proof. destruct m; simpl; auto. Qed.

  Lemma good_imp {A} (P Q : A -> Prop) r : (forall a, P a -> Q a) -> good P r -> good Q r.
  Proof. destruct r; simpl; auto. Qed.

  Lemma good_ok {A} (P : A -> Prop) r a : good P r -> r = Ok a -> P a.
  Proof. intros G ->. exact G. Qed.

  Lemma step_order c c' : complete T eff g -> Step c c' ->
    In (block_of c) (g_order g) /\ (forall id h la, snd c = Some (id, h, la) -> In h (g_order g)) ->
    In (block_of c') (g_order g) /\ (forall id h la, snd c' = Some (id, h, la) -> In h (g_order g)).
  Proof.
    intros W ST [B K].
    destruct ST as [b i d o z E|b i d o id h la sd E|b i d o id E|b i d o x pre post E F X|b i d o x n pre post E J AX X|b i d o m E N];
      unfold block_of in *; cbn [fst snd] in *; split; try exact B.
    + exact K.
    + intros id0 h0 la0 Y. injection Y as <- <- <-.
      apply (com_refs _ _ _ W b); [exact B|]. left. right. exists id, la, sd.
      apply nth_error_In with i. exact E.
    + intros id0 h0 la0 Y. unfold close in Y. destruct o as [[[id' h'] la']|]; [|discriminate].
      destruct (Nat.eqb id id'); [discriminate|]. eauto.
    + exact K.
    + apply (com_refs _ _ _ W b); [exact B|]. left. left. exists x. split; auto. apply nth_error_In with i. exact E.
    + intros id0 h0 la0 Y. destruct (_ && _) in Y; [discriminate|eauto].
    + apply (com_refs _ _ _ W b); [exact B|]. right. exact N.
    + exact K.
  Qed.

  Lemma shown_order : complete T eff g -> forall c, shown T eff g first H c ->
    In (block_of c) (g_order g) /\ (forall id h la, snd c = Some (id, h, la) -> In h (g_order g)).
  Proof.
    intros W c A. induction A as [n l E|c c' A IH ST|b i d o id h la sd A IH E SH].
    - unfold block_of. cbn. rewrite E. split; [left; reflexivity|discriminate].
    - eapply step_order; eauto.
    - unfold block_of in *. cbn in *. split; [|discriminate].
      apply (com_refs _ _ _ W b); [apply IH|]. left. right. exists id, la, sd. apply nth_error_In with i. exact E.
  Qed.

  Lemma at_order : complete T eff g -> forall c, At c ->
    In (block_of c) (g_order g) /\ (forall id h la, snd c = Some (id, h, la) -> In h (g_order g)).
  Proof.
    intros W c A. induction A as [n l E|c c' A IH ST|c h la A IH MR].
    - unfold block_of. cbn. rewrite E. split; [left; reflexivity|discriminate].
    - eapply step_order; eauto.
    - apply (shown_order W). destruct (reg_shown _ _ _ _ _ _ R _ _ _ A MR) as (b & i & d & o & id & sd & S1 & S2 & S3).
      eapply sh_raise; eauto.
  Qed.

  Lemma way_at l c : Way l c -> At c.
  Proof.
    intros W. induction W as [n l E|l c c' W IH ST N|l c c' W IH ST N NI|l b i d id h la W IH NI].
    - eapply at_entry; eauto.
    - eapply at_step; eauto.
    - eapply at_step; eauto.
    - eapply at_raise; [exact IH|]. left. exists id. reflexivity.
  Qed.

  Lemma at_open c : At c -> forall id h la, snd c = Some (id, h, la) ->
    exists n sd, In (BTB id (OBlock h) la sd) (k_items (blk g n)).
  Proof.
    intros A. induction A as [n l E|c c' A IH ST|c h la A IH MR]; intros id0 h0 la0 X; cbn [snd] in *; try discriminate.
    destruct ST as [b i d o z E|b i d o id h la sd E|b i d o id E|b i d o x pre post E F Y|b i d o x n pre post E J AX Y|b i d o m E N];
      cbn [snd] in *; eauto.
    - injection X as <- <- <-. exists b, sd. apply nth_error_In with i. exact E.
    - unfold close in X. destruct o as [[[id' h'] la']|]; [|discriminate].
      destruct (Nat.eqb id id'); [discriminate|eauto].
    - destruct (_ && _) in X; [discriminate|eauto].
  Qed.

  Lemma at_311 b i d id h la : At (b, i, d, Some (id, h, la)) -> PY311 v = true.
  Proof.
    intros A. destruct TK as [K|K]; [exact K|]. exfalso. destruct (at_open _ A _ _ _ eq_refl) as (n & sd & IN).
    apply In_nth_error in IN. destruct IN as [j IN]. exact (K n j id (OBlock h) la sd IN).
  Qed.

  Lemma ldone_unsee b C n : ldone (unsee b C) n <-> ldone C n.
  Proof. unfold ldone, fin. cbn [unsee c_starts]. reflexivity. Qed.
  Lemma grow_unsee b C : grow C (unsee b C).
  Proof. constructor; auto. intros x X; exact X. Qed.
  Lemma Inv_unsee b C : Inv C -> Inv (unsee b C).
  Proof. intros [I1 I2 I4 I5 I7]. constructor; auto. Qed.
  Lemma ext_unsee s m b C C' : ext s m C C' -> ext s m C (unsee b C').
  Proof.
    intros E. constructor; try apply E.
    intros k f F. destruct (e_new _ _ _ _ E k f F) as [X|K]; [left; auto|right].
    intros L M LM B. eapply closed_mono; [apply grow_unsee|apply Z.le_refl|]. apply K; auto.
  Qed.

  (** ** A recursive visit: the depth is [d], the size used in it [d + k] *)

  Record cpre (k : Z) (b : nat) (d size mx mn : Z) (exh : option bool) (o : open_try) (C : common) : Prop := {
    cp_inv : Inv C;
    cp_at : At (b, O, d, o);
    cp_size : start_of (size, exh) = d + k;
    cp_k : 0 <= k;
    cp_low : k = 0 -> lowseen C;
    cp_v : PY311 v = false -> k = 0;
    cp_way : ~ In b (c_seen C) -> Way (b :: c_seen C) (b, O, d, o);
    cp_exh : exh <> None -> o = None /\ 0 <= size;
    cp_mn : forall id h la, o = Some (id, h, la) -> ~ In b (c_seen C) -> H h + k <= mn;
    cp_mn2 : o <> None -> mn <= size;
    cp_mx : 0 <= mx;
    cp_le : size <= Z.max mx first }.

  Record visited (k : Z) (b : nat) (mx : Z) (C : common) (p : Z * common) : Prop := {
    vi_mx : mx <= fst p;
    vi_seen : c_seen (snd p) = c_seen C;
    vi_inv : Inv (snd p);
    vi_ext : ext (b :: c_seen C) (fst p) C (snd p);
    vi_done : k = 0 -> ldone (snd p) b;
    vi_in : In b (c_seen C) -> fst p = mx /\ snd p = C;
    vi_high : 0 < k -> nolow C (snd p) }.

  Definition callok (call : visit) : Prop := forall k b d size mx mn exh o C,
    cpre k b d size mx mn exh o C -> good (visited k b mx C) (call b size mx mn exh (emb o) C).

  (** the state of the loop over the elements of block [b] *)
  Record st (k : Z) (b : nat) (s : list nat) (i : nat) (d mx mn : Z) (o : open_try) (C : common) : Prop := {
    st_way : Way (b :: s) (b, i, d, o);
    st_inv : Inv C;
    st_seen : c_seen C = b :: s;
    st_nb : ~ In b s;
    st_k : 0 <= k;
    st_low : k = 0 -> lowseen C;
    st_v : PY311 v = false -> k = 0;
    st_mn : forall id h la, o = Some (id, h, la) -> H h + k <= mn;
    st_mn2 : o <> None -> mn <= d + k;
    st_mx : 0 <= mx;
    st_le : d + k <= Z.max mx first }.

  Lemma st_at k b s i d mx mn o C : st k b s i d mx mn o C -> At (b, i, d, o).
  Proof. intros S. eapply way_at, S. Qed.

  (** to the next element *)
  Lemma st_move k b s i d mx mn o C d' mx' mn' o' C' :
    st k b s i d mx mn o C -> Step (b, i, d, o) (b, S i, d', o') ->
    Inv C' -> c_seen C' = c_seen C -> grow C C' ->
    (forall id h la, o' = Some (id, h, la) -> H h <= d' -> H h + k <= mn') -> (o' <> None -> mn' <= d' + k) ->
    mx <= mx' -> d' + k <= Z.max mx' first ->
    st k b s (S i) d' mx' mn' o' C'.
  Proof.
    intros [S1 S2 S3 S4 S5 S6 S7 S8 S9 S10 S11] ST I SN G M1 M2 LX LE.
    assert (W : Way (b :: s) (b, S i, d', o')) by (eapply way_in; [exact S1|exact ST|cbn; discriminate]).
    constructor; auto.
    - congruence.
    - intros K. eapply lowseen_grow; eauto.
    - intros id h la ->. apply (M1 _ _ _ eq_refl). exact (reg_inside _ _ _ _ _ _ R _ _ _ _ _ _ _ W).
    - lia.
  Qed.

  (** to another block *)
  Lemma st_call k b s i d mx mn o C n d' mx' mn' o' :
    st k b s i d mx mn o C -> Step (b, i, d, o) (n, O, d', o') ->
    (forall id h la, o' = Some (id, h, la) -> H h <= d' -> H h + k <= mn') -> (o' <> None -> mn' <= d' + k) ->
    mx <= mx' -> d' + k <= Z.max mx' first ->
    cpre k n d' (d' + k) mx' mn' None o' C.
  Proof.
    intros [S1 S2 S3 S4 S5 S6 S7 S8 S9 S10 S11] ST M1 M2 LX LE.
    assert (W : ~ In n (c_seen C) -> Way (n :: c_seen C) (n, O, d', o')).
    { intros NI. rewrite S3 in *. eapply (way_go _ _ _ _ _ _ _ (n, O, d', o')); eauto. }
    constructor; auto.
    - eapply at_step; [eapply way_at; exact S1|exact ST].
    - unfold start_of. cbn. lia.
    - congruence.
    - intros id h la -> NI. apply (M1 _ _ _ eq_refl). exact (reg_inside _ _ _ _ _ _ R _ _ _ _ _ _ _ (W NI)).
    - lia.
  Qed.

  (** to a handler *)
  Lemma st_handler k b s i d mx mn id h la C mx' mn' :
    st k b s i d mx mn (Some (id, h, la)) C -> H h + k <= mn' -> mx <= mx' -> mn' <= Z.max mx' first ->
    cpre (mn' - H h) h (H h + pushed la) mn' mx' mn' (Some la) None C.
  Proof.
    intros S LE LX LM. pose proof (st_at _ _ _ _ _ _ _ _ _ S) as A. destruct S as [S1 S2 S3 S4 S5 S6 S7 S8 S9 S10 S11].
    pose proof (reg_depth _ _ _ _ _ _ R h) as HD.
    constructor; auto.
    - eapply at_raise; [exact A|]. left. exists id. reflexivity.
    - unfold start_of. cbn [fst snd]. lia.
    - lia.
    - intros K. apply S6. lia.
    - intros V. rewrite (at_311 _ _ _ _ _ _ A) in V. discriminate.
    - intros NI. rewrite S3 in *. eapply way_raise; eauto.
    - intros _. split; [reflexivity|lia].
    - discriminate.
    - congruence.
    - lia.
  Qed.

  Record handled (k mn : Z) (h : nat) (s : list nat) (mx : Z) (C C' : common) : Prop := {
    ha_seen : c_seen C' = c_seen C;
    ha_inv : Inv C';
    ha_ext : ext s mx C C';
    ha_goal : mn = H h -> goal C' h;
    ha_high : 0 < k -> nolow C C' }.

  Lemma handler_ok call k b s i d mx mn id h la C mx' mn' : callok call ->
    st k b s i d mx mn (Some (id, h, la)) C -> H h + k <= mn' -> mx <= mx' -> mn' <= Z.max mx' first ->
    good (handled k mn' h (b :: s) mx' C) (compute_handler call (OBlock h) la mx' mn' C).
  Proof.
    intros OKc S LE LX LM. pose proof (st_handler _ _ _ _ _ _ _ _ _ _ _ _ _ S LE LX LM) as CP.
    pose proof (st_at _ _ _ _ _ _ _ _ _ S) as A.
    destruct S as [S1 I S3 S4 S5 S6 S7 S8 S9 S10 S11].
    unfold compute_handler.
    destruct (dget Nat.eqb (c_ex_start C) h) as [z|] eqn:Z0; cbn [of_option bind].
    2:{ split; [discriminate|]. intros W. exfalso.
        destruct (at_order W _ A) as [_ K]. specialize (K id h la eq_refl).
        destruct (inv_keys C I h K) as (_ & X & _). auto. }
    destruct (inv_ex C I h z Z0) as [HZ HD].
    destruct (Z.ltb_spec mn' z) as [LT|GE].
    2:{ cbn [good]. constructor; auto; [apply ext_refl| |intros _; apply nolow_refl].
        intros ->. unfold goal. rewrite Z0. f_equal. lia. }
    assert (K0 : 0 <= mn' - H h) by lia.
    eapply good_bind; [apply (OKc _ _ _ _ _ _ _ _ _ CP)|].
    intros [r C1] _ [V1 V2 V3 V4 V5 V6 V7]. cbn [fst snd] in *.
    set (C2 := mkSC _ _ _ _ _).
    assert (GX : forall x, x <> h -> (goal C2 x <-> goal C1 x) /\ dget Nat.eqb (c_ex_max C2) x = dget Nat.eqb (c_ex_max C1) x).
    { intros x NE. unfold goal, C2. cbn [c_ex_start c_ex_max]. rewrite !dget_dset_other by exact NE. tauto. }
    assert (GH : mn' = H h \/ (H h < mn' /\ nolow C C1)).
    { destruct (Z.eq_dec mn' (H h)) as [->|NE]; [left; reflexivity|right]. split; [lia|]. apply V7. lia. }
    assert (NG : ~ goal C h).
    { unfold goal. rewrite Z0. intros X. injection X as X. lia. }
    assert (GR : grow C1 C2).
    { constructor; auto; [|intros x X; exact X].
      intros x X. destruct (Nat.eq_dec x h) as [->|NE]; [|apply (GX x NE), X].
      destruct GH as [->|[_ [_ G]]]; [unfold goal, C2; cbn [c_ex_start]; apply dget_dset_same|].
      destruct (NG (G _ X)). }
    cbn [good]. constructor.
    - exact V2.
    - destruct V3 as [I1 I2 I4 I5 I7]. constructor; auto; unfold C2; cbn [c_ex_start c_ex_max c_starts].
      + intros x K. destruct (I1 x K) as (X1 & X2 & X3). rewrite !dg_set.
        destruct (Nat.eqb x h); repeat split; auto; discriminate.
      + intros x z'. rewrite dg_set. destruct (Nat.eqb_spec x h) as [->|NE].
        * intros X. injection X as <-. split; [lia|]. intros X. apply V5. lia.
        * apply I5.
    - constructor.
      + intros x X. destruct (e_ex _ _ _ _ V4 x X) as [Y1 Y2].
        assert (NE : x <> h) by (intros ->; exact (NG X)).
        destruct (GX x NE) as [Z1 Z2]. split; [apply Z1, Y1|congruence].
      + intros x f F. apply GR, V4, F.
      + intros x X. apply GR, V4, X.
      + intros x f F. destruct GH as [-> |[_ [NL _]]].
        2:{ destruct (NL x f F) as [X|X]; [left; exact X|right]. intros L. destruct (X L). }
        destruct (in_dec Nat.eq_dec h (c_seen C)) as [IN|NIN].
        { destruct (V6 IN) as [-> ->]. left. exact F. }
        destruct (e_new _ _ _ _ V4 x f F) as [X|K]; [left; exact X|right].
        intros L M LM' [B0 B]. eapply closed_mono; [exact GR|apply Z.le_refl|].
        apply K; [exact L| |].
        * apply (B h r); [rewrite <- S3; exact NIN| |]; unfold goal, C2; cbn [c_ex_start c_ex_max]; apply dget_dset_same.
        * split; auto. intros k' m' N X Y. assert (NE : k' <> h) by (intros ->; apply N; left; reflexivity).
          destruct (GX k' NE) as [Z1 Z2]. apply (B k' m').
          -- intros Q. apply N. right. rewrite S3. exact Q.
          -- apply Z1, X.
          -- congruence.
    - intros ->. unfold goal, C2. cbn [c_ex_start]. apply dget_dset_same.
    - intros K. destruct GH as [E|[HL [NL NG']]]; [lia|]. split.
      + intros x f F. apply NL, F.
      + intros x X. destruct (Nat.eq_dec x h) as [->|NE]; [|apply NG', (GX x NE), X].
        exfalso. unfold goal, C2 in X. cbn [c_ex_start] in X. rewrite dget_dset_same in X. injection X as X. lia.
  Qed.

  (** ** The elements of a block *)

  Lemma elem_good b pre it r d o : At (b, length pre, d, o) -> k_items (blk g b) = pre ++ it :: r ->
    good (fun _ => elem_check T it r = Ok tt) (elem_check T it r).
  Proof.
    intros A E. destruct (elem_check T it r) as [[]|e] eqn:X; cbn [good]; auto.
    apply elem_check_err in X as Y. subst e. split; [discriminate|]. intros W. exfalso.
    destruct (at_order W _ A) as [B _]. unfold block_of in B. cbn [fst] in B.
    pose proof (com_iter _ _ _ W b B) as IT. rewrite E in IT. apply iter_elem in IT. congruence.
  Qed.

  Lemma effect_good b i d o x j : At (b, i, d, o) -> elem g b i = Some (BI x) ->
    good (fun p => eff x j = Some p) (used_effect v T se check x j).
  Proof.
    intros A E. destruct (used_effect v T se check x j) as [p|e] eqn:X; cbn [good].
    - unfold P_Stack.eff. rewrite X. reflexivity.
    - split; [intros ->; exfalso; eapply used_effect_err; [exact X|reflexivity]|].
      intros W. exfalso. destruct (at_order W _ A) as [B _]. unfold block_of in B. cbn [fst] in B.
      apply (com_effects _ _ _ W b x j B).
      + apply nth_error_In with i. exact E.
      + unfold P_Stack.eff. rewrite X. reflexivity.
  Qed.

  Lemma update_good k b i d o x j p mx mn : 0 <= k -> At (b, i, d, o) -> elem g b i = Some (BI x) ->
    eff x j = Some p -> (j = true -> has_jump T x = true) ->
    (j = false -> has_jump T x = false \/ is_uncond_jump_name (i_name x) = false) ->
    good (fun q => 0 <= d + k + fst p /\ q = (d + fst p + snd p + k, Z.max mx (d + fst p + snd p + k), Z.min mn (d + fst p + snd p + k)))
      (update_size p (d + k) mx mn).
  Proof.
    intros K A E F J1 J2. unfold update_size. destruct (Z.ltb_spec (d + k + fst p) 0) as [LT|GE]; cbn [good].
    - split; auto. intros _. exists b, i, d, o, x, j, (fst p), (snd p).
      rewrite <- surjective_pairing. repeat split; auto. lia.
    - split; [exact GE|]. replace (d + k + fst p + snd p) with (d + fst p + snd p + k) by lia. reflexivity.
  Qed.

  (** the entry of the TryEnd after a final instruction *)
  Lemma entry_good b pre x r d id h la : At (b, length pre, d, Some (id, h, la)) ->
    k_items (blk g b) = pre ++ BI x :: r -> hd_error (ends_after r) = Some id ->
    good (fun q => exists sd, q = (OBlock h, la, sd)) (of_option AttributeError (find_tb id (all_items g))).
  Proof.
    intros A E HD. destruct (at_open _ A _ _ _ eq_refl) as (n & sd & IN).
    destruct (find_tb id (all_items g)) as [[[t' la'] d']|] eqn:F; cbn [of_option good].
    - apply find_tb_in in F. unfold all_items in F. apply in_flat_map in F. destruct F as (m & _ & F).
      destruct (CO _ _ _ _ _ _ _ _ _ IN F) as [<- <-]. exists d'. reflexivity.
    - split; [discriminate|]. intros W. exfalso. destruct (at_order W _ A) as [B _]. unfold block_of in B. cbn [fst] in B.
      destruct (com_ends _ _ _ W b id B) as (n' & t & la' & d' & K1 & K2).
      { rewrite E. apply in_app_iff. right. right. apply ends_in. exact HD. }
      eapply find_tb_some; [|exact F]. unfold all_items. apply in_flat_map. exists n'. split; [exact K1|exact K2].
  Qed.

  Record looped (k : Z) (b : nat) (s : list nat) (rest : list bitem) (d mx : Z) (C : common) (p : Z * common) : Prop := {
    lo_mx : mx <= fst p;
    lo_seen : c_seen (snd p) = s;
    lo_inv : Inv (snd p);
    lo_ext : ext (b :: s) (fst p) C (snd p);
    lo_closed : k = 0 -> forall M, fst p <= M -> Eb (b :: s) (snd p) M -> closed (snd p) M b rest d;
    lo_high : 0 < k -> nolow C (snd p) }.

  Lemma looped_go k b s rest d mx C rest' d' mx1 C1 p : mx <= mx1 -> ext (b :: s) mx1 C C1 -> (0 < k -> nolow C C1) ->
    looped k b s rest' d' mx1 C1 p ->
    (k = 0 -> forall M, fst p <= M -> first <= M -> closed (snd p) M b rest' d' -> closed (snd p) M b rest d) ->
    looped k b s rest d mx C p.
  Proof.
    intros LE E NL [A1 A2 A3 A4 A5 A6] Q. constructor; auto.
    - lia.
    - eapply ext_trans; [exact A1|exact E|exact A4].
    - intros K M LM B. apply Q; auto. destruct B as [B _]. exact B.
    - intros K. eapply nolow_trans; eauto.
  Qed.

  Lemma looped_end k b s rest d mx C mx1 C1 : mx <= mx1 -> Inv C1 -> c_seen C1 = b :: s -> ~ In b s ->
    ext (b :: s) mx1 C C1 -> (0 < k -> nolow C C1) ->
    (k = 0 -> forall M, mx1 <= M -> first <= M -> closed C1 M b rest d) ->
    looped k b s rest d mx C (mx1, unsee b C1).
  Proof.
    intros LE I SN NB E NL Q. constructor; cbn [fst snd]; auto.
    - unfold unsee. cbn [c_seen]. rewrite SN. apply filter_self, NB.
    - apply Inv_unsee, I.
    - apply ext_unsee, E.
    - intros K M LM B. eapply closed_mono; [apply grow_unsee|apply Z.le_refl|]. apply Q; auto. destruct B as [B _]. exact B.
  Qed.

  Lemma loop_ok call b s : callok call -> forall rest pre k d mx mn o C,
    k_items (blk g b) = pre ++ rest -> st k b s (length pre) d mx mn o C ->
    good (looped k b s rest d mx C) (block_loop v T se check g call b rest (d + k) mx mn (emb o) C).
  Proof.
    intros OKc. induction rest as [|it r IH]; intros pre k d mx mn o C E S.
    - cbn [block_loop]. rewrite app_nil_r in E. pose proof (elem_end g b pre E) as EN.
      pose proof (st_le _ _ _ _ _ _ _ _ _ S) as LE. pose proof (st_seen _ _ _ _ _ _ _ _ _ S) as SN.
      pose proof (st_nb _ _ _ _ _ _ _ _ _ S) as NB. pose proof (st_inv _ _ _ _ _ _ _ _ _ S) as I.
      destruct (k_next (blk g b)) as [m|] eqn:KN.
      + destruct (k_items (blk g m)) as [|y ys] eqn:KM.
        * cbn [good bind]. apply looped_end; auto; [lia|apply ext_refl|intros _; apply nolow_refl|].
          intros -> M LM FM. split; [lia|]. rewrite KN. left. exact KM.
        * eapply good_bind.
          -- apply (OKc k m d (d + k) mx mn None o C). eapply st_call; [exact S|apply st_next; auto| | |lia|exact LE].
             ++ intros id h la X _. eapply st_mn; eauto.
             ++ intros X. eapply st_mn2; eauto.
          -- intros [m1 C1] _ [V1 V2 V3 V4 V5 V6 V7]. cbn [fst snd] in *. cbn [good].
             apply looped_end; auto; [congruence| |].
             ++ eapply ext_weaken; [|exact V4]. rewrite SN. intros x X. right. exact X.
             ++ intros -> M LM FM. split; [lia|]. rewrite KN. right. apply V5. reflexivity.
      + cbn [good bind]. apply looped_end; auto; [lia|apply ext_refl|intros _; apply nolow_refl|].
        intros -> M LM FM. split; [lia|]. rewrite KN. exact Logic.I.
    - cbn [block_loop]. destruct (elem_skip g b pre it r E) as [EL AF].
      assert (E' : k_items (blk g b) = (pre ++ [it]) ++ r) by (rewrite <- app_assoc; exact E).
      assert (LN : length (pre ++ [it]) = Datatypes.S (length pre)) by (rewrite app_length; cbn; lia).
      pose proof (st_le _ _ _ _ _ _ _ _ _ S) as LE. pose proof (st_seen _ _ _ _ _ _ _ _ _ S) as SN.
      pose proof (st_nb _ _ _ _ _ _ _ _ _ S) as NB. pose proof (st_inv _ _ _ _ _ _ _ _ _ S) as I.
      pose proof (st_k _ _ _ _ _ _ _ _ _ S) as PK. pose proof (st_at _ _ _ _ _ _ _ _ _ S) as A.
      pose proof (st_way _ _ _ _ _ _ _ _ _ S) as W. pose proof (st_mx _ _ _ _ _ _ _ _ _ S) as PX.
      eapply good_bind; [eapply elem_good; eauto|]. intros [] CK _.
      destruct it as [x|l|z|id t la sd|id].
      + set (jf := fun C1 M => has_jump T x = true ->
               exists n pre post, i_arg x = OBlock n /\ eff x true = Some (pre, post) /\ 0 <= d + pre
                 /\ d + pre + post <= M /\ ldone C1 n).
        assert (JG : forall C1 C2 M1 M2, grow C1 C2 -> M1 <= M2 -> jf C1 M1 -> jf C2 M2).
        { intros C1 C2 M1 M2 G L X J. destruct (X J) as (n & p1 & p2 & X1 & X2 & X3 & X4 & X5).
          exists n, p1, p2. split; [exact X1|]. split; [exact X2|]. split; [exact X3|]. split; [lia|].
          exact (ldone_grow _ _ _ G X5). }
        apply (good_bind (fun q => let '(mx1, C1, stop) := q in
           if stop : bool then looped k b s (BI x :: r) d mx C (mx1, C1)
           else mx <= mx1 /\ Inv C1 /\ ext (b :: s) mx1 C C1 /\ c_seen C1 = b :: s /\ (k = 0 -> jf C1 mx1) /\ (0 < k -> nolow C C1)
                /\ (has_jump T x = false \/ is_uncond_jump_name (i_name x) = false))).
        * destruct (has_jump T x) eqn:HJ.
          2:{ cbn [good]. split; [lia|]. split; [exact I|]. split; [apply ext_refl|]. split; [exact SN|].
              split; [intros _ J; first [discriminate J|congruence]|]. split; [intros _; apply nolow_refl|auto]. }
          eapply good_bind; [eapply effect_good; eauto|]. intros e _ EF.
          eapply good_bind; [apply (update_good k b (length pre) d o x true e mx mn); auto; discriminate|].
          intros [[tk mx1] mn1] _ [GE EQ]. injection EQ as -> -> ->.
          destruct (i_arg x) as [| | | | | | | n | | | | | |] eqn:AX; try
            (exfalso; cbn [elem_check] in CK; rewrite HJ, AX in CK; destruct (existsb is_BI r); discriminate CK).
          cbn [bind].
          set (o1 := if is_final x && negb (Nat.eqb (length (after g b (length pre))) 0) then None else o).
          assert (EM : (if is_final x && match trailing_end r with Some _ => true | None => false end then None else emb o) = emb o1).
          { unfold o1. rewrite AF, trailing_hd. destruct (ends_after r); cbn [hd_error length Nat.eqb negb];
            destruct (is_final x); reflexivity. }
          rewrite EM. set (d1 := d + fst e + snd e) in *.
          assert (ST1 : Step (b, length pre, d, o) (n, O, d1, o1)).
          { eapply st_jump; eauto. rewrite EF. destruct e; reflexivity. }
          assert (OO : forall tb, o1 = Some tb -> o = Some tb).
          { intros tb X. unfold o1 in X. destruct (_ && _) in X; [discriminate|exact X]. }
          eapply good_bind.
          { apply (OKc k n d1 (d1 + k) (Z.max mx (d1 + k)) (Z.min mn (d1 + k)) None o1 C).
            eapply st_call; [exact S|exact ST1| | |lia|lia].
            - intros id h la X HX. pose proof (st_mn _ _ _ _ _ _ _ _ _ S _ _ _ (OO _ X)). lia.
            - intros _. lia. }
          intros [m2 C1] _ [V1 V2 V3 V4 V5 V6 V7]. cbn [fst snd] in *.
          assert (V4' : ext (b :: s) (Z.max mx m2) C C1).
          { eapply ext_le; [|eapply ext_weaken; [|exact V4]]; [lia|]. rewrite SN. intros y Y. right. exact Y. }
          assert (JF : k = 0 -> jf C1 (Z.max mx m2)).
          { intros -> _. exists n, (fst e), (snd e). split; [first [exact AX|reflexivity]|]. split; [rewrite EF; destruct e; reflexivity|].
            split; [lia|]. split; [fold d1; lia|auto]. }
          destruct (is_uncond_jump_name (i_name x)) eqn:UJ.
          2:{ cbn [good]. split; [lia|]. split; [exact V3|]. split; [exact V4'|]. split; [congruence|].
              split; [exact JF|]. auto. }
          apply (good_bind (fun C2 => c_seen C2 = c_seen C1 /\ Inv C2 /\ ext (b :: s) (Z.max mx m2) C1 C2 /\ (0 < k -> nolow C1 C2))).
          { assert (TRIV : good (fun C2 => c_seen C2 = c_seen C1 /\ Inv C2 /\ ext (b :: s) (Z.max mx m2) C1 C2 /\ (0 < k -> nolow C1 C2)) (Ok C1)).
            { cbn [good]. split; [reflexivity|]. split; [exact V3|]. split; [apply ext_refl|intros _; apply nolow_refl]. }
            rewrite trailing_hd. destruct (hd_error (ends_after r)) as [id|] eqn:HD; [|exact TRIV].
            destruct o as [[[id' h] la]|]; cbn [emb]; [|exact TRIV].
            destruct (Nat.eqb_spec id id') as [<-|NE]; [|exact TRIV].
            pose proof (st_mn _ _ _ _ _ _ _ _ _ S _ _ _ eq_refl) as M1. pose proof (st_mn2 _ _ _ _ _ _ _ _ _ S ltac:(discriminate)) as M2.
            assert (S1 : st k b s (length pre) d mx mn (Some (id, h, la)) C1).
            { destruct S as [S1 S2 S3 S4 S5 S6 S7 S8 S9 S10 S11]. constructor; auto; [congruence|].
              intros K. eapply lowseen_grow; [eapply ext_grow; exact V4|exact V2|auto]. }
            eapply good_imp; [|eapply (handler_ok call k b s (length pre) d mx mn id h la C1 (Z.max mx m2) mn); auto; lia].
            intros C2 [W1 W2 W3 W4 W5]. auto. }
          intros C2 _ (W1 & W2 & W3 & W4). cbn [good].
          apply looped_end; auto; [lia|congruence| | |].
          -- eapply ext_trans; [apply Z.le_refl|exact V4'|exact W3].
          -- intros K. eapply nolow_trans; eauto.
          -- intros K M LM FM. subst k. split; [lia|]. split; [|intros [X|X]; congruence].
             assert (JX := JG _ _ _ M (ext_grow _ _ _ _ W3) LM (JF eq_refl)). intros _.
             destruct (JX eq_refl) as (n0 & p1 & p2 & Y1 & Y2). exists n0, p1, p2. split; [|exact Y2].
             first [exact Y1|rewrite AX; exact Y1].
        * intros [[mx1 C1] stop] _ V. destruct stop; [cbn [good]; exact V|].
          destruct V as (V1 & V2 & V3 & V4 & V5 & V6 & V7).
          eapply good_bind; [eapply effect_good; eauto|]. intros e _ EF.
          eapply good_bind; [apply (update_good k b (length pre) d o x false e mx1 mn); auto; discriminate|].
          intros [[d2 mx2] mn2] _ [GE EQ]. injection EQ as -> -> ->.
          set (d1 := d + fst e + snd e) in *.
          assert (EF' : eff x false = Some (fst e, snd e)) by (rewrite EF; destruct e; reflexivity).
          assert (V3' : ext (b :: s) (Z.max mx1 (d1 + k)) C C1) by (eapply ext_le; [|exact V3]; lia).
          destruct (is_final x) eqn:FX.
          -- apply (good_bind (fun C2 => c_seen C2 = c_seen C1 /\ Inv C2 /\ ext (b :: s) (Z.max mx1 (d1 + k)) C1 C2 /\ (0 < k -> nolow C1 C2))).
             { rewrite trailing_hd. destruct (hd_error (ends_after r)) as [id|] eqn:HD.
               2:{ cbn [good]. split; [reflexivity|]. split; [exact V2|]. split; [apply ext_refl|intros _; apply nolow_refl]. }
               assert (HA : hd_error (after g b (length pre)) = Some id) by (rewrite AF; exact HD).
               destruct (reg_final _ _ _ _ _ _ R _ _ _ _ _ _ _ W EL FX V7 HA) as (h & la & -> & HI).
               specialize (HI _ _ EF'). fold d1 in HI.
               eapply good_bind; [eapply entry_good; eauto|]. intros q _ [sd ->].
               pose proof (st_mn _ _ _ _ _ _ _ _ _ S _ _ _ eq_refl) as M1. pose proof (st_mn2 _ _ _ _ _ _ _ _ _ S ltac:(discriminate)) as M2.
               assert (S1 : st k b s (length pre) d mx mn (Some (id, h, la)) C1).
               { destruct S as [S1 S2 S3 S4 S5 S6 S7 S8 S9 S10 S11]. constructor; auto.
                 intros K. eapply lowseen_grow; [eapply ext_grow; exact V3|congruence|auto]. }
               eapply good_imp; [|eapply (handler_ok call k b s (length pre) d mx mn id h la C1 (Z.max mx1 (d1 + k)) (Z.min mn (d1 + k))); auto; lia].
               intros C2 [W1 W2 W3 W4 W5]. auto. }
             intros C2 _ (W1 & W2 & W3 & W4). cbn [good].
             apply looped_end; auto; [lia|congruence| | |].
             ++ eapply ext_trans; [apply Z.le_refl|exact V3'|exact W3].
             ++ intros K. eapply nolow_trans; eauto.
             ++ intros K M LM FM. subst k. split; [lia|].
                split; [eapply JG; [eapply ext_grow; exact W3| |auto]; lia|].
                intros _. exists (fst e), (snd e). split; [exact EF'|]. split; [lia|]. split; [fold d1; lia|]. intros X; congruence.
          -- assert (ST1 : Step (b, length pre, d, o) (b, Datatypes.S (length pre), d1, o)) by (eapply st_instr; eauto).
             assert (S1 : st k b s (Datatypes.S (length pre)) d1 (Z.max mx1 (d1 + k)) (Z.min mn (d1 + k)) o C1).
             { eapply st_move; [exact S|exact ST1|exact V2|congruence|eapply ext_grow; exact V3| | |lia|lia].
               - intros id h la X HX. pose proof (st_mn _ _ _ _ _ _ _ _ _ S _ _ _ X). lia.
               - intros _. lia. }
             rewrite <- LN in S1.
             eapply good_imp; [|apply (IH (pre ++ [BI x]) k d1 _ _ o C1 E' S1)].
             intros p LO. eapply looped_go; [|exact V3'|exact V6|exact LO|]; [lia|].
             intros K M LM FM KL. pose proof (lo_mx _ _ _ _ _ _ _ _ LO) as Q1. split; [lia|]. split.
             ++ eapply JG; [eapply ext_grow; exact (lo_ext _ _ _ _ _ _ _ _ LO)| |auto]. lia.
             ++ intros _. exists (fst e), (snd e). split; [exact EF'|]. split; [lia|]. split; [fold d1; lia|]. intros _. exact KL.
      + discriminate CK.
      + assert (ST1 : Step (b, length pre, d, o) (b, Datatypes.S (length pre), d, o)) by (eapply st_line; eauto).
        assert (S1 : st k b s (Datatypes.S (length pre)) d mx mn o C).
        { eapply st_move; [exact S|exact ST1|exact I|reflexivity|apply grow_refl| | |lia|lia].
          - intros id h la X _. eapply st_mn; eauto.
          - intros X. eapply st_mn2; eauto. }
        rewrite <- LN in S1.
        eapply good_imp; [|apply (IH (pre ++ [BSet z]) k d mx mn o C E' S1)].
        intros p LO. eapply looped_go; [apply Z.le_refl|apply ext_refl|intros _; apply nolow_refl|exact LO|].
        intros K M LM FM KL. pose proof (lo_mx _ _ _ _ _ _ _ _ LO) as Q1. split; [lia|exact KL].
      + cbn [elem_check] in CK. destruct t as [| | | | | | | h | | | | | |]; try discriminate CK.
        pose proof (reg_begin _ _ _ _ _ _ R _ _ _ _ _ _ _ _ _ W EL) as ON. subst o. cbn [emb].
        set (C1 := mkSC _ _ _ _ _).
        assert (ST1 : Step (b, length pre, d, None) (b, Datatypes.S (length pre), d, Some (id, h, la))) by (eapply st_begin; eauto).
        assert (G1 : grow C C1).
        { constructor; auto. intros y Y. unfold C1. cbn [c_tbs]. apply in_app_iff. left. exact Y. }
        assert (I1 : Inv C1).
        { destruct I as [I1 I2 I4 I5 I7]. constructor; auto.
          intros id0 t0 la0 X. unfold C1 in X. cbn [c_tbs] in X. apply in_app_iff in X. destruct X as [X|[X|[]]]; auto.
          injection X as <- <- <-. exists h, b, (Datatypes.S (length pre)), d. split; auto. eapply at_step; eauto. }
        assert (S1 : st k b s (Datatypes.S (length pre)) d mx (d + k) (Some (id, h, la)) C1).
        { eapply st_move; [exact S|exact ST1|exact I1|reflexivity|exact G1| | |lia|lia].
          - intros id0 h0 la0 X HX. lia.
          - intros _. lia. }
        rewrite <- LN in S1.
        eapply good_imp; [|apply (IH (pre ++ [BTB id (OBlock h) la sd]) k d mx (d + k) (Some (id, h, la)) C1 E' S1)].
        intros p LO. eapply looped_go; [apply Z.le_refl| | |exact LO|].
        * constructor; auto. apply G1.
        * intros _. split; auto.
        * intros K M LM FM KL. pose proof (lo_mx _ _ _ _ _ _ _ _ LO) as Q1. split; [lia|]. split; [eauto|]. split; [|exact KL].
          apply (e_tbs _ _ _ _ (lo_ext _ _ _ _ _ _ _ _ LO)). unfold C1. cbn [c_tbs]. apply in_app_iff. right. left. reflexivity.
      + assert (ST1 : Step (b, length pre, d, o) (b, Datatypes.S (length pre), d, close id o)) by (eapply st_end; eauto).
        assert (GO : forall o' C1, o' = close id o -> Inv C1 -> c_seen C1 = c_seen C -> ext (b :: s) mx C C1 -> (0 < k -> nolow C C1) ->
          good (looped k b s (BTE id :: r) d mx C) (block_loop v T se check g call b r (d + k) mx mn (emb o') C1)).
        { intros o' C1 -> I1 SN1 X1 N1.
          assert (S1 : st k b s (Datatypes.S (length pre)) d mx mn (close id o) C1).
          { assert (OO : forall tb, close id o = Some tb -> o = Some tb).
            { intros tb X. unfold close in X. destruct o as [[[id' h'] la']|]; [|discriminate].
              destruct (Nat.eqb id id'); [discriminate|exact X]. }
            eapply st_move; [exact S|exact ST1|exact I1|exact SN1|eapply ext_grow; exact X1| | |lia|lia].
            - intros id0 h0 la0 X HX. eapply st_mn; eauto.
            - intros X. eapply st_mn2; eauto. intros ->. apply X. reflexivity. }
          rewrite <- LN in S1.
          eapply good_imp; [|apply (IH (pre ++ [BTE id]) k d mx mn (close id o) C1 E' S1)].
          intros p LO. eapply looped_go; [apply Z.le_refl|exact X1|exact N1|exact LO|].
          intros K M LM FM KL. pose proof (lo_mx _ _ _ _ _ _ _ _ LO) as Q1. split; [lia|exact KL]. }
        destruct o as [[[id' h] la]|]; cbn [emb].
        * destruct (Nat.eqb_spec id id') as [<-|NE].
          -- pose proof (st_mn _ _ _ _ _ _ _ _ _ S _ _ _ eq_refl) as M1. pose proof (st_mn2 _ _ _ _ _ _ _ _ _ S ltac:(discriminate)) as M2.
             eapply good_bind; [eapply (handler_ok call k b s (length pre) d mx mn id h la C mx mn); auto; lia|].
             intros C1 _ [V1 V2 V3 V4 V5]. apply (GO None C1); auto. cbn [close]. rewrite Nat.eqb_refl. reflexivity.
          -- apply (GO (Some (id', h, la)) C); auto; [|apply ext_refl|intros _; apply nolow_refl].
             cbn [close]. destruct (Nat.eqb_spec id id'); [congruence|reflexivity].
        * apply (GO None C); auto; [apply ext_refl|intros _; apply nolow_refl].
  Qed.

  Lemma irrelevant_some sizes f : relevant v sizes f = false ->
    exists x, In x sizes /\ (PY311 v = true -> x = f) /\ fst f <= fst x.
  Proof.
    unfold relevant. destruct (PY311 v).
    - intros X. apply Bool.negb_false_iff, existsb_exists in X. destruct X as (x & X & Q). exists x.
      assert (f = x).
      { unfold fingerprint_eqb in Q. apply Bool.andb_true_iff in Q. destruct Q as [Q1 Q2]. apply Z.eqb_eq in Q1.
        destruct f as [a [y|]], x as [a' [y'|]]; cbn in *; subst; try discriminate; try reflexivity.
        apply Bool.eqb_prop in Q2. subst. reflexivity. }
      subst x. split; [exact X|]. split; [auto|lia].
    - intros X. destruct (forallb (fun s => fst s <? fst f) sizes) eqn:FB; [discriminate|]. clear X.
      induction sizes as [|y l IH]; [discriminate|]. cbn [forallb] in FB. apply Bool.andb_false_iff in FB.
      destruct FB as [FB|FB].
      + exists y. split; [left; reflexivity|]. split; [discriminate|]. apply Z.ltb_ge in FB. exact FB.
      + destruct (IH FB) as (x & A & B & D). exists x. split; [right; exact A|]. auto.
  Qed.

  (** the state in which the loop over the elements starts *)
  Definition entered (b : nat) (f : Z * option bool) (sizes : list (Z * option bool)) (C : common) : common :=
    mkSC (b :: c_seen C) (dset Nat.eqb (c_starts C) b (f :: sizes)) (c_tbs C) (c_ex_start C) (c_ex_max C).

  Lemma entered_fin b f0 sizes C k f : dget Nat.eqb (c_starts C) b = Some sizes ->
    fin (entered b f0 sizes C) k f <-> fin C k f \/ (k = b /\ f = f0).
  Proof.
    intros DS. unfold fin, entered. cbn [c_starts]. rewrite dg_set. destruct (Nat.eqb_spec k b) as [->|NE].
    - split.
      + intros (l & X & Y). injection X as <-. destruct Y as [Y|Y]; [right; auto|left; exists sizes; auto].
      + intros [(l & X & Y)|[_ ->]]; exists (f0 :: sizes); split; auto.
        * right. congruence.
        * left. reflexivity.
    - split; [intros X; left; exact X|]. intros [X|[X _]]; [exact X|congruence].
  Qed.

  Lemma entered_grow b f0 sizes C : dget Nat.eqb (c_starts C) b = Some sizes -> grow C (entered b f0 sizes C).
  Proof. intros DS. constructor; auto; [|intros x X; exact X]. intros k f F. apply entered_fin; auto. Qed.

  Lemma entered_inv b sizes k d size mx mn exh o C : cpre k b d size mx mn exh o C ->
    dget Nat.eqb (c_starts C) b = Some sizes -> Inv (entered b (size, exh) sizes C).
  Proof.
    intros CP DS. pose proof (cp_inv _ _ _ _ _ _ _ _ _ CP) as I. pose proof (entered_grow b (size, exh) sizes C DS) as G.
    destruct I as [I1 I2 I4 I5 I7]. constructor; auto.
    - intros x K. destruct (I1 x K) as (X1 & X2 & X3). unfold entered. cbn [c_starts c_ex_start c_ex_max]. rewrite dg_set.
      destruct (Nat.eqb x b); repeat split; auto; discriminate.
    - intros x l. unfold entered. cbn [c_starts]. rewrite dg_set. destruct (Nat.eqb_spec x b) as [->|]; [intros _; eauto|apply I2].
    - intros x f F. apply entered_fin in F; [|exact DS]. destruct F as [F|[-> ->]]; [auto|].
      exists d, o. split; [apply CP|]. rewrite (cp_size _ _ _ _ _ _ _ _ _ CP). pose proof (cp_k _ _ _ _ _ _ _ _ _ CP).
      split; [lia|]. intros V. rewrite (cp_v _ _ _ _ _ _ _ _ _ CP V). lia.
    - intros h z X. destruct (I5 h z X) as [Y1 Y2]. split; auto. intros Y. eapply ldone_grow; eauto.
  Qed.

  Lemma low_of k b d size mx mn exh o C : cpre k b d size mx mn exh o C -> k = 0 -> low b (size, exh).
  Proof.
    intros CP ->. exists o. rewrite (cp_size _ _ _ _ _ _ _ _ _ CP), Z.add_0_r. apply CP.
  Qed.
  Lemma high_of k b d size mx mn exh o C : cpre k b d size mx mn exh o C -> 0 < k -> ~ low b (size, exh).
  Proof.
    intros CP K [o' L]. rewrite (cp_size _ _ _ _ _ _ _ _ _ CP) in L.
    pose proof (reg_same _ _ _ _ _ _ R _ _ _ _ _ L (cp_at _ _ _ _ _ _ _ _ _ CP)). lia.
  Qed.

  (** where the loop starts *)
  Lemma entered_st k b d size mx mn exh o C sizes mx1 mn1 : cpre k b d size mx mn exh o C -> ~ In b (c_seen C) ->
    dget Nat.eqb (c_starts C) b = Some sizes -> mx <= mx1 -> d + k <= Z.max mx1 first ->
    (o <> None -> mn1 = mn /\ size = d + k) ->
    st k b (c_seen C) O d mx1 mn1 o (entered b (size, exh) sizes C).
  Proof.
    intros CP NI DS LX LE MN. pose proof (entered_inv _ _ _ _ _ _ _ _ _ _ CP DS) as I. constructor; auto.
    - apply CP, NI.
    - apply CP.
    - intros K x X. cbn [entered c_seen] in X. destruct X as [<-|X].
      + exists (size, exh). split; [apply entered_fin; auto|eapply low_of; eauto].
      + eapply ldone_grow; [apply entered_grow, DS|]. apply (cp_low _ _ _ _ _ _ _ _ _ CP K x X).
    - apply CP.
    - intros id h la X. destruct MN as [-> _]; [congruence|]. eapply cp_mn; eauto.
    - intros X. destruct (MN X) as [-> E]. pose proof (cp_mn2 _ _ _ _ _ _ _ _ _ CP X). lia.
    - pose proof (cp_mx _ _ _ _ _ _ _ _ _ CP). lia.
  Qed.

  (** the size and so on with which the loop starts *)
  Lemma start_size k b d size mx mn exh o C : cpre k b d size mx mn exh o C ->
    exists mx1 mn1,
      match exh with
      | Some lasti => update_size (0, 1 + (if lasti then 1 else 0)) size mx mn
      | None => Ok (size, mx, mn)
      end = Ok (d + k, mx1, mn1)
      /\ mx <= mx1 /\ d + k <= Z.max mx1 first /\ (o <> None -> mn1 = mn /\ size = d + k).
  Proof.
    intros CP. pose proof (cp_size _ _ _ _ _ _ _ _ _ CP) as SZ. pose proof (cp_exh _ _ _ _ _ _ _ _ _ CP) as XH.
    pose proof (cp_le _ _ _ _ _ _ _ _ _ CP) as LE. unfold start_of in SZ. cbn [fst snd] in SZ. destruct exh as [la|].
    - destruct XH as [-> PS]; [discriminate|]. unfold update_size. cbn [fst snd].
      destruct (Z.ltb_spec (size + 0) 0); [lia|]. unfold pushed in SZ.
      replace (size + 0 + (1 + (if la then 1 else 0))) with (d + k) by (destruct la; lia).
      exists (Z.max mx (d + k)), (Z.min mn (d + k)). split; [reflexivity|]. split; [lia|]. split; [lia|congruence].
    - exists mx, mn. replace (d + k) with size by lia. split; [reflexivity|]. split; [lia|]. split; [exact LE|]. split; [reflexivity|lia].
  Qed.

  Lemma run_ok fuel : callok (run v T se check g fuel).
  Proof.
    induction fuel as [|fuel IH]; intros k b d size mx mn exh o C CP; cbn [run].
    { split; [discriminate|]. auto. }
    pose proof (cp_inv _ _ _ _ _ _ _ _ _ CP) as I.
    destruct (nat_mem b (c_seen C)) eqn:SE.
    { assert (IN : In b (c_seen C)).
      { unfold nat_mem in SE. apply existsb_exists in SE. destruct SE as (y & Y & Q). apply Nat.eqb_eq in Q. subst y. exact Y. }
      cbn [good]. constructor; cbn [fst snd]; auto; [lia|apply ext_refl| |intros _; apply nolow_refl].
      intros K. exact (cp_low _ _ _ _ _ _ _ _ _ CP K b IN). }
    assert (NI : ~ In b (c_seen C)).
    { intros IN. unfold nat_mem in SE. assert (X : existsb (Nat.eqb b) (c_seen C) = true).
      { apply existsb_exists. exists b. split; [exact IN|apply Nat.eqb_refl]. } congruence. }
    destruct (dget Nat.eqb (c_starts C) b) as [sizes|] eqn:DS; cbn [of_option bind].
    2:{ split; [discriminate|]. intros W. exfalso. destruct (at_order W _ (cp_at _ _ _ _ _ _ _ _ _ CP)) as [B _].
        destruct (inv_keys C I b B) as (X & _). auto. }
    destruct (relevant v sizes (size, exh)) eqn:RE; cbn [negb].
    2:{ destruct (irrelevant_some _ _ RE) as (x & X & X1 & X2).
        cbn [good]. constructor; cbn [fst snd]; auto; [lia|apply ext_refl| |intros _; apply nolow_refl].
        intros ->. assert (F : fin C b x) by (exists sizes; auto). exists x. split; [exact F|].
        destruct (PY311 v) eqn:PV.
        - rewrite (X1 eq_refl). eapply low_of; eauto.
        - destruct (inv_at C I b x F) as (d' & o' & A' & L & EQ). exists o'. rewrite <- (EQ PV). exact A'. }
    change (mkSC (b :: c_seen C) _ _ _ _) with (entered b (size, exh) sizes C).
    destruct (start_size _ _ _ _ _ _ _ _ _ CP) as (mx1 & mn1 & -> & L1 & L2 & L3). cbn [bind].
    pose proof (entered_st _ _ _ _ _ _ _ _ _ _ _ _ CP NI DS L1 L2 L3) as S.
    eapply good_imp; [|apply (loop_ok (run v T se check g fuel) b (c_seen C) IH (k_items (blk g b)) [] k d mx1 mn1 o _ eq_refl S)].
    intros q [W1 W2 W3 W4 W5 W6]. pose proof (cp_k _ _ _ _ _ _ _ _ _ CP) as PK.
    constructor; auto.
    - lia.
    - constructor.
      + apply W4.
      + intros x f F. apply W4. apply entered_fin; auto.
      + apply W4.
      + intros x f F. destruct (e_new _ _ _ _ W4 x f F) as [F1|X]; [|right; exact X].
        apply entered_fin in F1; [|exact DS]. destruct F1 as [F1|[-> ->]]; [left; exact F1|right].
        intros L M LM B. destruct (Z.eq_dec k 0) as [K|K].
        * rewrite (cp_size _ _ _ _ _ _ _ _ _ CP). subst k. rewrite Z.add_0_r. apply W5; auto.
        * exfalso. apply (high_of _ _ _ _ _ _ _ _ _ CP); [lia|exact L].
    - intros K. exists (size, exh). split; [apply W4, entered_fin; auto|eapply low_of; eauto].
    - intros IN. destruct (NI IN).
    - intros K. destruct (W6 K) as [N1 N2]. split; [|exact N2].
      intros x f F. destruct (N1 x f F) as [F1|F1]; [|right; exact F1].
      apply entered_fin in F1; [|exact DS]. destruct F1 as [F1|[-> ->]]; [left; exact F1|right].
      eapply high_of; eauto.
  Qed.
End P.
