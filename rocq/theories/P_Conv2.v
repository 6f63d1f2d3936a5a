(** More about traces of the assembler: labels, jumps, variables, exception entries. *)
From Verif Require Import PyBase OpTable M_Instr M_Tables M_Concrete M_Convert P_Base P_Conv.
Open Scope string_scope.
Open Scope list_scope.
Open Scope Z_scope.

(** Index of the first instruction produced by element [p]. *)
Definition start {A} (gs : list (list A)) (p : nat) : nat := length (concat (firstn p gs)).

Lemma start_0 {A} (gs : list (list A)) : start gs 0 = 0%nat.
Proof. reflexivity. Qed.
Lemma start_cons {A} g (gs : list (list A)) p : start (g :: gs) (S p) = (length g + start gs p)%nat.
Proof. unfold start. cbn. now rewrite app_length. Qed.
Lemma start_S {A} (gs : list (list A)) p g : nth_error gs p = Some g ->
  start gs (S p) = (start gs p + length g)%nat.
Proof.
  revert p. induction gs as [|x gs IH]; intros p H; [now destruct p|].
  destruct p as [|p]; cbn in H.
  - injection H as <-. rewrite start_cons, !start_0. lia.
  - rewrite !start_cons, (IH _ H). lia.
Qed.
Lemma start_mono {A} (gs : list (list A)) p q : (p <= q)%nat -> (start gs p <= start gs q)%nat.
Proof.
  revert p q. induction gs as [|x gs IH]; intros p q L.
  - unfold start. now rewrite !firstn_nil.
  - destruct p; [rewrite start_0; lia|]. destruct q; [lia|].
    rewrite !start_cons. specialize (IH p q ltac:(lia)). lia.
Qed.
Lemma start_all {A} (gs : list (list A)) p : (length gs <= p)%nat -> start gs p = length (concat gs).
Proof. intros L. unfold start. now rewrite firstn_all2. Qed.
Lemma start_le {A} (gs : list (list A)) p : (start gs p <= length (concat gs))%nat.
Proof.
  rewrite <- (start_all gs (Nat.max p (length gs))) by lia. apply start_mono. lia.
Qed.
Lemma start_lt {A} (gs : list (list A)) p q g : nth_error gs p = Some g -> (p < q)%nat ->
  (start gs p + length g <= start gs q)%nat.
Proof. intros H L. rewrite <- (start_S _ _ _ H). apply start_mono. lia. Qed.

Lemma nth_concat {A} (gs : list (list A)) p g k : nth_error gs p = Some g -> (k < length g)%nat ->
  nth_error (concat gs) (start gs p + k) = nth_error g k.
Proof.
  revert p. induction gs as [|x gs IH]; intros p H L; [now destruct p|].
  destruct p as [|p]; cbn in H.
  - injection H as <-. rewrite start_0. cbn [concat]. rewrite nth_error_app1 by lia. reflexivity.
  - rewrite start_cons. cbn [concat]. rewrite nth_error_app2 by lia.
    rewrite <- (IH _ H L). f_equal. lia.
Qed.

(** Every instruction belongs to a group. *)
Lemma concat_inv {A} (gs : list (list A)) k x : nth_error (concat gs) k = Some x ->
  exists p g j, nth_error gs p = Some g /\ nth_error g j = Some x /\ k = (start gs p + j)%nat.
Proof.
  revert k. induction gs as [|g gs IH]; intros k H; [now destruct k|]. cbn [concat] in H.
  destruct (lt_dec k (length g)) as [L|G].
  - rewrite nth_error_app1 in H by lia. exists 0%nat, g, k. now rewrite start_0.
  - rewrite nth_error_app2 in H by lia. apply IH in H. destruct H as (p & g' & j & A1 & A2 & A3).
    exists (S p), g', j. rewrite start_cons. repeat split; auto. lia.
Qed.

(** Two positions of instructions are the same only if they are in the same group. *)
Lemma start_inj {A} (gs : list (list A)) p q g h j k :
  nth_error gs p = Some g -> nth_error gs q = Some h -> (j < length g)%nat -> (k < length h)%nat ->
  (start gs p + j = start gs q + k)%nat -> p = q /\ j = k.
Proof.
  intros Hp Hq Lj Lk E.
  destruct (Nat.lt_trichotomy p q) as [L|[->|L]].
  - pose proof (start_lt _ _ _ _ Hp L). lia.
  - split; [reflexivity|lia].
  - pose proof (start_lt _ _ _ _ Hq L). lia.
Qed.

(** Position of the last element that defines label [l]. *)
Definition last_label (l : nat) (items : list bitem) (q : nat) : Prop :=
  nth_error items q = Some (BLabel l)
  /\ forall q', (q < q')%nat -> nth_error items q' <> Some (BLabel l).

Lemma last_label_dec l items :
  (exists q, last_label l items q) \/ ~ In (BLabel l) items.
Proof.
  induction items as [|it items [(q & H1 & H2)|N]].
  - right. intros [].
  - left. exists (S q). split; [exact H1|]. intros [|q'] L; [lia|]. cbn. apply H2. lia.
  - assert (D : {it = BLabel l} + {it <> BLabel l}).
    { destruct it as [i|n|z|a b c d|n]; try (right; discriminate).
      destruct (Nat.eq_dec n l) as [->|]; [now left|]. right. congruence. }
    destruct D as [->|D].
    + left. exists 0%nat. split; [reflexivity|]. intros [|q'] L; [lia|]. cbn.
      intros E. apply nth_error_In in E. now apply N.
    + right. intros [E|I]; [now apply D|now apply N].
Qed.

Lemma dget_dset {V} (d : list (nat * V)) k k' x :
  dget Nat.eqb (dset Nat.eqb d k x) k' = if Nat.eqb k' k then Some x else dget Nat.eqb d k'.
Proof.
  induction d as [|[a y] d IH]; cbn; [reflexivity|].
  destruct (Nat.eqb_spec k a) as [->|N]; cbn.
  - destruct (Nat.eqb_spec k' a); reflexivity.
  - destruct (Nat.eqb_spec k' a) as [->|N'].
    + destruct (Nat.eqb_spec a k); [congruence|reflexivity].
    + exact IH.
Qed.

Section Aspects.
  Variables (v : pyver) (T : optable) (keq : pyobj -> pyobj -> bool) (m : meta).
  Notation trace := (trace v T keq m).
  Notation item_effect := (item_effect v T keq m).

  Lemma effect_labels K it body K' : item_effect K it body K' ->
    k_labels K' = match it with
                  | BLabel l => dset Nat.eqb (k_labels K) l (length (k_instrs K))
                  | _ => k_labels K end.
  Proof.
    destruct it; cbn [P_Conv.item_effect].
    - intros (co & na & va & first & name & arg & kind & c & H). intuition congruence.
    - intuition congruence.
    - intuition congruence.
    - intuition congruence.
    - intuition congruence.
  Qed.

  Lemma flush_keep K tr it K' : flush_caches v T (with_try K tr) it = Ok K' ->
    k_jumps K' = k_jumps K /\ k_labels K' = k_labels K /\ k_ex K' = k_ex K
    /\ k_cells K' = k_cells K /\ k_frees K' = k_frees K /\ k_loc K' = k_loc K.
  Proof.
    intros H. destruct (flush_inv _ _ _ _ _ H) as (c & _ & A1 & A2 & A3 & _ & _ & _ & A7 & A4 & A5 & _).
    rewrite A1, A2, A3, A4, A5, A7. destruct K; cbn. auto 10.
  Qed.

  Lemma trace_labels items K gs Kf : trace items K gs Kf -> forall l,
    (forall q, last_label l items q ->
       dget Nat.eqb (k_labels Kf) l = Some (length (k_instrs K) + start gs q)%nat)
    /\ (~ In (BLabel l) items -> dget Nat.eqb (k_labels Kf) l = dget Nat.eqb (k_labels K) l).
  Proof.
    induction 1 as [|it items K1 body K2 tr K3 caches gs Kf HB Hb He HF Hc HT IH]; intros l.
    - split; [|reflexivity]. intros q [H _]. now destruct q.
    - apply effect_labels in He. apply flush_keep in HF. destruct HF as (_ & HL & _).
      destruct (IH l) as [IH1 IH2]. split.
      + intros q Hq. destruct q as [|q].
        * destruct Hq as [E N]. cbn in E. injection E as ->.
          rewrite IH2.
          2:{ intros I. apply In_nth_error in I. destruct I as (n & I). apply (N (S n)); [lia|exact I]. }
          rewrite HL, He, dget_dset, Nat.eqb_refl, start_0. f_equal. lia.
        * rewrite (IH1 q).
          2:{ destruct Hq as [E N]. split; [exact E|]. intros q' L. apply (N (S q')). lia. }
          rewrite start_cons, Hc, Hb, !app_length. f_equal. lia.
      + intros N. rewrite IH2 by (intros I; apply N; now right). rewrite HL, He.
        destruct it; try reflexivity. rewrite dget_dset.
        destruct (Nat.eqb_spec l n) as [->|]; [|reflexivity]. exfalso. apply N. now left.
  Qed.

  (** Lists that grow by what each element contributes at its index. *)
  Fixpoint gather {A} (g : nat -> bitem -> list A) (n : nat) (items : list bitem)
    (gs : list (list cinstr)) : list A :=
    match items, gs with
    | it :: items', x :: gs' => g n it ++ gather g (n + length x) items' gs'
    | _, _ => []
    end.

  Lemma trace_gather {A} (acc : conv -> list A) (g : nat -> bitem -> list A) :
    (forall K it body K', item_effect K it body K' -> acc K' = acc K ++ g (length (k_instrs K)) it) ->
    (forall K tr it K', flush_caches v T (with_try K tr) it = Ok K' -> acc K' = acc K) ->
    forall items K gs Kf, trace items K gs Kf ->
    acc Kf = acc K ++ gather g (length (k_instrs K)) items gs.
  Proof.
    intros H1 H2.
    induction 1 as [|it items K1 body K2 tr K3 caches gs Kf HB Hb He HF Hc HT IH]; cbn [gather].
    - now rewrite app_nil_r.
    - rewrite IH, (H2 _ _ _ _ HF), (H1 _ _ _ _ He), Hc, Hb, !app_length, <- app_assoc.
      now rewrite Nat.add_assoc.
  Qed.

  Lemma gather_In {A} (g : nat -> bitem -> list A) items : forall gs n a,
    length gs = length items ->
    In a (gather g n items gs) <->
    exists p it, nth_error items p = Some it /\ In a (g (n + start gs p)%nat it).
  Proof.
    induction items as [|it items IH]; intros gs n a L; cbn [gather].
    - split; [intros []|]. intros (p & it & H & _). now destruct p.
    - destruct gs as [|x gs]; [discriminate|]. injection L as L.
      rewrite in_app_iff, (IH gs (n + length x)%nat a L). split.
      + intros [H|(p & it' & H1 & H2)].
        * exists 0%nat, it. rewrite start_0, Nat.add_0_r. now split.
        * exists (S p), it'. split; [exact H1|]. rewrite start_cons, Nat.add_assoc. exact H2.
      + intros ([|p] & it' & H1 & H2).
        * injection H1 as ->. rewrite start_0, Nat.add_0_r in H2. now left.
        * right. exists p, it'. split; [exact H1|]. now rewrite start_cons, Nat.add_assoc in H2.
  Qed.

  (** Elements that contribute occupy at least one instruction: no index occurs twice. *)
  Lemma gather_NoDup {A} (g : nat -> bitem -> list A) (ix : A -> nat) items : forall gs n,
    (forall p it x, nth_error items p = Some it -> nth_error gs p = Some x ->
       x = [] -> forall n, g n it = []) ->
    (forall n it, (length (g n it) <= 1)%nat /\ forall a, In a (g n it) -> ix a = n) ->
    NoDup (map ix (gather g n items gs))
    /\ forall a, In a (gather g n items gs) -> (n <= ix a)%nat.
  Proof.
    induction items as [|it items IH]; intros gs n H1 H2; cbn [gather].
    - split; [constructor|intros a []].
    - destruct gs as [|x gs]; [split; [constructor|intros a []]|].
      destruct (IH gs (n + length x)%nat) as [IHn IHl].
      { intros p it' y Hp Hg. apply (H1 (S p) it' y Hp Hg). }
      { exact H2. }
      destruct (H2 n it) as [Hl Hix].
      assert (P : g n it <> [] -> (0 < length x)%nat).
      { intros N. destruct x; [|cbn; lia]. exfalso. apply N.
        apply (H1 0%nat it [] eq_refl eq_refl eq_refl). }
      destruct (g n it) as [|a [|]] eqn:E; cbn [length] in Hl; [| |lia].
      + cbn [app]. split; [exact IHn|]. intros a I. apply IHl in I. lia.
      + cbn [app map]. specialize (P ltac:(discriminate)).
        pose proof (Hix a (or_introl eq_refl)) as Ha. split.
        * constructor; [|exact IHn]. rewrite in_map_iff. intros (b & Eb & I).
          apply IHl in I. lia.
        * intros b [<-|I]; [lia|]. apply IHl in I. lia.
  Qed.

  (** *** Jumps *)
  Definition jumps_at (n : nat) (it : bitem) : list (nat * nat) :=
    match it with
    | BI i => match i_arg i with OLabel l => [(n, l)] | _ => [] end
    | _ => []
    end.

  Lemma encode_jump K i co na va first name arg kind l :
    encode_arg v T keq m K i = Ok (co, na, va, first, name, arg, kind) ->
    i_arg i = OLabel l -> first = None /\ name = i_name i /\ arg = OInt 0 /\ kind = VNone
      /\ co = k_consts K /\ na = k_names K /\ va = k_varnames K.
  Proof. unfold encode_arg. intros H E. rewrite E in H. inv_ok. auto 10. Qed.

  Lemma trace_jumps items K gs Kf : trace items K gs Kf ->
    k_jumps Kf = k_jumps K ++ gather jumps_at (length (k_instrs K)) items gs.
  Proof.
    apply trace_gather.
    - intros K0 it body K'. destruct it; cbn [P_Conv.item_effect jumps_at].
      + intros (co & na & va & first & name & arg & kind & c & E & _ & Hf & _ & _ & _ & _ & _ & _ & -> & _).
        destruct (i_arg i) eqn:Ea; try reflexivity.
        destruct (encode_jump _ _ _ _ _ _ _ _ _ _ E Ea) as (-> & _). subst body. cbn.
        now rewrite Nat.add_0_r.
      + rewrite app_nil_r. tauto.
      + rewrite app_nil_r. tauto.
      + rewrite app_nil_r. tauto.
      + rewrite app_nil_r. tauto.
    - intros K0 tr it K' H. apply flush_keep in H. tauto.
  Qed.

  (** *** Cell and free variables *)
  Definition var_kind (i : instr) : vkind :=
    let op := i_op i in
    match i_arg i with
    | OCell _ => if z_mem op (t_hasconst T) then VNone
                 else if z_mem op (t_haslocal T) then (if is_dual v T op then VNone else VCell)
                 else if z_mem op (t_hasname T) then VNone
                 else if z_mem op (t_hasfree T) then VCell else VNone
    | OFree _ => if z_mem op (t_hasconst T) then VNone
                 else if z_mem op (t_haslocal T) then (if is_dual v T op then VNone else VFree)
                 else if z_mem op (t_hasname T) then VNone
                 else if z_mem op (t_hasfree T) then VFree else VNone
    | _ => VNone
    end.

  Lemma encode_kind K i co na va first name arg kind :
    encode_arg v T keq m K i = Ok (co, na, va, first, name, arg, kind) ->
    kind = var_kind i /\ (kind <> VNone -> first = None).
  Proof.
    unfold encode_arg, var_kind. intros H.
    destruct (i_arg i) eqn:Ea;
    repeat match type of H with
    | context [match ?x with _ => _ end] =>
        match x with
        | add_name _ _ => destruct x
        | add_const _ _ _ => destruct x
        | _ => let E := fresh "E" in destruct x eqn:E; try discriminate H
        end
    end; inv_ok; split; try reflexivity; try congruence.
  Qed.

  Definition cells_at (n : nat) (it : bitem) : list nat :=
    match it with BI i => match var_kind i with VCell => [n] | _ => [] end | _ => [] end.
  Definition frees_at (n : nat) (it : bitem) : list nat :=
    match it with BI i => match var_kind i with VFree => [n] | _ => [] end | _ => [] end.

  Lemma trace_cells items K gs Kf : trace items K gs Kf ->
    k_cells Kf = k_cells K ++ gather cells_at (length (k_instrs K)) items gs.
  Proof.
    apply trace_gather.
    - intros K0 it body K'. destruct it; cbn [P_Conv.item_effect cells_at].
      + intros (co & na & va & first & name & arg & kind & c & E & _ & _ & _ & _ & _ & _ & _ & _ & _ & -> & _).
        apply encode_kind in E. destruct E as [-> _]. reflexivity.
      + rewrite app_nil_r. tauto.
      + rewrite app_nil_r. tauto.
      + rewrite app_nil_r. tauto.
      + rewrite app_nil_r. tauto.
    - intros K0 tr it K' H. apply flush_keep in H. tauto.
  Qed.

  Lemma trace_frees items K gs Kf : trace items K gs Kf ->
    k_frees Kf = k_frees K ++ gather frees_at (length (k_instrs K)) items gs.
  Proof.
    apply trace_gather.
    - intros K0 it body K'. destruct it; cbn [P_Conv.item_effect frees_at].
      + intros (co & na & va & first & name & arg & kind & c & E & _ & _ & _ & _ & _ & _ & _ & _ & _ & _ & -> & _).
        apply encode_kind in E. destruct E as [-> _]. reflexivity.
      + rewrite app_nil_r. tauto.
      + rewrite app_nil_r. tauto.
      + rewrite app_nil_r. tauto.
      + rewrite app_nil_r. tauto.
    - intros K0 tr it K' H. apply flush_keep in H. tauto.
  Qed.

  (** An instruction produces at least one concrete instruction. *)
  Lemma trace_nonempty items K gs Kf p i x : trace items K gs Kf ->
    nth_error items p = Some (BI i) -> nth_error gs p = Some x -> x <> [].
  Proof.
    intros HT Hp Hx. destruct (trace_nth _ _ _ _ _ _ _ _ HT _ _ Hp)
      as (K1 & body & K2 & tr & K3 & caches & _ & Hg & He & _).
    rewrite Hx in Hg. injection Hg as ->. cbn [P_Conv.item_effect] in He.
    destruct He as (co & na & va & first & name & arg & kind & c & _ & _ & Hf & _).
    destruct first as [[n1 j1]|]; [destruct Hf as (c1 & _ & ->)|subst body]; discriminate.
  Qed.
End Aspects.
