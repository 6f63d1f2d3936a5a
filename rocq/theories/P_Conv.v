(** Proof tools for the assembler: a run of the main loop as a trace of steps, each with
    the instructions it produced. *)
From Verif Require Import PyBase OpTable M_Instr M_Tables M_Concrete M_Convert P_Base.
Open Scope string_scope.
Open Scope list_scope.
Open Scope Z_scope.

Definition extends {A} (a b : list A) : Prop := exists t, b = a ++ t.
Lemma extends_refl {A} (a : list A) : extends a a.
Proof. exists []. now rewrite app_nil_r. Qed.
Lemma extends_trans {A} (a b c : list A) : extends a b -> extends b c -> extends a c.
Proof. intros [t ->] [u ->]. exists (t ++ u). now rewrite app_assoc. Qed.
Lemma extends_app {A} (a b : list A) : extends a (a ++ b).
Proof. now exists b. Qed.
Lemma extends_nth {A} (a b : list A) n x :
  extends a b -> nth_error a n = Some x -> nth_error b n = Some x.
Proof.
  intros [t ->] H. rewrite nth_error_app1; [assumption|]. apply nth_error_Some. congruence.
Qed.
#[export] Hint Resolve extends_refl extends_app : core.

Lemma add_name_ext l x l' j : add_name l x = (l', j) -> extends l l'.
Proof. unfold add_name. destruct str_index; intros E; injection E as <- <-; auto. Qed.
Lemma add_const_ext keq l x l' j : add_const keq l x = (l', j) -> extends l l'.
Proof. unfold add_const. destruct const_index; intros E; injection E as <- <-; auto. Qed.

Lemma str_index_nth x l n : str_index x l = Some n -> nth_error l n = Some x.
Proof.
  revert n. induction l as [|y l IH]; cbn; [discriminate|]. intros n.
  destruct (String.eqb_spec x y) as [->|N].
  - intros H; injection H as <-; reflexivity.
  - destruct str_index; cbn; [|discriminate]. intros H; injection H as <-. cbn. now apply IH.
Qed.
Lemma str_index_none x l : str_index x l = None <-> ~ In x l.
Proof.
  induction l as [|y l IH]; cbn; [tauto|].
  destruct (String.eqb_spec x y) as [->|N]; [split; [discriminate|tauto]|].
  destruct str_index; cbn.
  - split; [discriminate|]. intros H. exfalso. apply H. right. destruct IH as [_ IH].
    destruct (in_dec string_dec x l); [assumption|]. exfalso. discriminate (IH n0).
  - split; [|reflexivity]. intros _ [->|I]; [now apply N|]. now apply (proj1 IH eq_refl).
Qed.

Lemma add_name_nth l x l' j : add_name l x = (l', j) ->
  0 <= j /\ nth_error l' (Z.to_nat j) = Some x.
Proof.
  unfold add_name. destruct str_index eqn:E; intros H; injection H as <- <-.
  - split; [lia|]. rewrite Nat2Z.id. now apply str_index_nth.
  - unfold zlen. split; [lia|]. rewrite Nat2Z.id, nth_error_app2, Nat.sub_diag by lia. reflexivity.
Qed.

Lemma const_index_nth keq x l n : const_index keq x l = Some n ->
  exists y, nth_error l n = Some y /\ keq x y = true.
Proof.
  revert n. induction l as [|y l IH]; cbn; [discriminate|]. intros n.
  destruct (keq x y) eqn:K.
  - intros H; injection H as <-. now exists y.
  - destruct const_index; cbn; [|discriminate]. intros H; injection H as <-. cbn. now apply IH.
Qed.

Lemma add_const_nth keq l x l' j : (forall y, keq x y = true -> x = y) ->
  add_const keq l x = (l', j) -> 0 <= j /\ nth_error l' (Z.to_nat j) = Some x.
Proof.
  intros HK. unfold add_const. destruct const_index eqn:E; intros H; injection H as <- <-.
  - split; [lia|]. rewrite Nat2Z.id. apply const_index_nth in E. destruct E as (y & E & K).
    apply HK in K. now subst.
  - unfold zlen. split; [lia|]. rewrite Nat2Z.id, nth_error_app2, Nat.sub_diag by lia. reflexivity.
Qed.

Section Trace.
  Variables (v : pyver) (T : optable) (keq : pyobj -> pyobj -> bool) (m : meta).

  Definition with_try (K : conv) (tr : bool) : conv :=
    let '(mkK ins jumps labels ex req manual co na va lo ce fr _) := K in
    mkK ins jumps labels ex req manual co na va lo ce fr tr.

  (** What flushing caches does. *)
  Lemma flush_inv K it K' : flush_caches v T K it = Ok K' ->
    exists caches,
      k_instrs K' = k_instrs K ++ caches
      /\ k_jumps K' = k_jumps K /\ k_labels K' = k_labels K /\ k_ex K' = k_ex K
      /\ k_consts K' = k_consts K /\ k_names K' = k_names K /\ k_varnames K' = k_varnames K
      /\ k_loc K' = k_loc K /\ k_cells K' = k_cells K /\ k_frees K' = k_frees K
      /\ k_try K' = k_try K
      /\ (if is_cache it
          then caches = [] /\ k_req K <> 0 /\ k_req K' = k_req K - 1 /\ k_manual K' = true
          else k_req K' = 0 /\
               ((k_req K = 0 /\ caches = [] /\ k_manual K' = k_manual K)
                \/ (k_req K <> 0 /\ k_manual K = false /\ k_manual K' = false /\
                   exists last c,
                     nth_error (k_instrs K) (pred (length (k_instrs K))) = Some last
                     /\ new_cinstr v T "CACHE" (OInt 0) (c_loc last) None = Ok c
                     /\ caches = repeat c (Z.to_nat (k_req K))))).
  Proof.
    destruct K as [ins jumps labels ex req manual co na va lo ce fr tr]. unfold flush_caches.
    destruct (is_cache it); cbn [k_instrs k_jumps k_labels k_ex k_req k_manual k_consts k_names
      k_varnames k_loc k_cells k_frees k_try].
    - destruct (Z.eqb_spec req 0); [discriminate|]. intros H; injection H as <-.
      exists []. cbn. rewrite app_nil_r. repeat split; auto.
    - destruct (Z.eqb_spec req 0) as [->|N].
      + intros H; injection H as <-. exists []. cbn. rewrite app_nil_r. repeat split; auto.
      + destruct manual; [discriminate|]. intros H. inv_ok. eexists. cbn.
        repeat split; try reflexivity. right. repeat split; auto. eexists _, _. split; eauto.
  Qed.

  Definition ctables (K : conv) := (k_consts K, k_names K, k_varnames K).
  Definition tables_ext (K K' : conv) : Prop :=
    extends (k_consts K) (k_consts K') /\ extends (k_names K) (k_names K')
    /\ extends (k_varnames K) (k_varnames K').
  Lemma tables_ext_refl K : tables_ext K K.
  Proof. repeat split; auto. Qed.
  Lemma tables_ext_trans K K' K'' : tables_ext K K' -> tables_ext K' K'' -> tables_ext K K''.
  Proof. unfold tables_ext. intuition eauto using extends_trans. Qed.

  Lemma encode_arg_ext K i co na va first name arg kind :
    encode_arg v T keq m K i = Ok (co, na, va, first, name, arg, kind) ->
    extends (k_consts K) co /\ extends (k_names K) na /\ extends (k_varnames K) va.
  Proof.
    unfold encode_arg. intros H.
    repeat match type of H with
    | context [match ?x with _ => _ end] =>
        match x with
        | add_name _ _ => let E := fresh "E" in destruct x eqn:E; apply add_name_ext in E
        | add_const _ _ _ => let E := fresh "E" in destruct x eqn:E; apply add_const_ext in E
        | _ => destruct x; try discriminate H
        end
    end; inv_ok; repeat split; eauto using extends_trans.
  Qed.

  (** One element. *)
  Definition item_effect (K : conv) (it : bitem) (body : list cinstr) (K' : conv) : Prop :=
    match it with
    | BI i =>
        let lo := match i_loc i with Some l => l | None => k_loc K end in
        exists co na va first name arg kind c,
          encode_arg v T keq m K i = Ok (co, na, va, first, name, arg, kind)
          /\ new_cinstr v T name arg (Some lo) None = Ok c
          /\ match first with
             | Some (n1, j1) => exists c1, new_cinstr v T n1 (OInt j1) (Some lo) None = Ok c1
                                           /\ body = [c1; c]
             | None => body = [c]
             end
          /\ k_consts K' = co /\ k_names K' = na /\ k_varnames K' = va /\ k_loc K' = lo
          /\ k_labels K' = k_labels K /\ k_ex K' = k_ex K
          /\ k_jumps K' = k_jumps K ++
               match i_arg i with
               | OLabel l => [(length (k_instrs K) + pred (length body), l)%nat]
               | _ => [] end
          /\ k_cells K' = k_cells K ++
               match kind with VCell => [length (k_instrs K)] | _ => [] end
          /\ k_frees K' = k_frees K ++
               match kind with VFree => [length (k_instrs K)] | _ => [] end
          /\ k_req K' = (if PY311 v then use_cache_opcodes v T c else k_req K)
          /\ k_manual K' = (if PY311 v then false else k_manual K)
    | _ =>
        body = []
        /\ k_consts K' = k_consts K /\ k_names K' = k_names K /\ k_varnames K' = k_varnames K
        /\ k_jumps K' = k_jumps K /\ k_cells K' = k_cells K /\ k_frees K' = k_frees K
        /\ k_req K' = k_req K /\ k_manual K' = k_manual K
        /\ k_loc K' = match it with BSet z => line_loc (Some z) | _ => k_loc K end
        /\ k_labels K' = match it with
                         | BLabel l => dset Nat.eqb (k_labels K) l (length (k_instrs K))
                         | _ => k_labels K end
        /\ match it with
           | BTB id target lasti depth => exists d, depth = Some d
                /\ k_ex K' = dset Nat.eqb (k_ex K) id (mkXI (zlen (k_instrs K)) 0 target d lasti)
           | BTE id => exists e, dget Nat.eqb (k_ex K) id = Some e
                /\ k_ex K' = dset Nat.eqb (k_ex K) id
                     (mkXI (xi_start e) (zlen (k_instrs K) - 1) (xi_target e) (xi_depth e) (xi_lasti e))
           | _ => k_ex K' = k_ex K
           end
    end.

  Lemma conv_body_inv K it K' : conv_body v T keq m K it = Ok K' ->
    exists body, k_instrs K' = k_instrs K ++ body /\ k_try K' = k_try K
                 /\ item_effect K it body K'.
  Proof.
    unfold conv_body.
    destruct K as [ins jumps labels ex req manual co na va lo ce fr tr].
    destruct it as [i|l|z|id target lasti depth|id].
    - set (K := mkK ins jumps labels ex req manual co na va lo ce fr tr).
      destruct (encode_arg v T keq m K i) as [[[[[[[co' na'] va'] first] name] arg] kind]|] eqn:E;
        [|discriminate]. cbn [bind].
      destruct first as [[n1 j1]|].
      + destruct (new_cinstr v T n1 _ _ _) as [c1|] eqn:E1; [|discriminate]. cbn [bind].
        destruct (new_cinstr v T name _ _ _) as [c|] eqn:E2; [|discriminate]. cbn [bind].
        intros H; injection H as <-. exists [c1; c].
        cbn [k_instrs k_try]. split; [now rewrite <- app_assoc|]. split; [reflexivity|].
        cbn [item_effect]. exists co', na', va', (Some (n1, j1)), name, arg, kind, c.
        cbn [k_instrs k_jumps k_labels k_ex k_req k_manual k_consts k_names
          k_varnames k_loc k_cells k_frees k_try K]. rewrite app_length.
        cbn [length pred].
        repeat (split; [first [assumption | reflexivity | now exists c1]|]).
        split; [destruct (i_arg i); rewrite ?app_nil_r; reflexivity|].
        split; [destruct kind; rewrite ?app_nil_r; reflexivity|].
        split; [destruct kind; rewrite ?app_nil_r; reflexivity|].
        split; reflexivity.
      + destruct (new_cinstr v T name _ _ _) as [c|] eqn:E2; [|discriminate]. cbn [bind].
        intros H; injection H as <-. exists [c].
        cbn [k_instrs k_try]. split; [reflexivity|]. split; [reflexivity|].
        cbn [item_effect]. exists co', na', va', None, name, arg, kind, c.
        cbn [k_instrs k_jumps k_labels k_ex k_req k_manual k_consts k_names
          k_varnames k_loc k_cells k_frees k_try K].
        cbn [length pred]. rewrite Nat.add_0_r.
        repeat (split; [first [assumption | reflexivity ]|]).
        split; [destruct (i_arg i); rewrite ?app_nil_r; reflexivity|].
        split; [destruct kind; rewrite ?app_nil_r; reflexivity|].
        split; [destruct kind; rewrite ?app_nil_r; reflexivity|].
        split; reflexivity.
    - intros H; injection H as <-. exists []. cbn. rewrite app_nil_r. repeat split.
    - intros H; injection H as <-. exists []. cbn. rewrite app_nil_r. repeat split.
    - intros H. inv_ok. exists []. cbn. rewrite app_nil_r. repeat split. now exists x.
    - intros H. inv_ok. exists []. cbn. rewrite app_nil_r. repeat split. now exists x.
  Qed.

  (** A run of the loop from the state [K], in which the caches needed before the first
      element have been flushed.  [gs]: what each element produced, caches included. *)
  Inductive trace : list bitem -> conv -> list (list cinstr) -> conv -> Prop :=
  | tr_nil K : trace [] K [] K
  | tr_cons it items K1 body K2 tr K3 caches gs Kf :
      conv_body v T keq m K1 it = Ok K2 ->
      k_instrs K2 = k_instrs K1 ++ body ->
      item_effect K1 it body K2 ->
      flush_caches v T (with_try K2 tr) (hd_error items) = Ok K3 ->
      k_instrs K3 = k_instrs K2 ++ caches ->
      trace items K3 gs Kf ->
      trace (it :: items) K1 ((body ++ caches) :: gs) Kf.

  Definition conv_run (items : list bitem) (K : conv) : res conv :=
    K <- foldM (conv_item v T keq m) items K ;; flush_caches v T K None.

  Lemma run_trace items : forall K Kf, conv_run items K = Ok Kf ->
    exists tr K1 gs, flush_caches v T (with_try K tr) (hd_error items) = Ok K1
                     /\ trace items K1 gs Kf.
  Proof.
    induction items as [|it items IH]; intros K Kf H; unfold conv_run in H; cbn [foldM] in H.
    - cbn [bind] in H. exists (k_try K), Kf, []. split; [|constructor].
      destruct K; exact H.
    - apply bind_ok in H. destruct H as (K2' & H & HF).
      apply bind_ok in H. destruct H as (K2 & H1 & H2).
      unfold conv_item in H1. apply bind_ok in H1. destruct H1 as (tr & Htr & H1).
      destruct K as [ins jumps labels ex req manual co na va lo ce fr tr0].
      apply bind_ok in H1. destruct H1 as (K1 & HK1 & HB).
      specialize (IH K2 Kf).
      destruct IH as (tr' & K3 & gs & HFl & HT).
      { unfold conv_run. rewrite H2. exact HF. }
      destruct (conv_body_inv _ _ _ HB) as (body & Hb & _ & He).
      destruct (flush_inv _ _ _ HFl) as (caches & Hc & _).
      exists tr, K1, ((body ++ caches) :: gs). split; [exact HK1|].
      eapply tr_cons; eauto. destruct K2; exact Hc.
  Qed.

  Lemma trace_instrs items K gs Kf : trace items K gs Kf ->
    k_instrs Kf = k_instrs K ++ concat gs /\ length gs = length items.
  Proof.
    induction 1 as [|it items K1 body K2 tr K3 caches gs Kf _ Hb _ _ Hc _ [IH IHl]]; cbn.
    - now rewrite app_nil_r.
    - rewrite IH, Hc, Hb, <- !app_assoc. split; [reflexivity|congruence].
  Qed.

  Lemma item_effect_ext K it body K' : item_effect K it body K' -> tables_ext K K'.
  Proof.
    unfold tables_ext. destruct it; cbn [item_effect].
    - intros (co & na & va & first & name & arg & kind & c & E & _ & _ & -> & -> & -> & _).
      eapply encode_arg_ext; eauto.
    - intros (_ & -> & -> & -> & _); auto.
    - intros (_ & -> & -> & -> & _); auto.
    - intros (_ & -> & -> & -> & _); auto.
    - intros (_ & -> & -> & -> & _); auto.
  Qed.

  Lemma flush_ext K tr it K' : flush_caches v T (with_try K tr) it = Ok K' -> tables_ext K K'.
  Proof.
    intros H. destruct (flush_inv _ _ _ H) as (c & _ & _ & _ & _ & A & B & C & _).
    unfold tables_ext. rewrite A, B, C. destruct K; cbn; auto.
  Qed.

  Lemma trace_ext items K gs Kf : trace items K gs Kf -> tables_ext K Kf.
  Proof.
    induction 1 as [|it items K1 body K2 tr K3 caches gs Kf _ Hb He HF _ _ IH].
    - apply tables_ext_refl.
    - eapply tables_ext_trans; [eapply item_effect_ext; eauto|].
      eapply tables_ext_trans; [eapply flush_ext; eauto|]. exact IH.
  Qed.

  (** Access to one step. *)
  Lemma trace_nth items K gs Kf : trace items K gs Kf ->
    forall p it, nth_error items p = Some it ->
    exists K1 body K2 tr K3 caches,
      k_instrs K1 = k_instrs K ++ concat (firstn p gs)
      /\ nth_error gs p = Some (body ++ caches)
      /\ item_effect K1 it body K2
      /\ k_instrs K2 = k_instrs K1 ++ body
      /\ flush_caches v T (with_try K2 tr) (nth_error items (S p)) = Ok K3
      /\ k_instrs K3 = k_instrs K2 ++ caches
      /\ tables_ext K K1 /\ tables_ext K2 Kf
      /\ trace (skipn (S p) items) K3 (skipn (S p) gs) Kf.
  Proof.
    induction 1 as [|it items K1 body K2 tr K3 caches gs Kf HB Hb He HF Hc HT IH];
      intros p it' Hp.
    - now destruct p.
    - destruct p as [|p]; cbn [nth_error] in Hp.
      + injection Hp as <-. exists K1, body, K2, tr, K3, caches.
        cbn [firstn concat nth_error]. rewrite app_nil_r.
        repeat (split; [first [reflexivity | assumption | apply tables_ext_refl |
                               destruct items; assumption]|]).
        split; [|exact HT].
        eapply tables_ext_trans; [eapply flush_ext; eauto|]. eapply trace_ext; eauto.
      + destruct (IH _ _ Hp) as (A1 & b & A2 & tr' & A3 & cs & H1 & H2 & H3 & H4 & H5 & H6 & H7 & H8 & H9).
        exists A1, b, A2, tr', A3, cs. cbn [firstn concat nth_error skipn].
        repeat (split; [first [assumption | rewrite H1, Hc, Hb, <- !app_assoc; reflexivity ]|]).
        split; [|split; assumption].
        eapply tables_ext_trans; [eapply item_effect_ext; eauto|].
        eapply tables_ext_trans; [eapply flush_ext; eauto|]. exact H7.
  Qed.
End Trace.
