(** Facts about well formed opcode tables. *)
From Verif Require Import PyBase OpTable P_Base.
Open Scope string_scope.
Open Scope list_scope.
Open Scope Z_scope.

Lemma nodupb_NoDup {A} (eqb : A -> A -> bool) l :
  (forall x y, eqb x y = true <-> x = y) -> nodupb eqb l = true -> NoDup l.
Proof.
  intros E. induction l as [|x l IH]; simpl; intros H; constructor;
    apply andb_prop in H; destruct H as [H1 H2].
  - intros I. rewrite negb_true_iff in H1.
    assert (existsb (eqb x) l = true).
    { apply existsb_exists. exists x. split; [assumption|]. now apply E. }
    congruence.
  - auto.
Qed.

Lemma NoDup_nodupb {A} (eqb : A -> A -> bool) l :
  (forall x y, eqb x y = true <-> x = y) -> NoDup l -> nodupb eqb l = true.
Proof.
  intros E. induction 1 as [|x l N H IH]; simpl; [reflexivity|].
  rewrite IH, andb_true_r, negb_true_iff.
  destruct (existsb (eqb x) l) eqn:X; [|reflexivity].
  apply existsb_exists in X. destruct X as (y & I & Y). apply E in Y. subst. contradiction.
Qed.

Lemma str_mem_In x l : str_mem x l = true <-> In x l.
Proof.
  unfold str_mem. rewrite existsb_exists. split.
  - intros (y & I & E). apply String.eqb_eq in E. now subst.
  - intros I. exists x. split; [assumption|apply String.eqb_refl].
Qed.

Lemma z_mem_In x l : z_mem x l = true <-> In x l.
Proof.
  unfold z_mem. rewrite existsb_exists. split.
  - intros (y & I & E). apply Z.eqb_eq in E. now subst.
  - intros I. exists x. split; [assumption|apply Z.eqb_refl].
Qed.

Lemma nat_mem_In x l : nat_mem x l = true <-> In x l.
Proof.
  unfold nat_mem. rewrite existsb_exists. split.
  - intros (y & I & E). apply Nat.eqb_eq in E. now subst.
  - intros I. exists x. split; [assumption|apply Nat.eqb_refl].
Qed.

Lemma dget_In {K V} (eqb : K -> K -> bool) (d : list (K * V)) k v :
  (forall x y, eqb x y = true <-> x = y) -> dget eqb d k = Some v -> In (k, v) d.
Proof.
  intros E. induction d as [|[k' v'] d IH]; simpl; [discriminate|].
  destruct (eqb k k') eqn:X; intros H.
  - apply E in X. injection H as ->. subst. now left.
  - right. auto.
Qed.

Lemma dget_NoDup {K V} (eqb : K -> K -> bool) (d : list (K * V)) k v :
  (forall x y, eqb x y = true <-> x = y) -> NoDup (map fst d) -> In (k, v) d ->
  dget eqb d k = Some v.
Proof.
  intros E. induction d as [|[k' v'] d IH]; simpl; [easy|].
  intros N I. inversion_clear N as [|? ? N1 N2].
  destruct I as [I|I].
  - injection I as -> ->. assert (eqb k k = true) as -> by now apply E. reflexivity.
  - destruct (eqb k k') eqn:X; [|auto].
    apply E in X. subst. exfalso. apply N1. now apply (in_map fst) in I.
Qed.

Section Wf.
  Variables (v : pyver) (T : optable).
  Hypothesis wf : wf_optable v T = true.

  Ltac open_wf :=
    let W := fresh "W" in
    pose proof wf as W; unfold wf_optable in W;
    repeat (apply andb_prop in W; let X := fresh "X" in destruct W as [W X]).

  Lemma wf_names : NoDup (map fst (t_opmap T)).
  Proof. open_wf. eapply nodupb_NoDup; [apply String.eqb_eq|]. assumption. Qed.

  Lemma wf_numbers : NoDup (map snd (t_opmap T)).
  Proof. open_wf. eapply nodupb_NoDup; [apply Z.eqb_eq|]. assumption. Qed.

  Lemma wf_min_instr : t_min_instrumented T <= 256.
  Proof. open_wf. apply Z.leb_le. assumption. Qed.

  Lemma wf_ext : opmap T "EXTENDED_ARG" = Some (t_extended_arg T).
  Proof.
    open_wf.
    match goal with H : match opmap T "EXTENDED_ARG" with _ => _ end = true |- _ =>
      destruct (opmap T "EXTENDED_ARG"); [|discriminate H]; apply Z.eqb_eq in H;
      congruence end.
  Qed.

  Lemma wf_ext_arg : opcode_has_argument v T (t_extended_arg T) = true.
  Proof. open_wf. assumption. Qed.

  Lemma wf_ext_lt : t_extended_arg T < t_min_instrumented T.
  Proof. open_wf. apply Z.ltb_lt. assumption. Qed.

  Lemma wf_ext_nojump : op_has_jump T (t_extended_arg T) = false.
  Proof. open_wf. apply negb_true_iff. assumption. Qed.

  Lemma wf_ext_nocache : cache_entries v T "EXTENDED_ARG" (t_extended_arg T) = 0.
  Proof. open_wf. apply Z.eqb_eq. assumption. Qed.

  Lemma opmap_In n op : opmap T n = Some op <-> In (n, op) (t_opmap T).
  Proof.
    split.
    - apply dget_In. apply String.eqb_eq.
    - apply dget_NoDup; [apply String.eqb_eq|apply wf_names].
  Qed.

  Lemma snd_inj n n' op : In (n, op) (t_opmap T) -> In (n', op) (t_opmap T) -> n = n'.
  Proof.
    pose proof wf_numbers as N. induction (t_opmap T) as [|[a b] l IH]; simpl; [easy|].
    simpl in N. inversion_clear N as [|? ? N1 N2].
    intros [A|A] [B|B]; try congruence; auto.
    - injection A as -> ->. apply (in_map snd) in B. contradiction.
    - injection B as -> ->. apply (in_map snd) in A. contradiction.
  Qed.

  Lemma opname_In n op : opname T op = Some n <-> In (n, op) (t_opmap T).
  Proof.
    unfold opname. split.
    - destruct (find _ _) as [[n' o]|] eqn:F; [|discriminate].
      intros H. injection H as ->. apply find_some in F. destruct F as [I E].
      simpl in E. apply Z.eqb_eq in E. now subst.
    - intros I. destruct (find _ _) as [[n' o]|] eqn:F.
      + apply find_some in F. destruct F as [I' E]. simpl in E. apply Z.eqb_eq in E. subst.
        f_equal. eauto using snd_inj.
      + pose proof (find_none _ _ F _ I) as E. simpl in E. rewrite Z.eqb_refl in E. discriminate.
  Qed.

  Lemma opmap_opname n op : opmap T n = Some op <-> opname T op = Some n.
  Proof. now rewrite opmap_In, opname_In. Qed.

  Lemma opmap_inj n n' op : opmap T n = Some op -> opmap T n' = Some op -> n = n'.
  Proof. rewrite !opmap_In. apply snd_inj. Qed.

  Lemma opmap_nonneg n op : opmap T n = Some op -> 0 <= op.
  Proof.
    rewrite opmap_In. intros I. open_wf.
    assert (F : forallb (fun p => 0 <=? snd p) (t_opmap T) = true) by assumption.
    rewrite forallb_forall in F. specialize (F _ I). simpl in F. now apply Z.leb_le.
  Qed.

  (** The per-opcode conditions of [wf_optable]. *)
  Lemma wf_base n op : opmap T n = Some op -> op < t_min_instrumented T ->
    let cats := [op_has_jump T op; z_mem op (t_hasconst T); z_mem op (t_haslocal T);
                 z_mem op (t_hasname T); z_mem op (t_hasfree T);
                 z_mem op (t_hascompare T); is_intrinsic v T op] in
       (Z.of_nat (length (filter (fun b => b) cats)) <=? 1) = true
       /\ (negb (existsb (fun b => b) cats) || opcode_has_argument v T op) = true
       /\ (negb (z_mem op (t_hasjrel T) && z_mem op (t_hasjabs T))) = true
       /\ (negb (PY313 v) || negb (z_mem op (t_hasjabs T))) = true
       /\ 0 <= cache_entries v T n op <= 255
       /\ (negb (is_dual v T op) || z_mem op (t_haslocal T)) = true
       /\ (negb (is_bitflag v T op || is_bitflag2 v T op) || z_mem op (t_hasname T)) = true
       /\ (negb (is_bitflag v T op && is_bitflag2 v T op)) = true
       /\ (negb (is_intrinsic1 v T op && is_intrinsic2 v T op)) = true.
  Proof.
    intros I L. rewrite opmap_In in I.
    assert (B : In (n, op) (base_ops T)).
    { apply filter_In. split; [assumption|]. simpl. now apply Z.ltb_lt. }
    open_wf.
    match goal with H : forallb ?f (base_ops T) = true |- _ =>
      rewrite forallb_forall in H; specialize (H _ B); rename H into F end.
    cbv zeta in F. simpl fst in F. simpl snd in F.
    repeat (apply andb_prop in F; let Y := fresh "Y" in destruct F as [F Y]).
    cbv zeta. repeat split; try assumption; now apply Z.leb_le.
  Qed.

  Lemma cache_nonneg n op : opmap T n = Some op -> op < t_min_instrumented T ->
    0 <= cache_entries v T n op <= 255.
  Proof. intros A B. now destruct (wf_base n op A B) as (_ & _ & _ & _ & ? & _). Qed.

  Lemma wf_cache_op0 : PY311 v = true -> opmap T "CACHE" = Some 0
     /\ opcode_has_argument v T 0 = false /\ 0 < t_min_instrumented T
     /\ cache_entries v T "CACHE" 0 = 0.
  Proof.
    intros P. open_wf. rewrite P in *.
    destruct (opmap T "CACHE") as [o|] eqn:EC.
    - match goal with H : (Z.eqb o 0 && _ && _ && _) = true |- _ =>
        apply andb_prop in H; destruct H as [H D]; apply andb_prop in H; destruct H as [H C];
        apply andb_prop in H; destruct H as [A B] end.
      apply negb_true_iff in B. apply Z.eqb_eq in A, D. apply Z.ltb_lt in C. subst.
      auto.
    - discriminate.
  Qed.

  Lemma wf_nop : exists o, opmap T "NOP" = Some o /\ opcode_has_argument v T o = false
     /\ o < t_min_instrumented T /\ cache_entries v T "NOP" o = 0.
  Proof.
    open_wf. destruct (opmap T "NOP") as [o|] eqn:EN; [|discriminate].
    exists o.
    match goal with H : (negb _ && (o <? _) && _) = true |- _ =>
      apply andb_prop in H; destruct H as [H C]; apply andb_prop in H; destruct H as [A B] end.
    apply negb_true_iff in A. apply Z.eqb_eq in C. apply Z.ltb_lt in B. auto.
  Qed.

  (** No opcode but CACHE has number 0. *)
  Lemma wf_op0 n : opmap T n = Some 0 -> n = "CACHE".
  Proof.
    rewrite opmap_In. intros I. open_wf.
    assert (F : negb (z_mem 0 (map snd (filter (fun p => negb (String.eqb (fst p) "CACHE"))
                                              (t_opmap T)))) = true) by assumption.
    apply negb_true_iff in F.
    destruct (String.eqb_spec n "CACHE") as [|N]; [assumption|].
    exfalso. enough (z_mem 0 (map snd (filter (fun p => negb (String.eqb (fst p) "CACHE"))
                                              (t_opmap T))) = true) by congruence.
    apply z_mem_In. apply in_map_iff. exists (n, 0). split; [reflexivity|].
    apply filter_In. split; [assumption|]. simpl. apply negb_true_iff.
    now apply String.eqb_neq.
  Qed.

  Lemma wf_singles n : PY313 v = true -> In n ["LOAD_FAST"; "STORE_FAST"] ->
    exists o, opmap T n = Some o /\ In o (t_haslocal T) /\ o < t_min_instrumented T
      /\ is_dual v T o = false /\ cache_entries v T n o = 0.
  Proof.
    intros P I. open_wf.
    match goal with H : (negb (PY313 v) || forallb _ _)%bool = true |- _ =>
      rewrite P in H; cbn [negb orb] in H; rewrite forallb_forall in H; specialize (H n I);
      destruct (opmap T n) as [o|]; [|discriminate H]; exists o; apply andb_prop in H; destruct H as [H H4];
      apply andb_prop in H; destruct H as [H H3]; apply andb_prop in H; destruct H as [H1 H2] end.
    split; [reflexivity|]. split; [now apply z_mem_In|]. split; [now apply Z.ltb_lt|].
    split; [now apply negb_true_iff|now apply Z.eqb_eq].
  Qed.

  Lemma dual_no_jump n op : opmap T n = Some op -> op < t_min_instrumented T ->
    is_dual v T op = true -> op_has_jump T op = false.
  Proof.
    intros H L D. pose proof (wf_base n op H L) as W. cbv zeta in W.
    destruct W as (W & _ & _ & _ & _ & W7 & _).
    destruct (op_has_jump T op); [|reflexivity].
    rewrite D in W7. cbn [negb orb] in W7. rewrite W7 in W. cbn in W.
    repeat match type of W with context [if ?b then _ else _] => destruct b end; discriminate W.
  Qed.
End Wf.
