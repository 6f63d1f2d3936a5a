(** Property theorems: pre_and_post_stack_effect() for every version (C34). *)
From Verif Require Import PyBase OpTable Table311 TablesEx P_Base M_Instr M_Concrete M_Stack P_Effect S_Effect P_Effect3.
Open Scope string_scope.
Open Scope list_scope.
Open Scope Z_scope.

Lemma entry_use v T se x jump e p q u : describes v T se -> opmap T (i_name x) = Some (i_op x) -> uses v (i_name x) u ->
  stack_effect v T se x jump = Ok e -> pre_and_post v T se x jump = Ok (p, q) ->
  p + q = e /\ (0 <= arg_number x -> jump <> None ->
    (understated v (i_name x) = false -> needs_of u (arg_number x) = - p \/ needs_of u (arg_number x) = 0)
    /\ (understated v (i_name x) = true -> (str_mem (i_name x) ["LIST_EXTEND"; "SET_UPDATE"; "DICT_UPDATE"; "DICT_MERGE"] = true -> 1 < arg_number x) ->
          (i_name x = "FOR_ITER" -> jump = Some true) -> - p < needs_of u (arg_number x))).
Proof.
  intros [EF NU] K U S1 S2. pose proof (pair_ok _ _ _ _ _ _ _ _ K S1 S2) as PP.
  assert (X : exists n, e = (match jump with Some j => effect_of u n j | None => Z.max (effect_of u n true) (effect_of u n false) end)
     /\ (match u with Counted _ _ => n = arg_number x | _ => True end)).
  { destruct u as [a b|a b|a b|a b c].
    2:{ destruct (NU _ _ _ _ K U) as (N1 & N2 & N3 & N4 & N5). pose proof (asked_number _ _ _ _ _ _ N1 N2 N3 N4 N5 S1) as A.
        exists (arg_number x). split; [exact (EF _ _ _ _ _ _ K U A)|reflexivity]. }
    all: destruct (asked_any _ _ _ _ _ _ S1) as [a' A]; eexists; split; [exact (EF _ _ _ _ _ _ K U A)|exact Logic.I]. }
  destruct X as (n & E & NM). destruct U as (lo & hi & I & R).
  pose proof table_ok as TO. rewrite Forall_forall in TO. specialize (TO _ I). cbn beta iota in TO.
  specialize (TO v R n (arg_number x) jump NM). cbv zeta in TO. rewrite <- E in TO. rewrite <- PP in TO. exact TO.
Qed.

(** C34.  On every version, the two numbers returned by pre_and_post_stack_effect() add up to
    stack_effect(). *)
Theorem C34_pre_post : forall v T se x jump e p q u,
  describes v T se -> opmap T (i_name x) = Some (i_op x) -> uses v (i_name x) u ->
  stack_effect v T se x jump = Ok e -> pre_and_post v T se x jump = Ok (p, q) -> p + q = e.
Proof. intros v T se x jump e p q u D K U S1 S2. exact (proj1 (entry_use _ _ _ _ _ _ _ _ _ D K U S1 S2)). Qed.
Print Assumptions C34_pre_post.

(** The first is minus the number of items the instruction needs, except for the instructions that
    are [understated] (and those that need none). *)
Theorem C34_pre_is_need : forall v T se x j p q u,
  describes v T se -> opmap T (i_name x) = Some (i_op x) -> uses v (i_name x) u -> 0 <= arg_number x ->
  understated v (i_name x) = false -> pre_and_post v T se x (Some j) = Ok (p, q) ->
  needs_of u (arg_number x) = - p \/ needs_of u (arg_number x) = 0.
Proof.
  intros v T se x j p q u D K U AN US S2.
  assert (exists e, stack_effect v T se x (Some j) = Ok e) as [e S1].
  { unfold pre_and_post in S2. destruct (stack_effect v T se x (Some j)); [eauto|discriminate]. }
  destruct (entry_use _ _ _ _ _ _ _ _ _ D K U S1 S2) as [_ B]. destruct (B AN) as [C _]; [discriminate|]. exact (C US).
Qed.
Print Assumptions C34_pre_is_need.

(** These say less than they need, for every argument (greater than 1 for LIST_EXTEND and the like). *)
Theorem C34_understated_refuted : forall v T se x p q u,
  describes v T se -> opmap T (i_name x) = Some (i_op x) -> uses v (i_name x) u -> 0 <= arg_number x ->
  understated v (i_name x) = true ->
  (str_mem (i_name x) ["LIST_EXTEND"; "SET_UPDATE"; "DICT_UPDATE"; "DICT_MERGE"] = true -> 1 < arg_number x) ->
  pre_and_post v T se x (Some true) = Ok (p, q) -> - p < needs_of u (arg_number x).
Proof.
  intros v T se x p q u D K U AN US EX S2.
  assert (exists e, stack_effect v T se x (Some true) = Ok e) as [e S1].
  { unfold pre_and_post in S2. destruct (stack_effect v T se x (Some true)); [eauto|discriminate]. }
  destruct (entry_use _ _ _ _ _ _ _ _ _ D K U S1 S2) as [_ B]. destruct (B AN) as [_ C]; [discriminate|]. apply C; auto.
Qed.
Print Assumptions C34_understated_refuted.

(** Each name of STATIC_STACK_EFFECTS is that of an instruction of some version, except three that
    are misspelt: LOAD_INTRISIC_1, LOAD_INTRISIC_2 and FORMAT_SPEC. *)
Theorem C34_static_names : forall n e v, In (n, e) (static_effects v) ->
  (exists v u, uses v n u) \/ In n ["LOAD_INTRISIC_1"; "LOAD_INTRISIC_2"; "FORMAT_SPEC"].
Proof.
  intros n e v I.
  assert (A : forallb (fun p => existsb (fun '(lo, hi, m, _) => String.eqb (fst p) m && existsb (fun v => (lo <=? minor v) && (minor v <=? hi)) [V38; V39; V310; V311; V312; V313]) uses_table
                 || str_mem (fst p) ["LOAD_INTRISIC_1"; "LOAD_INTRISIC_2"; "FORMAT_SPEC"]) (static_effects v) = true) by (destruct v; vm_compute; reflexivity).
  rewrite forallb_forall in A. specialize (A _ I). cbn [fst] in A. apply orb_true_iff in A. destruct A as [A|A].
  - left. apply existsb_exists in A. destruct A as ([[[lo hi] m] u] & J & A). apply andb_true_iff in A. destruct A as [A B]. apply String.eqb_eq in A. subst m.
    apply existsb_exists in B. destruct B as (w & _ & B). apply andb_true_iff in B. destruct B as [B1 B2]. apply Z.leb_le in B1, B2. exists w, u, lo, hi. auto.
  - right. unfold str_mem in A. apply existsb_exists in A. destruct A as (m & J & A). apply String.eqb_eq in A. now subst.
Qed.
Print Assumptions C34_static_names.

(** The interpreters exist: dis.stack_effect as read in the table *)
Lemma existsb_false_iff {A} (f : A -> bool) l : existsb f l = false <-> forall x, In x l -> f x = false.
Proof.
  induction l as [|a l IH]; cbn; [split; [intros _ x []|reflexivity]|]. rewrite orb_false_iff, IH. split.
  - intros [P Q] x [<-|I]; auto.
  - intros H. split; [apply H; auto|intros x I; apply H; auto].
Qed.
Fixpoint find_use (l : list (Z * Z * string * use)) (v : pyver) (name : string) : option use :=
  match l with
  | [] => None
  | (lo, hi, n, u) :: l => if String.eqb name n && (lo <=? minor v) && (minor v <=? hi) then Some u else find_use l v name
  end.
Definition se_of (v : pyver) (T : optable) (op : Z) (arg : option Z) (jump : option bool) : option Z :=
  match opname T op with
  | None => None
  | Some name =>
      match find_use uses_table v name with
      | None => None
      | Some u => let n := match arg with Some n => n | None => 0 end in
                  Some match jump with Some j => effect_of u n j | None => Z.max (effect_of u n true) (effect_of u n false) end
      end
  end.
Fixpoint separate (l : list (Z * Z * string * use)) : bool :=
  match l with
  | [] => true
  | (lo, hi, n, _) :: l => forallb (fun '(lo', hi', n', _) => negb (String.eqb n n') || (hi <? lo') || (hi' <? lo)) l && separate l
  end.
Lemma find_use_ok v name u : forall l lo hi, separate l = true -> In (lo, hi, name, u) l -> lo <= minor v <= hi -> find_use l v name = Some u.
Proof.
  induction l as [|[[[lo0 hi0] n0] u0] l IH]; intros lo hi S I R; [destruct I|]. cbn in S. apply andb_true_iff in S. destruct S as [S1 S2]. cbn [find_use].
  destruct I as [I|I].
  - injection I as -> -> -> ->. rewrite String.eqb_refl. cbn. destruct (Z.leb_spec lo (minor v)); [|lia]. destruct (Z.leb_spec (minor v) hi); [reflexivity|lia].
  - rewrite forallb_forall in S1. specialize (S1 _ I). cbn beta iota in S1. rewrite (IH _ _ S2 I R).
    destruct (String.eqb_spec name n0) as [->|]; [|reflexivity]. rewrite String.eqb_refl in S1. cbn in S1. apply orb_true_iff in S1. rewrite !Z.ltb_lt in S1.
    destruct (Z.leb_spec lo0 (minor v)); [|reflexivity]. destruct (Z.leb_spec (minor v) hi0); [|reflexivity]. exfalso. clear - S1 R H H0. lia.
Qed.
Definition is_counted (u : use) : bool := match u with Counted _ _ => true | _ => false end.
Definition numbers_check (v : pyver) (T : optable) : bool :=
  forallb (fun '(n, op) => match opname T op with Some m => String.eqb n m | None => false end
    && match find_use uses_table v n with
       | Some u => negb (is_counted u)
            || (opcode_has_argument v T op && negb (z_mem op (t_hasconst T)) && negb (opcode_in T ["LOAD_GLOBAL"; "LOAD_ATTR"; "LOAD_SUPER_ATTR"] op))
       | None => true end) (t_opmap T).
Lemma table_describes v T : numbers_check v T = true -> describes v T (se_of v T).
Proof.
  intros C. assert (SEP : separate uses_table = true) by (vm_compute; reflexivity). unfold numbers_check in C. rewrite forallb_forall in C. split.
  - intros name op u arg jump e K (lo & hi & I & R) E. apply P_Effect.dget_In in K. specialize (C _ K). cbn beta iota in C. unfold se_of in E.
    apply andb_true_iff in C. destruct C as [C _]. destruct (opname T op) as [m|]; [|discriminate]. apply String.eqb_eq in C. subst m.
    rewrite (find_use_ok v name u _ lo hi SEP I R) in E. cbv zeta. congruence.
  - intros name op a b K (lo & hi & I & R). apply P_Effect.dget_In in K. specialize (C _ K). cbn beta iota in C.
    apply andb_true_iff in C. destruct C as [_ C]. rewrite (find_use_ok v name _ _ lo hi SEP I R) in C. cbn [is_counted negb orb] in C.
    apply andb_true_iff in C. destruct C as [C C3]. apply andb_true_iff in C. destruct C as [C1 C2]. apply negb_true_iff in C2, C3.
    split; [exact C1|]. split.
    + intros X. unfold z_mem in C2. rewrite existsb_false_iff in C2. specialize (C2 _ X). rewrite Z.eqb_refl in C2. discriminate.
    + unfold opcode_in in C3. rewrite existsb_false_iff in C3. unfold opcode_is in C3.
      repeat split; intros X; [specialize (C3 "LOAD_GLOBAL")|specialize (C3 "LOAD_ATTR")|specialize (C3 "LOAD_SUPER_ATTR")]; rewrite X, Z.eqb_refl in C3; cbn in C3; intuition discriminate.
Qed.
Example C34_describes_ex : describes V38 TPre (se_of V38 TPre) /\ describes V311 T311 (se_of V311 T311) /\ describes V313 T313 (se_of V313 T313).
Proof. split; [|split]; apply table_describes; vm_compute; reflexivity. Qed.
Example C34_ex38 : forall i, i = mkInstr "BINARY_ADD" 23 OUnset None ->
  stack_effect V38 TPre (se_of V38 TPre) i None = Ok (-1) /\ pre_and_post V38 TPre (se_of V38 TPre) i None = Ok (-2, 1)
  /\ uses V38 "BINARY_ADD" (Fixed 2 1) /\ opmap TPre "BINARY_ADD" = Some 23.
Proof.
  intros i ->. split; [vm_compute; reflexivity|]. split; [vm_compute; reflexivity|]. split; [|vm_compute; reflexivity].
  exists 8, 10. split; [|cbn; lia]. unfold uses_table. repeat (first [left; reflexivity|right]).
Qed.
Example C34_ex313 : exists i, i_name i = "CALL" /\ opmap T313 "CALL" = Some (i_op i) /\ i_arg i = OInt 3
  /\ stack_effect V313 T313 (se_of V313 T313) i None = Ok (-4) /\ pre_and_post V313 T313 (se_of V313 T313) i None = Ok (-5, 1).
Proof. destruct (opmap T313 "CALL") as [op|] eqn:E; [|vm_compute in E; discriminate]. exists (mkInstr "CALL" op (OInt 3) None). revert E. vm_compute. intros E. injection E as <-. repeat split; reflexivity. Qed.
Example C34_understated_ex : exists i, i_name i = "LIST_APPEND" /\ opmap T311 "LIST_APPEND" = Some (i_op i) /\ understated V311 "LIST_APPEND" = true
  /\ pre_and_post V311 T311 (se_of V311 T311) i (Some true) = Ok (-2, 1) /\ uses V311 "LIST_APPEND" (Counted (fun n => n + 1) (fun n => n)) /\ arg_number i + 1 = 3.
Proof.
  destruct (opmap T311 "LIST_APPEND") as [op|] eqn:E; [|vm_compute in E; discriminate]. exists (mkInstr "LIST_APPEND" op (OInt 2) None).
  assert (U : uses V311 "LIST_APPEND" (Counted (fun n => n + 1) (fun n => n))) by (exists 8, 13; split; [unfold uses_table; repeat (first [left; reflexivity|right])|cbn; lia]).
  revert E. generalize U. clear. intros U E. vm_compute in E. injection E as <-. repeat split; auto.
Qed.
