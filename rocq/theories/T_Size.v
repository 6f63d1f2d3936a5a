(** Property theorems: the stack size written in the code object (C65). *)
From Verif Require Import PyBase OpTable Table311 TablesEx CPyEffect P_Base M_Instr M_Tables M_Concrete M_Convert M_Bytecode M_Cfg M_Stack M_Full
  S_Stack T_Full T_Bytecode T_Stack.
Open Scope string_scope.
Open Scope list_scope.
Open Scope Z_scope.

Lemma raw_stacksize v T cb n co : to_code_raw v T cb n = Ok co -> co_stacksize co = n.
Proof. unfold to_code_raw. destruct (assemble_code v T cb). intros E. inv_ok. reflexivity. Qed.

(** The number does not depend on whether the depths of the handlers are written *)
Lemma size_without_depths v T se check g g' n :
  compute_stacksize v T se check true g = Ok (g', n) ->
  exists g2, compute_stacksize v T se check false g = Ok (g2, n).
Proof.
  unfold compute_stacksize, compute_nested. destruct (g_order g) as [|m r].
  - intros E. injection E as <- <-. eauto.
  - intros E. apply bind_ok in E. destruct E as ([r0 C] & E1 & E). apply bind_ok in E. destruct E as (dead & E2 & E).
    apply bind_ok in E. destruct E as (h & _ & E). injection E as <- <-.
    rewrite E1. cbn [bind]. rewrite E2. cbn [bind]. eauto.
Qed.
Lemma size_unique v T se check d d' g g1 g2 n1 n2 :
  compute_stacksize v T se check d g = Ok (g1, n1) -> compute_stacksize v T se check d' g = Ok (g2, n2) -> n1 = n2.
Proof.
  intros A B. assert (U : forall d g1 n1, compute_stacksize v T se check d g = Ok (g1, n1) ->
    exists g0, compute_stacksize v T se check false g = Ok (g0, n1)).
  { intros [] ? ? X; [eapply size_without_depths; eauto|eauto]. }
  destruct (U _ _ _ A) as (x & X). destruct (U _ _ _ B) as (y & Y). congruence.
Qed.
Lemma through_size v T se check d b b' n : through_graph v T se check d b = Ok (b', n) ->
  exists g g', from_bytecode T b = Ok g /\ compute_stacksize v T se check d g = Ok (g', n).
Proof.
  unfold through_graph. intros E. apply bind_ok in E. destruct E as (g & E1 & E). apply bind_ok in E. destruct E as ([g' m] & E2 & E).
  apply bind_ok in E. destruct E as (? & _ & E). injection E as <- <-. eauto.
Qed.

(** C65.  A stack size given to to_code() is the one of the code object, unless the version is
    3.11 or later and the depths of the handlers are to be computed *)
Theorem C65_given_partial : forall v T se keq passes s check depths b co,
  bytecode_to_code v T se keq passes (Some s) check depths b = Ok co ->
  (PY311 v = true -> depths = false) -> co_stacksize co = s.
Proof.
  intros v T se keq passes s check depths b co E H.
  destruct (to_code_split _ _ _ _ _ _ _ _ _ _ E) as (b' & cb & n & _ & E2 & D). rewrite (raw_stacksize _ _ _ _ _ E2).
  destruct D as [[[D|D] _]|(_ & D & _)]; [discriminate D| |congruence].
  apply andb_true_iff in D. destruct D as [P D]. rewrite (H P) in D. discriminate D.
Qed.
Theorem C65_given_concrete_partial : forall v T se keq s check depths cb co,
  concrete_to_code v T se keq (Some s) check depths cb = Ok co ->
  (PY311 v = true -> depths = false) -> co_stacksize co = s.
Proof.
  intros v T se keq s check depths cb co E H. unfold concrete_to_code in E.
  destruct (PY311 v && depths) eqn:P.
  - apply andb_true_iff in P. destruct P as [P D]. rewrite (H P) in D. discriminate D.
  - cbn [bind] in E. now apply raw_stacksize in E.
Qed.
(** (ControlFlowGraph.to_code() always takes it) *)
Theorem C65_given_graph : forall v T se keq s check depths g co,
  cfg_to_code v T se keq (Some s) check depths g = Ok co -> co_stacksize co = s.
Proof.
  intros v T se keq s check depths g co E. unfold cfg_to_code in E. cbn [bind] in E.
  apply bind_ok in E. destruct E as (b & _ & E). eapply C65_given_partial; eauto.
Qed.

(** When it is not given, it is the number compute_stacksize() returns, with any setting of the
    handler depths; for a Bytecode that number is also the one of its graph. *)
Theorem C65_computed : forall v T se keq passes check depths b co n,
  bytecode_to_code v T se keq passes None check depths b = Ok co ->
  bytecode_stacksize v T se check b = Ok n -> co_stacksize co = n.
Proof.
  intros v T se keq passes check depths b co n E S. 
  destruct (to_code_split _ _ _ _ _ _ _ _ _ _ E) as (b' & cb & m & _ & E2 & D). rewrite (raw_stacksize _ _ _ _ _ E2).
  destruct D as [[_ D]|(_ & D & _)]; [|discriminate D].
  destruct (through_size _ _ _ _ _ _ _ _ D) as (g & g' & F & C).
  unfold bytecode_stacksize in S. rewrite F in S. cbn [bind] in S. apply bind_ok in S. destruct S as ([g2 n2] & S & Q).
  injection Q as ->. exact (size_unique _ _ _ _ _ _ _ _ _ _ _ C S).
Qed.
(** With the default options compute_stacksize() returns whenever to_code() does *)
Theorem C65_computed_default : forall v T se keq passes check b co,
  bytecode_to_code v T se keq passes None check true b = Ok co ->
  bytecode_stacksize v T se check b = Ok (co_stacksize co).
Proof.
  intros v T se keq passes check b co E.
  destruct (to_code_split _ _ _ _ _ _ _ _ _ _ E) as (b' & cb & m & _ & E2 & D). rewrite (raw_stacksize _ _ _ _ _ E2).
  destruct D as [[_ D]|(_ & D & _)]; [|discriminate D].
  destruct (through_size _ _ _ _ _ _ _ _ D) as (g & g' & F & C).
  unfold bytecode_stacksize. rewrite F. cbn [bind]. rewrite C. reflexivity.
Qed.
Theorem C65_computed_graph : forall v T se keq check depths depths' g g' co n,
  cfg_to_code v T se keq None check depths g = Ok co ->
  compute_stacksize v T se check depths' g = Ok (g', n) -> co_stacksize co = n.
Proof.
  intros v T se keq check depths depths' g g' co n E S. unfold cfg_to_code in E.
  apply bind_ok in E. destruct E as ([g2 m] & C & E). apply bind_ok in E. destruct E as (b & _ & E).
  rewrite (C65_given_partial _ _ _ _ _ _ _ _ _ _ E); [|reflexivity]. eapply size_unique; eauto.
Qed.
Theorem C65_computed_concrete : forall v T se keq check depths cb co n,
  concrete_to_code v T se keq None check depths cb = Ok co ->
  concrete_stacksize v T se check cb = Ok n -> co_stacksize co = n.
Proof.
  intros v T se keq check depths cb co n E S. unfold concrete_to_code in E.
  apply bind_ok in E. destruct E as ([cb' m] & E0 & E). apply raw_stacksize in E. subst m.
  apply bind_ok in E0. destruct E0 as (b & B & E0). apply bind_ok in E0. destruct E0 as ([b' m] & G & E0).
  apply bind_ok in E0. destruct E0 as (? & _ & E0). injection E0 as -> <-.
  destruct (through_size _ _ _ _ _ _ _ _ G) as (g & g' & F & C).
  unfold concrete_stacksize in S. rewrite B in S. cbn [bind] in S. unfold bytecode_stacksize in S. rewrite F in S. cbn [bind] in S.
  apply bind_ok in S. destruct S as ([g2 n2] & S & Q). injection Q as ->. exact (size_unique _ _ _ _ _ _ _ _ _ _ _ C S).
Qed.

(** On 3.11 and later, with the default options, a size given to to_code() is thrown away *)
Definition ex_return : bytecode := mkB meta0 []
  [BI (mkInstr "LOAD_CONST" 100 (OInt 7) None); BI (mkInstr "RETURN_VALUE" 83 OUnset None)].
Theorem C65_given_size_refuted : ~ forall b s co,
  bytecode_to_code V311 T311 dis_effect311 keq0 None (Some s) true true b = Ok co -> co_stacksize co = s.
Proof.
  intros H. destruct (bytecode_to_code V311 T311 dis_effect311 keq0 None (Some 10) true true ex_return) as [co|] eqn:E; [|vm_compute in E; discriminate E].
  specialize (H _ _ _ E). clear - E H. vm_compute in E. injection E as <-. discriminate H.
Qed.

Example C65_ex : exists co1 co2 co3,
  bytecode_to_code V311 T311 dis_effect311 keq0 None (Some 10) true false ex_return = Ok co1 /\ co_stacksize co1 = 10
  /\ bytecode_to_code V311 T311 dis_effect311 keq0 None None true true ex_return = Ok co2 /\ co_stacksize co2 = 1
  /\ bytecode_stacksize V311 T311 dis_effect311 true ex_return = Ok 1
  /\ bytecode_to_code V39 TPre (fun _ _ _ => Some 0) keq0 None (Some 10) true true
       (mkB meta0 [] [BI (mkInstr "NOP" 9 OUnset None)]) = Ok co3 /\ co_stacksize co3 = 10.
Proof.
  do 3 eexists. split; [vm_compute; reflexivity|]. split; [vm_compute; reflexivity|]. split; [vm_compute; reflexivity|].
  split; [vm_compute; reflexivity|]. split; [vm_compute; reflexivity|]. split; vm_compute; reflexivity.
Qed.

Print Assumptions C65_given_partial.
Print Assumptions C65_given_concrete_partial.
Print Assumptions C65_given_graph.
Print Assumptions C65_computed.
Print Assumptions C65_computed_default.
Print Assumptions C65_computed_graph.
Print Assumptions C65_computed_concrete.
Print Assumptions C65_given_size_refuted.
