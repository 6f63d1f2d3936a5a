(** Properties of instruction lists: iteration (C44), legalize (C35), comparison (C41),
    argument names (C43), copies (C48). *)
From Verif Require Import PyBase OpTable Table311 M_Instr M_Tables M_Concrete M_Convert M_Bytecode
  S_Args S_Flags S_Legal S_Prog S_Eq P_Bytecode P_Eq P_Eq2.
Open Scope string_scope.
Open Scope list_scope.
Open Scope Z_scope.

(** C44.  Iterating yields every element in order, unless a TryBegin comes before the
    previous one is closed: then it yields what precedes the first such TryBegin and raises
    RuntimeError. *)
Theorem C44_iteration l :
  (not_nested l -> iterate false l = (l, None))
  /\ (~ not_nested l -> exists pre id t la d post, l = pre ++ BTB id t la d :: post
        /\ iterate false l = (pre, Some RuntimeError) /\ not_nested pre).
Proof. apply iterate_iff. Qed.

Example ex_nested : iterate false [BTB 0 (OLabel 0) false None; BSet 1; BTB 1 (OLabel 0) true None; BTE 0]
  = ([BTB 0 (OLabel 0) false None; BSet 1], Some RuntimeError).
Proof. reflexivity. Qed.
Example ex_not_nested : not_nested [BTB 0 (OLabel 0) false None; BSet 1; BTE 0; BTB 1 (OLabel 0) true None].
Proof. apply iterate_not_nested. reflexivity. Qed.

(** C35, Bytecode.  Partial: true of the lists in which no instruction with a detailed
    location comes after a SetLineno.  Otherwise legalize() raises (next theorem). *)
Theorem C35_bytecode_partial v b :
  not_nested (b_items b) -> no_detail_after_set bview (b_items b) ->
  lines_ok bview v (b_items b) -> min_lineno v <= m_first_lineno (b_meta b) ->
  exists b', bytecode_legalize v b = (b', Ok tt)
    /\ b_meta b' = b_meta b /\ b_argnames b' = b_argnames b
    /\ legalized bview bset_loc (m_first_lineno (b_meta b)) (b_items b) (b_items b')
    /\ no_set bview (b_items b').
Proof.
  intros N D L F. unfold bytecode_legalize. rewrite (proj1 (iterate_iff _) N).
  rewrite skipn_all.
  destruct (legalize_ok bview bset_loc v) with (first := m_first_lineno (b_meta b)) (l := b_items b)
    as (l' & E & S & NS); auto.
  { intros [] lo lo'; cbn; try discriminate. reflexivity. }
  { intros [[]| | | |] lo; cbn; try discriminate. now intros Q; injection Q as ->. }
  rewrite E. eexists. split; [reflexivity|]. cbn. auto.
Qed.

(** C35, ConcreteBytecode. *)
Theorem C35_concrete_partial v cb :
  no_detail_after_set cview (cb_items cb) ->
  lines_ok cview v (cb_items cb) -> min_lineno v <= m_first_lineno (cb_meta cb) ->
  exists l', concrete_legalize v cb
      = (mkCB (cb_meta cb) l' (cb_consts cb) (cb_names cb) (cb_varnames cb) (cb_ex cb), Ok tt)
    /\ legalized cview cset_loc (m_first_lineno (cb_meta cb)) (cb_items cb) l'
    /\ no_set cview l'.
Proof.
  intros D L F. unfold concrete_legalize.
  destruct (legalize_ok cview cset_loc v) with (first := m_first_lineno (cb_meta cb)) (l := cb_items cb)
    as (l' & E & S & NS); auto.
  { intros [] lo lo'; cbn; try discriminate. reflexivity. }
  { intros [[]|] lo; cbn; try discriminate. now intros Q; injection Q as ->. }
  rewrite E. eauto.
Qed.

(** A SetLineno before an instruction with columns: legalize() never succeeds. *)
Theorem C35_detailed_refuted v b :
  not_nested (b_items b) -> lines_ok bview v (b_items b) -> min_lineno v <= m_first_lineno (b_meta b) ->
  ~ no_detail_after_set bview (b_items b) ->
  exists b', bytecode_legalize v b = (b', Err RuntimeError).
Proof.
  intros N L F D. unfold bytecode_legalize. rewrite (proj1 (iterate_iff _) N).
  destruct (legalize_refused bview bset_loc v (m_first_lineno (b_meta b)) (b_items b)
              (skipn (length (b_items b)) (b_items b)) None D L F) as (l' & E).
  rewrite E. eauto.
Qed.

Definition nop (l : option loc) : bitem := BI (mkInstr "NOP" 9 OUnset l).
Definition ex_lines : bytecode := mkB meta0 []
  [nop None; nop (Some (mkLoc (Some 5) (Some 6) (Some 1) (Some 2))); nop None; nop (Some (line_loc None));
   BSet 9; BLabel 0; nop None; BSet 12; BSet 13; nop (Some (line_loc (Some 7)))].
Example ex_lines_legalized : bytecode_legalize V311 ex_lines =
  (mkB meta0 [] [nop (Some (line_loc (Some 1))); nop (Some (mkLoc (Some 5) (Some 6) (Some 1) (Some 2)));
     nop (Some (line_loc (Some 5))); nop (Some (line_loc None)); BLabel 0; nop (Some (line_loc (Some 9)));
     nop (Some (line_loc (Some 13)))], Ok tt).
Proof. reflexivity. Qed.
Example ex_lines_hyps : not_nested (b_items ex_lines) /\ no_detail_after_set bview (b_items ex_lines)
  /\ lines_ok bview V311 (b_items ex_lines).
Proof.
  split; [apply iterate_not_nested; reflexivity|]. split; [now apply accepted_iff|].
  intros x J. cbn in J. repeat (destruct J as [<-|J]; [cbn; try lia; try exact Logic.I; intros z Q; try discriminate; injection Q as <-; lia|]).
  destruct J.
Qed.
Example ex_detail : let b := mkB meta0 [] [BSet 9; nop (Some (mkLoc (Some 5) (Some 6) (Some 1) (Some 2)))] in
  ~ no_detail_after_set bview (b_items b) /\ snd (bytecode_legalize V311 b) = Err RuntimeError.
Proof. split; [intros N; now apply accepted_iff in N|reflexivity]. Qed.

(** C41.  Comparison of two Bytecode is an equivalence on the bytecodes whose labels and
    TryBegin resolve ([keq]: same const_key). *)
Theorem C41_equivalence v T keq : equivalence keq ->
  (forall b, bytecode_eq v T keq b b = Ok true \/ exists e, bytecode_eq v T keq b b = Err e)
  /\ (forall a b r, bytecode_eq v T keq a b = Ok r -> bytecode_eq v T keq b a = Ok r)
  /\ (forall a b c, bytecode_eq v T keq a b = Ok true -> bytecode_eq v T keq b c = Ok true ->
        bytecode_eq v T keq a c = Ok true).
Proof.
  intros KE. split; [|split].
  - intros b. destruct (flat v T (b_items b)) as [out|e] eqn:E.
    + left. eapply eq_refl_ok; eassumption.
    + right. exists e. unfold bytecode_eq. now rewrite E.
  - intros a b r. now apply eq_sym_ok.
  - intros a b c. now apply eq_trans_ok.
Qed.

(** Which Label and TryBegin objects are used makes no difference, on either side. *)
Theorem C41_renaming v T keq f g a b : injective f -> injective g ->
  bytecode_eq v T keq (rename f g a) b = bytecode_eq v T keq a b
  /\ bytecode_eq v T keq b (rename f g a) = bytecode_eq v T keq b a.
Proof. intros F G. unfold bytecode_eq, rename. cbn [b_items]. rewrite !flat_rename by assumption. auto. Qed.

(** Equal bytecodes are the same program: same instructions and arguments in order, jumps
    to the same instructions, same handler protecting each instruction. *)
Theorem C41_same_program v T keq a b : named T (b_items a) ->
  bytecode_eq v T keq a b = Ok true -> same_program T keq (b_items a) (b_items b).
Proof. apply eq_same_program. Qed.

(** The converse on programs with the same elements at the same places is C41_renaming; two
    lists that differ only by the place of an unused label are the same program and are not
    equal. *)
Definition ex_eq (l : nat) : bytecode := mkB meta0 []
  [BTB (l + 1) (OLabel l) true None; nop None; BTE (l + 1); BI (mkInstr "JUMP_FORWARD" 110 (OLabel l) None); BSet 4;
   BI (mkInstr "LOAD_CONST" 100 (OInt 3) None); BLabel l; BI (mkInstr "RETURN_VALUE" 83 OUnset None)].
Definition keq0 (x y : pyobj) : bool := py_eq x y.
Example keq0_equivalence : equivalence keq0.
Proof.
  unfold keq0. split; [apply py_eq_refl|split; intros x y; rewrite ?py_eq_norm; [congruence|]].
  intros z. rewrite !py_eq_norm. congruence.
Qed.
Example ex_eq_true : bytecode_eq V311 T311 keq0 (ex_eq 0) (ex_eq 7) = Ok true /\ named T311 (b_items (ex_eq 0)).
Proof.
  split; [vm_compute; reflexivity|]. intros i J. cbn in J.
  repeat (destruct J as [J|J]; [try discriminate J; injection J as <-; reflexivity|]). destruct J.
Qed.
Example ex_eq_program : program (b_items (ex_eq 7)) =
  [PInstr "NOP" (PObj OUnset) None (Some (PTo (Some 3%nat), true));
   PInstr "JUMP_FORWARD" (PTo (Some 3%nat)) None None; PSet 4;
   PInstr "LOAD_CONST" (PObj (OInt 3)) None None; PInstr "RETURN_VALUE" (PObj OUnset) None None].
Proof. reflexivity. Qed.

(** C43.  The names of the parameters of a function are the first
    co_argcount + co_kwonlyargcount local variables (positional-only parameters are counted
    in co_argcount), then *args and **kwargs if present. *)
Definition parameters (co : codeobj) : list string :=
  firstn (Z.to_nat (co_argcount co + co_kwonly co
                    + (if Z.land (co_flags co) 4 =? 0 then 0 else 1)
                    + (if Z.land (co_flags co) 8 =? 0 then 0 else 1))) (co_varnames co).

(** Partial: functions without positional-only parameters. *)
Theorem C43_argnames_partial v T co cb ext prune conserve b :
  co_posonly co = 0 -> from_code v T co ext = Ok cb -> to_bytecode v T cb prune conserve = Ok b ->
  b_argnames b = parameters co.
Proof.
  intros P E F. unfold from_code in E. unfold to_bytecode in F.
  P_Base.inv_ok. match goal with x : (list bitem * list Z * list nat)%type |- _ => destruct x as [[? ?] ?] end. P_Base.inv_ok. cbn. unfold nargs_of, parameters. cbn.
  do 3 f_equal. rewrite P. clear. lia.
Qed.

(** With positional-only parameters (def f(x, /): y = x) too many names are returned. *)
Theorem C43_posonly_refuted :
  exists co cb b, co_posonly co = 1 /\ co_argcount co = 1 /\ from_code V311 T311 co false = Ok cb
    /\ to_bytecode V311 T311 cb true false = Ok b
    /\ parameters co = ["x"] /\ b_argnames b = ["x"; "y"].
Proof.
  exists (mkCode 1 1 0 2 1 3 [151; 0; 124; 0; 125; 1; 100; 0; 83; 0] [ONone] [] ["x"; "y"] "f" "f" "f" 1 [] [] [] []).
  eexists. eexists. split; [reflexivity|]. split; [reflexivity|]. split; [vm_compute; reflexivity|].
  split; [vm_compute; reflexivity|]. split; reflexivity.
Qed.

(** C48.  Bytecode.copy() has the same attributes and elements; a slice has the same
    attributes. *)
Theorem C48_bytecode_copy b : bytecode_copy b = b
  /\ forall items, b_meta (bytecode_slice b items) = b_meta b
       /\ b_argnames (bytecode_slice b items) = b_argnames b /\ b_items (bytecode_slice b items) = items.
Proof. destruct b as [[] ? ?]. repeat split. Qed.

(** ConcreteBytecode.copy(), partial: all but the exception table. *)
Theorem C48_concretebytecode_copy_partial cb : cb_ex cb = [] -> concrete_copy cb = cb.
Proof. destruct cb as [[] ? ? ? ? ?]. cbn. now intros ->. Qed.

(** The exception table is lost, and with it the handlers of the code. *)
Theorem C48_exception_table_refuted :
  exists cb co co', to_code_raw V311 T311 cb 1 = Ok co /\ to_code_raw V311 T311 (concrete_copy cb) 1 = Ok co'
    /\ co_exceptiontable co <> [] /\ co_exceptiontable co' = [].
Proof.
  exists (mkCB meta0 [CI (mkC "NOP" 9 None None None 2); CI (mkC "RETURN_VALUE" 83 None None None 2)] [] [] []
            [mkEx 0 0 1 0 false]).
  do 2 eexists. split; [vm_compute; reflexivity|]. split; [vm_compute; reflexivity|]. split; [discriminate|reflexivity].
Qed.

Print Assumptions C44_iteration.
Print Assumptions C35_bytecode_partial.
Print Assumptions C35_concrete_partial.
Print Assumptions C35_detailed_refuted.
Print Assumptions C41_equivalence.
Print Assumptions C41_renaming.
Print Assumptions C41_same_program.
Print Assumptions C43_argnames_partial.
Print Assumptions C43_posonly_refuted.
Print Assumptions C48_bytecode_copy.
Print Assumptions C48_concretebytecode_copy_partial.
Print Assumptions C48_exception_table_refuted.
