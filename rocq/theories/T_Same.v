(** Equal Bytecodes give equal code objects (C80). *)
From Verif Require Import PyBase OpTable CPy Table311 TablesEx CPyEffect P_Base M_Instr M_Tables M_Concrete M_Convert M_Bytecode M_Cfg M_Stack M_Full
  S_Args S_Lines S_Asm S_Prog S_Eq S_Cfg S_Stack S_Ident P_Full P_Only2 P_Same T_Asm T_Args T_Ident T_Code T_Full T_Bytecode T_Only.
Open Scope string_scope.
Open Scope list_scope.
Open Scope Z_scope.

(** Two Bytecodes that are == and have the same attributes: legal instructions, plain numbers
    written as ints, and constants with the same const_key being the same. *)
Record interchangeable (v : pyver) (T : optable) (keq : pyobj -> pyobj -> bool) (a b : bytecode) : Prop := {
  in_eq : bytecode_eq v T keq a b = Ok true;
  in_meta : b_meta a = b_meta b;
  in_argnames : b_argnames a = b_argnames b;
  in_legal : all_legal v T a /\ all_legal v T b;
  in_numbers : numbers_plain v T (b_items a) /\ numbers_plain v T (b_items b) }.

(** They say the same, handlers included: the same instructions with the same arguments, jumping
    to the same places, at the same locations and protected by the same handlers. *)
Theorem C80_same_source : forall v T keq a b, wf_optable v T = true -> sound_key keq ->
  interchangeable v T keq a b -> source a = source b.
Proof.
  intros v T keq a b wf SK [E M _ [La Lb] [Na Nb]]. unfold source. rewrite M. f_equal.
  apply (same_program_eq v T keq a b wf La Lb SK Na Nb). eapply C41_same_program; [|exact E]. intros i I. apply (La i I).
Qed.

(** The code objects that are assembled from them differ at most in the stack size and the
    exception table. *)
Theorem C80_assembly : forall v T keq passes1 passes2 a b ca cb n m x y, wf_optable v T = true -> sound_key keq ->
  interchangeable v T keq a b -> no_cache (b_items a) -> no_cache (b_items b) ->
  to_concrete v T keq passes1 a = Ok ca -> to_concrete v T keq passes2 b = Ok cb ->
  to_code_raw v T ca n = Ok x -> to_code_raw v T cb m = Ok y ->
  alike x y /\ (PY311 v = false -> n = m -> x = y).
Proof.
  intros v T keq p1 p2 a b ca cb n m x y wf SK I NA NB. assert (S := C80_same_source v T keq a b wf SK I). destruct I as [_ M A [La Lb] _].
  apply C69_assembly with (keq := keq) (passes1 := p1) (passes2 := p2) (a := a) (b := b) (ca := ca) (cb := cb); auto. unfold said. now rewrite S.
Qed.

(** So do those that to_code() makes of them, with any options on either side. *)
Theorem C80_to_code : forall v T se keq a b passes1 s1 check1 depths1 passes2 s2 check2 depths2 x y, wf_optable v T = true -> sound_key keq ->
  interchangeable v T keq a b -> no_cache (b_items a) -> no_cache (b_items b) -> proper T (b_items a) -> proper T (b_items b) ->
  bytecode_to_code v T se keq passes1 s1 check1 depths1 a = Ok x ->
  bytecode_to_code v T se keq passes2 s2 check2 depths2 b = Ok y ->
  alike x y /\ (PY311 v = false -> co_stacksize x = co_stacksize y -> x = y).
Proof.
  intros v T se keq a b p1 s1 k1 d1 p2 s2 k2 d2 x y wf SK I NA NB PA PB E1 E2. assert (S := C80_same_source v T keq a b wf SK I).
  destruct I as [_ M A [La Lb] _].
  destruct (moved_split _ _ _ _ _ _ _ _ _ _ La NA PA E1) as (b1 & c1 & n1 & H1 & R1 & M1 & <-).
  destruct (moved_split _ _ _ _ _ _ _ _ _ _ Lb NB PB E2) as (b2 & c2 & n2 & H2 & R2 & (L2 & C2 & S2 & ME2 & A2) & <-).
  assert (M2 : moved v T a b2).
  { split; [exact L2|]. split; [exact C2|]. split; [rewrite S2; unfold said; now rewrite S|]. split; congruence. }
  exact (moved_alike v T keq _ _ a b1 b2 c1 c2 _ _ x y M1 M2 H1 H2 R1 R2).
Qed.

(** The attributes must be compared apart: Bytecode == looks at the elements only. *)
Theorem C80_attributes_ignored : forall v T keq m n a b items items',
  bytecode_eq v T keq (mkB m a items) (mkB n b items') = bytecode_eq v T keq (mkB meta0 [] items) (mkB meta0 [] items').
Proof. reflexivity. Qed.

(** ** Example: a function with a loop, a handler and a list, and the same with other labels *)
Definition ex_same (l : nat) : bytecode := mkB meta0 ["x"]
  [BLabel (l + 3); BTB l (OLabel l) false (Some 0); ins "LOAD_FAST" (OStr "x"); ins "POP_JUMP_FORWARD_IF_FALSE" (OLabel (l + 1)); BTE l;
   ins "LOAD_CONST" (OInt 3); ins "LOAD_CONST" (OInt 4); ins "BUILD_LIST" (OInt 2); ins "RETURN_VALUE" OUnset;
   BLabel (l + 1); ins "LOAD_CONST" ONone; ins "RETURN_VALUE" OUnset; BLabel l; ins "RERAISE" (OInt 0)].
Lemma check_numbers v T l : forallb (fun it => match it with BI i => match i_arg i with OBool _ | OCompare _ | OIntr1 _ | OIntr2 _ => false | _ => true end | _ => true end) l = true ->
  numbers_plain v T l.
Proof.
  intros H i J _ z Z. rewrite forallb_forall in H. specialize (H _ J). cbn in H. destruct (i_arg i); try discriminate. cbn in Z. congruence.
Qed.
Example C80_ex : interchangeable V311 T311 T_Asm.keq0 (ex_same 1) (ex_same 7) /\ ex_same 1 <> ex_same 7
  /\ proper T311 (b_items (ex_same 1)) /\ no_cache (b_items (ex_same 1))
  /\ exists x y, bytecode_to_code V311 T311 dis_effect311 T_Asm.keq0 None None true true (ex_same 1) = Ok x
     /\ bytecode_to_code V311 T311 dis_effect311 T_Asm.keq0 None (Some 9) false false (ex_same 7) = Ok y /\ x <> y /\ co_code x = co_code y.
Proof.
  assert (W1 : writable V311 T311 (ex_same 1)) by (apply check_writable_ok; [exact T311_wf|]; vm_compute; reflexivity).
  assert (W2 : writable V311 T311 (ex_same 7)) by (apply check_writable_ok; [exact T311_wf|]; vm_compute; reflexivity).
  split.
  { constructor; [vm_compute; reflexivity|reflexivity|reflexivity|split; [apply W1|apply W2]|split; apply check_numbers; vm_compute; reflexivity]. }
  split; [discriminate|]. split; [apply W1|]. split; [apply W1|].
  match goal with |- exists x y, ?p = _ /\ ?q = _ /\ _ => let x := eval vm_compute in p in let y := eval vm_compute in q in
    match x with Ok ?x => match y with Ok ?y => exists x, y end end end.
  split; [vm_compute; reflexivity|]. split; [vm_compute; reflexivity|]. split; [discriminate|reflexivity].
Qed.
Example keq0_sound : sound_key T_Asm.keq0.
Proof. exact T_Args.keq0_sound. Qed.

Print Assumptions C80_same_source.
Print Assumptions C80_assembly.
Print Assumptions C80_to_code.
Print Assumptions C80_attributes_ignored.
