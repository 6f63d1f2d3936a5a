(** Property theorems: from_code() and back, on every version (C52, C53). *)
From Verif Require Import PyBase OpTable CPy Table311 TablesEx CPyEffect P_Base P_OpTable M_Instr M_Tables M_Concrete M_Convert M_Bytecode M_Cfg M_Stack M_Full
  S_Args S_Lines S_Asm S_Prog S_Slots S_Dis S_Cfg S_Stack S_Ident S_Round S_Code S_Old
  P_Round P_Dis P_Dis3 P_Dis5 P_From P_From2 P_Old P_Old2 T_Asm T_Args T_Ident T_Code T_Meta T_Full T_From.
Open Scope string_scope.
Open Scope list_scope.
Open Scope Z_scope.

(** C52.  Whatever the version, the Bytecode made of a code object of a compiler shows the program
    the interpreter runs: the same instructions, jumps to the same instructions, the arguments the
    interpreter reads, the locations it reports, the handlers it finds. *)
Theorem C52_from_code_shows_program : forall v T conserve co b,
  wf_optable v T = true -> compiled v T co ->
  bytecode_from_code v T true conserve co = Ok b ->
  runs v T co (source b).
Proof.
  intros v T conserve co b wf AC E. unfold compiled in AC. destruct (PY311 v) eqn:P11; [eapply C52_from_code_shows_program_since_311; eauto|].
  apply bind_ok in E. destruct E as (cb & F & TB). exact (old_runs v T wf P11 co cb AC F conserve b TB _).
Qed.
Print Assumptions C52_from_code_shows_program.

(** On 3.10 every byte has a line (bytes without line: see C12, C53_no_line_refuted). *)
Definition all_lines (v : pyver) (co : codeobj) : Prop :=
  v = V310 -> forall off, 0 <= off < zlen (co_code co) -> line_at v co off <> Some None.

Theorem C52_from_code_is_writable : forall v T conserve co b,
  wf_optable v T = true -> compiled v T co -> all_lines v co ->
  bytecode_from_code v T true conserve co = Ok b ->
  writable v T b.
Proof.
  intros v T conserve co b wf AC AL E. unfold compiled in AC. destruct (PY311 v) eqn:P11; [eapply C52_from_code_is_writable_since_311; eauto|].
  apply bind_ok in E. destruct E as (cb & F & TB).
  destruct (old_writable v T wf P11 co cb AC F conserve b TB) as (W1 & W2 & W3 & W4 & W5 & W6 & W7).
  constructor; auto. intros n a l h I. split; [exact (W6 _ _ _ _ _ I)|]. intros V. unfold source, program in I. apply walk_own in I.
  - destruct I as (i & I & EL). destruct (W7 i I) as (c & l' & IC & CL & IL & _). apply In_nth_error in IC. destruct IC as (p & NP).
    destruct (old_facts v T wf P11 co cb AC F) as (_ & _ & CO & _ & _ & _ & _ & _ & _ & LO). destruct (LO p c NP) as (z & Q1 & _ & Q2).
    assert (l = line_loc z) by congruence. subst l. cbn [l_lineno line_loc]. intros ->. eapply (AL V); [|exact Q2].
    pose proof (nth_error_In _ _ (old_ran v T wf P11 co cb AC F p c NP)) as IR.
    pose proof (zlen_nonneg (P_Code.code T (firstn p (instrs_of (cb_items cb))))). split; [assumption|].
    pose proof (f_equal (fun x => zlen (P_Code.code T x)) (P_Ident.nth_split' _ _ _ NP)) as SP. cbv beta in SP. rewrite CO in SP. rewrite SP, P_Code.code_app, zlen_app. change (P_Code.code T (c :: ?r)) with (assemble T c ++ P_Code.code T r). rewrite zlen_app.
    pose proof (old_pos v T wf P11 co cb AC F) as PP. rewrite Forall_forall in PP. destruct (PP c (nth_error_In _ _ NP)) as [PZ _].
    destruct (old_facts v T wf P11 co cb AC F) as (_ & OK & _). rewrite Forall_forall in OK. rewrite <- (proj2 (OK c (nth_error_In _ _ NP))).
    pose proof (zlen_nonneg (P_Code.code T (skipn (S p) (instrs_of (cb_items cb))))). lia.
  - intros i I'. destruct (W7 i I') as (c & l' & _ & _ & IL & _). eauto.
Qed.
Print Assumptions C52_from_code_is_writable.

(** C53.  from_code() then to_code(), whatever the version and the options: both code objects, read
    as the interpreter reads them, are the same program. *)
Theorem C53_round_trip : forall v T se keq conserve passes stacksize check depths co b co',
  wf_optable v T = true -> sound_key keq -> compiled v T co -> all_lines v co ->
  bytecode_from_code v T true conserve co = Ok b ->
  bytecode_to_code v T se keq passes stacksize check depths b = Ok co' ->
  pairs_near v T b (co_varnames co') ->
  exists program, runs v T co program /\ runs v T co' program.
Proof.
  intros v T se keq conserve passes st check depths co b co' wf HK AC AL F E HP. exists (source b).
  split; [eapply C52_from_code_shows_program; eauto|].
  eapply C51_to_code_runs_program_partial; eauto. eapply C52_from_code_is_writable; eauto.
Qed.
Print Assumptions C53_round_trip.

Theorem C53_graph_round_trip : forall v T se keq conserve stacksize check depths co b g co',
  wf_optable v T = true -> sound_key keq -> compiled v T co -> all_lines v co ->
  bytecode_from_code v T true conserve co = Ok b -> from_bytecode T b = Ok g ->
  cfg_to_code v T se keq stacksize check depths g = Ok co' ->
  pairs_near v T b (co_varnames co') ->
  exists program, runs v T co program /\ runs v T co' program.
Proof.
  intros v T se keq conserve st check depths co b g co' wf HK AC AL F EG E HP. exists (source b).
  split; [eapply C52_from_code_shows_program; eauto|].
  eapply C51_graph_to_code_runs_program_partial; eauto. eapply C52_from_code_is_writable; eauto.
Qed.
Print Assumptions C53_graph_round_trip.

(** A 3.10 code object with instructions without line does not come back: a run without line is
    not ended by the line it interrupted (see C12). *)
Definition ex_no_line : codeobj :=
  mkCode 0 0 0 0 1 0 [100; 0; 1; 0; 100; 0; 83; 0] [ONone] [] [] "f.py" "f" "" 1 [4; 4; 2; 128; 2; 0] [] [] [].

(** ** Examples *)
Definition oo_eqb (a b : option (option Z)) : bool :=
  match a, b with Some (Some x), Some (Some y) => x =? y | Some None, Some None => true | None, None => true | _, _ => false end.
Lemma oo_eqb_ok a b : oo_eqb a b = true -> a = b.
Proof. destruct a as [[x|]|], b as [[y|]|]; cbn; try discriminate; try reflexivity. intros H. apply Z.eqb_eq in H. now subst. Qed.
Definition range (a b : Z) : list Z := map (fun k => a + Z.of_nat k) (seq 0 (Z.to_nat (b - a))).
Lemma range_In a b x : a <= x < b -> In x (range a b).
Proof. intros H. unfold range. apply in_map_iff. exists (Z.to_nat (x - a)). split; [lia|]. apply in_seq. lia. Qed.

Definition check_before (v : pyver) (T : optable) (co : codeobj) : bool :=
  check_normal v T 0 false (co_code co)
  && forallb (fun x => (0 <=? x) && (x <? 256)) (co_linetable co)
  && forallb (fun off => negb (oo_eqb (line_at v co off) None)) (range 0 (zlen (co_code co)))
  && forallb (fun r => forallb (fun off => oo_eqb (line_at v co off) (line_at v co (r_start r))) (range (r_start r) (r_end r))) (instructions v T co)
  && forallb (fun x => match x with
       | OLabel _ | OBlock _ | OUnset | OCell _ | OFree _ | OCompare _ | OIntr1 _ | OIntr2 _ => false | _ => true end) (co_consts co).
Lemma check_before_ok v T co : check_before v T co = true -> as_compiled_before v T co.
Proof.
  unfold check_before. intros X.
  apply andb_true_iff in X. destruct X as [X C5]. apply andb_true_iff in X. destruct X as [X C4]. apply andb_true_iff in X. destruct X as [X C3]. apply andb_true_iff in X. destruct X as [C1 C2].
  rewrite forallb_forall in C2, C3, C4, C5. constructor.
  - eapply check_normal_ok; eauto.
  - intros x I. specialize (C2 x I). lia.
  - intros off B Q. specialize (C3 off (range_In _ _ _ B)). rewrite Q in C3. discriminate.
  - intros r off I B. specialize (C4 r I). rewrite forallb_forall in C4. apply oo_eqb_ok, C4, range_In, B.
  - intros x I. specialize (C5 x I). destruct x; cbn in *; congruence || exact Logic.I.
Qed.

Theorem C53_no_line_refuted :
  ~ (forall T se keq conserve passes stacksize check depths co b co',
     wf_optable V310 T = true -> sound_key keq -> compiled V310 T co ->
     bytecode_from_code V310 T true conserve co = Ok b ->
     bytecode_to_code V310 T se keq passes stacksize check depths b = Ok co' ->
     pairs_near V310 T b (co_varnames co') ->
     exists program, runs V310 T co program /\ runs V310 T co' program).
Proof.
  intros H.
  destruct (bytecode_from_code V310 TPre true false ex_no_line) as [b|] eqn:EB; [|vm_compute in EB; discriminate EB].
  destruct (bytecode_to_code V310 TPre dis_effect311 keq0 None (Some 1) false false b) as [co'|] eqn:EC; [|vm_compute in EB; injection EB as <-; vm_compute in EC; discriminate EC].
  assert (W : wf_optable V310 TPre = true) by (vm_compute; reflexivity).
  assert (K : compiled V310 TPre ex_no_line) by (apply check_before_ok; vm_compute; reflexivity).
  assert (PN : pairs_near V310 TPre b (co_varnames co')) by (intros i n _ D; exfalso; unfold is_dual in D; discriminate D).
  destruct (H TPre dis_effect311 keq0 false None (Some 1) false false ex_no_line b co' W keq0_sound K EB EC PN) as (p & [R1 S1] & [R2 S2]).
  vm_compute in EB. injection EB as <-. vm_compute in EC. injection EC as <-.
    destruct (nth_error p 3) as [[[[n a] l] h]|] eqn:N; [|assert (Q : length (instructions V310 TPre ex_no_line) = 4%nat) by (vm_compute; reflexivity); apply nth_error_None in N; lia].
    destruct (S1 3%nat n a l h (mkRan 6 6 8 83 None) N eq_refl) as (_ & _ & L1 & _).
    destruct (S2 3%nat n a l h (mkRan 6 6 8 83 None) N eq_refl) as (_ & _ & L2 & _).
    specialize (L1 6 ltac:(cbn; lia)). specialize (L2 6 ltac:(cbn; lia)). vm_compute in L1. vm_compute in L2. congruence.
Qed.
Print Assumptions C53_no_line_refuted.

(** def f(a):
        t = 0
        for x in a:
            t = t + x
        return t
    on 3.9 and on 3.10, where the jump back (here with an EXTENDED_ARG) is at the line of the loop. *)
Definition ex39 : codeobj :=
  mkCode 1 0 0 3 3 67 [100; 1; 125; 1; 124; 0; 68; 0; 93; 12; 125; 2; 124; 1; 124; 2; 23; 0; 125; 1; 113; 8; 124; 1; 83; 0]
    [ONone; OInt 0] [] ["a"; "t"; "x"] "f.py" "f" "" 1 [0; 1; 4; 1; 8; 1; 10; 1] [] [] [].
Definition ex310 : codeobj :=
  mkCode 1 0 0 3 3 67 [100; 1; 125; 1; 124; 0; 68; 0; 93; 7; 125; 2; 124; 1; 124; 2; 23; 0; 125; 1; 144; 0; 113; 4; 124; 1; 83; 0]
    [ONone; OInt 0] [] ["a"; "t"; "x"] "f.py" "f" "" 1 [4; 1; 8; 1; 8; 1; 4; 255; 4; 2] [] [] [].

Example C52_C53_before_ex : compiled V39 TPre ex39 /\ compiled V310 TPre ex310
  /\ all_lines V39 ex39 /\ all_lines V310 ex310
  /\ (exists b co', bytecode_from_code V39 TPre true false ex39 = Ok b
     /\ bytecode_to_code V39 TPre dis_effect311 keq0 None (Some 3) false false b = Ok co'
     /\ co_code co' = co_code ex39 /\ co_linetable co' = co_linetable ex39
     /\ map (fun i => match i with (n, a, l, _) => (n, l_lineno l) end) (firstn 6 (source b))
        = [("LOAD_CONST", Some 2); ("STORE_FAST", Some 2); ("LOAD_FAST", Some 3); ("GET_ITER", Some 3); ("FOR_ITER", Some 3); ("STORE_FAST", Some 3)])
  /\ exists b co', bytecode_from_code V310 TPre true false ex310 = Ok b
     /\ bytecode_to_code V310 TPre dis_effect311 keq0 None (Some 3) false false b = Ok co'
     /\ length (co_code co') = 26%nat
     /\ map (fun i => match i with (n, a, l, _) => (n, l_lineno l) end) (skipn 9 (source b))
        = [("STORE_FAST", Some 4); ("JUMP_ABSOLUTE", Some 3); ("LOAD_FAST", Some 5); ("RETURN_VALUE", Some 5)].
Proof.
  split; [apply check_before_ok; vm_compute; reflexivity|]. split; [apply check_before_ok; vm_compute; reflexivity|].
  split; [intros Q; discriminate Q|]. split.
  { intros _ off B Q. assert (X : forallb (fun off => negb (oo_eqb (line_at V310 ex310 off) (Some None))) (range 0 (zlen (co_code ex310))) = true) by (vm_compute; reflexivity).
    rewrite forallb_forall in X. specialize (X off (range_In _ _ _ B)). rewrite Q in X. discriminate. }
  split; (do 2 eexists; split; [vm_compute; reflexivity|]; split; [vm_compute; reflexivity|]); repeat split; vm_compute; reflexivity.
Qed.
