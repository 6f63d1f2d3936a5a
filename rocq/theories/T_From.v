(** Property theorems: from_code() on a code object of a compiler, and back (C52, C53). *)
From Verif Require Import PyBase OpTable CPy Table311 TablesEx CPyEffect P_Base P_OpTable M_Instr M_Tables M_Concrete M_Convert M_Bytecode M_Cfg M_Stack M_Full
  S_Args S_Lines S_Asm S_Prog S_Slots S_Dis S_Cfg S_Stack S_Ident S_Round S_Code
  P_Round P_Dis P_Dis3 P_Dis5 P_From P_From2 T_Asm T_Args T_Ident T_Code T_Meta T_Full.
Open Scope string_scope.
Open Scope list_scope.
Open Scope Z_scope.

(** ** C52 *)

(** C52.  The Bytecode made of a code object of a compiler shows the program the interpreter runs:
    the same instructions, jumps to the same instructions, the arguments the interpreter reads, the
    locations it reports, the handlers it finds for every code unit.  (3.11 and later.) *)
Theorem C52_from_code_shows_program_since_311 : forall v T conserve co b,
  wf_optable v T = true -> PY311 v = true -> as_compiled v T co ->
  bytecode_from_code v T true conserve co = Ok b ->
  runs v T co (source b).
Proof.
  intros v T conserve co b wf P11 AC E. apply bind_ok in E. destruct E as (cb & F & TB).
  destruct (grouped v T wf P11 co cb AC F) as (gs & GS & GR).
  exact (from_code_runs v T wf P11 co cb AC F gs GS GR conserve b TB _).
Qed.
Print Assumptions C52_from_code_shows_program_since_311.

(** The Bytecode can be written again: labels are defined, try blocks are paired and not empty,
    arguments and locations are legal. *)
Theorem C52_from_code_is_writable_since_311 : forall v T conserve co b,
  wf_optable v T = true -> PY311 v = true -> as_compiled v T co ->
  bytecode_from_code v T true conserve co = Ok b ->
  writable v T b.
Proof.
  intros v T conserve co b wf P11 AC E. apply bind_ok in E. destruct E as (cb & F & TB).
  destruct (from_code_writable v T wf P11 co cb conserve b AC F TB) as (W1 & W2 & W3 & W4 & W5 & W6 & _).
  constructor; auto. intros n a l h I. split; [exact (W6 _ _ _ _ _ I)|]. intros ->. discriminate.
Qed.
Print Assumptions C52_from_code_is_writable_since_311.

(** The attributes are those of the code object. *)
Theorem C52_attributes : forall v T prune conserve co b,
  wf_optable v T = true -> bytecode_from_code v T prune conserve co = Ok b ->
  let m := b_meta b in
  m_argcount m = co_argcount co /\ m_posonly m = co_posonly co /\ m_kwonly m = co_kwonly co
  /\ m_flags m = co_flags co /\ m_name m = co_name co /\ m_filename m = co_filename co
  /\ (PY311 v = true -> m_qualname m = co_qualname co) /\ m_first_lineno m = co_firstlineno co
  /\ m_freevars m = co_freevars co /\ m_cellvars m = co_cellvars co
  /\ (exists more, co_varnames co = b_argnames b ++ more)
  /\ (forall x, hd_error (co_consts co) = Some x -> (x = ONone \/ exists s, x = OStr s) -> m_docstring m = x)
  /\ ((forall x, hd_error (co_consts co) = Some x -> x <> ONone /\ forall s, x <> OStr s) -> m_docstring m = OUnset).
Proof.
  intros v T prune conserve co b wf E m. apply bind_ok in E. destruct E as (cb & F & TB).
  pose proof (ordinary_plain v T wf _ (from_code_ordinary v T wf co cb F)) as PC.
  destruct (to_bytecode_dis v T wf cb prune conserve b PC TB) as (tg & ps & cr & DS). destruct DS as [_ _ _ _ _ _ DM DA].
  subst m. rewrite DM. unfold from_code in F. apply bind_ok in F. destruct F as (is1 & _ & F). apply bind_ok in F. destruct F as (is2 & _ & F). injection F as <-. cbn [cb_meta cb_consts cb_varnames m_argcount m_posonly m_kwonly m_first_lineno m_name m_qualname m_filename m_docstring m_cellvars m_freevars m_flags] in *.
  repeat (split; [reflexivity|]). split; [now intros ->|]. repeat (split; [reflexivity|]). split.
  - exists (skipn (length (b_argnames b)) (co_varnames co)). rewrite DA. set (k := Z.to_nat _). rewrite firstn_length.
    destruct (Nat.le_ge_cases k (length (co_varnames co))).
    + rewrite Nat.min_l by lia. now rewrite firstn_skipn.
    + rewrite Nat.min_r, skipn_all, app_nil_r by lia. now rewrite firstn_all2.
  - split.
    + intros x H [->|(s & ->)]; destruct (co_consts co) as [|y ys]; try discriminate; injection H as ->; reflexivity.
    + intros H. destruct (co_consts co) as [|y ys]; [reflexivity|]. destruct (H y eq_refl) as [H1 H2]. cbn. destruct y; try reflexivity; [congruence|exfalso; eapply H2; reflexivity].
Qed.
Print Assumptions C52_attributes.

(** ** C53 *)

(** C53.  from_code() then to_code(), whatever the options: both code objects, read as the
    interpreter reads them, are the same program (that of the Bytecode between them), and they have
    the same attributes. *)
Theorem C53_round_trip_since_311 : forall v T se keq conserve passes stacksize check depths co b co',
  wf_optable v T = true -> PY311 v = true -> sound_key keq -> as_compiled v T co ->
  bytecode_from_code v T true conserve co = Ok b ->
  bytecode_to_code v T se keq passes stacksize check depths b = Ok co' ->
  pairs_near v T b (co_varnames co') ->
  exists program, runs v T co program /\ runs v T co' program.
Proof.
  intros v T se keq conserve passes st check depths co b co' wf P11 HK AC F E HP. exists (source b).
  split; [eapply C52_from_code_shows_program_since_311; eauto|].
  eapply C51_to_code_runs_program_partial; eauto. eapply C52_from_code_is_writable_since_311; eauto.
Qed.
Print Assumptions C53_round_trip_since_311.

Theorem C53_graph_round_trip_since_311 : forall v T se keq conserve stacksize check depths co b g co',
  wf_optable v T = true -> PY311 v = true -> sound_key keq -> as_compiled v T co ->
  bytecode_from_code v T true conserve co = Ok b -> from_bytecode T b = Ok g ->
  cfg_to_code v T se keq stacksize check depths g = Ok co' ->
  pairs_near v T b (co_varnames co') ->
  exists program, runs v T co program /\ runs v T co' program.
Proof.
  intros v T se keq conserve st check depths co b g co' wf P11 HK AC F EG E HP. exists (source b).
  split; [eapply C52_from_code_shows_program_since_311; eauto|].
  eapply C51_graph_to_code_runs_program_partial; eauto. eapply C52_from_code_is_writable_since_311; eauto.
Qed.
Print Assumptions C53_graph_round_trip_since_311.

Theorem C53_attributes : forall v T se keq conserve passes stacksize check depths co b co',
  wf_optable v T = true -> PY311 v = true -> as_compiled v T co ->
  bytecode_from_code v T true conserve co = Ok b ->
  bytecode_to_code v T se keq passes stacksize check depths b = Ok co' ->
  co_argcount co' = co_argcount co /\ co_posonly co' = co_posonly co /\ co_kwonly co' = co_kwonly co
  /\ co_flags co' = co_flags co /\ co_name co' = co_name co /\ co_filename co' = co_filename co
  /\ co_qualname co' = co_qualname co /\ co_firstlineno co' = co_firstlineno co
  /\ co_freevars co' = co_freevars co /\ co_cellvars co' = co_cellvars co
  /\ co_nlocals co' = zlen (co_varnames co')
  /\ (exists more, co_varnames co' = b_argnames b ++ more) /\ (exists more, co_varnames co = b_argnames b ++ more)
  /\ forall x, hd_error (co_consts co) = Some x -> (x = ONone \/ exists s, x = OStr s) -> hd_error (co_consts co') = Some x.
Proof.
  intros v T se keq conserve passes st check depths co b co' wf P11 AC F E.
  pose proof (C52_from_code_is_writable_since_311 _ _ _ _ _ wf P11 AC F) as W.
  destruct (C51_attributes _ _ _ _ _ _ _ _ _ _ wf (w_proper _ _ _ W) E) as (A1 & A2 & A3 & A4 & A5 & A6 & A7 & A8 & A9 & A10 & A11 & A12 & A13).
  destruct (C52_attributes _ _ _ _ _ _ wf F) as (B1 & B2 & B3 & B4 & B5 & B6 & B7 & B8 & B9 & B10 & B11 & B12 & _).
  specialize (A7 P11). specialize (B7 P11). do 11 (split; [congruence|]). split; [exact A12|]. split; [exact B11|].
  intros x H1 H2. rewrite <- (B12 x H1 H2). apply A13. rewrite (B12 x H1 H2). destruct H2 as [->|(s & ->)]; discriminate.
Qed.
Print Assumptions C53_attributes.

(** ** Examples *)

Fixpoint check_normal (v : pyver) (T : optable) (caches : Z) (extended : bool) (code : list Z) : bool :=
  match code with
  | [] => negb extended
  | [_] => false
  | op :: b :: rest =>
      if 0 <? caches then (op =? 0) && (b =? 0) && check_normal v T (caches - 1) extended rest
      else match opname T op with
           | None => false
           | Some name => match opmap T name with
             | Some op' => (op' =? op) && (0 <=? b) && (b <? 256)
                 && (if opcode_has_argument v T op then check_normal v T (cache_entries v T name op) (op =? t_extended_arg T) rest
                     else (b =? 0) && negb extended && check_normal v T (cache_entries v T name op) false rest)
             | None => false end
           end
  end.
Lemma check_normal_ok v T : forall m code caches extended, (length code <= m)%nat -> check_normal v T caches extended code = true -> normal v T caches extended code.
Proof.
  induction m as [|m IH]; intros code caches extended L H; destruct code as [|op [|b rest]]; cbn [length] in L; try lia; cbn [check_normal normal] in *; try discriminate.
  - now destruct extended.
  - now destruct extended.
  - destruct (0 <? caches).
    + apply andb_true_iff in H. destruct H as [H H1]. apply andb_true_iff in H. destruct H as [H2 H3]. repeat split; [lia|lia|]. apply IH; [lia|exact H1].
    + destruct (opname T op) as [name|]; [|discriminate]. exists name. destruct (opmap T name) as [op'|]; [|discriminate].
      apply andb_true_iff in H. destruct H as [H H1]. apply andb_true_iff in H. destruct H as [H H2]. apply andb_true_iff in H. destruct H as [H3 H4].
      assert (op' = op) by lia. subst op'. split; [reflexivity|]. split; [lia|]. destruct (opcode_has_argument v T op).
      * apply IH; [lia|exact H1].
      * apply andb_true_iff in H1. destruct H1 as [H1 H5]. apply andb_true_iff in H1. destruct H1 as [H6 H7]. repeat split; [lia|now destruct extended|]. apply IH; [lia|exact H5].
Qed.

Definition pos_eqb (p q : option (option Z * option Z * option Z * option Z)) : bool :=
  let eq a b := match a, b with Some x, Some y => x =? y | None, None => true | _, _ => false end in
  match p, q with
  | Some (a, b, c, d), Some (a', b', c', d') => eq a a' && eq b b' && eq c c' && eq d d'
  | None, None => true
  | _, _ => false
  end.
Lemma pos_eqb_ok p q : pos_eqb p q = true -> p = q.
Proof.
  destruct p as [[[[[a|] [b|]] [c|]] [d|]]|], q as [[[[[a'|] [b'|]] [c'|]] [d'|]]|]; cbn; try discriminate; try reflexivity; intros H;
    repeat (apply andb_true_iff in H; let H' := fresh in destruct H as [H H']; try discriminate); repeat f_equal; lia.
Qed.

Fixpoint ordered (l : list (Z * Z * Z * Z * bool)) : bool :=
  match l with
  | [] => true
  | (s, n, _, _, _) :: r => forallb (fun e => match e with (s', _, _, _, _) => s + n <=? s' end) r && ordered r
  end.
Lemma ordered_ok l : ordered l = true -> forall i j s n t d la s' n' t' d' la', (i < j)%nat ->
  nth_error l i = Some (s, n, t, d, la) -> nth_error l j = Some (s', n', t', d', la') -> s + n <= s'.
Proof.
  induction l as [|[[[[s0 n0] t0] d0] la0] l IH]; intros H i j s n t d la s' n' t' d' la' L A B; [destruct i; discriminate|].
  cbn [ordered] in H. apply andb_true_iff in H. destruct H as [H1 H2]. destruct j as [|j]; [lia|]. cbn in B. destruct i as [|i].
  - injection A as <- <- <- <- <-. rewrite forallb_forall in H1. specialize (H1 _ (nth_error_In _ _ B)). cbv beta iota in H1. lia.
  - cbn in A. eapply (IH H2 i j); eauto. lia.
Qed.

Definition check_compiled (v : pyver) (T : optable) (co : codeobj) : bool :=
  let ins := instructions v T co in
  let ps := co_positions (co_firstlineno co) (co_linetable co) in
  let len := length (co_code co) in
  check_normal v T 0 false (co_code co)
  && forallb (fun r => negb (match opname T (r_op r) with Some s => String.eqb s "CACHE" | None => false end) && (r_end r <=? zlen (co_code co))) ins
  && forallb (fun r => negb (op_has_jump T (r_op r)) || existsb (fun r' => r_start r' =? goes_to v T r) ins) ins
  && forallb (fun e => match e with (s, n, t, _, _) =>
       existsb (fun a => (r_start a =? 2 * s) && existsb (fun b => (r_start a <=? r_start b) && (r_end b =? 2 * (s + n))) ins) ins
       && existsb (fun h => r_start h =? 2 * t) ins end) (table_entries co)
  && ordered (table_entries co)
  && Nat.eqb (2 * length ps) len
  && forallb (fun p => match p with (Some l, Some el, None, _) => l =? el | _ => true end) ps
  && forallb (fun k => negb (match nth_error (co_code co) (2 * k) with Some x => x =? t_extended_arg T | None => false end)
                       || pos_eqb (nth_error ps k) (nth_error ps (S k))) (seq 0 len)
  && forallb (fun r => forallb (fun off => negb (r_at r <=? Z.of_nat off)
                       || pos_eqb (nth_error ps (Z.to_nat (Z.of_nat off / 2))) (nth_error ps (Z.to_nat (r_at r / 2)))) (seq 0 (Z.to_nat (r_end r)))) ins
  && forallb (fun r => 0 <=? r_at r) ins
  && forallb (fun n => negb (str_mem n (co_varnames co))) (co_freevars co)
  && forallb (fun r => negb (z_mem (r_op r) (t_hasfree T)) || match r_arg r with Some a => (a <? 0) || match nth_error (co_varnames co) (Z.to_nat a) with
       Some n => str_mem n (co_cellvars co) | None => true end | None => true end) ins
  && forallb (fun x => match x with
       | OLabel _ | OBlock _ | OUnset | OCell _ | OFree _ | OCompare _ | OIntr1 _ | OIntr2 _ => false | _ => true end) (co_consts co).

Lemma check_compiled_ok v T co : check_compiled v T co = true -> as_compiled v T co.
Proof.
  unfold check_compiled. intros X.
  apply andb_true_iff in X. destruct X as [X C13]. apply andb_true_iff in X. destruct X as [X C12]. apply andb_true_iff in X. destruct X as [X C11].
  apply andb_true_iff in X. destruct X as [X C10]. apply andb_true_iff in X. destruct X as [X C9]. apply andb_true_iff in X. destruct X as [X C8].
  apply andb_true_iff in X. destruct X as [X C7]. apply andb_true_iff in X. destruct X as [X C6]. apply andb_true_iff in X. destruct X as [X C5].
  apply andb_true_iff in X. destruct X as [X C4]. apply andb_true_iff in X. destruct X as [X C3]. apply andb_true_iff in X. destruct X as [C1 C2].
  rewrite forallb_forall in C2, C3, C4, C7, C8, C9, C10, C11, C12, C13. constructor.
  - eapply check_normal_ok; eauto.
  - intros r I. specialize (C2 r I). apply andb_true_iff in C2. destruct C2 as [C2 C2']. split; [|lia]. intros E. rewrite E in C2. discriminate.
  - intros r I J. specialize (C3 r I). rewrite J in C3. cbn [negb orb] in C3. apply existsb_exists in C3. destruct C3 as (r' & I' & E). exists r'. split; [exact I'|lia].
  - intros s n t d la I. specialize (C4 _ I). cbv beta iota in C4. apply andb_true_iff in C4. destruct C4 as [C4 C4'].
    apply existsb_exists in C4. destruct C4 as (a & IA & C4). apply andb_true_iff in C4. destruct C4 as [E1 C4].
    apply existsb_exists in C4. destruct C4 as (b & IB & C4). apply andb_true_iff in C4. destruct C4 as [E2 E3].
    apply existsb_exists in C4'. destruct C4' as (h & IH & E4). exists a, b, h. repeat (split; [assumption||lia|]). lia.
  - intros i j s n t d la s' n' t' d' la'. exact (ordered_ok _ C5 i j s n t d la s' n' t' d' la').
  - now apply Nat.eqb_eq.
  - intros [[[[l|] [el|]] [c|]] d] I; try exact Logic.I. specialize (C7 _ I). cbv beta iota in C7. lia.
  - intros k E. assert (K : (2 * k < length (co_code co))%nat) by (apply nth_error_Some; congruence).
    specialize (C8 k ltac:(apply in_seq; lia)). rewrite E, Z.eqb_refl in C8. cbn [negb orb] in C8. now apply pos_eqb_ok.
  - intros r off I B. specialize (C9 r I). specialize (C10 r I). rewrite forallb_forall in C9.
    specialize (C9 (Z.to_nat off) ltac:(apply in_seq; lia)). rewrite Z2Nat.id in C9 by lia.
    assert (E : (r_at r <=? off) = true) by lia. rewrite E in C9. cbn [negb orb] in C9. now apply pos_eqb_ok.
  - intros n I J. specialize (C11 n I). apply str_mem_In in J. rewrite J in C11. discriminate.
  - intros r a n I HF EA [AA AN]. specialize (C12 r I). apply z_mem_In in HF. rewrite HF, EA, AN in C12. cbn [negb orb] in C12.
    assert (E : (a <? 0) = false) by lia. rewrite E in C12. cbn [orb] in C12. now apply str_mem_In.
  - intros x I. specialize (C13 x I). destruct x; cbn in *; congruence || exact Logic.I.
Qed.

(** What CPython 3.11 makes of

      def f(a, b=1):
          "Divide."
          total = 0
          for x in a:
              try:
                  total += x // b
              except ZeroDivisionError as e:
                  print(e, b)
                  continue
              finally:
                  b -= 1
          return [y for y in a if y > total]
 *)
Definition ex53 : codeobj :=
  mkCode 2 0 0 4 6 3
    [135; 4; 151; 0; 100; 1; 138; 4; 124; 0; 68; 0; 93; 72; 125; 2; 9; 0; 137; 4; 124; 2; 124; 1; 122; 2; 0; 0; 122; 13; 0; 0; 138; 4; 110; 44; 35; 0; 116; 0; 0; 0; 0; 0; 0; 0; 0; 0; 0; 0; 36; 0; 114; 31; 125; 3; 116; 3; 0; 0; 0; 0; 0; 0; 0; 0; 0; 0; 124; 3; 124; 1; 166; 2; 0; 0; 171; 2; 0; 0; 0; 0; 0; 0; 0; 0; 1; 0; 89; 0; 100; 2; 125; 3; 126; 3; 124; 1; 100; 3; 122; 23; 0; 0; 125; 1; 140; 48; 100; 2; 125; 3; 126; 3; 119; 1; 119; 0; 120; 3; 89; 0; 119; 1; 9; 0; 124; 1; 100; 3; 122; 23; 0; 0; 125; 1; 140; 63; 35; 0; 124; 1; 100; 3; 122; 23; 0; 0; 125; 1; 119; 0; 120; 3; 89; 0; 119; 1; 136; 4; 102; 1; 100; 4; 132; 8; 124; 0; 68; 0; 166; 0; 0; 0; 171; 0; 0; 0; 0; 0; 0; 0; 0; 0; 83; 0]
    [OStr "Divide."; OInt 0; ONone; OInt 1; OOther 0 1] ["ZeroDivisionError"; "print"] ["a"; "b"; "x"; "e"] "f.py" "f" "f" 2
    [248; 128; 0; 224; 12; 13; 128; 69; 216; 13; 14; 240; 0; 7; 5; 19; 240; 0; 7; 5; 19; 136; 1; 240; 2; 6; 9; 19; 216; 12; 17; 144; 81; 152; 33; 145; 86; 137; 79; 136; 69; 136; 69; 248; 221; 15; 32; 240; 0; 2; 9; 21; 240; 0; 2; 9; 21; 240; 0; 2; 9; 21; 221; 12; 17; 144; 33; 144; 81; 137; 75; 140; 75; 136; 75; 216; 12; 20; 136; 72; 136; 72; 136; 72; 224; 12; 13; 144; 17; 137; 70; 136; 65; 136; 65; 248; 248; 248; 248; 240; 9; 2; 9; 21; 248; 248; 248; 240; 3; 0; 13; 18; 240; 10; 0; 13; 14; 144; 17; 137; 70; 136; 65; 136; 65; 248; 136; 65; 144; 17; 137; 70; 136; 65; 136; 65; 136; 65; 136; 65; 136; 65; 216; 11; 38; 208; 11; 38; 208; 11; 38; 208; 11; 38; 144; 113; 208; 11; 38; 209; 11; 38; 212; 11; 38; 208; 4; 38]
    [137; 8; 18; 2; 145; 1; 65; 5; 2; 146; 10; 59; 5; 156; 16; 54; 5; 172; 4; 65; 5; 2; 182; 5; 59; 5; 187; 3; 65; 5; 2; 193; 5; 7; 65; 12; 5]
    [] ["total"].

Example C52_C53_ex : as_compiled V311 T311 ex53
  /\ exists b co', bytecode_from_code V311 T311 true false ex53 = Ok b
     /\ bytecode_to_code V311 T311 dis_effect311 keq0 None None true true b = Ok co'
     /\ pairs_near V311 T311 b (co_varnames co')
     /\ length (instructions V311 T311 co') = 68%nat
     /\ co_stacksize co' = 6 /\ co_exceptiontable co' = co_exceptiontable ex53 /\ co_code co' = co_code ex53.
Proof.
  split; [apply check_compiled_ok; vm_compute; reflexivity|].
  do 2 eexists. split; [vm_compute; reflexivity|]. split; [vm_compute; reflexivity|].
  split; [intros i n _ D; exfalso; unfold is_dual in D; discriminate D|].
  repeat split; vm_compute; reflexivity.
Qed.
