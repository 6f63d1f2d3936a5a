(** Proofs: a well-formed program assembles, second part: variables, jumps, exception table. *)
From Verif Require Import PyBase OpTable CPy M_Instr M_Tables M_Concrete M_Convert P_Base S_Args
  P_OpTable P_Asm P_Conv P_Conv2 S_Asm P_Jumps P_Jumps2 P_Layout P_Layout2 P_Try P_Converge P_AsmProps S_Slots P_Args
  S_Prog M_Bytecode M_Cfg S_Cfg S_Ident S_Total P_Total.
Open Scope string_scope.
Open Scope list_scope.
Open Scope Z_scope.

Lemma filter_length_le {A} (f : A -> bool) l : (length (filter f l) <= length l)%nat.
Proof. induction l as [|x l IH]; cbn; [lia|]. destruct (f x); cbn; lia. Qed.

(** ** Setting arguments *)
Definition settable (v : pyver) (T : optable) (c : cinstr) : Prop :=
  opmap T (c_name c) = Some (c_op c) /\ c_op c < t_min_instrumented T /\ opcode_has_argument v T (c_op c) = true.

Lemma map_arg_total v T f l : forall ins, NoDup l ->
  (forall k, In k l -> exists c a, nth_error ins k = Some c /\ settable v T c
     /\ f (match c_arg c with Some a => a | None => 0 end) = Ok a /\ 0 <= a <= 2147483647) ->
  exists ins', foldM (map_arg_at v T f) l ins = Ok ins'.
Proof.
  induction l as [|n l IH]; intros ins ND H; cbn [foldM]; [eauto|].
  apply NoDup_cons_iff in ND. destruct ND as [Nn ND].
  destruct (H n (or_introl eq_refl)) as (c & a & A1 & (A2 & A3 & A4) & A5 & A6).
  unfold map_arg_at at 1. rewrite A1. cbn [of_option bind]. rewrite A5. cbn [bind].
  rewrite (set_arg_total v T c a A2 A3 A4 A6). cbn [bind]. apply IH; [exact ND|].
  intros k I. destruct (H k (or_intror I)) as (d & b & B1 & B). exists d, b.
  rewrite nth_upd_other by (intros ->; contradiction). auto.
Qed.

Lemma fix_fold_total v T labels offs jumps : forall ins b, NoDup (map fst jumps) ->
  (forall k l, In (k, l) jumps -> exists ti t c o, dget Nat.eqb labels l = Some ti /\ nth_error offs ti = Some t
     /\ nth_error ins k = Some c /\ nth_error offs k = Some o /\ settable v T c /\ 0 <= jarg v T c o t <= 2147483647) ->
  exists r, foldM (fix_jump v T labels offs) jumps (ins, b) = Ok r.
Proof.
  induction jumps as [|[k l] jumps IH]; intros ins b ND H; cbn [foldM]; [eauto|].
  cbn [map fst] in ND. apply NoDup_cons_iff in ND. destruct ND as [Nn ND].
  destruct (H k l (or_introl eq_refl)) as (ti & t & c & o & A1 & A2 & A3 & A4 & (A5 & A6 & A7) & A8).
  unfold fix_jump at 1. rewrite A1. cbn [of_option bind]. rewrite A2. cbn [of_option bind]. rewrite A3. cbn [of_option bind].
  rewrite A4. cbn [of_option bind]. cbv zeta. fold (jarg v T c o t).
  rewrite (set_arg_total v T c _ A5 A6 A7 A8). cbn [bind]. apply IH; [exact ND|].
  intros k' l' I. destruct (H k' l' (or_intror I)) as (ti' & t' & c' & o' & B1 & B2 & B3 & B). exists ti', t', c', o'.
  rewrite nth_upd_other; [auto|]. intros ->. apply Nn. apply in_map_iff. exists (k', l'). now split.
Qed.

Section Vars.
  Variables (v : pyver) (T : optable) (keq : pyobj -> pyobj -> bool) (m : meta).
  Hypothesis wf : wf_optable v T = true.

  Lemma encode_var K i co na va first name arg kind :
    encode_arg v T keq m K i = Ok (co, na, va, first, name, arg, kind) -> kind <> VNone ->
    first = None /\ name = i_name i /\ exists n j, arg = OInt (Z.of_nat j)
      /\ match kind with VCell => str_index n (m_cellvars m) = Some j
         | VFree => str_index n (m_freevars m) = Some j | VNone => True end.
  Proof.
    unfold encode_arg. intros H N.
    destruct (i_arg i) eqn:Ea;
    repeat match type of H with
    | context [match ?x with _ => _ end] =>
        match x with
        | add_name _ _ => destruct x
        | add_const _ _ _ => destruct x
        | _ => let E := fresh "E" in destruct x eqn:E; try discriminate H
        end
    end; inv_ok; try congruence; (split; [reflexivity|]; split; [reflexivity|]); eexists _, _; (split; [reflexivity|eassumption]).
  Qed.

  Lemma not_cache_settable c n : made v T c -> c_name c = n -> n <> "CACHE" -> c_arg c <> None -> settable v T c.
  Proof.
    intros [V _] E N A. split; [apply V|]. split; [apply V|]. pose proof (vc_arg _ _ _ V) as X.
    destruct (c_arg c); [|congruence]. destruct X as [_ [X|X]]; [exact X|]. exfalso. apply N. rewrite <- E.
    apply (wf_op0 v T wf). rewrite <- X. apply V.
  Qed.

  Section Tr.
    Variables (items : list bitem) (K0 : conv) (gs : list (list cinstr)) (Kf : conv).
    Hypothesis HT : trace v T keq m items K0 gs Kf.
    Hypothesis N1 : k_instrs K0 = [].
    Hypothesis N3 : k_cells K0 = [].
    Hypothesis N4 : k_frees K0 = [].
    Hypothesis NC : forall i, In (BI i) items -> i_name i <> "CACHE".

    Lemma var_slot p i : nth_error items p = Some (BI i) -> var_kind v T i <> VNone ->
      exists c n j, nth_error (concat gs) (start gs p) = Some c /\ settable v T c /\ c_arg c = Some (Z.of_nat j)
        /\ match var_kind v T i with VCell => str_index n (m_cellvars m) = Some j
           | VFree => str_index n (m_freevars m) = Some j | VNone => True end.
    Proof.
      intros Hp NK. destruct (trace_nth _ _ _ _ _ _ _ _ HT _ _ Hp)
        as (K1 & body & K2 & tr & K3 & caches & _ & Hg & He & _).
      cbn [P_Conv.item_effect] in He. destruct He as (co & na & va & first & name & arg & kind & c & E & Hc & Hb & _).
      pose proof (encode_kind _ _ _ _ _ _ _ _ _ _ _ _ _ E) as [EK _]. 
      destruct (encode_var _ _ _ _ _ _ _ _ _ E) as (-> & -> & n & j & -> & X); [congruence|]. subst body.
      exists c, n, j. rewrite <- (Nat.add_0_r (start gs p)). rewrite (nth_concat gs p _ 0 Hg) by (cbn; lia).
      split; [reflexivity|]. pose proof (new_made _ _ _ _ _ _ Hc) as M. apply new_cinstr_ok in Hc. destruct Hc as (V & A1 & A2 & _).
      cbn in A2. split; [|split; [exact A2|rewrite <- EK; exact X]].
      eapply not_cache_settable; eauto; [|congruence]. apply NC. eapply nth_error_In; eauto.
    Qed.

    Lemma fix_vars_total :
      zlen (k_varnames Kf) + zlen (m_cellvars m) + zlen (m_freevars m) <= 2100000000 ->
      exists ins, fix_vars v T m Kf = Ok ins.
    Proof.
      intros SZ. unfold fix_vars.
      pose proof (ins_gs _ _ _ _ _ _ _ _ HT N1) as HI. rewrite HI.
      pose proof (cells_nodup v T keq wf _ _ _ _ _ HT N3) as ND1.
      pose proof (frees_nodup v T keq wf _ _ _ _ _ HT N4) as ND2.
      set (sh := shared_indexes (k_varnames Kf) 0 (m_cellvars m)).
      pose proof (zlen_nonneg (k_varnames Kf)) as Z1. pose proof (zlen_nonneg (m_cellvars m)) as Z2. pose proof (zlen_nonneg (m_freevars m)) as Z3.
      assert (C1 : exists ins1, (if PY311 v
          then foldM (map_arg_at v T (fun a => of_option KeyError (nth_error sh (Z.to_nat a)))) (k_cells Kf) (concat gs)
          else Ok (concat gs)) = Ok ins1 /\ forall k, ~ In k (k_cells Kf) -> nth_error ins1 k = nth_error (concat gs) k).
      { destruct (PY311 v); [|eauto].
        destruct (map_arg_total v T (fun a => of_option KeyError (nth_error sh (Z.to_nat a))) (k_cells Kf) (concat gs) ND1) as (ins1 & F).
        - intros k I. apply (cells_In _ _ _ _ _ _ _ _ HT N1 N3) in I. destruct I as (p & i & Hp & EK & ->).
          destruct (var_slot p i Hp) as (c & n & j & A1 & A2 & A3 & A4); [congruence|]. rewrite EK in A4.
          apply str_index_nth in A4. pose proof (shared_nth (k_varnames Kf) (m_cellvars m) 0 j n A4) as SN. fold sh in SN.
          eexists c, _. split; [exact A1|]. split; [exact A2|]. rewrite A3, Nat2Z.id, SN. split; [reflexivity|].
          destruct (str_index n (k_varnames Kf)) as [x|] eqn:EX.
          + apply str_index_nth, nth_some_lt in EX. unfold zlen in *. lia.
          + assert (L : zlen (unshared (k_varnames Kf) (firstn j (m_cellvars m))) <= zlen (m_cellvars m)).
            { unfold unshared, zlen. apply Nat2Z.inj_le. etransitivity; [apply filter_length_le|].
              rewrite firstn_length. lia. }
            pose proof (zlen_nonneg (unshared (k_varnames Kf) (firstn j (m_cellvars m)))). lia.
        - exists ins1. split; [exact F|]. destruct (map_arg_fold _ _ _ _ _ _ ND1 F) as (_ & O & _). exact O. }
      destruct C1 as (ins1 & F1 & O1). rewrite F1. cbn [bind].
      apply map_arg_total; [exact ND2|]. intros k I.
      assert (NCk : ~ In k (k_cells Kf)).
      { intros C. apply (cells_In _ _ _ _ _ _ _ _ HT N1 N3) in C. destruct C as (p & i & Hp & Ei & ->).
        apply (frees_In _ _ _ _ _ _ _ _ HT N1 N4) in I. destruct I as (q & j & Hq & Ej & E).
        pose proof (start_item_inj v T keq wf _ _ _ _ _ HT _ _ _ _ Hp Hq E). subst q. rewrite Hp in Hq. injection Hq as <-. congruence. }
      rewrite (O1 k NCk). apply (frees_In _ _ _ _ _ _ _ _ HT N1 N4) in I. destruct I as (p & i & Hp & EK & ->).
      destruct (var_slot p i Hp) as (c & n & j & A1 & A2 & A3 & A4); [congruence|]. rewrite EK in A4.
      apply str_index_nth, nth_some_lt in A4.
      eexists c, _. split; [exact A1|]. split; [exact A2|]. rewrite A3. split; [reflexivity|].
      pose proof (zlen_nonneg (filter (fun n => str_mem n (k_varnames Kf)) (m_cellvars m))) as Z4.
      assert (Z5 : zlen (filter (fun n => str_mem n (k_varnames Kf)) (m_cellvars m)) <= zlen (m_cellvars m))
        by (unfold zlen; apply Nat2Z.inj_le, filter_length_le).
      unfold zlen in *. destruct (PY311 v); lia.
    Qed.
  End Tr.
End Vars.

(** ** Jumps *)
Lemma off_upper v a : Forall pos a -> Forall (fun c => c_size c <= 8) a -> forall k, 0 <= offset_of v a k <= 8 * zlen a.
Proof.
  induction a as [|c a IH]; intros P F k.
  - unfold offset_of. rewrite firstn_nil. cbn. lia.
  - destruct k; [rewrite offset_of_0; pose proof (zlen_nonneg (c :: a)); lia|]. rewrite offset_of_cons, zlen_cons.
    apply Forall_cons_iff in P. destruct P as [[P1 P2] P]. apply Forall_cons_iff in F. destruct F as [F1 F]. specialize (IH P F k).
    assert (0 <= in_units v (c_size c) <= 8).
    { unfold in_units. destruct v; zdm. }
    lia.
Qed.

Lemma off_step v a : Forall pos a -> forall n k, (k + n <= length a)%nat -> offset_of v a k + Z.of_nat n <= offset_of v a (k + n).
Proof.
  intros P. induction n as [|n IH]; intros k L; [rewrite Nat.add_0_r; lia|].
  specialize (IH k ltac:(lia)).
  destruct (nth_error a (k + n)) as [c|] eqn:E; [|apply nth_error_None in E; lia].
  replace (k + S n)%nat with (S (k + n)) by lia. rewrite (offset_of_S v a _ c E).
  rewrite Forall_forall in P. destruct (P c (nth_error_In _ _ E)) as [Pc _]. pose proof (in_units_pos v _ Pc). lia.
Qed.

Section Jump.
  Variables (v : pyver) (T : optable).
  Hypothesis wf : wf_optable v T = true.
  Variables (labels : list (nat * nat)) (jumps : list (nat * nat)).
  Hypothesis nodup : NoDup (map fst jumps).

  Definition aimed (c : cinstr) (k ti : nat) : Prop :=
    (is_forward_rel_jump v T (c_name c) (c_op c) = true -> (k + 1 + Z.to_nat (use_cache_opcodes v T c) <= ti)%nat)
    /\ (is_backward_rel_jump v T (c_name c) (c_op c) = true -> (ti <= k)%nat).

  Record steady (a : list cinstr) : Prop := {
    sd_inv : inv T jumps a;
    sd_small : Forall (fun c => c_size c <= 8) a;
    sd_len : zlen a <= 260000000;
    sd_jump : forall k l, In (k, l) jumps -> exists ti c, dget Nat.eqb labels l = Some ti /\ (ti <= length a)%nat
      /\ nth_error a k = Some c /\ opcode_has_argument v T (c_op c) = true /\ aimed c k ti }.

  Lemma jarg_range a k ti c : Forall pos a -> Forall (fun c => c_size c <= 8) a -> zlen a <= 260000000 ->
    nth_error a k = Some c -> (ti <= length a)%nat -> 0 <= use_cache_opcodes v T c <= 255 -> aimed c k ti ->
    0 <= jarg v T c (offset_of v a k) (offset_of v a ti) <= 2147483647.
  Proof.
    intros P F L E LT CA [A1 A2]. unfold jarg.
    pose proof (off_upper v a P F k) as U1. pose proof (off_upper v a P F ti) as U2.
    rewrite units_in. pose proof (offset_of_S v a k c E) as OS.
    assert (U3 : 0 <= in_units v (c_size c) <= 8).
    { rewrite Forall_forall in P, F. destruct (P c (nth_error_In _ _ E)) as [P1 P2]. specialize (F c (nth_error_In _ _ E)). unfold in_units. destruct v; zdm. }
    destruct (is_forward_rel_jump v T (c_name c) (c_op c)).
    - specialize (A1 eq_refl). pose proof (off_step v a P (Z.to_nat (use_cache_opcodes v T c)) (S k) ltac:(lia)) as S1.
      pose proof (off_le v a (S k + Z.to_nat (use_cache_opcodes v T c)) ti P ltac:(lia)) as S2. lia.
    - destruct (is_backward_rel_jump v T (c_name c) (c_op c)); [|lia].
      specialize (A2 eq_refl). pose proof (off_le v a ti k P A2). lia.
  Qed.

  Lemma pass_total a : steady a -> exists a' mo, jump_pass v T labels jumps a = Ok (a', mo) /\ steady a'.
  Proof.
    intros [I F L J]. unfold jump_pass.
    destruct (fix_fold_total v T labels (label_offsets v 0 a) jumps a false nodup) as ([a' mo] & E).
    { intros k l Ik. destruct (J k l Ik) as (ti & c & A1 & A2 & A3 & A4 & A5).
      pose proof (nth_some_lt _ _ _ A3) as Lk.
      exists ti, (0 + offset_of v a ti), c, (0 + offset_of v a k).
      rewrite !label_offsets_nth by lia. rewrite !Z.add_0_l. do 4 (split; [auto; fail|]).
      assert (JO : jump_ok T c) by (apply (proj2 I k c); [apply in_map_iff; exists (k, l); now split|exact A3]).
      pose proof (jump_ok_caches v T wf c JO) as CA. destruct JO as (_ & O1 & O2 & _).
      split; [now split|]. apply jarg_range; auto. apply I. }
    exists a', mo. split; [exact E|].
    destruct (jump_pass_ok v T wf labels jumps nodup a a' mo E) as [P _].
    pose proof (passed_inv v T wf labels jumps _ _ P I) as I'. split.
    - exact I'.
    - apply Forall_forall. intros c Hc. apply In_nth_error in Hc. destruct Hc as (k & Hk).
      destruct (in_dec Nat.eq_dec k (map fst jumps)) as [Jk|N].
      + destruct I' as [_ I']. destruct (I' _ _ Jk Hk) as (_ & _ & _ & X). exact X.
      + rewrite (pa_other _ _ _ _ _ _ P _ N) in Hk. rewrite Forall_forall in F. apply F. now apply nth_error_In in Hk.
    - unfold zlen in *. rewrite (pa_len _ _ _ _ _ _ P). exact L.
    - intros k l Ik. destruct (passed_jump v T wf labels jumps _ _ _ _ P I Ik) as (ti & c & c' & B1 & B2 & B3 & B4 & _ & _ & _ & B5 & B6 & _).
      destruct (J k l Ik) as (ti' & d & A1 & A2 & A3 & A4 & A5). rewrite B1 in A1. injection A1 as <-. rewrite B3 in A3. injection A3 as <-.
      exists ti, c'. rewrite (pa_len _ _ _ _ _ _ P), B6. do 4 (split; [auto; fail|]).
      unfold aimed, use_cache_opcodes in *. rewrite B5, B6. exact A5.
  Qed.

  Lemma compute_total ex passes : forall a, steady a ->
    (forall a', length a' = length a -> exists en, mapM (fun x => fix_entry v (instruction_offsets v 0 a') (label_offsets v 0 a') labels (snd x)) ex = Ok en) ->
    compute_jumps v T labels jumps ex passes a = Err RuntimeError \/ exists r, compute_jumps v T labels jumps ex passes a = Ok r.
  Proof.
    induction passes as [|n IH]; intros a S M; cbn [compute_jumps]; [now left|].
    destruct (pass_total a S) as (a' & mo & E & S'). rewrite E. cbn [bind].
    destruct mo.
    - apply IH; [exact S'|]. destruct (jump_pass_ok v T wf labels jumps nodup a a' true E) as [P _].
      intros a2 L. apply M. rewrite L. apply P.
    - destruct (M a eq_refl) as (en & ->). cbn [bind]. right. eauto.
  Qed.
End Jump.
