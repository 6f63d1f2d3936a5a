(** The Bytecode made of a code object is the program that the code object runs (3.11+). *)
From Verif Require Import PyBase OpTable CPy P_Base P_OpTable M_Instr M_Tables M_Concrete M_Convert S_Args S_Lines S_Prog S_Slots S_Asm S_Dis S_Ident S_Round S_Code
  P_Asm P_Except P_LinesCode P_Round P_Round2 P_Conv2 P_Cat P_Decode P_CfgSeq P_Dis P_Dis2 P_Dis3 P_Dis4 P_Dis5 P_Jumps P_Jumps2 P_Layout P_Layout2 P_Ident P_Ident2 P_Ident3 P_Code P_Code2.
Open Scope string_scope.
Open Scope list_scope.
Open Scope Z_scope.

Section Groups.
  Variables (v : pyver) (T : optable).
  Hypothesis wf : wf_optable v T = true.
  Notation E := (t_extended_arg T).
  Notation ce c := (cache_entries v T (c_name c) (c_op c)).

  Definition okc (c : cinstr) : Prop := ordinary v T c /\ c_size c = zlen (assemble T c).
  Definition isc (d : cinstr) : Prop := c_name d = "CACHE" /\ assemble T d = [0; 0] /\ c_size d = 2.
  Definition grp (g : list cinstr) : Prop := exists c ks, g = c :: ks /\ okc c /\ c_name c <> "CACHE"
    /\ length ks = Z.to_nat (ce c) /\ Forall isc ks.

  Lemma okc_bytes c : okc c -> exists es, Forall byte es /\ c_size c = 2 * zlen es + 2
    /\ assemble T c = spell E es ++ [c_op c; match c_arg c with Some a => a mod 256 | None => 0 end]
    /\ value es = match c_arg c with Some a => a / 256 | None => 0 end.
  Proof.
    intros [((_ & _ & A & _) & _) SZ].
    assert (X : exists es, Forall byte es /\ assemble T c = spell E es ++ [c_op c; match c_arg c with Some a => a mod 256 | None => 0 end]
      /\ value es = match c_arg c with Some a => a / 256 | None => 0 end).
    { unfold assemble in *. destruct (c_arg c) as [a|].
      - destruct A as [A _]. destruct (assemble_loop_struct T (bit_fuel a) a [c_op c; Z.land a 255]) as (es & Q & B & W).
        { split; [lia|]. apply bit_fuel_bound. lia. }
        rewrite Q. rewrite land255.
        assert (Y : exists es, Forall byte es /\ spell E es ++ [c_op c; a mod 256] = spell E es ++ [c_op c; a mod 256] /\ value es = a / 256) by eauto.
        destruct (c_ext c) as [n|]; [|eauto]. destruct (n =? 0); [eauto|].
        destruct (pad_loop_spec T (Z.to_nat (c_size c - zlen (spell E es ++ [c_op c; a mod 256]))) (c_size c) (spell E es ++ [c_op c; a mod 256]) (Nat.le_refl _)) as (k & K & _).
        rewrite K. exists (repeat 0 k ++ es). rewrite <- pad_spell, <- app_assoc. split; [|split; [reflexivity|now rewrite value_zeros]].
        apply Forall_app. split; [|exact B]. apply Forall_forall. intros z I. apply repeat_spec in I. subst. unfold byte. lia.
      - exists []. auto. }
    destruct X as (es & B & Q & W). exists es. repeat (split; [assumption|]). split; [|auto]. rewrite SZ, Q, zlen_app, spell_len. reflexivity.
  Qed.

  Lemma okc_not_ext c : okc c -> c_op c <> E.
  Proof. intros [((O & _) & N & _) _] X. apply N. eapply opmap_inj; [exact wf|exact O|]. rewrite X. exact (wf_ext v T wf). Qed.
  Lemma ext_not_0 : E <> 0.
  Proof. intros X. pose proof (wf_ext v T wf) as W. rewrite X in W. apply (wf_op0 v T wf) in W. discriminate. Qed.

  Lemma normal_ext es : forall ext op b rest, op <> E -> normal v T 0 ext (spell E es ++ op :: b :: rest) ->
    exists name, opmap T name = Some op /\ normal v T (cache_entries v T name op) false rest.
  Proof.
    induction es as [|e es IH]; intros ext op b rest NE N.
    - cbn [spell map concat app normal] in N. change (0 <? 0) with false in N. cbv beta iota in N. destruct N as (name & O & _ & N).
      exists name. split; [exact O|]. rewrite (proj2 (Z.eqb_neq _ _) NE) in N. destruct (opcode_has_argument v T op); [exact N|apply N].
    - assert (Q : spell E (e :: es) ++ op :: b :: rest = E :: e :: (spell E es ++ op :: b :: rest)) by reflexivity.
      rewrite Q in N. cbn [normal] in N. change (0 <? 0) with false in N. cbv beta iota in N. destruct N as (name & O & _ & N).
      assert (name = "EXTENDED_ARG") by (eapply opmap_inj; [exact wf|exact O|exact (wf_ext v T wf)]). subst name. rewrite (wf_ext_nocache v T wf) in N.
      destruct (opcode_has_argument v T E); [exact (IH _ _ _ _ NE N)|]. destruct N as (_ & _ & N). exact (IH _ _ _ _ NE N).
  Qed.

  Lemma ce_nonneg c : ordinary v T c -> 0 <= ce c.
  Proof. intros ((O & B & _) & _). now apply (cache_nonneg v T wf). Qed.

  Lemma caches_is c : ordinary v T c -> caches_of v T (c_op c) = ce c.
  Proof. intros ((O & B & _) & _). unfold caches_of. now rewrite (proj1 (opmap_opname v T wf _ _) O). Qed.

  Lemma listing_okc c off rest : okc c -> c_name c <> "CACHE" ->
    listing v T off None 0 (assemble T c ++ rest)
    = mkRan off (off + c_size c - 2) (off + c_size c + 2 * ce c) (c_op c) (c_arg c)
      :: listing v T (off + c_size c) None (ce c) rest.
  Proof.
    intros M N2. destruct (okc_bytes c M) as (es & B & S & Q & W). pose proof (okc_not_ext c M) as NE. pose proof M as [OR _].
    pose proof OR as ((O & _ & A & _) & _).
    rewrite Q, <- app_assoc. cbn [app]. rewrite (listing_ext v T wf es off None) by assumption. cbn [fst snd].
    rewrite (caches_is c OR), S. fold (value es). rewrite W.
    assert (AR : (if opcode_has_argument v T (c_op c) then Some (match c_arg c with Some a => a / 256 | None => 0 end * 256 + match c_arg c with Some a => a mod 256 | None => 0 end) else None) = c_arg c).
    { destruct (c_arg c) as [a|].
      - assert (H : opcode_has_argument v T (c_op c) = true).
        { destruct A as [_ [A|A]]; [exact A|]. exfalso. apply N2. rewrite A in O. exact (wf_op0 v T wf _ O). }
        rewrite H. f_equal. zdm.
      - rewrite A. reflexivity. }
    rewrite AR. f_equal; f_equal; lia.
  Qed.

  (** The instructions of normal code, with their caches. *)
  Lemma to_groups L cs : forall off n, Forall okc cs -> normal v T (Z.of_nat n) false (code T cs) -> off + zlen (code T cs) = L ->
    off + 2 * Z.of_nat n <= L ->
    (forall r, In r (listing v T off None (Z.of_nat n) (code T cs)) -> opname T (r_op r) <> Some "CACHE" /\ r_end r <= L) ->
    exists ks gs, cs = ks ++ concat gs /\ length ks = n /\ Forall isc ks /\ Forall grp gs.
  Proof.
    induction cs as [|c cs IH]; intros off n F N LL LN LS.
    - exists [], []. cbn in LL. repeat split; auto. cbn. lia.
    - inversion_clear F as [|? ? M F']. change (code T (c :: cs)) with (assemble T c ++ code T cs) in *. rewrite zlen_app in LL.
      pose proof M as [OR SZ]. pose proof OR as ((O & _ & A & _) & _). destruct (okc_bytes c M) as (es & B & S & Q & W).
      destruct n as [|n].
      + change (Z.of_nat 0) with 0 in *. rewrite Q, <- app_assoc in N. cbn [app] in N.
        apply normal_ext in N; [|exact (okc_not_ext c M)]. destruct N as (name & O2 & N).
        assert (name = c_name c) by (eapply opmap_inj; [exact wf|exact O2|exact O]). subst name.
        assert (NC : c_name c <> "CACHE" /\ off + c_size c + 2 * ce c <= L).
        { rewrite Q, <- app_assoc in LS. cbn [app] in LS. rewrite (listing_ext v T wf es off None _ _ _ (okc_not_ext c M)) in LS.
          specialize (LS _ (or_introl eq_refl)). cbn [r_op r_end] in LS. rewrite (caches_is c OR) in LS.
          rewrite (proj1 (opmap_opname v T wf _ _) O) in LS. destruct LS as [L1 L2]. split; [congruence|]. lia. }
        destruct NC as [NC LE]. rewrite (listing_okc c off _ M NC) in LS. pose proof (ce_nonneg c OR) as Q0. rewrite <- (Z2Nat.id _ Q0) in N, LS.
        destruct (IH (off + c_size c) (Z.to_nat (ce c)) F' N) as (ks & gs & -> & K1 & K2 & K3).
        * lia.
        * lia.
        * intros r I. apply LS. now right.
        * exists [], ((c :: ks) :: gs). repeat split; auto. constructor; [|exact K3]. exists c, ks. auto 10.
      + assert (Z0 : (0 <? Z.of_nat (Datatypes.S n)) = true) by lia.
        destruct es as [|e es].
        * cbn in Q. rewrite Q in N, LS. cbn [app normal listing] in N, LS. rewrite Z0 in N, LS. destruct N as (N1 & N2 & N).
          replace (Z.of_nat (Datatypes.S n) - 1) with (Z.of_nat n) in * by lia.
          destruct (IH (off + 2) n F' N) as (ks & gs & -> & K1 & K2 & K3).
          -- clear - LL SZ S. rewrite SZ in S. replace (zlen (@nil Z)) with 0 in S by reflexivity. lia.
          -- lia.
          -- exact LS.
          -- exists (c :: ks), gs. cbn [length]. repeat split; auto. constructor; [|exact K2]. split; [|split].
             ++ rewrite N1 in O. exact (wf_op0 v T wf _ O).
             ++ rewrite Q, N1, N2. reflexivity.
             ++ rewrite S. reflexivity.
        * exfalso. assert (Q' : assemble T c ++ code T cs = E :: e :: (spell E es ++ [c_op c; match c_arg c with Some a => a mod 256 | None => 0 end]) ++ code T cs) by (rewrite Q; reflexivity).
          rewrite Q' in N. cbn [normal] in N. rewrite Z0 in N. destruct N as (N1 & _). now apply ext_not_0.
  Qed.

  Lemma code_isc ks : Forall isc ks -> code T ks = concat (repeat [0; 0] (length ks)).
  Proof. unfold code. induction 1 as [|d ks (_ & Q & _) F IH]; [reflexivity|]. cbn. now rewrite Q, IH. Qed.

  Lemma grp_len c ks : okc c -> length ks = Z.to_nat (ce c) -> Forall isc ks ->
    zlen (code T (c :: ks)) = c_size c + 2 * ce c.
  Proof.
    intros [OR SZ] L F. change (code T (c :: ks)) with (assemble T c ++ code T ks). rewrite zlen_app, (code_isc ks F), (zlen_caches v T wf), L, <- SZ.
    pose proof (ce_nonneg c OR). lia.
  Qed.

  Lemma listing_grps gs : Forall grp gs -> forall off, listing v T off None 0 (code T (concat gs)) = rans T off gs.
  Proof.
    induction 1 as [|g gs (c & ks & -> & M & NC & L & F) FG IH]; intros off; [reflexivity|].
    cbn [concat]. rewrite code_app. cbn [rans]. rewrite (grp_len c ks M L F).
    change (code T (c :: ks)) with (assemble T c ++ code T ks). rewrite <- app_assoc, (listing_okc c off) by assumption.
    f_equal; [f_equal; lia|]. pose proof (ce_nonneg c (proj1 M)) as Q.
    rewrite (code_isc ks F), L. rewrite <- (Z2Nat.id _ Q) at 1. rewrite (listing_caches v T wf). rewrite IH, Z2Nat.id by exact Q. f_equal. lia.
  Qed.

  Lemma rans_at gs : Forall grp gs -> forall p c ks off, nth_error gs p = Some (c :: ks) ->
    let s := off + zlen (code T (concat (firstn p gs))) in
    nth_error (rans T off gs) p = Some (mkRan s (s + c_size c - 2) (s + zlen (code T (c :: ks))) (c_op c) (c_arg c)).
  Proof.
    induction 1 as [|g gs (c' & ks' & -> & G) F IH]; intros [|p] c ks off Hg; try discriminate; cbn [nth_error] in *.
    - injection Hg as -> ->. cbn. repeat f_equal; lia.
    - cbn [firstn concat]. rewrite code_app, zlen_app, Z.add_assoc. cbn [rans nth_error]. apply (IH _ _ _ _ Hg).
  Qed.
  Lemma rans_length gs : Forall grp gs -> forall off, length (rans T off gs) = length gs.
  Proof. induction 1 as [|g gs (c' & ks' & -> & G) F IH]; intros off; [reflexivity|]. cbn. f_equal. apply IH. Qed.

  Lemma kept_none ks : Forall isc ks -> filter (kept true) ks = [].
  Proof. induction 1 as [|d ks (N & _) F IH]; [reflexivity|]. cbn [filter]. unfold kept at 1. rewrite N. exact IH. Qed.
  Lemma kept_grps gs : Forall grp gs -> length (filter (kept true) (concat gs)) = length gs.
  Proof.
    induction 1 as [|g gs (c & ks & -> & M & NC & L & F) FG IH]; [reflexivity|]. cbn [concat]. rewrite filter_app, app_length, IH. cbn [filter].
    unfold kept at 1. cbn [andb]. rewrite (proj2 (String.eqb_neq _ _) NC). cbn. now rewrite (kept_none ks F).
  Qed.
  Lemma kept_start gs p : Forall grp gs -> (p <= length gs)%nat -> kept_before true (concat gs) (start gs p) = p.
  Proof.
    intros F L. unfold kept_before. rewrite firstn_start, kept_grps, firstn_length; [lia|]. rewrite Forall_forall in *. intros g I. apply F.
    rewrite <- (firstn_skipn p gs). apply in_or_app. now left.
  Qed.

  Lemma offset_bytes cs : Forall (fun c => c_size c = zlen (assemble T c)) cs -> forall k, ub v * offset_of v cs k = zlen (code T (firstn k cs)).
  Proof.
    intros F k. unfold offset_of. revert cs F. induction k as [|k IH]; intros l F; [cbn; lia|].
    destruct l as [|c l]; [cbn; lia|]. inversion_clear F as [|? ? M F'].
    cbn [firstn map fold_right]. rewrite Z.mul_add_distr_l, (IH l F').
    change (code T (c :: firstn k l)) with (assemble T c ++ code T (firstn k l)). rewrite zlen_app, ub_units, M; [reflexivity|].
    rewrite M. apply (assemble_even T c).
  Qed.

  Hypothesis P11 : PY311 v = true.
  Lemma offset_codes cs : Forall (fun c => c_size c = zlen (assemble T c)) cs -> forall k, 2 * offset_of v cs k = zlen (code T (firstn k cs)).
  Proof.
    intros F k. rewrite <- (offset_bytes cs F k). unfold ub. replace (PY310 v) with true by (destruct v; vm_compute in P11; try discriminate P11; reflexivity). reflexivity.
  Qed.
End Groups.

(** ** The exception table *)
Lemma land1_odd z : negb (Z.land z 1 =? 0) = Z.odd z.
Proof. change 1 with (Z.ones 1). rewrite Z.land_ones by lia. change (2 ^ 1) with 2. rewrite Zmod_odd. destruct (Z.odd z); reflexivity. Qed.
Lemma shiftr1_half z : Z.shiftr z 1 = z / 2.
Proof. rewrite Z.shiftr_div_pow2 by lia. reflexivity. Qed.

Lemma handler_parse fuel : forall bs u, handler_loop fuel u bs = lookup u (parse_exception_table_loop fuel bs).
Proof.
  induction fuel as [|f IH]; intros bs u; [reflexivity|]. cbn [handler_loop parse_exception_table_loop]. rewrite read_big_is.
  destruct (parse_varint bs) as [[s bs1]|]; [|reflexivity].
  rewrite read_big_is. destruct (parse_varint bs1) as [[n bs2]|]; [|destruct (u <? s); reflexivity].
  rewrite read_big_is. destruct (parse_varint bs2) as [[t bs3]|]; [|destruct (u <? s); reflexivity].
  rewrite read_big_is. destruct (parse_varint bs3) as [[dl bs4]|]; [|destruct (u <? s); reflexivity].
  cbn [lookup e_start e_stop e_target e_depth e_lasti]. replace (s + n - 1 + 1) with (s + n) by lia.
  rewrite land1_odd, shiftr1_half, IH. reflexivity.
Qed.
Lemma entries_parse fuel : forall bs, entries_loop fuel bs
  = map (fun e => (e_start e, e_stop e + 1 - e_start e, e_target e, e_depth e, e_lasti e)) (parse_exception_table_loop fuel bs).
Proof.
  induction fuel as [|f IH]; intros bs; [reflexivity|]. cbn [entries_loop parse_exception_table_loop]. rewrite read_big_is.
  destruct (parse_varint bs) as [[s bs1]|]; [|reflexivity].
  rewrite read_big_is. destruct (parse_varint bs1) as [[n bs2]|]; [|reflexivity].
  rewrite read_big_is. destruct (parse_varint bs2) as [[t bs3]|]; [|reflexivity].
  rewrite read_big_is. destruct (parse_varint bs3) as [[dl bs4]|]; [|reflexivity].
  cbn [map e_start e_stop e_target e_depth e_lasti]. rewrite land1_odd, shiftr1_half, IH. do 5 f_equal. lia.
Qed.

Lemma lookup_find u ex : (forall e, In e ex -> e_start e <= e_stop e) ->
  (forall i j e f, (i < j)%nat -> nth_error ex i = Some e -> nth_error ex j = Some f -> e_stop e < e_start f) ->
  lookup u ex = option_map (fun e => (e_target e, e_depth e, e_lasti e)) (find (fun e => (e_start e <=? u) && (u <=? e_stop e)) ex).
Proof.
  induction ex as [|e ex IH]; intros P A; [reflexivity|]. cbn [lookup find].
  destruct (Z.ltb_spec u (e_start e)) as [L|L].
  - rewrite (proj2 (Z.leb_gt _ _) L). cbn [andb]. rewrite find_all_false; [reflexivity|]. intros f I. apply In_nth_error in I. destruct I as [j I].
    specialize (A 0%nat (S j) e f ltac:(lia) eq_refl I). specialize (P e (or_introl eq_refl)). rewrite (proj2 (Z.leb_gt _ _)) by lia. reflexivity.
  - rewrite (proj2 (Z.leb_le _ _) L). cbn [andb]. destruct (Z.ltb_spec u (e_stop e + 1)) as [L2|L2].
    + rewrite (proj2 (Z.leb_le _ _)) by lia. reflexivity.
    + rewrite (proj2 (Z.leb_gt _ _)) by lia. apply IH; [intros f I; apply P; now right|]. intros i j f g L3 N1 N2. exact (A (S i) (S j) f g ltac:(lia) N1 N2).
Qed.

Lemma remove_only_instrs v T l : forall nb ext l', (forall it, In it l -> exists c, it = CI c) -> remove_extended_args v T nb ext l = Ok l' ->
  l' = map CI (instrs_of l').
Proof.
  induction l as [|[c|z] r IH]; intros nb ext l' A R; cbn [remove_extended_args] in R.
  - destruct ext; [discriminate|]. injection R as <-. reflexivity.
  - assert (A' : forall it, In it r -> exists c, it = CI c) by (intros it I; apply A; now right).
    destruct (String.eqb (c_name c) "EXTENDED_ARG"); [exact (IH _ _ _ A' R)|].
    destruct ext as [e|]; inv_ok;
      match goal with H : remove_extended_args _ _ _ _ _ = Ok _ |- _ => pose proof (IH _ _ _ A' H) as Q end;
      cbn [instrs_of flat_map app map]; change (flat_map _ ?r) with (instrs_of r); f_equal; exact Q.
  - destruct (A (CSet z) (or_introl eq_refl)) as [c X]. discriminate.
Qed.

Section From.
  Variables (v : pyver) (T : optable).
  Hypothesis wf : wf_optable v T = true.
  Hypothesis P11 : PY311 v = true.
  Variables (co : codeobj) (cb : cbytecode).
  Hypothesis AC : as_compiled v T co.
  Hypothesis F : from_code v T co false = Ok cb.
  Notation cs := (instrs_of (cb_items cb)).
  Notation positions := (co_positions (co_firstlineno co) (co_linetable co)).

  Lemma from_facts : cb_items cb = map CI cs /\ Forall (okc v T) cs /\ code T cs = co_code co
    /\ cb_consts cb = co_consts co /\ cb_names cb = co_names co /\ cb_varnames cb = co_varnames co
    /\ m_cellvars (cb_meta cb) = co_cellvars co /\ m_freevars (cb_meta cb) = co_freevars co
    /\ m_first_lineno (cb_meta cb) = co_firstlineno co
    /\ cb_ex cb = parse_exception_table (co_exceptiontable co)
    /\ (forall c, In c cs -> exists l, c_loc c = Some l /\ coherent_loc v l).
  Proof.
    pose proof (from_code_ordinary v T wf co cb F) as OR. pose proof (ac_code _ _ _ AC) as N. pose proof (ac_positions _ _ _ AC) as LP.
    pose proof F as F0. unfold from_code in F0. apply bind_ok in F0. destruct F0 as (l & D & H). apply bind_ok in H. destruct H as (l' & R & H). injection H as <-.
    cbn [cb_items cb_consts cb_names cb_varnames cb_meta cb_ex m_cellvars m_freevars m_first_lineno] in *. rewrite P11.
    destruct (disassemble_bytes v T wf _ _ N D) as [B U].
    pose proof (remove_sized v T wf l [] l' (Forall_nil _) U R) as SZ. pose proof (remove_bytes v T wf l [] l' (Forall_nil _) U R) as RB.
    unfold disassemble_code in D. rewrite P11 in D.
    assert (EV := normal_even v T wf _ (co_code co) _ _ (Nat.le_refl _) N).
    assert (LU := dis_units_len v T wf _ (co_code co) 0 0 (Nat.le_refl _) EV).
    destruct (from_units_locs v T wf _ _ l D ltac:(lia)) as (_ & LL & AL).
    pose proof (remove_only_instrs v T l 0 None l' AL R) as OI.
    destruct (remove_located v T l 0 None l' LL R) as [LL' _].
    assert (IN : forall c, In c (instrs_of l') -> In (CI c) l') by (intros c I; rewrite OI; now apply in_map).
    split; [exact OI|]. split; [|split; [|repeat (split; [reflexivity|])]].
    - apply Forall_forall. intros c I. split; [now apply OR|]. rewrite Forall_forall in SZ. exact (SZ _ (IN c I)).
    - unfold bytes_of in RB, B. unfold code. cbn [spell map concat app] in RB. rewrite RB. exact B.
    - intros c I. rewrite Forall_forall in LL'. exact (LL' _ (IN c I)).
  Qed.

  Lemma grouped : exists gs, cs = concat gs /\ Forall (grp v T) gs.
  Proof.
    destruct from_facts as (_ & OK & CO & _). destruct (to_groups v T wf (zlen (co_code co)) cs 0 0%nat OK) as (ks & gs & Q & L & _ & G).
    - rewrite CO. exact (ac_code _ _ _ AC).
    - rewrite CO. lia.
    - pose proof (zlen_nonneg (co_code co)). lia.
    - rewrite CO. exact (ac_whole _ _ _ AC).
    - exists gs. split; [|exact G]. destruct ks; [exact Q|discriminate L].
  Qed.

  Variable gs : list (list cinstr).
  Hypothesis GS : cs = concat gs.
  Hypothesis GR : Forall (grp v T) gs.
  Notation off p := (offset_of v cs (start gs p)).

  Lemma instrs_rans : instructions v T co = rans T 0 gs.
  Proof.
    unfold instructions. destruct from_facts as (_ & _ & CO & _). rewrite <- CO, GS. now apply listing_grps.
  Qed.
  Lemma sizes : Forall (fun c => c_size c = zlen (assemble T c)) cs.
  Proof. destruct from_facts as (_ & OK & _). eapply Forall_impl; [|exact OK]. intros c [_ Q]. exact Q. Qed.
  Lemma poss : Forall pos cs.
  Proof.
    eapply Forall_impl; [|exact sizes]. intros c Q. cbv beta in Q. unfold pos. rewrite Q. pose proof (assemble_even T c). lia.
  Qed.
  Lemma off_code p : zlen (code T (concat (firstn p gs))) = 2 * off p.
  Proof. rewrite (offset_codes v T wf P11 cs sizes). rewrite GS, firstn_start. reflexivity. Qed.
  Lemma ran_at p c ks : nth_error gs p = Some (c :: ks) ->
    nth_error (instructions v T co) p = Some (mkRan (2 * off p) (2 * off p + c_size c - 2) (2 * off (S p)) (c_op c) (c_arg c)).
  Proof.
    intros G. rewrite instrs_rans, (rans_at v T wf gs GR p c ks 0 G). rewrite Z.add_0_l, off_code. do 2 f_equal.
    rewrite <- !off_code, (firstn_S_nth _ _ _ G), concat_app, code_app, zlen_app by exact wf. cbn [concat]. now rewrite app_nil_r.
  Qed.
  Lemma ran_inv r : In r (instructions v T co) -> exists p c ks, nth_error gs p = Some (c :: ks) /\ grp v T (c :: ks)
    /\ r = mkRan (2 * off p) (2 * off p + c_size c - 2) (2 * off (S p)) (c_op c) (c_arg c) /\ nth_error (instructions v T co) p = Some r.
  Proof.
    intros I. apply In_nth_error in I. destruct I as [p I]. pose proof (nth_some_lt _ _ _ I) as L. rewrite instrs_rans, (rans_length v T gs GR) in L.
    destruct (nth_error gs p) as [g|] eqn:G; [|apply nth_error_None in G; lia].
    pose proof (proj1 (Forall_forall _ _) GR) as GR'. pose proof (GR' g (nth_error_In _ _ G)) as (c & ks & Q & REST). exists p, c, ks. subst g.
    split; [exact G|]. split; [exists c, ks; auto|]. pose proof I as I2. rewrite (ran_at p c ks G) in I2. split; [congruence|exact I].
  Qed.
  Lemma begins_off p : (p <= length gs)%nat -> begins v T co p = Some (2 * off p).
  Proof.
    intros L. unfold begins. destruct (nth_error gs p) as [g|] eqn:G.
    - pose proof (proj1 (Forall_forall _ _) GR) as GR'. pose proof (GR' g (nth_error_In _ _ G)) as (c & ks & Q & REST). subst g. now rewrite (ran_at p c ks G).
    - apply nth_error_None in G. assert (p = length gs) by lia. subst p.
      rewrite instrs_rans. pose proof (rans_length v T gs GR 0) as RL.
      destruct (nth_error (rans T 0 gs) (length gs)) eqn:X; [apply nth_some_lt in X; lia|]. rewrite RL, Nat.eqb_refl.
      rewrite <- off_code, firstn_all, <- GS. destruct from_facts as (_ & _ & CO & _). now rewrite CO.
  Qed.
  Lemma off_mono p q : (p <= length gs)%nat -> (q <= length gs)%nat -> (off p < off q <-> (p < q)%nat).
  Proof.
    intros L1 L2. pose proof (start_le gs p) as S1. pose proof (start_le gs q) as S2. rewrite <- GS in S1, S2. rewrite (off_lt_iff v cs _ _ poss S1 S2).
    split; intros H.
    - destruct (le_lt_dec q p) as [X|X]; [|exact X]. pose proof (start_mono gs q p X). lia.
    - destruct (nth_error gs p) as [g|] eqn:G; [|apply nth_error_None in G; lia].
      pose proof (start_lt gs p q g G H). pose proof (proj1 (Forall_forall _ _) GR) as GR'. destruct (GR' g (nth_error_In _ _ G)) as (c & ks & -> & _). cbn in *. lia.
  Qed.
  Lemma here p k : (p <= length gs)%nat -> (k < length cs)%nat -> offset_of v cs k = off p -> kept_before true cs k = p.
  Proof.
    intros L K Q. apply (offset_inj v T wf cs) in Q; [|exact poss|lia|rewrite GS; apply start_le]. subst k. rewrite GS. now apply (kept_start v T).
  Qed.
  Lemma head_at p c ks : nth_error gs p = Some (c :: ks) -> nth_error cs (start gs p) = Some c.
  Proof. intros G. rewrite GS, <- (Nat.add_0_r (start gs p)). apply (nth_group gs p _ 0 c G). reflexivity. Qed.

  Lemma in_units2 s : in_units v s = s / 2.
  Proof. destruct v; vm_compute in P11; try discriminate P11; reflexivity. Qed.

  (** the entries of the exception table *)
  Lemma entry_at e : In e (cb_ex cb) -> exists p q h, (p <= q < length gs)%nat /\ (h < length gs)%nat
    /\ e_start e = off p /\ e_stop e = off (S q) - 1 /\ e_target e = off h.
  Proof.
    intros I. destruct from_facts as (_ & _ & _ & _ & _ & _ & _ & _ & _ & EX & _).
    assert (TE : In (e_start e, e_stop e + 1 - e_start e, e_target e, e_depth e, e_lasti e) (table_entries co)).
    { unfold table_entries. rewrite entries_parse. change (parse_exception_table_loop _ _) with (parse_exception_table (co_exceptiontable co)).
      rewrite <- EX. exact (in_map (fun e => (e_start e, e_stop e + 1 - e_start e, e_target e, e_depth e, e_lasti e)) _ _ I). }
    destruct (ac_ranges _ _ _ AC _ _ _ _ _ TE) as (a & b & h & Ia & Ib & Ih & E1 & E2 & E3 & E4).
    apply ran_inv in Ia, Ib, Ih. destruct Ia as (p & ca & ka & Ga & _ & -> & _), Ib as (q & cb' & kb & Gb & _ & -> & _), Ih as (h' & ch & kh & Gh & _ & -> & _).
    cbn [r_start r_end] in *. exists p, q, h'. pose proof (nth_some_lt _ _ _ Ga) as La. pose proof (nth_some_lt _ _ _ Gb) as Lb. pose proof (nth_some_lt _ _ _ Gh) as Lh.
    pose proof (off_mono q p ltac:(lia) ltac:(lia)) as M.
    split; [|split; [exact Lh|clear - E1 E3 E4; lia]]. split; [|exact Lb]. destruct (le_lt_dec p q) as [X|X]; [exact X|]. apply M in X. clear - X E2. lia.
  Qed.
  Lemma entries_apart i j e f : (i < j)%nat -> nth_error (cb_ex cb) i = Some e -> nth_error (cb_ex cb) j = Some f -> e_stop e < e_start f.
  Proof.
    intros L I J. destruct from_facts as (_ & _ & _ & _ & _ & _ & _ & _ & _ & EX & _).
    assert (TE : table_entries co = map (fun e => (e_start e, e_stop e + 1 - e_start e, e_target e, e_depth e, e_lasti e)) (cb_ex cb)).
    { unfold table_entries. rewrite entries_parse. change (parse_exception_table_loop _ _) with (parse_exception_table (co_exceptiontable co)). now rewrite EX. }
    pose proof (map_nth_error (fun e => (e_start e, e_stop e + 1 - e_start e, e_target e, e_depth e, e_lasti e)) _ _ I) as I'.
    pose proof (map_nth_error (fun e => (e_start e, e_stop e + 1 - e_start e, e_target e, e_depth e, e_lasti e)) _ _ J) as J'.
    rewrite <- TE in I', J'. pose proof (ac_apart _ _ _ AC _ _ _ _ _ _ _ _ _ _ _ _ L I' J'). lia.
  Qed.

  Lemma is_tidy : tidy v cs (cb_ex cb).
  Proof.
    split.
    - intros e I. destruct (entry_at e I) as (p & q & h & PQ & _ & E1 & E2 & _).
      destruct (nth_error gs q) as [g|] eqn:G; [|apply nth_error_None in G; lia]. pose proof (start_S gs q g G) as SS.
      assert (LG : (0 < length g)%nat). { pose proof (proj1 (Forall_forall _ _) GR) as GR'. destruct (GR' g (nth_error_In _ _ G)) as (c & ks & -> & _). cbn. lia. }
      pose proof (start_mono gs p q ltac:(lia)) as SM. pose proof (start_le gs (S q)) as SL. rewrite <- GS in SL.
      exists (start gs p), (start gs (S q) - 1)%nat. split; [lia|]. split; [exact E1|]. rewrite E2.
      destruct (nth_error cs (start gs (S q) - 1)) as [c|] eqn:N; [|apply nth_error_None in N; lia].
      unfold executed_at. rewrite N, in_units2. replace (start gs (S q)) with (S (start gs (S q) - 1)) at 1 by lia. rewrite (offset_of_S v cs _ _ N), in_units2.
      pose proof poss as PP. rewrite Forall_forall in PP. destruct (PP c (nth_error_In _ _ N)) as [Q1 Q2]. clear - Q1 Q2. zdm.
    - intros m n e f L M N. left. exact (entries_apart m n e f L M N).
  Qed.

  (** the handler of a code unit *)
  Lemma unit_handler p c ks u : nth_error gs p = Some (c :: ks) -> 2 * off p + c_size c - 2 <= 2 * u < 2 * off (S p) ->
    find_handler co u = option_map (fun e => (e_target e, e_depth e, e_lasti e)) (covering v cs (cb_ex cb) (start gs p)).
  Proof.
    intros G U. destruct from_facts as (_ & _ & _ & _ & _ & _ & _ & _ & _ & EX & _).
    pose proof (nth_some_lt _ _ _ G) as LG.
    unfold find_handler. rewrite handler_parse. change (parse_exception_table_loop _ _) with (parse_exception_table (co_exceptiontable co)). rewrite <- EX.
    assert (SP : forall e, In e (cb_ex cb) -> e_start e <= e_stop e).
    { intros e I. destruct (entry_at e I) as (a & b & h & AB & _ & E1 & E2 & _). pose proof (proj2 (off_mono a (S b) ltac:(lia) ltac:(lia)) ltac:(lia)). lia. }
    rewrite (lookup_find u (cb_ex cb) SP entries_apart). f_equal. unfold covering. apply find_ext_in. intros e I.
    pose proof (head_at p c ks G) as N. pose proof poss as PP. rewrite Forall_forall in PP. destruct (PP c (nth_error_In _ _ N)) as [Q1 Q2].
    unfold executed_at. rewrite N, in_units2. set (x := off p + (c_size c - 2) / 2).
    assert (XU : off p <= x <= u /\ off p <= u < off (S p)) by (subst x; clear - U Q1 Q2; zdm). clearbody x. destruct XU as [X U'].
    destruct (entry_at e I) as (a & b & h & AB & _ & E1 & E2 & _). rewrite E1, E2.
    assert (A1 : forall z, off p <= z < off (S p) -> (off a <= z <-> (a <= p)%nat)).
    { intros z Z. split; intros H.
      - destruct (le_lt_dec a p) as [Y|Y]; [exact Y|]. destruct (Nat.eq_dec a (S p)) as [->|NE]; [lia|].
        pose proof (proj2 (off_mono (S p) a ltac:(lia) ltac:(lia)) ltac:(lia)). lia.
      - destruct (Nat.eq_dec a p) as [->|NE]; [lia|]. pose proof (proj2 (off_mono a p ltac:(lia) ltac:(lia)) ltac:(lia)). lia. }
    assert (A2 : forall z, off p <= z < off (S p) -> (z <= off (S b) - 1 <-> (p <= b)%nat)).
    { intros z Z. split; intros H.
      - destruct (le_lt_dec p b) as [Y|Y]; [exact Y|]. destruct (Nat.eq_dec p (S b)) as [->|NE]; [lia|].
        pose proof (proj2 (off_mono (S b) p ltac:(lia) ltac:(lia)) ltac:(lia)). lia.
      - destruct (Nat.eq_dec p b) as [->|NE]; [lia|]. pose proof (proj2 (off_mono (S p) (S b) ltac:(lia) ltac:(lia)) ltac:(lia)). lia. }
    pose proof (A1 u ltac:(lia)). pose proof (A1 x ltac:(lia)). pose proof (A2 u ltac:(lia)). pose proof (A2 x ltac:(lia)).
    apply eq_true_iff_eq. rewrite !andb_true_iff, !Z.leb_le. tauto.
  Qed.

  (** locations *)
  Lemma reported p c ks l : nth_error gs p = Some (c :: ks) -> c_loc c = Some l ->
    forall o, 2 * off p <= o < 2 * off (S p) -> reports v co o l.
  Proof.
    intros G L o O. destruct from_facts as (OI & OK & CO & _ & _ & _ & _ & _ & FL & EX & LO).
    destruct (round_positions v T wf co false cb 0 P11 (ac_code _ _ _ AC) (ac_positions _ _ _ AC)) as (co' & TO & PO & _); [|intros _; exact (ac_extended _ _ _ AC)|exact F|].
    { intros q I S. pose proof (ac_lines _ _ _ AC q I) as X. destruct q as [[[q1 q2] q3] q4]. unfold spanning in S. destruct q1, q2, q3; tauto || (try congruence). }
    assert (SZ : Forall (sized T) (map CI cs)).
    { rewrite Forall_map. exact sizes. }
    assert (LOC : forall d, In d cs -> exists l, c_loc d = Some l /\ coherent_loc v l /\ (v = V310 -> l_lineno l <> None)).
    { intros d I. destruct (LO d I) as (l' & A & B). exists l'. repeat (split; [assumption|]). intros ->. discriminate P11. }
    assert (AT : forall o, 2 * off p <= o < 2 * off p + c_size c -> nth_error positions (Z.to_nat (o / 2)) = Some (recorded l)).
    { intros o' O'. assert (EC : cs = concat (firstn p gs) ++ c :: (ks ++ concat (skipn (S p) gs))).
      { rewrite GS. rewrite (nth_split' _ _ _ G) at 1. rewrite concat_app. reflexivity. }
      pose proof (reports_at v T wf cb co' 0 cs OI TO SZ LOC _ c _ l o' EC L) as R. unfold reports in R. rewrite P11, PO in R.
      apply R. rewrite off_code. pose proof sizes as SS. rewrite Forall_forall in SS. rewrite <- (SS c); [exact O'|]. rewrite GS. apply in_concat.
      exists (c :: ks). split; [eapply nth_error_In; eauto|now left]. }
    unfold reports. rewrite P11. destruct (Z_lt_ge_dec o (2 * off p + c_size c)) as [X|X]; [apply AT; lia|].
    pose proof (nth_error_In _ _ (ran_at p c ks G)) as I. pose proof poss as PP. rewrite Forall_forall in PP. destruct (PP c (nth_error_In _ _ (head_at p c ks G))) as [Q1 Q2].
    rewrite (ac_same _ _ _ AC _ o I) by (cbn [r_at r_end]; clear - X O Q1; lia). cbn [r_at]. apply AT. clear - Q1. lia.
  Qed.

  Variables (conserve : bool) (b : bytecode).
  Hypothesis TB : to_bytecode v T cb true conserve = Ok b.

  Theorem from_code_runs cur : runs v T co (located cur (program (b_items b))).
  Proof.
    pose proof (from_code_ordinary v T wf co cb F) as OR.
    destruct (to_bytecode_shown v T wf cb true conserve b (ordinary_plain v T wf _ OR) TB) as [SL SH].
    destruct from_facts as (OI & OK & CO & FC & FN & FV & FCE & FFR & FL & EX & LO).
    assert (LEN : length (program (b_items b)) = length gs).
    { rewrite SL. replace (length cs) with (start gs (length gs)) by (unfold start; now rewrite firstn_all, <- GS).
      rewrite GS. now apply (kept_start v T). }
    assert (AT : forall p, (p < length gs)%nat -> exists c ks l arg h, nth_error gs p = Some (c :: ks) /\ c_loc c = Some l /\ ordinary v T c
       /\ nth_error (program (b_items b)) p = Some (PInstr (c_name c) arg (Some l) h)
       /\ (op_has_jump T (c_op c) = true -> exists k', (k' < length cs)%nat
             /\ offset_of v cs k' = jumps_to v T c (off p) /\ arg = PTo (Some (kept_before true cs k')))
       /\ (op_has_jump T (c_op c) = false -> exists x, decode_arg v T cb (c_op c) (c_arg c) = Ok x /\ arg = PObj x)
       /\ (match covering v cs (cb_ex cb) (start gs p) with
             | None => h = None
             | Some e => exists k', (k' < length cs)%nat /\ offset_of v cs k' = e_target e
                 /\ h = Some (PTo (Some (kept_before true cs k')), e_lasti e) end)).
    { intros p L. destruct (nth_error gs p) as [g|] eqn:G; [|apply nth_error_None in G; lia].
      pose proof GR as GR'. rewrite Forall_forall in GR'. destruct (GR' g (nth_error_In _ _ G)) as (c & ks & -> & M & NC & LK & FK).
      pose proof (head_at p c ks G) as N. destruct (instrs_split _ _ _ N) as (pre & post & E & LP).
      destruct (SH pre c post E) as (arg & h & B1 & B2 & B3 & B4).
      { unfold kept. rewrite (proj2 (String.eqb_neq _ _) NC). reflexivity. }
      rewrite LP in *. destruct (LO c (nth_error_In _ _ N)) as (l & EL & _). rewrite EL in B1.
      assert (KP : kept_before true cs (start gs p) = p) by (rewrite GS; apply (kept_start v T); auto; now apply Nat.lt_le_incl). rewrite KP in B1.
      exists c, ks, l, arg, h. split; [reflexivity|]. split; [exact EL|]. split; [exact (OR c (nth_error_In _ _ N))|]. split; [exact B1|]. split; [exact B2|]. split; [exact B3|]. exact (B4 is_tidy). }
    assert (OWN : forall k, (k < length (program (b_items b)))%nat -> exists n a lo h, nth_error (program (b_items b)) k = Some (PInstr n a (Some lo) h)).
    { intros k L. rewrite LEN in L. destruct (AT k L) as (c & ks & l & arg & h & _ & _ & _ & E & _). eauto. }
    destruct (located_own _ OWN cur) as [LO1 LO2].
    split; [rewrite LO1, LEN, instrs_rans; apply (rans_length v T gs GR)|].
    intros p n a l h r X R. pose proof (nth_some_lt _ _ _ X) as L. rewrite LO1, LEN in L.
    destruct (AT p L) as (c & ks & l' & arg & h' & G & EL & OC & E & J & NJ & CV). rewrite (LO2 _ _ _ _ _ E) in X. injection X as <- <- <- <-.
    pose proof OC as ((O & B & A & _) & _). pose proof (nth_error_In _ _ R) as I. rewrite (ran_at p c ks G) in R.
    assert (RR : r = mkRan (2 * off p) (2 * off p + c_size c - 2) (2 * off (S p)) (c_op c) (c_arg c)) by congruence. clear R. subst r. cbn [r_start r_at r_end r_op r_arg].
    split; [exact O|]. split; [|split].
    - destruct (op_has_jump T (c_op c)) eqn:OJ.
      + destruct (J eq_refl) as (k' & K1 & K2 & ->).
        destruct (ac_jumps _ _ _ AC _ I OJ) as (r' & I' & E'). apply ran_inv in I'. destruct I' as (q & c' & ks' & G' & _ & -> & _). cbn [r_start] in E'.
        pose proof (nth_some_lt _ _ _ G') as Lq. rewrite <- E'.
        assert (GT : goes_to v T (mkRan (2 * off p) (2 * off p + c_size c - 2) (2 * off (S p)) (c_op c) (c_arg c)) = 2 * jumps_to v T c (off p)).
        { unfold goes_to, jumps_to. cbn [r_op r_arg r_end]. rewrite (proj1 (opmap_opname v T wf _ _) O).
          replace (PY310 v) with true by (destruct v; vm_compute in P11; try discriminate P11; reflexivity).
          destruct (z_mem (c_op c) (t_hasjrel T)); [|lia]. rewrite in_units2.
          assert (E2 : 2 * off (S p) = 2 * off p + c_size c + 2 * cache_entries v T (c_name c) (c_op c)).
          { pose proof GR as GR'. rewrite Forall_forall in GR'. destruct (GR' _ (nth_error_In _ _ G)) as (c0 & ks0 & Q0 & M & NC & LK & FK). injection Q0 as <- <-.
            rewrite <- !off_code, (firstn_S_nth _ _ _ G), concat_app, code_app, zlen_app by exact wf. cbn [concat]. rewrite app_nil_r, (grp_len v T wf c ks M LK FK). lia. }
          pose proof poss as PP. rewrite Forall_forall in PP. destruct (PP c (nth_error_In _ _ (head_at p c ks G))) as [Q1 Q2].
          rewrite E2. destruct (str_contains "BACKWARD" (c_name c)); clear - Q1 Q2; zdm. }
        rewrite GT in E'. rewrite (here q k'); [apply begins_off; lia|lia|exact K1|]. rewrite K2. clear - E'. lia.
      + destruct (NJ eq_refl) as (x & D & ->).
        assert (RD : reads v T cb (c_op c) (c_arg c) x).
        { destruct (shown_reads v T cb (c_op c) (c_arg c) x (category_of v T wf _ _ O B) OJ) as [[Q _]|[_ Q]]; auto.
          - destruct (c_arg c); [|exact A]. clear - A. lia.
          - intros _ y I1. rewrite FFR in I1. rewrite FV. exact (ac_free _ _ _ AC y I1).
          - intros _ HF a0 n0 EA AA. rewrite FV in AA. rewrite FCE. exact (ac_deref _ _ _ AC _ a0 n0 I HF EA AA). }
        eapply reads_tables; [..|exact RD]; unfold tables; cbn; auto.
    - exact (reported p c ks l' G EL).
    - intros _ u U. rewrite (unit_handler p c ks u G U). destruct (covering v cs (cb_ex cb) (start gs p)) as [e|] eqn:CE.
      + destruct CV as (k' & K1 & K2 & ->). exists (e_target e), (e_depth e). split; [reflexivity|].
        assert (IE : In e (cb_ex cb)) by (unfold covering in CE; apply find_some in CE; tauto).
        destruct (entry_at e IE) as (a & q & h & _ & LH & _ & _ & E3). rewrite E3 in K2. rewrite (here h k' ltac:(lia) K1 K2), E3. apply begins_off. lia.
      + subst h'. reflexivity.
  Qed.
End From.
