(** Code written before 3.11 is read back (C74, C75). *)
From Verif Require Import PyBase OpTable CPy P_Base P_OpTable M_Instr M_Tables M_Concrete S_Args S_Lines S_Dis S_Round S_Code S_Old S_Written P_Instr P_Instr2 P_Asm P_LinesCode P_Round P_Round2 P_Ident P_Dis P_Dis5 P_Dis6 P_Code P_From P_Old P_Old2 P_Old3
  T_Instr T_Lines T_Round T_Written.
Open Scope string_scope.
Open Scope list_scope.
Open Scope Z_scope.

(** *** line tables are made of bytes *)
Definition bytes_only (l : list Z) : Prop := Forall (fun x => 0 <= x < 256) l.
Lemma pack_bytes b s l : pack_Bb b s = Ok l -> bytes_only l.
Proof.
  unfold pack_Bb. destruct ((0 <=? b) && (b <=? 255) && (-128 <=? s) && (s <=? 127)) eqn:E; [|discriminate]. intros H. injection H as <-.
  rewrite !andb_true_iff, !Z.leb_le in E. constructor; [lia|]. constructor; [apply Z.mod_pos_bound; lia|constructor].
Qed.
Lemma app_bytes a b : bytes_only a -> bytes_only b -> bytes_only (a ++ b).
Proof. intros. now apply Forall_app. Qed.
Lemma two_bytes x y l : 0 <= x < 256 -> 0 <= y < 256 -> bytes_only l -> bytes_only (x :: y :: l).
Proof. intros. repeat constructor; lia || assumption. Qed.
Lemma doff_bytes f : forall d, bytes_only (snd (lnotab_doff f d)).
Proof. induction f as [|f IH]; intros d; cbn; [constructor|]. destruct (255 <? d); [|constructor]. specialize (IH (d - 255)). destruct (lnotab_doff f (d - 255)). apply two_bytes; [lia|lia|exact IH]. Qed.
Lemma neg_bytes f : forall d n x y l, lnotab_neg f d n = Ok (x, y, l) -> bytes_only l.
Proof.
  induction f as [|f IH]; intros d n x y l H; cbn in H; [injection H as _ _ <-; constructor|]. destruct (n <? -128); [|injection H as _ _ <-; constructor].
  apply bind_ok in H. destruct H as (b & B & H). apply bind_ok in H. destruct H as ([[d' l'] r] & R & H). injection H as _ _ <-. apply app_bytes; [eapply pack_bytes; eauto|eapply IH; eauto].
Qed.
Lemma pos_bytes f : forall d n x y l, lnotab_pos f d n = Ok (x, y, l) -> bytes_only l.
Proof.
  induction f as [|f IH]; intros d n x y l H; cbn in H; [injection H as _ _ <-; constructor|]. destruct (127 <? n); [|injection H as _ _ <-; constructor].
  apply bind_ok in H. destruct H as (b & B & H). apply bind_ok in H. destruct H as ([[d' l'] r] & R & H). injection H as _ _ <-. apply app_bytes; [eapply pack_bytes; eauto|eapply IH; eauto].
Qed.
Lemma lnotab_bytes l : forall o n bs, lnotab_loop o n l = Ok bs -> bytes_only bs.
Proof.
  induction l as [|e r IH]; intros o n bs H; cbn [lnotab_loop] in H; [injection H as <-; constructor|]. destruct (le_line e - n =? 0); [eauto|].
  apply bind_ok in H. destruct H as (b & B & H). apply bind_ok in H. destruct H as (r' & R & H). injection H as <-. apply app_bytes; [|eapply IH; eauto].
  unfold lnotab_entry in B. pose proof (doff_bytes (Z.to_nat ((le_off e - o) / 255 + 1)) (le_off e - o)) as B1. destruct (lnotab_doff _ _) as [d b1]. cbn [snd] in B1.
  apply bind_ok in B. destruct B as ([[d2 n2] b2] & B2 & B). apply bind_ok in B. destruct B as ([[d3 n3] b3] & B3 & B). apply neg_bytes in B2. apply pos_bytes in B3.
  apply bind_ok in B. destruct B as (u1 & _ & B). apply bind_ok in B. destruct B as (u2 & _ & B). apply bind_ok in B. destruct B as (b4 & B4 & B). injection B as <-. apply pack_bytes in B4.
  repeat apply app_bytes; assumption.
Qed.
Lemma lneg_bytes f : forall d, bytes_only (snd (linetable_neg f d)).
Proof. induction f as [|f IH]; intros d; cbn; [constructor|]. destruct (d <? -127); [|constructor]. specialize (IH (d + 127)). destruct (linetable_neg f (d + 127)). apply two_bytes; [lia|lia|exact IH]. Qed.
Lemma lpos_bytes f : forall d, bytes_only (snd (linetable_pos f d)).
Proof. induction f as [|f IH]; intros d; cbn; [constructor|]. destruct (127 <? d); [|constructor]. specialize (IH (d - 127)). destruct (linetable_pos f (d - 127)). apply two_bytes; [lia|lia|exact IH]. Qed.
Lemma ldoff_bytes f : forall d, bytes_only (snd (linetable_doff f d)).
Proof. induction f as [|f IH]; intros d; cbn; [constructor|]. destruct (254 <? d); [|constructor]. specialize (IH (d - 254)). destruct (linetable_doff f (d - 254)). apply two_bytes; [lia|lia|exact IH]. Qed.
Lemma packed_bytes doff dl l : pack_linetable doff dl = Ok l -> bytes_only l.
Proof.
  unfold pack_linetable. intros H. apply bind_ok in H. destruct H as ([d b1] & B1 & H).
  assert (X : bytes_only b1).
  { destruct dl as [z|]; [|injection B1 as _ <-; constructor]. pose proof (lneg_bytes (Z.to_nat ((- z) / 127 + 1)) z) as X1. destruct (linetable_neg _ z) as [z1 r1].
    pose proof (lpos_bytes (Z.to_nat (z1 / 127 + 1)) z1) as X2. destruct (linetable_pos _ z1) as [z2 r2]. apply bind_ok in B1. destruct B1 as (u & _ & B1). injection B1 as _ <-. now apply app_bytes. }
  destruct (254 <? doff).
  - apply bind_ok in H. destruct H as (b2 & B2 & H). apply pack_bytes in B2. pose proof (ldoff_bytes (Z.to_nat (doff / 254 + 1)) (doff - 254)) as X3. destruct (linetable_doff _ _) as [d3 b3].
    apply bind_ok in H. destruct H as (b4 & B4 & H). apply pack_bytes in B4. apply bind_ok in H. destruct H as (u & _ & H). injection H as <-. repeat apply app_bytes; assumption.
  - apply bind_ok in H. destruct H as (b2 & B2 & H). apply pack_bytes in B2. apply bind_ok in H. destruct H as (u & _ & H). injection H as <-. now apply app_bytes.
Qed.
Lemma linestable_bytes l : forall o n d last bs, linestable_loop o n d last l = Ok bs -> bytes_only bs.
Proof.
  induction l as [|e r IH]; intros o n d last bs H; cbn [linestable_loop] in H; [eapply packed_bytes; eauto|]. cbv zeta in H.
  match type of H with (if ?c then _ else _) = _ => destruct c end; [eauto|].
  apply bind_ok in H. destruct H as (b & B & H). apply bind_ok in H. destruct H as (r' & R & H). injection H as <-. apply app_bytes; [eapply packed_bytes; eauto|eapply IH; eauto].
Qed.
Lemma lines_bytes v first l bs : PY311 v = false -> assemble_lines v first l = Ok bs -> bytes_only bs.
Proof.
  unfold assemble_lines. intros -> H. destruct (PY310 v); [|eapply lnotab_bytes; exact H]. destruct l as [|e r]; cbn in H; [injection H as <-; constructor|eapply linestable_bytes; eauto].
Qed.

Section Before.
  Variables (v : pyver) (T : optable).
  Hypothesis wf : wf_optable v T = true.
  Hypothesis P11 : PY311 v = false.
  Notation E := (t_extended_arg T).

  (** *** the bytes *)
  Lemma spelled c : okc v T c -> exists es b, assemble T c = spell E es ++ [c_op c; b] /\ Forall (fun x => 0 <= x < 256) es /\ 0 <= b < 256
    /\ (opcode_has_argument v T (c_op c) = true \/ (opcode_has_argument v T (c_op c) = false /\ b = 0 /\ es = [])).
  Proof.
    intros M. destruct (c_arg c) as [a|] eqn:EA.
    - destruct (okc_bytes v T wf c M) as (es & B & _ & Q & _). rewrite EA in Q. exists es. eexists. split; [exact Q|]. split; [exact B|]. split; [apply Z.mod_pos_bound; lia|].
      left. destruct M as [((O & _ & A & _) & _) _]. rewrite EA in A. destruct A as [_ [A|A]]; [exact A|].
      exfalso. rewrite A in O. pose proof (wf_op0 v T wf _ O) as N. rewrite N in O. rewrite (wf_cache_absent v T wf P11) in O. discriminate O.
    - exists [], 0. unfold assemble. destruct M as [((O & _ & A & _) & _) _]. rewrite EA in *.
      split; [reflexivity|split; [constructor|split; [lia|right; auto]]].
  Qed.

  Lemma spell_cons e es l : spell E (e :: es) ++ l = E :: e :: (spell E es ++ l).
  Proof. reflexivity. Qed.

  Lemma normal_spelled es : forall ext name op b rest, Forall byte es -> 0 <= b < 256 -> op <> E -> opmap T name = Some op ->
    (opcode_has_argument v T op = true \/ (opcode_has_argument v T op = false /\ b = 0 /\ es = [] /\ ext = false)) ->
    normal v T 0 false rest -> normal v T 0 ext (spell E es ++ op :: b :: rest).
  Proof.
    induction es as [|e es IH]; intros ext name op b rest B Bb NE O H N.
    - cbn [spell map concat app normal]. change (0 <? 0) with false. cbv beta iota. exists name. split; [exact O|]. split; [exact Bb|].
      rewrite (no_caches_before v T wf name op P11), (proj2 (Z.eqb_neq _ _) NE). destruct H as [H|(H & -> & _ & ->)]; rewrite H; auto.
    - rewrite spell_cons. inversion_clear B as [|? ? B1 B2]. cbn [normal]. change (0 <? 0) with false. cbv beta iota.
      exists "EXTENDED_ARG". split; [exact (wf_ext v T wf)|]. split; [exact B1|]. rewrite (wf_ext_arg v T wf), (wf_ext_nocache v T wf), Z.eqb_refl.
      destruct H as [H|(_ & _ & Q & _)]; [|discriminate Q]. eapply IH; eauto.
  Qed.

  Lemma code_cons c cs : code T (c :: cs) = assemble T c ++ code T cs.
  Proof. reflexivity. Qed.

  Lemma normal_code cs : Forall (okc v T) cs -> normal v T 0 false (code T cs).
  Proof.
    induction 1 as [|c cs M F IH]; [reflexivity|]. rewrite code_cons. destruct (spelled c M) as (es & b & Q & B & Bb & H). rewrite Q, <- app_assoc. cbn [app].
    pose proof (okc_not_ext v T wf c M) as NE. destruct M as [((O & _) & _) _]. eapply normal_spelled; eauto. destruct H as [H|(H1 & H2 & H3)]; auto 6.
  Qed.

  Definition evens (l : list Z) : Prop := forall k op, nth_error l (2 * k) = Some op -> op < t_min_instrumented T.
  Lemma evens_cons x y l : x < t_min_instrumented T -> evens l -> evens (x :: y :: l).
  Proof. intros X H [|k] op N; [injection N as <-; exact X|]. replace (2 * Datatypes.S k)%nat with (Datatypes.S (Datatypes.S (2 * k))) in N by lia. exact (H k op N). Qed.
  Lemma evens_code cs : Forall (okc v T) cs -> evens (code T cs).
  Proof.
    induction 1 as [|c cs M F IH]; [intros [|k] op N; destruct (2 * _)%nat in N; discriminate N|]. rewrite code_cons. destruct (spelled c M) as (es & b & Q & _). rewrite Q, <- app_assoc. cbn [app].
    destruct M as [((_ & L & _) & _) _]. clear Q. induction es as [|e es IHe]; [apply evens_cons; [apply L|exact IH]|]. rewrite spell_cons. apply evens_cons; [exact (wf_ext_lt v T wf)|exact IHe].
  Qed.

  Lemma executed_code cs : Forall (okc v T) cs -> forall n op a, In (n, op, a) (executed E 0 0 (code T cs)) -> a <= 2147483647.
  Proof.
    induction 1 as [|c cs M F IH]; intros n op a I; [destruct I|]. rewrite code_cons in I. destruct M as [(LC & NX & _) _].
    pose proof (legal_valid v T wf c LC) as V. rewrite (proj1 (assemble_decode v T wf c _ V NX)) in I. destruct I as [I|I]; [|exact (IH _ _ _ I)].
    injection I as _ _ <-. destruct LC as (_ & _ & A & _). destruct (c_arg c); lia.
  Qed.
End Before.

(** ** The lines *)
Lemma lined_instrs items : forall line, map fst (lined line items) = instrs_of items.
Proof. induction items as [|[c|z] r IH]; intros line; cbn [lined instrs_of flat_map app map fst]; [reflexivity| |apply IH]. cbv zeta. cbn [map fst]. f_equal. apply IH. Qed.
Lemma lined_nth pre c post : forall line, nth_error (lined line (pre ++ CI c :: post)) (length (instrs_of pre)) = Some (c, current_line line (pre ++ [CI c])).
Proof.
  induction pre as [|[d|z] r IH]; intros line; cbn [app lined instrs_of flat_map length].
  - cbn [nth_error]. cbv zeta. unfold current_line, line_shown. cbn [fold_left]. destruct (c_loc c) as [l|]; [destruct (l_lineno l)|]; reflexivity.
  - cbv zeta. cbn [nth_error]. change (flat_map _ r) with (instrs_of r). rewrite IH. unfold current_line, line_shown. cbn [fold_left]. destruct (c_loc d) as [l|]; [destruct (l_lineno l)|]; reflexivity.
  - apply IH.
Qed.

Section Read.
  Variables (v : pyver) (T : optable) (cb : cbytecode) (n : Z) (co : codeobj).
  Hypothesis wf : wf_optable v T = true.
  Hypothesis P11 : PY311 v = false.
  Hypothesis TC : to_code_raw v T cb n = Ok co.
  Notation cs := (instrs_of (cb_items cb)).
  Notation first := (m_first_lineno (cb_meta cb)).
  Hypothesis OK : Forall (okc v T) cs.
  Hypothesis NL : PY310 v = true -> Forall (fun it => ~ no_line it) (cb_items cb).

  Lemma sized_all : Forall (sized T) (cb_items cb).
  Proof. apply sized_items. eapply Forall_impl; [|exact OK]. intros c [_ Q]. exact Q. Qed.
  Lemma written_shape : exists bs, assemble_lines v first (snd (assemble_code v T cb)) = Ok bs
    /\ co = mkCode (m_argcount (cb_meta cb)) (m_posonly (cb_meta cb)) (m_kwonly (cb_meta cb)) (zlen (cb_varnames cb)) n
        (m_flags (cb_meta cb)) (code T cs) (cb_consts cb) (cb_names cb) (cb_varnames cb) (m_filename (cb_meta cb))
        (m_name (cb_meta cb)) "" first bs [] (m_freevars (cb_meta cb)) (m_cellvars (cb_meta cb)).
  Proof.
    pose proof (raw_code v T cb sized_all) as RC. pose proof TC as H. unfold to_code_raw in H. rewrite RC in H |- *. rewrite P11 in H. cbn [snd].
    apply bind_ok in H. destruct H as (bs & L & H). cbn [bind] in H. injection H as <-. exists bs. split; [exact L|]. now rewrite <- code_of_instrs.
  Qed.
  Lemma written_first : co_firstlineno co = first.
  Proof. destruct written_shape as (bs & _ & ->). reflexivity. Qed.
  Lemma written_code : co_code co = code T cs.
  Proof. destruct written_shape as (bs & _ & ->). reflexivity. Qed.
  Lemma written_bytes : forall x, In x (co_linetable co) -> 0 <= x < 256.
  Proof. destruct written_shape as (bs & L & ->). cbn. apply Forall_forall. exact (lines_bytes _ _ _ _ P11 L). Qed.

  Lemma written_line pre c post q : cb_items cb = pre ++ CI c :: post ->
    zlen (code_of T pre) <= q < zlen (code_of T pre) + zlen (assemble T c) ->
    line_at v co q = Some (Some (current_line first (pre ++ [CI c]))).
  Proof.
    intros IT B. unfold line_at. destruct (PY310 v) eqn:P10.
    - assert (V : v = V310) by (destruct v; vm_compute in P10, P11; congruence).
      destruct (C12_linetable_all_lines_partial T cb n sized_all) as (co' & E & R). rewrite <- V, TC in E. injection E as <-.
      exact (R (NL eq_refl) pre c post q IT B).
    - destruct (C11_lnotab_lines v T cb n P10 sized_all) as (co' & E & _ & FL & R). rewrite TC in E. injection E as <-.
      f_equal. f_equal. exact (R pre c post q IT B).
  Qed.
  Lemma written_at p c : nth_error cs p = Some c -> exists z, nth_error (lined first (cb_items cb)) p = Some (c, z)
    /\ forall q, zlen (code T (firstn p cs)) <= q < zlen (code T (firstn p cs)) + c_size c -> line_at v co q = Some (Some z).
  Proof.
    intros N. destruct (instrs_split _ _ _ N) as (pre & post & IT & LP). exists (current_line first (pre ++ [CI c])).
    split; [rewrite IT, <- LP; apply lined_nth|]. intros q B. apply (written_line pre c post q IT). rewrite code_of_instrs.
    assert (FN : firstn p cs = instrs_of pre).
    { rewrite IT. unfold instrs_of. rewrite flat_map_app. fold (instrs_of pre). rewrite firstn_app, LP, Nat.sub_diag, firstn_all2 by lia. cbn [firstn]. apply app_nil_r. }
    rewrite FN in B. rewrite Forall_forall in OK. rewrite <- (proj2 (OK c (nth_error_In _ _ N))). exact B.
  Qed.

  Definition bare : codeobj := mkCode (co_argcount co) (co_posonly co) (co_kwonly co) (co_nlocals co) (co_stacksize co) (co_flags co)
    (co_code co) [] (co_names co) (co_varnames co) (co_filename co) (co_name co) (co_qualname co) (co_firstlineno co) (co_linetable co) (co_exceptiontable co) (co_freevars co) (co_cellvars co).

  Lemma bare_compiled : as_compiled_before v T bare.
  Proof.
    assert (LB : forall off, line_at v bare off = line_at v co off) by reflexivity.
    constructor.
    - cbn. rewrite written_code. now apply normal_code.
    - exact written_bytes.
    - intros off L. rewrite LB. change (co_code bare) with (co_code co) in L. rewrite written_code in L. destruct (covered v T wf P11 cs OK off L) as (p & c & N & B).
      destruct (written_at p c N) as (z & _ & W). rewrite (W off B). discriminate.
    - intros r off I B. rewrite !LB. unfold instructions in I. change (co_code bare) with (co_code co) in I. rewrite written_code in I. apply In_nth_error in I. destruct I as (p & I).
      rewrite (old_listing v T wf P11 cs OK 0 p) in I. destruct (nth_error cs p) as [c|] eqn:N; [|discriminate I]. cbn [option_map] in I. cbv zeta in I. injection I as <-. cbn [r_start r_end] in *.
      destruct (written_at p c N) as (z & _ & W). change (0 + ?x) with x in *. rewrite (W off B), (W (zlen (code T (firstn p cs)))); [reflexivity|].
      rewrite Forall_forall in OK. destruct (okc_bytes v T wf c (OK c (nth_error_In _ _ N))) as (es & _ & S1 & _). pose proof (zlen_nonneg es). lia.
    - intros x [].
  Qed.

  Hypothesis FP : 1 <= first.
  Hypothesis LP : Forall (fun x => 1 <= snd x) (lined first (cb_items cb)).

  Lemma written_readable : exists cb1, from_code v T co false = Ok cb1.
  Proof.
    destruct (list_eq_dec Z.eq_dec (co_code co) []) as [EM|NE].
    - unfold from_code, disassemble_code. rewrite P11, EM. cbn. eauto.
    - apply C03_code_accepted_partial; auto.
      + rewrite written_code. now apply normal_code.
      + rewrite written_code. exact (evens_code v T wf P11 cs OK).
      + intros _. rewrite written_code. now apply (executed_code v T wf).
      + congruence.
      + intros _. split; [now rewrite written_first|]. intros q z I.
        assert (LEN : 0 < zlen (co_code co)). { destruct (co_code co); [congruence|]. rewrite zlen_cons. pose proof (zlen_nonneg l). lia. }
        destruct (starts_of v co written_bytes) as (starts & ES & SA & SL). rewrite ES in I. apply in_rev in I.
        assert (Q : 0 <= q < zlen (co_code co)).
        { split; [exact (asc_ge _ _ _ _ SA I)|]. apply in_rev in I. rewrite <- ES in I. unfold line_starts in I. destruct (PY310 v); apply in_rev in I; [eapply lines_below; eauto|].
          apply in_map_iff in I. destruct I as ([q' z'] & E & I). cbn in E. injection E as -> _. eapply starts_below; eauto. }
        rewrite written_code in Q. destruct (covered v T wf P11 cs OK q Q) as (p & c & N & B). destruct (written_at p c N) as (w & NW & W). specialize (W q B).
        rewrite <- written_code in Q. pose proof (SL q (Some w) Q W) as X. rewrite (asc_here starts 0 _ q _ SA I) in X. injection X as ->.
        rewrite Forall_forall in LP. exact (LP _ (nth_error_In _ _ NW)).
  Qed.
End Read.

(** ** The instructions are in the code *)
Lemma Forall2_by_nth {A B} (R : A -> B -> Prop) l : forall l',
  (forall p, match nth_error l p, nth_error l' p with Some a, Some b => R a b | None, None => True | _, _ => False end) -> Forall2 R l l'.
Proof.
  induction l as [|a l IH]; intros [|b l'] H; [constructor|destruct (H 0%nat)|destruct (H 0%nat)|]. constructor; [exact (H 0%nat)|]. apply IH. intros p. exact (H (Datatypes.S p)).
Qed.
Lemma whole_okc v T (wf : wf_optable v T = true) cs : PY311 v = false -> whole v T cs -> Forall (okc v T) cs.
Proof.
  intros P11. induction 1 as [|c ks rest OR NC SZ L FK W IH]; [constructor|]. rewrite (no_caches_before v T wf _ _ P11) in L.
  destruct ks as [|k ks]; [|rewrite zlen_cons in L; pose proof (zlen_nonneg ks); lia]. constructor; [split; assumption|exact IH].
Qed.

Section Back.
  Variables (v : pyver) (T : optable) (cb : cbytecode) (n : Z) (co : codeobj).
  Hypothesis wf : wf_optable v T = true.
  Hypothesis P11 : PY311 v = false.
  Hypothesis TC : to_code_raw v T cb n = Ok co.
  Notation cs := (instrs_of (cb_items cb)).
  Notation first := (m_first_lineno (cb_meta cb)).
  Hypothesis OK : Forall (okc v T) cs.
  Hypothesis NL : PY310 v = true -> Forall (fun it => ~ no_line it) (cb_items cb).

  Lemma written_back cb1 : from_code v T co false = Ok cb1 -> Forall2 read_before (lined first (cb_items cb)) (cb_items cb1).
  Proof.
    intros F. pose proof (bare_compiled v T cb n co wf P11 TC OK NL) as BC.
    assert (F' : exists cb2, from_code v T (bare co) false = Ok cb2 /\ cb_items cb2 = cb_items cb1).
    { unfold from_code in F |- *. change (disassemble_code v T (bare co)) with (disassemble_code v T co).
      apply bind_ok in F. destruct F as (l & D & F). rewrite D. cbn [bind]. apply bind_ok in F. destruct F as (l' & R & F). rewrite R. cbn [bind]. injection F as <-. eauto. }
    destruct F' as (cb2 & F2 & IT). destruct (old_facts v T wf P11 (bare co) cb2 BC F2) as (OI & OK2 & CO & _ & _ & _ & _ & _ & _ & LO).
    rewrite IT in *. set (ds := instrs_of (cb_items cb1)) in *. change (co_code (bare co)) with (co_code co) in CO. rewrite (written_code v T cb n co P11 TC OK) in CO.
    rewrite OI. clear OI. apply Forall2_by_nth. intros p. rewrite nth_error_map.
    pose proof (old_listing v T wf P11 cs OK 0 p) as X. pose proof (old_listing v T wf P11 ds OK2 0 p) as Y. rewrite CO in Y.
    rewrite X in Y. destruct (nth_error cs p) as [c|] eqn:N; destruct (nth_error ds p) as [d|] eqn:ND; cbn [option_map] in Y |- *; try discriminate Y.
    - destruct (written_at v T cb n co wf P11 TC OK NL p c N) as (z & NZ & W). rewrite NZ. cbv zeta in Y. injection Y as Y1 Y2 Y3 Y4 Y5.
      destruct (LO p d ND) as (w & EL & _ & LW). change (line_at v (bare co)) with (line_at v co) in LW.
      rewrite Forall_forall in OK, OK2. pose proof (OK c (nth_error_In _ _ N)) as MC. pose proof (OK2 d (nth_error_In _ _ ND)) as MD.
      assert (W' : line_at v co (zlen (code T (firstn p ds))) = Some (Some z)).
      { apply W. destruct (okc_bytes v T wf c MC) as (es & _ & S1 & _). pose proof (zlen_nonneg es). change (0 + ?x) with x in *. lia. }
      rewrite W' in LW. injection LW as <-. cbn [read_before fst snd]. destruct MC as [((O & _) & _) SC]. destruct MD as [((O' & _) & _) SD].
      split; [|split; [congruence|split; [congruence|split; [|exact EL]]]].
      + rewrite <- Y4 in O'. exact (opmap_inj v T wf _ _ _ O' O).
      + change (0 + ?x) with x in *. lia.
    - assert (NN : nth_error (lined first (cb_items cb)) p = None).
      { apply nth_error_None. apply nth_error_None in N. rewrite <- (lined_instrs (cb_items cb) first), map_length in N. exact N. }
      rewrite NN. exact Logic.I.
  Qed.
End Back.
