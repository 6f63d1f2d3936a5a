(** Lines shown by from_code() before 3.11. *)
From Verif Require Import PyBase OpTable CPy P_Base P_OpTable M_Instr M_Tables M_Concrete S_Args S_Lines S_Round S_Code S_Old
  P_Asm P_Round P_Round2.
Open Scope string_scope.
Open Scope list_scope.
Open Scope Z_scope.

(** the last start at or before [p] *)
Definition last_start {A} (starts : list (Z * A)) (p : Z) (d : A) : A :=
  fold_left (fun acc (e : Z * A) => if fst e <=? p then snd e else acc) starts d.

Fixpoint asc {A} (lo : Z) (l : list (Z * A)) : Prop :=
  match l with [] => True | (q, _) :: r => lo <= q /\ asc (q + 1) r end.
Lemma asc_le {A} (l : list (Z * A)) : forall lo lo', lo' <= lo -> asc lo l -> asc lo' l.
Proof. destruct l as [|[q z] r]; intros lo lo' L H; [exact Logic.I|]. cbn in *. destruct H. split; [lia|assumption]. Qed.
Lemma asc_above {A} (l : list (Z * A)) p : forall lo d, p < lo -> asc lo l -> last_start l p d = d.
Proof.
  induction l as [|[q z] r IH]; intros lo d L H; [reflexivity|]. cbn [asc] in H. destruct H as [H1 H2]. unfold last_start in *. cbn [fold_left fst snd].
  rewrite (proj2 (Z.leb_gt q p)) by lia. apply (IH (q + 1)); [lia|exact H2].
Qed.
Lemma dget_app {A} (l : list (Z * A)) m k : dget Z.eqb (l ++ m) k = match dget Z.eqb l k with Some z => Some z | None => dget Z.eqb m k end.
Proof. induction l as [|[q z] l IH]; [reflexivity|]. cbn. destruct (k =? q); [reflexivity|exact IH]. Qed.
Lemma asc_absent {A} (l : list (Z * A)) p : forall lo, p < lo -> asc lo l -> dget Z.eqb (rev l) p = None.
Proof.
  induction l as [|[q z] r IH]; intros lo L H; [reflexivity|]. cbn [asc] in H. destruct H as [H1 H2]. cbn [rev]. rewrite dget_app, (IH (q + 1)) by (lia || exact H2).
  cbn. now rewrite (proj2 (Z.eqb_neq p q)) by lia.
Qed.
Lemma last_step {A} (l : list (Z * A)) p : forall lo d, asc lo l ->
  last_start l p d = match dget Z.eqb (rev l) p with Some z => z | None => last_start l (p - 1) d end.
Proof.
  induction l as [|[q z] r IH]; intros lo d H; [reflexivity|]. cbn [asc] in H. destruct H as [H1 H2]. cbn [rev]. rewrite dget_app.
  change (last_start ((q, z) :: r)) with (fun p (d : A) => last_start r p (if q <=? p then z else d)). cbv beta.
  destruct (Z.lt_trichotomy q p) as [L|[L|L]].
  - rewrite !(proj2 (Z.leb_le _ _)) by lia. rewrite (IH _ _ H2). destruct (dget Z.eqb (rev r) p); [reflexivity|].
    cbn. now rewrite (proj2 (Z.eqb_neq p q)) by lia.
  - subst q. rewrite (asc_absent r p (p + 1)) by (lia || exact H2). cbn. rewrite Z.eqb_refl, Z.leb_refl.
    apply (asc_above r p (p + 1)); [lia|exact H2].
  - rewrite !(proj2 (Z.leb_gt _ _)) by lia. rewrite (IH _ _ H2). destruct (dget Z.eqb (rev r) p); [reflexivity|].
    cbn. now rewrite (proj2 (Z.eqb_neq p q)) by lia.
Qed.

(** ** 3.8, 3.9 *)
Section Pairs.
  Variable len : Z.
  Lemma pairs_ind (P : list Z -> Prop) : P [] -> (forall x, P [x]) -> (forall x y r, P r -> P (x :: y :: r)) -> forall l, P l.
  Proof.
    intros H0 H1 H2 l. assert (X : forall n l, (length l <= n)%nat -> P l); [|exact (X _ l (Nat.le_refl _))].
    clear l. induction n as [|n IH]; intros [|x [|y r]] L; cbn in L; try lia; auto. apply H2, IH. lia.
  Qed.

  Lemma starts_asc tab : (forall x, In x tab -> 0 <= x) -> forall addr line last, asc addr (findlinestarts len addr line last tab).
  Proof.
    induction tab as [|x|da dl r IH] using pairs_ind; intros B addr line last; cbn [findlinestarts];
      [destruct (match last with Some l => _ | None => _ end); cbn; repeat split; lia..|].
    assert (B' : forall x, In x r -> 0 <= x) by (intros; apply B; right; now right). pose proof (B da (or_introl eq_refl)) as D.
    destruct (Z.eqb_spec da 0) as [->|NZ]; [apply IH, B'|].
    assert (X : asc (addr + 1) (if len <=? addr + da then [] else findlinestarts len (addr + da) (line + signed_byte dl) (Some line) r)).
    { destruct (len <=? addr + da); [exact Logic.I|]. apply (asc_le _ (addr + da)); [lia|]. apply IH, B'. }
    destruct (match last with Some l => _ | None => _ end); cbn [app]; [cbn [asc]; split; [lia|exact X]|]. apply (asc_le _ (addr + 1)); [lia|exact X].
  Qed.

  Lemma starts_lines tab : (forall x, In x tab -> 0 <= x) -> forall addr line last p d, addr <= p < len ->
    match last with Some l => d = l | None => True end ->
    last_start (findlinestarts len addr line last tab) p d = addr2line addr line p tab.
  Proof.
    assert (E : forall addr line last p d, addr <= p -> match last with Some l => d = l | None => True end ->
      last_start (if match last with Some l => negb (l =? line) | None => true end then [(addr, line)] else []) p d = line).
    { intros addr line last p d L H. destruct last as [l|]; [subst d; destruct (Z.eqb_spec l line); cbn; [now subst|]|]; cbn; rewrite (proj2 (Z.leb_le _ _)) by lia; reflexivity. }
    induction tab as [|x|da dl r IH] using pairs_ind; intros B addr line last p d L H; cbn [findlinestarts addr2line]; [apply E; [lia|exact H]..|].
    assert (B' : forall x, In x r -> 0 <= x) by (intros; apply B; right; now right). pose proof (B da (or_introl eq_refl)) as D.
    destruct (Z.eqb_spec da 0) as [->|NZ].
    - rewrite (proj2 (Z.ltb_ge p (addr + 0))) by lia. rewrite (IH B' addr _ last p d L H). f_equal. lia.
    - unfold last_start. rewrite fold_left_app. fold (last_start (if match last with Some l => negb (l =? line) | None => true end then [(addr, line)] else []) p d).
      rewrite (E addr line last p d) by (lia || exact H). destruct (Z.leb_spec len (addr + da)) as [LE|LE].
      + cbn. now rewrite (proj2 (Z.ltb_lt p (addr + da))) by lia.
      + fold (last_start (findlinestarts len (addr + da) (line + signed_byte dl) (Some line) r) p line).
        destruct (Z.ltb_spec p (addr + da)) as [LP|LP].
        * apply (asc_above _ p (addr + da)); [lia|]. now apply starts_asc.
        * apply IH; [exact B'|lia|reflexivity].
  Qed.

  (** ** 3.10 *)
  Lemma lines_asc tab : (forall x, In x tab -> 0 <= x) -> forall addr line, asc addr (co_lines len addr line tab).
  Proof.
    induction tab as [|x|da dl r IH] using pairs_ind; intros B addr line; cbn [co_lines]; [exact Logic.I..|].
    assert (B' : forall x, In x r -> 0 <= x) by (intros; apply B; right; now right). pose proof (B da (or_introl eq_refl)) as D.
    destruct (Z.eqb_spec da 0) as [->|NZ]; [apply IH, B'|]. cbn [asc]. split; [lia|].
    destruct (len <=? addr + da); [exact Logic.I|]. apply (asc_le _ (addr + da)); [lia|]. apply IH, B'.
  Qed.
  Lemma lines_lines tab : (forall x, In x tab -> 0 <= x) -> forall addr line p d z, addr <= p < len ->
    linetable_line addr line p tab = Some z -> last_start (co_lines len addr line tab) p d = z.
  Proof.
    induction tab as [|x|da dl r IH] using pairs_ind; intros B addr line p d z L H; cbn [co_lines linetable_line] in *; [discriminate..|].
    assert (B' : forall x, In x r -> 0 <= x) by (intros; apply B; right; now right). pose proof (B da (or_introl eq_refl)) as D.
    rewrite (proj2 (Z.leb_le addr p)) in H by lia. cbn [andb] in H.
    destruct (Z.eqb_spec da 0) as [->|NZ].
    - rewrite (proj2 (Z.ltb_ge p (addr + 0))) in H by lia. rewrite Z.add_0_r in H. now apply IH.
    - unfold last_start. cbn [fold_left fst snd]. rewrite (proj2 (Z.leb_le addr p)) by lia.
      destruct (Z.ltb_spec p (addr + da)) as [LP|LP].
      + injection H as <-. destruct (len <=? addr + da); [reflexivity|]. apply (asc_above _ p (addr + da)); [lia|]. now apply lines_asc.
      + rewrite (proj2 (Z.leb_gt len (addr + da))) by lia. apply IH; [exact B'|lia|exact H].
  Qed.
End Pairs.

Lemma asc_map {A B} (f : A -> B) l : forall lo, asc lo l -> asc lo (map (fun p => (fst p, f (snd p))) l).
Proof. induction l as [|[q z] r IH]; intros lo H; [exact Logic.I|]. cbn in *. destruct H. auto. Qed.
Lemma last_map {A B} (f : A -> B) l p : forall d, last_start (map (fun p => (fst p, f (snd p))) l) p (f d) = f (last_start l p d).
Proof. induction l as [|[q z] r IH]; intros d; [reflexivity|]. unfold last_start in *. cbn [map fold_left fst snd]. destruct (q <=? p); apply IH. Qed.

Lemma starts_of v co : (forall x, In x (co_linetable co) -> 0 <= x < 256) -> exists starts, line_starts v co = rev starts /\ asc 0 starts
  /\ forall p z, 0 <= p < zlen (co_code co) -> line_at v co p = Some z -> last_start starts p (Some (co_firstlineno co)) = z.
Proof.
  intros B. assert (B' : forall x, In x (co_linetable co) -> 0 <= x) by (intros x I; specialize (B x I); lia).
  unfold line_starts, line_at. destruct (PY310 v).
  - eexists. split; [reflexivity|]. split; [now apply lines_asc|]. intros p z L H. now apply lines_lines.
  - eexists. split; [reflexivity|]. split; [apply asc_map; now apply starts_asc|]. intros p z L H. injection H as <-.
    rewrite last_map. f_equal. apply starts_lines; auto.
Qed.

Section Locs.
  Variables (v : pyver) (T : optable).
  Hypothesis wf : wf_optable v T = true.
  Hypothesis P11 : PY311 v = false.

  Lemma line_location ln lo : new_location v ln None None None = Ok lo -> lo = line_loc ln.
  Proof. unfold new_location. intros H. inv_ok. reflexivity. Qed.

  (** the location of every code unit *)
  Lemma from_bytes_locs starts d0 total (SA : asc 0 starts)
    (SAME : forall j, 0 <= j -> 2 * j < total -> last_start starts (2 * j + 1) d0 = last_start starts (2 * j) d0) fuel :
    forall pre rest k ext ln l, (length rest <= fuel)%nat -> zlen pre = 2 * k -> normal v T 0 ext rest -> zlen (pre ++ rest) = total ->
    ln = last_start starts (2 * k - 1) d0 ->
    from_bytes v T fuel (rev starts) (pre ++ rest) (units v (2 * k)) ln = Ok l ->
    l = map CI (instrs_of l)
    /\ forall j c, nth_error (instrs_of l) j = Some c ->
         c_loc c = Some (line_loc (last_start starts (2 * (k + Z.of_nat j)) d0)) /\ coherent_loc v (line_loc (last_start starts (2 * (k + Z.of_nat j)) d0))
         /\ nth_error rest (2 * j) = Some (c_op c).
  Proof.
    induction fuel as [|f IH]; intros pre rest k ext ln l LN LP N LT EL FB.
    { destruct rest; [|cbn in LN; lia]. cbn in FB. injection FB as <-. split; [reflexivity|]. intros [|j] c Q; discriminate Q. }
    cbn [from_bytes] in FB.
    assert (K0 : 0 <= k) by (unfold zlen in LP; lia).
    destruct rest as [|op [|b rest]].
    { rewrite app_nil_r in FB.
      assert (CMP : (units v (2 * k) <? zlen pre / (if OFFSET_AS_INSTRUCTION v then 2 else 1)) = false).
      { rewrite LP. unfold units. apply Z.ltb_ge. destruct (OFFSET_AS_INSTRUCTION v); [lia|]. rewrite Z.div_1_r. lia. }
      rewrite CMP in FB. injection FB as <-. split; [reflexivity|]. intros [|j] c Q; discriminate Q. }
    { destruct N. }
    cbn [normal] in N. change (0 <? 0) with false in N. cbv iota in N. destruct N as (name & O & RB & N).
    assert (ZR : 0 <= zlen rest) by (unfold zlen; lia).
    assert (CMP : (units v (2 * k) <? zlen (pre ++ op :: b :: rest) / (if OFFSET_AS_INSTRUCTION v then 2 else 1)) = true).
    { rewrite zlen_app, !zlen_cons, LP. unfold units. apply Z.ltb_lt. destruct (OFFSET_AS_INSTRUCTION v).
      - replace (2 * k + (1 + (1 + zlen rest))) with (zlen rest + (k + 1) * 2) by lia. rewrite Z.div_add by lia.
        replace (2 * k) with (k * 2) by lia. rewrite Z.div_mul by lia. assert (0 <= zlen rest / 2) by (apply Z.div_pos; lia). lia.
      - rewrite Z.div_1_r. lia. }
    rewrite CMP in FB. clear CMP.
    assert (IX : (if OFFSET_AS_INSTRUCTION v then 2 * units v (2 * k) else units v (2 * k)) = 2 * k).
    { unfold units. destruct (OFFSET_AS_INSTRUCTION v); [|reflexivity]. replace (2 * k) with (k * 2) by lia. rewrite Z.div_mul; lia. }
    rewrite IX in FB.
    assert (NL : match dget Z.eqb (rev starts) (2 * k) with Some x => x | None => ln end = last_start starts (2 * k) d0).
    { rewrite (last_step starts (2 * k) 0 d0 SA), EL. reflexivity. }
    rewrite NL in FB. clear NL.
    apply bind_ok in FB. destruct FB as (c & DI & FB). apply bind_ok in FB. destruct FB as (r & FR & FB).
    injection FB as <-.
    unfold disassemble in DI. rewrite IX, <- LP in DI. rewrite (py_index_app v T wf pre op (b :: rest)) in DI by reflexivity. cbn [bind] in DI.
    assert (PI : py_index (pre ++ op :: b :: rest) (zlen pre + 1) = Ok b).
    { replace (pre ++ op :: b :: rest) with ((pre ++ [op]) ++ b :: rest) by now rewrite <- app_assoc.
      apply (py_index_app v T wf). rewrite zlen_app. reflexivity. }
    rewrite PI in DI. rewrite (proj1 (opmap_opname v T wf name op) O) in DI. cbn [bind of_option] in DI.
    assert (FACT : exists arg lo, new_location v (last_start starts (2 * k) d0) None None None = Ok lo /\ new_cinstr v T name arg (Some lo) None = Ok c
      /\ arg = (if opcode_has_argument v T op then OInt b else OUnset)).
    { destruct (opcode_has_argument v T op); cbn [bind] in DI; apply bind_ok in DI; destruct DI as (lo & NLO & NC); rewrite LP in NLO; eauto. }
    destruct FACT as (arg & lo & NLO & NC & EA). pose proof (line_location _ _ NLO) as ELO. subst lo.
    destruct (new_cinstr_ok _ _ _ _ _ _ _ NC) as (V & N1 & A & LOC & X).
    assert (OC : c_op c = op) by (assert (Q := vc_op _ _ _ V); rewrite N1 in Q; congruence).
    assert (SZ : c_size c = 2).
    { assert (UI : unit_instr v T c). { split; [exact V|]. split; [exact X|]. rewrite A. subst arg. destruct (opcode_has_argument v T op); [exact RB|exact Logic.I]. }
      destruct (unit_bytes v T c UI) as [_ Q]. exact Q. }
    rewrite (no_caches_before v T wf _ _ P11) in N.
    assert (NX : exists ext', normal v T 0 ext' rest) by (destruct (opcode_has_argument v T op); [eauto|destruct N as (_ & _ & N); eauto]).
    destruct NX as (ext' & NX).
    destruct (IH (pre ++ [op; b]) rest (k + 1) ext' (last_start starts (2 * k) d0) r) as [I1 I2].
    - cbn in LN. lia.
    - rewrite zlen_app. change (zlen [op; b]) with 2. lia.
    - exact NX.
    - rewrite <- app_assoc. exact LT.
    - replace (2 * (k + 1) - 1) with (2 * k + 1) by lia. symmetry. apply SAME; [lia|]. rewrite zlen_app, !zlen_cons in LT. lia.
    - rewrite <- app_assoc. cbn [app]. replace (units v (2 * (k + 1))) with (units v (2 * k) + units v (c_size c)); [exact FR|].
      rewrite SZ. unfold units. destruct (OFFSET_AS_INSTRUCTION v); [|lia]. change (2 / 2) with 1.
      replace (2 * (k + 1)) with ((k + 1) * 2) by lia. replace (2 * k) with (k * 2) by lia. rewrite !Z.div_mul by lia. lia.
    - cbn [instrs_of flat_map app]. change (flat_map _ r) with (instrs_of r). split; [cbn [map]; now rewrite <- I1|].
      intros [|j] c' Q; cbn [nth_error] in Q.
      + injection Q as <-. rewrite Z.add_0_r. split; [exact LOC|]. split; [exact NLO|]. cbn. now rewrite OC.
      + destruct (I2 j c' Q) as (J1 & J2 & J3). replace (k + 1 + Z.of_nat j) with (k + Z.of_nat (S j)) in * by lia. split; [exact J1|]. split; [exact J2|].
        replace (2 * S j)%nat with (S (S (2 * j))) by lia. exact J3.
  Qed.
End Locs.
