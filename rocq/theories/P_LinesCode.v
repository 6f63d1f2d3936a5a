(** From the line tables to code objects. *)
From Coq Require Import ZifyBool.
From Verif Require Import PyBase OpTable CPy M_Instr M_Tables M_Concrete S_Lines S_Args
  P_Base P_Lines P_Locs P_Except P_Instr2.
Open Scope list_scope.
Open Scope Z_scope.

Lemma assemble_loop_even T fuel : forall arg b, zlen b mod 2 = 0 -> 2 <= zlen b ->
  zlen (assemble_loop T fuel arg b) mod 2 = 0 /\ 2 <= zlen (assemble_loop T fuel arg b).
Proof.
  induction fuel as [|f IH]; intros arg b E L; cbn [assemble_loop]; [split; assumption|].
  destruct (_ <? arg); [|split; assumption]. cbv zeta.
  apply IH; rewrite zlen_app; change (zlen [_; _]) with 2; zdm.
Qed.

Lemma pad_loop_even T n : forall size b, zlen b mod 2 = 0 -> 2 <= zlen b ->
  zlen (pad_loop T n size b) mod 2 = 0 /\ 2 <= zlen (pad_loop T n size b).
Proof.
  induction n as [|f IH]; intros arg b E L; cbn [pad_loop]; [split; assumption|].
  destruct (_ <? arg); [|split; assumption].
  apply IH; rewrite zlen_app; change (zlen [_; _]) with 2; zdm.
Qed.

Lemma assemble_even T c : zlen (assemble T c) mod 2 = 0 /\ 2 <= zlen (assemble T c).
Proof.
  unfold assemble. destruct (c_arg c) as [a|]; [|split; [reflexivity|cbn; lia]].
  assert (A := assemble_loop_even T (bit_fuel a) a [c_op c; Z.land a 255] eq_refl ltac:(cbn; lia)).
  destruct (c_ext c) as [n|]; [|exact A]. destruct (n =? 0); [exact A|].
  apply pad_loop_even; apply A.
Qed.

Lemma code_of_app T a b : code_of T (a ++ b) = code_of T a ++ code_of T b.
Proof. apply flat_map_app. Qed.

Lemma code_of_even T l : zlen (code_of T l) mod 2 = 0.
Proof.
  induction l as [|[c|z] l IH]; cbn [code_of flat_map]; [reflexivity| |exact IH].
  fold (code_of T l). rewrite zlen_app. pose proof (assemble_even T c). zdm.
Qed.

Lemma current_line_app first a b : current_line first (a ++ b) = current_line (current_line first a) b.
Proof. apply fold_left_app. Qed.

Definition lent_of (T : optable) (off : Z) (cur : Z) (c : cinstr) : lent :=
  mkLent off (c_size c) (match line_shown cur c with Some z => z | None => cur end) (c_loc c).

(** the entries, by recursion on the elements *)
Fixpoint lents (T : optable) (off cur : Z) (items : list citem) : list lent :=
  match items with
  | [] => []
  | CSet z :: r => lents T off z r
  | CI c :: r =>
      let e := lent_of T off cur c in e :: lents T (off + zlen (assemble T c)) (le_line e) r
  end.

Lemma assemble_code_spec v T items : forall off cur, Forall (sized T) items ->
  assemble_code_loop v T off (normalize_lineno cur items)
  = (code_of T items, lents T (if OFFSET_AS_INSTRUCTION v then off * 2 else off) cur items).
Proof.
  induction items as [|[c|z] items IH]; intros off cur F; inversion_clear F as [|? ? F1 F2];
    cbn [normalize_lineno assemble_code_loop lents code_of flat_map]; [reflexivity| |].
  2:{ cbn [sized] in F1. rewrite IH by assumption. reflexivity. }
  cbv zeta. fold (code_of T items).
  set (ln := match loc_lineno (c_loc c) with LLine z => z | _ => cur end).
  assert (LN : le_line (lent_of T (if OFFSET_AS_INSTRUCTION v then off * 2 else off) cur c) = ln).
  { unfold ln, lent_of, line_shown. cbn [le_line]. unfold loc_lineno, linev_of.
    destruct (c_loc c) as [l|]; [destruct (l_lineno l)|]; reflexivity. }
  rewrite LN. cbn [assemble_code_loop].
  rewrite IH by assumption. cbv beta iota. f_equal.
  unfold lent_of. f_equal.
  - f_equal. unfold lent_of in LN. cbn [le_line] in LN. symmetry. exact LN.
  - f_equal. pose proof (assemble_even T c). cbn [sized] in F1. unfold units.
    destruct (OFFSET_AS_INSTRUCTION v); [|lia]. rewrite F1. zdm.
Qed.

Lemma lents_laid_out T items : forall off cur, Forall (sized T) items ->
  laid_out off (lents T off cur items).
Proof.
  induction items as [|[c|z] items IH]; intros off cur F; inversion_clear F as [|? ? F1 F2];
    cbn [lents]; [exact I| |apply IH; assumption].
  cbv zeta. cbn [laid_out]. cbn [lent_of le_off le_size]. cbn [sized] in F1.
  pose proof (assemble_even T c). split; [reflexivity|]. split; [lia|].
  rewrite F1. apply IH. assumption.
Qed.

Lemma lents_at T pre c post : forall off cur,
  exists a b, lents T off cur (pre ++ CI c :: post)
  = a ++ lent_of T (off + zlen (code_of T pre)) (current_line cur pre) c :: b.
Proof.
  induction pre as [|[d|z] pre IH]; intros off cur; cbn [app lents].
  - cbv zeta. exists []. cbn [app code_of flat_map current_line fold_left].
    rewrite zlen_nil, Z.add_0_r. eauto.
  - cbv zeta. destruct (IH (off + zlen (assemble T d)) (le_line (lent_of T off cur d))) as (a & b & ->).
    exists (lent_of T off cur d :: a), b. cbn [app].
    assert (Z1 : off + zlen (assemble T d) + zlen (code_of T pre) = off + zlen (code_of T (CI d :: pre))).
    { cbn [code_of flat_map]. fold (code_of T pre). rewrite zlen_app. lia. }
    assert (Z2 : current_line (le_line (lent_of T off cur d)) pre = current_line cur (CI d :: pre)).
    { unfold current_line. cbn [fold_left]. f_equal. unfold lent_of, line_shown. cbn [le_line].
      destruct (c_loc d) as [l|]; [destruct (l_lineno l)|]; reflexivity. }
    rewrite Z1, Z2. reflexivity.
  - destruct (IH off z) as (a & b & ->). exists a, b. reflexivity.
Qed.

Lemma lent_line T off cur c : le_line (lent_of T off cur c) = current_line cur [CI c].
Proof.
  unfold lent_of, line_shown. cbn. destruct (c_loc c) as [l|]; [destruct (l_lineno l)|]; reflexivity.
Qed.

Lemma lents_eff T items : forall off cur, Forall eff_ok (lents T off cur items).
Proof.
  induction items as [|[c|z] items IH]; intros off cur; cbn [lents]; [constructor| |apply IH].
  cbv zeta. constructor; [|apply IH]. intros z. unfold eff, lent_of, line_shown. cbn [le_loc le_line].
  destruct (c_loc c) as [l|]; [intros ->; reflexivity|congruence].
Qed.

Lemma lents_none T items : forall off cur p run, no_line_runs_ok cur p run items ->
  none_ok p run (lents T off cur items).
Proof.
  induction items as [|[c|z] items IH]; intros off cur p run H; cbn [lents no_line_runs_ok] in *;
    [exact H| |apply IH; exact H].
  cbv zeta. cbn [none_ok].
  assert (EF : eff (lent_of T off cur c) = line_shown cur c).
  { unfold eff, lent_of, line_shown. cbn [le_loc le_line]. destruct (c_loc c); reflexivity. }
  rewrite EF. unfold lent_of. cbn [le_line le_size].
  destruct (line_shown cur c) as [z|].
  - destruct H as (H1 & H2). split; [exact H1|]. apply IH, H2.
  - destruct run as [n|]; [apply IH, H|]. destruct H as (H1 & H2). split; [exact H1|]. apply IH, H2.
Qed.

Lemma no_line_free items : forall cur p, Forall (fun it => ~ no_line it) items ->
  no_line_runs_ok cur p None items.
Proof.
  induction items as [|[c|z] items IH]; intros cur p F; inversion_clear F as [|? ? F1 F2];
    cbn [no_line_runs_ok]; [exact I| |apply IH; assumption].
  cbn [no_line] in F1. unfold line_shown. destruct (c_loc c) as [l|].
  - destruct (l_lineno l); [|tauto]. split; [exact I|apply IH; assumption].
  - split; [exact I|apply IH; assumption].
Qed.

Lemma raw_code v T cb : Forall (sized T) (cb_items cb) ->
  assemble_code v T cb
  = (code_of T (cb_items cb), lents T 0 (m_first_lineno (cb_meta cb)) (cb_items cb)).
Proof.
  intros F. unfold assemble_code. rewrite assemble_code_spec by assumption.
  destruct (OFFSET_AS_INSTRUCTION v); reflexivity.
Qed.

(** C11 *)
Lemma lnotab_code v T cb st : PY310 v = false -> Forall (sized T) (cb_items cb) ->
  exists co, to_code_raw v T cb st = Ok co
  /\ co_code co = code_of T (cb_items cb) /\ co_firstlineno co = m_first_lineno (cb_meta cb)
  /\ forall pre c post q, cb_items cb = pre ++ CI c :: post ->
     zlen (code_of T pre) <= q < zlen (code_of T pre) + zlen (assemble T c) ->
     addr2line 0 (co_firstlineno co) q (co_linetable co)
     = current_line (m_first_lineno (cb_meta cb)) (pre ++ [CI c]).
Proof.
  intros V F.
  assert (V11 : PY311 v = false) by (unfold PY310, PY311 in *; lia).
  unfold to_code_raw. rewrite raw_code by assumption. unfold assemble_lines. rewrite V, V11.
  set (first := m_first_lineno (cb_meta cb)).
  pose proof (lents_laid_out T (cb_items cb) 0 first F) as L.
  destruct (lnotab_loop_total _ 0 first 0 L) as (bs & E); [lia|]. unfold assemble_lnotab. rewrite E.
  cbn [bind]. eexists. split; [reflexivity|]. cbn [co_code co_firstlineno co_linetable].
  split; [reflexivity|]. split; [reflexivity|].
  intros pre c post q X B. destruct (lents_at T pre c post 0 first) as (a & b & Y).
  assert (S : c_size c = zlen (assemble T c)).
  { rewrite X in F. apply Forall_app in F as [_ F]. inversion_clear F. assumption. }
  rewrite X, Y in E, L.
  rewrite (lnotab_loop_at q a _ b 0 first 0 bs L) by
    (assumption || lia || (cbn [lent_of le_off le_size]; lia)).
  rewrite lent_line, current_line_app. reflexivity.
Qed.

(** C12 *)
Lemma linetable_code T cb st : Forall (sized T) (cb_items cb) ->
  no_line_runs_ok (m_first_lineno (cb_meta cb)) (m_first_lineno (cb_meta cb)) None (cb_items cb) ->
  exists co, to_code_raw V310 T cb st = Ok co
  /\ co_code co = code_of T (cb_items cb) /\ co_firstlineno co = m_first_lineno (cb_meta cb)
  /\ forall pre c post q, cb_items cb = pre ++ CI c :: post ->
     zlen (code_of T pre) <= q < zlen (code_of T pre) + zlen (assemble T c) ->
     linetable_line 0 (co_firstlineno co) q (co_linetable co)
     = Some (line_shown (current_line (m_first_lineno (cb_meta cb)) pre) c).
Proof.
  intros F N.
  unfold to_code_raw. rewrite raw_code by assumption. unfold assemble_lines.
  change (PY311 V310) with false. change (PY310 V310) with true. cbv iota.
  set (first := m_first_lineno (cb_meta cb)) in *.
  pose proof (lents_laid_out T (cb_items cb) 0 first F) as L.
  destruct (assemble_linestable_total first _ L) as (bs & E). rewrite E.
  cbn [bind]. eexists. split; [reflexivity|]. cbn [co_code co_firstlineno co_linetable].
  split; [reflexivity|]. split; [reflexivity|].
  intros pre c post q X B. destruct (lents_at T pre c post 0 first) as (a & b & Y).
  assert (S : c_size c = zlen (assemble T c)).
  { rewrite X in F. apply Forall_app in F as [_ F]. inversion_clear F. assumption. }
  assert (R := fun e => assemble_linestable_reads first _ bs q a e b E L (lents_eff T _ 0 first)
      (lents_none T _ 0 first first None N)).
  rewrite X in R. rewrite (R _ Y) by (cbn [lent_of le_off le_size]; lia).
  f_equal. unfold eff, lent_of, line_shown. cbn [le_loc le_line].
  destruct (c_loc c); reflexivity.
Qed.

Lemma linetable_code_total T cb st : Forall (sized T) (cb_items cb) ->
  exists co, to_code_raw V310 T cb st = Ok co.
Proof.
  intros F. unfold to_code_raw. rewrite raw_code by assumption. unfold assemble_lines.
  change (PY311 V310) with false. change (PY310 V310) with true. cbv iota.
  set (first := m_first_lineno (cb_meta cb)) in *.
  pose proof (lents_laid_out T (cb_items cb) 0 first F) as L.
  destruct (assemble_linestable_total first _ L) as (bs & E). rewrite E. cbn. eauto.
Qed.

(** C13 *)
Lemma coherent_loc_ok v l : coherent_loc v l -> ~ spans_without_columns l -> loc_ok l.
Proof.
  intros C S. unfold coherent_loc in C.
  assert (H : coherent v (l_lineno l) (l_end_lineno l) (l_col l) (l_end_col l)).
  { apply new_location_iff. eauto. }
  destruct H as (H1 & H2 & H3 & H4 & H5). unfold loc_ok, spans_without_columns in *.
  destruct l as [ln el c ec]; cbn in *. destruct ln as [ln|]; [|exact I].
  destruct c as [c|].
  - destruct (H3 c eq_refl) as (P & ec' & ->). split; [assumption|].
    destruct (H5 c ec' eq_refl eq_refl) as (l1 & l2 & A & -> & O). injection A as <-.
    destruct (H2 l2 eq_refl) as (_ & y & Y & LE). injection Y as <-.
    destruct (H4 ec' eq_refl) as (Q & _).
    exists l2, ec'. repeat split; try assumption. intros ->. auto.
  - destruct el as [el|]; [|exact I].
    destruct (Z.eq_dec el ln) as [|NE]; [assumption|]. exfalso. apply S. split; [reflexivity|].
    exists el. split; [reflexivity|]. congruence.
Qed.

Lemma pos_recorded l : pos_of l = recorded l.
Proof. unfold pos_of, recorded. destruct (l_lineno l); [destruct (l_col l)|]; reflexivity. Qed.

(** the filled locations, by recursion on the elements *)
Fixpoint filled (prev : option loc) (cur : Z) (items : list citem) : list (cinstr * loc) :=
  match items with
  | [] => []
  | CSet z :: r => filled prev z r
  | CI c :: r =>
      let l := match c_loc c, prev with
               | Some l, _ => l
               | None, Some p => p
               | None, None => line_loc (Some cur)
               end in
      (c, l) :: filled (Some l) (match line_shown cur c with Some z => z | None => cur end) r
  end.

Lemma fill_filled T items : forall off cur prev,
  fill prev (lents T off cur items)
  = map (fun p => (c_size (fst p), snd p)) (filled (Some prev) cur items).
Proof.
  induction items as [|[c|z] items IH]; intros off cur prev; cbn [lents fill filled map];
    [reflexivity| |apply IH].
  cbv zeta. cbn [fill]. cbv zeta. cbn [lent_of le_size le_loc le_line map fst snd].
  rewrite IH. reflexivity.
Qed.

Lemma fill_filled0 T items : forall off cur,
  match lents T off cur items with [] => [] | (e :: _) as l => fill (line_loc (Some (le_line e))) l end
  = map (fun p => (c_size (fst p), snd p)) (filled None cur items).
Proof.
  induction items as [|[c|z] items IH]; intros off cur; cbn [lents filled map];
    [reflexivity| |apply IH].
  cbv zeta. cbn [fill]. cbv zeta. cbn [lent_of le_size le_loc le_line map fst snd].
  rewrite fill_filled. unfold line_shown. destruct (c_loc c) as [l|]; [|reflexivity].
  reflexivity.
Qed.

Definition loc_item_ok (v : pyver) (it : citem) : Prop :=
  match it with
  | CI c => forall l, c_loc c = Some l -> coherent_loc v l /\ ~ spans_without_columns l
  | CSet _ => True
  end.

Lemma location_code v T cb st : PY311 v = true -> Forall (sized T) (cb_items cb) ->
  Forall (loc_item_ok v) (cb_items cb) -> Forall entry_ok (cb_ex cb) ->
  exists co, to_code_raw v T cb st = Ok co
  /\ co_code co = code_of T (cb_items cb) /\ co_firstlineno co = m_first_lineno (cb_meta cb)
  /\ co_positions (co_firstlineno co) (co_linetable co)
     = flat_map (fun p => repeat (recorded (snd p)) (Z.to_nat (zlen (assemble T (fst p)) / 2)))
         (filled None (m_first_lineno (cb_meta cb)) (cb_items cb)).
Proof.
  intros V F G X. unfold to_code_raw. rewrite raw_code by assumption. unfold assemble_lines.
  rewrite V. set (first := m_first_lineno (cb_meta cb)) in *.
  assert (K : Forall entry_ok11 (lents T 0 first (cb_items cb))).
  { clear X st. generalize 0, first. revert F G. generalize (cb_items cb).
    induction l as [|[c|z] items IH]; intros F G off cur; cbn [lents]; [constructor| |];
      inversion_clear F as [|? ? F1 F2]; inversion_clear G as [|? ? G1 G2]; cbv zeta;
      [|apply IH; assumption].
    constructor; [|apply IH; assumption]. unfold entry_ok11, lent_of. cbn [le_size le_loc].
    cbn [sized] in F1. rewrite F1. pose proof (assemble_even T c). repeat split; try lia.
    cbn [loc_item_ok] in G1. destruct (c_loc c) as [l|]; [|exact I].
    destruct (G1 l eq_refl). eapply coherent_loc_ok; eassumption. }
  destruct (assemble_locations_reads first _ K) as (bs & -> & R). cbn [bind].
  destruct (proj2 (assemble_table_total (cb_ex cb)) X) as (eb & ->). cbn [bind].
  eexists. split; [reflexivity|]. cbn [co_code co_firstlineno co_linetable].
  split; [reflexivity|]. split; [reflexivity|]. fold first. rewrite R.
  transitivity (flat_map (fun p : Z * loc => repeat (pos_of (snd p)) (Z.to_nat (fst p / 2)))
    match lents T 0 first (cb_items cb) with
    | [] => [] | (e :: _) as l => fill (line_loc (Some (le_line e))) l end).
  { destruct (lents T 0 first (cb_items cb)); reflexivity. }
  rewrite fill_filled0. rewrite flat_map_concat_map, map_map, <- flat_map_concat_map.
  cbn [fst snd].
  assert (W : forall prev cur, Forall (fun p => sized T (CI (fst p))) (filled prev cur (cb_items cb))).
  { clear - F. induction F as [|[c|z] items F1 F2 IH]; intros prev cur; cbn [filled];
      [constructor| |apply IH]. constructor; [exact F1|apply IH]. }
  specialize (W None first). revert W. generalize (filled None first (cb_items cb)).
  induction l as [|[c l] r IH]; intros W; cbn [flat_map]; [reflexivity|].
  inversion_clear W as [|? ? W1 W2]. cbn [sized fst] in W1.
  rewrite IH by assumption. cbn [fst snd]. rewrite pos_recorded, W1. reflexivity.
Qed.

Lemma filled_located v items : forall prev cur, Forall (located v) items ->
  map snd (filled prev cur items) = flat_map (fun it => match it with CI c =>
     match c_loc c with Some l => [l] | None => [] end | CSet _ => [] end) items
  /\ map fst (filled prev cur items) = instrs_of items.
Proof.
  induction items as [|[c|z] items IH]; intros prev cur F; inversion_clear F as [|? ? F1 F2];
    cbn [filled map flat_map]; [split; reflexivity| |apply IH; assumption].
  destruct F1 as (l & E & _). rewrite E. cbn [map fst snd].
  destruct (IH (Some l) (match line_shown cur c with Some z => z | None => cur end) F2) as (A & B).
  rewrite A, B. split; reflexivity.
Qed.

(** failure *)
Lemma push_bad size line l r : push_locations size line l = Ok r ->
  l_lineno l <> None -> l_col l = None -> l_end_lineno l = None \/ l_end_lineno l = l_lineno l.
Proof.
  unfold push_locations. intros H.
  destruct (Z.to_nat _) as [|n]; [discriminate|]. cbn [push_locations_loop] in H.
  apply bind_ok in H as (b & E & _). eapply pack_location_bad, E.
Qed.

Lemma locations_loop_good l : forall size line old bs,
  locations_loop size line old l = Ok bs ->
  forall x, x = old \/ (exists e, In e l /\ le_loc e = Some x) ->
  l_lineno x <> None -> l_col x = None -> l_end_lineno x = None \/ l_end_lineno x = l_lineno x.
Proof.
  induction l as [|e l IH]; intros size line old bs H x X; cbn [locations_loop] in H.
  - apply bind_ok in H as ([b z] & E & _). destruct X as [->|(e & [] & _)]. eapply push_bad, E.
  - cbv zeta in H. destruct (_ && _) eqn:J.
    + eapply IH; [exact H|]. destruct X as [->|(e' & [<-|I'] & Y)]; [now left| |right; eauto].
      left. apply andb_true_iff in J as [_ J]. apply loc_eqb_eq in J. rewrite Y in J. congruence.
    + apply bind_ok in H as ([b z] & E & H). apply bind_ok in H as (r & E2 & _).
      destruct X as [->|(e' & [<-|I'] & Y)].
      * eapply push_bad, E.
      * eapply IH; [exact E2|]. left. now rewrite Y.
      * eapply IH; [exact E2|]. right. eauto.
Qed.

Lemma assemble_locations_good first l bs e x :
  assemble_locations first l = Ok bs -> In e l -> le_loc e = Some x ->
  l_lineno x <> None -> ~ spans_without_columns x.
Proof.
  intros H I' X NN (C & el & E & NE).
  assert (G : l_end_lineno x = None \/ l_end_lineno x = l_lineno x).
  { destruct l as [|e1 l]; [contradiction|]. cbn [assemble_locations] in H. cbv zeta in H.
    eapply locations_loop_good; [exact H| |assumption|assumption].
    destruct I' as [<-|I']; [left; now rewrite X|right; eauto]. }
  rewrite E in G. destruct G as [G|G]; congruence.
Qed.

Lemma locations_code_bad v T cb st co pre c post l : PY311 v = true ->
  to_code_raw v T cb st = Ok co -> cb_items cb = pre ++ CI c :: post -> c_loc c = Some l ->
  coherent_loc v l -> ~ spans_without_columns l.
Proof.
  intros V H X L C S.
  assert (NN : l_lineno l <> None).
  { assert (Q : coherent v (l_lineno l) (l_end_lineno l) (l_col l) (l_end_col l)).
    { apply new_location_iff. eauto. }
    destruct S as (_ & el & E & _). destruct Q as (_ & Q & _).
    destruct (Q el E) as (_ & y & Y & _). congruence. }
  unfold to_code_raw in H. destruct (assemble_code v T cb) as [code ls] eqn:A.
  apply bind_ok in H as (b & E & _). unfold assemble_lines in E. rewrite V in E.
  assert (I' : exists e, In e ls /\ le_loc e = Some l).
  { unfold assemble_code in A. rewrite X in A. revert A. generalize (m_first_lineno (cb_meta cb)), 0, code, ls.
    clear - L. induction pre as [|[d|z] pre IH]; intros cur off code ls A;
      cbn [app normalize_lineno assemble_code_loop] in A.
    - destruct (assemble_code_loop _ _ _ _) as [k ks]. injection A as _ <-. eexists. split; [now left|exact L].
    - destruct (assemble_code_loop _ _ _ _) as [k ks] eqn:Q. injection A as _ <-.
      apply IH in Q as (e & I' & Y). exists e. split; [now right|assumption].
    - eapply IH, A. }
  destruct I' as (e & I' & Y). eapply assemble_locations_good; eauto.
Qed.

Lemma filled_lines_aux T items : forall prev cur,
  Forall (fun it => ~ no_line it /\ exists c, it = CI c) items ->
  match prev with Some p => l_lineno p = Some cur | None => True end ->
  map (fun p : position => fst (fst (fst p)))
    (flat_map (fun p => repeat (recorded (snd p)) (Z.to_nat (zlen (assemble T (fst p)) / 2)))
       (filled prev cur items))
  = flat_map (fun n => match nth_error items n with
      | Some (CI c) => repeat (Some (current_line cur (firstn (S n) items)))
                         (Z.to_nat (zlen (assemble T c) / 2))
      | _ => [] end) (seq 0 (length items)).
Proof.
  induction items as [|[c|z] items IH]; intros prev cur N P; cbn [filled flat_map map length seq];
    [reflexivity| |].
  2:{ inversion_clear N as [|? ? (_ & c & X) _]. discriminate. }
  inversion_clear N as [|? ? (N1 & _) N2]. cbv zeta. cbn [no_line] in N1.
  rewrite map_app.
  set (l := match c_loc c with Some l => l | None => match prev with Some p => p | None => line_loc (Some cur) end end).
  set (cur' := match line_shown cur c with Some z => z | None => cur end).
  assert (L : l_lineno l = Some cur').
  { unfold l, cur', line_shown. destruct (c_loc c) as [lo|].
    - destruct (l_lineno lo) eqn:E; [reflexivity|]. exfalso. congruence.
    - destruct prev; [assumption|reflexivity]. }
  rewrite IH with (cur := cur') by (assumption || exact L).
  rewrite <- seq_shift. cbn [flat_map fst snd]. f_equal.
  - cbn [nth_error firstn]. rewrite map_repeat. f_equal. unfold recorded. rewrite L.
    assert (CL : current_line cur [CI c] = cur').
    { unfold current_line, cur', line_shown. cbn [fold_left].
      destruct (c_loc c) as [lo|]; [destruct (l_lineno lo)|]; reflexivity. }
    rewrite CL. destruct (l_col l); reflexivity.
  - rewrite !flat_map_concat_map, map_map, <- !flat_map_concat_map. apply flat_map_ext. intros n.
    cbn [nth_error]. destruct (nth_error items n) as [[d|z]|]; [|reflexivity|reflexivity].
    f_equal. f_equal. cbn [firstn]. unfold current_line. cbn [fold_left]. f_equal.
    unfold cur', line_shown. destruct (c_loc c) as [lo|]; [destruct (l_lineno lo)|]; reflexivity.
Qed.

Lemma filled_lines T items cur :
  Forall (fun it => ~ no_line it /\ exists c, it = CI c) items ->
  map (fun p : position => fst (fst (fst p)))
    (flat_map (fun p => repeat (recorded (snd p)) (Z.to_nat (zlen (assemble T (fst p)) / 2)))
       (filled None cur items))
  = flat_map (fun n => match nth_error items n with
      | Some (CI c) => repeat (Some (current_line cur (firstn (S n) items)))
                         (Z.to_nat (zlen (assemble T c) / 2))
      | _ => [] end) (seq 0 (length items)).
Proof. intros N. apply filled_lines_aux; [assumption|exact I]. Qed.
