(** Proofs about format_bytecode, continued: the three kinds of containers (C63). *)
From Verif Require Import PyBase PyText OpTable M_Instr M_Tables M_Concrete M_Convert M_Bytecode M_Cfg M_Format
  S_Flags S_Format P_Base P_Conv2 P_Bytecode P_Format.
Open Scope string_scope.
Open Scope list_scope.
Open Scope Z_scope.

(** ** Bytecode *)
Section Bytecode.
  Context (rp : pyobj -> string) (lineno : bool) (first : Z) (prog : list bitem).
  Let labels := format_labels 0 [] prog.
  Let no_block : nat -> string -> Prop := fun _ _ => False.

  Lemma bytecode_labels n : match dget Nat.eqb labels n with Some s => label_name prog n s | None => ~ In (BLabel n) prog end.
  Proof.
    pose proof (labels_get prog prog [] [] n eq_refl) as H. cbn in H. unfold labels.
    destruct (dget Nat.eqb (format_labels 0 [] prog) n); [apply H; discriminate|]. destruct H; [discriminate|auto].
  Qed.
  Lemma bytecode_labels' n : match dget Nat.eqb labels n with Some s => label_name prog n s | None => forall s, ~ label_name prog n s end.
  Proof.
    pose proof (bytecode_labels n) as H. destruct (dget Nat.eqb labels n); [exact H|]. intros s (k & A & _). apply nth_error_In in A. auto.
  Qed.

  Lemma bytecode_loop_ok : forall rest before F, prog = before ++ rest -> no_set_lineno rest ->
    (lineno = true -> located rest) -> inv lineno first before F ->
    exists lines, format_bytecode_loop rp lineno labels F (length before) rest
        = Ok (map (fun s => (s ++ nl)%string) (layout (length before) rest lines))
      /\ all_show rp lineno first (label_name prog) no_block before (length before) rest lines.
  Proof.
    set (L := mkNames (dget Nat.eqb labels) (fun _ => None)).
    assert (HL : forall n, match n_label L n with Some s => label_name prog n s | None => forall s, ~ label_name prog n s end) by exact bytecode_labels'.
    assert (HB : forall n, match n_block L n with Some s => no_block n s | None => forall s, ~ no_block n s end) by (intros n s X; exact X).
    induction rest as [|it rest IH]; intros before F E NS LO I.
    - exists []. split; [reflexivity|exact Logic.I].
    - assert (E2 : prog = (before ++ [it]) ++ rest) by (now rewrite <- app_assoc).
      assert (LE : length (before ++ [it]) = S (length before)) by (rewrite app_length; cbn; lia).
      assert (NS2 : no_set_lineno rest) by (intros z X; apply (NS z); now right).
      assert (LO2 : lineno = true -> located rest) by (intros U i X; apply (LO U i); now right).
      assert (Q : forall F' line, inv lineno first (before ++ [it]) F' ->
        shows rp (label_name prog) no_block lineno first before (length before) it line ->
        exists lines, (ws' <- format_bytecode_loop rp lineno labels F' (S (length before)) rest ;;
                       Ok (match it with BLabel _ => if Nat.eqb (length before) 0 then [(line ++ nl)%string] else [nl; (line ++ nl)%string] | _ => [(line ++ nl)%string] end ++ ws'))
             = Ok (map (fun s => (s ++ nl)%string) (layout (length before) (it :: rest) lines))
          /\ all_show rp lineno first (label_name prog) no_block before (length before) (it :: rest) lines).
      { intros F' line I' SH. destruct (IH (before ++ [it]) F' E2 NS2 LO2 I') as (lines & A & B). rewrite LE in A, B.
        exists (line :: lines). rewrite A. cbn [bind]. split.
        - f_equal. cbn [layout]. rewrite map_app. f_equal. destruct it; try reflexivity. destruct (length before); reflexivity.
        - split; [exact SH|exact B]. }
      destruct it as [i|n|z|id t la d|id]; cbn [format_bytecode_loop]; fold L.
      + destruct (step_instr rp lineno first L (label_name prog) no_block HL HB before F (length before) i I) as (F' & line & S1 & S2 & S3).
        { intros U. apply (LO U). now left. }
        cbn zeta in S1. destruct (format_line lineno (set_cur F _) _ _) as [F1 l1]. injection S1 as -> ->. cbn [bind]. exact (Q _ _ S3 S2).
      + pose proof (HL n) as H. cbn in H. destruct (dget Nat.eqb labels n) as [s|] eqn:D.
        * cbn [bind of_option]. assert (I' : inv lineno first (before ++ [BLabel n]) F).
          { destruct I as [A B C]. split; [rewrite tb_ids_app; cbn; now rewrite app_nil_r|exact B|]. intros U. rewrite line_after_app, existsb_app. cbn. rewrite orb_false_r. exact (C U). }
          destruct (Q F (s ++ ":")%string I') as (lines & A & B); [exists s; auto|]. exists lines. split; [|exact B]. rewrite <- A. f_equal.
          destruct (Nat.eqb (length before) 0); cbn [app]; rewrite <- ?app_s_assoc; reflexivity.
        * exfalso. pose proof (bytecode_labels n) as G. rewrite D in G. apply G. rewrite E. apply in_or_app. right. now left.
      + exfalso. apply (NS z). now left.
      + destruct (step_begin rp lineno first L (label_name prog) no_block HL HB before F (length before) id t la d I) as (F' & line & S1 & S2 & S3).
        cbn zeta in S1. destruct (format_try_begin L F id t la d) as [F0 l0]. destruct (format_line lineno F0 _ _) as [F1 l1]. injection S1 as <- A. rewrite A. cbn [bind]. exact (Q _ _ S3 S2).
      + destruct (step_end rp lineno first (label_name prog) no_block before F (length before) id true I) as (F' & line & S1 & S2 & S3).
        cbn zeta in S1. destruct (format_line lineno (set_indent F _) _ _) as [F1 l1]. injection S1 as <- A. rewrite A. cbn [bind]. exact (Q _ _ S3 S2).
  Qed.
End Bytecode.

Lemma inv0 lineno first : inv lineno first [] (mkFmt first None "    " []).
Proof. split; [reflexivity|now exists 4%nat|]. intros _. auto. Qed.

Lemma format_bytecode_ok rp lineno b : not_nested (b_items b) -> no_set_lineno (b_items b) -> (lineno = true -> located (b_items b)) ->
  exists lines, format_bytecode rp lineno b = Ok (String.concat nl (layout 0 (b_items b) lines ++ [""]))
    /\ all_show rp lineno (m_first_lineno (b_meta b)) (label_name (b_items b)) (fun _ _ => False) [] 0 (b_items b) lines.
Proof.
  intros NN NS LO. unfold format_bytecode. destruct (iterate_iff (b_items b)) as [IT _]. rewrite (IT NN).
  destruct (bytecode_loop_ok rp lineno (m_first_lineno (b_meta b)) (b_items b) (b_items b) [] _ eq_refl NS LO (inv0 _ _)) as (lines & A & B).
  exists lines. cbn [length] in A. rewrite A. cbn [bind]. split; [|exact B]. f_equal.
  change [nl] with (map (fun s => (s ++ nl)%string) [""]). rewrite <- map_app. apply chop_lines.
Qed.

(** a SetLineno makes it raise *)
Lemma bytecode_loop_set rp lineno labels z : forall l F index ws, In (BSet z) l -> format_bytecode_loop rp lineno labels F index l <> Ok ws.
Proof.
  induction l as [|it l IH]; intros F index ws I H; [destruct I|destruct I as [->|I]].
  - discriminate H.
  - cbn [format_bytecode_loop] in H. apply bind_ok in H. destruct H as ([F' w] & _ & H). apply bind_ok in H. destruct H as (ws' & H & _). exact (IH _ _ _ I H).
Qed.
Lemma iterate_all : forall l seen l', iterate seen l = (l', None) -> l' = l.
Proof.
  induction l as [|it l IH]; intros seen l' H; cbn in H; [congruence|]. destruct (iter_check seen it) as [s|e]; [|discriminate].
  destruct (iterate s l) as [ys e] eqn:E. injection H as <- ->. now rewrite (IH _ _ E).
Qed.
Lemma format_bytecode_set rp lineno b z s : In (BSet z) (b_items b) -> format_bytecode rp lineno b <> Ok s.
Proof.
  intros I H. unfold format_bytecode in H. destruct (iterate_iff (b_items b)) as [A B]. destruct (iterate false (b_items b)) as [l [e|]] eqn:E; [discriminate|].
  apply bind_ok in H. destruct H as (ws & H & _). revert H. apply (bytecode_loop_set rp lineno _ z).
  assert (X : l = b_items b).
  { exact (iterate_all _ _ _ E). }
  now rewrite X.
Qed.

(** ** ConcreteBytecode *)
Lemma offset_app a b : offset_of (a ++ b) = offset_of a + offset_of b.
Proof. induction a as [|x a IH]; [reflexivity|]. cbn [app]. change (offset_of (x :: a ++ b)) with (match x with CI c => c_size c | CSet _ => 0 end + offset_of (a ++ b)). rewrite IH. change (offset_of (x :: a)) with (match x with CI c => c_size c | CSet _ => 0 end + offset_of a). lia. Qed.
Lemma concrete_loop_ok rp lineno first : forall rest before F, (forall z, ~ In (CSet z) rest) ->
  (lineno = true -> forall c, In (CI c) rest -> c_loc c <> None) ->
  (lineno = true -> f_cur F = cline_after first before /\ f_prev F = match before with [] => None | _ => Some (cline_after first before) end) ->
  exists lines, format_concrete_loop rp lineno F (offset_of before) rest = Ok (map (fun s => (s ++ nl)%string) lines)
    /\ length lines = length rest
    /\ forall k it, nth_error rest k = Some it -> exists line, nth_error lines k = Some line
         /\ shows_concrete rp lineno first (before ++ firstn k rest) it line.
Proof.
  induction rest as [|[c|z] rest IH]; intros before F NS LO I.
  - exists []. split; [reflexivity|]. split; [reflexivity|]. intros [] ? ?; discriminate.
  - assert (OF : offset_of before + c_size c = offset_of (before ++ [CI c])) by (rewrite offset_app; unfold offset_of at 3; cbn; lia).
    assert (NS2 : forall z, ~ In (CSet z) rest) by (intros z X; apply (NS z); now right).
    assert (LO2 : lineno = true -> forall c, In (CI c) rest -> c_loc c <> None) by (intros U x X; apply (LO U x); now right).
    assert (NE : forall l, before ++ CI c :: l <> []) by (intros l X; destruct before; discriminate).
    cbn [format_concrete_loop].
    set (text := format_instr rp no_names (c_name c) _).
    assert (TX : text = (c_name c ++ match c_arg c with Some a => " " ++ rp (OInt a) | None => "" end)%string).
    { unfold text, format_instr. destruct (c_arg c); [reflexivity|now rewrite app_s_nil]. }
    clearbody text. set (F1 := set_cur F _).
    assert (CU : lineno = true -> f_cur F1 = cline_after first (before ++ [CI c]) /\ f_prev F1 = f_prev F).
    { intros U. destruct (I U) as [A _]. unfold cline_after. rewrite fold_left_app. cbn. fold (cline_after first before). unfold F1, set_cur, loc_lineno.
      specialize (LO U c (or_introl eq_refl)). destruct (c_loc c) as [[[z|] ? ? ?]|]; cbn; auto. congruence. }
    assert (ST : exists F' line, (if lineno then format_line lineno F1 (offset_of before) text
                        else (F1, (pad3 (dec (offset_of before)) ++ "    " ++ text)%string)) = (F', line)
       /\ shows_concrete rp lineno first before (CI c) line
       /\ (lineno = true -> f_cur F' = cline_after first (before ++ [CI c]) /\ f_prev F' = match before ++ [CI c] with [] => None | _ => Some (cline_after first (before ++ [CI c])) end)).
    { unfold shows_concrete. cbn zeta. rewrite <- TX. destruct lineno.
      - destruct (CU eq_refl) as [C1 C2]. destruct (I eq_refl) as [_ P]. unfold format_line. rewrite C1, C2, P.
        assert (N : match before ++ [CI c] with [] => None | _ => Some (cline_after first (before ++ [CI c])) end = Some (cline_after first (before ++ [CI c]))) by (destruct before; reflexivity).
        destruct before as [|b0 bs] eqn:EB; rewrite <- ?EB in *.
        + eexists _, _. split; [reflexivity|]. split; [reflexivity|]. intros _. rewrite N. cbn. auto.
        + destruct (cline_after first (before ++ [CI c]) =? cline_after first before) eqn:E; cbn [negb].
          * eexists _, _. split; [reflexivity|]. rewrite Z.eqb_sym, E. split; [reflexivity|]. intros _. rewrite N, C1, C2, P. apply Z.eqb_eq in E. rewrite E. auto.
          * eexists _, _. split; [reflexivity|]. rewrite Z.eqb_sym, E. split; [reflexivity|]. intros _. rewrite N. cbn. auto.
      - eexists _, _. split; [reflexivity|]. split; [reflexivity|]. discriminate. }
    destruct ST as (F' & line & -> & SH & I'). rewrite OF.
    destruct (IH (before ++ [CI c]) F' NS2 LO2 I') as (lines & A & B & C). rewrite A. cbn [bind].
    exists (line :: lines). split; [reflexivity|]. split; [cbn; congruence|].
    intros [|k] it E; cbn in E.
    + injection E as <-. exists line. cbn. rewrite app_nil_r. auto.
    + destruct (C k it E) as (l & P & Q). exists l. split; [exact P|]. cbn [firstn]. rewrite <- app_assoc in Q. exact Q.
  - exfalso. apply (NS z). now left.
Qed.
Lemma format_concrete_ok rp lineno cb : (forall z, ~ In (CSet z) (cb_items cb)) ->
  (lineno = true -> forall c, In (CI c) (cb_items cb) -> c_loc c <> None) ->
  exists lines, format_concrete rp lineno cb
      = Ok (String.concat nl (lines ++ match cb_ex cb with [] => [] | ex => [""; "Exception table:"] ++ map entry_text ex end))
    /\ length lines = length (cb_items cb)
    /\ forall k it, nth_error (cb_items cb) k = Some it -> exists line, nth_error lines k = Some line
         /\ shows_concrete rp lineno (m_first_lineno (cb_meta cb)) (firstn k (cb_items cb)) it line.
Proof.
  intros NS LO. unfold format_concrete.
  destruct (concrete_loop_ok rp lineno (m_first_lineno (cb_meta cb)) (cb_items cb) [] (mkFmt (m_first_lineno (cb_meta cb)) None "    " []) NS LO) as (lines & A & B & C).
  { intros _. auto. }
  exists lines. change (offset_of []) with 0 in A. rewrite A. cbn [bind]. split; [|split; [exact B|exact C]]. f_equal.
  assert (X : match cb_ex cb with [] => [] | _ => [nl; ("Exception table:" ++ nl)%string] ++ map format_entry (cb_ex cb) end
    = map (fun s => (s ++ nl)%string) (match cb_ex cb with [] => [] | ex => [""; "Exception table:"] ++ map entry_text ex end)).
  { destruct (cb_ex cb) as [|e ex] eqn:E; [reflexivity|]. rewrite <- E. rewrite map_app. f_equal. rewrite map_map. apply map_ext. intros a. unfold format_entry, entry_text. now rewrite !app_s_assoc. }
  rewrite X, <- map_app. apply chop_lines.
Qed.
Lemma concrete_loop_set rp lineno z : forall l F off ws, In (CSet z) l -> format_concrete_loop rp lineno F off l <> Ok ws.
Proof.
  induction l as [|it l IH]; intros F off ws I H; [destruct I|destruct I as [->|I]].
  - discriminate H.
  - destruct it as [c|w]; [|discriminate H]. cbn [format_concrete_loop] in H. destruct (if lineno then _ else _) as [F' line].
    apply bind_ok in H. destruct H as (ws' & H & _). exact (IH _ _ _ I H).
Qed.

(** ** ControlFlowGraph *)
Section Graph.
  Context (T : optable) (rp : pyobj -> string) (lineno : bool) (first : Z) (g : cfg).
  Let order := g_order g.
  Let labels := format_blocks 1 [] order.
  Let no_label : nat -> string -> Prop := fun _ _ => False.

  Lemma cfg_labels n : match dget Nat.eqb labels n with Some s => block_name order n s | None => ~ In n order end.
  Proof.
    pose proof (blocks_get order order [] [] n eq_refl) as H. cbn [length] in H. unfold labels.
    destruct (dget Nat.eqb (format_blocks 1 [] order) n); [apply H; discriminate|]. destruct H; [discriminate|auto].
  Qed.
  Lemma cfg_labels' n : match dget Nat.eqb labels n with Some s => block_name order n s | None => forall s, ~ block_name order n s end.
  Proof.
    pose proof (cfg_labels n) as H. destruct (dget Nat.eqb labels n); [exact H|]. intros s (k & A & _). apply nth_error_In in A. auto.
  Qed.

  Lemma block_loop_ok : forall rest before index F seen, block_iter T rest = Ok tt -> no_set_lineno rest ->
    (lineno = true -> located rest) -> inv lineno first before F ->
    exists F' lines, format_block_loop T rp lineno labels F seen index rest = Ok (F', map (fun s => (s ++ nl)%string) lines)
      /\ all_show rp lineno first no_label (block_name order) before index rest lines
      /\ inv lineno first (before ++ rest) F'.
  Proof.
    set (L := mkNames (fun _ => None) (dget Nat.eqb labels)).
    assert (HB : forall n, match n_block L n with Some s => block_name order n s | None => forall s, ~ block_name order n s end) by exact cfg_labels'.
    assert (HL : forall n, match n_label L n with Some s => no_label n s | None => forall s, ~ no_label n s end) by (intros n s X; exact X).
    induction rest as [|it rest IH]; intros before index F seen BI NS LO I.
    - exists F, []. rewrite app_nil_r. split; [reflexivity|]. split; [exact Logic.I|exact I].
    - cbn [block_iter] in BI. apply bind_ok in BI. destruct BI as ([] & EC & BI).
      assert (NS2 : no_set_lineno rest) by (intros z X; apply (NS z); now right).
      assert (LO2 : lineno = true -> located rest) by (intros U i X; apply (LO U i); now right).
      assert (Q : forall F' line seen', inv lineno first (before ++ [it]) F' ->
        shows rp no_label (block_name order) lineno first before index it line ->
        exists F'' lines, ('(F, ws) <- format_block_loop T rp lineno labels F' seen' (S index) rest ;;
                       Ok (F, (line ++ nl)%string :: ws)) = Ok (F'', map (fun s => (s ++ nl)%string) lines)
          /\ all_show rp lineno first no_label (block_name order) before index (it :: rest) lines
          /\ inv lineno first (before ++ it :: rest) F'').
      { intros F' line seen' I' SH. destruct (IH (before ++ [it]) (S index) F' seen' BI NS2 LO2 I') as (F'' & lines & A & B & C).
        rewrite A. cbn [bind]. exists F'', (line :: lines). split; [reflexivity|]. split; [split; [exact SH|exact B]|]. now rewrite <- app_assoc in C. }
      cbn [format_block_loop]. rewrite EC. cbn [bind]. fold L.
      destruct it as [i|n|z|id t la d|id].
      + destruct (step_instr rp lineno first L no_label (block_name order) HL HB before F index i I) as (F' & line & S1 & S2 & S3).
        { intros U. apply (LO U). now left. }
        cbn zeta in S1. destruct (format_line lineno (set_cur F _) _ _) as [F1 l1]. injection S1 as -> ->. cbn [bind]. exact (Q _ _ _ S3 S2).
      + discriminate EC.
      + exfalso. apply (NS z). now left.
      + destruct (step_begin rp lineno first L no_label (block_name order) HL HB before F index id t la d I) as (F' & line & S1 & S2 & S3).
        cbn zeta in S1. destruct (format_try_begin L F id t la d) as [F0 l0]. destruct (format_line lineno F0 _ _) as [F1 l1]. injection S1 as <- A. rewrite A. cbn [bind]. exact (Q _ _ _ S3 S2).
      + destruct (step_end rp lineno first no_label (block_name order) before F index id seen I) as (F' & line & S1 & S2 & S3).
        cbn zeta in S1. destruct (format_line lineno (if seen then _ else F) _ _) as [F1 l1]. injection S1 as <- A. rewrite A. cbn [bind]. exact (Q _ _ _ S3 S2).
  Qed.

  (** the lines of a block *)
  Definition paragraph (before : list bitem) (n : nat) (para : list string) : Prop :=
    exists title lines arrow, para = ((title ++ ":")%string :: lines ++ arrow ++ [""])
      /\ block_name order n title
      /\ all_show rp lineno first no_label (block_name order) before 0 (k_items (blk g n)) lines
      /\ match k_next (blk g n) with
         | None => arrow = []
         | Some m => exists ind s, block_name order m s /\ arrow = [(spaces ind ++ "-> " ++ s)%string]
         end.

  Lemma format_block_ok before F n : In n order -> block_iter T (k_items (blk g n)) = Ok tt -> no_set_lineno (k_items (blk g n)) ->
    (lineno = true -> located (k_items (blk g n))) -> (forall m, k_next (blk g n) = Some m -> In m order) -> inv lineno first before F ->
    exists F' para, format_block T rp lineno g labels F n = Ok (F', map (fun s => (s ++ nl)%string) para)
      /\ paragraph before n para /\ inv lineno first (before ++ k_items (blk g n)) F'.
  Proof.
    intros IN BI NS LO NX I. unfold format_block. pose proof (cfg_labels n) as H. destruct (dget Nat.eqb labels n) as [title|]; [|contradiction]. cbn [of_option bind].
    destruct (block_loop_ok (k_items (blk g n)) before 0 F false BI NS LO I) as (F' & lines & -> & A & B). cbn [bind].
    assert (X : exists arrow, match k_next (blk g n) with
       | None => Ok [] | Some m => label <- of_option KeyError (dget Nat.eqb labels m) ;; Ok [(f_indent F' ++ "-> " ++ label ++ nl)%string] end
         = Ok (map (fun s => (s ++ nl)%string) arrow)
       /\ match k_next (blk g n) with
         | None => arrow = []
         | Some m => exists ind s, block_name order m s /\ arrow = [(spaces ind ++ "-> " ++ s)%string]
         end).
    { destruct (k_next (blk g n)) as [m|] eqn:E.
      - pose proof (cfg_labels m) as G. destruct (dget Nat.eqb labels m) as [s|]; [|exfalso; apply G, NX; reflexivity]. cbn [of_option bind].
        destruct B as [_ [k K] _]. rewrite K. exists [(spaces k ++ "-> " ++ s)%string]. split; [cbn [map]; now rewrite !app_s_assoc|]. eauto.
      - exists []. auto. }
    destruct X as (arrow & -> & X). cbn [bind]. exists F', ((title ++ ":")%string :: lines ++ arrow ++ [""]).
    split; [|split; [|exact B]].
    - do 2 f_equal. cbn [map]. rewrite !map_app. cbn [map]. now rewrite app_s_assoc.
    - exists title, lines, arrow. auto.
  Qed.

  Fixpoint all_paras (before : list bitem) (l : list nat) (paras : list (list string)) : Prop :=
    match l, paras with
    | [], [] => True
    | n :: l, p :: paras => paragraph before n p /\ all_paras (before ++ k_items (blk g n)) l paras
    | _, _ => False
    end.
  Lemma all_paras_nth : forall l before paras, all_paras before l paras ->
    length paras = length l /\ forall k n, nth_error l k = Some n ->
      exists p, nth_error paras k = Some p /\ paragraph (before ++ flat_map (fun n => k_items (blk g n)) (firstn k l)) n p.
  Proof.
    induction l as [|m l IH]; intros before [|p paras] H; try contradiction.
    - split; [reflexivity|]. intros [] ? ?; discriminate.
    - destruct H as [A B]. destruct (IH _ _ B) as [C D]. split; [cbn; congruence|].
      intros [|k] n E; cbn in E.
      + injection E as <-. exists p. cbn. rewrite app_nil_r. auto.
      + destruct (D k n E) as (q & P & Q). exists q. split; [exact P|]. cbn [firstn flat_map]. now rewrite app_assoc.
  Qed.

  Lemma cfg_loop_ok : forall l before F, (forall n, In n l -> In n order) ->
    (forall n, In n l -> block_iter T (k_items (blk g n)) = Ok tt /\ no_set_lineno (k_items (blk g n))
       /\ (lineno = true -> located (k_items (blk g n))) /\ (forall m, k_next (blk g n) = Some m -> In m order)) ->
    inv lineno first before F ->
    exists paras, format_cfg_loop T rp lineno g labels F l = Ok (map (fun s => (s ++ nl)%string) (concat paras)) /\ all_paras before l paras.
  Proof.
    induction l as [|n l IH]; intros before F IN H I; [exists []; split; [reflexivity|exact Logic.I]|].
    destruct (H n (or_introl eq_refl)) as (A & B & C & D).
    destruct (format_block_ok before F n (IN n (or_introl eq_refl)) A B C D I) as (F' & p & E & P & I'). cbn [format_cfg_loop]. rewrite E. cbn [bind].
    destruct (IH (before ++ k_items (blk g n)) F') as (paras & X & Y); [intros; apply IN; now right|intros; apply H; now right|exact I'|].
    rewrite X. cbn [bind]. exists (p :: paras). split; [cbn [concat]; now rewrite map_app|split; auto].
  Qed.
End Graph.

Lemma format_cfg_ok T rp lineno g :
  (forall n, In n (g_order g) -> block_iter T (k_items (blk g n)) = Ok tt /\ no_set_lineno (k_items (blk g n))
       /\ (lineno = true -> located (k_items (blk g n))) /\ (forall m, k_next (blk g n) = Some m -> In m (g_order g))) ->
  exists paras, format_cfg T rp lineno g = Ok (String.concat nl (concat paras))
    /\ all_paras rp lineno (m_first_lineno (g_meta g)) g [] (g_order g) paras.
Proof.
  intros H. unfold format_cfg.
  destruct (cfg_loop_ok T rp lineno (m_first_lineno (g_meta g)) g (g_order g) [] (mkFmt (m_first_lineno (g_meta g)) None "    " [])) as (paras & -> & B); auto using inv0.
  exists paras. split; [|exact B]. cbn [bind]. f_equal. apply chop_lines.
Qed.
