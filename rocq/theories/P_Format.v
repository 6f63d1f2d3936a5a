(** Proofs about format_bytecode (C63). *)
From Verif Require Import PyBase PyText OpTable M_Instr M_Tables M_Concrete M_Convert M_Bytecode M_Cfg M_Format
  S_Flags S_Format P_Base P_Conv2 P_Bytecode.
Open Scope string_scope.
Open Scope list_scope.
Open Scope Z_scope.

(** ** Strings *)
Lemma app_s_assoc (a b c : string) : ((a ++ b) ++ c = a ++ (b ++ c))%string.
Proof. induction a; cbn; congruence. Qed.
Lemma app_s_nil (a : string) : (a ++ "" = a)%string.
Proof. induction a; cbn; congruence. Qed.
Lemma app_s_length (a b : string) : String.length (a ++ b) = (String.length a + String.length b)%nat.
Proof. induction a; cbn; congruence. Qed.
Lemma substring_app (a b : string) : substring 0 (String.length a) (a ++ b) = a.
Proof. induction a; cbn; [now destruct b|congruence]. Qed.
Lemma chop_app (a b : string) : chop (String.length b) (a ++ b) = a.
Proof. unfold chop. rewrite app_s_length, Nat.add_sub. apply substring_app. Qed.
Lemma spaces_length n : String.length (spaces n) = n.
Proof. induction n; cbn; congruence. Qed.
Lemma spaces_app n m : (spaces n ++ spaces m)%string = spaces (n + m).
Proof. induction n; cbn; congruence. Qed.
Lemma chop_spaces n k : chop k (spaces n) = spaces (n - k).
Proof.
  destruct (Nat.le_gt_cases k n) as [L|L].
  - replace n with ((n - k) + k)%nat at 1 by lia. rewrite <- spaces_app.
    rewrite <- (spaces_length k) at 1. now rewrite chop_app.
  - replace (n - k)%nat with 0%nat by lia. unfold chop. rewrite spaces_length. replace (n - k)%nat with 0%nat by lia. now destruct n.
Qed.
Lemma concat_lines l : String.concat "" (map (fun s => (s ++ nl)%string) l) =
  match l with [] => "" | _ => (String.concat nl l ++ nl)%string end.
Proof.
  induction l as [|a l IH]; [reflexivity|]. cbn [map]. destruct l as [|b l]; [reflexivity|].
  set (m := b :: l) in *. cbn [String.concat]. change (map (fun s => (s ++ nl)%string) m) with (map (fun s => (s ++ nl)%string) (b :: l)) at 1.
  cbn [map]. change (((a ++ nl) ++ "" ++ String.concat "" (map (fun s => (s ++ nl)%string) m))%string = ((a ++ nl ++ String.concat nl m) ++ nl)%string).
  rewrite IH. cbn [append]. now rewrite !app_s_assoc.
Qed.
Lemma chop_lines l : chop 1 (String.concat "" (map (fun s => (s ++ nl)%string) l)) = String.concat nl l.
Proof. rewrite concat_lines. destruct l; [reflexivity|]. exact (chop_app _ nl). Qed.

(** ** Names *)
Lemma labels_get prog : forall rest pre d n, prog = pre ++ rest ->
  (forall s, dget Nat.eqb d n = Some s -> label_name prog n s) ->
  match dget Nat.eqb (format_labels (length pre) d rest) n with
  | Some s => label_name prog n s
  | None => dget Nat.eqb d n = None /\ ~ In (BLabel n) rest
  end.
Proof.
  induction rest as [|it rest IH]; intros pre d n E H.
  - cbn. destruct (dget Nat.eqb d n) eqn:D; auto.
  - assert (E2 : prog = (pre ++ [it]) ++ rest) by (now rewrite <- app_assoc).
    assert (LE : S (length pre) = length (pre ++ [it])) by (rewrite app_length; cbn; lia).
    assert (Q : forall d', (forall s, dget Nat.eqb d' n = Some s -> label_name prog n s) ->
       (dget Nat.eqb d' n = None -> dget Nat.eqb d n = None /\ it <> BLabel n) ->
       match dget Nat.eqb (format_labels (S (length pre)) d' rest) n with
       | Some s => label_name prog n s
       | None => dget Nat.eqb d n = None /\ ~ In (BLabel n) (it :: rest)
       end).
    { intros d' A B. rewrite LE. specialize (IH (pre ++ [it]) d' n E2 A).
      destruct (dget Nat.eqb (format_labels _ d' rest) n); [exact IH|]. destruct IH as [X Y]. destruct (B X) as [U V].
      split; [exact U|]. intros [W|W]; auto. }
    destruct it; cbn [format_labels]; try (apply Q; [exact H|intros X; split; [exact X|discriminate]]).
    apply Q.
    + intros s. rewrite dget_dset. destruct (Nat.eqb n n0) eqn:N; [|apply H].
      intros X. injection X as <-. apply Nat.eqb_eq in N. subst n0. exists (length pre). split; [|reflexivity].
      rewrite E, nth_error_app2, Nat.sub_diag by lia. reflexivity.
    + rewrite dget_dset. destruct (Nat.eqb n n0) eqn:N; [discriminate|]. intros X. split; [exact X|]. intros Y. injection Y as ->. rewrite Nat.eqb_refl in N. discriminate.
Qed.
Lemma blocks_get order : forall rest pre d n, order = pre ++ rest ->
  (forall s, dget Nat.eqb d n = Some s -> block_name order n s) ->
  match dget Nat.eqb (format_blocks (S (length pre)) d rest) n with
  | Some s => block_name order n s
  | None => dget Nat.eqb d n = None /\ ~ In n rest
  end.
Proof.
  induction rest as [|b rest IH]; intros pre d n E H.
  - cbn. destruct (dget Nat.eqb d n) eqn:D; auto.
  - assert (E2 : order = (pre ++ [b]) ++ rest) by (now rewrite <- app_assoc).
    assert (LE : S (length pre) = length (pre ++ [b])) by (rewrite app_length; cbn; lia).
    cbn [format_blocks].
    assert (A : forall s, dget Nat.eqb (dset Nat.eqb d b ("block" ++ dec_nat (S (length pre)))%string) n = Some s -> block_name order n s).
    { intros s. rewrite dget_dset. destruct (Nat.eqb n b) eqn:N; [|apply H].
      intros X. injection X as <-. apply Nat.eqb_eq in N. subst b. exists (length pre). split.
      - rewrite E, nth_error_app2, Nat.sub_diag by lia. reflexivity.
      - unfold dec_nat. now rewrite Nat2Z.inj_succ. }
    specialize (IH (pre ++ [b]) _ n E2 A). rewrite <- LE in IH.
    destruct (dget Nat.eqb (format_blocks _ _ rest) n); [exact IH|]. destruct IH as [X Y].
    rewrite dget_dset in X. destruct (Nat.eqb n b) eqn:N; [discriminate|]. split; [exact X|]. intros [W|W]; [|auto].
    subst. rewrite Nat.eqb_refl in N. discriminate.
Qed.

(** ** One element *)
Definition tb_ids (l : list bitem) : list nat := flat_map (fun it => match it with BTB id _ _ _ => [id] | _ => [] end) l.
Lemma tb_ids_filter l : tb_ids l = tb_ids (filter is_tb l) /\ length (tb_ids l) = length (filter is_tb l).
Proof.
  unfold tb_ids. induction l as [|it l [A B]]; [split; reflexivity|]. destruct it; cbn; auto. split; [now rewrite A at 1|now rewrite B].
Qed.
Lemma tb_index_spec id l :
  match tb_index id l with Some k => nth_error l k = Some id | None => ~ In id l end.
Proof.
  induction l as [|x l IH]; cbn; [auto|]. destruct (Nat.eqb x id) eqn:E; cbn.
  - apply Nat.eqb_eq in E. now subst.
  - destruct (tb_index id l); cbn; [exact IH|]. intros [A|A]; [subst; rewrite Nat.eqb_refl in E; discriminate|auto].
Qed.
Lemma nth_tb_ids l : Forall (fun it => is_tb it = true) l -> forall k id, nth_error (tb_ids l) k = Some id ->
  exists t la d, nth_error l k = Some (BTB id t la d).
Proof.
  induction 1 as [|it l A B IH]; intros k i E; [destruct k; discriminate|].
  destruct it as [ | | |idb t la d| ]; try discriminate A. destruct k; cbn in E; [|exact (IH _ _ E)].
  injection E as ->. cbn. eauto.
Qed.

Definition shownb (it : bitem) : bool := match it with BLabel _ => false | _ => true end.

Section Elements.
  Context (rp : pyobj -> string) (lineno : bool) (first : Z) (L : names) (label block : nat -> string -> Prop).
  Context (HL : forall n, match n_label L n with Some s => label n s | None => forall s, ~ label n s end).
  Context (HB : forall n, match n_block L n with Some s => block n s | None => forall s, ~ block n s end).

  Lemma target_label n err : target_text (label n) err (match n_label L n with Some s => ("<" ++ s ++ ">")%string | None => err end).
  Proof. specialize (HL n). destruct (n_label L n); [left; eauto|right; auto]. Qed.
  Lemma target_block n err : target_text (block n) err (match n_block L n with Some s => ("<" ++ s ++ ">")%string | None => err end).
  Proof. specialize (HB n). destruct (n_block L n); [left; eauto|right; auto]. Qed.

  Lemma format_instr_ok name arg : instr_text rp label block name arg (format_instr rp L name arg).
  Proof.
    unfold instr_text, format_instr. destruct arg; try (right; split; [discriminate|eexists; split; [|reflexivity]]; reflexivity).
    - left. auto.
    - right. split; [discriminate|]. eexists. split; [|reflexivity]. apply target_label.
    - right. split; [discriminate|]. eexists. split; [|reflexivity]. apply target_block.
  Qed.

  Definition linv (before : list bitem) (F : fmt) : Prop :=
    lineno = true -> f_cur F = line_after first before /\ f_prev F = if existsb shownb before then Some (line_after first before) else None.
  Record inv (before : list bitem) (F : fmt) : Prop := {
    inv_tbs : f_tbs F = tb_ids before;
    inv_ind : exists n, f_indent F = spaces n;
    inv_line : linv before F }.

  Lemma line_after_app l it : line_after first (l ++ [it]) =
    match it with BI i => match i_loc i with Some (mkLoc (Some z) _ _ _) => z | _ => line_after first l end | _ => line_after first l end.
  Proof. unfold line_after. rewrite fold_left_app. reflexivity. Qed.

  Lemma format_line_ok before it F index text : shownb it = true ->
    (lineno = true -> f_cur F = line_after first (before ++ [it])
       /\ f_prev F = if existsb shownb before then Some (line_after first before) else None) ->
    exists F', format_line lineno F (Z.of_nat index) text = (F', (header lineno first before it index ++ text)%string)
      /\ f_tbs F' = f_tbs F /\ f_indent F' = f_indent F /\ linv (before ++ [it]) F'.
  Proof.
    intros SH H. unfold format_line, header, linv. destruct lineno.
    - destruct (H eq_refl) as [A B]. rewrite B. rewrite existsb_app. cbn [existsb]. rewrite SH, orb_true_r. change (existsb (fun it0 => match it0 with BLabel _ => false | _ => true end) before) with (existsb shownb before).
      destruct (existsb shownb before); cbn [andb].
      + rewrite A. destruct (line_after first (before ++ [it]) =? line_after first before) eqn:E; cbn [negb].
        * exists F. rewrite Z.eqb_sym, E. rewrite !app_s_assoc. repeat split; auto. rewrite B. f_equal. apply Z.eqb_eq in E. congruence.
        * eexists. rewrite Z.eqb_sym, E. split; [rewrite !app_s_assoc; reflexivity|]. cbn. repeat split; auto.
      + eexists. rewrite A. split; [rewrite !app_s_assoc; reflexivity|]. cbn. repeat split; auto.
    - exists F. repeat split; auto; discriminate.
  Qed.

  Lemma try_begin_ok before F id t la d : f_tbs F = tb_ids before ->
    exists text, format_try_begin L F id t la d = (mkFmt (f_cur F) (f_prev F) (f_indent F) (f_tbs F ++ [id]), text)
      /\ element_text rp label block before (BTB id t la d) text.
  Proof.
    intros E. unfold format_try_begin. eexists. split; [reflexivity|]. cbn [element_text]. eexists. split; [|rewrite E; unfold dec_nat, zlen; destruct (tb_ids_filter before) as [_ ->]; reflexivity].
    destruct t; try (right; split; [tauto|reflexivity]); [apply target_label|apply target_block].
  Qed.
  Lemma try_end_ok before F id : f_tbs F = tb_ids before -> element_text rp label block before (BTE id) (format_try_end F id).
  Proof.
    intros E. unfold format_try_end. rewrite E. pose proof (tb_index_spec id (tb_ids before)) as H. cbn [element_text].
    destruct (tb_index id (tb_ids before)) as [k|].
    - left. destruct (tb_ids_filter before) as [X _]. rewrite X in H. apply nth_tb_ids in H.
      + destruct H as (t & la & d & H). exists k, t, la, d. split; [exact H|reflexivity].
      + apply Forall_forall. intros x I. apply filter_In in I. tauto.
    - right. split; [|reflexivity]. intros t la d I. apply H. unfold tb_ids. apply in_flat_map. exists (BTB id t la d). cbn. auto.
  Qed.
  Lemma tb_ids_app a b : tb_ids (a ++ b) = tb_ids a ++ tb_ids b.
  Proof. apply flat_map_app. Qed.

  (** a TryBegin, a TryEnd, an instruction *)
  Lemma step_begin before F index id t la d : inv before F ->
    exists F' line, (let ind := f_indent F in
            let '(F, line) := format_try_begin L F id t la d in
            let '(F, line) := format_line lineno F (Z.of_nat index) line in
            (set_indent F (f_indent F ++ "  "), (ind ++ line ++ nl)%string)) = (F', (line ++ nl)%string)
      /\ shows rp label block lineno first before index (BTB id t la d) line /\ inv (before ++ [BTB id t la d]) F'.
  Proof.
    intros [A [n B] C]. destruct (try_begin_ok before F id t la d A) as (text & -> & E).
    destruct (format_line_ok before (BTB id t la d) (mkFmt (f_cur F) (f_prev F) (f_indent F) (f_tbs F ++ [id])) index text eq_refl) as (F' & -> & X & Y & Z).
    { intros U. rewrite line_after_app. exact (C U). }
    cbn zeta. eexists _, _. split; [rewrite B, <- app_s_assoc; reflexivity|]. split.
    - cbn [shows]. exists n, text. auto.
    - split.
      + cbn. rewrite X, tb_ids_app. cbn. now rewrite A.
      + cbn. rewrite Y. cbn. rewrite B. exists (n + 2)%nat. now rewrite <- spaces_app.
      + exact Z.
  Qed.
  Lemma step_end before F index id (dedent : bool) : inv before F ->
    exists F' line, (let F := if dedent then set_indent F (chop 2 (f_indent F)) else F in
            let '(F, line) := format_line lineno F (Z.of_nat index) (format_try_end F id) in
            (F, (f_indent F ++ line ++ nl)%string)) = (F', (line ++ nl)%string)
      /\ shows rp label block lineno first before index (BTE id) line /\ inv (before ++ [BTE id]) F'.
  Proof.
    intros [A [n B] C]. cbn zeta. set (F1 := if dedent then _ else F).
    assert (A1 : f_tbs F1 = tb_ids before) by (unfold F1; destruct dedent; exact A).
    assert (B1 : exists n, f_indent F1 = spaces n) by (unfold F1; destruct dedent; cbn; rewrite ?B, ?chop_spaces; eauto).
    assert (C1 : linv before F1) by (unfold F1; destruct dedent; exact C). clearbody F1. clear n B. destruct B1 as [n B].
    pose proof (try_end_ok before F1 id A1) as E.
    destruct (format_line_ok before (BTE id) F1 index (format_try_end F1 id) eq_refl) as (F' & -> & X & Y & Z).
    { intros U. rewrite line_after_app. exact (C1 U). }
    eexists _, _. split; [rewrite <- app_s_assoc; reflexivity|]. split.
    - cbn [shows]. rewrite Y, B. eexists n, _. split; [exact E|reflexivity].
    - split; [rewrite X, tb_ids_app; cbn; now rewrite app_nil_r|rewrite Y; eauto|exact Z].
  Qed.
  Lemma step_instr before F index i : inv before F -> (lineno = true -> i_loc i <> None) ->
    exists F' line, (let F := set_cur F (loc_lineno (i_loc i)) in
            let '(F, line) := format_line lineno F (Z.of_nat index) (format_instr rp L (i_name i) (i_arg i)) in
            (F, (f_indent F ++ line ++ nl)%string)) = (F', (line ++ nl)%string)
      /\ shows rp label block lineno first before index (BI i) line /\ inv (before ++ [BI i]) F'.
  Proof.
    intros [A [n B] C] LO. cbn zeta. set (F1 := set_cur F _).
    assert (A1 : f_tbs F1 = tb_ids before) by (unfold F1, set_cur; destruct (shown_lineno _); exact A).
    assert (B1 : f_indent F1 = spaces n) by (unfold F1, set_cur; destruct (shown_lineno _); exact B).
    assert (P1 : f_prev F1 = f_prev F) by (unfold F1, set_cur; destruct (shown_lineno _); reflexivity).
    destruct (format_line_ok before (BI i) F1 index (format_instr rp L (i_name i) (i_arg i)) eq_refl) as (F' & -> & X & Y & Z).
    { intros U. destruct (C U) as [C1 C2]. rewrite line_after_app, P1. split; [|exact C2]. unfold F1, set_cur, loc_lineno.
      specialize (LO U). destruct (i_loc i) as [[[z|] ? ? ?]|]; [reflexivity|exact C1|congruence]. }
    eexists _, _. split; [rewrite <- app_s_assoc; reflexivity|]. split.
    - cbn [shows]. rewrite Y, B1. eexists n, _. split; [apply format_instr_ok|reflexivity].
    - split; [rewrite X, tb_ids_app; cbn; now rewrite app_nil_r|rewrite Y, B1; eauto|exact Z].
  Qed.

  (** lines that show the elements [rest], after [before] *)
  Fixpoint all_show (before : list bitem) (index : nat) (rest : list bitem) (lines : list string) : Prop :=
    match rest, lines with
    | [], [] => True
    | it :: rest, s :: lines => shows rp label block lineno first before index it s /\ all_show (before ++ [it]) (S index) rest lines
    | _, _ => False
    end.
  Lemma all_show_nth : forall rest before index lines, all_show before index rest lines ->
    length lines = length rest /\ forall k it, nth_error rest k = Some it ->
      exists line, nth_error lines k = Some line /\ shows rp label block lineno first (before ++ firstn k rest) (index + k) it line.
  Proof.
    induction rest as [|it rest IH]; intros before index [|s lines] H; try contradiction.
    - split; [reflexivity|]. intros [] ? ?; discriminate.
    - destruct H as [A B]. destruct (IH _ _ _ B) as [C D]. split; [cbn; congruence|].
      intros [|k] x E; cbn in E.
      + injection E as <-. exists s. cbn. rewrite app_nil_r, Nat.add_0_r. auto.
      + destruct (D k x E) as (line & P & Q). exists line. split; [exact P|]. cbn [firstn]. rewrite <- app_assoc in Q. cbn in Q.
        now replace (index + S k)%nat with (S index + k)%nat by lia.
  Qed.
End Elements.
