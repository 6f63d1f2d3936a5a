(** Disassembling and assembling again gives the same positions and the same exception table
    on 3.11+ (C03). *)
From Verif Require Import PyBase OpTable P_Base P_OpTable M_Instr M_Tables M_Concrete CPy P_Asm P_Except
  S_Lines P_LinesCode T_Lines S_Round P_Round.
Open Scope string_scope.
Open Scope list_scope.
Open Scope Z_scope.

(** location of every code unit *)
Definition unit_locs (T : optable) (l : list cinstr) : list (option loc) :=
  flat_map (fun c => repeat (c_loc c) (Z.to_nat (zlen (assemble T c) / 2))) l.

(** EXTENDED_ARG has the location of what follows *)
Fixpoint same_loc (prev : option (option loc)) (l : list cinstr) : Prop :=
  match l with
  | [] => True
  | c :: r => match prev with Some lo => c_loc c = lo | None => True end
              /\ same_loc (if String.eqb (c_name c) "EXTENDED_ARG" then Some (c_loc c) else None) r
  end.

Section Locs.
  Variables (v : pyver) (T : optable).
  Hypothesis wf : wf_optable v T = true.
  Notation E := (t_extended_arg T).

  Lemma unit_len c : unit_instr v T c -> Z.to_nat (zlen (assemble T c) / 2) = 1%nat.
  Proof. intros U. destruct (unit_bytes v T c U) as [-> _]. reflexivity. Qed.

  Lemma remove_locs l : forall es l' lo, Forall byte es -> unit_list v T (negb (Nat.eqb (length es) 0)) (instrs_of l) ->
    same_loc (match es with [] => None | _ => Some lo end) (instrs_of l) ->
    remove_extended_args v T (zlen es) (match es with [] => None | _ => Some (value es) end) l = Ok l' ->
    unit_locs T (instrs_of l') = repeat lo (length es) ++ unit_locs T (instrs_of l).
  Proof.
    induction l as [|[c|z] r IH]; intros es l' lo F U SL R; cbn [remove_extended_args] in R.
    - destruct es; [|discriminate R]. injection R as <-. reflexivity.
    - cbn [instrs_of flat_map] in U, SL. change (flat_map _ r) with (instrs_of r) in U, SL. cbn [app unit_list same_loc] in U, SL.
      destruct U as (UI & UN & UR). destruct SL as (SC & SR). cbn [instrs_of flat_map app]. change (flat_map _ r) with (instrs_of r).
      unfold unit_locs in *. cbn [flat_map]. rewrite (unit_len c UI). cbn [repeat app].
      destruct (unit_bytes v T c UI) as [UB _]. destruct UI as (V & CX & CB).
      destruct (String.eqb (c_name c) "EXTENDED_ARG") eqn:EX.
      + set (e := match c_arg c with Some a => a | None => 0 end) in *.
        assert (BE : byte e) by (unfold e, byte in *; destruct (c_arg c); lia).
        assert (R' : remove_extended_args v T (zlen (es ++ [e]))
                       (match es ++ [e] with [] => None | _ => Some (value (es ++ [e])) end) r = Ok l').
        { rewrite zlen_app. change (zlen [e]) with 1. replace (match es ++ [e] with [] => None | _ => Some (value (es ++ [e])) end)
            with (Some (match match es with [] => None | _ => Some (value es) end with Some x => Z.shiftl x 8 + e | None => e end)); [exact R|].
          rewrite value_snoc. destruct es as [|e0 es]; cbn [app]; [reflexivity|]. now rewrite shiftl8. }
        rewrite (IH (es ++ [e]) l' (c_loc c)); [| |rewrite app_length; cbn; rewrite Nat.add_comm; exact UR| |exact R'].
        * assert (LO : match es with [] => True | _ => lo = c_loc c end) by (destruct es; congruence).
          rewrite app_length. cbn [length]. rewrite repeat_app. cbn [repeat]. rewrite <- app_assoc. cbn [app]. f_equal.
          destruct es; [reflexivity|]. now rewrite LO.
        * apply Forall_app. split; auto.
        * destruct es; exact SR.
      + destruct es as [|e0 es].
        * destruct (remove_extended_args v T (zlen []) None r) as [l2|] eqn:R2; [|discriminate R]. cbn [bind] in R. injection R as <-.
          cbn [instrs_of flat_map app]. change (flat_map _ l2) with (instrs_of l2). rewrite UB. cbn [length repeat app]. change (Z.to_nat (zlen [c_op c; _] / 2)) with 1%nat.
          cbn [repeat app]. f_equal. exact (IH [] l2 lo (Forall_nil _) UR SR R2).
        * cbn [length Nat.eqb negb] in UN. specialize (UN eq_refl). destruct UN as [UN _]. apply String.eqb_neq in UN. rewrite UN in R.
          inv_ok.
          match goal with H : new_cinstr _ _ _ _ _ _ = Ok x |- _ => destruct (new_cinstr_ok _ _ _ _ _ _ _ H) as (V1 & N1 & A1 & L1 & X1) end.
          cbn [instrs_of flat_map app]. change (flat_map _ x0) with (instrs_of x0).
          rewrite (IH [] x0 (c_loc c)); auto. cbn [length repeat app].
          set (e := match c_arg c with Some a => a | None => 0 end) in *.
          assert (BE : byte e) by (unfold e, byte in *; destruct (c_arg c); lia).
          cbn [carg_of is_unset as_int] in A1. rewrite shiftl8 in A1.
          rewrite (assemble_spelled T x (e0 :: es) e F BE); auto.
          -- rewrite zlen_app, spell_len. change (zlen [c_op x; e]) with 2.
             replace (2 * zlen (e0 :: es) + 2) with ((zlen (e0 :: es) + 1) * 2) by lia. rewrite Z.div_mul by lia.
             rewrite zlen_cons. unfold zlen. rewrite L1.
             replace (Z.to_nat (1 + Z.of_nat (length es) + 1)) with (S (length es) + 1)%nat by lia.
             rewrite repeat_app, <- app_assoc. reflexivity.
          -- assert (P := vc_arg _ _ _ V1). rewrite A1 in P. tauto.
          -- discriminate.
          -- exact (vc_size _ _ _ V1).
    - destruct (remove_extended_args v T (zlen es) _ r) as [l2|] eqn:R2; [|discriminate R].
      cbn [bind] in R. injection R as <-. cbn [instrs_of flat_map app] in *. change (flat_map _ r) with (instrs_of r) in *.
      change (flat_map _ l2) with (instrs_of l2). now apply IH.
  Qed.

  Lemma remove_sized l : forall es l', Forall byte es -> unit_list v T (negb (Nat.eqb (length es) 0)) (instrs_of l) ->
    remove_extended_args v T (zlen es) (match es with [] => None | _ => Some (value es) end) l = Ok l' ->
    Forall (sized T) l'.
  Proof.
    induction l as [|[c|z] r IH]; intros es l' F U R; cbn [remove_extended_args] in R.
    - destruct es; [|discriminate R]. injection R as <-. constructor.
    - cbn [instrs_of flat_map] in U. change (flat_map _ r) with (instrs_of r) in U. cbn [app unit_list] in U.
      destruct U as (UI & UN & UR).
      destruct (unit_bytes v T c UI) as [UB US]. destruct UI as (V & CX & CB).
      destruct (String.eqb (c_name c) "EXTENDED_ARG") eqn:EX.
      + set (e := match c_arg c with Some a => a | None => 0 end) in *.
        assert (BE : byte e) by (unfold e, byte in *; destruct (c_arg c); lia).
        assert (R' : remove_extended_args v T (zlen (es ++ [e]))
                       (match es ++ [e] with [] => None | _ => Some (value (es ++ [e])) end) r = Ok l').
        { rewrite zlen_app. change (zlen [e]) with 1. replace (match es ++ [e] with [] => None | _ => Some (value (es ++ [e])) end)
            with (Some (match match es with [] => None | _ => Some (value es) end with Some x => Z.shiftl x 8 + e | None => e end)); [exact R|].
          rewrite value_snoc. destruct es as [|e0 es]; cbn [app]; [reflexivity|]. now rewrite shiftl8. }
        apply (IH (es ++ [e]) l'); [|rewrite app_length; cbn; rewrite Nat.add_comm; exact UR|exact R'].
        apply Forall_app. split; auto.
      + destruct es as [|e0 es].
        * destruct (remove_extended_args v T (zlen []) None r) as [l2|] eqn:R2; [|discriminate R]. cbn [bind] in R. injection R as <-.
          constructor; [cbn [sized]; rewrite UB, US; reflexivity|]. exact (IH [] l2 (Forall_nil _) UR R2).
        * cbn [length Nat.eqb negb] in UN. specialize (UN eq_refl). destruct UN as [UN _]. apply String.eqb_neq in UN. rewrite UN in R.
          inv_ok.
          match goal with H : new_cinstr _ _ _ _ _ _ = Ok x |- _ => destruct (new_cinstr_ok _ _ _ _ _ _ _ H) as (V1 & N1 & A1 & L1 & X1) end.
          constructor; [|eapply (IH []); eauto]. cbn [sized].
          set (e := match c_arg c with Some a => a | None => 0 end) in *.
          assert (BE : byte e) by (unfold e, byte in *; destruct (c_arg c); lia).
          cbn [carg_of is_unset as_int] in A1. rewrite shiftl8 in A1.
          rewrite (assemble_spelled T x (e0 :: es) e F BE); auto.
          -- rewrite zlen_app, spell_len. change (zlen [c_op x; e]) with 2. rewrite (vc_size _ _ _ V1), X1. cbn [compute_size]. lia.
          -- assert (P := vc_arg _ _ _ V1). rewrite A1 in P. tauto.
          -- discriminate.
          -- exact (vc_size _ _ _ V1).
    - destruct (remove_extended_args v T (zlen es) _ r) as [l2|] eqn:R2; [|discriminate R].
      cbn [bind] in R. injection R as <-. cbn [instrs_of flat_map app] in *. change (flat_map _ r) with (instrs_of r) in *.
      constructor; [exact Logic.I|]. now apply (IH es).
  Qed.

  Definition loc_of_pos (p : position) : option loc := let '(l, el, c, ec) := p in Some (mkLoc l el c ec).

  Lemma dis_units_len n : forall code caches z, (length code <= n)%nat -> Nat.Even (length code) ->
    (2 * length (dis_units v T caches z code) = length code)%nat.
  Proof.
    induction n as [|n IH]; intros code caches z L EV.
    { destruct code; [reflexivity|cbn in L; lia]. }
    destruct code as [|op [|b rest]]; [reflexivity|destruct EV; cbn in *; lia|]. cbn [dis_units length] in *.
    assert (EV' : Nat.Even (length rest)) by (destruct EV as [k EV]; exists (k - 1)%nat; lia).
    destruct (0 <? caches); [|destruct (opcode_has_argument v T op)]; cbn [length]; match goal with |- context [dis_units v T ?c ?x rest] => specialize (IH rest c x ltac:(lia) EV') end; lia.
  Qed.

  Lemma new_location_ok l el c ec lo : new_location v l el c ec = Ok lo -> lo = mkLoc l el c ec.
  Proof. unfold new_location. intros H. inv_ok. reflexivity. Qed.

  Lemma from_units_locs us : forall pos l, from_units v T us pos = Ok l -> (length us <= length pos)%nat ->
    map c_loc (instrs_of l) = map loc_of_pos (firstn (length us) pos)
    /\ Forall (located v) l /\ (forall it, In it l -> exists c, it = CI c).
  Proof.
    induction us as [|[name arg] us IH]; intros pos l F L; cbn [from_units] in F.
    - injection F as <-. repeat split; auto. intros ? [].
    - destruct pos as [|[[[a b] c] d] pos]; [cbn in L; lia|]. inv_ok. cbn [length] in L.
      match goal with H : from_units _ _ _ _ = Ok ?r |- _ => destruct (IH pos r H ltac:(lia)) as (M & LL & A) end.
      match goal with H : new_location _ _ _ _ _ = Ok ?lo |- _ => assert (NL := new_location_ok _ _ _ _ _ H); rename H into HL end.
      match goal with H : new_cinstr _ _ _ _ _ _ = Ok ?i |- _ => destruct (new_cinstr_ok _ _ _ _ _ _ _ H) as (V1 & N1 & A1 & L1 & X1) end.
      subst. cbn [instrs_of flat_map app map length firstn]. change (flat_map _ ?r) with (instrs_of r). split.
      + rewrite L1. cbn [loc_of_pos]. f_equal. exact M.
      + split.
        * constructor; [|exact LL]. cbn [located]. eexists. split; [exact L1|]. unfold coherent_loc. exact HL.
        * intros it [<-|I]; eauto.
  Qed.

  (** names of the units *)
  Lemma from_units_names us : forall pos l, from_units v T us pos = Ok l ->
    map (fun c => Some (c_name c)) (instrs_of l) = map fst us.
  Proof.
    induction us as [|[name arg] us IH]; intros pos l F; cbn [from_units] in F.
    - injection F as <-. reflexivity.
    - destruct (match pos with [] => _ | p :: ps => _ end) as [[[[a1 a2] a3] a4] pos1].
      apply bind_ok in F. destruct F as (lo & NL & F). destruct name as [name|]; cbn [of_option bind] in F; [|discriminate F]. inv_ok.
      match goal with H : new_cinstr _ _ _ _ _ _ = Ok ?i |- _ => destruct (new_cinstr_ok _ _ _ _ _ _ _ H) as (V1 & N1 & A1 & L1 & X1) end.
      cbn [instrs_of flat_map app map fst]. change (flat_map _ ?r) with (instrs_of r). rewrite N1. f_equal. eapply IH; eauto.
  Qed.

  Lemma dis_units_names n : forall code caches z k, (length code <= n)%nat -> Nat.Even (length code) ->
    nth_error (map fst (dis_units v T caches z code)) k = Some (Some "EXTENDED_ARG") ->
    nth_error code (2 * k) = Some E.
  Proof.
    induction n as [|n IH]; intros code caches z k L EV H.
    { destruct code; [destruct k; discriminate H|cbn in L; lia]. }
    destruct code as [|op [|b rest]]; [destruct k; discriminate H|destruct k; discriminate H|]. cbn [dis_units length] in *.
    assert (EV' : Nat.Even (length rest)) by (destruct EV as [j EV]; exists (j - 1)%nat; lia).
    destruct k as [|k].
    - destruct (0 <? caches); [discriminate H|].
      assert (opname T op = Some "EXTENDED_ARG") by (destruct (opcode_has_argument v T op); cbn in H; congruence).
      apply (opmap_opname v T wf) in H0. rewrite (wf_ext v T wf) in H0. cbn. congruence.
    - replace (2 * S k)%nat with (S (S (2 * k))) by lia. cbn [nth_error].
      destruct (0 <? caches); [|destruct (opcode_has_argument v T op)]; cbn [map nth_error] in H; (eapply IH; [| |exact H]; auto; lia).
  Qed.

  Lemma same_loc_nth l : forall prev,
    match prev, l with Some lo, c :: _ => c_loc c = lo | _, _ => True end ->
    (forall k c d, nth_error l k = Some c -> nth_error l (S k) = Some d -> c_name c = "EXTENDED_ARG" -> c_loc d = c_loc c) ->
    same_loc prev l.
  Proof.
    induction l as [|c r IH]; intros prev P H; [exact Logic.I|]. cbn [same_loc]. split; [destruct prev; auto|].
    apply IH.
    - destruct (String.eqb_spec (c_name c) "EXTENDED_ARG") as [Q|Q]; [|exact Logic.I]. destruct r as [|d r]; [exact Logic.I|].
      exact (H 0%nat c d eq_refl eq_refl Q).
    - intros k x y A B. exact (H (S k) x y A B).
  Qed.

  Lemma normal_even n : forall code caches ext, (length code <= n)%nat -> normal v T caches ext code -> Nat.Even (length code).
  Proof.
    induction n as [|n IH]; intros code caches ext L N.
    { destruct code; [exists 0%nat; reflexivity|cbn in L; lia]. }
    destruct code as [|op [|b rest]]; [exists 0%nat; reflexivity|destruct N|]. cbn [normal length] in *.
    assert (EV : Nat.Even (length rest)).
    { destruct (0 <? caches); [destruct N as (_ & _ & N); eapply IH; [|exact N]; lia|]. destruct N as (nm & _ & _ & N).
      destruct (opcode_has_argument v T op); [|destruct N as (_ & _ & N)]; eapply IH; try exact N; lia. }
    destruct EV as [k EV]. exists (S k). lia.
  Qed.

  Lemma recorded_pos p lo : loc_of_pos p = Some lo -> coherent_loc v lo -> ~ spans_without_columns lo ->
    (forall z, l_lineno lo = Some z -> l_end_lineno lo <> None) -> recorded lo = p.
  Proof.
    destruct p as [[[l el] c] ec]. cbn [loc_of_pos]. intros H. injection H as <-. unfold coherent_loc, spans_without_columns, recorded.
    cbn [l_lineno l_end_lineno l_col l_end_col]. intros C S0 EN. unfold new_location in C. inv_ok.
    destruct l as [z|].
    - destruct el as [e|]; [|exfalso; now apply (EN z eq_refl)].
      destruct c as [c|]; [|destruct ec; [discriminate|]].
      + destruct ec; [reflexivity|discriminate].
      + destruct (Z.eq_dec e z) as [->|NE]; [reflexivity|]. exfalso. apply S0. split; [reflexivity|]. exists e. split; [reflexivity|congruence].
    - destruct el as [e|].
      + destruct (e =? 0) eqn:Q; [|discriminate]. match goal with H : check_location (Some e) 1 = Ok _ |- _ => unfold check_location in H; destruct (e <? 1) eqn:Q2 end; [discriminate|lia].
      + destruct c, ec; try discriminate. reflexivity.
  Qed.

  Lemma read_positions_end fuel : forall line bs p, In p (read_positions fuel line bs) ->
    match p with (Some _, None, _, _) => False | _ => True end.
  Proof.
    induction fuel as [|f IH]; intros line bs p H; [destruct H|]. cbn [read_positions] in H.
    destruct (read_entry line bs) as [[[[len q] line'] rest]|] eqn:R; [|destruct H].
    apply in_app_or in H. destruct H as [H|H]; [|eapply IH; eauto]. apply repeat_spec in H. subst q.
    unfold read_entry in R.
    repeat match type of R with
      | match ?x with _ => _ end = _ => destruct x as [|] || destruct x as [[? ?]|] || destruct x; try discriminate R
      end; injection R as <- <- <- <-; exact Logic.I.
  Qed.

  (** ** The code object *)
  Lemma remove_located l : forall nb ext l', Forall (located v) l -> remove_extended_args v T nb ext l = Ok l' -> Forall (located v) l'
    /\ forall c lo, In (CI c) l' -> c_loc c = Some lo -> exists d, In (CI d) l /\ c_loc d = Some lo.
  Proof.
    induction l as [|[c|z] r IH]; intros nb ext l' F R; cbn [remove_extended_args] in R.
    - destruct ext; [discriminate|]. injection R as <-. split; [constructor|]. intros c lo [].
    - inversion F as [|? ? F1 F2]; subst. destruct (String.eqb (c_name c) "EXTENDED_ARG").
      { destruct (IH _ _ _ F2 R) as [A B]. split; [exact A|]. intros d lo I1 I2. destruct (B d lo I1 I2) as (d' & ? & ?). exists d'. cbn; auto. }
      destruct ext as [e|]; inv_ok.
      + match goal with H : remove_extended_args _ _ _ _ _ = Ok _ |- _ => destruct (IH _ _ _ F2 H) as [A B] end.
        match goal with H : new_cinstr _ _ _ _ _ _ = Ok ?i |- _ => destruct (new_cinstr_ok _ _ _ _ _ _ _ H) as (V1 & N1 & A1 & L1 & X1) end.
        split.
        * constructor; [|exact A]. cbn [located] in *. now rewrite L1.
        * intros d lo [Q|I1] I2; [injection Q as <-; exists c; rewrite <- L1; cbn; auto|]. destruct (B d lo I1 I2) as (d' & ? & ?). exists d'. cbn; auto.
      + match goal with H : remove_extended_args _ _ _ _ _ = Ok _ |- _ => destruct (IH _ _ _ F2 H) as [A B] end.
        split; [constructor; auto|].
        intros d lo [Q|I1] I2; [injection Q as <-; exists c; cbn; auto|]. destruct (B d lo I1 I2) as (d' & ? & ?). exists d'. cbn; auto.
    - inversion F as [|? ? F1 F2]; subst. inv_ok. match goal with H : remove_extended_args _ _ _ _ _ = Ok _ |- _ => destruct (IH _ _ _ F2 H) as [A B] end.
      split; [constructor; auto|]. intros d lo [Q|I1] I2; [discriminate|]. destruct (B d lo I1 I2) as (d' & ? & ?). exists d'. cbn; auto.
  Qed.
End Locs.

(** What is parsed can be written again. *)
Lemma parse_varint_nonneg it x r : parse_varint it = Some (x, r) -> 0 <= x.
Proof.
  assert (G : forall it val x r, 0 <= val -> parse_varint_loop val it = Some (x, r) -> 0 <= x).
  { induction it0 as [|b it0 IH]; intros val y r0 V H; [discriminate|]. cbn [parse_varint_loop] in H.
    assert (V' : 0 <= Z.lor (Z.shiftl val 6) (Z.land b 63)).
    { apply Z.lor_nonneg. split; [apply Z.shiftl_nonneg; exact V|apply Z.land_nonneg; lia]. }
    destruct (Z.land b 64 =? 0); [injection H as <- <-; exact V'|]. exact (IH _ _ _ V' H). }
  destruct it as [|b it]; [discriminate|]. cbn [parse_varint]. assert (V' : 0 <= Z.land b 63) by (apply Z.land_nonneg; lia).
  destruct (Z.land b 64 =? 0); [intros H; injection H as <- <-; exact V'|apply G; exact V'].
Qed.
Lemma parsed_entries_ok bs : Forall entry_ok (parse_exception_table bs).
Proof.
  unfold parse_exception_table. generalize (length bs) as fuel. intros fuel. revert bs.
  induction fuel as [|f IH]; intros bs; [constructor|]. cbn [parse_exception_table_loop].
  destruct (parse_varint bs) as [[a r1]|] eqn:E1; [|constructor]. destruct (parse_varint r1) as [[b r2]|] eqn:E2; [|constructor].
  destruct (parse_varint r2) as [[c r3]|] eqn:E3; [|constructor]. destruct (parse_varint r3) as [[d r4]|] eqn:E4; [|constructor].
  apply parse_varint_nonneg in E1, E2, E3, E4. constructor; [|apply IH]. unfold entry_ok. cbn [e_start e_stop e_target e_depth].
  assert (0 <= Z.shiftr d 1) by now apply Z.shiftr_nonneg. lia.
Qed.

(** a position over several lines without columns *)
Definition spanning (p : position) : Prop :=
  match p with (Some l, Some el, None, _) => l <> el | _ => False end.

Lemma no_line_no_end v el c ec lo : new_location v None (Some el) c ec = Ok lo -> False.
Proof.
  unfold new_location, check_location. cbn [bind]. destruct (el <? 1) eqn:Q1; cbn [bind]; [discriminate|].
  destruct (match c with Some z => _ | None => _ end); cbn [bind]; [|discriminate].
  destruct (match ec with Some z => _ | None => _ end); cbn [bind]; [|discriminate].
  destruct (el =? 0) eqn:Q2; [lia|discriminate].
Qed.

Section Positions.
  Variables (v : pyver) (T : optable).
  Hypothesis wf : wf_optable v T = true.

  Lemma flat_map_unit l : Forall (unit_instr v T) l -> unit_locs T l = map c_loc l.
  Proof.
    induction 1 as [|c l U F IH]; [reflexivity|]. unfold unit_locs in *. cbn [flat_map map]. rewrite (unit_len v T c U), IH. reflexivity.
  Qed.
  Lemma unit_list_Forall l : forall ext, unit_list v T ext l -> Forall (unit_instr v T) l.
  Proof. induction l as [|c l IH]; intros ext U; constructor; destruct U as (U & _ & R); eauto. Qed.

  Lemma round_positions co e cb s : PY311 v = true -> normal v T 0 false (co_code co) ->
    let pos := co_positions (co_firstlineno co) (co_linetable co) in
    (2 * length pos = length (co_code co))%nat -> (forall p, In p pos -> ~ spanning p) ->
    (e = false -> forall k, nth_error (co_code co) (2 * k) = Some (t_extended_arg T) -> nth_error pos k = nth_error pos (S k)) ->
    from_code v T co e = Ok cb ->
    exists co', to_code_raw v T cb s = Ok co' /\ co_positions (co_firstlineno co') (co_linetable co') = pos
      /\ parse_exception_table (co_exceptiontable co') = parse_exception_table (co_exceptiontable co).
  Proof.
    intros P N pos LP SP SE F. unfold from_code in F. apply bind_ok in F. destruct F as (l & D & F). apply bind_ok in F. destruct F as (l' & R & F).
    destruct (disassemble_bytes v T wf _ _ N D) as [B U].
    unfold disassemble_code in D. rewrite P in D. fold pos in D.
    assert (EV := normal_even v T wf _ (co_code co) _ _ (le_n _) N).
    assert (LU := dis_units_len v T wf _ (co_code co) 0 0 (le_n _) EV).
    destruct (from_units_locs v T wf _ _ l D ltac:(lia)) as (ML & LL & AL).
    replace (length (dis_units v T 0 0 (co_code co))) with (length pos) in ML by lia. rewrite firstn_all in ML.
    assert (LOCS : unit_locs T (instrs_of l') = map loc_of_pos pos /\ Forall (sized T) l' /\ Forall (located v) l'
                   /\ forall c lo, In (CI c) l' -> c_loc c = Some lo -> exists p, In p pos /\ loc_of_pos p = Some lo).
    { assert (IN : forall c lo, In (CI c) l -> c_loc c = Some lo -> exists p, In p pos /\ loc_of_pos p = Some lo).
      { intros c lo I Q. assert (X : In (c_loc c) (map c_loc (instrs_of l))).
        { apply in_map. unfold instrs_of. apply in_flat_map. exists (CI c). cbn. auto. }
        rewrite ML in X. apply in_map_iff in X. destruct X as (p & A & I2). exists p. split; congruence. }
      destruct e.
      - injection R as <-. rewrite (flat_map_unit _ (unit_list_Forall _ _ U)). split; [exact ML|]. split; [|split; [exact LL|exact IN]].
        assert (UF := unit_list_Forall _ _ U). clear - UF. induction l as [|[c|z] l IH]; constructor; cbn [instrs_of flat_map app] in UF; change (flat_map _ l) with (instrs_of l) in UF.
        + inversion UF as [|? ? U1 _]; subst. destruct (unit_bytes v T c U1) as [UB US]. cbn [sized]. rewrite UB, US. reflexivity.
        + inversion UF; auto.
        + exact Logic.I.
        + auto.
      - destruct (remove_located v T l 0 None l' LL R) as [LL' IN'].
        split; [|split; [|split; [exact LL'|]]].
        + rewrite (remove_locs v T wf l [] l' None (Forall_nil _) U); [| |exact R].
          * cbn [length repeat app]. rewrite (flat_map_unit _ (unit_list_Forall _ _ U)). exact ML.
          * apply same_loc_nth; [exact Logic.I|]. intros k c d NC ND EQ.
            assert (X : nth_error (map (fun c => Some (c_name c)) (instrs_of l)) k = Some (Some "EXTENDED_ARG")).
            { rewrite nth_error_map, NC. cbn. now rewrite EQ. }
            rewrite (from_units_names v T _ _ _ D) in X. apply (dis_units_names v T wf _ _ _ _ _ (le_n _) EV) in X.
            specialize (SE eq_refl k X).
            assert (Y : nth_error (map c_loc (instrs_of l)) k = nth_error (map c_loc (instrs_of l)) (S k)).
            { rewrite ML, !nth_error_map, SE. reflexivity. }
            rewrite !nth_error_map, NC, ND in Y. cbn in Y. congruence.
        + exact (remove_sized v T wf l [] l' (Forall_nil _) U R).
        + intros c lo I Q. destruct (IN' c lo I Q) as (d & ID & QD). eauto. }
    destruct LOCS as (UL & SZ & LO & INP). injection F as <-.
    match goal with |- context [to_code_raw v T ?cb s] => set (cbx := cb) end.
    destruct (C13_location_table v T cbx s P) as (co' & TC & CC & CP).
    - exact SZ.
    - exact LO.
    - intros pre c post lo Q CL SPN. assert (I : In (CI c) l') by (change (cb_items cbx) with l' in Q; rewrite Q; apply in_elt).
      destruct (INP c lo I CL) as (p & IP & LP'). apply (SP p IP). destruct p as [[[a b] cc] ec]. cbn [loc_of_pos] in LP'. injection LP' as <-.
      destruct SPN as (SC & el & SE1 & SE2). cbn in SC, SE1, SE2. subst. cbn. destruct a as [a|]; [congruence|].
      rewrite Forall_forall in LO. destruct (LO (CI c) I) as (lo' & CL' & CO). rewrite CL in CL'. injection CL' as <-.
      exact (no_line_no_end _ _ _ _ _ CO).
    - unfold cbx. cbn [cb_ex]. rewrite P. apply parsed_entries_ok.
    - exists co'. split; [exact TC|]. split.
      + rewrite CP. change (cb_items cbx) with l'. clear - UL LO INP SP wf.
        assert (G : flat_map (fun c => repeat (match c_loc c with Some l => recorded l | None => (None, None, None, None) end)
                     (Z.to_nat (zlen (assemble T c) / 2))) (instrs_of l')
                  = map (fun o => match o with Some l => recorded l | None => (None, None, None, None) end) (unit_locs T (instrs_of l'))).
        { generalize (instrs_of l') as cs. induction cs as [|c cs IH]; [reflexivity|]. unfold unit_locs in *. cbn [flat_map]. rewrite map_app, IH. f_equal.
          generalize (Z.to_nat (zlen (assemble T c) / 2)) as k. induction k as [|k IHk]; [reflexivity|]. cbn. now rewrite IHk. }
        rewrite G, UL, map_map. rewrite <- (map_id pos) at 2. apply map_ext_in. intros p IP.
        destruct (loc_of_pos p) as [lo|] eqn:Q; [|destruct p as [[[? ?] ?] ?]; discriminate Q].
        assert (IU : In (Some lo) (unit_locs T (instrs_of l'))) by (rewrite UL, <- Q; now apply in_map).
        unfold unit_locs in IU. apply in_flat_map in IU. destruct IU as (c & IC & IR). apply repeat_spec in IR.
        assert (IL : In (CI c) l').
        { unfold instrs_of in IC. apply in_flat_map in IC. destruct IC as ([c'|z] & I1 & I2); cbn in I2; [|contradiction]. destruct I2 as [->|[]]. exact I1. }
        rewrite Forall_forall in LO. destruct (LO (CI c) IL) as (lo' & CL & CO). rewrite <- IR in CL. injection CL as <-.
        apply (recorded_pos v T wf p lo Q CO).
        * intros (A & el & B & C). apply (SP p IP). destruct p as [[[a b] cc] ec]. cbn [loc_of_pos] in Q. injection Q as <-. cbn in *. subst.
          destruct a as [a|]; [congruence|]. exact (no_line_no_end _ _ _ _ _ CO).
        * intros z LZ NE. destruct p as [[[a b] cc] ec]. cbn [loc_of_pos] in Q. injection Q as <-. cbn in LZ, NE. subst.
          exact (read_positions_end _ _ _ _ IP).
      + unfold to_code_raw in TC. destruct (assemble_code v T cbx) as [code ln]. inv_ok. cbn [co_exceptiontable].
        unfold cbx in *. cbn [cb_ex] in *. rewrite P in *.
        match goal with H : assemble_exception_table _ = Ok _ |- _ => exact (parse_assemble_table _ _ H) end.
  Qed.
End Positions.
