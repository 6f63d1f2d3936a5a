(** Reading what was written: the instructions (3.11+). *)
From Verif Require Import PyBase OpTable CPy P_Base P_OpTable M_Instr M_Tables M_Concrete S_Args S_Lines S_Dis S_Asm S_Round S_Code S_Written
  P_Asm P_Round P_Round2 P_Round3 P_Conv2 P_Code P_From.
Open Scope string_scope.
Open Scope list_scope.
Open Scope Z_scope.

Section Written.
  Variables (v : pyver) (T : optable).
  Hypothesis wf : wf_optable v T = true.
  Notation E := (t_extended_arg T).
  Notation ce c := (cache_entries v T (c_name c) (c_op c)).

  (** One code unit read as an instruction *)
  Definition unit_at (n : string) (op : Z) (a : option Z) (lo : option loc) : cinstr := mkC n op a lo None 2.
  Definition ext_at (lo : option loc) (e : Z) : citem := CI (unit_at "EXTENDED_ARG" E (Some e) lo).

  Lemma make_unit n op a lo : opmap T n = Some op -> op < t_min_instrumented T ->
    (match a with Some a => (opcode_has_argument v T op = true \/ op = 0) /\ 0 <= a < 256 | None => opcode_has_argument v T op = false end) ->
    new_cinstr v T n (match a with Some a => OInt a | None => OUnset end) lo None = Ok (unit_at n op a lo).
  Proof.
    intros O B A. unfold new_cinstr, resolve_name. rewrite O. replace (t_min_instrumented T <=? op) with false by lia. cbn [bind].
    unfold c_check_arg. destruct a as [a|].
    - destruct A as [A R]. unfold check_arg_int. cbn [is_unset as_int].
      replace ((0 <=? a) && (a <=? 2147483647)) with true by lia.
      assert (S2 : compute_size None (Some a) = 2).
      { unfold compute_size, bit_fuel. cbn [size_loop]. replace (255 <? a) with false by lia. reflexivity. }
      destruct A as [A|A].
      + rewrite A. cbn [bind]. unfold carg_of. cbn [is_unset as_int]. now rewrite S2.
      + subst op. destruct (opcode_has_argument v T 0); cbn [bind Z.eqb]; unfold carg_of; cbn [is_unset as_int]; now rewrite S2.
    - rewrite A. cbn [is_unset]. destruct (op =? 0); cbn; reflexivity.
  Qed.

  Hypothesis P11 : PY311 v = true.

  Lemma from_unit n a us p ps l el c ec lo : p = (l, el, c, ec) -> new_location v l el c ec = Ok lo ->
    from_units v T ((Some n, a) :: us) (p :: ps)
    = (i <- new_cinstr v T n (match a with Some a => OInt (a mod 256) | None => OUnset end) (Some lo) None ;;
       r <- from_units v T us ps ;; Ok (CI i :: r)).
  Proof. intros -> NL. cbn [from_units]. rewrite NL. reflexivity. Qed.

  Lemma ext_base : E < t_min_instrumented T.
  Proof. exact (wf_ext_lt v T wf). Qed.

  Lemma units_ext es : forall z l el c ec lo rest pos, z mod 256 = 0 -> Forall byte es ->
    new_location v l el c ec = Ok lo ->
    exists z', z' mod 256 = 0 /\
      from_units v T (dis_units v T 0 z (spell E es ++ rest)) (repeat (l, el, c, ec) (length es) ++ pos)
      = (r <- from_units v T (dis_units v T 0 z' rest) pos ;; Ok (map (ext_at (Some lo)) es ++ r)).
  Proof.
    induction es as [|e es IH]; intros z l el c ec lo rest pos Z0 B NL.
    - exists z. split; [exact Z0|]. cbn [spell map concat app repeat length]. destruct (from_units _ _ _ _); reflexivity.
    - inversion_clear B as [|? ? B1 B2]. pose proof (wf_ext v T wf) as XN.
      change (spell E (e :: es) ++ rest) with (E :: e :: (spell E es ++ rest)).
      cbn [dis_units length repeat app]. change (0 <? 0) with false. cbv iota.
      rewrite (proj1 (opmap_opname v T wf _ _) XN), (wf_ext_arg v T wf), Z.eqb_refl, (wf_ext_nocache v T wf). cbv zeta.
      assert (Z1 : Z.shiftl (e + z) 8 mod 256 = 0) by (rewrite shiftl8; apply Z.mod_mul; lia).
      destruct (IH _ l el c ec lo rest pos Z1 B2 NL) as (z' & Z2 & Q). exists z'. split; [exact Z2|].
      rewrite (from_unit _ _ _ _ _ l el c ec lo eq_refl NL), Q. unfold byte in B1.
      assert (AB : (e + z) mod 256 = e) by (rewrite Z.add_mod, Z0 by lia; rewrite Z.add_0_r, Z.mod_mod by lia; apply Z.mod_small; lia).
      rewrite AB. rewrite (make_unit "EXTENDED_ARG" E (Some e) (Some lo) XN ext_base) by (split; [left; exact (wf_ext_arg v T wf)|lia]). cbn [bind].
      destruct (from_units v T (dis_units v T 0 z' rest) pos); reflexivity.
  Qed.

  Lemma units_one n op b z rest l el c ec lo pos : opmap T n = Some op -> op < t_min_instrumented T -> op <> E -> byte b -> z mod 256 = 0 ->
    new_location v l el c ec = Ok lo ->
    from_units v T (dis_units v T 0 z (op :: b :: rest)) ((l, el, c, ec) :: pos)
    = (r <- from_units v T (dis_units v T (cache_entries v T n op) 0 rest) pos ;;
       Ok (CI (unit_at n op (if opcode_has_argument v T op then Some b else None) (Some lo)) :: r)).
  Proof.
    intros O B NE RB Z0 NL. cbn [dis_units]. change (0 <? 0) with false. cbv iota. rewrite (proj1 (opmap_opname v T wf _ _) O).
    unfold byte in RB. destruct (opcode_has_argument v T op) eqn:HA.
    - rewrite (proj2 (Z.eqb_neq _ _) NE), (from_unit _ _ _ _ _ l el c ec lo eq_refl NL).
      assert (AB : (b + z) mod 256 = b) by (rewrite Z.add_mod, Z0 by lia; rewrite Z.add_0_r, Z.mod_mod by lia; apply Z.mod_small; lia).
      rewrite AB, (make_unit n op (Some b)) by (first [assumption | split; [now left|lia]]). cbn [bind]. destruct (from_units _ _ _ _); reflexivity.
    - rewrite (from_unit _ _ _ _ _ l el c ec lo eq_refl NL), (make_unit n op None) by auto. cbn [bind]. destruct (from_units _ _ _ _); reflexivity.
  Qed.

  (** where an instruction was recorded, and the location read there *)
  Notation placing := (cinstr * loc)%type.
  Definition readable (x : placing) : Prop := coherent_loc v (kept_loc (snd x)).
  Lemma readable_kept x : readable x -> let '(a, b, p, q) := recorded (snd x) in new_location v a b p q = Ok (kept_loc (snd x)).
  Proof. unfold readable, kept_loc. destruct (recorded (snd x)) as [[[a b] p] q]. intros C. exact C. Qed.

  Definition unit_cache (x : placing) : citem := CI (unit_at "CACHE" 0 (Some 0) (Some (kept_loc (snd x)))).
  Lemma units_caches ks : forall rest pos, Forall readable ks ->
    from_units v T (dis_units v T (zlen ks) 0 (concat (repeat [0; 0] (length ks)) ++ rest)) (map (fun x => recorded (snd x)) ks ++ pos)
    = (r <- from_units v T (dis_units v T 0 0 rest) pos ;; Ok (map unit_cache ks ++ r)).
  Proof.
    induction ks as [|d ks IH]; intros rest pos R.
    - cbn. destruct (from_units _ _ _ _); reflexivity.
    - inversion_clear R as [|? ? R1 R2].
      cbn [length repeat concat app dis_units]. replace (0 <? zlen (d :: ks)) with true by (rewrite zlen_cons; pose proof (zlen_nonneg ks); lia).
      replace (zlen (d :: ks) - 1) with (zlen ks) by (rewrite zlen_cons; lia). cbn [map app].
      pose proof (readable_kept d R1) as NL. destruct (recorded (snd d)) as [[[a b] x] y] eqn:PD.
      rewrite (from_unit _ _ _ _ _ a b x y (kept_loc (snd d)) eq_refl NL). change (0 mod 256) with 0.
      destruct (wf_cache_op0 v T wf P11) as (CO & _ & CB & _).
      rewrite (make_unit "CACHE" 0 (Some 0)) by (first [assumption | lia | split; [right; reflexivity|lia]]). cbn [bind]. rewrite (IH rest pos R2). destruct (from_units _ _ _ _); reflexivity.
  Qed.

  Definition pos_of (x : placing) : list position := repeat (recorded (snd x)) (Z.to_nat (zlen (assemble T (fst x)) / 2)).
  Definition low (c : cinstr) (lo : loc) : cinstr :=
    unit_at (c_name c) (c_op c) (match c_arg c with Some a => Some (a mod 256) | None => None end) (Some (kept_loc lo)).

  Lemma cache_bytes d : inline_cache d -> assemble T d = [0; 0].
  Proof.
    intros (_ & O & A & _ & [X|X]); unfold assemble; rewrite A, O, X; reflexivity.
  Qed.
  Lemma isc_cache d : inline_cache d -> isc T d.
  Proof. intros I. repeat split; [apply I|now apply cache_bytes|apply I]. Qed.

  Lemma group_units c lo es kx rest pos : ordinary v T c -> c_name c <> "CACHE" -> Forall byte es ->
    assemble T c = spell E es ++ [c_op c; match c_arg c with Some a => a mod 256 | None => 0 end] ->
    zlen kx = ce c -> Forall (fun x => inline_cache (fst x)) kx -> readable (c, lo) -> Forall readable kx ->
    from_units v T (dis_units v T 0 0 (assemble T c ++ code T (map fst kx) ++ rest)) (pos_of (c, lo) ++ flat_map pos_of kx ++ pos)
    = (r <- from_units v T (dis_units v T 0 0 rest) pos ;;
       Ok (map (ext_at (Some (kept_loc lo))) es ++ CI (low c lo) :: map unit_cache kx ++ r)).
  Proof.
    intros OR NC B Q L F RC RK. destruct OR as ((O & BL & A & _) & NE & _).
    assert (NEo : c_op c <> E) by (intros X; apply NE; eapply opmap_inj; [exact wf|exact O|]; rewrite X; exact (wf_ext v T wf)).
    assert (PC : pos_of (c, lo) = repeat (recorded lo) (length es) ++ [recorded lo]).
    { unfold pos_of. cbn [fst snd]. rewrite Q, zlen_app, spell_len. change (zlen [c_op c; match c_arg c with Some a => a mod 256 | None => 0 end]) with 2.
      replace (2 * zlen es + 2) with ((zlen es + 1) * 2) by lia. rewrite Z.div_mul by lia. unfold zlen.
      replace (Z.to_nat (Z.of_nat (length es) + 1)) with (length es + 1)%nat by lia. now rewrite repeat_app. }
    assert (PK : flat_map pos_of kx = map (fun x => recorded (snd x)) kx).
    { clear - F. induction F as [|d ks I F IH]; [reflexivity|]. cbn [flat_map map]. rewrite IH. unfold pos_of. rewrite (cache_bytes _ I). reflexivity. }
    assert (CK : code T (map fst kx) = concat (repeat [0; 0] (length kx))).
    { rewrite <- (map_length fst kx). apply code_isc. clear - F. induction F; constructor; [now apply isc_cache|assumption]. }
    rewrite PC, PK, CK, Q. pose proof (readable_kept _ RC) as NL. cbn [snd] in NL. destruct (recorded lo) as [[[a b] x] y] eqn:PL.
    rewrite <- !app_assoc. cbn [app].
    destruct (units_ext es 0 a b x y (kept_loc lo) (c_op c :: match c_arg c with Some a => a mod 256 | None => 0 end :: concat (repeat [0; 0] (length kx)) ++ rest)
      ((a, b, x, y) :: map (fun x => recorded (snd x)) kx ++ pos) eq_refl B NL) as (z' & Z2 & UX). etransitivity; [exact UX|]. clear UX.
    rewrite (units_one (c_name c) (c_op c)) with (lo := kept_loc lo); auto.
    2:{ unfold byte. destruct (c_arg c); [apply Z.mod_pos_bound; lia|lia]. }
    rewrite <- L, (units_caches kx rest pos RK).
    assert (LW : CI (unit_at (c_name c) (c_op c) (if opcode_has_argument v T (c_op c) then Some (match c_arg c with Some a => a mod 256 | None => 0 end) else None) (Some (kept_loc lo))) = CI (low c lo)).
    { unfold low. destruct (c_arg c) as [ar|].
      - destruct A as [_ [A|A]]; [now rewrite A|]. exfalso. apply NC.
        eapply opmap_inj; [exact wf|exact O|]. rewrite A. apply (wf_cache_op0 v T wf P11).
      - now rewrite A. }
    rewrite LW. destruct (from_units v T (dis_units v T 0 0 rest) pos); [|reflexivity]. cbn [bind]. reflexivity.
  Qed.

  (** ** folding *)
  Lemma fold_exts lo es : forall nb acc l,
    remove_extended_args v T nb acc (map (ext_at lo) es ++ l)
    = remove_extended_args v T (nb + zlen es)
        (match es with [] => acc | _ => Some (fold_left (fun a e => a * 256 + e) es (match acc with Some a => a | None => 0 end)) end) l.
  Proof.
    induction es as [|e es IH]; intros nb acc l; [cbn; now rewrite Z.add_0_r|].
    cbn [map app remove_extended_args ext_at unit_at c_name c_arg]. change (String.eqb "EXTENDED_ARG" "EXTENDED_ARG") with true. cbv iota.
    rewrite IH, zlen_cons. replace (nb + 1 + zlen es) with (nb + (1 + zlen es)) by lia. f_equal.
    cbn [fold_left]. destruct acc as [a|]; rewrite ?shiftl8; destruct es; reflexivity.
  Qed.
  Lemma fold_caches ks l : remove_extended_args v T 0 None (map unit_cache ks ++ l)
    = (r <- remove_extended_args v T 0 None l ;; Ok (map unit_cache ks ++ r)).
  Proof.
    induction ks as [|d ks IH]; cbn [map app]; [destruct (remove_extended_args v T 0 None l); reflexivity|].
    unfold unit_cache at 1. cbn [remove_extended_args unit_at c_name c_arg]. change (String.eqb "CACHE" "EXTENDED_ARG") with false. cbv iota.
    rewrite IH. destruct (remove_extended_args v T 0 None l); reflexivity.
  Qed.

  Lemma fold_group c lo es ks l : ordinary v T c -> c_name c <> "CACHE" -> Forall byte es ->
    assemble T c = spell E es ++ [c_op c; match c_arg c with Some a => a mod 256 | None => 0 end] ->
    value es = match c_arg c with Some a => a / 256 | None => 0 end -> c_size c = 2 * zlen es + 2 ->
    exists d, remove_extended_args v T 0 None (map (ext_at (Some (kept_loc lo))) es ++ CI (low c lo) :: map unit_cache ks ++ l)
      = (r <- remove_extended_args v T 0 None l ;; Ok (CI d :: map unit_cache ks ++ r))
    /\ c_name d = c_name c /\ c_op d = c_op c /\ c_arg d = c_arg c /\ c_size d = c_size c /\ c_loc d = Some (kept_loc lo).
  Proof.
    intros ((O & BL & A & _) & NE & _) NC B Q V SZ.
    rewrite fold_exts. rewrite Z.add_0_l. destruct es as [|e es].
    - exists (low c lo). split.
      + cbn [remove_extended_args low unit_at c_name c_arg]. rewrite (proj2 (String.eqb_neq _ _) NE). change (zlen []) with 0.
        rewrite fold_caches. destruct (remove_extended_args v T 0 None l); reflexivity.
      + cbn [low unit_at c_name c_op c_arg c_size c_loc]. repeat (split; [reflexivity|]). change (value []) with 0 in V. change (zlen []) with 0 in SZ.
        split; [|split; [rewrite SZ; reflexivity|reflexivity]].
        destruct (c_arg c) as [a|]; [|reflexivity]. destruct A as [A _]. f_equal. pose proof (Z.div_mod a 256 ltac:(lia)). lia.
    - change (fold_left (fun a e0 => a * 256 + e0) (e :: es) 0) with (value (e :: es)). rewrite V.
      destruct (c_arg c) as [a|] eqn:CA.
      2:{ exfalso. unfold assemble in Q. rewrite CA in Q. apply (f_equal zlen) in Q. rewrite zlen_app, spell_len, (zlen_cons e es) in Q.
          change (zlen [c_op c; 0]) with 2 in Q. pose proof (zlen_nonneg es). lia. }
      destruct A as [A HA]. destruct HA as [HA|HA].
      2:{ exfalso. apply NC. eapply opmap_inj; [exact wf|exact O|]. rewrite HA. apply (wf_cache_op0 v T wf P11). }
      exists (mkC (c_name c) (c_op c) (Some a) (Some (kept_loc lo)) (Some (zlen (e :: es))) (2 + 2 * zlen (e :: es))). split.
      + cbn [remove_extended_args low unit_at c_name c_arg c_loc]. rewrite (proj2 (String.eqb_neq _ _) NE), CA.
        assert (NN : String.eqb (c_name c) "NOP" = false).
        { apply String.eqb_neq. intros X. destruct (wf_nop v T wf) as (o & ON & OA & _). rewrite X in O. congruence. }
        rewrite NN, shiftl8. replace (a / 256 * 256 + a mod 256) with a by (pose proof (Z.div_mod a 256 ltac:(lia)); lia).
        unfold new_cinstr, resolve_name. rewrite O. replace (t_min_instrumented T <=? c_op c) with false by lia. cbn [bind].
        unfold c_check_arg, check_arg_int. rewrite HA. cbn [is_unset as_int]. replace ((0 <=? a) && (a <=? 2147483647)) with true by lia. cbn [bind].
        rewrite fold_caches. unfold carg_of, compute_size. cbn [is_unset as_int]. destruct (remove_extended_args v T 0 None l); reflexivity.
      + cbn [c_name c_op c_arg c_size c_loc]. repeat (split; [reflexivity|]). split; [lia|reflexivity].
  Qed.

  Theorem written_read cs : whole v T cs -> forall xs, map fst xs = cs -> Forall readable xs ->
    exists l0 l, from_units v T (dis_units v T 0 0 (code T cs)) (flat_map pos_of xs) = Ok l0
      /\ remove_extended_args v T 0 None l0 = Ok l /\ Forall2 read_back xs l.
  Proof.
    induction 1 as [|c ks rest OR NC SZ L FK W IH]; intros xs MX RD.
    - destruct xs; [|discriminate]. exists [], []. repeat split. constructor.
    - destruct xs as [|[c' lo] xs]; [discriminate|]. cbn [map fst] in MX. injection MX as -> MX.
      assert (XS : exists kx rx, xs = kx ++ rx /\ map fst kx = ks /\ map fst rx = rest).
      { exists (firstn (length ks) xs), (skipn (length ks) xs). split; [symmetry; apply firstn_skipn|].
        rewrite <- firstn_map, <- skipn_map, MX, firstn_app, skipn_app, firstn_all, skipn_all, Nat.sub_diag. cbn. now rewrite app_nil_r. }
      destruct XS as (kx & rx & -> & K1 & K2). inversion_clear RD as [|? ? RC RR]. apply Forall_app in RR. destruct RR as [RK RR].
      destruct (IH rx K2 RR) as (l0 & l & E0 & E1 & FA).
      destruct (okc_bytes v T wf c (conj OR SZ)) as (es & B & S2 & Q & V).
      change (code T (c :: ks ++ rest)) with (assemble T c ++ code T (ks ++ rest)). rewrite code_app.
      cbn [flat_map]. rewrite flat_map_app. rewrite <- K1 in FK, L.
      assert (FX : Forall (fun x => inline_cache (fst x)) kx) by (clear - FK; induction kx; cbn in FK; inversion_clear FK; constructor; auto).
      rewrite <- K1.
      rewrite (group_units c lo es kx (code T rest) (flat_map pos_of rx)) by (auto; unfold zlen in *; now rewrite map_length in L). rewrite E0. cbn [bind].
      destruct (fold_group c lo es kx l0 OR NC B Q V S2) as (d & FG & D1 & D2 & D3 & D4 & D5).
      eexists; exists (CI d :: map unit_cache kx ++ l).
      split; [reflexivity|]. rewrite FG, E1. split; [reflexivity|]. constructor.
      + repeat (split; [assumption|]). exact D5.
      + apply Forall2_app; [|exact FA]. clear - FX. induction FX as [|k kx (K1 & K2 & K3 & K4 & _) FK IH]; [constructor|].
        cbn [map]. constructor; [|exact IH].
        cbn [read_back unit_cache unit_at c_name c_op c_arg c_size c_loc]. repeat (split; [congruence|]). reflexivity.
  Qed.
End Written.
