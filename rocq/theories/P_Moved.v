(** Assembly passes the locations through: C76. *)
From Verif Require Import PyBase OpTable CPy P_Base M_Instr M_Tables M_Concrete M_Convert M_Bytecode S_Args S_Lines S_Asm S_Prog S_Ident S_Code S_Written P_Locs P_LinesCode P_Written2 T_Asm T_Code T_Only.
Open Scope string_scope.
Open Scope list_scope.
Open Scope Z_scope.

Section Moved.
Variable f : loc -> loc.
Definition mv_c (c : cinstr) : cinstr := mkC (c_name c) (c_op c) (c_arg c) (option_map f (c_loc c)) (c_ext c) (c_size c).
Definition mv_item (it : citem) : citem := match it with CI c => CI (mv_c c) | CSet z => CSet z end.
Definition mv_k (lo : loc) (K : conv) : conv :=
  mkK (map mv_c (k_instrs K)) (k_jumps K) (k_labels K) (k_ex K) (k_req K) (k_manual K) (k_consts K) (k_names K) (k_varnames K) lo
    (k_cells K) (k_frees K) (k_try K).
(** Every instruction is given the image of the location in force *)
Fixpoint own (cur : loc) (items : list bitem) : list bitem :=
  match items with
  | [] => []
  | BI i :: r => let l := match i_loc i with Some l => l | None => cur end in
                 BI (mkInstr (i_name i) (i_op i) (i_arg i) (Some (f l))) :: own l r
  | BSet z :: r => BSet z :: own (line_loc (Some z)) r
  | x :: r => x :: own cur r
  end.
Definition own_b (b : bytecode) : bytecode := mkB (b_meta b) (b_argnames b) (own (line_loc (Some (m_first_lineno (b_meta b)))) (b_items b)).

Lemma mv_new v T n a l e c : new_cinstr v T n a l e = Ok c -> new_cinstr v T n a (option_map f l) e = Ok (mv_c c).
Proof. unfold new_cinstr. destruct (resolve_name T n) as [op|]; [|discriminate]. cbn [bind]. destruct (c_check_arg v T op a); [|discriminate]. cbn [bind]. intros H. injection H as <-. reflexivity. Qed.

Lemma mv_encode v T keq m K lo i l : encode_arg v T keq m (mv_k lo K) (mkInstr (i_name i) (i_op i) (i_arg i) l) = encode_arg v T keq m K i.
Proof. reflexivity. Qed.

Lemma mv_flush v T K it it' lo K2 : is_cache it' = is_cache it -> flush_caches v T K it = Ok K2 ->
  flush_caches v T (mv_k lo K) it' = Ok (mv_k lo K2) /\ k_loc K2 = k_loc K.
Proof.
  destruct K as [ins jumps labels ex req manual co na va l0 ce fr tr]. unfold flush_caches, mv_k. cbn [k_instrs k_jumps k_labels k_ex k_req k_manual k_consts k_names k_varnames k_cells k_frees k_try].
  intros ->. destruct (is_cache it).
  - destruct (req =? 0); [discriminate|]. intros H. injection H as <-. split; reflexivity.
  - destruct (req =? 0). { intros H. injection H as <-. split; reflexivity. }
    destruct manual; [discriminate|]. intros H. apply bind_ok in H. destruct H as (c & H1 & H). apply bind_ok in H. destruct H as (d & H2 & H). injection H as <-.
    rewrite map_length, nth_error_map. destruct (nth_error ins (pred (length ins))) eqn:E; [|discriminate]. injection H1 as ->. cbn [option_map of_option bind].
    apply mv_new in H2. cbn [mv_c c_loc]. rewrite H2. cbn. split; [|reflexivity]. do 2 f_equal. rewrite map_app. f_equal. clear. induction (Z.to_nat req); cbn; congruence.
Qed.

Definition own_item (cur : loc) (it : bitem) : bitem :=
  match it with BI i => BI (mkInstr (i_name i) (i_op i) (i_arg i) (Some (f (match i_loc i with Some l => l | None => cur end)))) | x => x end.
Lemma own_cons cur it r : exists cur', own cur (it :: r) = own_item cur it :: own cur' r
  /\ cur' = match it with BI i => match i_loc i with Some l => l | None => cur end | BSet z => line_loc (Some z) | _ => cur end.
Proof. destruct it; eexists; split; reflexivity. Qed.

Lemma mv_body v T keq m K it lo K2 : conv_body v T keq m K it = Ok K2 ->
  (exists lo2, conv_body v T keq m (mv_k lo K) (own_item (k_loc K) it) = Ok (mv_k lo2 K2))
  /\ k_loc K2 = match it with BI i => match i_loc i with Some l => l | None => k_loc K end | BSet z => line_loc (Some z) | _ => k_loc K end.
Proof.
  destruct K as [ins jumps labels ex req manual co na va l0 ce fr tr].
  destruct it as [i|l|z|id target lasti depth|id]; unfold conv_body, mv_k, own_item;
    cbn [k_instrs k_jumps k_labels k_ex k_req k_manual k_consts k_names k_varnames k_cells k_frees k_try k_loc]; intros H.
  - apply bind_ok in H. destruct H as ([[[[[[co' na'] va'] first] name] arg] kind] & H1 & H).
    change (encode_arg v T keq m (mkK (map mv_c ins) jumps labels ex req manual co na va lo ce fr tr)
       (mkInstr (i_name i) (i_op i) (i_arg i) (Some (f match i_loc i with Some l => l | None => l0 end))))
      with (encode_arg v T keq m (mkK ins jumps labels ex req manual co na va l0 ce fr tr) i).
    rewrite H1. cbn [bind i_loc i_arg]. set (l := match i_loc i with Some l => l | None => l0 end) in *.
    apply bind_ok in H. destruct H as ([ins1 pos] & H2 & H). apply bind_ok in H. destruct H as (c & H3 & H). injection H as <-.
    assert (X : (match first with
                 | Some (n1, j1) => c1 <- new_cinstr v T n1 (OInt j1) (Some (f l)) None ;; Ok (map mv_c ins ++ [c1], length (map mv_c ins))
                 | None => Ok (map mv_c ins, length (map mv_c ins)) end) = Ok (map mv_c ins1, pos)).
    { destruct first as [[n1 j1]|].
      - apply bind_ok in H2. destruct H2 as (c1 & H2 & H4). injection H4 as <- <-. apply mv_new in H2. cbn [option_map] in H2. rewrite H2. cbn [bind].
        now rewrite map_length, map_app.
      - injection H2 as <- <-. now rewrite map_length. }
    rewrite X. cbn [bind]. apply mv_new in H3. cbn [option_map] in H3. rewrite H3. cbn [bind k_loc]. split; [|reflexivity].
    eexists. rewrite map_length. unfold mv_k. cbn [k_instrs k_jumps k_labels k_ex k_req k_manual k_consts k_names k_varnames k_cells k_frees k_try]. rewrite map_app. reflexivity.
  - injection H as <-. rewrite map_length. split; [eexists|]; reflexivity.
  - injection H as <-. split; [eexists|]; reflexivity.
  - destruct depth as [d|]; [|discriminate]. injection H as <-. cbn [of_option bind]. split; [eexists|reflexivity]. unfold zlen. now rewrite map_length.
  - destruct (dget Nat.eqb ex id); [|discriminate]. injection H as <-. cbn [of_option bind]. split; [eexists|reflexivity]. unfold zlen. now rewrite map_length.
Qed.

Lemma mv_conv v T keq m items : forall K lo K2, foldM (conv_item v T keq m) items K = Ok K2 ->
  exists lo2, foldM (conv_item v T keq m) (own (k_loc K) items) (mv_k lo K) = Ok (mv_k lo2 K2).
Proof.
  induction items as [|it r IH]; intros K lo K2 H.
  - injection H as <-. exists lo. reflexivity.
  - cbn [foldM] in H. apply bind_ok in H. destruct H as (K1 & H1 & H).
    destruct (own_cons (k_loc K) it r) as (cur & -> & EC). cbn [foldM].
    unfold conv_item in H1. apply bind_ok in H1. destruct H1 as (tr & T1 & H1).
    assert (IC : iter_check (k_try (mv_k lo K)) (own_item (k_loc K) it) = Ok tr) by (destruct it; exact T1).
    unfold conv_item. rewrite IC. cbn [bind]. destruct K as [ins jumps labels ex req manual co na va l0 ce fr tr0].
    cbn [mv_k k_instrs k_jumps k_labels k_ex k_req k_manual k_consts k_names k_varnames k_cells k_frees k_try k_loc] in *.
    apply bind_ok in H1. destruct H1 as (Kf & F1 & H1).
    assert (CC : is_cache (Some (own_item l0 it)) = is_cache (Some it)) by (destruct it; reflexivity).
    destruct (mv_flush v T _ (Some it) (Some (own_item l0 it)) lo _ CC F1) as (F2 & FL).
    cbn [mv_k k_instrs k_jumps k_labels k_ex k_req k_manual k_consts k_names k_varnames k_cells k_frees k_try k_loc] in F2, FL.
    change (mkK (map mv_c ins) jumps labels ex req manual co na va lo ce fr tr) with (mv_k lo (mkK ins jumps labels ex req manual co na va l0 ce fr tr)) in F2.
    change (mkK (map mv_c ins) jumps labels ex req manual co na va lo ce fr tr) with (mv_k lo (mkK ins jumps labels ex req manual co na va l0 ce fr tr)).
    rewrite F2. cbn [bind]. destruct (mv_body v T keq m Kf it lo K1 H1) as ((lo2 & B) & KL). rewrite FL in B. rewrite B. cbn [bind].
    replace cur with (k_loc K1) by (rewrite KL, EC, FL; reflexivity). apply IH. exact H.
Qed.

Lemma mv_set v T c a c' : set_arg v T c a = Ok c' -> set_arg v T (mv_c c) a = Ok (mv_c c').
Proof.
  unfold set_arg, c_set. cbn [mv_c c_name c_ext c_loc]. destruct (resolve_name T (c_name c)) as [op|]; [|discriminate].
  destruct (c_check_arg v T op (OInt a)); [|discriminate]. intros H. injection H as <-. reflexivity.
Qed.
Lemma mv_upd n c ins : map mv_c (upd n c ins) = upd n (mv_c c) (map mv_c ins).
Proof. revert n. induction ins as [|x r IH]; intros [|n]; cbn; try reflexivity. now rewrite IH. Qed.
Lemma mv_arg_at v T g ins n ins2 : map_arg_at v T g ins n = Ok ins2 -> map_arg_at v T g (map mv_c ins) n = Ok (map mv_c ins2).
Proof.
  unfold map_arg_at. intros H. rewrite nth_error_map. destruct (nth_error ins n); [|discriminate]. cbn [of_option bind option_map] in *.
  apply bind_ok in H. destruct H as (a & H1 & H). change (c_arg (mv_c c)) with (c_arg c). rewrite H1. cbn [bind]. apply bind_ok in H. destruct H as (c' & H2 & H). injection H as <-.
  rewrite (mv_set _ _ _ _ _ H2). cbn [bind]. now rewrite mv_upd.
Qed.
Lemma mv_args v T g l : forall ins ins2, foldM (map_arg_at v T g) l ins = Ok ins2 -> foldM (map_arg_at v T g) l (map mv_c ins) = Ok (map mv_c ins2).
Proof.
  induction l as [|n r IH]; intros ins ins2 H; cbn [foldM] in *; [now injection H as <-|]. apply bind_ok in H. destruct H as (i1 & H1 & H).
  rewrite (mv_arg_at _ _ _ _ _ _ H1). cbn [bind]. auto.
Qed.
Lemma mv_fix v T m K lo ins : fix_vars v T m K = Ok ins -> fix_vars v T m (mv_k lo K) = Ok (map mv_c ins).
Proof.
  unfold fix_vars. cbn [mv_k k_varnames k_cells k_frees k_instrs]. intros H. apply bind_ok in H. destruct H as (i1 & H1 & H).
  destruct (PY311 v).
  - rewrite (mv_args _ _ _ _ _ _ H1). cbn [bind]. now apply mv_args.
  - injection H1 as <-. cbn [bind]. now apply mv_args.
Qed.

Lemma mv_label_offsets v ins : forall o, label_offsets v o (map mv_c ins) = label_offsets v o ins.
Proof. induction ins as [|c r IH]; intros o; cbn [map label_offsets]; [reflexivity|]. cbn [mv_c c_size]. now rewrite IH. Qed.
Lemma mv_instruction_offsets v ins : forall o, instruction_offsets v o (map mv_c ins) = instruction_offsets v o ins.
Proof. induction ins as [|c r IH]; intros o; cbn [map instruction_offsets]; [reflexivity|]. cbn [mv_c c_size]. now rewrite IH. Qed.
Lemma mv_jump v T labels offs ins mo j ins2 mo2 : fix_jump v T labels offs (ins, mo) j = Ok (ins2, mo2) ->
  fix_jump v T labels offs (map mv_c ins, mo) j = Ok (map mv_c ins2, mo2).
Proof.
  unfold fix_jump. destruct j as [index label]. intros H. destruct (dget Nat.eqb labels label) as [ti|]; [|discriminate]. cbn [of_option bind] in *.
  destruct (nth_error offs ti); [|discriminate]. cbn [of_option bind] in *. rewrite nth_error_map. destruct (nth_error ins index) as [c|]; [|discriminate]. cbn [of_option bind option_map] in *.
  destruct (nth_error offs index); [|discriminate]. cbn [of_option bind] in *. apply bind_ok in H. destruct H as (c' & H2 & H). injection H as <- <-.
  apply mv_set in H2. change (use_cache_opcodes v T (mv_c c)) with (use_cache_opcodes v T c). cbn [mv_c c_name c_op c_size] in H2 |- *.
  change (mkC (c_name c) (c_op c) (c_arg c) (option_map f (c_loc c)) (c_ext c) (c_size c)) with (mv_c c) in H2 |- *. rewrite H2. cbn [bind]. now rewrite mv_upd.
Qed.
Lemma mv_pass v T labels offs jumps : forall ins mo ins2 mo2, foldM (fix_jump v T labels offs) jumps (ins, mo) = Ok (ins2, mo2) ->
  foldM (fix_jump v T labels offs) jumps (map mv_c ins, mo) = Ok (map mv_c ins2, mo2).
Proof.
  induction jumps as [|j r IH]; intros ins mo ins2 mo2 H; cbn [foldM] in *; [now injection H as <- <-|]. apply bind_ok in H. destruct H as ([i1 m1] & H1 & H).
  rewrite (mv_jump _ _ _ _ _ _ _ _ _ H1). cbn [bind]. auto.
Qed.
Lemma mv_compute v T labels jumps ex passes : forall ins ins2 en, compute_jumps v T labels jumps ex passes ins = Ok (ins2, en) ->
  compute_jumps v T labels jumps ex passes (map mv_c ins) = Ok (map mv_c ins2, en).
Proof.
  induction passes as [|p IH]; intros ins ins2 en H; cbn [compute_jumps] in *; [discriminate|]. apply bind_ok in H. destruct H as ([i1 mo] & H1 & H).
  unfold jump_pass in *. rewrite mv_label_offsets, (mv_pass _ _ _ _ _ _ _ _ _ H1). cbn [bind]. destruct mo; [auto|].
  apply bind_ok in H. destruct H as (es & H2 & H). injection H as <- <-. rewrite mv_instruction_offsets, H2. reflexivity.
Qed.

Lemma mv_prescan_item v T st cur it : prescan_item v T st (own_item cur it) = prescan_item v T st it.
Proof. destruct st. destruct it; reflexivity. Qed.
Lemma mv_prescan v T items : forall cur st, foldM (prescan_item v T) (own cur items) st = foldM (prescan_item v T) items st.
Proof.
  induction items as [|it r IH]; intros cur st; [reflexivity|]. destruct (own_cons cur it r) as (c' & -> & _). cbn [foldM]. rewrite mv_prescan_item.
  destruct (prescan_item v T st it); cbn [bind]; auto.
Qed.

Lemma to_concrete_own v T keq passes b cb : to_concrete v T keq passes b = Ok cb ->
  to_concrete v T keq passes (own_b b) = Ok (mkCB (cb_meta cb) (map mv_item (cb_items cb)) (cb_consts cb) (cb_names cb) (cb_varnames cb) (cb_ex cb)).
Proof.
  unfold to_concrete, concrete_instructions, own_b. cbn [b_meta b_argnames b_items]. intros H. apply bind_ok in H. destruct H as ([K ins] & H1 & H).
  apply bind_ok in H1. destruct H1 as (va & P & H1). apply bind_ok in H1. destruct H1 as (K1 & F & H1). apply bind_ok in H1. destruct H1 as (K2 & C & H1).
  apply bind_ok in H1. destruct H1 as (ins1 & V & H1). injection H1 as <- <-.
  assert (P' : forall cur, prescan v T (b_argnames b) (own cur (b_items b)) = Ok va).
  { intros cur. rewrite <- P. unfold prescan. destruct (PY313 v); [|reflexivity]. now rewrite mv_prescan. }
  rewrite P'. cbn [bind].
  destruct (mv_conv v T keq _ _ _ (line_loc (Some (m_first_lineno (b_meta b)))) _ F) as (lo2 & F'). unfold mv_k at 1 in F'. cbn [k_loc k_instrs k_jumps k_labels k_ex k_req k_manual k_consts k_names k_varnames k_cells k_frees k_try map] in F'.
  rewrite F'. cbn [bind]. destruct (mv_flush v T _ None None lo2 _ eq_refl C) as (C' & _). rewrite C'. cbn [bind]. rewrite (mv_fix _ _ _ _ lo2 _ V). cbn [bind].
  apply bind_ok in H. destruct H as ([i2 en] & J & H). injection H as <-. unfold mv_k. cbn [k_instrs k_jumps k_labels k_ex k_req k_manual k_consts k_names k_varnames k_cells k_frees k_try].
  rewrite (mv_compute _ _ _ _ _ _ _ _ _ J). cbn [bind cb_meta cb_items cb_consts cb_names cb_varnames cb_ex].
  rewrite !map_map. reflexivity.
Qed.

(** *** what the new list says *)
Lemma position_own items n : forall cur, position (own cur items) n = position items n.
Proof. induction items as [|x l IH]; intros cur; [reflexivity|]. destruct (own_cons cur x l) as (c & -> & _). cbn [position]. rewrite IH. destruct x; reflexivity. Qed.
Lemma located_own pos items : forall op cur cur',
  located cur' (walk pos op (own cur items)) = map (fun x => let '(n, a, lo, h) := x in (n, a, f lo, h)) (located cur (walk pos op items)).
Proof.
  induction items as [|x l IH]; intros op cur cur'; [reflexivity|].
  destruct x; cbn [own walk located i_name i_arg i_loc map]; cbv zeta; rewrite IH; reflexivity.
Qed.
Lemma source_own b : source (own_b b) = map (fun x => let '(n, a, lo, h) := x in (n, a, f lo, h)) (source b).
Proof.
  unfold source, own_b, program. cbn [b_meta b_items]. rewrite (walk_ext _ (position (b_items b))) by (intros; apply position_own). apply located_own.
Qed.
Lemma in_own items : forall cur i, In (BI i) (own cur items) -> exists j, In (BI j) items /\ i_name i = i_name j /\ i_op i = i_op j /\ i_arg i = i_arg j.
Proof.
  induction items as [|x r IH]; intros cur i I; [destruct I|]. destruct (own_cons cur x r) as (c & EC & _). rewrite EC in I. destruct I as [I|I].
  - destruct x; try discriminate I. injection I as <-. eexists. split; [left; reflexivity|]. auto.
  - destruct (IH _ _ I) as (j & J & K). exists j. split; [now right|exact K].
Qed.
Lemma legal_own v T b : all_legal v T b -> all_legal v T (own_b b).
Proof. intros L i I. destruct (in_own _ _ _ I) as (j & J & E1 & E2 & E3). unfold legal_instr. rewrite E1, E2, E3. now apply L. Qed.
Lemma cacheless_own b : (forall i, In (BI i) (b_items b) -> i_name i <> "CACHE") -> forall i, In (BI i) (b_items (own_b b)) -> i_name i <> "CACHE".
Proof. intros L i I. destruct (in_own _ _ _ I) as (j & J & E1 & _). rewrite E1. now apply L. Qed.
End Moved.

(** ** The location table written for what is recorded of the locations *)
Lemma loc_eqb_eq a b : M_Tables.loc_eqb a b = true <-> a = b.
Proof.
  unfold M_Tables.loc_eqb. destruct a as [a1 a2 a3 a4], b as [b1 b2 b3 b4]. cbn [l_lineno l_end_lineno l_col l_end_col].
  assert (O : forall x y, M_Tables.optz_eqb x y = true <-> x = y).
  { intros [x|] [y|]; cbn; split; try discriminate; try reflexivity; [intros E; apply Z.eqb_eq in E; now subst|intros E; injection E as ->; apply Z.eqb_refl]. }
  rewrite !andb_true_iff, !O. split; [intros (((-> & ->) & ->) & ->); reflexivity|intros E; injection E as -> -> -> ->; auto].
Qed.
Lemma kept_line l : l_lineno (kept_loc l) = l_lineno l.
Proof. unfold kept_loc, recorded. destruct (l_lineno l) as [z|] eqn:E; [destruct (l_col l)|]; reflexivity. Qed.
Lemma pack_kept s z l : loc_ok l -> pack_location s z (Some (kept_loc l)) = pack_location s z (Some l).
Proof.
  unfold loc_ok, kept_loc, recorded, pack_location. destruct l as [[a|] el c ec]; cbn [l_lineno l_end_lineno l_col l_end_col]; [|reflexivity].
  destruct c as [c|]; cbn [l_lineno l_end_lineno l_col l_end_col]; [reflexivity|]. intros H. rewrite Z.eqb_refl. destruct el as [el|]; [|reflexivity]. subst. now rewrite Z.eqb_refl.
Qed.
Lemma push_kept fuel : forall s z l, loc_ok l -> push_locations_loop fuel s z (kept_loc l) = push_locations_loop fuel s z l.
Proof.
  induction fuel as [|n IH]; intros s z l L; cbn [push_locations_loop]; [reflexivity|]. rewrite pack_kept, kept_line by exact L.
  destruct (pack_location s z (Some l)); cbn [bind]; [|reflexivity]. destruct (s - 8 <? 1); [reflexivity|]. now rewrite IH.
Qed.
Definition mv_ent (e : lent) : lent := mkLent (le_off e) (le_size e) (le_line e) (option_map kept_loc (le_loc e)).
Lemma loop_kept (P : loc -> Prop) l : (forall a b, P a -> P b -> kept_loc a = kept_loc b -> a = b) -> (forall a, P a -> loc_ok a) ->
  (forall e, In e l -> exists a, le_loc e = Some a /\ P a) -> forall s z o, P o ->
  locations_loop s z (kept_loc o) (map mv_ent l) = locations_loop s z o l.
Proof.
  intros PI PL. induction l as [|e r IH]; intros IN s z o O; cbn [map locations_loop]; unfold push_locations.
  - now rewrite push_kept by auto.
  - destruct (IN e (or_introl eq_refl)) as (a & EA & A). cbn [mv_ent le_loc le_size]. rewrite EA. cbn [option_map]. rewrite kept_line.
    replace (M_Tables.loc_eqb (kept_loc o) (kept_loc a)) with (M_Tables.loc_eqb o a).
    2:{ apply eq_true_iff_eq. rewrite !loc_eqb_eq. split; [now intros ->|now apply PI]. }
    rewrite push_kept by auto.
    destruct (_ && _); [apply IH; auto; intros; apply IN; now right|]. destruct (push_locations_loop _ _ _ _) as [[bs ln]|]; cbn [bind]; [|reflexivity].
    now rewrite IH by (auto; intros; apply IN; now right).
Qed.
Lemma locations_moved (P : loc -> Prop) l first : (forall a b, P a -> P b -> kept_loc a = kept_loc b -> a = b) -> (forall a, P a -> loc_ok a) ->
  (forall e, In e l -> exists a, le_loc e = Some a /\ P a) -> assemble_locations first (map mv_ent l) = assemble_locations first l.
Proof.
  intros PI PL IN. destruct l as [|e r]; [reflexivity|]. cbn [map assemble_locations mv_ent le_loc le_size].
  destruct (IN e (or_introl eq_refl)) as (a & EA & A). rewrite EA. cbn [option_map]. apply (loop_kept P); auto. intros; apply IN; now right.
Qed.

Lemma normalize_moved items : forall z, normalize_lineno z (map (mv_item kept_loc) items) = map (fun x => (fst x, mv_c kept_loc (snd x))) (normalize_lineno z items).
Proof.
  induction items as [|[c|l] r IH]; intros z; cbn [map mv_item normalize_lineno]; [reflexivity| |apply IH]. cbv zeta.
  replace (loc_lineno (c_loc (mv_c kept_loc c))) with (loc_lineno (c_loc c)).
  2:{ cbn [mv_c c_loc]. destruct (c_loc c); [|reflexivity]. cbn. now rewrite kept_line. }
  cbn [map fst snd]. f_equal. apply IH.
Qed.
Lemma code_moved v T l : forall o, assemble_code_loop v T o (map (fun x => (fst x, mv_c kept_loc (snd x))) l)
  = (fst (assemble_code_loop v T o l), map mv_ent (snd (assemble_code_loop v T o l))).
Proof.
  induction l as [|[z c] r IH]; intros o; [reflexivity|]. cbn [map fst snd assemble_code_loop]. cbn [mv_c c_size]. rewrite IH.
  destruct (assemble_code_loop v T (o + units v (c_size c)) r) as [bs es]. reflexivity.
Qed.
Lemma ents_in v T l : forall o e, In e (snd (assemble_code_loop v T o l)) -> exists x, In x l /\ le_loc e = c_loc (snd x).
Proof.
  induction l as [|[z c] r IH]; intros o e I; cbn [assemble_code_loop] in I; [destruct I|]. specialize (IH (o + units v (c_size c)) e).
  destruct (assemble_code_loop v T (o + units v (c_size c)) r) as [bs es]. cbn [snd] in *. destruct I as [<-|I]; [exists (z, c); split; [now left|reflexivity]|].
  destruct (IH I) as (x & J & K). exists x. split; [now right|exact K].
Qed.
Lemma normalize_in items : forall z x, In x (normalize_lineno z items) -> In (CI (snd x)) items.
Proof.
  induction items as [|[c|l] r IH]; intros z x I; cbn [normalize_lineno] in I; [destruct I| |right; eapply IH; eauto].
  cbv zeta in I. destruct I as [<-|I]; [now left|right; eapply IH; eauto].
Qed.

(** On 3.11 and later the code object of the moved instructions is the same, if different
    locations are recorded differently. *)
Lemma raw_moved v T ca cb n m x y : PY311 v = true ->
  (forall c, In (CI c) (cb_items cb) -> exists l, c_loc c = Some l /\ coherent_loc v l) ->
  (forall c d l k, In (CI c) (cb_items cb) -> In (CI d) (cb_items cb) -> c_loc c = Some l -> c_loc d = Some k -> kept_loc l = kept_loc k -> l = k) ->
  cb_meta ca = cb_meta cb -> cb_items ca = map (mv_item kept_loc) (cb_items cb) -> cb_consts ca = cb_consts cb ->
  cb_names ca = cb_names cb -> cb_varnames ca = cb_varnames cb ->
  to_code_raw v T ca n = Ok x -> to_code_raw v T cb m = Ok y -> alike x y.
Proof.
  intros V OWN AP E1 E2 E3 E4 E5 A B.
  assert (SP : forall c l, In (CI c) (cb_items cb) -> c_loc c = Some l -> loc_ok l).
  { intros c l I E. destruct (OWN c I) as (l' & E' & CO). rewrite E in E'. injection E' as <-. apply (coherent_loc_ok v); [exact CO|].
    apply in_split in I. destruct I as (pre & post & I). eapply locations_code_bad; eauto. }
  unfold to_code_raw, assemble_code in A, B. rewrite E1, E2, E3, E4, E5, normalize_moved, code_moved in A.
  set (lines := normalize_lineno (m_first_lineno (cb_meta cb)) (cb_items cb)) in *.
  assert (EN : forall e, In e (snd (assemble_code_loop v T 0 lines)) -> exists a, le_loc e = Some a /\ exists c, In (CI c) (cb_items cb) /\ c_loc c = Some a).
  { intros e I. destruct (ents_in _ _ _ _ _ I) as (z & J & EL). apply normalize_in in J. destruct (OWN _ J) as (a & EA & _). exists a. split; [congruence|eauto]. }
  destruct (assemble_code_loop v T 0 lines) as [bs es]. cbn [fst snd] in *. unfold assemble_lines in A, B. rewrite V in A, B.
  rewrite (locations_moved (fun a => exists c, In (CI c) (cb_items cb) /\ c_loc c = Some a)) in A.
  - apply bind_ok in A. destruct A as (l1 & L1 & A). rewrite L1 in B. cbn [bind] in B.
    apply bind_ok in A. destruct A as (x1 & X1 & A). apply bind_ok in B. destruct B as (x2 & X2 & B). injection A as <-. injection B as <-.
    constructor; cbn; auto.
  - intros a b (c & I & E) (d & J & F) K. exact (AP c d a b I J E F K).
  - intros a (c & I & E). eauto.
  - exact EN.
Qed.
