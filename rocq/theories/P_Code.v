(** Lemmas about reading a code object: the list of its instructions, the exception table. *)
From Verif Require Import PyBase OpTable CPy P_Base P_OpTable M_Instr M_Tables M_Concrete S_Args S_Prog S_Slots S_Lines S_Asm S_Code
  P_Asm P_Except P_LinesCode P_Round P_Conv2 P_Jumps P_Jumps2 P_Layout.
Open Scope string_scope.
Open Scope list_scope.
Open Scope Z_scope.

(** ** Instructions *)
Section Listing.
  Variables (v : pyver) (T : optable).
  Hypothesis wf : wf_optable v T = true.

  Lemma listing_ext es : forall off ext op b rest, op <> t_extended_arg T ->
    let x := match ext with Some y => y | None => (off, 0) end in
    listing v T off ext 0 (spell (t_extended_arg T) es ++ op :: b :: rest)
    = mkRan (fst x) (off + 2 * zlen es) (off + 2 * zlen es + 2 + 2 * caches_of v T op) op
        (if opcode_has_argument v T op then Some (fold_left (fun a e => a * 256 + e) es (snd x) * 256 + b) else None)
      :: listing v T (off + 2 * zlen es + 2) None (caches_of v T op) rest.
  Proof.
    induction es as [|e es IH]; intros off ext op b rest NE x.
    - cbn [spell map concat app listing fold_left]. change (0 <? 0) with false. cbv beta iota zeta.
      rewrite (proj2 (Z.eqb_neq _ _) NE). replace (off + 2 * zlen (@nil Z)) with off by (cbn; lia).
      subst x. destruct ext as [[s a]|]; reflexivity.
    - assert (E : spell (t_extended_arg T) (e :: es) ++ op :: b :: rest = t_extended_arg T :: e :: (spell (t_extended_arg T) es ++ op :: b :: rest)) by reflexivity.
      rewrite E. cbn [listing]. change (0 <? 0) with false. cbv beta iota. rewrite Z.eqb_refl. rewrite IH by assumption.
      rewrite zlen_cons. cbn [fst snd fold_left].
      replace (off + 2 + 2 * zlen es) with (off + 2 * (1 + zlen es)) by lia. replace (1 + zlen es) with (zlen es + 1) by lia.
      subst x. destruct ext as [[s a]|]; reflexivity.
  Qed.

  Lemma made_bytes c : made v T c -> exists es, Forall byte es /\ c_size c = 2 * zlen es + 2
    /\ assemble T c = spell (t_extended_arg T) es ++ [c_op c; match c_arg c with Some a => a mod 256 | None => 0 end]
    /\ value es = match c_arg c with Some a => a / 256 | None => 0 end.
  Proof.
    intros [V X]. pose proof (assemble_size_auto v T wf c V X) as (Z & _). rewrite <- Z. clear Z. unfold assemble. rewrite X.
    pose proof (vc_arg _ _ _ V) as A. destruct (c_arg c) as [a|].
    - destruct A as [A _]. destruct (assemble_loop_struct T (bit_fuel a) a [c_op c; Z.land a 255]) as (es & E & B & W).
      { split; [lia|]. apply bit_fuel_bound. lia. }
      exists es. rewrite E. rewrite land255. rewrite zlen_app, spell_len. change (zlen [c_op c; a mod 256]) with 2. auto.
    - exists []. repeat split; auto.
  Qed.

  Lemma listing_made c off rest : made v T c -> c_name c <> "EXTENDED_ARG" -> c_name c <> "CACHE" ->
    listing v T off None 0 (assemble T c ++ rest)
    = mkRan off (off + c_size c - 2) (off + c_size c + 2 * cache_entries v T (c_name c) (c_op c)) (c_op c) (c_arg c)
      :: listing v T (off + c_size c) None (cache_entries v T (c_name c) (c_op c)) rest.
  Proof.
    intros M N1 N2. destruct (made_bytes c M) as (es & B & S & E & W). destruct M as [V X].
    pose proof (valid_not_ext v T wf c V N1) as NE. pose proof (vc_op _ _ _ V) as O.
    assert (C : caches_of v T (c_op c) = cache_entries v T (c_name c) (c_op c)).
    { unfold caches_of. rewrite (proj1 (opmap_opname v T wf _ _) O). reflexivity. }
    rewrite E, <- app_assoc. cbn [app]. rewrite (listing_ext es off None) by assumption. cbn [fst snd].
    rewrite C, S. fold (value es). rewrite W.
    assert (AR : (if opcode_has_argument v T (c_op c) then Some (match c_arg c with Some a => a / 256 | None => 0 end * 256 + match c_arg c with Some a => a mod 256 | None => 0 end) else None) = c_arg c).
    { pose proof (vc_arg _ _ _ V) as A. destruct (c_arg c) as [a|].
      - assert (H : opcode_has_argument v T (c_op c) = true).
        { destruct A as [_ [A|A]]; [exact A|]. exfalso. apply N2. rewrite A in O.
          exact (wf_op0 v T wf _ O). }
        rewrite H. f_equal. zdm.
      - rewrite A. reflexivity. }
    rewrite AR. f_equal; f_equal; lia.
  Qed.

  Lemma listing_caches n : forall off rest, listing v T off None (Z.of_nat n) (concat (repeat [0; 0] n) ++ rest)
    = listing v T (off + 2 * Z.of_nat n) None 0 rest.
  Proof.
    induction n as [|n IH]; intros off rest; [cbn [repeat concat app]; f_equal; lia|].
    cbn [repeat concat app]. cbn [listing]. replace (0 <? Z.of_nat (S n)) with true by lia.
    replace (Z.of_nat (S n) - 1) with (Z.of_nat n) by lia. rewrite IH. f_equal. lia.
  Qed.

  (** One group: an instruction with all its caches, or nothing. *)
  Definition group (it : bitem) (g : list cinstr) : Prop :=
    match it with
    | BI i => exists c, g = c :: repeat (cache_at (c_loc c)) (Z.to_nat (cache_entries v T (c_name c) (c_op c)))
        /\ made v T c /\ c_name c = i_name i /\ c_op c = i_op i /\ c_name c <> "EXTENDED_ARG" /\ c_name c <> "CACHE"
    | _ => g = []
    end.

  Definition code (cs : list cinstr) : list Z := concat (map (assemble T) cs).
  Lemma code_app a b : code (a ++ b) = code a ++ code b.
  Proof. unfold code. now rewrite map_app, concat_app. Qed.
  Lemma code_caches l n : code (repeat (cache_at l) n) = concat (repeat [0; 0] n).
  Proof. unfold code. induction n as [|n IH]; [reflexivity|]. cbn [repeat map concat]. rewrite IH. reflexivity. Qed.
  Lemma zlen_caches n : zlen (concat (repeat [0; 0] n)) = 2 * Z.of_nat n.
  Proof. induction n; [reflexivity|]. cbn [repeat concat]. rewrite zlen_app, IHn. change (zlen [0; 0]) with 2. lia. Qed.

  Fixpoint rans (off : Z) (gs : list (list cinstr)) : list ran :=
    match gs with
    | [] => []
    | [] :: r => rans off r
    | (c :: rest) :: r =>
        mkRan off (off + c_size c - 2) (off + zlen (code (c :: rest))) (c_op c) (c_arg c)
        :: rans (off + zlen (code (c :: rest))) r
    end.

  Lemma group_len c : made v T c -> zlen (code (c :: repeat (cache_at (c_loc c)) (Z.to_nat (cache_entries v T (c_name c) (c_op c)))))
    = c_size c + 2 * cache_entries v T (c_name c) (c_op c) /\ 0 <= cache_entries v T (c_name c) (c_op c).
  Proof.
    intros [V X]. assert (Q : 0 <= cache_entries v T (c_name c) (c_op c)).
    { apply (cache_nonneg v T wf); [exact (vc_op _ _ _ V)|exact (vc_base _ _ _ V)]. }
    split; [|exact Q].
    match goal with |- context [code (c :: ?l)] => change (code (c :: l)) with (assemble T c ++ code l) end.
    rewrite code_caches, zlen_app, zlen_caches, <- (proj1 (assemble_size_auto v T wf c V X)). lia.
  Qed.

  Lemma listing_groups items gs : Forall2 group items gs -> forall off,
    listing v T off None 0 (code (concat gs)) = rans off gs.
  Proof.
    induction 1 as [|it g items gs G F IH]; intros off; [reflexivity|].
    cbn [concat]. rewrite code_app. destruct it; cbn [group] in G; try (subst g; cbn [rans]; apply IH).
    destruct G as (c & -> & M & _ & _ & N1 & N2). destruct (group_len c M) as [L Q]. cbn [rans]. rewrite L.
    match goal with |- context [code (c :: ?l)] => change (code (c :: l)) with (assemble T c ++ code l) end.
    rewrite <- app_assoc, (listing_made c off) by assumption. f_equal; [f_equal; lia|].
    rewrite code_caches. rewrite <- (Z2Nat.id _ Q) at 1. rewrite listing_caches, IH, Z2Nat.id by exact Q. f_equal. lia.
  Qed.

  Lemma rans_nth items gs : Forall2 group items gs -> forall p i c rest off, nth_error items p = Some (BI i) -> nth_error gs p = Some (c :: rest) ->
    let s := off + zlen (code (concat (firstn p gs))) in
    nth_error (rans off gs) (ninstrs (firstn p items)) = Some (mkRan s (s + c_size c - 2) (s + zlen (code (c :: rest))) (c_op c) (c_arg c)).
  Proof.
    induction 1 as [|it g items gs G F IH]; intros [|p] i c rest off Hp Hg; try discriminate; cbn [nth_error] in *.
    - injection Hp as ->. injection Hg as ->. cbn. repeat f_equal; lia.
    - cbn [firstn concat]. rewrite code_app, zlen_app, Z.add_assoc. unfold ninstrs. cbn [filter].
      destruct it; cbn [group is_instr] in *; try (subst g; cbn [rans]; specialize (IH _ _ _ _ off Hp Hg); cbv zeta in IH |- *; change (zlen (code [])) with 0; rewrite Z.add_0_r; exact IH).
      destruct G as (c' & -> & _). cbn [rans length nth_error]. apply (IH _ _ _ _ _ Hp Hg).
  Qed.

  Lemma rans_begin items gs : Forall2 group items gs -> forall q off,
    match nth_error (rans off gs) (ninstrs (firstn q items)) with
    | Some r => r_start r = off + zlen (code (concat (firstn q gs)))
    | None => ninstrs (firstn q items) = length (rans off gs) /\ off + zlen (code (concat gs)) = off + zlen (code (concat (firstn q gs)))
    end.
  Proof.
    induction 1 as [|it g items gs G F IH]; intros q off.
    - rewrite !firstn_nil. cbn. auto.
    - destruct q as [|q].
      + destruct it; cbn [group] in G; try (subst g; cbn [rans concat]; exact (IH 0%nat off)).
        destruct G as (c & -> & _). cbn. lia.
      + cbn [firstn concat]. rewrite !code_app, !zlen_app, !Z.add_assoc. unfold ninstrs. cbn [filter].
        destruct it; cbn [group is_instr] in *; try (subst g; cbn [rans]; specialize (IH q off); change (zlen (code [])) with 0; rewrite !Z.add_0_r; exact IH).
        destruct G as (c & -> & _). cbn [rans length nth_error]. specialize (IH q (off + zlen (code (c :: repeat (cache_at (c_loc c)) (Z.to_nat (cache_entries v T (c_name c) (c_op c))))))).
        unfold ninstrs in IH. destruct (nth_error _ _); [exact IH|]. split; [f_equal; apply IH|apply IH].
  Qed.

  Lemma rans_len items gs : Forall2 group items gs -> forall off, length (rans off gs) = ninstrs items.
  Proof.
    induction 1 as [|it g items gs G F IH]; intros off; [reflexivity|]. unfold ninstrs in *. cbn [filter].
    destruct it; cbn [group is_instr] in *; try (subst g; apply IH). destruct G as (c & -> & _). cbn. f_equal. apply IH.
  Qed.
End Listing.

(** ** Exception table *)
Lemma read_big_loop bs : forall acc, 0 <= acc -> read_big acc bs = parse_varint_loop acc bs.
Proof.
  induction bs as [|b bs IH]; intros acc A; [reflexivity|]. rewrite parse_step by exact A. cbn [read_big].
  destruct (_ =? 0); [reflexivity|]. apply IH. pose proof (Z.mod_pos_bound b 64 ltac:(lia)). lia.
Qed.

Lemma read_big_is bs : read_big 0 bs = parse_varint bs.
Proof. rewrite parse_varint_loop_eq. apply read_big_loop. lia. Qed.

(** The entries, instead of their bytes. *)
Fixpoint lookup (u : Z) (en : list exentry) : option (Z * Z * bool) :=
  match en with
  | [] => None
  | e :: r => if u <? e_start e then None
              else if u <? e_stop e + 1 then Some (e_target e, e_depth e, e_lasti e) else lookup u r
  end.

Lemma handler_entries en : forall bs, mapM assemble_entry en = Ok bs -> forall fuel u, (length (concat bs) <= fuel)%nat ->
  handler_loop fuel u (concat bs) = lookup u en.
Proof.
  induction en as [|e en IH]; cbn [mapM]; intros bs H fuel u F; inv_ok; [now destruct fuel|].
  cbn [concat] in *. rewrite app_length in F. unfold assemble_entry in E. inv_ok. rewrite shiftl1 in *.
  apply encode_varint_spec in E1, E2, E3, E4.
  destruct E1 as (P1 & Q1 & b1 & r1 & -> & _), E2 as (P2 & Q2 & _), E3 as (P3 & Q3 & _), E4 as (P4 & Q4 & _).
  destruct fuel as [|fuel]; [cbn in F; lia|]. cbn [handler_loop lookup]. rewrite !read_big_is, <- !app_assoc, Q1.
  destruct (u <? e_start e); [reflexivity|]. rewrite read_big_is, Q2, read_big_is, Q3, read_big_is, Q4.
  replace (e_start e + (e_stop e - e_start e + 1)) with (e_stop e + 1) by lia. destruct (u <? e_stop e + 1).
  - f_equal. f_equal; [f_equal|].
    + destruct (e_lasti e); zdm.
    + destruct (e_lasti e); rewrite Z.add_comm, Z.mul_comm; [now rewrite Z.odd_add_mul_2|now rewrite Z.odd_add_mul_2].
  - apply IH; [assumption|]. rewrite !app_length in F. cbn in F. lia.
Qed.

Lemma lookup_none u en : (forall e, In e en -> ~ e_start e <= u <= e_stop e) -> lookup u en = None.
Proof.
  induction en as [|e en IH]; intros H; [reflexivity|]. cbn. destruct (Z.ltb_spec u (e_start e)); [reflexivity|].
  destruct (Z.ltb_spec u (e_stop e + 1)); [exfalso; apply (H e); [now left|lia]|]. apply IH. intros f I. apply H. now right.
Qed.
Lemma lookup_some u en : forall n e, nth_error en n = Some e -> e_start e <= u <= e_stop e ->
  (forall m f, (m < n)%nat -> nth_error en m = Some f -> e_start f <= e_start e /\ e_stop f < e_start e) ->
  lookup u en = Some (e_target e, e_depth e, e_lasti e).
Proof.
  induction en as [|x en IH]; intros [|n] e N L H; try discriminate; cbn [nth_error lookup] in *.
  - injection N as ->. replace (u <? e_start e) with false by lia. replace (u <? e_stop e + 1) with true by lia. reflexivity.
  - destruct (H 0%nat x ltac:(lia) eq_refl) as [H1 H2]. replace (u <? e_start x) with false by lia.
    replace (u <? e_stop x + 1) with false by lia. apply (IH n); auto. intros m f M. apply (H (S m)). lia.
Qed.
