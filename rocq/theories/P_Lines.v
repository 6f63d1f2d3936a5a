(** Line tables: what the interpreter reads back. *)
From Coq Require Import ZifyBool.
From Verif Require Import PyBase OpTable CPy M_Instr M_Tables P_Base.
Open Scope list_scope.
Open Scope Z_scope.

Lemma pack_Bb_ok b s bs : pack_Bb b s = Ok bs ->
  bs = [b; s mod 256] /\ 0 <= b <= 255 /\ -128 <= s <= 127.
Proof.
  unfold pack_Bb. destruct (_ && _) eqn:E; [|discriminate]. intros H. inv_ok.
  split; [reflexivity|lia].
Qed.

Lemma pack_Bb_total b s : 0 <= b <= 255 -> -128 <= s <= 127 -> pack_Bb b s = Ok [b; s mod 256].
Proof. intros. unfold pack_Bb. destruct (_ && _) eqn:E; [reflexivity|lia]. Qed.

Lemma signed_byte_mod s : -128 <= s <= 127 -> signed_byte (s mod 256) = s.
Proof. intros H. unfold signed_byte. destruct (Z.ltb_spec (s mod 256) 128); zdm. Qed.

(** ** lnotab *)

(** Reading [bs]: nothing changes before [doff] more bytes, then the line moves by [dl]
    and reading goes on as [K]. *)
Definition reads (q doff dl : Z) (bs : list Z) (K : Z -> Z -> Z) : Prop :=
  forall addr line, addr <= q ->
  addr2line addr line q bs = if q <? addr + doff then line else K (addr + doff) (line + dl).

Lemma reads_pack q doff dl b rest : pack_Bb doff dl = Ok b ->
  reads q doff dl (b ++ rest) (fun a l => addr2line a l q rest).
Proof.
  intros H addr line A. apply pack_Bb_ok in H as (-> & B & S). cbn [app addr2line].
  rewrite signed_byte_mod by assumption. reflexivity.
Qed.

Lemma reads_doff q dl K fuel : forall doff d b rest,
  0 <= doff < 255 * Z.of_nat fuel ->
  lnotab_doff fuel doff = (d, b) -> reads q d dl rest K ->
  0 <= d <= 255 /\ reads q doff dl (b ++ rest) K.
Proof.
  induction fuel as [|f IH]; intros doff d b rest H E R; cbn [lnotab_doff] in E.
  - inv_ok. lia.
  - destruct (Z.ltb_spec 255 doff) as [L|L].
    + destruct (lnotab_doff f (doff - 255)) as [d' r] eqn:E'. inv_ok.
      destruct (IH (doff - 255) d r rest) as (D & R'); [lia|assumption|assumption|].
      split; [assumption|]. intros addr line A. cbn [app addr2line].
      destruct (Z.ltb_spec q (addr + 255)).
      * destruct (Z.ltb_spec q (addr + doff)); [reflexivity|lia].
      * change (signed_byte 0) with 0. rewrite R' by lia.
        replace (addr + 255 + (doff - 255)) with (addr + doff) by lia.
        rewrite Z.add_0_r. reflexivity.
    + inv_ok. split; [lia|]. exact R.
Qed.

Lemma reads_neg q K fuel : forall doff dl d l b rest,
  lnotab_neg fuel doff dl = Ok (d, l, b) -> reads q d l rest K -> 0 <= doff <= 255 ->
  reads q doff dl (b ++ rest) K.
Proof.
  induction fuel as [|f IH]; intros doff dl d l b rest E R D; cbn [lnotab_neg] in E.
  - inv_ok. exact R.
  - destruct (Z.ltb_spec dl (-128)) as [L|L].
    + inv_ok. destruct x0 as [[d' l'] r]. inv_ok.
      assert (R' : reads q 0 (dl + 128) (r ++ rest) K) by (eapply IH; eauto; lia).
      intros addr line A. rewrite <- app_assoc.
      rewrite (reads_pack _ _ _ _ _ E0 addr line A).
      destruct (Z.ltb_spec q (addr + doff)); [reflexivity|]. rewrite R' by lia.
      destruct (Z.ltb_spec q (addr + doff + 0)); [lia|]. f_equal; lia.
    + inv_ok. exact R.
Qed.

Lemma reads_pos q K fuel : forall doff dl d l b rest,
  lnotab_pos fuel doff dl = Ok (d, l, b) -> reads q d l rest K -> 0 <= doff <= 255 ->
  reads q doff dl (b ++ rest) K.
Proof.
  induction fuel as [|f IH]; intros doff dl d l b rest E R D; cbn [lnotab_pos] in E.
  - inv_ok. exact R.
  - destruct (Z.ltb_spec 127 dl) as [L|L].
    + inv_ok. destruct x0 as [[d' l'] r]. inv_ok.
      assert (R' : reads q 0 (dl - 127) (r ++ rest) K) by (eapply IH; eauto; lia).
      intros addr line A. rewrite <- app_assoc.
      rewrite (reads_pack _ _ _ _ _ E0 addr line A).
      destruct (Z.ltb_spec q (addr + doff)); [reflexivity|]. rewrite R' by lia.
      destruct (Z.ltb_spec q (addr + doff + 0)); [lia|]. f_equal; lia.
    + inv_ok. exact R.
Qed.

Lemma doff_bound fuel : forall doff d b, 0 <= doff < 255 * Z.of_nat fuel ->
  lnotab_doff fuel doff = (d, b) -> 0 <= d <= 255.
Proof.
  induction fuel as [|f IH]; intros doff d b H E; cbn [lnotab_doff] in E; [lia|].
  destruct (Z.ltb_spec 255 doff).
  - destruct (lnotab_doff f (doff - 255)) as [d' r] eqn:E'. inv_ok. eapply IH; [|eassumption]. lia.
  - inv_ok. lia.
Qed.

Lemma neg_total fuel : forall doff dl, - dl < 128 * Z.of_nat fuel + 128 -> 0 <= doff <= 255 ->
  exists d l b, lnotab_neg fuel doff dl = Ok (d, l, b) /\ 0 <= d <= 255 /\ -128 <= l
    /\ (dl <= 127 -> l <= 127) /\ (0 <= dl -> l = dl).
Proof.
  induction fuel as [|f IH]; intros doff dl H D; cbn [lnotab_neg].
  - exists doff, dl, []. repeat split; lia.
  - destruct (Z.ltb_spec dl (-128)).
    + rewrite pack_Bb_total by lia. cbn [bind].
      destruct (IH 0 (dl + 128)) as (d & l & b & -> & A & B & C & G); [lia|lia|].
      cbn [bind]. eexists _, _, _. split; [reflexivity|]. lia.
    + exists doff, dl, []. repeat split; lia.
Qed.

Lemma pos_total fuel : forall doff dl, dl < 127 * Z.of_nat fuel + 128 -> -128 <= dl ->
  0 <= doff <= 255 ->
  exists d l b, lnotab_pos fuel doff dl = Ok (d, l, b) /\ 0 <= d <= 255 /\ -128 <= l <= 127.
Proof.
  induction fuel as [|f IH]; intros doff dl H G D; cbn [lnotab_pos].
  - exists doff, dl, []. repeat split; lia.
  - destruct (Z.ltb_spec 127 dl).
    + rewrite pack_Bb_total by lia. cbn [bind].
      destruct (IH 0 (dl - 127)) as (d & l & b & -> & A & B); [lia|lia|lia|].
      cbn [bind]. eexists _, _, _. split; [reflexivity|]. lia.
    + exists doff, dl, []. repeat split; lia.
Qed.

Lemma lnotab_entry_total doff dl : 0 <= doff -> exists bs, lnotab_entry doff dl = Ok bs.
Proof.
  intros H. unfold lnotab_entry.
  destruct (lnotab_doff _ doff) as [d b1] eqn:E1.
  apply doff_bound in E1; [|zdm].
  destruct (neg_total (Z.to_nat (- dl / 128 + 1)) d dl) as (d2 & l2 & b2 & -> & A & B & C & G);
    [zdm|assumption|]. cbn [bind].
  destruct (pos_total (Z.to_nat (l2 / 127 + 1)) d2 l2) as (d3 & l3 & b3 & -> & A3 & B3);
    [zdm|lia|assumption|]. cbn [bind].
  assert ((0 <=? d3) && (d3 <=? 255) = true) as -> by lia.
  assert ((-128 <=? l3) && (l3 <=? 127) = true) as -> by lia.
  cbn [guard bind]. rewrite pack_Bb_total by lia. cbn [bind]. eauto.
Qed.

Lemma lnotab_entry_reads q doff dl bs rest : lnotab_entry doff dl = Ok bs -> 0 <= doff ->
  reads q doff dl (bs ++ rest) (fun a l => addr2line a l q rest).
Proof.
  intros E H. unfold lnotab_entry in E.
  destruct (lnotab_doff _ doff) as [d b1] eqn:E1.
  assert (D : 0 <= d <= 255) by (eapply doff_bound; [|exact E1]; zdm).
  destruct (neg_total (Z.to_nat (- dl / 128 + 1)) d dl) as (d2 & l2 & b2 & E2 & A & B & C & G);
    [zdm|assumption|]. rewrite E2 in E. cbn [bind] in E.
  inv_ok. destruct x as [[d3 l3] b3]. inv_ok.
  rewrite <- !app_assoc.
  assert (R4 := reads_pack q _ _ _ rest E5).
  eapply (reads_pos q) in R4; [|eassumption|lia].
  eapply (reads_neg q) in R4; [|eassumption|lia].
  refine (proj2 (reads_doff q _ _ _ _ _ _ _ _ E1 R4)). zdm.
Qed.

(** Entries laid out one after the other. *)
Fixpoint laid_out (off : Z) (l : list lent) : Prop :=
  match l with
  | [] => True
  | e :: l' => le_off e = off /\ 0 < le_size e /\ laid_out (off + le_size e) l'
  end.

Lemma lnotab_loop_total l : forall old_off old_line off,
  laid_out off l -> old_off <= off -> exists bs, lnotab_loop old_off old_line l = Ok bs.
Proof.
  induction l as [|e l IH]; intros old_off old_line off L O; cbn [lnotab_loop]; [eauto|].
  destruct L as (L1 & L2 & L3). subst off.
  destruct (Z.eqb_spec (le_line e - old_line) 0).
  - eapply IH; [exact L3|]. lia.
  - destruct (lnotab_entry_total (le_off e - old_off) (le_line e - old_line)) as (b & ->); [lia|].
    cbn [bind]. destruct (IH (le_off e) (le_line e) _ L3) as (r & ->); [lia|]. cbn. eauto.
Qed.

Lemma lnotab_loop_before q l : forall old_off old_line off bs,
  laid_out off l -> old_off <= q < off ->
  lnotab_loop old_off old_line l = Ok bs -> addr2line old_off old_line q bs = old_line.
Proof.
  induction l as [|e l IH]; intros old_off old_line off bs L O E; cbn [lnotab_loop] in E.
  - inv_ok. reflexivity.
  - destruct L as (L1 & L2 & L3). subst off.
    destruct (Z.eqb_spec (le_line e - old_line) 0).
    + eapply IH; [exact L3| |exact E]. lia.
    + inv_ok. rewrite (lnotab_entry_reads q _ _ _ x0 E0) by lia.
      destruct (Z.ltb_spec q (old_off + (le_off e - old_off))); [reflexivity|lia].
Qed.

Lemma lnotab_loop_at q pre e post : forall old_off old_line off bs,
  laid_out off (pre ++ e :: post) -> old_off <= off ->
  le_off e <= q < le_off e + le_size e ->
  lnotab_loop old_off old_line (pre ++ e :: post) = Ok bs ->
  addr2line old_off old_line q bs = le_line e.
Proof.
  induction pre as [|x pre IH]; intros old_off old_line off bs L O Q E; cbn [app lnotab_loop laid_out] in *.
  - destruct L as (L1 & L2 & L3). subst off.
    destruct (Z.eqb_spec (le_line e - old_line) 0).
    + rewrite (lnotab_loop_before q post old_off old_line _ _ L3) by (assumption || lia). lia.
    + inv_ok. rewrite (lnotab_entry_reads q _ _ _ x0 E0) by lia.
      destruct (Z.ltb_spec q (old_off + (le_off e - old_off))); [lia|].
      replace (old_off + (le_off e - old_off)) with (le_off e) by lia.
      replace (old_line + (le_line e - old_line)) with (le_line e) by lia.
      eapply lnotab_loop_before; [exact L3|lia|assumption].
  - destruct L as (L1 & L2 & L3). subst off.
    assert (LE : forall off l, laid_out off (l ++ e :: post) -> off <= le_off e).
    { clear. intros off l. revert off. induction l as [|y l IH]; intros off H; cbn in H.
      - lia.
      - destruct H as (? & ? & H). apply IH in H. lia. }
    pose proof (LE _ _ L3).
    destruct (Z.eqb_spec (le_line x - old_line) 0).
    + eapply IH; [exact L3|lia|lia|exact E].
    + inv_ok. rewrite (lnotab_entry_reads q _ _ _ x1 E0) by lia.
      destruct (Z.ltb_spec q (old_off + (le_off x - old_off))); [lia|].
      replace (old_off + (le_off x - old_off)) with (le_off x) by lia.
      replace (old_line + (le_line x - old_line)) with (le_line x) by lia.
      eapply IH; [exact L3|lia|lia|assumption].
Qed.

(** ** linetable of 3.10 *)

Definition moved (line : Z) (dl : option Z) : Z :=
  match dl with Some d => line + d | None => line end.
Definition shown (line : Z) (dl : option Z) : option Z :=
  match dl with Some d => Some (line + d) | None => None end.

(** Reading [bs] from [addr <= q]: the next [doff] bytes are shown with the delta. *)
Definition reads10 (q doff : Z) (dl : option Z) (bs rest : list Z) : Prop :=
  forall addr line, addr <= q ->
  linetable_line addr line q (bs ++ rest) =
  if q <? addr + doff then Some (shown line dl)
  else linetable_line (addr + doff) (moved line dl) q rest.

Lemma ltl_step addr line q da dl rest : addr <= q ->
  linetable_line addr line q (da :: dl :: rest) =
  (let no_line := dl =? 128 in
   let line' := if no_line then line else line + signed_byte dl in
   if q <? addr + da then Some (if no_line then None else Some line')
   else linetable_line (addr + da) line' q rest).
Proof.
  intros A. cbn [linetable_line]. cbv zeta.
  assert (addr <=? q = true) as -> by lia. reflexivity.
Qed.

Lemma not128 s : -127 <= s <= 127 -> (s mod 256 =? 128) = false.
Proof. intros H. apply Z.eqb_neq. zdm. Qed.

Lemma reads10_pack_some q doff dl b rest : pack_Bb doff dl = Ok b -> -127 <= dl <= 127 ->
  reads10 q doff (Some dl) b rest.
Proof.
  intros H D addr line A. apply pack_Bb_ok in H as (-> & B & S). cbn [app].
  rewrite ltl_step by assumption. cbv zeta. rewrite not128, signed_byte_mod by lia. reflexivity.
Qed.

Lemma reads10_pack_none q doff b rest : pack_Bb doff (-128) = Ok b ->
  reads10 q doff None b rest.
Proof.
  intros H addr line A. apply pack_Bb_ok in H as (-> & B & S). cbn [app].
  rewrite ltl_step by assumption. cbv zeta. change (-128 mod 256 =? 128) with true. reflexivity.
Qed.

(** zero-width entries that only move the line *)
Definition shifts (q dl : Z) (bs rest : list Z) : Prop :=
  forall addr line, addr <= q ->
  linetable_line addr line q (bs ++ rest) = linetable_line addr (line + dl) q rest.

Lemma shifts_neg q fuel : forall d d' r rest, linetable_neg fuel d = (d', r) ->
  shifts q (d - d') r rest.
Proof.
  induction fuel as [|f IH]; intros d d' r rest E addr line A; cbn [linetable_neg] in E.
  - inv_ok. cbn [app]. f_equal. lia.
  - destruct (Z.ltb_spec d (-127)).
    + destruct (linetable_neg f (d + 127)) as [d2 r2] eqn:E2. inv_ok. cbn [app].
      rewrite ltl_step by assumption. cbv zeta. change (129 =? 128) with false.
      change (signed_byte 129) with (-127). cbv iota.
      destruct (Z.ltb_spec q (addr + 0)); [lia|]. rewrite (IH _ _ _ rest E2) by lia. f_equal; lia.
    + inv_ok. cbn [app]. f_equal. lia.
Qed.

Lemma shifts_pos q fuel : forall d d' r rest, linetable_pos fuel d = (d', r) ->
  shifts q (d - d') r rest.
Proof.
  induction fuel as [|f IH]; intros d d' r rest E addr line A; cbn [linetable_pos] in E.
  - inv_ok. cbn [app]. f_equal. lia.
  - destruct (Z.ltb_spec 127 d).
    + destruct (linetable_pos f (d - 127)) as [d2 r2] eqn:E2. inv_ok. cbn [app].
      rewrite ltl_step by assumption. cbv zeta. change (127 =? 128) with false.
      change (signed_byte 127) with 127. cbv iota.
      destruct (Z.ltb_spec q (addr + 0)); [lia|]. rewrite (IH _ _ _ rest E2) by lia. f_equal; lia.
    + inv_ok. cbn [app]. f_equal. lia.
Qed.

Lemma linetable_neg_bound fuel : forall d d' r, linetable_neg fuel d = (d', r) ->
  - d < 127 * Z.of_nat fuel + 128 -> -127 <= d' /\ (d <= 127 -> d' <= 127) /\ (0 <= d -> d' = d).
Proof.
  induction fuel as [|f IH]; intros d d' r E H; cbn [linetable_neg] in E.
  - inv_ok. lia.
  - destruct (Z.ltb_spec d (-127)).
    + destruct (linetable_neg f (d + 127)) as [d2 r2] eqn:E2. inv_ok.
      apply IH in E2; lia.
    + inv_ok. lia.
Qed.

Lemma linetable_pos_bound fuel : forall d d' r, linetable_pos fuel d = (d', r) ->
  d < 127 * Z.of_nat fuel + 128 -> -127 <= d -> -127 <= d' <= 127.
Proof.
  induction fuel as [|f IH]; intros d d' r E H G; cbn [linetable_pos] in E.
  - inv_ok. lia.
  - destruct (Z.ltb_spec 127 d).
    + destruct (linetable_pos f (d - 127)) as [d2 r2] eqn:E2. inv_ok.
      apply IH in E2; lia.
    + inv_ok. lia.
Qed.

Lemma linetable_doff_bound fuel : forall d d' r, linetable_doff fuel d = (d', r) ->
  0 <= d < 254 * Z.of_nat fuel + 255 -> 0 <= d' <= 254.
Proof.
  induction fuel as [|f IH]; intros d d' r E H; cbn [linetable_doff] in E.
  - inv_ok. lia.
  - destruct (Z.ltb_spec 254 d).
    + destruct (linetable_doff f (d - 254)) as [d2 r2] eqn:E2. inv_ok.
      apply IH in E2; lia.
    + inv_ok. lia.
Qed.

(** long runs: the same line goes on *)
Lemma reads10_doff q fuel : forall doff d b rest,
  linetable_doff fuel doff = (d, b) -> 0 <= d <= 254 ->
  reads10 q doff (Some 0) (b ++ [d; 0]) rest.
Proof.
  induction fuel as [|f IH]; intros doff d b rest E D; cbn [linetable_doff] in E.
  - inv_ok. apply reads10_pack_some; [|lia]. cbn [app]. rewrite pack_Bb_total by lia. reflexivity.
  - destruct (Z.ltb_spec 254 doff).
    + destruct (linetable_doff f (doff - 254)) as [d2 r2] eqn:E2. inv_ok.
      intros addr line A. cbn [app]. rewrite ltl_step by assumption. cbv zeta.
      change (0 =? 128) with false. change (signed_byte 0) with 0. cbv iota.
      destruct (Z.ltb_spec q (addr + 254)).
      * destruct (Z.ltb_spec q (addr + doff)); [|lia]. reflexivity.
      * rewrite (IH _ _ _ rest E2) by lia.
        replace (addr + 254 + (doff - 254)) with (addr + doff) by lia.
        cbn [shown moved]. rewrite !Z.add_0_r. reflexivity.
    + inv_ok. apply reads10_pack_some; [|lia]. cbn [app]. rewrite pack_Bb_total by lia. reflexivity.
Qed.

Lemma pack_linetable_total doff dl : 0 <= doff -> exists bs, pack_linetable doff dl = Ok bs.
Proof.
  intros H. unfold pack_linetable.
  match goal with |- exists bs, bind ?m _ = _ =>
    assert (M : exists d b, m = Ok (d, b) /\ -128 <= d <= 127) end.
  { destruct dl as [d|]; [|exists (-128), []; split; [reflexivity|lia]].
    destruct (linetable_neg _ d) as [d1 r1] eqn:E1.
    destruct (linetable_pos _ d1) as [d2 r2] eqn:E2.
    apply linetable_neg_bound in E1; [|zdm]. apply linetable_pos_bound in E2; [|zdm|zdm].
    assert ((-127 <=? d2) && (d2 <=? 127) = true) as -> by lia. cbn [guard bind].
    eexists _, _. split; [reflexivity|lia]. }
  destruct M as (d & b & -> & D). cbn [bind].
  destruct (Z.ltb_spec 254 doff).
  - rewrite pack_Bb_total by lia. cbn [bind].
    destruct (linetable_doff _ _) as [d2 b2] eqn:E2.
    apply linetable_doff_bound in E2; [|zdm].
    rewrite pack_Bb_total by lia. cbn [bind].
    assert ((0 <=? d2) && (d2 <=? 254) = true) as -> by lia. cbn. eauto.
  - rewrite pack_Bb_total by lia. cbn [bind].
    assert ((0 <=? doff) && (doff <=? 254) = true) as -> by lia. cbn. eauto.
Qed.

Lemma pack_linetable_reads q doff dl bs rest :
  pack_linetable doff dl = Ok bs -> 0 <= doff ->
  (dl = None -> doff <= 254) -> reads10 q doff dl bs rest.
Proof.
  intros E H N. unfold pack_linetable in E. inv_ok. destruct x as [d b1].
  assert (M : forall b2, (forall d', dl = Some d' -> -127 <= d <= 127 ->
              reads10 q doff (Some d) b2 rest) -> (dl = None -> d = -128 -> reads10 q doff None b2 rest) ->
             reads10 q doff dl (b1 ++ b2) rest).
  { intros b2 R1 R2 addr line A. rewrite <- app_assoc.
    destruct dl as [dd|].
    - destruct (linetable_neg _ dd) as [d1 r1] eqn:E1.
      destruct (linetable_pos _ d1) as [d2 r2] eqn:E2. inv_ok.
      rewrite <- app_assoc. rewrite (shifts_neg q _ _ _ _ _ E1) by assumption.
      rewrite (shifts_pos q _ _ _ _ _ E2) by assumption.
      rewrite (R1 dd eq_refl) by lia. cbn [shown moved].
      replace (line + (dd - d1) + (d1 - d) + d) with (line + dd) by lia. reflexivity.
    - inv_ok. cbn [app]. apply (R2 eq_refl eq_refl). assumption. }
  destruct (Z.ltb_spec 254 doff) as [L|L].
  - inv_ok. destruct (linetable_doff _ _) as [d2 b3] eqn:E2. inv_ok.
    match goal with H : pack_Bb d2 0 = _ |- _ => apply pack_Bb_ok in H as (-> & _) end.
    apply M.
    + intros d' -> D addr line A. rewrite <- app_assoc.
      rewrite (reads10_pack_some q _ _ _ _ E1 D) by assumption.
      destruct (Z.ltb_spec q (addr + 254)).
      * destruct (Z.ltb_spec q (addr + doff)); [reflexivity|lia].
      * change (0 mod 256) with 0.
        rewrite (reads10_doff q _ _ _ _ rest E2) by lia.
        replace (addr + 254 + (doff - 254)) with (addr + doff) by lia. cbn [shown moved].
        rewrite !Z.add_0_r. reflexivity.
    + intros ->. specialize (N eq_refl). lia.
  - inv_ok. apply M.
    + intros d' -> D. apply reads10_pack_some; assumption.
    + intros -> ->. apply reads10_pack_none; assumption.
Qed.

(** The line an entry should show. *)
Definition eff (e : lent) : option Z :=
  match le_loc e with Some l => l_lineno l | None => Some (le_line e) end.
(** an entry with a line has it as inherited line (normalize_lineno) *)
Definition eff_ok (e : lent) : Prop := forall z, eff e = Some z -> le_line e = z.

(** [p]: line of the reader; [run]: bytes of the current run without line. *)
Fixpoint none_ok (p : Z) (run : option Z) (l : list lent) : Prop :=
  match l with
  | [] => match run with Some n => n <= 254 | None => True end
  | e :: l' =>
      match eff e with
      | Some z => match run with Some n => n <= 254 /\ z <> p | None => True end
                  /\ none_ok z None l'
      | None => match run with
                | Some n => none_ok p (Some (n + le_size e)) l'
                | None => le_line e = p /\ none_ok p (Some (le_size e)) l'
                end
      end
  end.

Lemma dlineno_eff e r : dlineno_of e r = match eff e with Some z => Some (z - r) | None => None end.
Proof. unfold dlineno_of, eff. destruct (le_loc e); [destruct (l_lineno l)|]; reflexivity. Qed.

Lemma linestable_total l : forall old_off old_line pend last off,
  laid_out off l -> old_off <= off -> le_off last + le_size last = off ->
  exists bs, linestable_loop old_off old_line pend last l = Ok bs.
Proof.
  induction l as [|e l IH]; intros old_off old_line pend last off L O Q; cbn [linestable_loop].
  - apply pack_linetable_total. lia.
  - destruct L as (L1 & L2 & L3). subst off.
    destruct (match pend with Some _ => _ | None => _ end).
    + eapply IH; [exact L3|lia|lia].
    + destruct (pack_linetable_total (le_off e - old_off) pend) as (b & ->); [lia|]. cbn [bind].
      destruct (IH (le_off e) (le_line e) (dlineno_of e old_line) e _ L3) as (r & ->);
        [lia|lia|]. cbn. eauto.
Qed.

(** What the pending entry shows, and what follows. *)
Lemma linestable_reads q l : forall old_off old_line pend last off p bs,
  linestable_loop old_off old_line pend last l = Ok bs ->
  laid_out off l -> Forall eff_ok l ->
  old_off <= q -> old_off <= off -> le_off last + le_size last = off ->
  match pend with Some d => p + d = old_line | None => p = old_line end ->
  none_ok old_line (match pend with Some _ => None | None => Some (off - old_off) end) l ->
  (q < off -> linetable_line old_off p q bs = Some (shown p pend))
  /\ (forall pre e post, l = pre ++ e :: post -> le_off e <= q < le_off e + le_size e ->
       linetable_line old_off p q bs = Some (eff e)).
Proof.
  induction l as [|e l IH]; intros old_off old_line pend last off p bs E L F A O Q P N;
    cbn [linestable_loop] in E.
  - split.
    + intros B. rewrite <- (app_nil_r bs).
      rewrite (pack_linetable_reads q _ _ _ [] E) by
        (try lia; intros ->; cbn in N; lia).
      destruct (Z.ltb_spec q (old_off + (le_off last + le_size last - old_off))); [reflexivity|lia].
    + intros pre e post X. destruct pre; discriminate.
  - destruct L as (L1 & L2 & L3). subst off. inversion_clear F as [|? ? F1 F2].
    rewrite dlineno_eff in E. cbn [none_ok] in N.
    assert (LE : forall pre e0 post, e :: l = pre ++ e0 :: post -> le_off e <= le_off e0).
    { clear - L2 L3. intros pre e0 post X. destruct pre as [|y pre]; injection X as -> ->; [lia|].
      enough (forall off, laid_out off (pre ++ e0 :: post) -> off <= le_off e0) as G
        by (apply G in L3; lia).
      clear. induction pre as [|y l IH]; intros off H; cbn in H; [lia|].
      destruct H as (? & ? & H). apply IH in H. lia. }
    destruct (match eff e with Some z => z - old_line =? 0
              | None => match pend with None => true | _ => false end end) eqn:J.
    + (* joins the pending entry *)
      assert (E' : linestable_loop old_off old_line pend e l = Ok bs).
      { destruct (eff e) as [z|]; [|destruct pend; [discriminate|exact E]].
        apply Z.eqb_eq in J. rewrite J in E. destruct pend; exact E. }
      clear E.
      assert (eff e = shown p pend /\
              none_ok old_line match pend with Some _ => None
                               | None => Some (le_off e + le_size e - old_off) end l) as (K & N').
      { destruct (eff e) as [z|]; [apply Z.eqb_eq in J|]; destruct pend as [d|]; cbn [shown].
        - assert (z = old_line) by lia. subst z. split; [f_equal; lia|apply N].
        - lia.
        - discriminate.
        - split; [reflexivity|].
          replace (le_off e + le_size e - old_off) with (le_off e - old_off + le_size e) by lia.
          apply N. }
      edestruct IH with (1 := E') (2 := L3) (p := p) as (I1 & I2); try eassumption; try lia.
      split. { intros B. apply I1. lia. }
      intros pre e0 post X B. destruct pre as [|y pre]; injection X as -> ->.
      { rewrite I1 by lia. now rewrite K. }
      { eapply I2; [reflexivity|assumption]. }
    + (* a new entry starts *)
      assert (E' : (b <- pack_linetable (le_off e - old_off) pend ;;
                    r <- linestable_loop (le_off e) (le_line e)
                           match eff e with Some z => Some (z - old_line) | None => None end e l ;;
                    Ok (b ++ r)) = Ok bs).
      { destruct (eff e) as [z|].
        - apply Z.eqb_neq in J. destruct pend; destruct (z - old_line); try lia; exact E.
        - destruct pend; [exact E|discriminate]. }
      clear E. apply bind_ok in E' as (b & E1 & E'). apply bind_ok in E' as (r & E2 & E').
      injection E' as <-.
      assert (R := pack_linetable_reads q _ _ _ r E1 ltac:(lia)).
      assert (R' : reads10 q (le_off e - old_off) pend b r).
      { apply R. intros ->. destruct (eff e); [lia|discriminate]. }
      clear R. split.
      { intros B. rewrite R' by assumption.
        destruct (Z.ltb_spec q (old_off + (le_off e - old_off))); [reflexivity|lia]. }
      intros pre e0 post X B. specialize (LE _ _ _ X).
      rewrite R' by assumption.
      destruct (Z.ltb_spec q (old_off + (le_off e - old_off))); [lia|].
      replace (old_off + (le_off e - old_off)) with (le_off e) by lia.
      assert (M : moved p pend = old_line) by (destruct pend; cbn; lia). rewrite M.
      edestruct IH with (1 := E2) (2 := L3) (p := old_line) as (I1 & I2); try eassumption; try lia.
      { destruct (eff e) as [z|] eqn:EF; [rewrite (F1 z EF); lia|].
        destruct pend; [lia|discriminate]. }
      { destruct (eff e) as [z|] eqn:EF; [rewrite (F1 z EF); apply N|].
        destruct pend; [|discriminate]. destruct N as (N1 & N2). rewrite N1.
        replace (le_off e + le_size e - le_off e) with (le_size e) by lia. assumption. }
      destruct pre as [|y pre]; injection X as -> ->.
      { rewrite I1 by lia. destruct (eff e0); [|reflexivity]. cbn [shown]. do 2 f_equal. lia. }
      { eapply I2; [reflexivity|assumption]. }
Qed.

Lemma assemble_linestable_total first l : laid_out 0 l ->
  exists bs, assemble_linestable first l = Ok bs.
Proof.
  destruct l as [|e l]; cbn [assemble_linestable]; [eauto|]. intros (L1 & L2 & L3).
  eapply linestable_total; [exact L3|lia|lia].
Qed.

Lemma assemble_linestable_reads first l bs q pre e post :
  assemble_linestable first l = Ok bs -> laid_out 0 l -> Forall eff_ok l ->
  none_ok first None l -> l = pre ++ e :: post -> le_off e <= q < le_off e + le_size e ->
  linetable_line 0 first q bs = Some (eff e).
Proof.
  intros E L F N X B. destruct l as [|e1 l]; [destruct pre; discriminate|].
  cbn [assemble_linestable] in E. destruct L as (L1 & L2 & L3).
  inversion_clear F as [|? ? F1 F2]. rewrite dlineno_eff in E. cbn [none_ok] in N.
  assert (0 <= q).
  { enough (forall pre off, laid_out off (pre ++ e :: post) -> off <= le_off e) as G.
    { destruct pre as [|y pre]; injection X as -> ->; [lia|]. apply G in L3. lia. }
    clear. induction pre as [|y l IH]; intros off H; cbn in H; [lia|].
    destruct H as (? & ? & H). apply IH in H. lia. }
  rewrite Z.add_0_l in L3.
  edestruct (linestable_reads q l) with (1 := E) (2 := L3) (p := first) as (I1 & I2);
    try eassumption; try lia.
  { destruct (eff e1) as [z|] eqn:EF; [rewrite (F1 z EF); lia|lia]. }
  { destruct (eff e1) as [z|] eqn:EF; [rewrite (F1 z EF); apply N|].
    destruct N as (N1 & N2). rewrite N1, Z.sub_0_r. assumption. }
  destruct pre as [|y pre]; injection X as -> ->.
  - rewrite I1 by lia. destruct (eff e); [|reflexivity]. cbn [shown]. do 2 f_equal. lia.
  - eapply I2; [reflexivity|assumption].
Qed.
