(** Location table of 3.11+: what the interpreter reads back. *)
From Coq Require Import ZifyBool.
From Verif Require Import PyBase OpTable CPy M_Instr M_Tables P_Base P_Lines.
Open Scope list_scope.
Open Scope Z_scope.

Definition is_byte (b : Z) : Prop := 0 <= b < 256.

Lemma location_varint_loop_reads fuel : forall x rest,
  0 <= x < 2 ^ Z.of_nat fuel -> (0 < fuel)%nat ->
  read_varint (location_varint_loop fuel x ++ rest) = Some (x, rest)
  /\ Forall is_byte (location_varint_loop fuel x)
  /\ location_varint_loop fuel x <> [].
Proof.
  induction fuel as [|f IH]; intros x rest H F; [lia|]. cbn [location_varint_loop]. cbv zeta.
  change 0x3F with 63. change 0x40 with 64. rewrite land63, shiftr6.
  destruct (Z.eqb_spec (x / 64) 0) as [Z|N].
  - cbn [app read_varint]. replace (x mod 64 / 64) with 0 by zdm.
    change (0 mod 2 =? 0) with true. cbv iota. rewrite Z.mod_mod by lia.
    repeat split; [do 2 f_equal; zdm| |discriminate]. constructor; [unfold is_byte; zdm|constructor].
  - rewrite lor_64_r by zdm. cbn [app read_varint].
    replace ((x mod 64 + 64) / 64) with 1 by zdm. change (1 mod 2 =? 0) with false. cbv iota.
    assert (D : 0 <= x / 64 < 2 ^ Z.of_nat f).
    { change 64 with (2 ^ 6). apply div_fuel; lia. }
    assert (0 < f)%nat by (destruct f; [simpl in D; lia|lia]).
    destruct (IH (x / 64) rest D) as (A & B & C); [assumption|]. rewrite A.
    repeat split; [do 2 f_equal; zdm| |discriminate].
    constructor; [unfold is_byte; zdm|assumption].
Qed.

Lemma encode_location_varint_reads x : 0 <= x -> exists bs,
  encode_location_varint x = Ok bs /\ Forall is_byte bs
  /\ (forall rest, read_varint (bs ++ rest) = Some (x, rest)).
Proof.
  intros H. unfold encode_location_varint. destruct (Z.ltb_spec x 0); [lia|].
  assert (B := bit_fuel_bound x H).
  eexists. split; [reflexivity|]. split.
  - refine (proj1 (proj2 (location_varint_loop_reads _ x [] _ _))); unfold bit_fuel; lia.
  - intros rest. apply location_varint_loop_reads; unfold bit_fuel; lia.
Qed.

Lemma encode_location_svarint_reads x : exists bs,
  encode_location_svarint x = Ok bs /\ Forall is_byte bs
  /\ (forall rest, read_svarint (bs ++ rest) = Some (x, rest)).
Proof.
  unfold encode_location_svarint. rewrite !shiftl1. destruct (Z.ltb_spec x 0).
  - assert (Z.lor (- x * 2) 1 = - x * 2 + 1) as ->.
    { change 2 with (2 ^ 1) at 1. rewrite lor_add_pow2 by lia. reflexivity. }
    destruct (encode_location_varint_reads (- x * 2 + 1)) as (bs & E & F & R); [lia|].
    exists bs. repeat split; try assumption. intros rest. unfold read_svarint. rewrite R.
    replace ((- x * 2 + 1) mod 2) with 1 by zdm. cbn [Z.eqb]. do 2 f_equal. zdm.
  - destruct (encode_location_varint_reads (x * 2)) as (bs & E & F & R); [lia|].
    exists bs. repeat split; try assumption. intros rest. unfold read_svarint. rewrite R.
    replace ((x * 2) mod 2) with 0 by zdm. cbn [Z.eqb]. do 2 f_equal. zdm.
Qed.

Lemma bytes_of_ok bs : Forall is_byte bs -> bytes_of bs = Ok bs.
Proof.
  intros H. unfold bytes_of.
  assert (forallb (fun b => (0 <=? b) && (b <=? 255)) bs = true) as ->; [|reflexivity].
  apply forallb_forall. rewrite Forall_forall in H. intros x X. apply H in X.
  unfold is_byte in X. lia.
Qed.

Definition chunk (size : Z) : Z := if size <=? 8 then size else 8.

Lemma header_spec code size : 0 <= code <= 15 -> 1 <= size ->
  is_byte (pack_location_header code size)
  /\ (pack_location_header code size / 8) mod 16 = code
  /\ pack_location_header code size mod 8 + 1 = chunk size.
Proof.
  intros C S. unfold pack_location_header, is_byte, chunk.
  change (Z.shiftl 1 7) with 128. rewrite Z.shiftl_mul_pow2 by lia. change (2 ^ 3) with 8.
  destruct (Z.leb_spec size 8); repeat split; zdm.
Qed.

(** Locations that the table can represent: coherent, and several lines only with columns *)
Definition loc_ok (l : loc) : Prop :=
  match l_lineno l with
  | None => True
  | Some line =>
      match l_col l with
      | None => match l_end_lineno l with Some el => el = line | None => True end
      | Some c => 0 <= c /\ exists el ec, l_end_lineno l = Some el /\ l_end_col l = Some ec
                  /\ line <= el /\ 0 <= ec /\ (el = line -> c <= ec)
      end
  end.

Definition pos_of (l : loc) : position :=
  match l_lineno l with
  | None => (None, None, None, None)
  | Some line =>
      match l_col l with
      | None => (Some line, Some line, None, None)
      | Some c => (Some line, l_end_lineno l, Some c, l_end_col l)
      end
  end.

Definition next_line (line : Z) (l : loc) : Z :=
  match l_lineno l with Some z => z | None => line end.

Lemma pack_location_reads size line l : loc_ok l -> 1 <= size -> exists bs,
  pack_location size line (Some l) = Ok bs /\ bs <> []
  /\ (forall rest, read_entry line (bs ++ rest)
                   = Some (chunk size, pos_of l, next_line line l, rest)).
Proof.
  intros OK S. unfold pack_location, pos_of, next_line, loc_ok in *.
  destruct l as [[ln|] el c ec]; cbn [l_lineno l_end_lineno l_col l_end_col] in *.
  2:{ destruct (header_spec 15 size) as (A & B & C); [lia|lia|].
      eexists. rewrite bytes_of_ok by (constructor; [assumption|constructor]).
      split; [reflexivity|]. split; [discriminate|]. intros rest. cbn [app read_entry]. cbv zeta.
      rewrite B, C. reflexivity. }
  destruct c as [c|].
  2:{ destruct (header_spec 13 size) as (A & B & C); [lia|lia|].
      destruct (encode_location_svarint_reads (ln - line)) as (s & E & F & R). rewrite E.
      assert (G : match el with Some el0 => guard (el0 =? ln) ValueError | None => Ok tt end = Ok tt).
      { destruct el; [subst|reflexivity]. now rewrite Z.eqb_refl. }
      rewrite G. cbn [bind].
      rewrite bytes_of_ok by (constructor; assumption).
      eexists. split; [reflexivity|]. split; [discriminate|]. intros rest.
      cbn [app read_entry]. cbv zeta. rewrite B, C, R. cbn [Z.eqb].
      change (13 =? 15) with false. change (13 =? 14) with false. change (13 =? 13) with true.
      cbv iota. replace (line + (ln - line)) with ln by lia. reflexivity. }
  destruct OK as (C0 & el' & ec' & -> & -> & L & EC & CO). cbn [of_option bind].
  destruct (_ && (ec' - c <=? 15)) eqn:B1.
  - assert (el' = ln /\ ln = line /\ c < 72 /\ ec' - c <= 15) as (-> & -> & K1 & K2) by lia.
    clear B1. specialize (CO eq_refl).
    destruct (header_spec (c / 8) size) as (A & B & C); [zdm|lia|].
    rewrite Z.shiftl_mul_pow2 by lia. change (2 ^ 4) with 16.
    rewrite bytes_of_ok
      by (constructor; [assumption|constructor; [unfold is_byte; zdm|constructor]]).
    eexists. split; [reflexivity|]. split; [discriminate|]. intros rest.
    cbn [app read_entry]. cbv zeta. rewrite B, C.
    assert (c / 8 =? 15 = false) as -> by zdm. assert (c / 8 =? 14 = false) as -> by zdm.
    assert (c / 8 =? 13 = false) as -> by zdm. assert (10 <=? c / 8 = false) as -> by zdm.
    assert (c / 8 * 8 + ((c mod 8 * 16 + (ec' - c)) / 16) mod 8 = c) as -> by zdm.
    assert (c + (c mod 8 * 16 + (ec' - c)) mod 16 = ec') as -> by zdm. reflexivity.
  - clear B1. destruct (_ && (ec' <? 256)) eqn:B2.
    + assert (el' = ln /\ (ln - line = 1 \/ ln - line = 2) /\ c < 256 /\ ec' < 256)
        as (-> & K1 & K2 & K3) by lia. clear B2.
      destruct (header_spec (10 + ln - line) size) as (A & B & C); [lia|lia|].
      rewrite bytes_of_ok by (repeat constructor; unfold is_byte in *; lia).
      eexists. split; [reflexivity|]. split; [discriminate|]. intros rest.
      cbn [app read_entry]. cbv zeta. rewrite B, C.
      assert (10 + ln - line =? 15 = false) as -> by lia.
      assert (10 + ln - line =? 14 = false) as -> by lia.
      assert (10 + ln - line =? 13 = false) as -> by lia.
      assert (10 <=? 10 + ln - line = true) as -> by lia.
      replace (line + (10 + ln - line - 10)) with ln by lia. reflexivity.
    + clear B2. destruct (header_spec 14 size) as (A & B & C); [lia|lia|].
      destruct (encode_location_svarint_reads (ln - line)) as (s1 & -> & F1 & R1).
      destruct (encode_location_varint_reads (el' - ln)) as (s2 & -> & F2 & R2); [lia|].
      destruct (encode_location_varint_reads (c + 1)) as (s3 & -> & F3 & R3); [lia|].
      destruct (encode_location_varint_reads (ec' + 1)) as (s4 & -> & F4 & R4); [lia|].
      cbn [bind].
      rewrite bytes_of_ok by (constructor; [assumption|repeat (apply Forall_app; split); assumption]).
      eexists. split; [reflexivity|]. split; [discriminate|]. intros rest.
      cbn [app read_entry]. cbv zeta. rewrite B, C, <- !app_assoc, R1, R2, R3, R4.
      change (14 =? 15) with false. change (14 =? 14) with true. cbv iota.
      assert (c + 1 =? 0 = false) as -> by lia. assert (ec' + 1 =? 0 = false) as -> by lia.
      replace (line + (ln - line)) with ln by lia. replace (ln + (el' - ln)) with el' by lia.
      replace (c + 1 - 1) with c by lia. replace (ec' + 1 - 1) with ec' by lia. reflexivity.
Qed.

(** Only locations that span lines without columns cannot be packed. *)
Lemma read_entry_shrinks line bs len p line' rest :
  read_entry line bs = Some (len, p, line', rest) -> (length rest < length bs)%nat.
Proof.
  assert (V : forall bs v r, read_varint bs = Some (v, r) -> (length r < length bs)%nat).
  { clear. induction bs as [|b bs IH]; cbn [read_varint]; intros v r H; [discriminate|].
    destruct (_ =? 0). { inv_ok. cbn. lia. }
    destruct (read_varint bs) as [[v' r']|] eqn:E; [|discriminate]. inv_ok.
    specialize (IH _ _ eq_refl). cbn. lia. }
  assert (SV : forall bs v r, read_svarint bs = Some (v, r) -> (length r < length bs)%nat).
  { intros bs0 v r. unfold read_svarint. destruct (read_varint bs0) as [[v' r']|] eqn:E; [|discriminate].
    intros H. inv_ok. eapply V, E. }
  destruct bs as [|b bs]; cbn [read_entry]; [discriminate|]. cbv zeta.
  destruct (_ =? 15). { intros H. inv_ok. cbn. lia. }
  destruct (_ =? 14).
  { destruct (read_svarint bs) as [[v1 r1]|] eqn:E1; [|discriminate].
    destruct (read_varint r1) as [[v2 r2]|] eqn:E2; [|discriminate].
    destruct (read_varint r2) as [[v3 r3]|] eqn:E3; [|discriminate].
    destruct (read_varint r3) as [[v4 r4]|] eqn:E4; [|discriminate].
    intros H. inv_ok. apply SV in E1. apply V in E2, E3, E4. cbn. lia. }
  destruct (_ =? 13).
  { destruct (read_svarint bs) as [[v1 r1]|] eqn:E1; [|discriminate].
    intros H. inv_ok. apply SV in E1. cbn. lia. }
  destruct (10 <=? _).
  { destruct bs as [|c [|d r]]; try discriminate. intros H. inv_ok. cbn. lia. }
  destruct bs as [|c r]; try discriminate. intros H. inv_ok. cbn. lia.
Qed.

Lemma read_positions_fuel f1 : forall f2 line bs,
  (length bs <= f1)%nat -> (length bs <= f2)%nat ->
  read_positions f1 line bs = read_positions f2 line bs.
Proof.
  induction f1 as [|f1 IH]; intros f2 line bs H1 H2.
  - destruct bs; [|cbn in H1; lia]. now destruct f2.
  - destruct f2 as [|f2]; [destruct bs; [reflexivity|cbn in H2; lia]|]. cbn [read_positions].
    destruct (read_entry line bs) as [[[[len p] line'] rest]|] eqn:E; [|reflexivity].
    apply read_entry_shrinks in E. f_equal. apply IH; lia.
Qed.

Lemma co_positions_step line bs len p line' rest :
  read_entry line bs = Some (len, p, line', rest) ->
  co_positions line bs = repeat p (Z.to_nat len) ++ co_positions line' rest.
Proof.
  intros E. pose proof (read_entry_shrinks _ _ _ _ _ _ E) as S. unfold co_positions.
  destruct (length bs) as [|n] eqn:L; [lia|]. cbn [read_positions]. rewrite E. f_equal.
  apply read_positions_fuel; lia.
Qed.

Lemma push_loop_reads fuel : forall size line l,
  loc_ok l -> 1 <= size < 8 * Z.of_nat fuel + 1 ->
  exists bs, push_locations_loop fuel size line l = Ok (bs, next_line line l)
    /\ forall rest, co_positions line (bs ++ rest)
       = repeat (pos_of l) (Z.to_nat size) ++ co_positions (next_line line l) rest.
Proof.
  induction fuel as [|f IH]; intros size line l OK S; [lia|]. cbn [push_locations_loop].
  destruct (pack_location_reads size line l OK) as (b & -> & NE & R); [lia|]. cbn [bind]. cbv zeta.
  fold (next_line line l).
  destruct (Z.ltb_spec (size - 8) 1).
  - eexists. split; [reflexivity|]. intros rest.
    rewrite (co_positions_step _ _ _ _ _ _ (R rest)). unfold chunk.
    assert (size <=? 8 = true) as -> by lia. reflexivity.
  - destruct (IH (size - 8) (next_line line l) l OK) as (r & -> & R'); [lia|]. cbn [bind].
    assert (NL : next_line (next_line line l) l = next_line line l).
    { unfold next_line. now destruct (l_lineno l). }
    rewrite NL in *. eexists. split; [reflexivity|]. intros rest. rewrite <- app_assoc.
    rewrite (co_positions_step _ _ _ _ _ _ (R (r ++ rest))), R', app_assoc, <- repeat_app.
    f_equal. f_equal. unfold chunk. destruct (Z.leb_spec size 8); lia.
Qed.

Lemma push_locations_reads size line l : loc_ok l -> 2 <= size ->
  exists bs, push_locations size line l = Ok (bs, next_line line l)
    /\ forall rest, co_positions line (bs ++ rest)
       = repeat (pos_of l) (Z.to_nat (size / 2)) ++ co_positions (next_line line l) rest.
Proof. intros OK S. apply push_loop_reads; [assumption|]. zdm. Qed.

Lemma loc_eqb_eq a b : loc_eqb a b = true <-> a = b.
Proof.
  unfold loc_eqb, optz_eqb. destruct a as [a1 a2 a3 a4], b as [b1 b2 b3 b4].
  cbn [l_lineno l_end_lineno l_col l_end_col]. split.
  - intros H. repeat (apply andb_true_iff in H as [H ?]).
    repeat match goal with
    | H : (match ?x with _ => _ end) = true |- _ => destruct x; try discriminate
    end; repeat match goal with H : (_ =? _) = true |- _ => apply Z.eqb_eq in H as -> end; reflexivity.
  - injection 1 as -> -> -> ->. destruct b1, b2, b3, b4; rewrite ?Z.eqb_refl; reflexivity.
Qed.

(** Locations with the missing ones filled by the previous one. *)
Fixpoint fill (prev : loc) (l : list lent) : list (Z * loc) :=
  match l with
  | [] => []
  | e :: l' => let x := match le_loc e with Some x => x | None => prev end in
               (le_size e, x) :: fill x l'
  end.

Definition entry_ok11 (e : lent) : Prop :=
  2 <= le_size e /\ le_size e mod 2 = 0
  /\ match le_loc e with Some l => loc_ok l | None => True end.

Lemma locations_loop_reads l : forall size line old,
  loc_ok old -> 2 <= size -> size mod 2 = 0 -> Forall entry_ok11 l ->
  exists bs, locations_loop size line old l = Ok bs
    /\ co_positions line bs
       = repeat (pos_of old) (Z.to_nat (size / 2))
         ++ flat_map (fun p => repeat (pos_of (snd p)) (Z.to_nat (fst p / 2))) (fill old l).
Proof.
  induction l as [|e l IH]; intros size line old OK S S2 F; cbn [locations_loop fill flat_map].
  - destruct (push_locations_reads size line old OK S) as (bs & -> & R). cbn [bind].
    exists bs. split; [reflexivity|]. rewrite <- (app_nil_r bs), R. reflexivity.
  - inversion_clear F as [|? ? (F1 & F2 & F3) F4]. cbv zeta.
    set (nl := match le_loc e with Some x => x | None => old end) in *.
    assert (OX : loc_ok nl) by (unfold nl; destruct (le_loc e); assumption).
    destruct (_ && loc_eqb old nl) eqn:J.
    + apply andb_true_iff in J as [_ J]. apply loc_eqb_eq in J. rewrite <- J in *.
      destruct (IH (size + le_size e) line old OK) as (bs & -> & R); [lia|zdm|assumption|].
      exists bs. split; [reflexivity|]. rewrite R, app_assoc. cbn [fst snd].
      rewrite <- repeat_app. do 2 f_equal. zdm.
    + destruct (push_locations_reads size line old OK S) as (b & -> & R). cbn [bind].
      destruct (IH (le_size e) (next_line line old) nl OX F1 F2 F4) as (r & -> & R'). cbn [bind].
      eexists. split; [reflexivity|]. rewrite R, R'. reflexivity.
Qed.

Lemma assemble_locations_reads first l :
  Forall entry_ok11 l ->
  exists bs, assemble_locations first l = Ok bs
    /\ co_positions first bs =
       match l with
       | [] => []
       | e :: _ => flat_map (fun p => repeat (pos_of (snd p)) (Z.to_nat (fst p / 2)))
                     (fill (line_loc (Some (le_line e))) l)
       end.
Proof.
  destruct l as [|e l]; intros F; cbn [assemble_locations]; [eexists; split; reflexivity|].
  inversion_clear F as [|? ? (F1 & F2 & F3) F4]. cbn [fill flat_map]. cbv zeta.
  apply locations_loop_reads; try assumption. destruct (le_loc e); [assumption|exact I].
Qed.

(** A location on several lines without columns makes the assembly fail. *)
Lemma pack_location_bad size line l bs :
  pack_location size line (Some l) = Ok bs ->
  l_lineno l <> None -> l_col l = None -> l_end_lineno l = None \/ l_end_lineno l = l_lineno l.
Proof.
  unfold pack_location. destruct l as [[ln|] el c ec]; cbn; [|congruence]. intros H _ ->.
  destruct el as [el|]; [|now left]. apply bind_ok in H as (? & H & _). apply guard_ok in H.
  right. f_equal. lia.
Qed.
