(** CPython's search in the bytes of the exception table finds what reading it in order finds. *)
From Verif Require Import PyBase OpTable P_Base P_OpTable M_Instr M_Tables M_Concrete P_Asm P_Except S_Code P_Code CPySearch.
Import ListNotations.
Open Scope string_scope. Open Scope list_scope. Open Scope Z_scope.

(** ** Length of an entry *)
Lemma encode_loop_len n : forall fuel value rtemp, 0 <= value < 64 ^ Z.of_nat n ->
  (length (encode_varint_loop fuel value rtemp) <= n + length rtemp)%nat.
Proof.
  induction n as [|n IH]; intros fuel value rtemp H; destruct fuel as [|f]; cbn [encode_varint_loop]; try lia.
  - change (64 ^ Z.of_nat 0) with 1 in H. replace (value =? 0) with true by lia. lia.
  - destruct (Z.eqb_spec value 0); [lia|].
    match goal with |- (length (encode_varint_loop _ ?x ?y) <= _)%nat => specialize (IH f x y) end.
    cbn [length] in IH. rewrite shiftr6 in *. rewrite Nat2Z.inj_succ, Z.pow_succ_r in H by lia.
    assert (0 <= value / 64 < 64 ^ Z.of_nat n) by zdm. specialize (IH H0). lia.
Qed.

Lemma encode_len value m bs : encode_varint value m = Ok bs -> value < 2 ^ 30 -> (length bs <= 5)%nat.
Proof.
  unfold encode_varint. destruct (Z.ltb_spec value 0); [discriminate|]. intros E L. apply (f_equal (fun r => match r with Ok l => l | Err _ => [] end)) in E. cbv beta iota in E. subst bs.
  pose proof (encode_loop_len 5 (bit_fuel value) value [] (conj H L)) as X.
  clear H L. cbv zeta in *. set (l := encode_varint_loop _ _ _) in *. clearbody l. destruct l; cbn [length] in *; lia.
Qed.

Lemma entry_len e bs : assemble_entry e = Ok bs -> small e -> (length bs <= 20)%nat.
Proof.
  unfold assemble_entry. intros H (S1 & S2 & S3 & S4). inv_ok. rewrite shiftl1 in *.
  apply encode_len in E, E0, E1, E2; [|destruct (e_lasti e); lia|lia..]. rewrite !app_length. lia.
Qed.

(** ** The final scan *)
Lemma bit7_low x : 0 <= x < 128 -> (x / 128) mod 2 =? 0 = true.
Proof. intros H. rewrite Z.div_small by lia. reflexivity. Qed.
Lemma bit7_high x : 128 <= x < 256 -> (x / 128) mod 2 =? 0 = false.
Proof. intros H. replace (x / 128) with 1 by zdm. reflexivity. Qed.

Lemma skip_stop bs stop : (length bs <= stop)%nat -> skip_to_next_entry bs stop = bs.
Proof. intros L. destruct bs; cbn [skip_to_next_entry]; apply Nat.leb_le in L; now rewrite L. Qed.
Lemma skip_low r : forall rest stop, Forall (fun x => 0 <= x < 128) r -> (stop <= length rest)%nat ->
  skip_to_next_entry (r ++ rest) stop = skip_to_next_entry rest stop.
Proof.
  induction r as [|x r IH]; intros rest stop F L; [reflexivity|]. inversion F; subst. cbn [app skip_to_next_entry].
  assert (N : (length (x :: r ++ rest) <=? stop)%nat = false).
  { apply Nat.leb_gt. cbn. rewrite app_length. lia. }
  rewrite N, bit7_low by assumption. now apply IH.
Qed.

Lemma scan_entries u en : forall bss tail fuel, mapM assemble_entry en = Ok bss -> (length en < fuel)%nat ->
  scan_loop fuel u (concat bss ++ tail) (length tail) = Some (lookup u en).
Proof.
  induction en as [|e en IH]; cbn [mapM]; intros bss tail fuel H F; inv_ok.
  - destruct fuel; [lia|]. cbn [scan_loop concat app lookup]. now rewrite Nat.leb_refl.
  - destruct fuel as [|fuel]; [lia|]. cbn [concat] in *. unfold assemble_entry in E. inv_ok. rewrite shiftl1 in *.
    apply encode_varint_spec in E1, E2, E3, E4.
    destruct E1 as (P1 & Q1 & b1 & r1 & -> & _), E2 as (P2 & Q2 & _), E3 as (P3 & Q3 & b3 & r3 & -> & B3 & F3), E4 as (P4 & Q4 & b4 & r4 & -> & B4 & F4).
    cbn [scan_loop lookup].
    match goal with |- context [(length ?l <=? ?s)%nat] => replace (length l <=? s)%nat with false by (symmetry; apply Nat.leb_gt; rewrite !app_length; cbn; lia) end.
    rewrite !read_big_is, <- !app_assoc, Q1.
    destruct (u <? e_start e); [reflexivity|]. rewrite read_big_is, Q2.
    replace (e_start e + (e_stop e - e_start e + 1)) with (e_stop e + 1) by lia. destruct (u <? e_stop e + 1).
    + rewrite read_big_is, Q3, read_big_is, Q4. f_equal. f_equal. f_equal; [f_equal|].
      * destruct (e_lasti e); zdm.
      * destruct (e_lasti e); rewrite Z.add_comm, Z.mul_comm; [now rewrite Z.odd_add_mul_2|now rewrite Z.odd_add_mul_2].
    + match goal with H : mapM assemble_entry en = Ok ?z |- _ => rename z into l; rename H into EN end.
      rewrite skip_low; [|now constructor|rewrite !app_length; lia]. rewrite skip_low; [|now constructor|rewrite app_length; lia].
      replace (skip_to_next_entry _ _) with (concat l ++ tail); [apply IH; [assumption|cbn in F; lia]|].
      symmetry. destruct en as [|e2 en]; cbn [mapM] in EN; inv_ok; [apply skip_stop; cbn; lia|].
      match goal with H : assemble_entry e2 = Ok _ |- _ => destruct (assemble_entry_framed _ _ H) as (yb & yr & -> & B & _) end. cbn [concat app skip_to_next_entry].
      match goal with |- context [(?a <=? ?s)%nat] => destruct (a <=? s)%nat end; [reflexivity|]. now rewrite bit7_high.
Qed.

(** ** The bisection *)
Lemma lookup_cut u m x r : u < e_start x -> lookup u (m ++ x :: r) = lookup u m.
Proof.
  intros L. induction m as [|e m IH]; cbn [app lookup]; [replace (u <? e_start x) with true by lia; reflexivity|].
  destruct (u <? e_start e); [reflexivity|]. destruct (u <? e_stop e + 1); [reflexivity|exact IH].
Qed.
Lemma lookup_skip u m x r : apart (m ++ x :: r) -> e_start x <= u -> lookup u (m ++ x :: r) = lookup u (x :: r).
Proof.
  intros A L. induction m as [|e m IH]; [reflexivity|]. cbn [app lookup].
  destruct (A 0%nat (S (length m)) e x ltac:(lia) eq_refl) as [S1 S2].
  { cbn. rewrite nth_error_app2 by lia. now rewrite Nat.sub_diag. }
  replace (u <? e_start e) with false by lia. replace (u <? e_stop e + 1) with false by lia. apply IH.
  intros m' n' f g Lt F G. apply (A (S m') (S n') f g); [lia|assumption..].
Qed.
Lemma apart_app_l a b : apart (a ++ b) -> apart a.
Proof.
  intros A m n f e L F E. apply (A m n f e L); rewrite nth_error_app1; auto; apply nth_error_Some; congruence.
Qed.
Lemma apart_app_r a b : apart (a ++ b) -> apart b.
Proof.
  intros A m n f e L F E. apply (A (length a + m)%nat (length a + n)%nat f e); [lia|..]; rewrite nth_error_app2 by lia.
  - replace (length a + m - length a)%nat with m by lia. assumption.
  - replace (length a + n - length a)%nat with n by lia. assumption.
Qed.

Lemma mapM_app_ok {A B} (f : A -> res B) l1 : forall l2 r1 r2, mapM f l1 = Ok r1 -> mapM f l2 = Ok r2 -> mapM f (l1 ++ l2) = Ok (r1 ++ r2).
Proof.
  induction l1 as [|x l1 IH]; cbn [mapM app]; intros l2 r1 r2 H1 H2; inv_ok; [exact H2|].
  rewrite E. cbn. erewrite IH by eassumption. reflexivity.
Qed.

(** scanning back inside an entry *)
Lemma back_low bs p k : (forall i, (p < i <= p + k)%nat -> 0 <= nth i bs 0 < 128) -> 128 <= nth p bs 0 < 256 -> back bs (p + k) = p.
Proof.
  induction k as [|k IH]; intros L H.
  - rewrite Nat.add_0_r. destruct p as [|p]; cbn [back]; [reflexivity|]. now rewrite bit7_high.
  - rewrite Nat.add_succ_r. cbn [back]. rewrite bit7_low by (rewrite <- Nat.add_succ_r; apply L; lia). apply IH; auto. intros i Q. apply L. lia.
Qed.

(** the entry a byte belongs to *)
Lemma entry_at en : forall bss, mapM assemble_entry en = Ok bss -> forall k, (k < length (concat bss))%nat ->
  exists m1 x m2 r1 b r r2, en = m1 ++ x :: m2 /\ bss = r1 ++ (b :: r) :: r2 /\ mapM assemble_entry m1 = Ok r1
    /\ assemble_entry x = Ok (b :: r) /\ mapM assemble_entry m2 = Ok r2
    /\ 128 <= b < 256 /\ Forall (fun x => 0 <= x < 128) r
    /\ (length (concat r1) <= k < length (concat r1) + length (b :: r))%nat.
Proof.
  induction en as [|e en IH]; cbn [mapM]; intros bss H k L; inv_ok; [cbn in L; lia|].
  destruct (assemble_entry_framed _ _ E) as (b & r & -> & B & F). cbn [concat] in L. rewrite app_length in L.
  destruct (le_lt_dec (length (b :: r)) k) as [G|G].
  - destruct (IH _ E0 (k - length (b :: r))%nat ltac:(lia)) as (m1 & x & m2 & r1 & b' & r' & r2 & -> & -> & M1 & X & M2 & B' & F' & R).
    exists (e :: m1), x, m2, ((b :: r) :: r1), b', r', r2. repeat (split; [assumption || reflexivity|]).
    split; [cbn [mapM]; now rewrite E, M1|]. repeat (split; [assumption|]).
    change (concat ((b :: r) :: r1)) with ((b :: r) ++ concat r1). rewrite app_length. lia.
  - exists [], e, en, [], b, r, x0. repeat (split; [assumption || reflexivity|]). cbn [concat length] in *. lia.
Qed.

Lemma nth_at {A} (d : A) a b c i : (i < length b)%nat -> nth (length a + i) (a ++ b ++ c) d = nth i b d.
Proof. intros L. rewrite app_nth2 by lia. replace (length a + i - length a)%nat with i by lia. now rewrite app_nth1. Qed.

Lemma bisect_finds u : forall fuel pre m post bpre bm bpost, mapM assemble_entry pre = Ok bpre -> mapM assemble_entry m = Ok bm -> mapM assemble_entry post = Ok bpost ->
  apart m -> Forall (fun bs => (length bs <= 20)%nat) bm -> (length m < fuel)%nat ->
  exists pre' m' post' bpre' bm' bpost', pre ++ m ++ post = pre' ++ m' ++ post' /\ bpre ++ bm ++ bpost = bpre' ++ bm' ++ bpost'
    /\ mapM assemble_entry m' = Ok bm' /\ lookup u m' = lookup u m
    /\ bisect_loop fuel u (concat (bpre ++ bm ++ bpost)) (length (concat bpre)) (length (concat bpre) + length (concat bm))
       = Some (length (concat bpre'), length (concat bpre') + length (concat bm'))%nat.
Proof.
  induction fuel as [|fuel IH]; intros pre m post bpre bm bpost H1 H2 H3 A F L; [lia|]. cbn [bisect_loop].
  set (s := length (concat bpre)). set (w := length (concat bm)). replace (s + w - s)%nat with w by lia.
  destruct (Nat.leb_spec w MAX_LINEAR_SEARCH) as [W|W].
  { exists pre, m, post, bpre, bm, bpost. auto 10. }
  unfold MAX_LINEAR_SEARCH in W. assert (H20 : (20 <= w / 2 < w)%nat).
  { split; [apply (Nat.div_le_mono 41 w 2); lia|apply Nat.div_lt; lia]. }
  destruct (entry_at m bm H2 (w / 2) ltac:(lia)) as (m1 & x & m2 & r1 & b & r & r2 & -> & -> & M1 & X & M2 & B & FL & R).
  assert (LEN : (length (b :: r) <= 20)%nat) by (apply Forall_app in F; destruct F as [_ F]; now inversion F).
  set (whole := concat _).
  assert (BK : back whole (s + w / 2) = (s + length (concat r1))%nat).
  { assert (WH : whole = (concat bpre ++ concat r1) ++ (b :: r) ++ (concat r2 ++ concat bpost)).
    { unfold whole. rewrite !concat_app. cbn [concat]. now rewrite <- !app_assoc. }
    replace (s + w / 2)%nat with (length (concat bpre ++ concat r1) + (w / 2 - length (concat r1)))%nat by (rewrite app_length; lia).
    replace (s + length (concat r1))%nat with (length (concat bpre ++ concat r1)) by (rewrite app_length; lia).
    apply back_low.
    - intros i I. rewrite WH. replace i with (length (concat bpre ++ concat r1) + (i - length (concat bpre ++ concat r1)))%nat by lia.
      rewrite nth_at by lia. destruct (i - length (concat bpre ++ concat r1))%nat as [|j] eqn:J; [lia|]. cbn [nth]. rewrite Forall_forall in FL. apply FL.
      apply nth_In. cbn [length] in R. lia.
    - rewrite WH. rewrite <- (Nat.add_0_r (length (concat bpre ++ concat r1))). rewrite nth_at by (cbn; lia). exact B. }
  rewrite BK.
  assert (SK : skipn (s + length (concat r1)) whole = (b :: r) ++ concat r2 ++ concat bpost).
  { unfold whole. rewrite !concat_app. cbn [concat]. rewrite <- !app_assoc. rewrite app_assoc.
    replace (s + length (concat r1))%nat with (length (concat bpre ++ concat r1)) by (rewrite app_length; lia).
    rewrite skipn_app, skipn_all, Nat.sub_diag. reflexivity. }
  assert (RD : exists tl, read_big 0 ((b :: r) ++ concat r2 ++ concat bpost) = Some (e_start x, tl)).
  { clear - X. revert X. generalize (b :: r). intros br X. unfold assemble_entry in X. inv_ok. apply encode_varint_spec in E. destruct E as (_ & Q & _). rewrite read_big_is, <- !app_assoc. rewrite Q. eauto. }
  destruct RD as [tl RD]. rewrite SK, RD.
  assert (NE : m1 <> []). { intros ->. cbn in M1. injection M1 as <-. cbn [concat length] in R. cbn [length] in LEN. lia. }
  assert (WW : w = (length (concat r1) + length (concat ((b :: r) :: r2)))%nat).
  { unfold w. now rewrite concat_app, app_length. }
  rewrite app_length in L. cbn [length] in L.
  destruct (Z.ltb_spec u (e_start x)) as [U|U].
  - assert (P2 : mapM assemble_entry ((x :: m2) ++ post) = Ok (((b :: r) :: r2) ++ bpost)).
    { apply mapM_app_ok; [|exact H3]. cbn [mapM]. now rewrite X, M2. }
    destruct (IH pre m1 ((x :: m2) ++ post) bpre r1 (((b :: r) :: r2) ++ bpost) H1 M1 P2 (apart_app_l _ _ A) (proj1 (proj1 (Forall_app _ _ _) F)) ltac:(lia))
      as (p' & m' & q' & bp' & bm' & bq' & E1 & E2 & E3 & E4 & E5).
    exists p', m', q', bp', bm', bq'. rewrite lookup_cut by exact U. repeat split; try assumption.
    + rewrite <- E1. now rewrite <- !app_assoc.
    + rewrite <- E2. now rewrite <- !app_assoc.
    + rewrite <- E5. unfold whole. f_equal. now rewrite <- !app_assoc.
  - assert (P1 : mapM assemble_entry (pre ++ m1) = Ok (bpre ++ r1)) by (now apply mapM_app_ok).
    assert (P2 : mapM assemble_entry (x :: m2) = Ok ((b :: r) :: r2)) by (cbn [mapM]; now rewrite X, M2).
    assert (m1 <> [] -> (0 < length m1)%nat) as NL by (destruct m1; cbn; [congruence|lia]). specialize (NL NE).
    destruct (IH (pre ++ m1) (x :: m2) post (bpre ++ r1) ((b :: r) :: r2) bpost P1 P2 H3 (apart_app_r _ _ A) (proj2 (proj1 (Forall_app _ _ _) F)) ltac:(cbn [length]; lia))
      as (p' & m' & q' & bp' & bm' & bq' & E1 & E2 & E3 & E4 & E5).
    exists p', m', q', bp', bm', bq'. rewrite lookup_skip by assumption. repeat split; try assumption.
    + rewrite <- E1. now rewrite <- !app_assoc.
    + rewrite <- E2. now rewrite <- !app_assoc.
    + rewrite <- E5. unfold whole. replace (length (concat (bpre ++ r1))) with (s + length (concat r1))%nat by (unfold s; now rewrite concat_app, app_length).
      f_equal; [now rewrite <- !app_assoc|lia].
Qed.

Lemma mapM_len {A B} (f : A -> res B) l : forall r, mapM f l = Ok r -> length r = length l.
Proof. induction l as [|x l IH]; cbn [mapM]; intros r H; inv_ok; [reflexivity|]. cbn. now rewrite (IH _ E0). Qed.
Lemma entries_len en bss : mapM assemble_entry en = Ok bss -> (length en <= length (concat bss))%nat.
Proof.
  revert bss. induction en as [|e en IH]; cbn [mapM]; intros bss H; inv_ok; [cbn; lia|].
  destruct (assemble_entry_framed _ _ E) as (b & r & -> & _). specialize (IH _ E0). cbn [concat]. rewrite app_length. cbn [length]. lia.
Qed.

Theorem search_entries en bss u : mapM assemble_entry en = Ok bss -> apart en -> Forall small en ->
  search (concat bss) u = Some (lookup u en).
Proof.
  intros H A SM. pose proof (entries_len en bss H) as LE.
  assert (F : Forall (fun bs => (length bs <= 20)%nat) bss).
  { clear - H SM. revert bss H. induction SM as [|e en S1 _ IH]; cbn [mapM]; intros bss H; inv_ok; constructor; [eapply entry_len; eauto|auto]. }
  unfold search. destruct (Nat.leb_spec (length (concat bss)) MAX_LINEAR_SEARCH) as [W|W].
  - cbn [skipn]. rewrite Nat.sub_diag. rewrite <- (app_nil_r (concat bss)) at 2. change 0%nat with (@length Z []). apply scan_entries; [exact H|lia].
  - destruct en as [|e en]; [cbn in H; injection H as <-; cbn in W; lia|].
    assert (RD : exists tl, read_big 0 (concat bss) = Some (e_start e, tl)).
    { cbn [mapM] in H. inv_ok. unfold assemble_entry in E. inv_ok. apply encode_varint_spec in E1. destruct E1 as (_ & Q & _). cbn [concat]. rewrite read_big_is, <- !app_assoc. rewrite Q. eauto. }
    destruct RD as [tl ->]. destruct (Z.ltb_spec u (e_start e)) as [U|U].
    { cbn [lookup]. replace (u <? e_start e) with true by lia. reflexivity. }
    destruct (bisect_finds u (S (length (concat bss))) [] (e :: en) [] [] bss [] eq_refl H eq_refl A F ltac:(lia))
      as (p' & m' & q' & bp' & bm' & bq' & E1 & E2 & E3 & E4 & E5).
    cbn [app concat length] in E5, E2. rewrite app_nil_r in E5, E2. change (0 + length (concat bss))%nat with (length (concat bss)) in E5. rewrite E5.
    assert (CC : concat bss = concat bp' ++ concat bm' ++ concat bq') by (rewrite E2, !concat_app; reflexivity).
    rewrite CC at 2. rewrite skipn_app, skipn_all, Nat.sub_diag. cbn [skipn app].
    replace (length (concat bss) - (length (concat bp') + length (concat bm')))%nat with (length (concat bq')) by (rewrite CC, !app_length; lia).
    rewrite <- E4. apply scan_entries; [exact E3|]. pose proof (entries_len _ _ E3). rewrite CC, !app_length. lia.
Qed.
