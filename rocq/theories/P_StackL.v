(** The stack size computation: the handlers whose depth is shown are analysed at that depth. *)
From Coq Require Import Lia.
From Verif Require Import PyBase OpTable M_Instr M_Concrete M_Bytecode M_Flags M_Cfg M_Stack S_Cfg S_Stack P_Base P_Cfg P_Stack.
Open Scope string_scope.
Open Scope list_scope.
Open Scope Z_scope.

Lemma nth_skip {A} (l : list A) i x : nth_error l i = Some x -> skipn i l = x :: skipn (S i) l.
Proof.
  revert i. induction l as [|y l IH]; intros [|i] E; try discriminate.
  - injection E as ->. reflexivity.
  - cbn [nth_error] in E. cbn [skipn]. rewrite (IH i E). reflexivity.
Qed.

Section L.
  Variables (v : pyver) (T : optable) (se : oracle) (check : bool) (g : cfg) (first : Z) (H : nat -> Z)
    (cov : nat -> nat -> nat -> bool -> Prop).
  Notation ef := (eff v T se check).
  Notation At := (at_ T ef g first H cov).
  Notation Way := (way T ef g first H).
  Notation Step := (step T ef g).
  Notation Line := (line T ef g).
  Notation Low := (low v T se check g first H cov).
  Notation Ldone := (ldone v T se check g first H cov).
  Notation Goal := (goal H).
  Notation Inv := (Inv v T se check g first H cov).
  Notation St := (st v T se check g first H cov).
  Notation Cpre := (cpre v T se check g first H cov).
  Notation Callok := (callok v T se check g first H cov).
  Notation Loop := (block_loop v T se check g).

  Hypothesis R : regular T ef g first H cov.
  Hypothesis CO : coherent g.
  Hypothesis TK : try_known v g.

  Definition pending_of (x : instr) (r : list bitem) (cur : option tbinfo) : option tbinfo :=
    if is_final x && match trailing_end r with Some _ => true | None => false end then None else cur.

  (** one instruction *)
  Lemma loop_instr call b x r size mx mn cur C p : Loop call b (BI x :: r) size mx mn cur C = Ok p ->
    (exists e n m2 Cj C2, has_jump T x = true /\ is_uncond_jump_name (i_name x) = true /\ ef x true = Some e
       /\ i_arg x = OBlock n
       /\ call n (size + fst e + snd e) (Z.max mx (size + fst e + snd e)) (Z.min mn (size + fst e + snd e)) None
            (pending_of x r cur) C = Ok (m2, Cj)
       /\ match trailing_end r, cur with
          | Some id, Some (id', t, la) => if Nat.eqb id id' then compute_handler call t la (Z.max mx m2) mn Cj else Ok Cj
          | _, _ => Ok Cj
          end = Ok C2
       /\ p = (Z.max mx m2, unsee b C2))
    \/ (exists mx1 C1 e,
       ((has_jump T x = false /\ mx1 = mx /\ C1 = C)
        \/ (exists e n m2, has_jump T x = true /\ is_uncond_jump_name (i_name x) = false /\ ef x true = Some e
              /\ i_arg x = OBlock n
              /\ call n (size + fst e + snd e) (Z.max mx (size + fst e + snd e)) (Z.min mn (size + fst e + snd e)) None
                   (pending_of x r cur) C = Ok (m2, C1)
              /\ mx1 = Z.max mx m2))
       /\ ef x false = Some e
       /\ if is_final x then
            exists C2, match trailing_end r with
                       | Some id => ' (t, la, _) <- of_option AttributeError (find_tb id (all_items g)) ;;
                                    compute_handler call t la (Z.max mx1 (size + fst e + snd e)) (Z.min mn (size + fst e + snd e)) C1
                       | None => Ok C1
                       end = Ok C2
              /\ p = (Z.max mx1 (size + fst e + snd e), unsee b C2)
          else Loop call b r (size + fst e + snd e) (Z.max mx1 (size + fst e + snd e)) (Z.min mn (size + fst e + snd e)) cur C1 = Ok p).
  Proof.
    intros E. cbn [block_loop] in E. apply bind_ok in E. destruct E as (u & _ & E).
    assert (UE : forall e, update_size e size mx mn = update_size e size mx mn) by reflexivity.
    assert (US : forall e s0 m0 n0 q, update_size e s0 m0 n0 = Ok q ->
      q = (s0 + fst e + snd e, Z.max m0 (s0 + fst e + snd e), Z.min n0 (s0 + fst e + snd e))).
    { intros e s0 m0 n0 q X. unfold update_size in X. destruct (_ <? _) in X; [discriminate|]. congruence. }
    apply bind_ok in E. destruct E as ([[mx1 C1] stop] & EJ & E).
    assert (GO : stop = false -> exists e, ef x false = Some e
       /\ if is_final x then
            exists C2, match trailing_end r with
                       | Some id => ' (t, la, _) <- of_option AttributeError (find_tb id (all_items g)) ;;
                                    compute_handler call t la (Z.max mx1 (size + fst e + snd e)) (Z.min mn (size + fst e + snd e)) C1
                       | None => Ok C1
                       end = Ok C2
              /\ p = (Z.max mx1 (size + fst e + snd e), unsee b C2)
          else Loop call b r (size + fst e + snd e) (Z.max mx1 (size + fst e + snd e)) (Z.min mn (size + fst e + snd e)) cur C1 = Ok p).
    { intros ->. apply bind_ok in E. destruct E as (e & E1 & E). apply bind_ok in E. destruct E as ([[s2 m2] n2] & E2 & E).
      apply US in E2. injection E2 as -> -> ->. exists e. split; [unfold eff; rewrite E1; reflexivity|].
      destruct (is_final x); [|exact E]. apply bind_ok in E. destruct E as (C2 & E3 & E4). exists C2. split; [exact E3|congruence]. }
    destruct (has_jump T x) eqn:HJ.
    - apply bind_ok in EJ. destruct EJ as (e & E1 & EJ). apply bind_ok in EJ. destruct EJ as ([[s2 m2] n2] & E2 & EJ).
      apply US in E2. injection E2 as -> -> ->. apply bind_ok in EJ. destruct EJ as (n & AX & EJ).
      assert (AX' : i_arg x = OBlock n) by (destruct (i_arg x); try discriminate AX; congruence). clear AX.
      apply bind_ok in EJ. destruct EJ as ([m2 Cj] & EC & EJ). fold (pending_of x r cur) in EC.
      assert (EF : ef x true = Some e) by (unfold eff; rewrite E1; reflexivity).
      destruct (is_uncond_jump_name (i_name x)) eqn:UJ.
      + apply bind_ok in EJ. destruct EJ as (C2 & EH & EJ). injection EJ as <- <- <-. left.
        exists e, n, m2, Cj, C2. do 6 (split; [assumption || reflexivity|]). congruence.
      + injection EJ as <- <- <-. right. destruct (GO eq_refl) as (e' & X1 & X2).
        exists (Z.max mx m2), Cj, e'. split; [|split; [exact X1|exact X2]]. right. exists e, n, m2.
        do 5 (split; [assumption || reflexivity|]). reflexivity.
    - injection EJ as <- <- <-. right. destruct (GO eq_refl) as (e' & X1 & X2).
      exists mx, C, e'. split; [left; auto|split; [exact X1|exact X2]].
  Qed.

  (** the call made by a jump *)
  Lemma jump_cpre k b s i d mx mn o C x r e n : St k b s i d mx mn o C -> elem g b i = Some (BI x) ->
    after g b i = ends_after r -> has_jump T x = true -> ef x true = Some e -> i_arg x = OBlock n ->
    exists o1, pending_of x r (emb o) = emb o1
      /\ (o1 = o \/ (o1 = None /\ is_final x = true /\ hd_error (ends_after r) <> None))
      /\ (is_final x = true -> hd_error (ends_after r) <> None -> o1 = None)
      /\ Step (b, i, d, o) (n, O, d + fst e + snd e, o1)
      /\ Cpre k n (d + fst e + snd e) (d + fst e + snd e + k) (Z.max mx (d + fst e + snd e + k)) (Z.min mn (d + fst e + snd e + k)) None o1 C.
  Proof.
    intros S EL AF HJ EF AX.
    set (o1 := if is_final x && negb (Nat.eqb (length (after g b i)) 0) then None else o).
    assert (ST1 : Step (b, i, d, o) (n, O, d + fst e + snd e, o1)).
    { eapply st_jump; eauto. rewrite EF. destruct e; reflexivity. }
    exists o1. split; [|split; [|split; [|split; [exact ST1|]]]].
    - unfold pending_of, o1. rewrite AF, trailing_hd. destruct (ends_after r); cbn [hd_error length Nat.eqb negb];
        destruct (is_final x); reflexivity.
    - unfold o1. rewrite AF. destruct (is_final x); cbn [andb]; [|left; reflexivity].
      destruct (ends_after r); cbn; [left; reflexivity|right]. split; auto. split; auto. discriminate.
    - intros F HD. unfold o1. rewrite AF, F. destruct (ends_after r); [destruct HD; reflexivity|reflexivity].
    - eapply st_call; [exact R|exact S|exact ST1| | |lia|lia].
      + intros id h la X HX. assert (o = Some (id, h, la)).
        { unfold o1 in X. destruct (_ && _) in X; [discriminate|exact X]. }
        pose proof (st_mn _ _ _ _ _ _ _ _ _ _ _ _ _ _ _ _ _ S _ _ _ H0). lia.
      + intros _. lia.
  Qed.

  (** the loop goes on in the same position with another state *)
  Lemma st_state k b s i d mx mn o C C1 : St k b s i d mx mn o C -> Inv C1 -> c_seen C1 = c_seen C -> grow H C C1 ->
    St k b s i d mx mn o C1.
  Proof.
    intros [S1 S2 S3 S4 S5 S6 S7 S8 S9 S10 S11] I SN G. constructor; auto; [congruence|].
    intros K. eapply lowseen_grow; eauto.
  Qed.

  (** to the next element after an instruction *)
  Lemma st_next_instr k b s i d mx mn o C x e mx1 C1 : St k b s i d mx mn o C -> elem g b i = Some (BI x) ->
    is_final x = false -> ef x false = Some e -> Inv C1 -> c_seen C1 = c_seen C -> grow H C C1 -> mx <= mx1 ->
    Step (b, i, d, o) (b, S i, d + fst e + snd e, o)
    /\ St k b s (S i) (d + fst e + snd e) (Z.max mx1 (d + fst e + snd e + k)) (Z.min mn (d + fst e + snd e + k)) o C1.
  Proof.
    intros S EL F EF I SN G LE.
    assert (ST1 : Step (b, i, d, o) (b, Datatypes.S i, d + fst e + snd e, o)).
    { eapply st_instr; eauto. rewrite EF. destruct e; reflexivity. }
    split; [exact ST1|]. eapply st_move; [exact R|exact S|exact ST1|exact I|exact SN|exact G| | |lia|lia].
    - intros id h la X HX. pose proof (st_mn _ _ _ _ _ _ _ _ _ _ _ _ _ _ _ _ _ S _ _ _ X). lia.
    - intros _. lia.
  Qed.

  Lemma call_ok call k b d size mx mn exh o C p : Callok call -> Cpre k b d size mx mn exh o C ->
    call b size mx mn exh (emb o) C = Ok p -> visited v T se check g first H cov k b mx C p.
  Proof. intros OKc CP E. exact (good_ok _ _ _ _ _ _ _ _ _ _ _ (OKc _ _ _ _ _ _ _ _ _ CP) E). Qed.
  Lemma loop_ok_ok call b s rest pre k d mx mn o C p : Callok call -> k_items (blk g b) = pre ++ rest ->
    St k b s (length pre) d mx mn o C -> Loop call b rest (d + k) mx mn (emb o) C = Ok p ->
    looped v T se check g first H cov k b s rest d mx C p.
  Proof.
    intros OKc E S X.
    exact (good_ok _ _ _ _ _ _ _ _ _ _ _ (loop_ok v T se check g first H cov R CO TK call b s OKc rest pre k d mx mn o C E S) X).
  Qed.
  Lemma handler_ok_ok call k b s i d mx mn id h la C mx' mn' C' : Callok call ->
    St k b s i d mx mn (Some (id, h, la)) C -> H h + k <= mn' -> mx <= mx' -> mn' <= Z.max mx' first ->
    compute_handler call (OBlock h) la mx' mn' C = Ok C' ->
    handled v T se check g first H cov k mn' h (b :: s) mx' C C'.
  Proof.
    intros OKc S L1 L2 L3 X.
    exact (good_ok _ _ _ _ _ _ _ _ _ _ _ (handler_ok v T se check g first H cov R TK call k b s i d mx mn id h la C mx' mn' OKc S L1 L2 L3) X).
  Qed.

  (** ** While one try block is open *)
  Section Open.
    Variables (id h : nat) (la : bool) (B0 : nat -> Prop).
    Notation tb := (Some (id, h, la)).

    (** no end of the try block in [rest], all that follows is visited *)
    Fixpoint tline (C : common) (b : nat) (rest : list bitem) : Prop :=
      match rest with
      | [] => match k_next (blk g b) with
              | Some m => k_items (blk g m) = [] \/ Ldone C m
              | None => True
              end
      | it :: r =>
          match it with
          | BSet _ | BLabel _ => tline C b r
          | BTB _ _ _ _ => False
          | BTE id' => id' <> id /\ tline C b r
          | BI x =>
              (has_jump T x = true -> exists n, i_arg x = OBlock n /\ Ldone C n)
              /\ (is_final x = true -> hd_error (ends_after r) <> Some id)
              /\ (is_final x = false -> tline C b r)
          end
      end.

    Lemma tline_grow C C' b rest : grow H C C' -> tline C b rest -> tline C' b rest.
    Proof.
      intros G. induction rest as [|it r IH]; cbn [tline].
      - destruct (k_next (blk g b)); auto. intros [X|X]; auto. right. eapply ldone_grow; eauto.
      - destruct it; auto.
        + intros (A & B & D). split; [|auto]. intros J. destruct (A J) as (n & X & Y). exists n. split; auto. eapply ldone_grow; eauto.
        + intros [A B]. auto.
    Qed.

    Definition J (C : common) (s : list nat) : Prop :=
      forall m, Ldone C m -> B0 m \/ tline C m (k_items (blk g m)) \/ In m s.

    Lemma J_unsee b C s : J C s -> J (unsee b C) s.
    Proof.
      intros A m D. destruct (A m D) as [X|[X|X]]; auto. right. left. eapply tline_grow; [apply grow_unsee|exact X].
    Qed.

    Definition callT (call : visit) : Prop := forall k b d size mx mn C p, k = 0 ->
      Cpre k b d size mx mn None tb C -> (~ In b (c_seen C) -> mn = H h) -> J C (c_seen C) ->
      call b size mx mn None (emb tb) C = Ok p -> Goal (snd p) h \/ J (snd p) (c_seen C).

    Lemma loopT call b s : Callok call -> callT call -> forall rest pre k d mx C p, k = 0 ->
      k_items (blk g b) = pre ++ rest -> St k b s (length pre) d mx (H h) tb C -> J C (b :: s) ->
      Loop call b rest (d + k) mx (H h) (emb tb) C = Ok p ->
      Goal (snd p) h \/ (J (snd p) (b :: s) /\ tline (snd p) b rest).
    Proof.
      intros OKc OKT. induction rest as [|it r IH]; intros pre k d mx C p K E S JC X.
      - pose proof (st_le _ _ _ _ _ _ _ _ _ _ _ _ _ _ _ _ _ S) as LE. pose proof (st_seen _ _ _ _ _ _ _ _ _ _ _ _ _ _ _ _ _ S) as SN.
        rewrite app_nil_r in E. pose proof (elem_end g b pre E) as EN. cbn [block_loop] in X. cbn [tline].
        destruct (k_next (blk g b)) as [m|] eqn:KN.
        2:{ cbn [bind] in X. injection X as <-. right. split; [apply J_unsee, JC|auto]. }
        destruct (k_items (blk g m)) as [|y ys] eqn:KM.
        { cbn [bind] in X. injection X as <-. right. split; [apply J_unsee, JC|auto]. }
        apply bind_ok in X. destruct X as ([m1 C1] & X1 & X2). injection X2 as <-. cbn [snd].
        assert (ST1 : Step (b, length pre, d, tb) (m, O, d, tb)) by (apply S_Stack.st_next; auto).
        assert (CP : Cpre k m d (d + k) mx (H h) None tb C).
        { eapply st_call; [exact R|exact S|exact ST1| | |lia|exact LE].
          - intros id0 h0 la0 Q _. eapply st_mn; eauto.
          - intros _. eapply st_mn2; eauto. discriminate. }
        rewrite <- SN in JC. destruct (OKT _ _ _ _ _ _ _ _ K CP (fun _ => eq_refl) JC X1) as [Y|Y]; [left; exact Y|right].
        rewrite SN in Y. split; [apply J_unsee, Y|]. right. exact (vi_done _ _ _ _ _ _ _ _ _ _ _ _ _ (call_ok _ _ _ _ _ _ _ _ _ _ _ OKc CP X1) K).
      - destruct (elem_skip g b pre it r E) as [EL AF].
        assert (E' : k_items (blk g b) = (pre ++ [it]) ++ r) by (rewrite <- app_assoc; exact E).
        assert (LN : length (pre ++ [it]) = Datatypes.S (length pre)) by (rewrite app_length; cbn; lia).
        pose proof (st_le _ _ _ _ _ _ _ _ _ _ _ _ _ _ _ _ _ S) as LE. pose proof (st_seen _ _ _ _ _ _ _ _ _ _ _ _ _ _ _ _ _ S) as SN.
        pose proof (st_way _ _ _ _ _ _ _ _ _ _ _ _ _ _ _ _ _ S) as W. pose proof (st_inv _ _ _ _ _ _ _ _ _ _ _ _ _ _ _ _ _ S) as I.
        pose proof (st_mx _ _ _ _ _ _ _ _ _ _ _ _ _ _ _ _ _ S) as PX.
        pose proof (st_mn _ _ _ _ _ _ _ _ _ _ _ _ _ _ _ _ _ S _ _ _ eq_refl) as M1.
        pose proof (st_mn2 _ _ _ _ _ _ _ _ _ _ _ _ _ _ _ _ _ S ltac:(discriminate)) as M2.
        destruct it as [x|l|z|id' t la' sd|id'].
        + cbn [tline]. apply loop_instr in X. destruct X as [X|X].
          * (* an unconditional jump *)
            destruct X as (e & n & m2 & Cj & C2 & HJ & UJ & EF & AX & EC & EH & ->).
            assert (FX : is_final x = true).
            { unfold is_final, is_final_name. rewrite UJ. apply Bool.orb_true_r. }
            destruct (jump_cpre _ _ _ _ _ _ _ _ _ _ _ _ _ S EL AF HJ EF AX) as (o1 & PO & O1 & O2 & ST1 & CP).
            rewrite PO in EC.
            replace (d + k + fst e + snd e) with (d + fst e + snd e + k) in EC by lia.
            pose proof (call_ok _ _ _ _ _ _ _ _ _ _ _ OKc CP EC) as VI.
            rewrite trailing_hd in EH. destruct (hd_error (ends_after r)) as [id'|] eqn:HD.
            -- assert (HA : hd_error (after g b (length pre)) = Some id') by (rewrite AF; exact HD).
               pose proof (reg_jump _ _ _ _ _ _ R _ _ _ _ _ _ _ _ _ W EL FX HA). subst id'.
               cbn [emb] in EH. rewrite Nat.eqb_refl in EH. left.
               assert (S1 : St k b s (length pre) d mx (H h) tb Cj).
               { eapply st_state; [exact S|apply VI|apply VI|]. eapply ext_grow. apply VI. }
               eapply handler_ok_ok in EH; [|exact OKc|exact S1|lia|lia|lia].
               assert (GG : Goal C2 h) by (eapply ha_goal; [exact EH|reflexivity]); exact GG.
            -- destruct O1 as [->|(_ & _ & O1)]; [|congruence].
               assert (EQ : Cj = C2) by congruence. subst Cj. rewrite <- SN in JC.
               assert (MM : ~ In n (c_seen C) -> Z.min (H h) (d + fst e + snd e + k) = H h).
               { intros NI. pose proof (reg_inside _ _ _ _ _ _ R _ _ _ _ _ _ _ (cp_way _ _ _ _ _ _ _ _ _ _ _ _ _ _ _ _ _ CP NI)). lia. }
               destruct (OKT _ _ _ _ _ _ _ _ K CP MM JC EC) as [Y|Y]; [left; exact Y|right].
               cbn [snd] in *. rewrite SN in Y. split; [apply J_unsee, Y|]. split; [|split; [discriminate|congruence]].
               intros _. exists n. split; [exact AX|]. exact (vi_done _ _ _ _ _ _ _ _ _ _ _ _ _ VI K).
          * destruct X as (mx1 & C1 & e & XJ & EF & X).
            (* after the jump *)
            assert (A1 : Goal C1 h \/ (J C1 (b :: s) /\ (has_jump T x = true -> exists n, i_arg x = OBlock n /\ Ldone C1 n))
                         \/ (is_final x = true /\ hd_error (ends_after r) <> None)).
            { destruct XJ as [(HJ & -> & ->)|(e1 & n & m2 & HJ & UJ & EF1 & AX & EC & ->)].
              - right. left. split; [exact JC|congruence].
              - destruct (jump_cpre _ _ _ _ _ _ _ _ _ _ _ _ _ S EL AF HJ EF1 AX) as (o1 & PO & O1 & O2 & ST1 & CP).
                rewrite PO in EC. replace (d + k + fst e1 + snd e1) with (d + fst e1 + snd e1 + k) in EC by lia.
                pose proof (call_ok _ _ _ _ _ _ _ _ _ _ _ OKc CP EC) as VI.
                destruct O1 as [->|(_ & O1)]; [|auto]. rewrite <- SN in JC.
                assert (MM : ~ In n (c_seen C) -> Z.min (H h) (d + fst e1 + snd e1 + k) = H h).
                { intros NI. pose proof (reg_inside _ _ _ _ _ _ R _ _ _ _ _ _ _ (cp_way _ _ _ _ _ _ _ _ _ _ _ _ _ _ _ _ _ CP NI)). lia. }
                destruct (OKT _ _ _ _ _ _ _ _ K CP MM JC EC) as [Y|Y]; [left; exact Y|right; left].
                cbn [snd] in *. rewrite SN in Y. split; [exact Y|]. intros _. exists n. split; [exact AX|].
                exact (vi_done _ _ _ _ _ _ _ _ _ _ _ _ _ VI K). }
            assert (I1 : Inv C1 /\ c_seen C1 = c_seen C /\ grow H C C1 /\ mx <= mx1).
            { destruct XJ as [(HJ & -> & ->)|(e1 & n & m2 & HJ & UJ & EF1 & AX & EC & ->)].
              - split; [exact I|]. split; [reflexivity|]. split; [apply grow_refl|lia].
              - destruct (jump_cpre _ _ _ _ _ _ _ _ _ _ _ _ _ S EL AF HJ EF1 AX) as (o1 & PO & O1 & O2 & ST1 & CP).
                rewrite PO in EC. replace (d + k + fst e1 + snd e1) with (d + fst e1 + snd e1 + k) in EC by lia.
                destruct (call_ok _ _ _ _ _ _ _ _ _ _ _ OKc CP EC) as [V1 V2 V3 V4 V5 V6 V7]. cbn [fst snd] in *.
                split; [exact V3|]. split; [exact V2|]. split; [eapply ext_grow; exact V4|lia]. }
            destruct I1 as (I1 & SN1 & G1 & LX).
            replace (d + k + fst e + snd e) with (d + fst e + snd e + k) in X by lia.
            destruct (is_final x) eqn:FX.
            -- destruct X as (C2 & EH & ->). cbn [snd]. rewrite trailing_hd in EH.
               assert (NS : has_jump T x = false \/ is_uncond_jump_name (i_name x) = false).
               { destruct XJ as [(HJ & _)|(? & ? & ? & _ & UJ & _)]; auto. }
               destruct (hd_error (ends_after r)) as [id'|] eqn:HD.
               ++ assert (HA : hd_error (after g b (length pre)) = Some id') by (rewrite AF; exact HD).
                  destruct (reg_final _ _ _ _ _ _ R _ _ _ _ _ _ _ W EL FX NS HA) as (h' & la' & Q & HI). injection Q as <- <- <-.
                  specialize (HI (fst e) (snd e)). rewrite <- surjective_pairing in HI. specialize (HI EF).
                  assert (S1 : St k b s (length pre) d mx (H h) tb C1) by (eapply st_state; eauto).
                  apply bind_ok in EH. destruct EH as (q & EQ & EH).
                  pose proof (st_at _ _ _ _ _ _ _ _ _ _ _ _ _ _ _ _ _ S) as A.
                  destruct (good_ok _ _ _ _ _ _ _ _ _ _ _ (entry_good v T se check g first H cov R CO b pre x r d id h la A E HD) EQ) as [sd ->].
                  replace (Z.min (H h) (d + fst e + snd e + k)) with (H h) in EH by lia.
                  left. eapply handler_ok_ok in EH; [|exact OKc|exact S1|lia|lia|lia].
                  assert (GG : Goal C2 h) by (eapply ha_goal; [exact EH|reflexivity]); exact GG.
               ++ injection EH as <-. destruct A1 as [A1|[[A1 A2]|[_ A1]]]; [left; exact A1| |congruence].
                  right. split; [apply J_unsee, A1|]. split; [exact A2|]. split; [discriminate|congruence].
            -- destruct (st_next_instr _ _ _ _ _ _ _ _ _ _ _ _ _ S EL FX EF I1 SN1 G1 LX) as [ST1 S1].
               assert (MM : Z.min (H h) (d + fst e + snd e + k) = H h).
               { assert (W1 : Way (b :: s) (b, Datatypes.S (length pre), d + fst e + snd e, tb)) by (eapply way_in; [exact W|exact ST1|cbn; discriminate]).
                 pose proof (reg_inside _ _ _ _ _ _ R _ _ _ _ _ _ _ W1). lia. }
               rewrite MM in *. rewrite <- LN in S1.
               destruct A1 as [A1|[[A1 A2]|[A1 _]]]; [| |discriminate].
               ++ left. apply (e_ex _ _ _ _ _ _ _ _ _ _ _ _ (lo_ext _ _ _ _ _ _ _ _ _ _ _ _ _ _ _ _ (loop_ok_ok _ _ _ _ _ _ _ _ _ _ _ _ OKc E' S1 X))). exact A1.
               ++ destruct (IH (pre ++ [BI x]) k _ _ C1 p K E' S1 A1 X) as [Y|[Y1 Y2]]; [left; exact Y|right].
                  split; [exact Y1|]. split; [|split; [discriminate|auto]].
                  intros HJ. destruct (A2 HJ) as (n & Z1 & Z2). exists n. split; [exact Z1|]. eapply ldone_grow; [|exact Z2].
                  eapply ext_grow. exact (lo_ext _ _ _ _ _ _ _ _ _ _ _ _ _ _ _ _ (loop_ok_ok _ _ _ _ _ _ _ _ _ _ _ _ OKc E' S1 X)).
        + cbn [block_loop] in X. discriminate X.
        + cbn [block_loop elem_check bind] in X.
          assert (S1 : St k b s (Datatypes.S (length pre)) d mx (H h) tb C).
          { eapply st_move; [exact R|exact S|eapply st_line; eauto|exact I|reflexivity|apply grow_refl| | |lia|lia].
            - intros id0 h0 la0 Q _. eapply st_mn; eauto.
            - intros _. exact M2. }
          rewrite <- LN in S1. destruct (IH (pre ++ [BSet z]) k d mx C p K E' S1 JC X) as [Y|[Y1 Y2]]; [left; exact Y|right]. auto.
        + exfalso. pose proof (reg_begin _ _ _ _ _ _ R _ _ _ _ _ _ _ _ _ W EL). discriminate.
        + cbn [block_loop elem_check bind emb] in X. destruct (Nat.eqb_spec id' id) as [->|NE].
          * left. apply bind_ok in X. destruct X as (C1 & EH & X).
            eapply handler_ok_ok in EH; [|exact OKc|exact S|lia|lia|lia]. destruct EH as [V1 V2 V3 V4 V5]. specialize (V4 eq_refl).
            assert (S1 : St k b s (Datatypes.S (length pre)) d mx (H h) None C1).
            { eapply st_move; [exact R|exact S| |exact V2|exact V1|eapply ext_grow; exact V3| | |lia|lia].
              - replace (@None (nat * nat * bool)) with (close id tb) by (cbn; rewrite Nat.eqb_refl; reflexivity). eapply st_end; eauto.
              - discriminate.
              - congruence. }
            rewrite <- LN in S1.
            apply (e_ex _ _ _ _ _ _ _ _ _ _ _ _ (lo_ext _ _ _ _ _ _ _ _ _ _ _ _ _ _ _ _ (loop_ok_ok _ _ _ _ _ _ _ _ _ _ _ _ OKc E' S1 X))). exact V4.
          * assert (S1 : St k b s (Datatypes.S (length pre)) d mx (H h) tb C).
            { eapply st_move; [exact R|exact S| |exact I|reflexivity|apply grow_refl| | |lia|lia].
              - replace tb with (close id' tb) at 2; [eapply st_end; eauto|]. cbn. destruct (Nat.eqb_spec id' id); [congruence|reflexivity].
              - intros id0 h0 la0 Q _. eapply st_mn; eauto.
              - intros _. exact M2. }
            rewrite <- LN in S1. destruct (IH (pre ++ [BTE id']) k d mx C p K E' S1 JC X) as [Y|[Y1 Y2]]; [left; exact Y|right]. cbn [tline]. auto.
    Qed.

    Lemma run_cases fuel k b d size mx mn exh o C p : Cpre k b d size mx mn exh o C ->
      run v T se check g (S fuel) b size mx mn exh (emb o) C = Ok p ->
      p = (mx, C)
      \/ exists sizes mx1 mn1, ~ In b (c_seen C) /\ dget Nat.eqb (c_starts C) b = Some sizes
           /\ (exh = None -> mx1 = mx /\ mn1 = mn)
           /\ St k b (c_seen C) O d mx1 mn1 o (entered b (size, exh) sizes C)
           /\ Loop (run v T se check g fuel) b (k_items (blk g b)) (d + k) mx1 mn1 (emb o) (entered b (size, exh) sizes C) = Ok p.
    Proof.
      intros CP X. cbn [run] in X. destruct (nat_mem b (c_seen C)) eqn:SE; [left; congruence|].
      assert (NI : ~ In b (c_seen C)).
      { intros IN. unfold nat_mem in SE. assert (Q : existsb (Nat.eqb b) (c_seen C) = true).
        { apply existsb_exists. exists b. split; [exact IN|apply Nat.eqb_refl]. } congruence. }
      apply bind_ok in X. destruct X as (sizes & DS & X). apply of_option_ok in DS.
      destruct (negb (relevant v sizes (size, exh))); [left; congruence|right].
      change (mkSC (b :: c_seen C) _ _ _ _) with (entered b (size, exh) sizes C) in X.
      destruct (start_size _ _ _ _ _ _ _ _ _ _ _ _ _ _ _ _ _ CP) as (mx1 & mn1 & ES & L1 & L2 & L3). rewrite ES in X. cbn [bind] in X.
      exists sizes, mx1, mn1. split; [exact NI|]. split; [exact DS|]. split; [|split; [|exact X]].
      - intros ->. injection ES as _ -> ->. auto.
      - eapply entered_st; eauto.
    Qed.

    Lemma entered_ldone b f sizes C m : dget Nat.eqb (c_starts C) b = Some sizes ->
      Ldone (entered b f sizes C) m -> Ldone C m \/ m = b.
    Proof.
      intros DS (f' & F & L). apply entered_fin in F; [|exact DS]. destruct F as [F|[-> _]]; [left|right; reflexivity].
      exists f'. auto.
    Qed.

    Lemma runT fuel : callT (run v T se check g fuel).
    Proof.
      induction fuel as [|fuel IH]; intros k b d size mx mn C p K CP MN JC X; [discriminate|].
      pose proof (run_cases fuel k b d size mx mn None tb C p CP X) as X'. clear X. rename X' into X. destruct X as [->|(sizes & mx1 & mn1 & NI & DS & Q & S & X)]; [right; exact JC|].
      destruct (Q eq_refl) as [-> ->]. rewrite (MN NI) in *.
      assert (JE : J (entered b (size, None) sizes C) (b :: c_seen C)).
      { intros m D. apply entered_ldone in D; [|exact DS]. destruct D as [D| ->]; [|right; right; left; reflexivity].
        destruct (JC m D) as [Y|[Y|Y]]; auto; [|right; right; right; exact Y].
        right. left. eapply tline_grow; [apply entered_grow, DS|exact Y]. }
      destruct (loopT _ b (c_seen C) (run_ok v T se check g first H cov R CO TK fuel) IH (k_items (blk g b)) [] k d mx _ p K eq_refl S JE X)
        as [Y|[Y1 Y2]]; [left; exact Y|right].
      intros m D. destruct (Y1 m D) as [Z|[Z|[<-|Z]]]; auto.
    Qed.
  End Open.

  (** ** Until the try block that shows the depth is met *)
  Section Shown.
    Variables (b0 i1 id h : nat) (la : bool) (D0 : Z) (oe : open_try).
    Notation tb := (Some (id, h, la)).
    Hypothesis I1 : i1 <> O.
    Hypothesis AT0 : At (b0, O, D0, oe).
    Hypothesis LN0 : Line (b0, O, D0, oe) (b0, i1, H h, tb).
    (** however the block is entered, the try block is open at that place *)
    Hypothesis TB0 : forall o d o', Line (b0, O, D0, o) (b0, i1, d, o') -> o' = tb /\ d = H h.
    Variables (b' i' : nat) (d' : Z).
    Hypothesis PATH : within T ef g first H b0 i1 (id, h, la) (b0, i1, H h, tb) (b', i', d', tb).
    Hypothesis ENDS : ends g b' i' id.

    Notation Avoid := (avoiding T ef g first H b0 i1).

    Definition Av (C : common) : Prop :=
      (forall m, Ldone C m -> exists d o, Avoid (m, O, d, o)) /\ (Ldone C b0 -> In b0 (c_seen C)).

    Lemma Av_nolow C C' : Av C -> nolow v T se check g first H cov C C' -> c_seen C' = c_seen C -> Av C'.
    Proof.
      intros [A B] [N _] SN.
      assert (X : forall m, Ldone C' m -> Ldone C m).
      { intros m (f & F & L). destruct (N m f F) as [Y|Y]; [exists f; auto|destruct (Y L)]. }
      split; [auto|]. rewrite SN. auto.
    Qed.

    (** the elements before that place *)
    Lemma before i : (i < i1)%nat -> exists it, elem g b0 i = Some it /\ forall x, it = BI x -> is_final x = false.
    Proof.
      intros LT. destruct (line_split _ _ _ _ _ i LN0) as (d & o & L1 & L2); [cbn; lia|].
      destruct (line_split _ _ _ _ _ (S i) L2) as (d2 & o2 & L3 & _); [cbn; lia|].
      cbn [block_of fst] in *.
      remember (b0, S i, d2, o2) as c2 eqn:E2. destruct L3 as [|c3 c4 L3 ST N]; [injection E2 as E _ _; lia|]. subst c4.
      destruct c3 as [[[b3 i3] d3] o3]. destruct (step_in _ _ _ _ _ _ _ _ ST N) as (d4 & o4 & E4). injection E4 as -> -> -> ->.
      inversion ST; subst; clear LN0 L1 L2 L3 TB0 PATH; eexists; (split; [eassumption|]); intros x' Q; try discriminate Q; try congruence.
    Qed.

    Lemma path_tline C C1 mm c : J id (Ldone C) C1 mm -> incl mm (c_seen C) -> (forall m, In m (c_seen C) -> Ldone C m) -> Av C ->
      At (b0, i1, H h, tb) -> tline id C1 b0 (skipn i1 (k_items (blk g b0))) ->
      within T ef g first H b0 i1 (id, h, la) (b0, i1, H h, tb) c ->
      At c /\ snd c = tb /\ tline id C1 (block_of c) (skipn (index_of c) (k_items (blk g (block_of c)))).
    Proof.
      intros JC IM LS [AV _] A TL W. induction W as [|c1 c2 W IH ST SO OT].
      - split; [exact A|]. split; [reflexivity|exact TL].
      - destruct IH as (A1 & S1 & T1). assert (A2 : At c2) by (eapply at_step; eauto). split; [exact A2|]. split; [exact SO|].
        assert (ENT : index_of c2 = O -> Ldone C1 (block_of c2) -> tline id C1 (block_of c2) (k_items (blk g (block_of c2)))).
        { intros Q LD. specialize (OT Q). assert (ND : ~ Ldone C (block_of c2)).
          { intros X. destruct (AV _ X) as (d & o & Y). exact (OT d o Y). }
          destruct (JC _ LD) as [X|[X|X]]; [destruct (ND X)|exact X|]. destruct (ND (LS _ (IM _ X))). }
        destruct ST as [b i d o z E|b i d o i0 h0 la0 sd E|b i d o i0 E|b i d o x pre post E F Y|b i d o x n pre post E JJ AX Y|b i d o m E N];
          unfold block_of, index_of in *; cbn [fst snd] in *; subst o.
        + rewrite (nth_skip _ _ _ E) in T1. exact T1.
        + rewrite (nth_skip _ _ _ E) in T1. destruct T1.
        + rewrite (nth_skip _ _ _ E) in T1. apply T1.
        + rewrite (nth_skip _ _ _ E) in T1. apply T1, F.
        + rewrite (nth_skip _ _ _ E) in T1. destruct T1 as (T1 & _). destruct (T1 JJ) as (n' & X1 & X2).
          rewrite AX in X1. injection X1 as <-. cbn [skipn]. apply ENT; auto.
        + assert (SK : skipn i (k_items (blk g b)) = []) by (apply skipn_all2, nth_error_None; exact E).
          rewrite SK in T1. cbn [tline] in T1. rewrite N in T1. cbn [skipn]. destruct T1 as [T1|T1]; [|apply ENT; auto].
          rewrite T1. cbn [tline]. rewrite (reg_next _ _ _ _ _ _ R _ _ _ _ _ A1 E N T1). exact I.
    Qed.

    (** at that place *)
    Lemma at_place call s rest pre k d mx mn o C p : Callok call -> callT id h la (Ldone C) call -> k = 0 ->
      k_items (blk g b0) = pre ++ rest -> length pre = i1 -> St k b0 s (length pre) d mx mn o C ->
      (exists o0, Line (b0, O, D0, o0) (b0, length pre, d, o)) -> Av C ->
      Loop call b0 rest (d + k) mx mn (emb o) C = Ok p -> Goal (snd p) h.
    Proof.
      intros OKc OKT K E LP S [o0 LL] AV X. rewrite LP in LL. destruct (TB0 _ _ _ LL) as [-> ->].
      pose proof (st_mn _ _ _ _ _ _ _ _ _ _ _ _ _ _ _ _ _ S _ _ _ eq_refl) as M1.
      pose proof (st_mn2 _ _ _ _ _ _ _ _ _ _ _ _ _ _ _ _ _ S ltac:(discriminate)) as M2.
      assert (mn = H h) by lia. subst mn.
      destruct (loopT id h la (Ldone C) call b0 s OKc OKT rest pre k (H h) mx C p K E S) as [Y|[Y1 Y2]]; auto.
      { intros m D. left. exact D. }
      exfalso. pose proof (st_seen _ _ _ _ _ _ _ _ _ _ _ _ _ _ _ _ _ S) as SN.
      pose proof (st_at _ _ _ _ _ _ _ _ _ _ _ _ _ _ _ _ _ S) as A. rewrite LP in A.
      assert (SK : skipn i1 (k_items (blk g b0)) = rest).
      { rewrite E, skipn_app, <- LP, Nat.sub_diag, skipn_all2 by lia. reflexivity. }
      rewrite <- SK in Y2.
      destruct (path_tline C (snd p) (b0 :: s) (b', i', d', tb) Y1) as (_ & _ & TL); auto.
      { rewrite SN. intros y Q; exact Q. }
      { apply (st_low _ _ _ _ _ _ _ _ _ _ _ _ _ _ _ _ _ S K). }
      unfold block_of, index_of in TL. cbn [fst snd] in TL.
      destruct ENDS as [EN|(x & EN & FX & HD)]; rewrite (nth_skip _ _ _ EN) in TL; cbn [tline] in TL.
      - destruct TL as [TL _]. congruence.
      - destruct TL as (_ & TL & _). unfold after in HD. exact (TL FX HD).
    Qed.

    Notation Goalh C := (Goal C h).

    Lemma Av_unsee b C : b <> b0 -> Av C -> Av (unsee b C).
    Proof.
      intros NE [A B]. split; [exact A|]. intros D. specialize (B D). unfold unsee. cbn [c_seen].
      apply filter_In. split; [exact B|]. destruct (Nat.eqb_spec b b0); [congruence|reflexivity].
    Qed.

    Definition callL (call : visit) : Prop := forall k b d size mx mn exh o C p, k = 0 ->
      Cpre k b d size mx mn exh o C -> (~ In b (c_seen C) -> Avoid (b, O, d, o)) -> Av C ->
      call b size mx mn exh (emb o) C = Ok p -> Av (snd p) \/ Goal (snd p) h.

    Lemma handlerL call k b s i d mx mn id1 h1 la1 C mx1 mn1 C1 : Callok call -> callL call -> k = 0 ->
      St k b s i d mx mn (Some (id1, h1, la1)) C -> H h1 + k <= mn1 -> mx <= mx1 -> mn1 <= Z.max mx1 first ->
      Avoid (b, i, d, Some (id1, h1, la1)) -> Av C ->
      compute_handler call (OBlock h1) la1 mx1 mn1 C = Ok C1 -> Av C1 \/ Goal C1 h.
    Proof.
      intros OKc OKL K S L1 L2 L3 AVD AV X.
      pose proof (st_handler v T se check g first H cov R TK k b s i d mx mn id1 h1 la1 C mx1 mn1 S L1 L2 L3) as CP.
      unfold compute_handler in X. apply bind_ok in X. destruct X as (z & Z0 & X).
      destruct (mn1 <? z); [|injection X as <-; left; exact AV].
      apply bind_ok in X. destruct X as ([r C2] & EC & X). injection X as <-.
      pose proof (call_ok _ _ _ _ _ _ _ _ _ _ _ OKc CP EC) as VI.
      assert (VS : c_seen C2 = c_seen C) by exact (vi_seen _ _ _ _ _ _ _ _ _ _ _ _ _ VI).
      destruct (Z.eq_dec mn1 (H h1)) as [EQ|NE].
      - assert (NIA : ~ In h1 (c_seen C) -> Avoid (h1, O, H h1 + pushed la1, None)).
        { intros _. eapply av_raise; [exact AVD|]. intros Q. injection Q as _ Q. congruence. }
        destruct (OKL (mn1 - H h1) _ _ _ _ _ _ _ _ _ ltac:(lia) CP NIA AV EC) as [Y|Y]; cbn [snd] in Y.
        + left. exact Y.
        + right. unfold goal. cbn [c_ex_start]. rewrite dg_set. destruct (Nat.eqb_spec h h1) as [->|]; [congruence|exact Y].
      - left. assert (NL : nolow v T se check g first H cov C C2) by (apply (vi_high _ _ _ _ _ _ _ _ _ _ _ _ _ VI); lia).
        exact (Av_nolow _ _ AV NL VS).
    Qed.

    Definition Pos (b i : nat) (d : Z) (o : open_try) : Prop :=
      ((b, i) <> (b0, i1) -> Avoid (b, i, d, o))
      /\ (b = b0 -> (i <= i1)%nat /\ exists o0, Line (b0, O, D0, o0) (b0, i, d, o)).

    Lemma pos_step b i d o d2 o2 : Pos b i d o -> (b, i) <> (b0, i1) -> Step (b, i, d, o) (b, S i, d2, o2) -> Pos b (S i) d2 o2.
    Proof.
      intros [P1 P2] NE ST. split.
      - intros NE2. eapply av_step; [exact (P1 NE)|exact ST|exact NE2].
      - intros ->. destruct (P2 eq_refl) as [LE (o0 & LL)]. split.
        + assert (i <> i1) by congruence. lia.
        + exists o0. eapply ln_step; [exact LL|exact ST|cbn; discriminate].
    Qed.

    Lemma pos_final b i d o x : Pos b i d o -> (b, i) <> (b0, i1) -> elem g b i = Some (BI x) -> is_final x = true -> b <> b0.
    Proof.
      intros [_ P2] NE E F ->. destruct (P2 eq_refl) as [LE _]. assert (i <> i1) by congruence.
      destruct (before i) as (it & X & Y); [lia|]. rewrite E in X. injection X as <-. rewrite (Y x eq_refl) in F. discriminate.
    Qed.

    Lemma loopL call b s : Callok call -> callL call -> (forall B0, callT id h la B0 call) ->
      forall rest pre k d mx mn o C p, k = 0 -> k_items (blk g b) = pre ++ rest ->
      St k b s (length pre) d mx mn o C -> Pos b (length pre) d o -> Av C ->
      Loop call b rest (d + k) mx mn (emb o) C = Ok p -> Goal (snd p) h \/ (b <> b0 /\ Av (snd p)).
    Proof.
      intros OKc OKL OKT. induction rest as [|it r IH]; intros pre k d mx mn o C p K E S PS AV X.
      - destruct (Nat.eq_dec b b0) as [->|NB].
        { destruct (Nat.eq_dec (length pre) i1) as [LP|LP].
          - left. eapply at_place; eauto. exact (proj2 (proj2 PS eq_refl)).
          - exfalso. destruct (proj2 PS eq_refl) as [LE _]. destruct (before (length pre)) as (it & Y & _); [lia|].
            rewrite app_nil_r in E. rewrite (elem_end g b0 pre E) in Y. discriminate. }
        assert (NE : (b, length pre) <> (b0, i1)) by congruence. pose proof (proj1 PS NE) as AVD.
        pose proof (st_le _ _ _ _ _ _ _ _ _ _ _ _ _ _ _ _ _ S) as LE.
        rewrite app_nil_r in E. pose proof (elem_end g b pre E) as EN. cbn [block_loop] in X.
        destruct (k_next (blk g b)) as [m|] eqn:KN.
        2:{ cbn [bind] in X. injection X as <-. right. split; [exact NB|apply Av_unsee; auto]. }
        destruct (k_items (blk g m)) as [|y ys] eqn:KM.
        { cbn [bind] in X. injection X as <-. right. split; [exact NB|apply Av_unsee; auto]. }
        apply bind_ok in X. destruct X as ([m1 C1] & X1 & X2). injection X2 as <-. cbn [snd].
        assert (ST1 : Step (b, length pre, d, o) (m, O, d, o)) by (apply S_Stack.st_next; auto).
        assert (CP : Cpre k m d (d + k) mx mn None o C).
        { eapply st_call; [exact R|exact S|exact ST1| | |lia|exact LE].
          - intros id0 h0 la0 Q _. eapply st_mn; eauto.
          - intros Q. eapply st_mn2; eauto. }
        assert (NIA : ~ In m (c_seen C) -> Avoid (m, O, d, o)).
        { intros _. eapply av_step; [exact AVD|exact ST1|]. cbn. intros Q. injection Q as _ Q. congruence. }
        destruct (OKL _ _ _ _ _ _ _ _ _ _ K CP NIA AV X1) as [Y|Y]; [right|left; exact Y].
        split; [exact NB|]. apply Av_unsee; auto.
      - assert (DEC : {(b, length pre) = (b0, i1)} + {(b, length pre) <> (b0, i1)}) by (decide equality; apply Nat.eq_dec).
        destruct DEC as [Q|NE].
        { injection Q as -> LP. left. eapply at_place; eauto. exact (proj2 (proj2 PS eq_refl)). }
        pose proof (proj1 PS NE) as AVD.
        destruct (elem_skip g b pre it r E) as [EL AF].
        assert (E' : k_items (blk g b) = (pre ++ [it]) ++ r) by (rewrite <- app_assoc; exact E).
        assert (LN : length (pre ++ [it]) = Datatypes.S (length pre)) by (rewrite app_length; cbn; lia).
        pose proof (st_le _ _ _ _ _ _ _ _ _ _ _ _ _ _ _ _ _ S) as LE.
        pose proof (st_way _ _ _ _ _ _ _ _ _ _ _ _ _ _ _ _ _ S) as W. pose proof (st_inv _ _ _ _ _ _ _ _ _ _ _ _ _ _ _ _ _ S) as I.
        assert (KEEP : forall d1 mx1 mn1 o1 C1, Goal C1 h -> St k b s (length (pre ++ [it])) d1 mx1 mn1 o1 C1 ->
          Loop call b r (d1 + k) mx1 mn1 (emb o1) C1 = Ok p -> Goal (snd p) h).
        { intros d1 mx1 mn1 o1 C1 GG S1 X1.
          apply (e_ex _ _ _ _ _ _ _ _ _ _ _ _ (lo_ext _ _ _ _ _ _ _ _ _ _ _ _ _ _ _ _ (loop_ok_ok _ _ _ _ _ _ _ _ _ _ _ _ OKc E' S1 X1))). exact GG. }
        assert (NEXT : forall d1 mx1 mn1 o1 C1, Step (b, length pre, d, o) (b, Datatypes.S (length pre), d1, o1) ->
          St k b s (Datatypes.S (length pre)) d1 mx1 mn1 o1 C1 -> Av C1 \/ Goal C1 h ->
          Loop call b r (d1 + k) mx1 mn1 (emb o1) C1 = Ok p -> Goal (snd p) h \/ (b <> b0 /\ Av (snd p))).
        { intros d1 mx1 mn1 o1 C1 ST1 S1 AG X1. rewrite <- LN in S1. destruct AG as [AG|AG].
          - apply (IH (pre ++ [it]) k d1 mx1 mn1 o1 C1 p K E' S1); auto. rewrite LN. eapply pos_step; eauto.
          - left. eapply KEEP; eauto. }
        destruct it as [x|l|z|id1 t1 la1 sd|id1].
        + assert (CALL : forall e n C1 m2, has_jump T x = true -> ef x true = Some e -> i_arg x = OBlock n ->
            call n (d + k + fst e + snd e) (Z.max mx (d + k + fst e + snd e)) (Z.min mn (d + k + fst e + snd e)) None
              (pending_of x r (emb o)) C = Ok (m2, C1) ->
            (Av C1 \/ Goal C1 h) /\ Inv C1 /\ c_seen C1 = c_seen C /\ grow H C C1 /\ mx <= m2).
          { intros e n C1 m2 HJ EF AX EC.
            destruct (jump_cpre _ _ _ _ _ _ _ _ _ _ _ _ _ S EL AF HJ EF AX) as (o1 & PO & O1 & O2 & ST1 & CP).
            rewrite PO in EC. replace (d + k + fst e + snd e) with (d + fst e + snd e + k) in EC by lia.
            pose proof (call_ok _ _ _ _ _ _ _ _ _ _ _ OKc CP EC) as [V1 V2 V3 V4 V5 V6 V7]. cbn [fst snd] in *.
            assert (NIA : ~ In n (c_seen C) -> Avoid (n, O, d + fst e + snd e, o1)).
            { intros _. eapply av_step; [exact AVD|exact ST1|]. cbn. intros Q. injection Q as _ Q. congruence. }
            split; [exact (OKL _ _ _ _ _ _ _ _ _ _ K CP NIA AV EC)|].
            split; [exact V3|]. split; [exact V2|]. split; [eapply ext_grow; exact V4|lia]. }
          assert (HAND : forall id1 h1 la1 C1 mx1 mn1 C2, o = Some (id1, h1, la1) -> Av C1 \/ Goal C1 h -> Inv C1 -> c_seen C1 = c_seen C ->
            grow H C C1 -> H h1 + k <= mn1 -> mx <= mx1 -> mn1 <= Z.max mx1 first ->
            compute_handler call (OBlock h1) la1 mx1 mn1 C1 = Ok C2 -> Av C2 \/ Goal C2 h).
          { intros id1 h1 la1 C1 mx1 mn1 C2 -> AG I1' SN1 G1 M1 M2 M3 EH.
            assert (S1 : St k b s (length pre) d mx mn (Some (id1, h1, la1)) C1) by (eapply st_state; eauto).
            destruct AG as [AG|AG]; [eapply handlerL; eauto|right].
            eapply handler_ok_ok in EH; [|exact OKc|exact S1|exact M1|exact M2|exact M3].
            apply (e_ex _ _ _ _ _ _ _ _ _ _ _ _ (ha_ext _ _ _ _ _ _ _ _ _ _ _ _ _ _ _ EH)). exact AG. }
          apply loop_instr in X. destruct X as [X|X].
          * destruct X as (e & n & m2 & Cj & C2 & HJ & UJ & EF & AX & EC & EH & ->). cbn [snd].
            assert (FX : is_final x = true).
            { unfold is_final, is_final_name. rewrite UJ. apply Bool.orb_true_r. }
            pose proof (pos_final _ _ _ _ _ PS NE EL FX) as NB.
            destruct (CALL _ _ _ _ HJ EF AX EC) as (AG & I1' & SN1 & G1 & LX).
            assert (AG2 : Av C2 \/ Goal C2 h).
            { destruct (trailing_end r) as [id2|]; [|injection EH as <-; exact AG].
              destruct o as [[[id1 h1] la1]|]; cbn [emb] in EH; [|injection EH as <-; exact AG].
              destruct (Nat.eqb id2 id1); [|injection EH as <-; exact AG].
              pose proof (st_mn _ _ _ _ _ _ _ _ _ _ _ _ _ _ _ _ _ S _ _ _ eq_refl) as M1.
              pose proof (st_mn2 _ _ _ _ _ _ _ _ _ _ _ _ _ _ _ _ _ S ltac:(discriminate)) as M2.
              eapply (HAND id1 h1 la1 Cj); [reflexivity|exact AG|exact I1'|exact SN1|exact G1| | | |exact EH]; lia. }
            destruct AG2 as [Y|Y]; [right|left; exact Y]. split; [exact NB|apply Av_unsee; auto].
          * destruct X as (mx1 & C1 & e & XJ & EF & X).
            assert (AG : (Av C1 \/ Goal C1 h) /\ Inv C1 /\ c_seen C1 = c_seen C /\ grow H C C1 /\ mx <= mx1).
            { destruct XJ as [(HJ & -> & ->)|(e1 & n & m2 & HJ & UJ & EF1 & AX & EC & ->)].
              - split; [left; exact AV|]. split; [exact I|]. split; [reflexivity|]. split; [apply grow_refl|lia].
              - destruct (CALL _ _ _ _ HJ EF1 AX EC) as (AG & I1' & SN1 & G1 & LX).
                split; [exact AG|]. split; [exact I1'|]. split; [exact SN1|]. split; [exact G1|lia]. }
            destruct AG as (AG & I1' & SN1 & G1 & LX).
            replace (d + k + fst e + snd e) with (d + fst e + snd e + k) in X by lia.
            destruct (is_final x) eqn:FX.
            -- destruct X as (C2 & EH & ->). cbn [snd]. rewrite trailing_hd in EH.
               pose proof (pos_final _ _ _ _ _ PS NE EL FX) as NB.
               assert (NS : has_jump T x = false \/ is_uncond_jump_name (i_name x) = false).
               { destruct XJ as [(HJ & _)|(? & ? & ? & _ & UJ & _)]; auto. }
               assert (AG2 : Av C2 \/ Goal C2 h).
               { destruct (hd_error (ends_after r)) as [id2|] eqn:HD; [|injection EH as <-; exact AG].
                 assert (HA : hd_error (after g b (length pre)) = Some id2) by (rewrite AF; exact HD).
                 destruct (reg_final _ _ _ _ _ _ R _ _ _ _ _ _ _ W EL FX NS HA) as (h1 & la1 & -> & HI).
                 specialize (HI (fst e) (snd e)). rewrite <- surjective_pairing in HI. specialize (HI EF).
                 apply bind_ok in EH. destruct EH as (q & EQ & EH).
                 pose proof (st_at _ _ _ _ _ _ _ _ _ _ _ _ _ _ _ _ _ S) as A.
                 destruct (good_ok _ _ _ _ _ _ _ _ _ _ _ (entry_good v T se check g first H cov R CO b pre x r d id2 h1 la1 A E HD) EQ) as [sd ->].
                 pose proof (st_mn _ _ _ _ _ _ _ _ _ _ _ _ _ _ _ _ _ S _ _ _ eq_refl) as M1.
                 pose proof (st_mn2 _ _ _ _ _ _ _ _ _ _ _ _ _ _ _ _ _ S ltac:(discriminate)) as M2.
                 eapply (HAND id2 h1 la1 C1); [reflexivity|exact AG|exact I1'|exact SN1|exact G1| | | |exact EH]; lia. }
               destruct AG2 as [Y|Y]; [right|left; exact Y]. split; [exact NB|apply Av_unsee; auto].
            -- destruct (st_next_instr _ _ _ _ _ _ _ _ _ _ _ _ _ S EL FX EF I1' SN1 G1 LX) as [ST1 S1].
               eapply NEXT; eauto.
        + cbn [block_loop] in X. discriminate X.
        + cbn [block_loop elem_check bind] in X.
          assert (ST1 : Step (b, length pre, d, o) (b, Datatypes.S (length pre), d, o)) by (eapply st_line; eauto).
          eapply (NEXT d mx mn o C ST1); [|left; exact AV|exact X].
          eapply st_move; [exact R|exact S|exact ST1|exact I|reflexivity|apply grow_refl| | |lia|lia].
          * intros id0 h0 la0 Q _. eapply st_mn; eauto.
          * intros Q. eapply st_mn2; eauto.
        + pose proof (reg_begin _ _ _ _ _ _ R _ _ _ _ _ _ _ _ _ W EL) as ON. subst o. cbn [block_loop] in X.
          apply bind_ok in X. destruct X as (u & CK & X). cbn [elem_check] in CK.
          destruct t1 as [| | | | | | | h1 | | | | | |]; try discriminate CK. cbn [emb] in X.
          set (C1 := mkSC _ _ _ _ _) in X.
          assert (ST1 : Step (b, length pre, d, None) (b, Datatypes.S (length pre), d, Some (id1, h1, la1))) by (eapply st_begin; eauto).
          assert (G1 : grow H C C1).
          { constructor; auto. intros y Y. unfold C1. cbn [c_tbs]. apply in_app_iff. left. exact Y. }
          assert (I1' : Inv C1).
          { destruct I as [J1 J2 J4 J5 J7]. constructor; auto.
            intros id0 t0 la0 Y. unfold C1 in Y. cbn [c_tbs] in Y. apply in_app_iff in Y. destruct Y as [Y|[Y|[]]]; auto.
            injection Y as <- <- <-. exists h1, b, (Datatypes.S (length pre)), d. split; auto. eapply at_step; [|exact ST1]. eapply way_at; eauto. }
          eapply (NEXT d mx (d + k) (Some (id1, h1, la1)) C1 ST1); [|left; exact AV|exact X].
          eapply st_move; [exact R|exact S|exact ST1|exact I1'|reflexivity|exact G1| | |lia|lia].
          * intros id0 h0 la0 Y HX. lia.
          * intros _. lia.
        + assert (ST1 : Step (b, length pre, d, o) (b, Datatypes.S (length pre), d, close id1 o)) by (eapply st_end; eauto).
          assert (GO : forall o1 C1, o1 = close id1 o -> Inv C1 -> c_seen C1 = c_seen C -> grow H C C1 -> Av C1 \/ Goal C1 h ->
            Loop call b r (d + k) mx mn (emb o1) C1 = Ok p -> Goal (snd p) h \/ (b <> b0 /\ Av (snd p))).
          { intros o1 C1 -> I1' SN1 G1 AG X1. eapply (NEXT d mx mn (close id1 o) C1 ST1); auto.
            assert (OO : forall q, close id1 o = Some q -> o = Some q).
            { intros q Y. unfold close in Y. destruct o as [[[id2 h2] la2]|]; [|discriminate].
              destruct (Nat.eqb id1 id2); [discriminate|exact Y]. }
            eapply st_move; [exact R|exact S|exact ST1|exact I1'|exact SN1|exact G1| | |lia|lia].
            - intros id0 h0 la0 Y HX. eapply st_mn; eauto.
            - intros Y. eapply st_mn2; eauto. intros ->. apply Y. reflexivity. }
          cbn [block_loop elem_check bind] in X. destruct o as [[[id2 h2] la2]|]; cbn [emb] in X.
          * destruct (Nat.eqb_spec id1 id2) as [<-|NQ].
            -- apply bind_ok in X. destruct X as (C1 & EH & X).
               pose proof (st_mn _ _ _ _ _ _ _ _ _ _ _ _ _ _ _ _ _ S _ _ _ eq_refl) as M1.
               pose proof (st_mn2 _ _ _ _ _ _ _ _ _ _ _ _ _ _ _ _ _ S ltac:(discriminate)) as M2.
               assert (AG : Av C1 \/ Goal C1 h) by (eapply handlerL; eauto; lia).
               eapply handler_ok_ok in EH; [|exact OKc|exact S|lia|lia|lia]. destruct EH as [V1 V2 V3 V4 V5].
               apply (GO None C1); [cbn [close]; rewrite Nat.eqb_refl; reflexivity|exact V2|exact V1|eapply ext_grow; exact V3|exact AG|exact X].
            -- apply (GO (Some (id2, h2, la2)) C); [|exact I|reflexivity|apply grow_refl|left; exact AV|exact X].
               cbn [close]. destruct (Nat.eqb_spec id1 id2); [congruence|reflexivity].
          * apply (GO None C); [reflexivity|exact I|reflexivity|apply grow_refl|left; exact AV|exact X].
    Qed.

    Lemma runL fuel : callL (run v T se check g fuel).
    Proof.
      induction fuel as [|fuel IH]; intros k b d size mx mn exh o C p K CP NIA AV X; [discriminate|].
      pose proof (run_cases fuel k b d size mx mn exh o C p CP X) as X'. clear X. rename X' into X.
      destruct X as [->|(sizes & mx1 & mn1 & NI & DS & _ & S & X)]; [left; exact AV|].
      specialize (NIA NI). pose proof (run_ok v T se check g first H cov R CO TK fuel) as OKc.
      assert (AE : b <> b0 \/ b = b0) by (destruct (Nat.eq_dec b b0); auto).
      assert (AVE : Av (entered b (size, exh) sizes C)).
      { destruct AV as [A1 A2]. split.
        - intros m D. apply entered_ldone in D; [|exact DS]. destruct D as [D| ->]; eauto.
        - intros D. apply entered_ldone in D; [|exact DS]. cbn [entered c_seen]. destruct D as [D| ->]; [right; auto|left; reflexivity]. }
      destruct (loopL (run v T se check g fuel) b (c_seen C) OKc IH (fun B0 => runT id h la B0 fuel)
                  (k_items (blk g b)) [] k d mx1 mn1 o (entered b (size, exh) sizes C) p K eq_refl S) as [Y|[_ Y]]; auto.
      split; [intros _; exact NIA|]. intros ->. split; [apply Nat.le_0_l|]. exists o.
      pose proof (reg_same _ _ _ _ _ _ R _ _ _ _ _ AT0 (cp_at _ _ _ _ _ _ _ _ _ _ _ _ _ _ _ _ _ CP)) as ->. constructor.
    Qed.
  End Shown.

  Lemma at_line c : At c -> exists d o, At (block_of c, O, d, o) /\ Line (block_of c, O, d, o) c.
  Proof.
    intros A. induction A as [n l E|c c' A IH ST|c h la A IH MR].
    - exists first, None. split; [eapply at_entry; eauto|constructor].
    - assert (A2 : At c') by (eapply at_step; eauto).
      destruct (Nat.eq_dec (index_of c') O) as [Z|N].
      + destruct c' as [[[b i] d] o]. cbn in Z. subst i. exists d, o. split; [exact A2|constructor].
      + destruct IH as (d & o & A0 & L). destruct c as [[[b1 i1] d1] o1].
        destruct (step_in _ _ _ _ _ _ _ _ ST N) as (d2 & o2 & ->). exists d, o. split; [exact A0|]. eapply ln_step; eauto.
    - exists (H h + pushed la), None. split; [eapply at_raise; eauto|constructor].
  Qed.

  Lemma line_one b i d o d2 o2 : Line (b, i, d, o) (b, S i, d2, o2) -> Step (b, i, d, o) (b, S i, d2, o2).
  Proof.
    intros L. remember (b, S i, d2, o2) as c2 eqn:E2. destruct L as [|c3 c4 L3 ST N]; [injection E2 as E _ _; lia|]. subst c4.
    destruct c3 as [[[b3 i3] d3] o3]. destruct (step_in _ _ _ _ _ _ _ _ ST N) as (d4 & o4 & E4). injection E4 as -> -> -> ->.
    remember (b3, i3, d3, o3) as c3 eqn:E3. destruct L3 as [|c5 c6 L5 ST5 N5]; [injection E3 as -> ->; exact ST|]. subst c6.
    exfalso. destruct c5 as [[[b5 i5] d5] o5]. destruct (step_in _ _ _ _ _ _ _ _ ST5 N5) as (d6 & o6 & E6). injection E6 as -> -> -> ->.
    destruct (line_idx _ _ _ _ _ L5) as [_ Q]. cbn in Q. lia.
  Qed.

  (** A TryBegin that shows the depth of its handler, in a block that has been visited. *)
  Lemma shown_goal fuel n l mx mn C p b i d o id h la sd : g_order g = n :: l -> c_seen C = [] -> (forall m, ~ Ldone C m) ->
    Cpre 0 n first first mx mn None None C -> run v T se check g fuel n first mx mn None None C = Ok p ->
    At (b, i, d, o) -> elem g b i = Some (BTB id (OBlock h) la sd) -> showing T ef g first H b i d id h la ->
    Ldone (snd p) b -> Goal (snd p) h.
  Proof.
    intros GO SN ND CP X A E (i1 & LN & b' & i' & d' & PATH & EN) LD.
    destruct (at_line _ A) as (D0 & oe & A0 & L0). cbn [block_of fst] in A0, L0.
    destruct (line_idx _ _ _ _ _ LN) as [_ LI]. cbn in LI.
    assert (I1 : i1 <> O) by lia.
    assert (LN0 : Line (b, O, D0, oe) (b, i1, H h, Some (id, h, la))).
    { eapply line_trans; [|exact LN]. eapply ln_step; [exact L0|eapply st_begin; eauto|cbn; discriminate]. }
    assert (TB0 : forall o1 d1 o', Line (b, O, D0, o1) (b, i1, d1, o') -> o' = Some (id, h, la) /\ d1 = H h).
    { intros o1 d1 o' L. destruct (line_split _ _ _ _ _ i L) as (d2 & o2 & L1 & L2); [cbn; lia|].
      destruct (line_split _ _ _ _ _ (S i) L2) as (d3 & o3 & L3 & L4); [cbn; lia|]. cbn [block_of fst] in *.
      destruct (line_det _ _ _ _ _ _ _ _ _ _ L0 L1 eq_refl) as [Q _]. cbn in Q. subst d2.
      apply line_one in L3. assert (Q : d3 = d /\ o3 = Some (id, h, la)) by (inversion L3; subst; split; congruence).
      destruct Q as [-> ->]. destruct (line_det _ _ _ _ _ _ _ _ _ _ LN L4 eq_refl) as [_ Q]. specialize (Q eq_refl).
      injection Q as -> ->. auto. }
    assert (AV : Av b i1 C).
    { split; [intros m D; destruct (ND m D)|intros D; destruct (ND _ D)]. }
    assert (NIA : ~ In n (c_seen C) -> avoiding T ef g first H b i1 (n, O, first, None)).
    { intros _. eapply av_entry; [exact GO|]. intros Q. injection Q as _ Q. congruence. }
    destruct (runL b i1 id h la D0 oe I1 A0 LN0 TB0 b' i' d' PATH EN fuel 0 n first first mx mn None None C p eq_refl CP NIA AV X) as [Y|Y]; [|exact Y].
    exfalso. destruct Y as [_ Y]. specialize (Y LD).
    assert (SP : c_seen (snd p) = c_seen C) by exact (vi_seen _ _ _ _ _ _ _ _ _ _ _ _ _ (call_ok _ _ _ _ _ _ _ _ _ _ _ (run_ok v T se check g first H cov R CO TK fuel) CP X)).
    rewrite SP, SN in Y. destruct Y.
  Qed.
End L.
