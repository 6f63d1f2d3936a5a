(** The stack size of graphs without try blocks whose blocks may be entered with different
    depths. *)
From Coq Require Import Lia.
From Verif Require Import PyBase OpTable M_Instr M_Concrete M_Bytecode M_Flags M_Cfg M_Stack S_Cfg S_Stack P_Base P_Cfg P_Stack P_StackL P_Stack2 P_Stack4.
Open Scope string_scope.
Open Scope list_scope.
Open Scope Z_scope.

Section G.
  Variables (v : pyver) (T : optable) (se : oracle) (check : bool) (g : cfg) (first : Z).
  Notation ef := (eff v T se check).
  Notation Steps := (steps T ef g).
  Notation Step := (step T ef g).
  Definition entry (c : conf) : Prop := exists n l, g_order g = n :: l /\ Steps (n, O, first, None) c.

  Hypothesis NT : forall b i id t la sd, elem g b i <> Some (BTB id t la sd).
  Hypothesis NG : forall b d d' o o', entry (b, O, d, o) -> Steps (b, O, d, o) (b, O, d', o') -> d' <= d.
  Hypothesis NE : forall b i d o m, entry (b, i, d, o) -> elem g b i = None -> k_next (blk g b) = Some m ->
    k_items (blk g m) = [] -> k_next (blk g m) = None.

  Lemma steps_trans c1 c2 c3 : Steps c1 c2 -> Steps c2 c3 -> Steps c1 c3.
  Proof. intros A B. induction B; auto. eapply ss_step; eauto. Qed.
  Lemma entry_step c c' : entry c -> Step c c' -> entry c'.
  Proof. intros (n & l & E & S1) S2. exists n, l. split; [exact E|eapply ss_step; eauto]. Qed.

  (** the block has been analysed with that many items or more *)
  Definition done (C : common) (b : nat) (d : Z) : Prop := exists f, fin C b f /\ d <= fst f.

  Fixpoint closed (C : common) (M : Z) (b : nat) (rest : list bitem) (d : Z) : Prop :=
    d <= M /\
    match rest with
    | [] => match k_next (blk g b) with
            | Some m => k_items (blk g m) = [] \/ done C m d
            | None => True
            end
    | BI x :: r =>
        (has_jump T x = true -> exists n pre post, i_arg x = OBlock n /\ ef x true = Some (pre, post)
             /\ d + pre + post <= M /\ done C n (d + pre + post))
        /\ (has_jump T x = false \/ is_uncond_jump_name (i_name x) = false ->
              exists pre post, ef x false = Some (pre, post) /\ d + pre + post <= M
                /\ (is_final x = false -> closed C M b r (d + pre + post)))
    | _ :: r => closed C M b r d
    end.

  Definition more (C C' : common) : Prop := forall b f, fin C b f -> fin C' b f.
  Lemma done_more C C' b d : more C C' -> done C b d -> done C' b d.
  Proof. intros G (f & F & L). exists f. auto. Qed.
  Lemma closed_more C C' M M' b rest : more C C' -> M <= M' -> forall d, closed C M b rest d -> closed C' M' b rest d.
  Proof.
    intros G LE. induction rest as [|it r IH]; intros d [A B].
    - split; [lia|]. destruct (k_next (blk g b)); auto. destruct B as [B|B]; auto. right. eapply done_more; eauto.
    - split; [lia|]. destruct it; auto. destruct B as [B1 B2]. split.
      + intros J. destruct (B1 J) as (n & p & q & X1 & X2 & X3 & X4). exists n, p, q. repeat split; auto; [lia|eapply done_more; eauto].
      + intros J. destruct (B2 J) as (p & q & X1 & X2 & X3). exists p, q. repeat split; auto; lia.
  Qed.

  Record post (C : common) (m : Z) (b : nat) (d : Z) (q : Z * common) : Prop := {
    p_max : m <= fst q;
    p_seen : c_seen (snd q) = c_seen C;
    p_more : more C (snd q);
    p_done : done (snd q) b d;
    p_new : forall b' f, fin (snd q) b' f -> fin C b' f \/ closed (snd q) (Z.max (fst q) first) b' (k_items (blk g b')) (fst f) }.

  Record pre (C : common) (b : nat) (d : Z) : Prop := {
    q_entry : entry (b, O, d, None);
    q_seen : forall m, In m (c_seen C) -> exists s, fin C m (s, None) /\ entry (m, O, s, None) /\ Steps (m, O, s, None) (b, O, d, None) }.

  Definition ok_call (call : visit) : Prop := forall b d m ms C q, pre C b d -> d <= Z.max m first ->
    call b d m ms None None C = Ok q -> post C m b d q.

  Lemma upd e size maxs mins s m n : update_size e size maxs mins = Ok (s, m, n) ->
    s = size + fst e + snd e /\ m = Z.max maxs s /\ maxs <= m /\ s <= m.
  Proof. unfold update_size. destruct (size + fst e <? 0); [discriminate|]. intros E. injection E as <- <- <-. lia. Qed.
  Lemma used x j e : used_effect v T se check x j = Ok e -> ef x j = Some e.
  Proof. unfold P_Stack.eff. intros ->. reflexivity. Qed.

  (** what the visits of the blocks reached leave *)
  Record part (C : common) (m : Z) (q : Z * common) : Prop := {
    r_max : m <= fst q;
    r_more : more C (snd q);
    r_new : forall b' f, fin (snd q) b' f -> fin C b' f \/ closed (snd q) (Z.max (fst q) first) b' (k_items (blk g b')) (fst f) }.

  Lemma part_trans C m q m1 q1 : part C m q -> fst q <= m1 -> part (snd q) m1 q1 -> part C m q1.
  Proof.
    intros [A1 A2 A3] LE [B1 B2 B3]. constructor; [lia|intros b f F; auto|].
    intros b f F. destruct (B3 _ _ F) as [F1|K]; auto. destruct (A3 _ _ F1) as [F2|K]; auto.
    right. eapply closed_more; [exact B2| |exact K]. lia.
  Qed.
  Lemma part_unsee C m m1 C1 b : part C m (m1, C1) -> part C m (m1, unsee b C1).
  Proof.
    intros [A1 A2 A3]. constructor; cbn [fst snd] in *; [exact A1|exact A2|].
    intros b' f F. destruct (A3 b' f F) as [X|X]; [left; exact X|right].
    eapply closed_more; [|apply Z.le_refl|exact X]. intros y z Y; exact Y.
  Qed.
  Lemma part_refl C m m1 : m <= m1 -> part C m (m1, C).
  Proof. intros LE. constructor; cbn; auto. intros b f F. exact F. Qed.

  (** the loop over the elements of a block: [b] is the last of the blocks entered *)
  Lemma loop call b : ok_call call -> forall rest pr d0 d m ms C q,
    k_items (blk g b) = pr ++ rest -> In b (c_seen C) ->
    (forall k, In k (c_seen C) -> exists s, fin C k (s, None) /\ entry (k, O, s, None) /\ Steps (k, O, s, None) (b, O, d0, None)) ->
    entry (b, O, d0, None) -> Steps (b, O, d0, None) (b, length pr, d, None) -> d <= Z.max m first ->
    block_loop v T se check g call b rest d m ms None C = Ok q ->
    part C m q /\ c_seen (snd q) = filter (fun n => negb (Nat.eqb b n)) (c_seen C)
    /\ closed (snd q) (Z.max (fst q) first) b rest d.
  Proof.
    intros CALL. induction rest as [|it r IH]; intros pr d0 d m ms C q EQ SB SEEN EN ST LE E; cbn [block_loop] in E.
    - apply bind_ok in E. destruct E as ([m1 C1] & E1 & E). injection E as <-. rewrite app_nil_r in EQ.
      assert (EL : elem g b (length pr) = None) by (apply elem_end; exact EQ). cbn [fst snd closed].
      destruct (k_next (blk g b)) as [k|] eqn:KN.
      + assert (ST1 : Step (b, length pr, d, None) (k, O, d, None)) by (eapply st_next; eauto).
        destruct (k_items (blk g k)) as [|y ys] eqn:KI.
        * injection E1 as <- <-. split; [apply part_unsee, part_refl; lia|]. split; [reflexivity|]. split; [lia|auto].
        * assert (PC : pre C k d).
          { constructor.
            - eapply entry_step; [|exact ST1]. destruct EN as (n & l & X & Y). exists n, l. split; [exact X|]. eapply steps_trans; eauto.
            - intros j J. destruct (SEEN j J) as (s & F & A & S1). exists s. split; [exact F|]. split; [exact A|].
              eapply ss_step; [|exact ST1]. eapply steps_trans; eauto. }
          destruct (CALL _ _ _ _ _ _ PC LE E1) as [P1 P2 P3 P4 P5]. cbn [fst snd] in *.
          split; [apply part_unsee; constructor; cbn; auto|]. split; [unfold unsee; cbn [c_seen]; rewrite P2; reflexivity|].
          split; [lia|]. right. exact P4.
      + injection E1 as <- <-. split; [apply part_unsee, part_refl; lia|]. split; [reflexivity|]. split; [lia|auto].
    - destruct (elem_skip g b pr it r EQ) as [EL _].
      assert (EQ' : k_items (blk g b) = (pr ++ [it]) ++ r) by (rewrite <- app_assoc; exact EQ).
      assert (LEN : length (pr ++ [it]) = Datatypes.S (length pr)) by (rewrite app_length; cbn; lia).
      apply bind_ok in E. destruct E as (u & EC & E).
      assert (ENP : entry (b, length pr, d, None)).
      { destruct EN as (n & l & X & Y). exists n, l. split; [exact X|]. eapply steps_trans; eauto. }
      destruct it as [x|l|z|id t la sd|id].
      + (* instruction *)
        apply bind_ok in E. destruct E as ([[m1 C1] stop] & E1 & E).
        assert (JMP : part C m (m1, C1) /\ (if stop then c_seen C1 = filter (fun n => negb (Nat.eqb b n)) (c_seen C) else c_seen C1 = c_seen C)
          /\ (has_jump T x = true -> exists n p q, i_arg x = OBlock n /\ ef x true = Some (p, q)
             /\ d + p + q <= Z.max m1 first /\ done C1 n (d + p + q))
          /\ (stop = true -> has_jump T x = true /\ is_uncond_jump_name (i_name x) = true)).
        { destruct (has_jump T x) eqn:J.
          - apply bind_ok in E1. destruct E1 as (e & U & E1). apply used in U.
            apply bind_ok in E1. destruct E1 as ([[tk mx] mn] & UP & E1). apply upd in UP. destruct UP as (-> & -> & L1 & L2).
            apply bind_ok in E1. destruct E1 as (n & TG & E1).
            assert (AX : i_arg x = OBlock n) by (destruct (i_arg x); try discriminate TG; injection TG as ->; reflexivity). clear TG.
            apply bind_ok in E1. destruct E1 as ([m2 C2] & CL & E1).
            assert (PN : (if is_final x && match trailing_end r with Some _ => true | None => false end then None else None) = @None tbinfo)
              by (destruct (is_final x && _); reflexivity).
            rewrite PN in CL.
            assert (ST1 : Step (b, length pr, d, None) (n, O, d + fst e + snd e, None)).
            { destruct e as [p q0]. cbn [fst snd].
              pose proof (st_jump T ef g b (length pr) d None x n p q0 EL J AX U) as X.
              destruct (is_final x && _) in X; exact X. }
            assert (PC : pre C n (d + fst e + snd e)).
            { constructor; [eapply entry_step; eauto|].
              intros j JJ. destruct (SEEN j JJ) as (s & F & A & S1). exists s. split; [exact F|]. split; [exact A|].
              eapply ss_step; [|exact ST1]. eapply steps_trans; eauto. }
            assert (L3 := L2); apply (fun X => Z.le_trans _ _ _ X (Z.le_max_l _ first)) in L3; destruct (CALL _ _ _ _ _ _ PC L3 CL) as [P1 P2 P3 P4 P5]. cbn [fst snd] in *.
            destruct e as [p q0]. cbn [fst snd] in *.
            destruct (is_uncond_jump_name (i_name x)) eqn:UJ.
            + apply bind_ok in E1. destruct E1 as (C3 & E3 & E1). injection E1 as <- <- <-.
              assert (C3 = C2) by (destruct (trailing_end r); injection E3 as <-; reflexivity). subst C3.
              split; [apply part_unsee; constructor; cbn [fst snd]; [lia|exact P3|]|].
              { intros b' f F. destruct (P5 b' f F) as [X|X]; [left; exact X|right]. eapply closed_more; [| |exact X]; [intros y z Y; exact Y|lia]. }
              split; [unfold unsee; cbn [c_seen]; rewrite P2; reflexivity|]. split; [|auto].
              intros _. exists n, p, q0. split; [exact AX|]. split; [exact U|]. split; [lia|exact P4].
            + injection E1 as <- <- <-.
              split; [constructor; cbn [fst snd]; [lia|exact P3|]|].
              { intros b' f F. destruct (P5 b' f F) as [X|X]; [left; exact X|right]. eapply closed_more; [| |exact X]; [intros y z Y; exact Y|lia]. }
              split; [exact P2|]. split; [|discriminate].
              intros _. exists n, p, q0. split; [exact AX|]. split; [exact U|]. split; [lia|exact P4].
          - injection E1 as <- <- <-. split; [apply part_refl; lia|]. split; [reflexivity|]. split; discriminate. }
        destruct JMP as (PT & SN & HJ & HS). destruct stop.
        { injection E as <-. cbn [fst snd] in *. split; [exact PT|]. split; [exact SN|]. destruct (HS eq_refl) as [J1 J2].
          split; [destruct PT as [P _ _]; cbn in P; lia|]. split; [exact HJ|]. intros [X|X]; congruence. }
        apply bind_ok in E. destruct E as (e & U & E). apply used in U. destruct e as [p q0].
        apply bind_ok in E. destruct E as ([[sz mx] mn] & UP & E). apply upd in UP. cbn [fst snd] in UP. destruct UP as (-> & -> & L1 & L2).
        destruct (is_final x) eqn:F.
        { apply bind_ok in E. destruct E as (C3 & E3 & E). injection E as <-.
          assert (C3 = C1).
          { destruct (trailing_end r) as [id|]; [|injection E3 as <-; reflexivity].
            destruct (find_tb id (all_items g)) as [[[t la] sd]|] eqn:FT; [|discriminate E3].
            apply find_tb_in in FT. unfold all_items in FT. apply in_flat_map in FT. destruct FT as (k & _ & FT).
            apply In_nth_error in FT. destruct FT as (i & FT). destruct (NT k i id t la sd FT). }
          subst C3. cbn [fst snd] in *.
          split.
          { apply part_unsee. apply (part_trans C m (m1, C1) m1); [exact PT|cbn; lia|]. apply part_refl. lia. }
          split; [unfold unsee; cbn [c_seen]; rewrite SN; reflexivity|].
          split; [destruct PT as [P _ _]; cbn in P; lia|]. split.
          - intros J. destruct (HJ J) as (n & p1 & q1 & X1 & X2 & X3 & X4). exists n, p1, q1.
            split; [exact X1|]. split; [exact X2|]. split; [lia|exact X4].
          - intros _. exists p, q0. split; [exact U|]. split; [lia|]. intros X; congruence. }
        assert (ST1 : Step (b, length pr, d, None) (b, Datatypes.S (length pr), d + p + q0, None)) by (eapply st_instr; eauto).
        rewrite <- LEN in ST1. cbn [snd] in SN.
        destruct (IH _ d0 (d + p + q0) (Z.max m1 (d + p + q0)) mn C1 q EQ') as (R1 & R2 & R3); auto.
        { rewrite SN. exact SB. }
        { intros k K. rewrite SN in K. destruct (SEEN k K) as (s & Y1 & Y2 & Y3). exists s. split; [|auto].
          exact (r_more _ _ _ PT _ _ Y1). }
        { eapply ss_step; eauto. } { lia. }
        split; [eapply part_trans; [exact PT| |exact R1]; cbn; lia|]. split; [rewrite R2, SN; reflexivity|].
        destruct R1 as [R1 RM _]. destruct PT as [P _ _]. cbn [fst snd] in P, R1.
        split; [lia|]. split.
        * intros J. destruct (HJ J) as (n & p1 & q1 & X1 & X2 & X3 & X4). exists n, p1, q1.
          split; [exact X1|]. split; [exact X2|]. split; [lia|eapply done_more; eauto].
        * intros _. exists p, q0. split; [exact U|]. split; [lia|]. intros _. exact R3.
      + discriminate EC.
      + assert (ST1 : Step (b, length pr, d, None) (b, Datatypes.S (length pr), d, None)) by (eapply st_line; eauto).
        rewrite <- LEN in ST1. destruct (IH _ d0 d m ms C q EQ') as (R1 & R2 & R3); auto.
        { eapply ss_step; eauto. }
        split; [exact R1|]. split; [exact R2|]. split; [destruct R1; lia|exact R3].
      + destruct (NT b (length pr) id t la sd EL).
      + assert (ST1 : Step (b, length pr, d, None) (b, Datatypes.S (length pr), d, None)) by (eapply (st_end _ _ _ _ _ _ None); eauto).
        rewrite <- LEN in ST1. destruct (IH _ d0 d m ms C q EQ') as (R1 & R2 & R3); auto.
        { eapply ss_step; eauto. }
        split; [exact R1|]. split; [exact R2|]. split; [destruct R1; lia|exact R3].
  Qed.

  Lemma existsb_ex {A} (P : A -> bool) l : existsb P l = true -> exists a, In a l /\ P a = true.
  Proof. apply existsb_exists. Qed.

  Lemma run_ok fuel : ok_call (run v T se check g fuel).
  Proof.
    induction fuel as [|f IH]; intros b d m ms C q P LE E; [discriminate E|]. cbn [run] in E.
    destruct (nat_mem b (c_seen C)) eqn:SB.
    { injection E as <-. apply nat_mem_in in SB. destruct (q_seen _ _ _ P b SB) as (s & F & A & S1).
      constructor; cbn [fst snd]; auto; [lia|intros y z Y; exact Y|].
      exists (s, None). split; [exact F|]. cbn [fst]. exact (NG _ _ _ _ _ A S1). }
    apply bind_ok in E. destruct E as (sizes & SZ & E). apply of_option_ok in SZ.
    destruct (relevant v sizes (d, None)) eqn:RL; cbn [negb] in E.
    2:{ injection E as <-. constructor; cbn [fst snd]; auto; [lia|intros y z Y; exact Y|].
        unfold relevant in RL. destruct (PY311 v).
        - apply Bool.negb_false_iff in RL. apply existsb_exists in RL. destruct RL as (x & IN & X).
          exists x. split; [exists sizes; auto|]. unfold fingerprint_eqb in X. apply andb_prop in X. destruct X as [X _]. cbn [fst] in X. lia.
        - assert (X : existsb (fun s => negb (fst s <? d)) sizes = true).
          { clear - RL. induction sizes as [|s l IH]; [discriminate RL|]. cbn [forallb existsb fst] in *.
            destruct (fst s <? d); cbn [andb negb orb] in *; auto. }
          apply existsb_exists in X. destruct X as (x & IN & X). exists x. split; [exists sizes; auto|]. lia. }
    cbn [bind] in E.
    set (C0 := mkSC (b :: c_seen C) (dset Nat.eqb (c_starts C) b ((d, None) :: sizes)) (c_tbs C) (c_ex_start C) (c_ex_max C)) in *.
    assert (MORE : more C C0).
    { intros b' f' (l & D & IN). unfold C0, fin. cbn [c_starts]. destruct (Nat.eq_dec b' b) as [->|NB].
      - rewrite dget_dset_same. exists ((d, None) :: sizes). split; [reflexivity|]. right. rewrite SZ in D. injection D as ->. exact IN.
      - rewrite dget_dset_other by exact NB. eauto. }
    assert (F0 : fin C0 b (d, None)).
    { exists ((d, None) :: sizes). unfold C0. cbn [c_starts]. rewrite dget_dset_same. split; [reflexivity|left; reflexivity]. }
    assert (NIN : ~ In b (c_seen C)).
    { intros X. apply nat_mem_in in X. congruence. }
    destruct (loop _ b IH (k_items (blk g b)) [] d d m ms C0 q) as (R1 & R2 & R3); auto.
    - unfold C0. left. reflexivity.
    - intros k K. unfold C0 in K. cbn [c_seen] in K. destruct K as [<-|K].
      + exists d. split; [exact F0|]. split; [exact (q_entry _ _ _ P)|constructor].
      + destruct (q_seen _ _ _ P k K) as (s & F & A & S1). exists s. split; [apply MORE, F|auto].
    - exact (q_entry _ _ _ P).
    - constructor.
    - destruct R1 as [M1 M2 M3]. constructor; auto.
      + rewrite R2. unfold C0. cbn [c_seen]. apply filter_self. exact NIN.
      + intros b' f' F. apply M2, MORE, F.
      + exists (d, None). split; [apply M2, F0|]. cbn. lia.
      + intros b' f' F. destruct (M3 b' f' F) as [(l & D & IN)|K]; [|right; exact K].
        unfold C0 in D. cbn [c_starts] in D. destruct (Nat.eq_dec b' b) as [->|NB].
        * rewrite dget_dset_same in D. injection D as <-. destruct IN as [<-|IN]; [right; exact R3|].
          left. exists sizes. auto.
        * rewrite dget_dset_other in D by exact NB. left. exists l. auto.
  Qed.

  Section Final.
    Variables (C : common) (M : Z).
    Hypothesis FIN : forall b f, fin C b f -> closed C M b (k_items (blk g b)) (fst f).
    Hypothesis ENT : forall n l, g_order g = n :: l -> done C n first.

    Definition covered (c : conf) : Prop :=
      let '(b, i, d, o) := c in o = None /\
      ((exists d1, d <= d1 /\ closed C M b (skipn i (k_items (blk g b))) d1)
       \/ (k_items (blk g b) = [] /\ k_next (blk g b) = None /\ i = O /\ d <= M)).

    Lemma covered_done b d d1 : d <= d1 -> done C b d1 -> covered (b, O, d, None).
    Proof. intros LE (f & F & L). split; [reflexivity|]. left. exists (fst f). split; [lia|]. apply FIN, F. Qed.

    Lemma entry_covered n l c : g_order g = n :: l -> Steps (n, O, first, None) c -> covered c.
    Proof.
      intros EO ST. induction ST as [|c1 c2 ST IH S1].
      - apply (covered_done _ _ first); [lia|]. eapply ENT. exact EO.
      - assert (EN : entry c1) by (exists n, l; auto).
        destruct S1 as [b i d o z E|b i d o id h la sd E|b i d o id E|b i d o x p q E F Y|b i d o x k p q E J AX Y|b i d o k E KN];
          destruct IH as [-> [(d1 & LE & K)|(X1 & X2 & -> & X3)]];
          try (exfalso; unfold elem in E; rewrite X1 in E; cbn in E; first [discriminate E|congruence]).
        + rewrite (nth_skip _ _ _ E) in K. destruct K as [_ K]. split; [reflexivity|]. left. eauto.
        + destruct (NT _ _ _ _ _ _ E).
        + rewrite (nth_skip _ _ _ E) in K. destruct K as [_ K]. split; [reflexivity|]. left. eauto.
        + rewrite (nth_skip _ _ _ E) in K. destruct K as [_ [_ K]]. destruct K as (p1 & q1 & X1 & X2 & X3).
          { right. unfold is_final, is_final_name in F. apply Bool.orb_false_iff in F. apply F. }
          rewrite Y in X1. injection X1 as <- <-. split; [reflexivity|]. left. exists (d1 + p + q). split; [lia|apply X3, F].
        + rewrite (nth_skip _ _ _ E) in K. destruct K as [_ [K _]]. destruct (K J) as (k1 & p1 & q1 & X1 & X2 & X3 & X4).
          rewrite AX in X1. injection X1 as <-. rewrite Y in X2. injection X2 as <- <-.
          destruct (is_final x && _); (eapply covered_done; [|exact X4]; lia).
        + assert (SK : skipn i (k_items (blk g b)) = []) by (apply skipn_all2, nth_error_None; exact E).
          rewrite SK in K. destruct K as [LM K]. rewrite KN in K. destruct K as [K|K]; [|eapply covered_done; eauto].
          split; [reflexivity|]. right. split; [exact K|]. split; [exact (NE _ _ _ _ _ EN E KN K)|]. split; [reflexivity|lia].
    Qed.

    Lemma covered_bound b i d o : covered (b, i, d, o) -> d <= M.
    Proof.
      intros [_ [(d1 & LE & K)|(_ & _ & _ & X)]]; [|exact X].
      destruct (skipn i (k_items (blk g b))); destruct K as [K _]; lia.
    Qed.
  End Final.
End G.

Lemma grow_size v T se check depths g g' n : let first := first_depth v (m_flags (g_meta g)) in
  (forall b i id t la sd, elem g b i <> Some (BTB id t la sd)) ->
  (forall b d d' o o', entry v T se check g first (b, O, d, o) ->
     steps T (eff v T se check) g (b, O, d, o) (b, O, d', o') -> d' <= d) ->
  (forall b i d o m, entry v T se check g first (b, i, d, o) -> elem g b i = None -> k_next (blk g b) = Some m ->
    k_items (blk g m) = [] -> k_next (blk g m) = None) ->
  compute_stacksize v T se check depths g = Ok (g', n) ->
  forall b i d o, entry v T se check g first (b, i, d, o) -> d <= Z.max n first.
Proof.
  intros first NT NG NE E b i d o EN. unfold compute_stacksize, compute_nested in E.
  destruct EN as (m & l & EO & ST). rewrite EO in E. rewrite first_depth_eq in E. fold first in E.
  apply bind_ok in E. destruct E as ([r C] & RUN & E). apply bind_ok in E. destruct E as (dead & _ & E).
  apply bind_ok in E. destruct E as (heap & _ & E). injection E as _ <-.
  destruct (fold_max_ge (map snd (c_ex_max C)) r) as [G1 _]. set (n := fold_left Z.max (map snd (c_ex_max C)) r) in *.
  assert (P : pre v T se check g first (common0 g) m first).
  { constructor; [exists m, l; split; [exact EO|constructor]|]. intros k []. }
  destruct (run_ok v T se check g first NT NG (visit_fuel g) m first 0 0 (common0 g) (r, C) P ltac:(lia) RUN) as [_ _ _ P4 P5].
  cbn [fst snd] in *. eapply covered_bound, (entry_covered v T se check g first NT NE C (Z.max n first)); [| |exact EO|exact ST].
  - intros b' f F. destruct (P5 b' f F) as [X|X]; [destruct (fin0 _ _ _ X)|]. eapply closed_more; [|  |exact X]; [intros y z Y; exact Y|lia].
  - intros k l' X. rewrite EO in X. injection X as <- <-. exact P4.
Qed.
