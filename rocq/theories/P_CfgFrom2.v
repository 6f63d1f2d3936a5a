(** The graph built by from_bytecode: its blocks. *)
From Verif Require Import PyBase OpTable P_Base M_Instr M_Concrete M_Bytecode M_Cfg S_Prog S_Cfg P_Cfg P_CfgSeq P_CfgFrom.
Open Scope list_scope.
Open Scope Z_scope.

Definition flat (bs : list block) : list bitem := flat_map k_items bs.
Lemma flat_app a b : flat (a ++ b) = flat a ++ flat b. Proof. apply flat_map_app. Qed.

Definition stops (T : optable) (i : instr) : bool := has_jump T i || is_final i.
(** only the last instruction stops *)
Fixpoint init_ok (T : optable) (l : list bitem) : bool :=
  match l with
  | [] => true
  | BI i :: r => (if existsb is_BI r then negb (stops T i) else true) && init_ok T r
  | _ :: r => init_ok T r
  end.

Lemma last_instr_snoc l x : last_instr_of (l ++ [x]) = match x with BI i => Some i | _ => last_instr_of l end.
Proof.
  induction l as [|y r IH]; [now destruct x|]. cbn. rewrite IH. destruct y, x; reflexivity.
Qed.
Lemma last_instr_ninstrs l : last_instr_of l = None -> ninstrs l = 0%nat.
Proof.
  induction l as [|x r IH]; [reflexivity|]. rewrite ninstrs_cons. destruct x; cbn; auto.
  destruct (last_instr_of r); discriminate.
Qed.
Lemma last_instr_in l i : last_instr_of l = Some i -> In (BI i) l.
Proof.
  induction l as [|x r IH]; [discriminate|]. destruct x; cbn; auto.
  destruct (last_instr_of r); [auto|]. intros E. injection E as <-. now left.
Qed.
Lemma existsb_BI l : existsb is_BI l = match last_instr_of l with Some _ => true | None => false end.
Proof. induction l as [|x r IH]; [reflexivity|]. destruct x; cbn; auto. now destruct (last_instr_of r). Qed.

Lemma init_ok_snoc T l x : (forall i, x = BI i -> forall li, last_instr_of l = Some li -> stops T li = false) ->
  init_ok T l = true -> init_ok T (l ++ [x]) = true.
Proof.
  intros H. induction l as [|y r IH]; [now destruct x|].
  assert (H' : forall i, x = BI i -> forall li, last_instr_of r = Some li -> stops T li = false).
  { intros i E li L. apply (H i E). destruct y; cbn; auto. now rewrite L. }
  destruct y; cbn; auto. intros E. apply andb_true_iff in E. destruct E as [E1 E2]. rewrite IH by assumption.
  rewrite existsb_app. cbn. rewrite andb_true_r.
  destruct (existsb is_BI r) eqn:B; cbn; [exact E1|]. destruct (is_BI x) eqn:BX; cbn; [|reflexivity].
  destruct x; try discriminate. rewrite (H _ eq_refl i); [reflexivity|]. cbn. rewrite existsb_BI in B. now destruct (last_instr_of r).
Qed.

(** a block that is not the last one *)
Definition sealed (T : optable) (k : nat) (b : block) : Prop :=
  exists li, last_instr_of (k_items b) = Some li /\ init_ok T (k_items b) = true
    /\ k_next b = if is_final li then None else Some (S k).

Section Blocks.
  Context (T : optable) (P : pass1) (l : list bitem) (starts : list (nat * nat)).
  Hypothesis PR : proper T l.
  Hypothesis PL : forall n, dget Nat.eqb (p_labels P) n = lastidx (is_lab n) l.
  Hypothesis PE : forall n, dget Nat.eqb (p_ends P) n = lastidx (is_end n) l.
  Hypothesis ST : forall i n, dget Nat.eqb starts i = Some n -> dget Nat.eqb (p_labels P) n = Some i.

  Record blkinv (index : nat) (done : list block) (cur : list bitem) (labels : list (nat * nat)) : Prop := {
    b_sealed : forall k b, nth_error done k = Some b -> sealed T k b;
    b_init : init_ok T cur = true;
    b_labels : forall n k, dget Nat.eqb labels n = Some k -> (k <= length done)%nat
      /\ exists i, dget Nat.eqb (p_labels P) n = Some i /\ ninstrs (flat (firstn k done)) = ninstrs (firstn i l);
    b_complete : forall i n, (i < index)%nat -> dget Nat.eqb starts i = Some n -> dget Nat.eqb labels n <> None }.

  (** the last instruction of the current block stops only if it was just added *)
  Record lastinv (cur : list bitem) (lst : option instr) : Prop := {
    l_last : forall li, lst = Some li -> (exists c, cur = c ++ [BI li]) \/ last_instr_of cur = None;
    l_stop : forall li, last_instr_of cur = Some li -> stops T li = true -> lst = Some li }.

  Definition clear (cur : list bitem) : Prop := forall li, last_instr_of cur = Some li -> stops T li = false.

  Lemma cur_items_snoc done c n : cur_items (done ++ [mkBlk c n]) = c.
  Proof. unfold cur_items. now rewrite last_last. Qed.
  Lemma append_cur_snoc done c n x : append_cur (done ++ [mkBlk c n]) x = done ++ [mkBlk (c ++ [x]) n].
  Proof. unfold append_cur. now rewrite removelast_last, cur_items_snoc, last_last. Qed.
  Lemma append_old_snoc d b c x : append_old ((d ++ [b]) ++ [c]) x = (d ++ [mkBlk (k_items b ++ [x]) (k_next b)]) ++ [c].
  Proof. unfold append_old. rewrite !removelast_last, !last_last. now rewrite <- app_assoc. Qed.
  Lemma set_next_snoc done c m n : set_next_cur (done ++ [mkBlk c m]) n = done ++ [mkBlk c (Some n)].
  Proof. unfold set_next_cur. now rewrite removelast_last, cur_items_snoc. Qed.

  Lemma b_seal index done cur labels li nxt : blkinv index done cur labels -> last_instr_of cur = Some li ->
    nxt = (if is_final li then None else Some (S (length done))) ->
    blkinv index (done ++ [mkBlk cur nxt]) [] labels.
  Proof.
    intros B L N. constructor.
    - intros k b H. destruct (Nat.ltb k (length done)) eqn:Q.
      + apply Nat.ltb_lt in Q. rewrite nth_error_app1 in H by exact Q. now apply (b_sealed _ _ _ _ B).
      + apply Nat.ltb_ge in Q. rewrite nth_error_app2 in H by exact Q.
        destruct (k - length done)%nat as [|j] eqn:K; [|destruct j; discriminate]. injection H as <-.
        assert (k = length done) by lia. subst k. exists li. cbn. split; [exact L|]. split; [exact (b_init _ _ _ _ B)|exact N].
    - reflexivity.
    - intros n k D. destruct (b_labels _ _ _ _ B n k D) as [K (i & I & E)]. rewrite app_length. split; [lia|].
      exists i. split; [exact I|]. rewrite firstn_app, flat_app, ninstrs_app.
      replace (k - length done)%nat with 0%nat by lia. cbn. lia.
    - exact (b_complete _ _ _ _ B).
  Qed.

  Lemma b_set_label index done cur labels n : blkinv index done cur labels ->
    dget Nat.eqb starts index = Some n -> ninstrs (flat done) = ninstrs (firstn index l) ->
    blkinv (S index) done cur (dset Nat.eqb labels n (length done)).
  Proof.
    intros B S N. constructor; try apply B.
    - intros m k D. rewrite dg_set in D. destruct (Nat.eqb m n) eqn:Q; [|now apply (b_labels _ _ _ _ B)].
      apply Nat.eqb_eq in Q. subst m. injection D as <-. split; [lia|]. exists index.
      split; [now apply ST|]. now rewrite firstn_all.
    - intros i m I D. rewrite dg_set. destruct (Nat.eqb m n) eqn:Q; [discriminate|].
      apply (b_complete _ _ _ _ B i m); [|exact D]. assert (i <> index); [|lia]. intros ->. rewrite S in D.
      injection D as ->. rewrite Nat.eqb_refl in Q. discriminate.
  Qed.
  Lemma b_no_label index done cur labels : blkinv index done cur labels ->
    dget Nat.eqb starts index = None -> blkinv (S index) done cur labels.
  Proof.
    intros B S. constructor; try apply B. intros i m I D. apply (b_complete _ _ _ _ B i m); [|exact D].
    assert (i <> index); [|lia]. intros ->. congruence.
  Qed.

  Definition same (S : fstate) bs labels tbs fresh add active ins lst : Prop :=
    S = mkFS bs labels tbs fresh add active ins lst.

  Lemma mnb_ok pre rest done cur labels tbs fresh add active ins lst :
    l = pre ++ rest ->
    seqinv T P l (flat done ++ cur) pre tbs fresh add active ->
    blkinv (length pre) done cur labels -> lastinv cur lst ->
    exists done' cur' labels' created,
      maybe_new_block T starts (length pre) (mkFS (done ++ [mkBlk cur None]) labels tbs fresh add active ins lst)
        = Ok (mkFS (done' ++ [mkBlk cur' None]) labels' tbs fresh add active ins lst, created)
      /\ flat done' ++ cur' = flat done ++ cur
      /\ blkinv (S (length pre)) done' cur' labels'
      /\ clear cur'
      /\ (created = false -> done' = done /\ cur' = cur)
      /\ (created = true -> cur' = [] /\ (exists d b, done' = d ++ [b])
            /\ forall li, lst = Some li -> exists X, flat done' = X ++ [BI li]).
  Proof.
    intros E V B L.
    assert (NI : ninstrs (flat done ++ cur) = ninstrs pre) by (apply ninstrs_filter; exact (v_ins _ _ _ _ _ _ _ _ _ V)).
    assert (FP : firstn (length pre) l = pre) by (rewrite E, firstn_app, firstn_all, Nat.sub_diag; cbn; apply app_nil_r).
    assert (LX : forall li li', last_instr_of cur = Some li' -> lst = Some li -> exists X, flat done ++ cur = X ++ [BI li]).
    { intros li li' LI LS. destruct (l_last _ _ L li LS) as [(c & ->)|Q]; [|congruence].
      exists (flat done ++ c). now rewrite app_assoc. }
    unfold maybe_new_block. rewrite cur_items_snoc.
    destruct (dget Nat.eqb starts (length pre)) as [n|] eqn:S.
    - (* a label that is used *)
      destruct (last_instr_of cur) as [li|] eqn:LI.
      + assert (NZ : Nat.eqb (length pre) 0 = false).
        { apply Nat.eqb_neq. intros Z. destruct pre; [|discriminate]. apply last_instr_in in LI.
          assert (J : In (BI li) (filter is_instr (flat done ++ cur))).
          { apply filter_In. split; [|reflexivity]. apply in_app_iff. now right. }
          rewrite (v_ins _ _ _ _ _ _ _ _ _ V) in J. contradiction. }
        rewrite NZ.
        exists (done ++ [mkBlk cur (if is_final li then None else Some (Datatypes.S (length done)))]), [],
          (dset Nat.eqb labels n (Datatypes.S (length done))), true.
        assert (LEN : forall nx, length (done ++ [mkBlk cur nx]) = Datatypes.S (length done)) by (intros; rewrite app_length; cbn; lia).
        split.
        { unfold new_cur. destruct (is_final li); rewrite ?set_next_snoc, ?LEN; do 4 f_equal; rewrite app_length, LEN; cbn; lia. }
        assert (FL : flat (done ++ [mkBlk cur (if is_final li then None else Some (Datatypes.S (length done)))]) = flat done ++ cur).
        { rewrite flat_app. cbn. now rewrite app_nil_r. }
        split; [rewrite FL; apply app_nil_r|]. split; [|split; [intros x Q; discriminate|split; [discriminate|]]].
        * assert (X := b_set_label _ _ _ _ n (b_seal _ _ _ _ li _ B LI eq_refl) S).
          rewrite FL, NI, FP, LEN in X. exact (X eq_refl).
        * intros _. split; [reflexivity|]. split; [eauto|]. intros li' LS. rewrite FL. eauto.
      + assert (IF : (if Nat.eqb (length pre) 0 then None else @None instr) = None) by now destruct (Nat.eqb (length pre) 0).
        rewrite IF. exists done, cur, (dset Nat.eqb labels n (length done)), false.
        split; [do 4 f_equal; rewrite app_length; cbn; lia|]. split; [reflexivity|].
        split; [|split; [intros li Q; congruence|split; [auto|discriminate]]].
        apply b_set_label; [exact B|exact S|]. rewrite FP, <- NI, ninstrs_app, (last_instr_ninstrs cur LI). lia.
    - destruct (last_instr_of cur) as [li'|] eqn:LI.
      + destruct lst as [li|] eqn:LS.
        * assert (LE : li' = li).
          { destruct (l_last _ _ L li eq_refl) as [(c & ->)|Q]; [|congruence]. rewrite last_instr_snoc in LI. congruence. }
          subst li'.
          assert (FL : forall nx, flat (done ++ [mkBlk cur nx]) = flat done ++ cur).
          { intros nx. rewrite flat_app. cbn. now rewrite app_nil_r. }
          destruct (is_final li) eqn:FI.
          -- exists (done ++ [mkBlk cur None]), [], labels, true. split; [reflexivity|].
             split; [rewrite FL; apply app_nil_r|]. split; [|split; [intros x Q; discriminate|split; [discriminate|]]].
             ++ apply b_no_label; [|exact S]. eapply b_seal; [exact B|exact LI|now rewrite FI].
             ++ intros _. split; [reflexivity|]. split; [eauto|]. intros li' Q. rewrite FL. eauto.
          -- destruct (has_jump T li) eqn:HJ.
             ++ assert (FT : arg_fits T (BI li)).
                { apply (v_fits _ _ _ _ _ _ _ _ _ V). apply in_app_iff. right. now apply last_instr_in. }
                cbn in FT. rewrite HJ in FT. destruct FT as (n & FT). rewrite FT.
                exists (done ++ [mkBlk cur (Some (Datatypes.S (length done)))]), [], labels, true.
                split; [unfold new_cur; rewrite set_next_snoc, app_length; cbn; rewrite Nat.add_1_r; reflexivity|].
                split; [rewrite FL; apply app_nil_r|]. split; [|split; [intros x Q; discriminate|split; [discriminate|]]].
                ** apply b_no_label; [|exact S]. eapply b_seal; [exact B|exact LI|now rewrite FI].
                ** intros _. split; [reflexivity|]. split; [eauto|]. intros li' Q. rewrite FL. eauto.
             ++ exists done, cur, labels, false. split; [reflexivity|]. split; [reflexivity|].
                split; [now apply b_no_label|]. split; [|split; [auto|discriminate]].
                intros x Q. assert (x = li) by congruence. subst x. unfold stops. now rewrite HJ, FI.
        * exists done, cur, labels, false. split; [reflexivity|]. split; [reflexivity|].
          split; [now apply b_no_label|]. split; [|split; [auto|discriminate]].
          intros x Q. destruct (stops T x) eqn:SX; [|reflexivity]. rewrite Q in LI. injection LI as ->.
          assert (X := l_stop _ _ L li' Q SX). discriminate.
      + exists done, cur, labels, false.
        split; [destruct lst; reflexivity|]. split; [reflexivity|]. split; [now apply b_no_label|].
        split; [intros x Q; congruence|]. split; [auto|discriminate].
  Qed.

  (** a TryEnd is appended to the last complete block *)
  Lemma b_append_old index d b x cur labels : blkinv index (d ++ [b]) cur labels -> is_instr x = false ->
    blkinv index (d ++ [mkBlk (k_items b ++ [x]) (k_next b)]) cur labels.
  Proof.
    intros B X. constructor; try apply B.
    - intros k b' H. destruct (Nat.ltb k (length d)) eqn:Q.
      + apply Nat.ltb_lt in Q. rewrite nth_error_app1 in H by exact Q. apply (b_sealed _ _ _ _ B).
        now rewrite nth_error_app1.
      + apply Nat.ltb_ge in Q. rewrite nth_error_app2 in H by exact Q.
        destruct (k - length d)%nat as [|j] eqn:K; [|destruct j; discriminate]. injection H as <-.
        destruct (b_sealed _ _ _ _ B k b) as (li & L & I & N).
        { now rewrite nth_error_app2, K by exact Q. }
        exists li. cbn. rewrite last_instr_snoc. split; [destruct x; try discriminate; exact L|]. split; [|exact N].
        apply init_ok_snoc; [|exact I]. intros i ->. discriminate.
    - intros n k D. destruct (b_labels _ _ _ _ B n k D) as [K (i & I & E)]. rewrite app_length in *. cbn in K |- *. split; [exact K|].
      exists i. split; [exact I|]. rewrite <- E, !firstn_app, !flat_app, !ninstrs_app. f_equal.
      destruct (k - length d)%nat as [|j]; [reflexivity|]. cbn [firstn]. rewrite !firstn_nil. cbn [flat flat_map k_items]. rewrite !app_nil_r, ninstrs_app.
      rewrite (ninstrs_cons x []), X. cbn. lia.
  Qed.

  Lemma b_append_cur index done cur labels x : blkinv index done cur labels -> (is_instr x = false \/ clear cur) ->
    blkinv index done (cur ++ [x]) labels.
  Proof.
    intros B C. constructor; try apply B. apply init_ok_snoc; [|exact (b_init _ _ _ _ B)].
    intros i -> li L. destruct C as [C|C]; [discriminate|]. now apply C.
  Qed.

  Lemma last_tb_ok (tbs : list (nat * list nat)) a ks k : dget Nat.eqb tbs a = Some (ks ++ [k]) -> last_tb tbs a = Ok k.
  Proof.
    intros D. unfold last_tb. rewrite D. cbn. unfold last_nat. rewrite app_length. cbn.
    replace (pred (length ks + 1)) with (length ks) by lia. rewrite nth_error_app2, Nat.sub_diag by lia. reflexivity.
  Qed.

  Lemma split_try_ok pre it rest d b labels tbs fresh add active ins lst :
    l = pre ++ it :: rest ->
    seqinv T P l (flat (d ++ [b])) pre tbs fresh add active ->
    blkinv (S (length pre)) (d ++ [b]) [] labels ->
    (forall li, lst = Some li -> exists X, flat (d ++ [b]) = X ++ [BI li]) ->
    exists done' cur' tbs' fresh' add' active' ins' cont,
      split_try T P it (mkFS ((d ++ [b]) ++ [mkBlk [] None]) labels tbs fresh add active ins lst)
        = Ok (mkFS (done' ++ [mkBlk cur' None]) labels tbs' fresh' add' active' ins' lst, cont)
      /\ blkinv (S (length pre)) done' cur' labels
      /\ last_instr_of cur' = None
      /\ seqinv T P l (flat done' ++ cur') (if cont : bool then pre ++ [it] else pre) tbs' fresh' add' active'.
  Proof.
    intros E V B LX. unfold split_try.
    destruct lst as [li|].
    2:{ exists (d ++ [b]), [], tbs, fresh, add, active, false, false. split; [reflexivity|]. split; [exact B|].
        split; [reflexivity|]. now rewrite app_nil_r. }
    destruct (LX li eq_refl) as (X & FX).
    assert (SM : forall x, flat (d ++ [mkBlk (k_items b ++ [x]) (k_next b)]) = flat (d ++ [b]) ++ [x]).
    { intros x. rewrite !flat_app. cbn. now rewrite !app_nil_r, app_assoc. }
    destruct (is_final li && match it with BTE _ => true | _ => false end) eqn:C1.
    - apply andb_true_iff in C1. destruct C1 as [FI C1]. destruct it; try discriminate.
      destruct (s_end T P l PR PL PE _ _ _ _ _ _ _ id V E) as (t & la & ks & k & -> & D & V').
      cbn [fst]. rewrite (last_tb_ok _ _ _ _ D). cbn [bind]. rewrite append_old_snoc.
      exists (d ++ [mkBlk (k_items b ++ [BTE k]) (k_next b)]), [], tbs, fresh, add, None, false, true.
      split; [reflexivity|]. split; [now apply b_append_old|]. split; [reflexivity|]. rewrite app_nil_r, SM. exact V'.
    - destruct active as [((a, t), la)|] eqn:AC.
      2:{ exists (d ++ [b]), [], tbs, fresh, add, None, false, false. split; [reflexivity|]. split; [exact B|].
          split; [reflexivity|]. now rewrite app_nil_r. }
      destruct (v_cur _ _ _ _ _ _ _ _ _ V) as (ks & k & D & C).
      assert (K : exists add', (if has_jump T li && dmem Nat.eqb (p_ends P) a then
                      match i_arg li with
                      | OLabel n =>
                          i <- of_option KeyError (dget Nat.eqb (p_labels P) n) ;;
                          e <- of_option KeyError (dget Nat.eqb (p_ends P) a) ;;
                          if (e <=? i)%nat then
                            k <- last_tb tbs a ;;
                            Ok (dset Nat.eqb add n
                                  (match dget Nat.eqb add n with Some l => l | None => [] end ++ [k]))
                          else Ok add
                      | _ => Err TypeError
                      end
                    else Ok add) = Ok add'
          /\ seqinv T P l (flat (d ++ [b])) pre tbs fresh add' (Some (a, t, la))).
      { destruct (has_jump T li) eqn:HJ; [|exists add; split; [reflexivity|exact V]].
        unfold dmem. destruct (dget Nat.eqb (p_ends P) a) as [e|] eqn:PA; cbn [andb]; [|exists add; split; [reflexivity|exact V]].
        assert (JL : In (BI li) (flat (d ++ [b]))) by (rewrite FX; apply in_app_iff; right; now left).
        assert (FT := v_fits _ _ _ _ _ _ _ _ _ V _ JL). cbn in FT. rewrite HJ in FT. destruct FT as (n & FT). rewrite FT.
        assert (PN : dget Nat.eqb (p_labels P) n <> None).
        { rewrite PL. eapply lastidx_none with (x := BLabel n); [|cbn; apply Nat.eqb_refl].
          destruct (v_targets _ _ _ _ _ _ _ _ _ V (BI li) n JL) as (y & Jy & Ny); [cbn; rewrite FT; now left|].
          eapply (proper_labels _ _ PR y); [|exact Ny]. rewrite E. apply in_app_iff. now left. }
        destruct (dget Nat.eqb (p_labels P) n) as [i|] eqn:PN'; [|congruence]. cbn [of_option bind].
        destruct (e <=? i)%nat eqn:LE; [|exists add; split; [reflexivity|exact V]].
        rewrite (last_tb_ok _ _ _ _ D). cbn [bind]. eexists. split; [reflexivity|]. apply Nat.leb_le in LE.
        eapply s_add; eauto. }
      destruct K as (add' & K & V2).
      match goal with |- exists done' cur' tbs' fresh' add' active' ins' cont, bind ?m ?g = _ /\ _ =>
        replace m with (Ok add') by (symmetry; exact K) end.
      cbn [bind].
      destruct (is_final li && ins) eqn:C2.
      + rewrite (last_tb_ok _ _ _ _ D), D. cbn [bind of_option]. rewrite append_old_snoc, append_cur_snoc. cbn [app].
        eexists _, [BTB fresh t la None], _, _, add', (Some (a, t, la)), true, false. split; [reflexivity|].
        split.
        { change [BTB fresh t la None] with ([] ++ [BTB fresh t la None]). apply b_append_cur; [|now left]. now apply b_append_old. }
        split; [reflexivity|]. rewrite SM, <- app_assoc. cbn [app].
        eapply (s_split T P l PR PL PE); eauto.
      + exists (d ++ [b]), [], tbs, fresh, add', (Some (a, t, la)), false, false. split; [reflexivity|]. split; [exact B|].
        split; [reflexivity|]. now rewrite app_nil_r.
  Qed.

  Lemma add_elem_ok pre it rest done cur labels tbs fresh add active ins lst :
    l = pre ++ it :: rest ->
    seqinv T P l (flat done ++ cur) pre tbs fresh add active ->
    blkinv (S (length pre)) done cur labels -> clear cur ->
    exists cur' tbs' fresh' add' active' ins' lst',
      add_elem it (mkFS (done ++ [mkBlk cur None]) labels tbs fresh add active ins lst)
        = Ok (mkFS (done ++ [mkBlk cur' None]) labels tbs' fresh' add' active' ins' lst')
      /\ blkinv (S (length pre)) done cur' labels
      /\ lastinv cur' lst'
      /\ seqinv T P l (flat done ++ cur') (pre ++ [it]) tbs' fresh' add' active'.
  Proof.
    intros E V B C.
    assert (JI : In it l) by (rewrite E; apply in_app_iff; right; now left).
    assert (LN : forall x, is_instr x = false -> lastinv (cur ++ [x]) None).
    { intros x X. constructor; [discriminate|]. intros li L S. rewrite last_instr_snoc in L.
      assert (L' : last_instr_of cur = Some li) by (destruct x; try discriminate; exact L). rewrite (C li L') in S. discriminate. }
    destruct it as [i|n|z|id t la d|id]; cbn [add_elem].
    - rewrite append_cur_snoc. exists (cur ++ [BI i]), tbs, fresh, add, active, ins, (Some i). split; [reflexivity|].
      split; [apply b_append_cur; auto|]. split.
      + constructor.
        * intros li Q. injection Q as <-. left. eauto.
        * intros li L _. rewrite last_instr_snoc in L. congruence.
      + rewrite app_assoc. apply s_plain; [exact V|now left|]. now apply (proper_args _ _ PR).
    - exists cur, tbs, fresh, add, active, ins, None. split; [reflexivity|]. split; [exact B|]. split; [|now apply s_label].
      constructor; [discriminate|]. intros li L S. rewrite (C li L) in S. discriminate.
    - rewrite append_cur_snoc. exists (cur ++ [BSet z]), tbs, fresh, add, active, ins, None. split; [reflexivity|].
      split; [apply b_append_cur; auto|]. split; [now apply LN|]. rewrite app_assoc. apply s_plain; [exact V|eauto|exact Logic.I].
    - destruct (s_begin T P l PR _ _ _ _ _ _ _ id t la d V E) as [-> V'].
      rewrite append_cur_snoc. eexists (cur ++ [BTB fresh t la d]), _, _, add, _, true, None. split; [reflexivity|].
      split; [apply b_append_cur; auto|]. split; [now apply LN|]. rewrite app_assoc. exact V'.
    - destruct (s_end T P l PR PL PE _ _ _ _ _ _ _ id V E) as (t & la & ks & k & -> & D & V').
      rewrite (last_tb_ok _ _ _ _ D). cbn [bind]. rewrite append_cur_snoc.
      exists (cur ++ [BTE k]), tbs, fresh, add, None, false, None. split; [reflexivity|].
      split; [apply b_append_cur; auto|]. split; [now apply LN|]. rewrite app_assoc. exact V'.
  Qed.

  Lemma loop_ok rest : forall pre done cur labels tbs fresh add active ins lst,
    l = pre ++ rest ->
    seqinv T P l (flat done ++ cur) pre tbs fresh add active ->
    blkinv (length pre) done cur labels -> lastinv cur lst ->
    exists done' cur' labels' tbs' fresh' add' active' ins' lst',
      from_loop T P starts (length pre) (mkFS (done ++ [mkBlk cur None]) labels tbs fresh add active ins lst) rest
        = Ok (mkFS (done' ++ [mkBlk cur' None]) labels' tbs' fresh' add' active' ins' lst')
      /\ seqinv T P l (flat done' ++ cur') l tbs' fresh' add' active'
      /\ blkinv (length l) done' cur' labels'.
  Proof.
    induction rest as [|it rest IH]; intros pre done cur labels tbs fresh add active ins lst E V B L.
    { rewrite app_nil_r in E. subst pre. exists done, cur, labels, tbs, fresh, add, active, ins, lst. auto. }
    cbn [from_loop].
    destruct (mnb_ok pre (it :: rest) done cur labels tbs fresh add active ins lst E V B L)
      as (done1 & cur1 & labels1 & created & E1 & F1 & B1 & C1 & CF & CT).
    rewrite E1. cbn [bind].
    assert (V1 : seqinv T P l (flat done1 ++ cur1) pre tbs fresh add active) by (rewrite F1; exact V).
    assert (LP : length (pre ++ [it]) = S (length pre)) by (rewrite app_length; cbn; lia).
    assert (EP : l = (pre ++ [it]) ++ rest) by (rewrite <- app_assoc; exact E).
    destruct created.
    - destruct (CT eq_refl) as (-> & (d & b & ->) & X). rewrite app_nil_r in V1.
      destruct (split_try_ok pre it rest d b labels1 tbs fresh add active ins lst E V1 B1 X)
        as (done2 & cur2 & tbs2 & fresh2 & add2 & active2 & ins2 & cont & E2 & B2 & L2 & V2).
      rewrite E2. cbn [bind]. destruct cont.
      + cbn [bind]. rewrite <- LP. apply IH; auto; [now rewrite LP|].
        constructor; [intros li _; now right|]. intros li Q. congruence.
      + destruct (add_elem_ok pre it rest done2 cur2 labels1 tbs2 fresh2 add2 active2 ins2 lst E V2 B2) as
          (cur3 & tbs3 & fresh3 & add3 & active3 & ins3 & lst3 & E3 & B3 & L3 & V3).
        { intros li Q. congruence. }
        rewrite E3. cbn [bind]. rewrite <- LP. apply IH; auto. now rewrite LP.
    - destruct (CF eq_refl) as [-> ->].
      destruct (add_elem_ok pre it rest done cur labels1 tbs fresh add active ins lst E V1 B1 C1) as
          (cur3 & tbs3 & fresh3 & add3 & active3 & ins3 & lst3 & E3 & B3 & L3 & V3).
      cbn [bind]. rewrite E3. cbn [bind]. rewrite <- LP. apply IH; auto. now rewrite LP.
  Qed.
End Blocks.
