(** Assembly depends only on the program (C69). *)
From Verif Require Import PyBase OpTable P_Base M_Instr M_Tables M_Concrete M_Convert S_Args S_Asm S_Prog S_Ident P_Conv P_Conv2 P_CfgTo2.
Open Scope string_scope.
Open Scope list_scope.
Open Scope Z_scope.

(** The state of the converter but for labels, jumps, try blocks and the location in force *)
Definition core (K : conv) := (k_instrs K, k_req K, k_manual K, k_consts K, k_names K, k_varnames K, k_cells K, k_frees K).

Section Only.
  Variables (v : pyver) (T : optable) (keq : pyobj -> pyobj -> bool) (m : meta).

  Definition fl (K : conv) : conv := match flush_caches v T K None with Ok K' => K' | Err _ => K end.

  Lemma flush_core K C K' : core K = core C -> flush_caches v T K None = Ok K' ->
    exists C', flush_caches v T C None = Ok C' /\ core K' = core C' /\ k_jumps C' = k_jumps C /\ k_labels C' = k_labels C /\ k_loc C' = k_loc C /\ k_req C' = 0.
  Proof.
    destruct K as [ins jumps labels ex req manual co na va lo ce fr tr], C as [ins' jumps' labels' ex' req' manual' co' na' va' lo' ce' fr' tr'].
    unfold core. cbn [k_instrs k_req k_manual k_consts k_names k_varnames k_cells k_frees]. intros E. injection E as -> -> -> -> -> -> -> ->.
    cbn [flush_caches is_cache]. destruct (req' =? 0) eqn:R.
    - intros X. injection X as <-. eexists. split; [reflexivity|]. repeat split. cbn. now apply Z.eqb_eq.
    - destruct manual'; [discriminate|]. intros X. apply bind_ok in X. destruct X as (la & L & X). rewrite L. cbn [bind].
      apply bind_ok in X. destruct X as (c & Q & X). rewrite Q. cbn [bind]. injection X as <-. eexists. split; [reflexivity|]. repeat split.
  Qed.

  Lemma core_self K : core K = core K. Proof. reflexivity. Qed.
  Lemma flush_idem K : k_req K = 0 -> flush_caches v T K None = Ok K.
  Proof. destruct K. cbn. now intros ->. Qed.

  Lemma with_try_core K tr : core (mkK (k_instrs K) (k_jumps K) (k_labels K) (k_ex K) (k_req K) (k_manual K) (k_consts K) (k_names K)
     (k_varnames K) (k_loc K) (k_cells K) (k_frees K) tr) = core K.
  Proof. reflexivity. Qed.

  Lemma item_flush K it K' : conv_item v T keq m K it = Ok K' -> is_cache (Some it) = false ->
    exists K0 K1, flush_caches v T K None = Ok K0 /\ core K1 = core K0 /\ k_jumps K1 = k_jumps K /\ k_labels K1 = k_labels K
      /\ k_loc K1 = k_loc K /\ k_req K1 = 0 /\ conv_body v T keq m K1 it = Ok K'.
  Proof.
    intros E NC. unfold conv_item in E. apply bind_ok in E. destruct E as (tr & _ & E).
    destruct K as [ins jumps labels ex req manual co na va lo ce fr tr0]. apply bind_ok in E. destruct E as (K1 & F & E).
    assert (F' : flush_caches v T (mkK ins jumps labels ex req manual co na va lo ce fr tr) None = Ok K1).
    { rewrite <- F. unfold flush_caches. rewrite NC. reflexivity. }
    set (Kt := mkK ins jumps labels ex req manual co na va lo ce fr tr) in *. set (Ks := mkK ins jumps labels ex req manual co na va lo ce fr tr0) in *.
    destruct (flush_core Kt Ks K1 eq_refl F') as (K0 & E0 & C0 & _).
    destruct (flush_core Kt Kt K1 eq_refl F') as (K2 & E2 & _ & J & L & LO & R). assert (K2 = K1) by congruence. subst K2.
    exists K0, K1. repeat split; auto.
  Qed.

  (** an instruction converted in two states with the same core *)
  Definition same_code (lo : loc) (i j : instr) : Prop :=
    i_name j = i_name i /\ i_op j = i_op i /\ i_loc j = Some lo
    /\ match i_arg i with OLabel _ => exists n, i_arg j = OLabel n | a => i_arg j = a end.
  Definition jump_of (N : nat) (i : instr) : list (nat * nat) := match i_arg i with OLabel l => [(N, l)] | _ => [] end.

  Lemma encode_core K C i j lo : core K = core C -> same_code lo i j -> encode_arg v T keq m C j = encode_arg v T keq m K i.
  Proof.
    destruct K as [ins jumps labels ex req manual co na va lo1 ce fr tr], C as [ins' jumps' labels' ex' req' manual' co' na' va' lo' ce' fr' tr'].
    unfold core. cbn [k_instrs k_req k_manual k_consts k_names k_varnames k_cells k_frees]. intros E. injection E as -> -> -> -> -> -> -> ->.
    destruct i as [n o a l], j as [n' o' a' l']. unfold same_code. cbn [i_name i_op i_loc i_arg]. intros (-> & -> & _ & A).
    destruct a; try (subst a'; reflexivity). destruct A as (k & ->). reflexivity.
  Qed.

  Lemma body_core K C i j K' lo : core K = core C -> lo = match i_loc i with Some l => l | None => k_loc K end -> same_code lo i j ->
    conv_body v T keq m K (BI i) = Ok K' ->
    exists C' N, conv_body v T keq m C (BI j) = Ok C' /\ core K' = core C' /\ k_loc K' = lo /\ k_labels K' = k_labels K
      /\ k_jumps K' = k_jumps K ++ jump_of N i /\ k_jumps C' = k_jumps C ++ jump_of N j.
  Proof.
    intros CO LO SC E. assert (EN := encode_core K C i j lo CO SC).
    destruct K as [ins jumps labels ex req manual co na va lo1 ce fr tr], C as [ins' jumps' labels' ex' req' manual' co' na' va' lo' ce' fr' tr'].
    unfold core in CO. cbn [k_instrs k_req k_manual k_consts k_names k_varnames k_cells k_frees] in CO. injection CO as -> -> -> -> -> -> -> ->.
    destruct SC as (_ & _ & LJ & A). cbn [k_loc] in LO. unfold conv_body in *. rewrite EN. clear EN.
    apply bind_ok in E. destruct E as ([[[[[[co1 na1] va1] first] name] arg] kind] & E1 & E). rewrite E1. cbn [bind]. rewrite LJ, <- LO in *.
    apply bind_ok in E. destruct E as ([ins1 pos] & E2 & E). rewrite E2. cbn [bind].
    apply bind_ok in E. destruct E as (c & E3 & E). rewrite E3. cbn [bind]. injection E as <-.
    exists (mkK (ins1 ++ [c]) (jumps' ++ jump_of (length ins1) j) labels' ex' (if PY311 v then use_cache_opcodes v T c else req')
       (if PY311 v then false else manual') co1 na1 va1 lo
       (match kind with VCell => ce' ++ [pos] | _ => ce' end) (match kind with VFree => fr' ++ [pos] | _ => fr' end) tr'), (length ins1).
    split; [|split; [|split; [|split; [|split]]]]; try reflexivity.
    - unfold jump_of. destruct (i_arg j); rewrite ?app_nil_r; reflexivity.
    - cbn. unfold jump_of. destruct (i_arg i); rewrite ?app_nil_r; reflexivity.
  Qed.

  (** The list with only the instructions of a program: every instruction has a location, labels
      are numbered by the place they stand at *)
  Definition code (k : option nat) : nat := match k with Some n => Datatypes.S n | None => 0%nat end.
  Definition canon1 (x : string * parg * loc * option handler) : bitem :=
    let '(n, a, l, _) := x in
    BI (mkInstr n (match opmap T n with Some o => o | None => 0 end) (match a with PTo k => OLabel (code k) | PObj o => o end) (Some l)).

  (** the elements as a listing, with the location in force; handlers left out *)
  Fixpoint listing (pos : nat -> option nat) (cur : loc) (l : list bitem) : list (string * parg * loc * option handler) :=
    match l with
    | [] => []
    | BI i :: r => let cur := match i_loc i with Some l => l | None => cur end in (i_name i, arg_of pos (i_arg i), cur, None) :: listing pos cur r
    | BSet z :: r => listing pos (line_loc (Some z)) r
    | _ :: r => listing pos cur r
    end.
  Fixpoint force (cur : loc) (l : list bitem) : loc :=
    match l with
    | [] => cur
    | BI i :: r => force (match i_loc i with Some l => l | None => cur end) r
    | BSet z :: r => force (line_loc (Some z)) r
    | _ :: r => force cur r
    end.
  Lemma listing_app pos a : forall cur b, listing pos cur (a ++ b) = listing pos cur a ++ listing pos (force cur a) b.
  Proof. induction a as [|x r IH]; intros cur b; [reflexivity|]. destruct x; cbn; rewrite ?IH; reflexivity. Qed.
  Lemma force_app a : forall cur b, force cur (a ++ b) = force (force cur a) b.
  Proof. induction a as [|x r IH]; intros cur b; [reflexivity|]. destruct x; cbn; auto. Qed.
  Lemma listing_length pos l : forall cur, length (listing pos cur l) = ninstrs l.
  Proof.
    induction l as [|x r IH]; intros cur; [reflexivity|]. destruct x; cbn [listing length]; rewrite IH; reflexivity.
  Qed.

  Lemma canon_same i pos cur : opmap T (i_name i) = Some (i_op i) -> (forall n, i_arg i <> OBlock n) \/ True ->
    exists j, canon1 (i_name i, arg_of pos (i_arg i), cur, None) = BI j /\ same_code cur i j /\ jump_of 0 j = map (fun p => (0%nat, code (pos (snd p)))) (jump_of 0 i).
  Proof.
    intros O _. unfold canon1. rewrite O. eexists. split; [reflexivity|]. split.
    - repeat split. cbn [i_arg]. destruct (i_arg i); cbn; eauto.
    - unfold jump_of. destruct (i_arg i); reflexivity.
  Qed.

  Lemma run_canon pos K0 C0 cur : core K0 = core C0 -> k_loc K0 = cur -> k_jumps C0 = map (fun p => (fst p, code (pos (snd p)))) (k_jumps K0) ->
    forall items K, no_cache items -> (forall i, In (BI i) items -> opmap T (i_name i) = Some (i_op i)) ->
    foldM (conv_item v T keq m) items K0 = Ok K ->
    exists C, foldM (conv_item v T keq m) (map canon1 (listing pos cur items)) C0 = Ok C
      /\ (core K = core C \/ exists C1, flush_caches v T C None = Ok C1 /\ core K = core C1)
      /\ k_loc K = force cur items /\ k_jumps C = map (fun p => (fst p, code (pos (snd p)))) (k_jumps K).
  Proof.
    intros HC HL HJ items. induction items as [|x items IH] using rev_ind; intros K NC LG E.
    - injection E as <-. exists C0. repeat split; auto.
    - rewrite foldM_app in E. apply bind_ok in E. destruct E as (K1 & E1 & E). cbn [foldM] in E.
      apply bind_ok in E. destruct E as (K' & E & X). injection X as ->.
      destruct (IH K1) as (C & EC & CO & LO & JU); [intros i J; apply NC, in_or_app; auto|intros i J; apply LG, in_or_app; auto|exact E1|].
      assert (NX : is_cache (Some x) = false).
      { destruct x; try reflexivity. cbn. apply String.eqb_neq. apply NC, in_or_app. right. now left. }
      destruct (item_flush _ _ _ E NX) as (Kf & Kt & F & CT & JT & LT & OT & RT & B).
      (* flushed states agree *)
      assert (FC : exists C1, flush_caches v T C None = Ok C1 /\ core Kt = core C1 /\ k_jumps C1 = k_jumps C).
      { destruct CO as [CO|(C1 & FC & CO)].
        - destruct (flush_core _ _ _ CO F) as (C1 & A1 & A2 & A3 & _). exists C1. split; [exact A1|]. split; congruence.
        - destruct (flush_core _ _ _ CO F) as (C2 & A1 & A2 & _).
          destruct (flush_core _ _ _ (core_self C) FC) as (C3 & A5 & _ & J3 & _ & _ & R3). assert (C3 = C1) by congruence. subst C3.
          rewrite (flush_idem _ R3) in A1. injection A1 as <-. exists C1. split; [exact FC|]. split; congruence. }
      destruct FC as (C1 & FC & CC & JC).
      rewrite listing_app, map_app, force_app, foldM_app, EC. cbn [bind].
      destruct x as [i|n|z|id t la d|id].
      + cbn [listing map foldM force]. set (lo := match i_loc i with Some l => l | None => force cur items end).
        destruct (canon_same i pos lo) as (j & -> & SC & JJ); [apply LG, in_or_app; right; now left|now right|].
        assert (LQ : lo = match i_loc i with Some l => l | None => k_loc Kt end) by (rewrite OT, LO; reflexivity).
        unfold conv_item at 1. cbn [iter_check bind].
        destruct C as [ins jumps labels ex req manual co na va lo1 ce fr tr] eqn:QC. cbn [k_try]. rewrite <- QC in *.
        assert (FJ : flush_caches v T C (Some (BI j)) = Ok C1).
        { rewrite <- FC. unfold flush_caches. cbn [is_cache]. destruct SC as (-> & _). cbn [is_cache] in NX. rewrite NX. reflexivity. }
        rewrite FJ. cbn [bind].
        destruct (body_core Kt C1 i j K lo CC LQ SC B) as (C' & N & B' & CO' & LO' & _ & JK & JC').
        rewrite B'. cbn [bind]. exists C'. split; [reflexivity|]. split; [now left|]. split; [exact LO'|].
        rewrite JC', JK, JC, JT, JU, map_app. f_equal. clear - JJ. unfold jump_of in *. destruct (i_arg i), (i_arg j); cbn in *; congruence.
      + cbn [listing map foldM force]. exists C. split; [reflexivity|].
        destruct Kt as [ins jumps labels ex req manual co na va lo1 ce fr tr]. cbn in B. injection B as <-.
        split; [right; exists C1; split; [exact FC|exact CC]|]. cbn in *. split; [congruence|congruence].
      + cbn [listing map foldM force]. exists C. split; [reflexivity|].
        destruct Kt as [ins jumps labels ex req manual co na va lo1 ce fr tr]. cbn in B. injection B as <-.
        split; [right; exists C1; split; [exact FC|exact CC]|]. cbn in *. split; [congruence|congruence].
      + cbn [listing map foldM force]. exists C. split; [reflexivity|].
        destruct Kt as [ins jumps labels ex req manual co na va lo1 ce fr tr]. cbn in B. apply bind_ok in B. destruct B as (dd & _ & B). injection B as <-.
        split; [right; exists C1; split; [exact FC|exact CC]|]. cbn in *. split; [congruence|congruence].
      + cbn [listing map foldM force]. exists C. split; [reflexivity|].
        destruct Kt as [ins jumps labels ex req manual co na va lo1 ce fr tr]. cbn in B. apply bind_ok in B. destruct B as (e & _ & B). injection B as <-.
        split; [right; exists C1; split; [exact FC|exact CC]|]. cbn in *. split; [congruence|congruence].
  Qed.

  (** where the concrete instruction comes that is preceded by the first [k] of [l] *)
  Definition place (C0 : conv) (l : list bitem) (k : nat) : nat :=
    match foldM (conv_item v T keq m) (firstn k l) C0 with Ok C => length (k_instrs (fl C)) | Err _ => 0%nat end.

  Lemma run_labels pos K0 C0 cur full : core K0 = core C0 -> k_loc K0 = cur -> k_jumps C0 = map (fun p => (fst p, code (pos (snd p)))) (k_jumps K0) ->
    k_labels K0 = [] -> no_cache full -> (forall i, In (BI i) full -> opmap T (i_name i) = Some (i_op i)) ->
    forall items post K, full = items ++ post -> foldM (conv_item v T keq m) items K0 = Ok K ->
    forall n, dget Nat.eqb (k_labels K) n = option_map (place C0 (map canon1 (listing pos cur full))) (position items n).
  Proof.
    intros HC HL HJ HE NC LG items. induction items as [|x items IH] using rev_ind; intros post K FU E n.
    - injection E as <-. rewrite HE. reflexivity.
    - rewrite foldM_app in E. apply bind_ok in E. destruct E as (K1 & E1 & E). cbn [foldM] in E.
      apply bind_ok in E. destruct E as (K' & E & X). injection X as ->. rewrite <- app_assoc in FU.
      specialize (IH _ _ FU E1 n).
      assert (IN : forall y, In y (items ++ [x]) -> In y full) by (intros y J; rewrite FU; apply in_or_app; apply in_app_or in J; destruct J as [J|[<-|[]]]; [now left|right; now left]).
      destruct (run_canon pos K0 C0 cur HC HL HJ items K1) as (C & EC & CO & LO & JU); [intros i J; apply NC, IN, in_or_app; auto|intros i J; apply LG, IN, in_or_app; auto|exact E1|].
      assert (NX : is_cache (Some x) = false).
      { destruct x; try reflexivity. cbn. apply String.eqb_neq. apply NC, IN, in_or_app. right. now left. }
      destruct (item_flush _ _ _ E NX) as (Kf & Kt & F & CT & JT & LT & OT & RT & B).
      rewrite position_app.
      assert (NO : k_labels K = k_labels Kt -> position [x] n = None -> dget Nat.eqb (k_labels K) n = option_map (place C0 (map canon1 (listing pos cur full)))
         match position [x] n with Some k => Some (ninstrs items + k)%nat | None => position items n end).
      { intros Q P. rewrite P, Q, LT. exact IH. }
      destruct x as [i|l|z|id t la d|id].
      + apply NO; [|reflexivity].
        destruct (canon_same i pos (match i_loc i with Some l => l | None => k_loc Kt end)) as (j & _ & SC & _); [apply LG, IN, in_or_app; right; now left|now right|].
        destruct (body_core Kt Kt i j K _ eq_refl eq_refl SC B) as (_ & _ & _ & _ & _ & Q & _). exact Q.
      + assert (FC : exists C1, flush_caches v T C None = Ok C1 /\ core Kt = core C1).
        { destruct CO as [CO|(C1 & FC & CO)].
          - destruct (flush_core _ _ _ CO F) as (C1 & A1 & A2 & A3 & _). exists C1. split; [exact A1|]. congruence.
          - destruct (flush_core _ _ _ CO F) as (C2 & A1 & A2 & _).
            destruct (flush_core _ _ _ (core_self C) FC) as (C3 & A5 & _ & J3 & _ & _ & R3). assert (C3 = C1) by congruence. subst C3.
            rewrite (flush_idem _ R3) in A1. injection A1 as <-. exists C1. split; [exact FC|]. congruence. }
        destruct FC as (C1 & FC & CC).
        destruct Kt as [ins jumps labels ex req manual co na va lo1 ce fr tr]. cbn in B. injection B as <-. cbn [k_labels] in *. subst labels.
        rewrite dget_dset. cbn [position]. destruct (Nat.eqb n l) eqn:Q.
        * cbn [option_map]. f_equal. unfold place. 
          replace (firstn (ninstrs items + 0) (map canon1 (listing pos cur full))) with (map canon1 (listing pos cur items)).
          -- rewrite EC. unfold fl. rewrite FC. unfold core in CC. injection CC as -> _ _ _ _ _ _ _. reflexivity.
          -- rewrite FU, listing_app, map_app, firstn_app, map_length, listing_length, firstn_all2 by (rewrite map_length, listing_length; lia).
             replace (ninstrs items + 0 - ninstrs items)%nat with 0%nat by lia. cbn. now rewrite app_nil_r.
        * exact IH.
      + apply NO; [|reflexivity]. destruct Kt. cbn in B. now injection B as <-.
      + apply NO; [|reflexivity]. destruct Kt. cbn in B. apply bind_ok in B. destruct B as (? & _ & B). now injection B as <-.
      + apply NO; [|reflexivity]. destruct Kt. cbn in B. apply bind_ok in B. destruct B as (? & _ & B). now injection B as <-.
  Qed.

  (** ** The names of paired instructions *)
  Definition prescan_names (st : list string) (it : bitem) : res (list string) :=
    r <- prescan_item v T (st, false) it ;; Ok (fst r).
  Lemma prescan_canon pos items : (forall i, In (BI i) items -> opmap T (i_name i) = Some (i_op i)) ->
    forall st cur r, foldM (prescan_item v T) items st = Ok r ->
    exists s2, foldM (prescan_item v T) (map canon1 (listing pos cur items)) (fst st, false) = Ok (fst r, s2).
  Proof.
    induction items as [|x items IH]; intros LG [names seen] cur r E.
    - injection E as <-. now exists false.
    - cbn [foldM] in E. apply bind_ok in E. destruct E as ([n1 s1] & E1 & E).
      assert (LG' : forall i, In (BI i) items -> opmap T (i_name i) = Some (i_op i)) by (intros; apply LG; now right).
      unfold prescan_item in E1. apply bind_ok in E1. destruct E1 as (sn & ES & E1).
      destruct x as [i|l|z|id t la d|id].
      2-5: injection E1 as <- <-; cbn [listing]; exact (IH LG' _ _ _ E).
      cbn [listing map foldM]. set (lo := match i_loc i with Some l => l | None => cur end).
      destruct (canon_same i pos lo) as (j & -> & SC & _); [apply LG; now left|now right|].
      destruct SC as (_ & OJ & _ & AJ). unfold prescan_item at 1. cbn [iter_check bind fst]. rewrite OJ.
      destruct (is_dual v T (i_op i)).
      + destruct (i_arg i) eqn:AI; try discriminate E1. rewrite AJ. apply bind_ok in E1. destruct E1 as (nm & E2 & E3). injection E3 as <- <-.
        cbn [fst]. rewrite E2. cbn [bind]. exact (IH LG' _ lo _ E).
      + injection E1 as <- <-. exact (IH LG' _ lo _ E).
  Qed.

  (** ** Jumps *)
  Lemma fold_jumps labels1 labels2 offs jumps1 jumps2 :
    Forall2 (fun p q => fst p = fst q /\ dget Nat.eqb labels1 (snd p) = dget Nat.eqb labels2 (snd q)) jumps1 jumps2 -> forall st,
    foldM (fix_jump v T labels1 offs) jumps1 st = foldM (fix_jump v T labels2 offs) jumps2 st.
  Proof.
    induction 1 as [|[a1 a2] [b1 b2] r r' [H1 H2] F IH]; intros [ins md]; [reflexivity|]. cbn [fst snd] in *. subst b1.
    cbn [foldM]. unfold fix_jump at 1 3. rewrite H2.
    assert (X : forall (q q' : res (list cinstr * bool)), q = q' -> bind q (fun a' => foldM (fix_jump v T labels1 offs) r a') = bind q' (fun a' => foldM (fix_jump v T labels2 offs) r' a')).
    { intros q q' ->. destruct q' as [a'|e]; [apply IH|reflexivity]. }
    apply X. reflexivity.
  Qed.
  Lemma jumps_same labels1 labels2 jumps1 jumps2 ex1 ex2 :
    Forall2 (fun p q => fst p = fst q /\ dget Nat.eqb labels1 (snd p) = dget Nat.eqb labels2 (snd q)) jumps1 jumps2 ->
    forall passes1 passes2 ins r1 e1 r2 e2, compute_jumps v T labels1 jumps1 ex1 passes1 ins = Ok (r1, e1) ->
    compute_jumps v T labels2 jumps2 ex2 passes2 ins = Ok (r2, e2) -> r1 = r2.
  Proof.
    intros F. induction passes1 as [|p IH]; intros [|p2] ins r1 e1 r2 e2; try discriminate. cbn [compute_jumps].
    unfold jump_pass. rewrite (fold_jumps _ _ _ _ _ F).
    destruct (foldM _ jumps2 (ins, false)) as [[ins' md]|]; [|discriminate]. cbn [bind]. destruct md; [apply IH|].
    intros A B. apply bind_ok in A. destruct A as (? & _ & A). apply bind_ok in B. destruct B as (? & _ & B). congruence.
  Qed.

  Lemma fix_vars_core K C : core K = core C -> fix_vars v T m K = fix_vars v T m C.
  Proof.
    unfold core. intros E. injection E as E1 _ _ _ _ E2 E3 E4. unfold fix_vars. rewrite E1, E2, E3, E4. reflexivity.
  Qed.
End Only.
