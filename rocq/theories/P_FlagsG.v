(** Flag inference on a graph is flag inference on its elements one after the other. *)
From Verif Require Import PyBase OpTable CPy P_Base P_OpTable M_Instr M_Tables M_Concrete M_Convert M_Bytecode M_Cfg M_Stack M_Flags M_Equal M_FlagsG
  S_Args S_Flags S_Cfg S_Equal P_Instr P_Flags P_Flags2 P_Equal.
Open Scope string_scope.
Open Scope list_scope.
Open Scope Z_scope.

(** no jump is called RESUME *)
Definition resume_stays (T : optable) : Prop := forall op, opmap T "RESUME" = Some op -> ~ jumps T op.
(** the elements of a graph as a list *)
Definition unrolled (T : optable) (g : cfg) : bytecode := mkB (g_meta g) (g_argnames g) (concat (elements T g)).
Definition try_mark (it : bitem) : bool := match it with BTB _ _ _ _ | BTE _ => true | _ => false end.

Lemma jump_has_arg v T : wf_optable v T = true -> forall n op, opmap T n = Some op -> op < t_min_instrumented T ->
  z_mem op (t_hasjrel T) || z_mem op (t_hasjabs T) = true -> opcode_has_argument v T op = true.
Proof. intros wf n op NM LT J. apply (cat_arg v T wf n op NM LT 0%nat). exact J. Qed.

Section G.
  Variables (v : pyver) (T : optable).

  Definition frel (x y : fitem) : Prop :=
    x = y \/ exists n op a b, x = FInstr n op a /\ y = FInstr n op b /\ n <> "RESUME" /\ dual_cell a = false /\ dual_cell b = false
      /\ is_cell_or_free a = false /\ is_cell_or_free b = false.

  Lemma next_rel l m : Forall2 frel l m ->
    match next_real l, next_real m with
    | Ok (x, r), Ok (y, s) => frel x y /\ Forall2 frel r s
    | Err e, Err e' => e = e'
    | _, _ => False
    end.
  Proof.
    induction 1 as [|x y l m XY F IH]; [reflexivity|]. destruct XY as [->|(n & op & a & b & -> & -> & Q)].
    - destruct y; cbn [next_real]; auto; split; auto; now left.
    - cbn [next_real]. split; [right; exists n, op, a, b; auto|exact F].
  Qed.
  Lemma loop_rel c fuel : forall l m s, Forall2 frel l m -> infer_loop v T c fuel l s = infer_loop v T c fuel m s.
  Proof.
    induction fuel as [|fuel IH]; intros l m s F; [reflexivity|]. inversion F as [|x y l' m' XY F']; subst; [reflexivity|].
    assert (NX : forall (o : fstate -> res fstate) s1 s2,
      (bind (next_real l') (fun '(ni, l'') => match ni with
            | FInstr n _ a => _ <- guard (String.eqb n "RESUME") AssertionError ;; z <- of_option TypeError (as_int a) ;;
                if Z.land z 3 =? 3 then infer_loop v T c fuel l'' s1 else infer_loop v T c fuel l'' s2
            | _ => Err AttributeError end))
      = (bind (next_real m') (fun '(ni, l'') => match ni with
            | FInstr n _ a => _ <- guard (String.eqb n "RESUME") AssertionError ;; z <- of_option TypeError (as_int a) ;;
                if Z.land z 3 =? 3 then infer_loop v T c fuel l'' s1 else infer_loop v T c fuel l'' s2
            | _ => Err AttributeError end))).
    { intros o s1 s2. pose proof (next_rel _ _ F') as N. destruct (next_real l') as [[x' r]|e], (next_real m') as [[y' r']|e']; try contradiction; [|now subst].
      destruct N as [XY' FR]. cbn [bind]. destruct XY' as [->|(n & op & a & b & -> & -> & NR & _)].
      - destruct y'; auto. destruct (guard _ _); cbn [bind]; auto. destruct (of_option _ _); cbn [bind]; auto. now rewrite !(IH _ _ _ FR).
      - unfold guard. destruct (String.eqb_spec n "RESUME"); [contradiction|reflexivity]. }
    destruct XY as [->|(n & op & a & b & -> & -> & NR & D1 & D2 & C1 & C2)].
    - destruct y as [| |e|n op a]; cbn [infer_loop]; auto. destruct s as [o fr asy gen pos].
      rewrite !(IH _ _ _ F'). rewrite (NX (fun s => Ok s)). reflexivity.
    - cbn [infer_loop]. destruct s as [o fr asy gen pos]. rewrite !(IH _ _ _ F'). rewrite (NX (fun s => Ok s)). rewrite D1, D2, C1, C2. reflexivity.
  Qed.

  Lemma flat_named g l : forall tbs out tbs', block_flat v T g tbs l = Ok (out, tbs') -> forall c, In (GJump c) out -> opmap T (c_name c) = Some (c_op c).
  Proof.
    induction l as [|it r IH]; intros tbs out tbs' E c I; cbn [block_flat] in E.
    { injection E as <- <-. destruct I. }
    apply bind_ok in E. destruct E as (u & _ & E). destruct it as [i|n|z|id t la d|id].
    - destruct (has_jump T i || is_final i) eqn:HF.
      + apply bind_ok in E. destruct E as (f & E1 & E). apply bind_ok in E. destruct E as (te & E2 & E). injection E as <- <-. destruct I as [->|I].
        * destruct (has_jump T i); [|discriminate E1]. apply bind_ok in E1. destruct E1 as (n & En & E1). apply bind_ok in E1. destruct E1 as (x & Ex & E1). apply bind_ok in E1. destruct E1 as (d & Ed & E1). injection E1 as ->.
          unfold new_cinstr in Ed. apply bind_ok in Ed. destruct Ed as (op & O & Ed). apply bind_ok in Ed. destruct Ed as (? & _ & Ed). injection Ed as <-. cbn.
          unfold resolve_name in O. destruct (opmap T (i_name i)); [|discriminate]. destruct (_ <=? _); congruence.
        * exfalso. destruct (trailing_end r); [apply bind_ok in E2; destruct E2 as (k & _ & E2)|]; injection E2 as <-; cbn in I; intuition discriminate.
      + apply bind_ok in E. destruct E as ([o t] & E1 & E). injection E as <- <-. destruct I as [I|I]; [discriminate|eauto].
    - discriminate E.
    - apply bind_ok in E. destruct E as ([o t] & E1 & E). injection E as <- <-. destruct I as [I|I]; [discriminate|eauto].
    - apply bind_ok in E. destruct E as (k & Ek & E). apply bind_ok in E. destruct E as (n & En & E). apply bind_ok in E. destruct E as (x & Ex & E).
      apply bind_ok in E. destruct E as ([o t'] & E1 & E). injection E as <- <-. destruct I as [I|I]; [discriminate|eauto].
    - apply bind_ok in E. destruct E as (k & Ek & E). apply bind_ok in E. destruct E as ([o t'] & E1 & E). injection E as <- <-. destruct I as [I|I]; [discriminate|eauto].
  Qed.
  Lemma flats_named g order : forall tbs out, blocks_flat v T g tbs order = Ok out -> forall c, In (GJump c) out -> opmap T (c_name c) = Some (c_op c).
  Proof.
    induction order as [|n r IH]; intros tbs out E c I; cbn [blocks_flat] in E. { injection E as <-. destruct I. }
    apply bind_ok in E. destruct E as ([o1 tbs'] & E1 & E). apply bind_ok in E. destruct E as (o2 & E2 & E). injection E as <-.
    apply in_app_or in I. destruct I; [eapply flat_named; eauto|eauto].
  Qed.

  Lemma fitems_plain l : forallb (fun it => negb (try_mark it)) l = true -> forall seen,
    fitems seen l = map (fun it => match it with BI i => FInstr (i_name i) (i_op i) (i_arg i) | _ => FPseudo end) l.
  Proof.
    induction l as [|it l IH]; intros H seen; [reflexivity|]. cbn in H. apply andb_true_iff in H. destruct H as [H1 H2].
    destruct it; cbn in *; try discriminate H1; now rewrite IH.
  Qed.

  Lemma graph_bytecode g ia : (forall i, In (BI i) (concat (elements T g)) -> opmap T (i_name i) = Some (i_op i)) -> resume_stays T ->
    (forall it, In it (concat (elements T g)) -> try_mark it = false) ->
    (exists x, get_instructions v T g = Ok x) ->
    infer_flags_graph v T g ia = infer v T (Abstract (unrolled T g)) ia.
  Proof.
    intros N RS NT (x & EX). unfold infer_flags_graph. rewrite EX. cbn [bind]. cbn [infer]. unfold infer_flags_bytecode. cbn [unrolled b_meta b_items].
    rewrite fitems_plain by (apply forallb_forall; intros it I; rewrite (NT it I); reflexivity).
    unfold infer_flags. assert (F : Forall2 frel (map fitem_of_gflat x) (map (fun it => match it with BI i => FInstr (i_name i) (i_op i) (i_arg i) | _ => FPseudo end) (concat (elements T g)))).
    { unfold get_instructions in EX. assert (S0 : sane []) by apply sane_nil. pose proof (blocks_flat_spec v T (fun _ _ => true) g (g_order g) [] x S0 EX) as F. cbv zeta in F.
      change (concat (map (fun n => live T (k_items (blk g n))) (g_order g))) with (concat (elements T g)) in F.
      pose proof (flats_named g _ _ _ EX) as NJ. clear EX. revert N NT NJ F. generalize (numbers [] (concat (elements T g))). generalize (concat (elements T g)). intros es tb N NT NJ F.
      induction F as [|it f es x R F IH]; [constructor|]. cbn [map]. constructor.
      - pose proof (NT it (or_introl eq_refl)) as NM. destruct it as [i| | | |]; cbn in NM; try discriminate NM; destruct f; cbn in R; try contradiction.
        + destruct R as [-> _]. now left.
        + destruct R as (HJ & NM' & _ & n & z & A & _ & CA). right. assert (O : c_op c = i_op i).
          { pose proof (NJ c (or_introl eq_refl)) as O. rewrite NM', (N i (or_introl eq_refl)) in O. congruence. }
          cbn. exists (i_name i), (i_op i), (c_pyarg c), (i_arg i). rewrite A, NM', O. unfold c_pyarg. rewrite CA. repeat split; auto.
          intros E. apply (RS (i_op i)); [rewrite <- E; apply N; now left|]. unfold has_jump in HJ. apply orb_true_iff in HJ. rewrite !z_mem_In in HJ. exact HJ.
        + now left.
      - apply IH; intros; [apply N|apply NT|apply NJ]; now right. }
    assert (LN : length (map fitem_of_gflat x) = length (map (fun it => match it with BI i => FInstr (i_name i) (i_op i) (i_arg i) | _ => FPseudo end) (concat (elements T g)))) by (clear - F; induction F; cbn; congruence).
    rewrite LN, (loop_rel _ _ _ _ _ F). reflexivity.
  Qed.

  (** A try block makes inference fail. *)
  Lemma next_tuple l : In FTuple l -> (exists e, next_real l = Err e) \/ (exists r, next_real l = Ok (FTuple, r)) \/ (exists x r, next_real l = Ok (x, r) /\ In FTuple r).
  Proof.
    induction l as [|x l IH]; [intros []|]. intros I. destruct x; cbn [next_real]; eauto.
    - destruct I as [I|I]; [discriminate|]. now apply IH.
    - right. right. destruct I as [I|I]; [discriminate|eauto].
  Qed.
  Lemma next_short l x r : next_real l = Ok (x, r) -> (length r < length l)%nat.
  Proof. induction l as [|y l IH]; [discriminate|]. destruct y; cbn [next_real]; intros E; try discriminate; try (injection E as _ <-; cbn; lia). apply IH in E. cbn. lia. Qed.
  Lemma loop_tuple c fuel : forall l s, (length l <= fuel)%nat -> In FTuple l -> exists e, infer_loop v T c fuel l s = Err e.
  Proof.
    induction fuel as [|fuel IH]; intros l s L I. { destruct l; [destruct I|cbn in L; lia]. }
    destruct l as [|x l]; [destruct I|]. cbn in L. destruct x as [| |e|n op a]; cbn [infer_loop]; eauto.
    - destruct I as [I|I]; [discriminate|]. apply IH; [lia|exact I].
    - destruct I as [I|I]; [discriminate|]. destruct s as [o fr asy gen pos].
      assert (R : forall s, exists e, infer_loop v T c fuel l s = Err e) by (intros; apply IH; [lia|exact I]).
      destruct (unoptimized_op T op); [apply R|]. destruct (async_op v T op); [apply R|]. destruct (yield_op T op).
      { destruct (PY311 v); [|apply R]. destruct (next_tuple _ I) as [(e & ->)|[(r & ->)|(x & r & E & I')]]; cbn [bind]; eauto.
        pose proof (next_short _ _ _ E) as SH. rewrite E. cbn [bind]. destruct x as [| |e|n' op' a']; eauto. destruct (guard _ _); cbn [bind]; eauto. destruct (of_option _ _); cbn [bind]; eauto.
        destruct (_ =? _); apply IH; auto; lia. }
      destruct (generator_like_op v T op); [apply R|]. destruct (z_mem op (t_hasfree T)); [apply R|].
      destruct (negb c && is_dual v T op && dual_cell a); [apply R|]. destruct (PY313 v && _ && _); apply R.
  Qed.
  Lemma graph_try g ia it : In it (concat (elements T g)) -> try_mark it = true -> exists e, infer_flags_graph v T g ia = Err e.
  Proof.
    intros I M. unfold infer_flags_graph. destruct (get_instructions v T g) as [x|e] eqn:EX; cbn [bind]; [|eauto].
    unfold get_instructions in EX. assert (S0 : sane []) by apply sane_nil. pose proof (blocks_flat_spec v T (fun _ _ => true) g (g_order g) [] x S0 EX) as F. cbv zeta in F.
    change (concat (map (fun n => live T (k_items (blk g n))) (g_order g))) with (concat (elements T g)) in F.
    assert (IT : In FTuple (map fitem_of_gflat x)).
    { clear EX. revert I F. generalize (numbers [] (concat (elements T g))). generalize (concat (elements T g)). intros es tb I F. induction F as [|y f es x R F IH]; [destruct I|].
      destruct I as [->|I]; [|right; auto]. left. destruct it; cbn in M; try discriminate M; destruct f; cbn in R; try contradiction; reflexivity. }
    unfold infer_flags. destruct (loop_tuple false (length (map fitem_of_gflat x)) (map fitem_of_gflat x)
      (mkF true (false && (0 <? zlen (m_cellvars (g_meta g))) && (0 <? zlen (m_freevars (g_meta g)))) false false false) (Nat.le_refl _) IT) as (e & ->). cbn [bind]. eauto.
  Qed.

  Lemma block_flat_total g l : wf_optable v T = true -> (forall n, In n (g_order g) -> exists x, get_block_index g n = Ok x /\ 0 <= x <= 2147483647) ->
    is_ok (block_iter T l) = true -> (forall it, In it (live T l) -> try_mark it = false) ->
    (forall i, In (BI i) l -> legal_instr v T i) -> (forall i n, In (BI i) l -> i_arg i = OBlock n -> has_jump T i = true -> In n (g_order g)) ->
    forall tbs, exists out, block_flat v T g tbs l = Ok (out, tbs).
  Proof.
    intros wf IX. induction l as [|it r IH]; intros OK NT LG TG tbs; [eexists; reflexivity|]. cbn [block_iter] in OK. cbn [block_flat].
    destruct (elem_check T it r) as [[]|e] eqn:EC; cbn [bind] in *; [|discriminate OK].
    assert (OK' : is_ok (block_iter T r) = true) by exact OK.
    assert (R : (forall it, In it (live T r) -> try_mark it = false) -> exists out, block_flat v T g tbs r = Ok (out, tbs)).
    { intros NT'. apply IH; auto; intros; [apply LG; now right|eapply TG; eauto; now right]. }
    destruct it as [i|n|z|id t la d|id].
    - cbn [live] in NT. destruct (has_jump T i || is_final i) eqn:HF.
      + assert (TE : trailing_end r = None).
        { destruct (trailing_end r) as [id|] eqn:TE; [|reflexivity]. exfalso. assert (X := trailing_find r). rewrite TE in X. cbn in X. rewrite X in NT. specialize (NT (BTE id)). cbn in NT. discriminate NT. tauto. }
        rewrite TE. cbn [bind]. destruct (has_jump T i) eqn:HJ; [|eexists; reflexivity].
        cbn [elem_check] in EC. rewrite HJ in EC. destruct (existsb is_BI r); [discriminate EC|]. destruct (i_arg i) eqn:A; try discriminate EC. cbn [bind].
        destruct (IX _ (TG i n (or_introl eq_refl) A HJ)) as (x & Ex & BX). rewrite Ex. cbn [bind]. destruct (LG i (or_introl eq_refl)) as (NM & LT & _ & _).
        unfold new_cinstr, resolve_name. rewrite NM. destruct (Z.leb_spec (t_min_instrumented T) (i_op i)); [lia|]. cbn [bind].
        unfold c_check_arg. rewrite (jump_has_arg v T wf (i_name i) (i_op i) NM LT HJ). cbn [is_unset]. unfold check_arg_int. cbn [as_int].
        destruct (Z.leb_spec 0 x); [|lia]. destruct (Z.leb_spec x 2147483647); [|lia]. cbn. eexists. reflexivity.
      + destruct R as (out & ->); [intros; apply NT; now right|]. cbn. eexists. reflexivity.
    - discriminate EC.
    - destruct R as (out & ->); [intros; apply NT; now right|]. cbn. eexists. reflexivity.
    - specialize (NT (BTB id t la d) (or_introl eq_refl)). discriminate NT.
    - specialize (NT (BTE id) (or_introl eq_refl)). discriminate NT.
  Qed.
  Lemma get_instructions_total g : wf_optable v T = true -> indexed g -> zlen (g_order g) <= 2147483648 -> iterable T g ->
    (forall it, In it (concat (elements T g)) -> try_mark it = false) ->
    (forall n i, In n (g_order g) -> In (BI i) (k_items (blk g n)) -> legal_instr v T i) ->
    (forall n i m, In n (g_order g) -> In (BI i) (k_items (blk g n)) -> i_arg i = OBlock m -> has_jump T i = true -> In m (g_order g)) ->
    exists x, get_instructions v T g = Ok x.
  Proof.
    intros wf IX SZ IT NT LG TG. unfold get_instructions.
    assert (X : forall order, incl order (g_order g) -> forall tbs, exists x, blocks_flat v T g tbs order = Ok x); [|apply X, incl_refl].
    induction order as [|n r IH]; intros IN tbs; [eexists; reflexivity|]. cbn [blocks_flat]. assert (In n (g_order g)) by (apply IN; now left).
    destruct (block_flat_total g (k_items (blk g n)) wf) with (tbs := tbs) as (out & ->).
    - intros m I. apply In_nth_error in I. destruct I as (k & I). exists (Z.of_nat k). split; [apply (proj1 IX _ _ I)|].
      assert (k < length (g_order g))%nat by (apply nth_error_Some; congruence). unfold zlen in SZ. lia.
    - apply IT.
    - intros it I. apply NT. apply in_concat. exists (live T (k_items (blk g n))). split; [|exact I]. unfold elements. apply (in_map (fun n => live T (k_items (blk g n)))). assumption.
    - intros i I. eapply LG; eauto.
    - intros i m I. eapply TG; eauto.
    - cbn [bind]. destruct (IH (fun a A => IN a (or_intror A)) tbs) as (x & ->). cbn. eexists. reflexivity.
  Qed.
End G.
