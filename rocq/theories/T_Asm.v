(** Property theorems about assembly (Bytecode.to_concrete_bytecode): C14 (assembler path),
    C15, C16, C17, C20, C21. *)
From Verif Require Import PyBase OpTable Table311 CPy M_Instr M_Tables M_Concrete M_Convert S_Args
  S_Asm P_Instr P_Instr2 P_Layout P_Layout2 P_Converge P_AsmProps.
Open Scope string_scope.
Open Scope list_scope.
Open Scope Z_scope.

(** All instructions are ones the constructors and setters of Instr can produce (C05). *)
Definition all_legal (v : pyver) (T : optable) (b : bytecode) : Prop :=
  forall i, In (BI i) (b_items b) -> legal_instr v T i.

(** A constant comparison for the examples: equality of integers and strings. *)
Definition keq0 (a b : pyobj) : bool :=
  match a, b with
  | OInt x, OInt y => Z.eqb x y
  | OStr x, OStr y => String.eqb x y
  | ONone, ONone => true
  | _, _ => false
  end.

Definition ins (n : string) (a : pyobj) : bitem :=
  match new_instr V311 T311 n a LUnset None with Ok i => BI i | Err _ => BSet 0 end.

(** A way to check the hypothesis [all_legal] of the examples by computation. *)
Definition check_legal (v : pyver) (T : optable) (b : bytecode) : bool :=
  forallb (fun it => match it with
    | BI i => match new_instr v T (i_name i) (i_arg i) LUnset None with
              | Ok j => Z.eqb (i_op j) (i_op i) | Err _ => false end
    | _ => true end) (b_items b).
Lemma check_legal_ok v T b : wf_optable v T = true -> check_legal v T b = true -> all_legal v T b.
Proof.
  intros wf H i I. unfold check_legal in H. rewrite forallb_forall in H. specialize (H _ I). cbv beta iota in H.
  destruct (new_instr v T (i_name i) (i_arg i) LUnset None) as [j|] eqn:E; [|discriminate].
  apply Z.eqb_eq in H. apply (new_instr_val v T wf) in E. destruct E as (L & E1 & E2 & _).
  unfold legal_instr in *. now rewrite <- H, <- E1, <- E2.
Qed.

(** C15. *)
Theorem C15_labels_resolve : forall v T keq passes b cb,
  wf_optable v T = true -> all_legal v T b ->
  to_concrete v T keq passes b = Ok cb ->
  exists gs, cb_items cb = map CI (concat gs) /\ laid_out v T (b_items b) gs
  /\ forall p i l, nth_error (b_items b) p = Some (BI i) -> i_arg i = OLabel l ->
     exists q c rest, label_position l (b_items b) q
       /\ nth_error gs p = Some (c :: rest) /\ c_name c = i_name i /\ c_op c = i_op i
       /\ jumps_to v T c (offset_of v (concat gs) (instrs_before gs p))
          = offset_of v (concat gs) (instrs_before gs q).
Proof.
  intros v T keq passes b cb wf HL H.
  destruct (to_concrete_assembled v T keq wf passes b cb H) as (vn & K0 & gs0 & Kf & gs & en & A).
  exists gs. split; [now rewrite (as_cb _ _ _ _ _ _ _ _ _ _ _ A)|].
  split; [apply (assembled_laid v T keq wf _ _ _ _ _ _ _ _ A); exact (opmap_of_legal v T _ HL)|].
  intros p i l. exact (labels_resolve v T keq wf _ _ _ _ _ _ _ _ p i l A HL).
Qed.
Print Assumptions C15_labels_resolve.

(** A forward jump over 300 instructions, and a backward jump with caches in between. *)
Definition ex15 : bytecode := mkB meta0 []
  ([BLabel 0; ins "LOAD_GLOBAL" (OTuple [OBool true; OStr "f"]); ins "POP_JUMP_FORWARD_IF_TRUE" (OLabel 1)]
   ++ repeat (ins "NOP" OUnset) 300
   ++ [ins "JUMP_BACKWARD" (OLabel 0); BLabel 1; ins "LOAD_CONST" ONone; ins "RETURN_VALUE" OUnset]).

Example C15_ex : all_legal V311 T311 ex15 /\
  exists cb, to_concrete V311 T311 keq0 default_passes ex15 = Ok cb
   /\ map (fun x => match x with CI c => (c_name c, c_arg c, c_size c) | CSet _ => ("", None, 0) end)
        (firstn 8 (cb_items cb))
      = [("LOAD_GLOBAL", Some 1, 2); ("CACHE", Some 0, 2); ("CACHE", Some 0, 2); ("CACHE", Some 0, 2);
         ("CACHE", Some 0, 2); ("CACHE", Some 0, 2); ("POP_JUMP_FORWARD_IF_TRUE", Some 302, 4);
         ("NOP", None, 2)]
   /\ nth_error (map (fun x => match x with CI c => (c_name c, c_arg c, c_size c) | CSet _ => ("", None, 0) end)
        (cb_items cb)) 307 = Some ("JUMP_BACKWARD", Some 310, 4).
Proof.
  split.
  - apply check_legal_ok; vm_compute; reflexivity.
  - match goal with |- exists cb, ?r = _ /\ _ => let x := eval vm_compute in r in
      match x with Ok ?c => exists c end end.
    repeat split; vm_compute; reflexivity.
Qed.

(** C16. *)
Theorem C16_enough_passes_converge : forall v T keq passes b,
  wf_optable v T = true -> no_cache (b_items b) -> flat_try false (b_items b) ->
  3 * zlen (filter takes_label (b_items b)) < Z.of_nat passes ->
  to_concrete v T keq passes b <> Err RuntimeError
  /\ forall more, (passes <= more)%nat -> to_concrete v T keq more b = to_concrete v T keq passes b.
Proof.
  intros v T keq passes b wf N F H. destruct (enough_passes v T keq wf passes b H) as [A B]. auto.
Qed.
Print Assumptions C16_enough_passes_converge.

(** The default of 10 passes is not enough for a chain of jumps each of which is just short
    enough until the next one grows: jump number [n] stands at [200 n], jumps by 255 units and
    contains only jump [n+1]; the last one jumps by 256. *)
Definition chain_at (n k : nat) : list bitem :=
  (if (k mod 200 =? 0)%nat && (k / 200 <? n)%nat then [ins "JUMP_FORWARD" (OLabel (k / 200))]
   else [ins "NOP" OUnset]).
Definition chain_label (n k : nat) : list bitem :=
  match (k - 256)%nat with
  | d => if (256 <=? k)%nat && (d mod 200 =? 0)%nat && (d / 200 <? n - 1)%nat then [BLabel (d / 200)]
         else if (k =? 200 * (n - 1) + 257)%nat then [BLabel (n - 1)] else []
  end.
Definition chain (n : nat) : bytecode :=
  mkB meta0 [] (flat_map (fun k => chain_label n k ++ chain_at n k) (seq 0 (200 * n + 100))).

Theorem C16_default_passes_insufficient :
  ~ (forall b, no_cache (b_items b) -> flat_try false (b_items b) ->
       to_concrete V311 T311 keq0 default_passes b <> Err RuntimeError).
Proof.
  intros H. apply (H (chain 10)).
  - intros i I E. assert (X : existsb (fun it => is_cache (Some it)) (b_items (chain 10)) = true).
    { apply existsb_exists. exists (BI i). split; [exact I|]. cbn. now apply String.eqb_eq. }
    revert X. vm_compute. discriminate.
  - vm_compute. auto.
  - vm_compute. reflexivity.
Qed.
Print Assumptions C16_default_passes_insufficient.

(** The same program assembles with 11 passes. *)
Example C16_eleven : is_ok (to_concrete V311 T311 keq0 11 (chain 10)) = true
  /\ zlen (filter takes_label (b_items (chain 10))) = 10.
Proof. split; vm_compute; reflexivity. Qed.

(** C17. *)
Theorem C17_minimal_sizes : forall v T keq passes b cb,
  wf_optable v T = true -> all_legal v T b ->
  to_concrete v T keq passes b = Ok cb ->
  exists gs, cb_items cb = map CI (concat gs) /\ laid_out v T (b_items b) gs
  /\ encodes v T (b_items b) gs (concat gs)
  /\ forall es, encodes v T (b_items b) gs es ->
     forall k c e, nth_error (concat gs) k = Some c -> nth_error es k = Some e -> c_size c <= c_size e.
Proof.
  intros v T keq passes b cb wf HL H.
  destruct (to_concrete_assembled v T keq wf passes b cb H) as (vn & K0 & gs0 & Kf & gs & en & A).
  exists gs. split; [now rewrite (as_cb _ _ _ _ _ _ _ _ _ _ _ A)|].
  split; [apply (assembled_laid v T keq wf _ _ _ _ _ _ _ _ A); exact (opmap_of_legal v T _ HL)|].
  split; [exact (encodes_self v T keq wf _ _ _ _ _ _ _ _ A HL)|].
  intros es HE. exact (minimal_sizes v T keq wf _ _ _ _ _ _ _ _ es A HE).
Qed.
Print Assumptions C17_minimal_sizes.

(** C20, without explicit CACHE instructions. *)
Theorem C20_caches_partial : forall v T keq passes b cb,
  wf_optable v T = true -> all_legal v T b -> no_cache (b_items b) ->
  to_concrete v T keq passes b = Ok cb ->
  exists cs, cb_items cb = map CI cs /\ forall k, caches_after v T cs k.
Proof.
  intros v T keq passes b cb wf HL NC H.
  destruct (to_concrete_assembled v T keq wf passes b cb H) as (vn & K0 & gs0 & Kf & gs & en & A).
  exists (concat gs). split; [now rewrite (as_cb _ _ _ _ _ _ _ _ _ _ _ A)|].
  intros k. exact (caches_complete v T keq wf _ _ _ _ _ _ _ _ k A HL NC).
Qed.
Print Assumptions C20_caches_partial.

(** With explicit ones it is false: LOAD_GLOBAL needs five and is accepted with one. *)
Definition ex20 : bytecode := mkB meta0 []
  [ins "LOAD_GLOBAL" (OTuple [OBool false; OStr "f"]); ins "CACHE" OUnset; ins "RETURN_VALUE" OUnset].

Theorem C20_explicit_caches_refuted :
  ~ (forall v T keq passes b cb, wf_optable v T = true -> all_legal v T b ->
       to_concrete v T keq passes b = Ok cb ->
       exists cs, cb_items cb = map CI cs /\ forall k, caches_after v T cs k).
Proof.
  intros H.
  destruct (to_concrete V311 T311 keq0 default_passes ex20) as [cb|] eqn:E; [|vm_compute in E; discriminate].
  destruct (H V311 T311 keq0 default_passes ex20 cb T311_wf) as (cs & E1 & E2); [|exact E|].
  - apply check_legal_ok; vm_compute; reflexivity.
  - vm_compute in E. injection E as <-. cbn [cb_items] in E1.
    destruct cs as [|c1 [|c2 [|c3 [|c4 cs]]]]; try discriminate E1. cbn [map] in E1. injection E1 as <- <- <-.
    destruct (E2 0%nat _ eq_refl) as [C _]; [discriminate|].
    specialize (C 1%nat). cbn [nth_error Nat.add] in C.
    assert (X : Some (mkC "RETURN_VALUE" 83 None (Some (line_loc (Some 1))) None 2)
                = Some (cache_at (Some (line_loc (Some 1))))).
    { apply C. vm_compute. repeat constructor. }
    discriminate X.
Qed.
Print Assumptions C20_explicit_caches_refuted.

(** ... and the right number is rejected. *)
Example C20_right_number_rejected :
  to_concrete V311 T311 keq0 default_passes (mkB meta0 []
    ([ins "LOAD_GLOBAL" (OTuple [OBool false; OStr "f"])] ++ repeat (ins "CACHE" OUnset) 5
     ++ [ins "RETURN_VALUE" OUnset])) = Err RuntimeError.
Proof. vm_compute. reflexivity. Qed.

(** C21. *)
Theorem C21_try_ranges_partial : forall v T keq passes b cb,
  wf_optable v T = true -> all_legal v T b -> proper_try (b_items b) ->
  to_concrete v T keq passes b = Ok cb ->
  exists gs, cb_items cb = map CI (concat gs) /\ laid_out v T (b_items b) gs
  /\ length (cb_ex cb) = length (tb_ids (b_items b))
  /\ forall n id p q t la d, nth_error (tb_ids (b_items b)) n = Some id ->
      nth_error (b_items b) p = Some (BTB id t la d) -> nth_error (b_items b) q = Some (BTE id) ->
      exists e l ql, nth_error (cb_ex cb) n = Some e /\ t = OLabel l /\ label_position l (b_items b) ql
        /\ e_target e = offset_of v (concat gs) (instrs_before gs ql)
        /\ d = Some (e_depth e) /\ e_lasti e = la
        /\ (instrs_before gs p < instrs_before gs q)%nat
        /\ forall k, (k < length (concat gs))%nat ->
             (e_start e <= executed_at v (concat gs) k <= e_stop e
              <-> (instrs_before gs p <= k < instrs_before gs q)%nat).
Proof.
  intros v T keq passes b cb wf HL PT H.
  destruct (to_concrete_assembled v T keq wf passes b cb H) as (vn & K0 & gs0 & Kf & gs & en & A).
  exists gs. split; [now rewrite (as_cb _ _ _ _ _ _ _ _ _ _ _ A)|].
  split; [apply (assembled_laid v T keq wf _ _ _ _ _ _ _ _ A); exact (opmap_of_legal v T _ HL)|].
  rewrite (as_cb _ _ _ _ _ _ _ _ _ _ _ A). exact (try_ranges v T keq wf _ _ _ _ _ _ _ _ A PT).
Qed.
Print Assumptions C21_try_ranges_partial.

Definition ex21 : bytecode := mkB meta0 []
  [ins "NOP" OUnset; BTB 7 (OLabel 3) true (Some 1); ins "LOAD_GLOBAL" (OTuple [OBool false; OStr "f"]);
   BTE 7; ins "RETURN_VALUE" OUnset; BLabel 3; ins "RERAISE" (OInt 0)].
Example C21_ex : proper_try (b_items ex21)
  /\ exists cb, to_concrete V311 T311 keq0 default_passes ex21 = Ok cb
     /\ cb_ex cb = [mkEx 1 6 8 1 true].
Proof.
  split.
  - split; [repeat constructor; intros []|]. intros p id t la d Hp.
    destruct p as [|[|[|[|[|[|[|p]]]]]]]; try (vm_compute in Hp; discriminate Hp);
      [|destruct p; discriminate Hp].
    injection Hp as <- <- <- <-. exists 3%nat. split; [lia|]. split; [reflexivity|].
    split; [|exists 2%nat; eexists; split; [lia|vm_compute; reflexivity]].
    intros q'. destruct q' as [|[|[|[|[|[|[|q']]]]]]]; vm_compute; try discriminate; [reflexivity|].
    destruct q'; discriminate.
  - match goal with |- exists cb, ?r = _ /\ _ => let x := eval vm_compute in r in
      match x with Ok ?c => exists c end end.
    split; vm_compute; reflexivity.
Qed.

(** The property is false for an empty try at the beginning: its entry protects the whole
    function. *)
Definition ex21_empty : bytecode := mkB meta0 []
  [BTB 7 (OLabel 3) false (Some 0); BTE 7; ins "NOP" OUnset; ins "LOAD_CONST" ONone; ins "RETURN_VALUE" OUnset;
   BLabel 3; ins "RERAISE" (OInt 0)].

Theorem C21_empty_try_refuted :
  ~ (forall v T keq passes b cb, wf_optable v T = true -> all_legal v T b ->
       NoDup (tb_ids (b_items b)) -> flat_try false (b_items b) ->
       to_concrete v T keq passes b = Ok cb ->
       exists gs, cb_items cb = map CI (concat gs) /\ laid_out v T (b_items b) gs
       /\ forall n id p q t la d, nth_error (tb_ids (b_items b)) n = Some id ->
         nth_error (b_items b) p = Some (BTB id t la d) -> nth_error (b_items b) q = Some (BTE id) ->
         exists e, nth_error (cb_ex cb) n = Some e
           /\ forall k, (k < length (concat gs))%nat ->
             (e_start e <= executed_at v (concat gs) k <= e_stop e
              <-> (instrs_before gs p <= k < instrs_before gs q)%nat)).
Proof.
  intros H.
  destruct (to_concrete V311 T311 keq0 default_passes ex21_empty) as [cb|] eqn:E; [|vm_compute in E; discriminate].
  destruct (H V311 T311 keq0 default_passes ex21_empty cb T311_wf) as (gs & E1 & E2 & E3).
  - apply check_legal_ok; vm_compute; reflexivity.
  - repeat constructor. intros [].
  - vm_compute. auto.
  - exact E.
  - destruct (E3 0%nat 7%nat 0%nat 1%nat _ _ _ eq_refl eq_refl eq_refl) as (e & X1 & X2).
    vm_compute in E. injection E as <-. cbn [cb_items cb_ex] in *. injection X1 as <-.
    destruct (concat gs) as [|c cs] eqn:Ec; [discriminate|]. cbn [map] in E1. injection E1 as <- E1.
    specialize (X2 0%nat ltac:(cbn; lia)).
    assert (Y : instrs_before gs 0 = instrs_before gs 1).
    { inversion E2 as [|it its g gs' P L EE FF]. cbn [produced] in P. subst. reflexivity. }
    cbn [e_start e_stop] in X2.
    match type of X2 with context [executed_at V311 ?l 0] =>
      assert (Z0 : executed_at V311 l 0 = 0) by reflexivity end.
    rewrite Z0, Y in X2. lia.
Qed.
Print Assumptions C21_empty_try_refuted.

(** Two more corner cases: an empty try at the end of the code, and before an instruction
    with EXTENDED_ARG. *)
Example C21_empty_at_end :
  to_concrete V311 T311 keq0 default_passes (mkB meta0 []
    [BLabel 3; ins "LOAD_CONST" ONone; ins "RETURN_VALUE" OUnset; BTB 7 (OLabel 3) false (Some 0); BTE 7])
  = Err IndexError.
Proof. vm_compute. reflexivity. Qed.
Example C21_empty_before_extended :
  match to_concrete V311 T311 keq0 default_passes (mkB meta0 []
    [BLabel 3; ins "NOP" OUnset; BTB 7 (OLabel 3) false (Some 0); BTE 7; ins "BUILD_LIST" (OInt 300);
     ins "RETURN_VALUE" OUnset]) with
  | Ok cb => assemble_exception_table (cb_ex cb) = Err AssertionError
  | Err _ => False end.
Proof. vm_compute. reflexivity. Qed.

(** C14, the assembler: every instruction produced for an element, with its caches, carries
    the location in force there. *)
Theorem C14_assembled_locations : forall v T keq passes b cb,
  wf_optable v T = true -> all_legal v T b ->
  to_concrete v T keq passes b = Ok cb ->
  exists gs, cb_items cb = map CI (concat gs) /\ laid_out v T (b_items b) gs
  /\ forall p i g c, nth_error (b_items b) p = Some (BI i) -> nth_error gs p = Some g -> In c g ->
     exists l, c_loc c = Some l /\ in_force (m_first_lineno (b_meta b)) (b_items b) p l.
Proof.
  intros v T keq passes b cb wf HL H.
  destruct (to_concrete_assembled v T keq wf passes b cb H) as (vn & K0 & gs0 & Kf & gs & en & A).
  exists gs. split; [now rewrite (as_cb _ _ _ _ _ _ _ _ _ _ _ A)|].
  split; [apply (assembled_laid v T keq wf _ _ _ _ _ _ _ _ A); exact (opmap_of_legal v T _ HL)|].
  intros p i g c Hp Hg Hc. eapply (locations_in_force v T keq wf); eauto.
Qed.
Print Assumptions C14_assembled_locations.
