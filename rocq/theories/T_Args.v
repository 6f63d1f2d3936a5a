(** Property theorems about instruction arguments in assembled code: C18, C19, C45, C46, C47. *)
From Verif Require Import PyBase OpTable Table311 TablesEx CPy M_Instr M_Tables M_Concrete M_Convert
  S_Args S_Asm S_Slots P_OpTable P_Cat P_Instr P_Instr2 P_Layout P_Layout2 P_AsmProps P_Args P_Args2 P_Decode
  P_Tables T_Asm.
Open Scope string_scope.
Open Scope list_scope.
Open Scope Z_scope.

(** Every Compare and intrinsic argument is a member of its enumeration. *)
Definition all_members (v : pyver) (b : bytecode) : Prop :=
  forall i, In (BI i) (b_items b) -> real_member v (i_arg i).
(** Equal constant keys mean the same constant. *)
Definition sound_key (keq : pyobj -> pyobj -> bool) : Prop := forall x y, keq x y = true -> x = y.
(** On 3.13, no free variable is also a local variable. *)
Definition free_not_local (v : pyver) (cb : cbytecode) : Prop :=
  PY313 v = true -> forall n, In n (m_freevars (cb_meta cb)) -> ~ In n (cb_varnames cb).

(** C18.  Every argument that is neither a label (C15) nor a pair (C47) becomes a number
    from which CPython reads that argument, and which the disassembler shows as that argument. *)
Theorem C18_args_survive : forall v T keq passes b cb,
  wf_optable v T = true -> all_legal v T b -> all_members v b -> sound_key keq ->
  to_concrete v T keq passes b = Ok cb ->
  exists gs, cb_items cb = map CI (concat gs) /\ laid_out v T (b_items b) gs
  /\ forall p i, nth_error (b_items b) p = Some (BI i) ->
     (forall l, i_arg i <> OLabel l) -> is_dual v T (i_op i) = false ->
     exists c rest, nth_error gs p = Some (c :: rest) /\ c_name c = i_name i /\ c_op c = i_op i
       /\ reads v T cb (c_op c) (c_arg c) (i_arg i)
       /\ (free_not_local v cb -> exists x, decode_arg v T cb (c_op c) (c_arg c) = Ok x
             /\ same_arg v T cb (c_op c) (i_arg i) x).
Proof.
  intros v T keq passes b cb wf HL HM HK H.
  destruct (to_concrete_assembled v T keq wf passes b cb H) as (vn & K0 & gs0 & Kf & gs & en & A).
  exists gs. split; [now rewrite (as_cb _ _ _ _ _ _ _ _ _ _ _ A)|].
  split; [apply (assembled_laid v T keq wf _ _ _ _ _ _ _ _ A); exact (opmap_of_legal v T _ HL)|].
  intros p i Hp NL ND. pose proof (nth_error_In _ _ Hp) as I.
  destruct (args_read v T keq wf HK _ _ _ _ _ _ _ _ _ _ A Hp (HL i I) (HM i I) NL ND) as (c & rest & G1 & G2 & G3 & R).
  exists c, rest. rewrite G3. repeat (split; [assumption|]). split; [reflexivity|]. split; [exact R|].
  intros F. destruct (HL i I) as (L1 & L2 & _). eapply reads_shown; eauto. eapply category_of; eauto.
Qed.
Print Assumptions C18_args_survive.

(** C18, the other direction: whatever the disassembler shows is what CPython reads. *)
Theorem C18_shown_is_read : forall v T cb n op arg x,
  wf_optable v T = true -> opmap T n = Some op -> op < t_min_instrumented T ->
  op_has_jump T op = false ->
  match arg with Some a => 0 <= a | None => opcode_has_argument v T op = false end ->
  free_not_local v cb ->
  (PY311 v = true -> In op (t_hasfree T) ->
     forall a k, arg = Some a -> at_ (cb_varnames cb) a k -> In k (m_cellvars (cb_meta cb))) ->
  decode_arg v T cb op arg = Ok x -> reads v T cb op arg x.
Proof.
  intros v T cb n op arg x wf O L NJ HA F D H.
  destruct (shown_reads v T cb op arg x (category_of v T wf n op O L) NJ HA F D H) as [[R _]|[_ R]]; exact R.
Qed.
Print Assumptions C18_shown_is_read.

Definition ins3 (n : string) (a : pyobj) : bitem :=
  match new_instr V313 T313 n a LUnset None with Ok i => BI i | Err _ => BSet 0 end.

Definition meta18 : meta :=
  mkMeta 1 0 0 1 "f" "f" "f.py" (OStr "doc") ["c"; "x"; "d"] ["g"; "h"] 3.

(** Constants, names with flags, locals, a cell that is a local, other cells, free variables,
    comparisons with conversion, intrinsics and plain integers. *)
Definition ex18 : bytecode := mkB meta18 ["x"]
  [ins3 "RESUME" (OInt 0); ins3 "LOAD_FAST" (OStr "y"); ins3 "LOAD_FAST" (OCell "d");
   ins3 "LOAD_FAST" (OFree "h"); ins3 "LOAD_DEREF" (OCell "x"); ins3 "LOAD_DEREF" (OFree "g");
   ins3 "LOAD_CONST" (OInt 7); ins3 "LOAD_CONST" (OStr "doc"); ins3 "LOAD_GLOBAL" (OTuple [OBool true; OStr "n"]);
   ins3 "LOAD_SUPER_ATTR" (OTuple [OBool false; OBool true; OStr "m"]); ins3 "LOAD_NAME" (OStr "n");
   ins3 "COMPARE_OP" (OCompare 19); ins3 "CALL_INTRINSIC_1" (OIntr1 3);
   ins3 "LOAD_FAST_LOAD_FAST" (OTuple [OStr "q"; OStr "y"]); ins3 "RETURN_VALUE" OUnset].

Definition show (cb : cbytecode) : list (string * option Z) :=
  flat_map (fun x => match x with
     | CI c => if String.eqb (c_name c) "CACHE" then [] else [(c_name c, c_arg c)]
     | CSet _ => [] end) (cb_items cb).

Lemma keq0_sound : sound_key keq0.
Proof.
  intros x y. destruct x, y; cbn; try discriminate; auto.
  - intros E. apply Z.eqb_eq in E. congruence.
  - intros E. apply String.eqb_eq in E. congruence.
Qed.

Example C18_ex : all_legal V313 T313 ex18 /\ all_members V313 ex18 /\ sound_key keq0 /\
  exists cb, to_concrete V313 T313 keq0 default_passes ex18 = Ok cb /\ free_not_local V313 cb
   /\ cb_varnames cb = ["x"; "q"; "y"]
   /\ show cb = [("RESUME", Some 0); ("LOAD_FAST", Some 2); ("LOAD_FAST", Some 4); ("LOAD_FAST", Some 6);
        ("LOAD_DEREF", Some 0); ("LOAD_DEREF", Some 5); ("LOAD_CONST", Some 1); ("LOAD_CONST", Some 0);
        ("LOAD_GLOBAL", Some 1); ("LOAD_SUPER_ATTR", Some 6); ("LOAD_NAME", Some 0); ("COMPARE_OP", Some 119);
        ("CALL_INTRINSIC_1", Some 3); ("LOAD_FAST_LOAD_FAST", Some 18); ("RETURN_VALUE", None)].
Proof.
  split; [apply check_legal_ok; vm_compute; reflexivity|].
  split. { intros i I. cbn in I. repeat (destruct I as [I|I]; [injection I as <-; cbn; first [exact Logic.I | (right; right; split; [reflexivity|lia]) | lia]|]). destruct I. }
  split; [exact keq0_sound|].
  match goal with |- exists cb, ?r = _ /\ _ => let x := eval vm_compute in r in
    match x with Ok ?c => exists c end end.
  split; [vm_compute; reflexivity|]. split; [|split; vm_compute; reflexivity].
  intros _ n I. cbn in I |- *. destruct I as [<-|[<-|[]]]; intros J;
    repeat (destruct J as [J|J]; [discriminate J|]); exact J.
Qed.

(** C19. *)
Theorem C19_tables : forall v T keq passes b cb,
  wf_optable v T = true -> all_legal v T b -> to_concrete v T keq passes b = Ok cb ->
  cb_consts cb = firsts keq [] ((match m_docstring (b_meta b) with OUnset => [] | d => [d] end)
                                ++ const_uses T (b_items b))
  /\ cb_names cb = firsts String.eqb [] (name_uses T (b_items b))
  /\ cb_varnames cb = b_argnames b ++ firsts String.eqb (b_argnames b)
         (pair_uses v T (b_items b) ++ local_uses T (b_items b)).
Proof.
  intros v T keq passes b cb wf HL H.
  destruct (to_concrete_assembled v T keq wf passes b cb H) as (vn & K0 & gs0 & Kf & gs & en & A).
  eapply tables; eauto.
Qed.
Print Assumptions C19_tables.

(** [firsts] has no repetition, nothing from [seen], and everything of the list. *)
Theorem C19_firsts_minimal : forall A (same : A -> A -> bool) l seen,
  (forall i j x y, (i < j)%nat -> nth_error (firsts same seen l) i = Some x ->
     nth_error (firsts same seen l) j = Some y -> same y x = false)
  /\ (forall x, In x (firsts same seen l) -> In x l /\ forall y, In y seen -> same x y = false)
  /\ (forall x, In x l -> (exists y, In y (seen ++ firsts same seen l) /\ same x y = true)
                          \/ In x (firsts same seen l)).
Proof.
  intros A same l. induction l as [|a l IH]; intros seen; cbn [firsts].
  { split; [intros [|i] j x y _ H; discriminate H|]. split; intros x []. }
  destruct (existsb (same a) seen) eqn:E.
  - destruct (IH seen) as (I1 & I2 & I3). split; [exact I1|]. split.
    + intros x I. destruct (I2 x I). split; [now right|assumption].
    + intros x [<-|I]; [|auto]. left. apply existsb_exists in E. destruct E as (y & Iy & Ey).
      exists y. split; [apply in_or_app; now left|exact Ey].
  - destruct (IH (seen ++ [a])) as (I1 & I2 & I3). split; [|split].
    + intros [|i] [|j] x y L Hx Hy; try lia; cbn in Hx, Hy.
      * injection Hx as <-. apply nth_error_In in Hy. apply I2 in Hy. apply Hy. apply in_or_app. right. now left.
      * apply (I1 i j x y); auto. lia.
    + intros x [<-|I]; [split; [now left|]|split; [right; now apply I2|]].
      * intros y Iy. destruct (same a y) eqn:X; [|reflexivity]. exfalso.
        assert (existsb (same a) seen = true) by (apply existsb_exists; eauto). congruence.
      * intros y Iy. apply I2; [assumption|]. apply in_or_app. now left.
    + intros x [<-|I]; [right; now left|]. destruct (I3 x I) as [(y & Iy & Ey)|I'].
      * left. exists y. split; [|exact Ey]. rewrite <- app_assoc in Iy. exact Iy.
      * right. now right.
Qed.
Print Assumptions C19_firsts_minimal.

Example C19_ex : exists cb, to_concrete V313 T313 keq0 default_passes ex18 = Ok cb
  /\ cb_consts cb = [OStr "doc"; OInt 7] /\ cb_names cb = ["n"; "m"] /\ cb_varnames cb = ["x"; "q"; "y"].
Proof.
  match goal with |- exists cb, ?r = _ /\ _ => let x := eval vm_compute in r in
    match x with Ok ?c => exists c end end.
  repeat split; vm_compute; reflexivity.
Qed.

(** C45. *)
Theorem C45_cell_free_slots : forall v T keq passes b cb,
  wf_optable v T = true -> all_legal v T b -> all_members v b -> sound_key keq ->
  to_concrete v T keq passes b = Ok cb ->
  exists gs, cb_items cb = map CI (concat gs) /\ laid_out v T (b_items b) gs
  /\ forall p i n, nth_error (b_items b) p = Some (BI i) -> ~ In (i_op i) (t_hasconst T) ->
     i_arg i = OCell n \/ i_arg i = OFree n ->
     exists c rest a, nth_error gs p = Some (c :: rest) /\ c_op c = i_op i /\ c_arg c = Some a
       /\ if PY311 v then frame_slot cb a (i_arg i) else old_deref cb a (i_arg i).
Proof.
  intros v T keq passes b cb wf HL HM HK H.
  destruct (to_concrete_assembled v T keq wf passes b cb H) as (vn & K0 & gs0 & Kf & gs & en & A).
  exists gs. split; [now rewrite (as_cb _ _ _ _ _ _ _ _ _ _ _ A)|].
  split; [apply (assembled_laid v T keq wf _ _ _ _ _ _ _ _ A); exact (opmap_of_legal v T _ HL)|].
  intros p i n Hp NC X. pose proof (nth_error_In _ _ Hp) as I. destruct (HL i I) as (L1 & L2 & L3 & L4).
  pose proof (category_of v T wf _ _ L1 L2) as C.
  assert (ND : is_dual v T (i_op i) = false).
  { destruct (is_dual v T (i_op i)) eqn:D; [|reflexivity]. exfalso.
    destruct (pairs_read v T keq wf _ _ _ _ _ _ _ _ _ _ A Hp (HL i I) D) as (x & y & E & _).
    rewrite E in X. destruct X; discriminate. }
  assert (NL : forall l, i_arg i <> OLabel l) by (intros l E; rewrite E in X; destruct X; discriminate).
  destruct (args_read v T keq wf HK _ _ _ _ _ _ _ _ _ _ A Hp (HL i I) (HM i I) NL ND) as (c & rest & G1 & G2 & G3 & R).
  apply reads_var in R; eauto.
  - destruct R as (a & Ra & R). exists c, rest, a. auto.
  - destruct (z_mem (i_op i) (t_hasconst T)) eqn:Z; [|reflexivity]. apply z_mem_In in Z. tauto.
Qed.
Print Assumptions C45_cell_free_slots.

(** The slots of ex18: locals x q y; cells c d (x is shared); free variables g h. *)
Example C45_ex : exists cb, to_concrete V313 T313 keq0 default_passes ex18 = Ok cb
  /\ frame_slot cb 0 (OCell "x") /\ frame_slot cb 4 (OCell "d") /\ frame_slot cb 5 (OFree "g")
  /\ frame_slot cb 6 (OFree "h") /\ ~ frame_slot cb 3 (OCell "x").
Proof.
  match goal with |- exists cb, ?r = _ /\ _ => let x := eval vm_compute in r in
    match x with Ok ?c => exists c end end.
  split; [vm_compute; reflexivity|]. split; [apply fs_shared; [cbn; auto|split; [lia|reflexivity]]|].
  match goal with |- frame_slot ?c _ _ /\ _ => set (cb := c) end.
  split; [apply (fs_cell cb "d" 1); split; [lia|reflexivity]|].
  split; [apply (fs_free cb "g" 0); split; [lia|reflexivity]|].
  split; [apply (fs_free cb "h" 1); split; [lia|reflexivity]|].
  intros F. inversion F; subst.
  - match goal with H : at_ _ _ _ |- _ => destruct H as [_ H]; discriminate H end.
  - match goal with H : at_ _ ?j _, E : _ = 3 |- _ =>
      destruct H as [_ H]; change (3 + j = 3) in E; assert (j = 0) by lia; subst j; discriminate H end.
Qed.

(** C46. *)
Theorem C46_comparisons : forall v T keq passes b cb,
  wf_optable v T = true -> all_legal v T b -> all_members v b ->
  to_concrete v T keq passes b = Ok cb ->
  exists gs, cb_items cb = map CI (concat gs) /\ laid_out v T (b_items b) gs
  /\ forall p i z, nth_error (b_items b) p = Some (BI i) -> In (i_op i) (t_hascompare T) ->
     i_arg i = OCompare z ->
     exists c rest a, nth_error gs p = Some (c :: rest) /\ c_op c = i_op i /\ c_arg c = Some a
       /\ comparison v a = z
       /\ (PY312 v = true -> forall o, Z.testbit a (outcome_bit o) = holds (z mod 16) o)
       /\ decode_arg v T cb (c_op c) (c_arg c) = Ok (OCompare z).
Proof.
  intros v T keq passes b cb wf HL HM H.
  destruct (to_concrete_assembled v T keq wf passes b cb H) as (vn & K0 & gs0 & Kf & gs & en & A).
  exists gs. split; [now rewrite (as_cb _ _ _ _ _ _ _ _ _ _ _ A)|].
  split; [apply (assembled_laid v T keq wf _ _ _ _ _ _ _ _ A); exact (opmap_of_legal v T _ HL)|].
  intros p i z Hp HC Ea. pose proof (nth_error_In _ _ Hp) as I. pose proof (HM i I) as M. rewrite Ea in M.
  destruct (compare_arg v T keq wf _ _ _ _ _ _ _ _ _ _ _ A Hp (HL i I) HC Ea) as (c & rest & G1 & G2 & G3).
  exists c, rest, (encode_compare v z). repeat (split; [assumption|]).
  pose proof (encode_compare_reads v T wf z M) as R.
  split; [exact R|]. split; [intros P o; now apply mask_bits|].
  destruct (HL i I) as (L1 & L2 & _). pose proof (category_of v T wf _ _ L1 L2) as C.
  apply z_mem_In in HC. unfold decode_arg. rewrite G2, G3.
  destruct C as [C|C|C|C|C|C|C|C]; destruct C as (E1 & E2 & E3 & E4 & E5 & E6 & E7); try congruence.
  rewrite E2, E3, E4, E5, E6, (compare_shown v z _ R). apply member_ok in M. now rewrite M.
Qed.
Print Assumptions C46_comparisons.

Example C46_ex : nth_error (b_items ex18) 11 = Some (ins3 "COMPARE_OP" (OCompare 19)) /\
  comparison V313 119 = 19 /\ map (fun o => Z.testbit 119 (outcome_bit o)) [Unordered; Less; Greater; Equal]
  = [true; true; true; false].
Proof. repeat split; vm_compute; reflexivity. Qed.

(** C47.  Each paired instruction becomes either itself, accessing the two variables (unless
    the second one is local variable number 16), or its two halves. *)
Theorem C47_pairs_partial : forall v T keq passes b cb,
  wf_optable v T = true -> all_legal v T b -> to_concrete v T keq passes b = Ok cb ->
  exists gs, cb_items cb = map CI (concat gs) /\ laid_out v T (b_items b) gs
  /\ forall p i, nth_error (b_items b) p = Some (BI i) -> is_dual v T (i_op i) = true ->
     exists x y, i_arg i = OTuple [OStr x; OStr y] /\
     ((exists c rest, nth_error gs p = Some (c :: rest) /\ c_name c = i_name i /\ c_op c = i_op i
         /\ (nth_error (cb_varnames cb) 16 <> Some y \/ In y (firstn 16 (cb_varnames cb)) ->
             reads v T cb (c_op c) (c_arg c) (i_arg i)))
      \/ (exists c1 c2 rest, nth_error gs p = Some (c1 :: c2 :: rest)
         /\ (~ In x (firstn 17 (cb_varnames cb)) \/ ~ In y (firstn 17 (cb_varnames cb)))
         /\ dual_single_ops v T (i_op i) = Some (c_name c1, c_name c2)
         /\ reads v T cb (c_op c1) (c_arg c1) (OStr x) /\ reads v T cb (c_op c2) (c_arg c2) (OStr y))).
Proof.
  intros v T keq passes b cb wf HL H.
  destruct (to_concrete_assembled v T keq wf passes b cb H) as (vn & K0 & gs0 & Kf & gs & en & A).
  exists gs. split; [now rewrite (as_cb _ _ _ _ _ _ _ _ _ _ _ A)|].
  split; [apply (assembled_laid v T keq wf _ _ _ _ _ _ _ _ A); exact (opmap_of_legal v T _ HL)|].
  intros p i Hp D. pose proof (nth_error_In _ _ Hp) as I.
  destruct (pairs_read v T keq wf _ _ _ _ _ _ _ _ _ _ A Hp (HL i I) D) as (x & y & E & [(c & rest & G1 & G2 & G3 & R)|R]).
  - exists x, y. split; [exact E|]. left. exists c, rest. rewrite G3. auto.
  - exists x, y. split; [exact E|]. right. exact R.
Qed.
Print Assumptions C47_pairs_partial.

Fixpoint vars (n : nat) : list string :=
  match n with O => [] | S k => vars k ++ [String (ascii_of_nat (97 + k)) EmptyString] end.

(** Without the restriction the claim is false: with variables a .. q (number 16),
    LOAD_FAST_LOAD_FAST ("a", "q") is assembled with argument 16, which reads b and a. *)
Definition ex47 : bytecode := mkB meta0 []
  ((map (fun s => ins3 "LOAD_FAST_LOAD_FAST" (OTuple [OStr "a"; OStr s])) (vars 17)) ++
   [ins3 "RETURN_VALUE" OUnset]).

Theorem C47_index_16_refuted :
  ~ (forall b cb, all_legal V313 T313 b -> to_concrete V313 T313 keq0 default_passes b = Ok cb ->
       forall p i c, nth_error (b_items b) p = Some (BI i) -> is_dual V313 T313 (i_op i) = true ->
         nth_error (cb_items cb) p = Some (CI c) -> c_name c = i_name i ->
         reads V313 T313 cb (c_op c) (c_arg c) (i_arg i)).
Proof.
  intros H.
  assert (L : all_legal V313 T313 ex47) by (apply check_legal_ok; vm_compute; reflexivity).
  destruct (to_concrete V313 T313 keq0 default_passes ex47) as [cb|] eqn:E; [|vm_compute in E; discriminate E].
  specialize (H ex47 cb L E 16%nat).
  vm_compute in E. injection E as <-.
  specialize (H _ _ eq_refl eq_refl eq_refl eq_refl). inversion H; subst;
    try match goal with X : In _ _ |- _ => cbn in X; repeat (destruct X as [X|X]; [discriminate X|]); destruct X end;
    try (match goal with X : ?l = false |- _ => vm_compute in X; discriminate X end);
    try (match goal with X : ?l = true |- _ => vm_compute in X; discriminate X end).
  - match goal with X : as_int _ = _ |- _ => discriminate X end.
  - match goal with X : local_slot _ _ (16 mod 16) _ |- _ => destruct X as [X _]; inversion X; subst end.
    match goal with X : at_ _ _ _ |- _ => destruct X as [_ X]; vm_compute in X; discriminate X end.
Qed.
Print Assumptions C47_index_16_refuted.

(** A cell variable in a pair, which Instr accepts, cannot be assembled. *)
Theorem C47_cell_pair_refuted :
  ~ (forall b, all_legal V313 T313 b -> (forall i, In (BI i) (b_items b) -> is_dual V313 T313 (i_op i) = true) ->
       m_cellvars (b_meta b) = ["c"] -> is_ok (to_concrete V313 T313 keq0 default_passes b) = true).
Proof.
  intros H.
  assert (X : is_ok (to_concrete V313 T313 keq0 default_passes
     (mkB (mkMeta 0 0 0 1 "f" "f" "f.py" OUnset ["c"] [] 0) []
        [ins3 "LOAD_FAST_LOAD_FAST" (OTuple [OCell "c"; OStr "x"])])) = true).
  { apply H.
    - apply check_legal_ok; vm_compute; reflexivity.
    - intros i [I|[]]. injection I as <-. vm_compute. reflexivity.
    - reflexivity. }
  vm_compute in X. discriminate X.
Qed.
Print Assumptions C47_cell_pair_refuted.
