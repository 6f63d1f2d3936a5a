(** Property theorems: assembling what was disassembled gives the same concrete bytecode (C70). *)
From Verif Require Import PyBase OpTable CPy Table311 TablesEx P_Base M_Instr M_Tables M_Concrete M_Convert M_Bytecode
  S_Args S_Lines S_Slots S_Asm S_Prog S_Ident P_OpTable P_Instr P_Instr2 P_Conv P_Conv2 P_CfgTo2 P_Only2 P_Tables P_Ident3 P_CfgFrom4 P_Again T_Asm T_Args T_Ident T_Meta T_Code T_Full T_Only.
Open Scope string_scope.
Open Scope list_scope.
Open Scope Z_scope.

(** What the disassembler makes are legal instructions *)
Lemma ends_no_instr conserve es : forall created i, ~ In (BI i) (fst (emit_ends conserve created es)).
Proof.
  induction es as [|[n e] es IH]; intros created i; cbn [emit_ends]; [intros []|].
  destruct (nat_mem n created).
  - specialize (IH created i). destruct (emit_ends conserve created es) as [r c]. cbn in *. intros [E|E]; [discriminate|tauto].
  - specialize (IH (n :: created) i). destruct (emit_ends conserve (n :: created) es) as [r c]. cbn in *. unfold make_tb. intros [E|[E|E]]; [discriminate|discriminate|tauto].
Qed.
Lemma loop_legal v T cb prune conserve tg (wf : wf_optable v T = true) l : forall created o out labels cr,
  to_bytecode_loop v T cb prune conserve tg created o l = Ok (out, labels, cr) -> forall i, In (BI i) out -> legal_instr v T i.
Proof.
  induction l as [|[lineno c] l IH]; intros created o out labels cr H i I; cbn [to_bytecode_loop] in H.
  - injection H as <- <- <-. destruct I.
  - destruct (match ex_start_at 0 o (cb_ex cb) with Some (n, e) => _ | None => _ end) as [tb cr1] eqn:TB in H.
    apply bind_ok in H. destruct H as (body & HB & H).
    destruct (emit_ends _ _ _) as [ends cr2] eqn:EE in H.
    apply bind_ok in H. destruct H as ([[r labels'] cr'] & HR & H). injection H as <- <- <-.
    assert (NT : ~ In (BI i) tb).
    { destruct (ex_start_at 0 o (cb_ex cb)) as [[n e]|]; [destruct (nat_mem n created)|]; injection TB as <- <-; cbn; intuition discriminate. }
    assert (NE : ~ In (BI i) ends) by (change ends with (fst (ends, cr2)); rewrite <- EE; apply ends_no_instr).
    rewrite !in_app_iff in I. destruct I as [I|[I|[I|[I|I]]]]; try tauto.
    + destruct (z_mem o tg); cbn in I; intuition discriminate.
    + destruct (prune && _).
      * destruct (get_jump_target v T c o); [discriminate|]. injection HB as <-. destruct I.
      * apply bind_ok in HB. destruct HB as (x & DA & HB). apply bind_ok in HB. destruct HB as (lo & LO & HB).
        apply bind_ok in HB. destruct HB as (j & NI & HB). injection HB as <-. destruct I as [I|[]]. injection I as ->.
        apply (new_instr_val v T wf) in NI. apply NI.
    + eapply IH; eauto.
Qed.
Lemma disassembled_legal v T cb prune conserve b : wf_optable v T = true -> to_bytecode v T cb prune conserve = Ok b -> all_legal v T b.
Proof.
  intros wf H i I. unfold to_bytecode in H.
  apply bind_ok in H. destruct H as (items & _ & H). apply bind_ok in H. destruct H as (u & _ & H).
  apply bind_ok in H. destruct H as ([[out labels] cr] & L & H). apply bind_ok in H. destruct H as (u2 & _ & H). apply bind_ok in H. destruct H as (u3 & _ & H).
  injection H as <-. eapply loop_legal; eauto.
Qed.

(** Arguments written as the disassembler writes them: numbers as plain integers (not as bools),
    and a cell variable that is also a local variable by its name where a local variable is
    expected. *)
Inductive occurs (x : pyobj) : pyobj -> Prop :=
| occ_here : occurs x x
| occ_fst a b : occurs x a -> occurs x (OTuple [a; b])
| occ_snd a b : occurs x b -> occurs x (OTuple [a; b]).
Definition plainly_written (v : pyver) (T : optable) (varnames : list string) (b : bytecode) : Prop :=
  forall i, In (BI i) (b_items b) ->
    (plain v T (i_op i) -> i_arg i = OUnset \/ exists a, i_arg i = OInt a)
    /\ (In (i_op i) (t_haslocal T) -> forall n, In n varnames -> ~ occurs (OCell n) (i_arg i)).

Lemma in_located pos l n o lo h : forall cur op, In (n, PObj o, lo, h) (located cur (walk pos op l)) ->
  exists i, In (BI i) l /\ i_name i = n /\ i_arg i = o.
Proof.
  induction l as [|x r IH]; intros cur op I; cbn in I; [destruct I|].
  destruct x; cbn in I; try (destruct (IH _ _ I) as (j & J & K); exists j; split; [now right|exact K]).
  destruct I as [I|I]; [|destruct (IH _ _ I) as (j & J & K); exists j; split; [now right|exact K]].
  injection I as <- A _ _. exists i. split; [now left|]. split; [reflexivity|]. destruct (i_arg i); cbn in A; congruence.
Qed.
Lemma any_located pos l n a lo h : forall cur op, In (n, a, lo, h) (located cur (walk pos op l)) -> exists i, In (BI i) l /\ i_name i = n.
Proof.
  induction l as [|x r IH]; intros cur op I; cbn in I; [destruct I|].
  destruct x; cbn in I; try (destruct (IH _ _ I) as (j & J & K); exists j; split; [now right|exact K]).
  destruct I as [I|I]; [|destruct (IH _ _ I) as (j & J & K); exists j; split; [now right|exact K]].
  injection I as <- A _ _. exists i. split; [now left|]. reflexivity.
Qed.
Lemma name_located pos l i : In (BI i) l -> forall cur op, exists a lo h, In (i_name i, a, lo, h) (located cur (walk pos op l)).
Proof.
  induction l as [|x r IH]; intros J cur op; [destruct J|]. destruct J as [->|J].
  - cbn. do 3 eexists. left. reflexivity.
  - destruct x; cbn; try (apply IH; exact J). edestruct (IH J) as (a & lo & h & K). do 3 eexists. right. exact K.
Qed.

Lemma same_arg_eq v T cb op o o' : (plain v T op -> o = OUnset \/ exists a, o = OInt a) ->
  (In op (t_haslocal T) -> forall n, In n (cb_varnames cb) -> ~ occurs (OCell n) o) ->
  same_arg v T cb op o o' -> o' = o.
Proof.
  intros P C S.
  assert (G : ~ plain v T op -> o' = o).
  { intros D. clear P. induction S as [x|x a PL A|n _ HL I|x y x' y' S1 IH1 S2 IH2]; auto; try tauto.
    + exfalso. apply (C HL n I). constructor.
    + rewrite IH1, IH2; auto; intros HL n I O; apply (C HL n I); solve [now apply occ_fst|now apply occ_snd]. }
  destruct S as [x|x a PL A|n _ HL I|x y x' y' S1 S2]; auto.
  - destruct (P PL) as [->|(z & ->)]; cbn in A; congruence.
  - exfalso. apply (C HL n I). constructor.
  - apply G. intros PL. destruct (P PL) as [Q|(z & Q)]; discriminate Q.
Qed.

Lemma disassembled_no_cache v T keq passes b cb conserve b' :
  wf_optable v T = true -> all_legal v T b -> all_members v b -> sound_key keq ->
  no_cache (b_items b) -> try_blocks (b_items b) ->
  (forall l k, used_label l (b_items b) -> position (b_items b) l = Some k -> (k < ninstrs (b_items b))%nat) ->
  to_concrete v T keq passes b = Ok cb ->
  free_not_local v cb ->
  (forall i n, In (BI i) (b_items b) -> is_dual v T (i_op i) = true -> In n (locals_of (i_arg i)) ->
     In n (firstn 16 (cb_varnames cb))) ->
  (forall e, In e (cb_ex cb) -> exists k, (k < length (instrs_of (cb_items cb)))%nat
     /\ e_start e = offset_of v (instrs_of (cb_items cb)) k) ->
  to_bytecode v T cb true conserve = Ok b' -> no_cache (b_items b').
Proof.
  intros wf HL HM HK NC TB HE H FN HP HS E1.
  destruct (C23_identity_partial v T keq passes b cb conserve wf HL HM HK NC TB HE H FN HP HS) as (b2 & Q & F). rewrite E1 in Q. injection Q as <-.
  intros i J. destruct (name_located (position (b_items b')) _ _ J (line_loc (Some (m_first_lineno (b_meta b')))) None) as (a & lo & h & K).
  change (In (i_name i, a, lo, h) (source b')) in K.
  destruct (P_CfgFrom4.Forall2_in2 _ _ _ _ F K) as ([[[n a0] l0] h0] & I & (E & _)). unfold source in I.
  destruct (any_located _ _ _ _ _ _ _ _ I) as (j & J1 & J2). rewrite E, <- J2. now apply NC.
Qed.

(** What the disassembled Bytecode is: the first one, but for the docstring and the exception table *)
Lemma again_setup : forall v T keq passes b cb conserve b',
  wf_optable v T = true -> all_legal v T b -> all_members v b -> sound_key keq -> (forall x : pyobj, keq x x = true) ->
  no_cache (b_items b) -> try_blocks (b_items b) ->
  (forall l k, used_label l (b_items b) -> position (b_items b) l = Some k -> (k < ninstrs (b_items b))%nat) ->
  to_concrete v T keq passes b = Ok cb ->
  free_not_local v cb ->
  (forall i n, In (BI i) (b_items b) -> is_dual v T (i_op i) = true -> In n (locals_of (i_arg i)) ->
     In n (firstn 16 (cb_varnames cb))) ->
  (forall e, In e (cb_ex cb) -> exists k, (k < length (instrs_of (cb_items cb)))%nat
     /\ e_start e = offset_of v (instrs_of (cb_items cb)) k) ->
  plainly_written v T (cb_varnames cb) b ->
  zlen (b_argnames b) = nargs_of (b_meta b) ->
  to_bytecode v T cb true conserve = Ok b' ->
  source b' = source b /\ all_legal v T b' /\ no_cache (b_items b') /\ b_argnames b' = b_argnames b /\ cb_meta cb = b_meta b /\
  exists d cbs, b_meta b' = with_doc (b_meta b) d
  /\ to_concrete v T keq passes (mkB (with_doc (b_meta b) d) (b_argnames b) (b_items b)) = Ok cbs
  /\ cb_items cbs = cb_items cb /\ cb_consts cbs = cb_consts cb /\ cb_names cbs = cb_names cb /\ cb_varnames cbs = cb_varnames cb
  /\ cb_meta cbs = with_doc (b_meta b) d /\ (m_docstring (b_meta b) <> OUnset -> d = m_docstring (b_meta b)).
Proof.
  intros v T keq passes b cb conserve b' wf HL HM HK RF NC TB HE H FN HP HS PW AN E1.
  destruct (C23_identity_partial v T keq passes b cb conserve wf HL HM HK NC TB HE H FN HP HS) as (b2 & Q & F).
  rewrite E1 in Q. injection Q as <-.
  destruct (assembled_consts v T keq passes b cb wf H) as (CM & CD & _).
  destruct (to_bytecode_meta v T cb true conserve b' E1) as [BM _]. rewrite CM in BM.
  set (d := set_docstring (m_docstring (b_meta b)) (cb_consts cb)) in *.
  assert (FL : m_first_lineno (b_meta b') = m_first_lineno (b_meta b)) by (rewrite BM; reflexivity).
  assert (AR := C42_argnames_survive v T keq passes b cb true conserve b' wf H E1 AN).
  assert (LB := disassembled_legal v T cb true conserve b' wf E1).
  assert (SO : source b' = source b).
  { unfold source. unfold program in F |- *. revert F. rewrite FL. generalize (line_loc (Some (m_first_lineno (b_meta b)))). intros cur F.
    assert (IN : forall n o lo h, In (n, PObj o, lo, h) (located cur (walk (position (b_items b)) None (b_items b))) ->
      forall op o', opmap T n = Some op -> same_arg v T cb op o o' -> o' = o).
    { intros n o lo h I op o' O S. destruct (in_located _ _ _ _ _ _ _ _ I) as (i & J & <- & <-).
      destruct (HL i J) as (O2 & _). rewrite O in O2. injection O2 as ->. destruct (PW i J) as [P1 P2]. eapply same_arg_eq; eauto. }
    induction F as [|[[[n a] l] h] [[[n' a'] l'] h'] xs ys (-> & -> & -> & A) F IH]; [reflexivity|]. f_equal.
    - destruct a as [k|o], a' as [k'|o']; try destruct A; [now subst|]. destruct H0 as (O & S).
      repeat f_equal. eapply IN; [left; reflexivity|exact O|exact S].
    - apply IH. intros. eapply IN; eauto. right. eassumption. }
  assert (NC' : no_cache (b_items b')).
  { intros i J. destruct (name_located (position (b_items b')) _ _ J (line_loc (Some (m_first_lineno (b_meta b')))) None) as (a & lo & h & K).
    change (In (i_name i, a, lo, h) (source b')) in K. rewrite SO in K. unfold source in K.
    destruct (any_located _ _ _ _ _ _ _ _ K) as (j & J1 & <-). now apply NC. }
  assert (X : exists cbs, to_concrete v T keq passes (mkB (with_doc (b_meta b) d) (b_argnames b) (b_items b)) = Ok cbs
     /\ cb_items cbs = cb_items cb /\ cb_consts cbs = cb_consts cb /\ cb_names cbs = cb_names cb /\ cb_varnames cbs = cb_varnames cb
     /\ cb_meta cbs = with_doc (b_meta b) d /\ (m_docstring (b_meta b) <> OUnset -> d = m_docstring (b_meta b))).
  { assert (SAME : d = m_docstring (b_meta b) -> to_concrete v T keq passes (mkB (with_doc (b_meta b) d) (b_argnames b) (b_items b)) = Ok cb).
    { intros ->. rewrite <- H. f_equal. destruct b as [m ar it]. destruct m. reflexivity. }
    assert (DE : m_docstring (b_meta b) <> OUnset -> d = m_docstring (b_meta b)).
    { intros N. specialize (CD N). unfold d, set_docstring. destruct (cb_consts cb) as [|c r]; [reflexivity|]. cbn in CD. injection CD as ->. destruct (m_docstring (b_meta b)); reflexivity. }
    assert (D : d = m_docstring (b_meta b) \/ (m_docstring (b_meta b) = OUnset /\ d <> OUnset /\ exists r, cb_consts cb = d :: r)).
    { destruct (m_docstring (b_meta b)) eqn:ED; try (left; apply DE; discriminate).
      unfold d, set_docstring. destruct (cb_consts cb) as [|c r]; [now left|].
      destruct c; try (now left); right; (split; [reflexivity|]; split; [discriminate|eauto]). }
    destruct D as [D|(D1 & D2 & r & D3)].
    - exists cb. split; [now apply SAME|]. rewrite CM. repeat split; auto. rewrite D. destruct (b_meta b); reflexivity.
    - eexists. split; [eapply to_concrete_doc; eauto|]. cbn. rewrite CM. repeat split; auto. }
  destruct X as (cbs & ES & X1 & X2 & X3 & X4 & X5 & X6).
  do 3 (split; [assumption|]). split; [exact AR|]. split; [exact CM|]. exists d, cbs. repeat (split; [assumption|]). assumption.
Qed.

(** For a Bytecode that says what the disassembled one says *)
Lemma again_any : forall v T keq passes passes' b cb conserve b' bx cb',
  wf_optable v T = true -> all_legal v T b -> all_members v b -> sound_key keq -> (forall x, keq x x = true) ->
  no_cache (b_items b) -> try_blocks (b_items b) ->
  (forall l k, used_label l (b_items b) -> position (b_items b) l = Some k -> (k < ninstrs (b_items b))%nat) ->
  to_concrete v T keq passes b = Ok cb ->
  free_not_local v cb ->
  (forall i n, In (BI i) (b_items b) -> is_dual v T (i_op i) = true -> In n (locals_of (i_arg i)) ->
     In n (firstn 16 (cb_varnames cb))) ->
  (forall e, In e (cb_ex cb) -> exists k, (k < length (instrs_of (cb_items cb)))%nat
     /\ e_start e = offset_of v (instrs_of (cb_items cb)) k) ->
  plainly_written v T (cb_varnames cb) b ->
  zlen (b_argnames b) = nargs_of (b_meta b) ->
  to_bytecode v T cb true conserve = Ok b' ->
  all_legal v T bx -> no_cache (b_items bx) -> b_meta bx = b_meta b' -> b_argnames bx = b_argnames b' -> map bare (source bx) = map bare (source b') ->
  to_concrete v T keq passes' bx = Ok cb' ->
  source b' = source b /\ all_legal v T b' /\ no_cache (b_items b') /\
  cb_items cb' = cb_items cb
  /\ cb_consts cb' = cb_consts cb /\ cb_names cb' = cb_names cb /\ cb_varnames cb' = cb_varnames cb
  /\ but_docstring (cb_meta cb') = but_docstring (cb_meta cb)
  /\ (m_docstring (b_meta b) <> OUnset -> cb_meta cb' = cb_meta cb).
Proof.
  intros v T keq passes passes' b cb conserve b' bx cb' wf HL HM HK RF NC TB HE H FN HP HS PW AN E1 LX CX MX AX SX E2.
  destruct (again_setup v T keq passes b cb conserve b' wf HL HM HK RF NC TB HE H FN HP HS PW AN E1)
    as (SO & LB & NC' & AR & CM & d & cbs & BM' & ES & X1 & X2 & X3 & X4 & X5 & X6).
  destruct (to_concrete_only v T keq passes' passes bx (mkB (with_doc (b_meta b) d) (b_argnames b) (b_items b)) cb' cbs LX HL CX NC (eq_trans MX BM') (eq_trans AX AR) (eq_trans SX (f_equal (map bare) SO)) E2 ES) as (R1 & R2 & R3 & R4 & R5).
  split; [exact SO|]. split; [exact LB|]. split; [exact NC'|].
  rewrite R2, R3, R4, R5, R1, X1, X2, X3, X4, X5, CM. repeat (split; [reflexivity|]). intros N. rewrite (X6 N). destruct (b_meta b); reflexivity.
Qed.

(** C70.  A Bytecode (with no explicit CACHE, matched nonempty try blocks etc.: the conditions of
    C23), assembled, disassembled and assembled again, gives the ConcreteBytecode it gave the first
    time: the same concrete instructions, with the same numbers and locations, the same tables in
    the same order and the same attributes but for the docstring, which is not part of the
    instructions or tables when it is not set (C42).  (The exception table: C21 and C49.)  There
    must be one argument name per argument counted (C43). *)
Theorem C70_again_partial : forall v T keq passes passes' b cb conserve b' cb',
  wf_optable v T = true -> all_legal v T b -> all_members v b -> sound_key keq -> (forall x, keq x x = true) ->
  no_cache (b_items b) -> try_blocks (b_items b) ->
  (forall l k, used_label l (b_items b) -> position (b_items b) l = Some k -> (k < ninstrs (b_items b))%nat) ->
  to_concrete v T keq passes b = Ok cb ->
  free_not_local v cb ->
  (forall i n, In (BI i) (b_items b) -> is_dual v T (i_op i) = true -> In n (locals_of (i_arg i)) ->
     In n (firstn 16 (cb_varnames cb))) ->
  (forall e, In e (cb_ex cb) -> exists k, (k < length (instrs_of (cb_items cb)))%nat
     /\ e_start e = offset_of v (instrs_of (cb_items cb)) k) ->
  plainly_written v T (cb_varnames cb) b ->
  zlen (b_argnames b) = nargs_of (b_meta b) ->
  to_bytecode v T cb true conserve = Ok b' -> to_concrete v T keq passes' b' = Ok cb' ->
  cb_items cb' = cb_items cb
  /\ cb_consts cb' = cb_consts cb /\ cb_names cb' = cb_names cb /\ cb_varnames cb' = cb_varnames cb
  /\ but_docstring (cb_meta cb') = but_docstring (cb_meta cb)
  /\ (m_docstring (b_meta b) <> OUnset -> cb_meta cb' = cb_meta cb).
Proof.
  intros v T keq passes passes' b cb conserve b' cb' wf HL HM HK RF NC TB HE H FN HP HS PW AN E1 E2.
  assert (LB := disassembled_legal v T cb true conserve b' wf E1).
  assert (NC' : no_cache (b_items b')).
  { exact (disassembled_no_cache v T keq passes b cb conserve b' wf HL HM HK NC TB HE H FN HP HS E1). }
  apply (again_any v T keq passes passes' b cb conserve b' b' cb'); auto.
Qed.
Print Assumptions C70_again_partial.

(** A function with a docstring, a loop, a try block, wide arguments and inherited lines *)
Definition meta70 : meta := mkMeta 1 0 0 7 "f" "C.f" "f.py" (OStr "doc") [] [] 3.
Definition ex70 : bytecode := mkB meta70 ["x"]
  ([BLabel 0; BSet 9; ins "LOAD_GLOBAL" (OTuple [OBool true; OStr "f"]); ins "POP_JUMP_FORWARD_IF_TRUE" (OLabel 1);
    BTB 7 (OLabel 3) true (Some 1); ins "LOAD_FAST" (OStr "y"); ins "LOAD_CONST" (OInt 5); BTE 7]
   ++ repeat (ins "NOP" OUnset) 300
   ++ [ins "JUMP_BACKWARD" (OLabel 0); BLabel 3; ins "RERAISE" (OInt 1); BLabel 1; ins "LOAD_FAST" (OStr "x"); ins "RETURN_VALUE" OUnset]).
Definition check_written (v : pyver) (T : optable) (b : bytecode) : bool :=
  forallb (fun it => match it with
    | BI i => match i_arg i with
              | OUnset | OInt _ => true
              | OStr _ | OTuple [OBool _; OStr _] | OLabel _ =>
                  z_mem (i_op i) (t_hasjrel T) || z_mem (i_op i) (t_hasjabs T) || z_mem (i_op i) (t_haslocal T) || z_mem (i_op i) (t_hasname T) || z_mem (i_op i) (t_hasconst T)
              | _ => false end
    | _ => true end) (b_items b).
Lemma check_written_ok v T vs b : check_written v T b = true -> plainly_written v T vs b.
Proof.
  unfold check_written. rewrite forallb_forall. intros H i I. specialize (H _ I). cbv beta iota in H.
  split.
  - intros P. assert (D : (i_arg i = OUnset \/ exists a, i_arg i = OInt a) \/ z_mem (i_op i) (t_hasjrel T) || z_mem (i_op i) (t_hasjabs T) || z_mem (i_op i) (t_haslocal T) || z_mem (i_op i) (t_hasname T) || z_mem (i_op i) (t_hasconst T) = true).
    { destruct (i_arg i) as [|bo|z|s|l| | | | | | | | |]; try discriminate H; try (left; right; eexists; reflexivity); try (left; left; reflexivity); right; try exact H.
      destruct l as [|[] [|[] []]]; try discriminate H; exact H. }
    destruct D as [D|D]; [exact D|]. exfalso. destruct P as (P1 & _ & P2 & P3 & P4 & _). unfold jumps in P1.
    repeat (apply orb_true_iff in D; destruct D as [D|D]); apply z_mem_In in D; tauto.
  - intros _ n _ O. inversion O as [E|x y Q E|x y Q E]; rewrite <- E in H; try discriminate H; destruct x; try discriminate H; destruct y; try discriminate H; inversion Q.
Qed.

Example C70_ex : exists cb b',
  all_legal V311 T311 ex70 /\ no_cache (b_items ex70) /\ try_blocks (b_items ex70) /\ check_used (b_items ex70) = true
  /\ to_concrete V311 T311 keq0 default_passes ex70 = Ok cb /\ check_starts V311 cb = true
  /\ plainly_written V311 T311 (cb_varnames cb) ex70 /\ zlen (b_argnames ex70) = nargs_of (b_meta ex70)
  /\ to_bytecode V311 T311 cb true true = Ok b'
  /\ to_concrete V311 T311 keq0 default_passes b' = Ok cb.
Proof.
  match goal with |- exists cb b', _ /\ _ /\ _ /\ _ /\ ?r = _ /\ _ => let x := eval vm_compute in r in match x with Ok ?c => exists c end end.
  match goal with |- exists b', _ /\ _ /\ _ /\ _ /\ _ /\ _ /\ _ /\ _ /\ ?r = _ /\ _ => let x := eval vm_compute in r in match x with Ok ?c => exists c end end.
  split; [apply check_legal_ok; [exact T311_wf|]; vm_compute; reflexivity|].
  split. { intros i I E. assert (X : existsb (fun it => is_cache (Some it)) (b_items ex70) = true).
    { apply existsb_exists. exists (BI i). split; [exact I|]. cbn. now apply String.eqb_eq. } vm_compute in X. discriminate. }
  split. { split; [repeat constructor; intros []|]. vm_compute. auto. }
  split; [vm_compute; reflexivity|]. split; [vm_compute; reflexivity|]. split; [vm_compute; reflexivity|].
  split; [apply check_written_ok; vm_compute; reflexivity|]. split; [vm_compute; reflexivity|].
  split; vm_compute; reflexivity.
Qed.

(** Names in argnames beyond the number of arguments counted are lost on the way *)
Theorem C70_argnames_refuted : ~ forall b cb b' cb', writable V311 T311 b ->
  to_concrete V311 T311 keq0 default_passes b = Ok cb -> to_bytecode V311 T311 cb true true = Ok b' ->
  to_concrete V311 T311 keq0 default_passes b' = Ok cb' -> cb_varnames cb' = cb_varnames cb.
Proof.
  intros H. set (b := mkB meta0 ["x"] [ins "LOAD_CONST" ONone; ins "RETURN_VALUE" OUnset]).
  assert (W : writable V311 T311 b) by (apply check_writable_ok; [exact T311_wf|]; vm_compute; reflexivity).
  destruct (to_concrete V311 T311 keq0 default_passes b) as [cb|] eqn:E; [|vm_compute in E; discriminate E].
  destruct (to_bytecode V311 T311 cb true true) as [b'|] eqn:F; [|vm_compute in E; injection E as <-; vm_compute in F; discriminate F].
  destruct (to_concrete V311 T311 keq0 default_passes b') as [cb'|] eqn:G.
  - specialize (H _ _ _ _ W E F G). clear W. vm_compute in E. injection E as <-. vm_compute in F. injection F as <-. vm_compute in G. injection G as <-. discriminate H.
  - clear W H. vm_compute in E. injection E as <-. vm_compute in F. injection F as <-. vm_compute in G. discriminate G.
Qed.
Print Assumptions C70_argnames_refuted.
