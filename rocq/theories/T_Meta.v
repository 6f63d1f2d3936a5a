(** Property theorems: metadata survives conversions (C42). *)
From Verif Require Import PyBase OpTable CPy Table311 P_Base M_Instr M_Tables M_Concrete M_Convert M_Bytecode M_Cfg
  P_Conv P_Layout P_Ident3 T_Asm.
Open Scope string_scope.
Open Scope list_scope.
Open Scope Z_scope.

(** The three kinds of objects, and the conversions between them. *)
Inductive obj : Type := XB (b : bytecode) | XC (c : cbytecode) | XG (g : cfg).
Definition attributes (x : obj) : meta := match x with XB b => b_meta b | XC c => cb_meta c | XG g => g_meta g end.

Inductive conversion (v : pyver) (T : optable) : obj -> obj -> Prop :=
| cv_assemble keq passes b c : to_concrete v T keq passes b = Ok c -> conversion v T (XB b) (XC c)
| cv_disassemble c prune conserve b : to_bytecode v T c prune conserve = Ok b -> conversion v T (XC c) (XB b)
| cv_to_cfg b g : from_bytecode T b = Ok g -> conversion v T (XB b) (XG g)
| cv_from_cfg g b : cfg_to_bytecode T g = Ok b -> conversion v T (XG g) (XB b).

Inductive conversions (v : pyver) (T : optable) : obj -> obj -> Prop :=
| cvs_none x : conversions v T x x
| cvs_more x y z : conversion v T x y -> conversions v T y z -> conversions v T x z.

(** A ConcreteBytecode whose docstring is the first constant (a string or None), as CPython has
    it and as from_code reads it. *)
Definition doc_in_consts (x : obj) : Prop :=
  match x with
  | XC c => match m_docstring (cb_meta c) with OUnset => True | d => hd_error (cb_consts c) = Some d end
  | _ => True
  end.
(** The docstring is a string or None. *)
Definition is_docstring (d : pyobj) : Prop := d = ONone \/ exists s, d = OStr s.

(** All attributes but the docstring. *)
Definition but_docstring (m : meta) : meta :=
  mkMeta (m_argcount m) (m_posonly m) (m_kwonly m) (m_first_lineno m) (m_name m) (m_qualname m) (m_filename m)
    OUnset (m_cellvars m) (m_freevars m) (m_flags m).

Lemma copy_attr_id m : copy_attr m = m.
Proof. destruct m; reflexivity. Qed.

Lemma prescan_ext v T names items names' : prescan v T names items = Ok names' -> extends names names'.
Proof.
  unfold prescan. destruct (PY313 v); [|intros H; injection H as <-; exists []; now rewrite app_nil_r].
  intros H. apply bind_ok in H. destruct H as ([n s] & H & E). injection E as <-. revert H. generalize false.
  revert names. induction items as [|it items IH]; intros names s0 H; cbn [foldM] in H.
  - injection H as <- <-. exists []. now rewrite app_nil_r.
  - apply bind_ok in H. destruct H as ([n1 s1] & H1 & H). apply IH in H. eapply extends_trans; [|exact H]. clear H IH.
    unfold prescan_item in H1. apply bind_ok in H1. destruct H1 as (s2 & _ & H1).
    assert (R : extends names names) by (exists []; now rewrite app_nil_r).
    destruct it; try (injection H1 as <- <-; exact R). destruct (is_dual v T (i_op i)); [|injection H1 as <- <-; exact R].
    destruct (i_arg i); try discriminate H1. apply bind_ok in H1. destruct H1 as (n2 & H1 & E). injection E as <- <-.
    clear R. revert names H1. induction l as [|o l IH]; intros names H1; cbn [foldM] in H1.
    + injection H1 as <-. exists []. now rewrite app_nil_r.
    + apply bind_ok in H1. destruct H1 as (n3 & H2 & H1). apply IH in H1. eapply extends_trans; [|exact H1].
      destruct o as [| | |nm| | | | | | | | | |]; try discriminate H2. injection H2 as <-. destruct (add_name names nm) as [nn j] eqn:AN. cbn. eapply add_name_ext; eauto.
Qed.

Lemma assembled_consts v T keq passes b c : wf_optable v T = true -> to_concrete v T keq passes b = Ok c ->
  cb_meta c = b_meta b /\ (m_docstring (b_meta b) <> OUnset -> hd_error (cb_consts c) = Some (m_docstring (b_meta b)))
  /\ exists t, cb_varnames c = b_argnames b ++ t.
Proof.
  intros wf H. destruct (to_concrete_assembled v T keq wf passes b c H) as (vn & K0 & gs0 & Kf & gs & en & A).
  pose proof (trace_ext _ _ _ _ _ _ _ _ (as_trace _ _ _ _ _ _ _ _ _ _ _ A)) as (X1 & _ & X3).
  destruct (as_K0 _ _ _ _ _ _ _ _ _ _ _ A) as (tr & E). rewrite E in X1, X3. cbn [k_consts k_varnames] in X1, X3.
  rewrite (as_cb _ _ _ _ _ _ _ _ _ _ _ A). cbn. split; [reflexivity|]. split.
  - intros N. destruct X1 as [t ->]. destruct (m_docstring (b_meta b)); try reflexivity. congruence.
  - pose proof (as_prescan _ _ _ _ _ _ _ _ _ _ _ A) as P. apply prescan_ext in P.
    destruct (extends_trans _ _ _ P X3) as [t ->]. eauto.
Qed.

(** C42.  Any chain of conversions keeps all the attributes other than the docstring; and the
    docstring too when it is a string or None. *)
Theorem C42_attributes_partial : forall v T x y,
  wf_optable v T = true -> conversions v T x y ->
  but_docstring (attributes y) = but_docstring (attributes x)
  /\ (doc_in_consts x -> is_docstring (m_docstring (attributes x)) -> attributes y = attributes x).
Proof.
  intros v T x y wf H. induction H as [x|x y z C H [IH1 IH2]]; [auto|].
  assert (S : but_docstring (attributes y) = but_docstring (attributes x)
    /\ (doc_in_consts x -> is_docstring (m_docstring (attributes x)) -> attributes y = attributes x /\ doc_in_consts y)).
  { destruct C as [keq passes b c E|c prune conserve b E|b g E|g b E]; cbn [attributes].
    - destruct (assembled_consts v T keq passes b c wf E) as (M & D & _). rewrite M. split; [reflexivity|].
      intros _ DS. split; [reflexivity|]. cbn. rewrite M.
      assert (N : m_docstring (b_meta b) <> OUnset) by (destruct DS as [-> |(s & ->)]; discriminate).
      specialize (D N). destruct (m_docstring (b_meta b)); auto.
    - destruct (to_bytecode_meta v T c prune conserve b E) as [M _]. rewrite M. split; [reflexivity|].
      cbn [attributes]. intros DC DS. split; [|exact Logic.I]. cbn in DC.
      assert (X : set_docstring (m_docstring (cb_meta c)) (cb_consts c) = m_docstring (cb_meta c)).
      { unfold set_docstring. destruct (cb_consts c) as [|k r]; [reflexivity|].
        destruct DS as [DS|(s & DS)]; rewrite DS in DC |- *; cbn in DC; injection DC as ->; reflexivity. }
      rewrite X. destruct (cb_meta c); reflexivity.
    - unfold from_bytecode in E. destruct (iterate false (b_items b)) as [ys stop].
      repeat (apply bind_ok in E; destruct E as (? & _ & E)). injection E as <-. cbn. rewrite copy_attr_id. auto.
    - unfold cfg_to_bytecode in E. repeat (apply bind_ok in E; destruct E as (? & _ & E)). injection E as <-. cbn. rewrite copy_attr_id. auto. }
  destruct S as [S1 S2]. split; [congruence|]. intros DC DS. destruct (S2 DC DS) as [E D].
  rewrite IH2; auto. now rewrite E.
Qed.
Print Assumptions C42_attributes_partial.

(** Code objects are read with the docstring first among the constants. *)
Theorem C42_code_objects : forall v T co ext cb, from_code v T co ext = Ok cb -> doc_in_consts (XC cb).
Proof.
  intros v T co ext cb H. unfold from_code in H. repeat (apply bind_ok in H; destruct H as (? & _ & H)). injection H as <-. cbn.
  destruct (co_consts co) as [|[] r]; cbn; auto.
Qed.
Print Assumptions C42_code_objects.

(** A docstring that is not set becomes the first constant when that is a string (or None). *)
Theorem C42_unset_docstring_refuted :
  ~ (forall v T x y, wf_optable v T = true -> conversions v T x y -> attributes y = attributes x).
Proof.
  intros H. set (b := mkB meta0 [] [ins "LOAD_CONST" (OStr "hello"); ins "RETURN_VALUE" OUnset]).
  destruct (to_concrete V311 T311 keq0 default_passes b) as [c|] eqn:E; [|vm_compute in E; discriminate].
  destruct (to_bytecode V311 T311 c true false) as [b'|] eqn:E2.
  - assert (X : attributes (XB b') = attributes (XB b)).
    { apply (H V311 T311 _ _ T311_wf). eapply cvs_more; [eapply cv_assemble; exact E|]. eapply cvs_more; [eapply cv_disassemble; exact E2|constructor]. }
    vm_compute in E. injection E as <-. vm_compute in E2. injection E2 as <-. discriminate X.
  - vm_compute in E. injection E as <-. vm_compute in E2. discriminate E2.
Qed.
Print Assumptions C42_unset_docstring_refuted.

(** Argument names survive assembling and disassembling when there is one per argument counted. *)
Theorem C42_argnames_survive : forall v T keq passes b c prune conserve b',
  wf_optable v T = true -> to_concrete v T keq passes b = Ok c -> to_bytecode v T c prune conserve = Ok b' ->
  zlen (b_argnames b) = nargs_of (b_meta b) -> b_argnames b' = b_argnames b.
Proof.
  intros v T keq passes b c prune conserve b' wf E E2 L.
  destruct (assembled_consts v T keq passes b c wf E) as (M & _ & t & V).
  destruct (to_bytecode_meta v T c prune conserve b' E2) as [_ A]. rewrite A, M, V, <- L. unfold zlen. rewrite Nat2Z.id.
  rewrite firstn_app, Nat.sub_diag, firstn_all, firstn_O. apply app_nil_r.
Qed.
Print Assumptions C42_argnames_survive.

(** A function with a docstring, assembled, disassembled, made a graph and back. *)
Definition meta42 : meta := mkMeta 1 0 0 7 "f" "C.f" "f.py" (OStr "doc") ["c"] ["g"] 3.
Example C42_ex : exists c b g b2,
  to_concrete V311 T311 keq0 default_passes (mkB meta42 ["x"] [ins "LOAD_FAST" (OStr "x"); ins "RETURN_VALUE" OUnset]) = Ok c
  /\ doc_in_consts (XC c) /\ to_bytecode V311 T311 c true false = Ok b /\ from_bytecode T311 b = Ok g /\ cfg_to_bytecode T311 g = Ok b2
  /\ b_meta b2 = meta42 /\ b_argnames b2 = ["x"] /\ zlen ["x"] = nargs_of meta42.
Proof. do 4 eexists. repeat (split; [vm_compute; reflexivity|]). vm_compute; reflexivity. Qed.
