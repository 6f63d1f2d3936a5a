(** A docstring that is the first constant anyway makes no difference (C70). *)
From Verif Require Import PyBase OpTable P_Base M_Instr M_Tables M_Concrete M_Convert S_Args S_Asm P_Conv P_CfgTo2.
Open Scope string_scope.
Open Scope list_scope.
Open Scope Z_scope.

Definition with_doc (m : meta) (d : pyobj) : meta :=
  mkMeta (m_argcount m) (m_posonly m) (m_kwonly m) (m_first_lineno m) (m_name m) (m_qualname m) (m_filename m) d (m_cellvars m) (m_freevars m) (m_flags m).
Definition withc (K : conv) (c : list pyobj) : conv :=
  mkK (k_instrs K) (k_jumps K) (k_labels K) (k_ex K) (k_req K) (k_manual K) c (k_names K) (k_varnames K) (k_loc K) (k_cells K) (k_frees K) (k_try K).

Section Doc.
  Variables (v : pyver) (T : optable) (keq : pyobj -> pyobj -> bool) (m : meta) (s : pyobj).
  Hypothesis (RF : keq s s = true).

  Lemma flush_withc K c it K' : flush_caches v T K it = Ok K' -> flush_caches v T (withc K c) it = Ok (withc K' c) /\ k_consts K' = k_consts K.
  Proof.
    destruct K as [ins jumps labels ex req manual co na va lo ce fr tr]. unfold flush_caches, withc. cbn [k_instrs k_jumps k_labels k_ex k_req k_manual k_names k_varnames k_loc k_cells k_frees k_try].
    destruct (is_cache it); [destruct (req =? 0); [discriminate|]; intros E; injection E as <-; auto|].
    destruct (req =? 0); [intros E; injection E as <-; auto|]. destruct manual; [discriminate|]. intros E.
    apply bind_ok in E. destruct E as (la & L & E). rewrite L. cbn [bind]. apply bind_ok in E. destruct E as (c1 & Q & E). rewrite Q. cbn [bind]. injection E as <-. auto.
  Qed.

  Lemma encode_doc K i d : encode_arg v T keq (with_doc m d) K i = encode_arg v T keq m K i.
  Proof. reflexivity. Qed.

  Lemma encode_withc K i co na va f n a k : k_consts K = [] -> encode_arg v T keq m K i = Ok (co, na, va, f, n, a, k) ->
    (co = [] /\ encode_arg v T keq m (withc K [s]) i = Ok ([s], na, va, f, n, a, k))
    \/ (exists x, co = [x] /\ (x = s -> encode_arg v T keq m (withc K [s]) i = Ok (co, na, va, f, n, a, k))).
  Proof.
    destruct K as [ins jumps labels ex req manual co0 na0 va0 lo ce fr tr]. cbn [k_consts]. intros ->. unfold encode_arg, withc. cbn [k_consts k_names k_varnames].
    assert (CN : forall x, add_const keq [] x = ([x], 0)) by reflexivity.
    assert (CS : add_const keq [s] s = ([s], 0)) by (unfold add_const; cbn; rewrite RF; reflexivity).
    destruct (i_arg i) as [|bo|z|st|l| |lb|bl|ce1|fr1|cm|i1|i2|ty id] eqn:EA; cbn iota;
      try (intros E; injection E as <- <- <- <- <- <- <-; left; split; reflexivity).
    all: destruct (z_mem (i_op i) (t_hasconst T)); [rewrite CN; intros E; injection E as <- <- <- <- <- <- <-; right; eexists; split; [reflexivity|]; intros X; rewrite X, CS; reflexivity|].
    all: intros E; left; revert E.
    all: repeat match goal with
      | |- (match ?x with _ => _ end) = _ -> _ => destruct x; try discriminate
      | |- (if ?x then _ else _) = _ -> _ => destruct x; try discriminate
      end; intros E; inversion E; subst; auto.
  Qed.

  Lemma body_withc d K it K' : k_consts K = [] -> conv_body v T keq m K it = Ok K' ->
    (k_consts K' = [] /\ conv_body v T keq (with_doc m d) (withc K [s]) it = Ok (withc K' [s]))
    \/ (exists x, k_consts K' = [x] /\ (x = s -> conv_body v T keq (with_doc m d) (withc K [s]) it = Ok K')).
  Proof.
    intros C E. destruct it as [i|l|z|id t la dd|id].
    - unfold conv_body in *. assert (EN := encode_withc K i). destruct K as [ins jumps labels ex req manual co na va lo ce fr tr]. 
      apply bind_ok in E. destruct E as ([[[[[[co1 na1] va1] first] name] arg] kind] & E1 & E).
      apply bind_ok in E. destruct E as ([ins1 pos] & E2 & E). apply bind_ok in E. destruct E as (c & E3 & E). injection E as <-.
      cbn [k_consts]. destruct (EN _ _ _ _ _ _ _ C E1) as [(-> & Q)|(x & -> & Q)].
      + left. split; [reflexivity|]. unfold withc. cbn [k_instrs k_jumps k_labels k_ex k_req k_manual k_names k_varnames k_loc k_cells k_frees k_try k_consts]. rewrite encode_doc. unfold withc in Q. cbn [k_instrs k_jumps k_labels k_ex k_req k_manual k_names k_varnames k_loc k_cells k_frees k_try] in Q. rewrite Q. cbn [bind]. rewrite E2. cbn [bind]. rewrite E3. reflexivity.
      + right. exists x. split; [reflexivity|]. intros X. specialize (Q X). unfold withc. cbn [k_instrs k_jumps k_labels k_ex k_req k_manual k_names k_varnames k_loc k_cells k_frees k_try k_consts]. rewrite encode_doc. unfold withc in Q. cbn [k_instrs k_jumps k_labels k_ex k_req k_manual k_names k_varnames k_loc k_cells k_frees k_try] in Q. rewrite Q. cbn [bind]. rewrite E2. cbn [bind]. rewrite E3. reflexivity.
    - left. destruct K. cbn in *. injection E as <-. auto.
    - left. destruct K. cbn in *. injection E as <-. auto.
    - left. destruct K. cbn in *. apply bind_ok in E. destruct E as (q & -> & E). injection E as <-. auto.
    - left. destruct K. cbn in *. apply bind_ok in E. destruct E as (q & -> & E). injection E as <-. auto.
  Qed.

  Lemma item_withc d K it K' : k_consts K = [] -> conv_item v T keq m K it = Ok K' ->
    (k_consts K' = [] /\ conv_item v T keq (with_doc m d) (withc K [s]) it = Ok (withc K' [s]))
    \/ (exists x, k_consts K' = [x] /\ (x = s -> conv_item v T keq (with_doc m d) (withc K [s]) it = Ok K')).
  Proof.
    intros C E. unfold conv_item in *. apply bind_ok in E. destruct E as (tr & TR & E).
    destruct K as [ins jumps labels ex req manual co na va lo ce fr tr0]. unfold withc. cbn [k_instrs k_jumps k_labels k_ex k_req k_manual k_names k_varnames k_loc k_cells k_frees k_try k_consts] in *.
    apply bind_ok in E. destruct E as (K1 & F & E). destruct (flush_withc _ [s] _ _ F) as [F' C1]. cbn [k_consts] in C1.
    unfold withc at 1 in F'. cbn [k_instrs k_jumps k_labels k_ex k_req k_manual k_names k_varnames k_loc k_cells k_frees k_try] in F'.
    rewrite TR. cbn [bind]. rewrite F'. cbn [bind]. apply body_withc; congruence.
  Qed.

  Lemma item_doc d K it : conv_item v T keq (with_doc m d) K it = conv_item v T keq m K it.
  Proof. reflexivity. Qed.
  Lemma fold_doc d items : forall K, foldM (conv_item v T keq (with_doc m d)) items K = foldM (conv_item v T keq m) items K.
  Proof. reflexivity. Qed.

  Lemma body_grows K it K' : conv_body v T keq m K it = Ok K' -> exists t, k_consts K' = k_consts K ++ t.
  Proof.
    assert (N : forall l, exists t, l = l ++ t :> list pyobj) by (intros l; exists []; now rewrite app_nil_r).
    intros E. destruct it as [i|l|z|id t la dd|id]; destruct K as [ins jumps labels ex req manual co na va lo ce fr tr].
    - unfold conv_body in E. apply bind_ok in E. destruct E as ([[[[[[co1 na1] va1] first] name] arg] kind] & E1 & E).
      apply bind_ok in E. destruct E as ([ins1 pos] & E2 & E). apply bind_ok in E. destruct E as (c & E3 & E). injection E as <-. cbn [k_consts].
      clear - E1 N. revert E1. unfold encode_arg. cbn [k_consts k_names k_varnames].
      destruct (i_arg i) eqn:EA; cbn iota; try (intros E; injection E as <- <- <- <- <- <- <-; apply N).
      all: destruct (z_mem (i_op i) (t_hasconst T)); [unfold add_const; destruct (const_index _ _ _); intros E; injection E as <- <- <- <- <- <- <-; [apply N|eexists; reflexivity]|].
      all: repeat match goal with
        | |- (match ?x with _ => _ end) = _ -> _ => destruct x; try discriminate
        | |- (if ?x then _ else _) = _ -> _ => destruct x; try discriminate
        end; intros E; inversion E; subst; apply N.
    - cbn in E. injection E as <-. apply N.
    - cbn in E. injection E as <-. apply N.
    - cbn in E. apply bind_ok in E. destruct E as (q & _ & E). injection E as <-. apply N.
    - cbn in E. apply bind_ok in E. destruct E as (q & _ & E). injection E as <-. apply N.
  Qed.
  Lemma item_grows K it K' : conv_item v T keq m K it = Ok K' -> exists t, k_consts K' = k_consts K ++ t.
  Proof.
    unfold conv_item. intros E. apply bind_ok in E. destruct E as (tr & TR & E). destruct K as [ins jumps labels ex req manual co na va lo ce fr tr0].
    apply bind_ok in E. destruct E as (K1 & F & E). destruct (flush_withc _ [] _ _ F) as [_ C1]. cbn [k_consts] in *. rewrite <- C1. eapply body_grows; eauto.
  Qed.
  Lemma fold_grows items : forall K K', foldM (conv_item v T keq m) items K = Ok K' -> exists t, k_consts K' = k_consts K ++ t.
  Proof.
    induction items as [|x r IH]; intros K K' E; cbn [foldM] in E; [injection E as <-; exists []; now rewrite app_nil_r|].
    apply bind_ok in E. destruct E as (K1 & E1 & E). destruct (item_grows _ _ _ E1) as (t & Q). destruct (IH _ _ E) as (t' & Q').
    exists (t ++ t'). rewrite Q', Q. symmetry. apply app_assoc.
  Qed.

  Lemma fold_withc d items : forall K K' r, k_consts K = [] -> foldM (conv_item v T keq m) items K = Ok K' -> k_consts K' = s :: r ->
    foldM (conv_item v T keq (with_doc m d)) items (withc K [s]) = Ok K'.
  Proof.
    induction items as [|x l IH]; intros K K' r C E H; cbn [foldM] in *; [injection E as <-; congruence|].
    apply bind_ok in E. destruct E as (K1 & E1 & E).
    destruct (item_withc d K x K1 C E1) as [(C1 & Q)|(y & C1 & Q)].
    - rewrite Q. cbn [bind]. eapply IH; eauto.
    - destruct (fold_grows _ _ _ E) as (t & G). rewrite H, C1 in G. injection G as <- _. rewrite (Q eq_refl). cbn [bind]. exact E.
  Qed.
End Doc.

Lemma to_concrete_doc v T keq passes b cb s r : keq s s = true -> s <> OUnset -> m_docstring (b_meta b) = OUnset ->
  to_concrete v T keq passes b = Ok cb -> cb_consts cb = s :: r ->
  to_concrete v T keq passes (mkB (with_doc (b_meta b) s) (b_argnames b) (b_items b))
  = Ok (mkCB (with_doc (cb_meta cb) s) (cb_items cb) (cb_consts cb) (cb_names cb) (cb_varnames cb) (cb_ex cb)).
Proof.
  intros RF NU D E H. unfold to_concrete in *. rewrite D in E. cbn [b_meta b_argnames b_items].
  apply bind_ok in E. destruct E as ([K ins] & CI & E). apply bind_ok in E. destruct E as ([items ex] & J & E). injection E as <-. cbn [cb_consts] in H.
  unfold concrete_instructions in *. apply bind_ok in CI. destruct CI as (va & PS & CI).
  apply bind_ok in CI. destruct CI as (K1 & F & CI). apply bind_ok in CI. destruct CI as (K2 & FL & CI). apply bind_ok in CI. destruct CI as (i2 & FV & CI). injection CI as <- <-.
  assert (CC : k_consts K2 = k_consts K1) by exact (proj2 (flush_withc v T _ [] _ _ FL)).
  assert (CS : match m_docstring (with_doc (b_meta b) s) with OUnset => [] | d => fst (add_const keq [] d) end = [s]) by (cbn; destruct s; try reflexivity; congruence).
  rewrite CS, PS. cbn [bind]. rewrite CC in H. 
  assert (G := fold_withc v T keq (b_meta b) s RF s (b_items b) _ K1 r (eq_refl : k_consts (mkK [] [] [] [] 0 false [] [] va (line_loc (Some (m_first_lineno (b_meta b)))) [] [] false) = []) F H). unfold withc in G. cbn [k_instrs k_jumps k_labels k_ex k_req k_manual k_names k_varnames k_loc k_cells k_frees k_try] in G.
  change (m_first_lineno (with_doc (b_meta b) s)) with (m_first_lineno (b_meta b)). rewrite G. cbn [bind]. rewrite FL. cbn [bind].
  change (fix_vars v T (with_doc (b_meta b) s) K2) with (fix_vars v T (b_meta b) K2). rewrite FV. cbn [bind]. rewrite J. reflexivity.
Qed.
