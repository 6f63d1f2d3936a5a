(** The entries of STATIC_STACK_EFFECTS and DYNAMIC_STACK_EFFECTS against CPython, every version (C34). *)
From Verif Require Import PyBase OpTable P_Base M_Instr M_Concrete M_Stack P_Effect S_Effect.
Open Scope string_scope.
Open Scope list_scope.
Open Scope Z_scope.

(** pre_and_post on names, for instructions of the table of opcodes *)
Definition static_name (v : pyver) (n : string) : option (Z * Z) :=
  match dget String.eqb (static_effects v) n with
  | Some e => Some e
  | None => if has_prefix "UNARY_" n then Some (-1, 1)
            else if has_prefix "BINARY_" n || has_prefix "INPLACE_" n then Some (-2, 1) else None
  end.
Lemma static_known v T n op : opmap T n = Some op -> static_effect v T n = static_name v n.
Proof. intros E. unfold static_effect, static_name. rewrite E. reflexivity. Qed.

Lemma opcode_in_false T ns op : (forall n, In n ns -> opmap T n <> Some op) -> opcode_in T ns op = false.
Proof.
  intros H. unfold opcode_in. apply not_true_iff_false. intros E. apply existsb_exists in E. destruct E as (n & I & E).
  apply (H n I). unfold opcode_is in E. destruct (opmap T n) as [z|]; [|discriminate]. apply Z.eqb_eq in E. congruence.
Qed.

(** what dis.stack_effect is asked *)
Lemma asked_any v T se i j e : stack_effect v T se i j = Ok e -> exists a, se (i_op i) a j = Some e.
Proof.
  unfold stack_effect. intros E. assert (OP : forall x, of_option ValueError x = Ok e -> x = Some e) by (intros [x|]; cbn; congruence).
  destruct (negb _); [eauto|].
  assert (PL : match as_int (i_arg i) with
     | None => of_option ValueError (se (i_op i) (Some 0) j)
     | Some z => if z_mem (i_op i) (t_hasconst T) then of_option ValueError (se (i_op i) (Some 0) j)
                 else of_option ValueError (se (i_op i) (Some z) j) end = Ok e -> exists a, se (i_op i) a j = Some e).
  { intros Q. destruct (as_int (i_arg i)); [destruct (z_mem _ _)|]; eauto. }
  destruct (i_arg i) as [| | | |l| | | | | | | | |]; try (apply PL; exact E).
  assert (FI : forall k, bind (guard (Nat.eqb (length l) k) AssertionError) (fun _ =>
      bind (of_option IndexError (nth_error l 0)) (fun o => bind (of_option TypeError (as_int o)) (fun z =>
      of_option ValueError (se (i_op i) (Some z) j)))) = Ok e -> exists a, se (i_op i) a j = Some e).
  { intros k Q. apply bind_ok in Q. destruct Q as (? & _ & Q). apply bind_ok in Q. destruct Q as (o & _ & Q). apply bind_ok in Q. destruct Q as (z & _ & Q). eauto. }
  destruct (is_bitflag v T (i_op i)); [exact (FI _ E)|]. destruct (is_bitflag2 v T (i_op i)); [exact (FI _ E)|]. apply PL. exact E.
Qed.
Lemma asked_number v T se i j e : opcode_has_argument v T (i_op i) = true -> ~ In (i_op i) (t_hasconst T) ->
  opmap T "LOAD_GLOBAL" <> Some (i_op i) -> opmap T "LOAD_ATTR" <> Some (i_op i) -> opmap T "LOAD_SUPER_ATTR" <> Some (i_op i) ->
  stack_effect v T se i j = Ok e -> se (i_op i) (Some (arg_number i)) j = Some e.
Proof.
  intros HA NC G A S E. unfold stack_effect in E. rewrite HA in E. cbn [negb] in E.
  assert (B1 : is_bitflag v T (i_op i) = false).
  { unfold is_bitflag. destruct (PY312 v); [|destruct (PY311 v); [|reflexivity]]; apply opcode_in_false; cbn; intros n I; decompose [or] I; subst; tauto. }
  assert (B2 : is_bitflag2 v T (i_op i) = false).
  { unfold is_bitflag2. destruct (PY312 v); [|reflexivity]. apply opcode_in_false; cbn; intros n I; decompose [or] I; subst; tauto. }
  assert (CO : z_mem (i_op i) (t_hasconst T) = false).
  { apply not_true_iff_false. intros X. apply NC. unfold z_mem in X. apply existsb_exists in X. destruct X as (y & I & X). apply Z.eqb_eq in X. now subst. }
  rewrite B1, B2, CO in E. unfold arg_number.
  assert (OP : forall x, of_option ValueError x = Ok e -> x = Some e) by (intros [x|]; cbn; congruence).
  destruct (i_arg i); cbn in E |- *; apply OP; exact E.
Qed.

(** the pair, as a function of the effect, the number in the argument and [jump] *)
Definition pair_of (v : pyver) (n : string) (e a : Z) (jump : option bool) : Z * Z :=
  match static_name v n with
  | Some p => p
  | None =>
      if String.eqb n "CALL" then if PY312 v then (-2 - a, 1) else (-2, 1)
      else if String.eqb n "CALL_KW" then (-3 - a, 1)
      else if String.eqb n "LOAD_ATTR" then (-1, 1 + e)
      else if String.eqb n "LOAD_SUPER_ATTR" then (-3, 3 + e)
      else if String.eqb n "SWAP" then (- a, a)
      else if String.eqb n "COPY" then (- a, a + e)
      else if String.eqb n "ROT_N" then (- a, a)
      else if String.eqb n "SET_ADD" then (- a, a - 1)
      else if String.eqb n "LIST_APPEND" then (- a, a - 1)
      else if String.eqb n "MAP_ADD" then (- a, a - 2)
      else if String.eqb n "FORMAT_VALUE" then (e - 1, 1)
      else if String.eqb n "FOR_ITER" then match jump with Some true => (e, 0) | _ => (-1, 2) end
      else if str_mem n ["UNPACK_SEQUENCE"; "UNPACK_EX"] then (-1, e + 1)
      else if str_mem n ["MAKE_FUNCTION"; "CALL_FUNCTION"; "CALL_FUNCTION_EX"; "CALL_FUNCTION_KW"; "CALL_METHOD"] || has_prefix "BUILD_" n
           then (e - 1, 1)
      else (e, 0)
  end.
Lemma pair_ok v T se i jump e p q : opmap T (i_name i) = Some (i_op i) -> stack_effect v T se i jump = Ok e ->
  pre_and_post v T se i jump = Ok (p, q) -> (p, q) = pair_of v (i_name i) e (arg_number i) jump.
Proof.
  intros K S1 S2. unfold pre_and_post in S2. rewrite S1 in S2. cbn [bind] in S2. rewrite (static_known _ _ _ _ K) in S2.
  unfold pair_of. destruct (static_name v (i_name i)); [congruence|]. unfold dynamic_effect in S2. rewrite K in S2. rewrite andb_true_r in S2. unfold arg_number.
  repeat match type of S2 with context [if ?b then _ else _] => destruct b end.
  all: try (destruct (as_int (i_arg i)); cbn [of_option bind] in S2; [|discriminate S2]).
  all: congruence.
Qed.

Lemma flag_range n k : 0 <= flag n k <= 1.
Proof. unfold flag. destruct (Z.testbit n k); lia. Qed.

(** what is to be shown of an entry *)
Definition entry_ok (v : pyver) (name : string) (u : use) : Prop :=
  forall n m jump,   (* n: the number asked about, m: the number in the argument *)
    (match u with Counted _ _ => n = m | _ => True end) ->
    let e := match jump with Some j => effect_of u n j | None => Z.max (effect_of u n true) (effect_of u n false) end in
    let '(p, q) := pair_of v name e m jump in
    p + q = e /\ (0 <= m -> jump <> None ->
      (understated v name = false -> needs_of u m = - p \/ needs_of u m = 0)
      /\ (understated v name = true -> (str_mem name ["LIST_EXTEND"; "SET_UPDATE"; "DICT_UPDATE"; "DICT_MERGE"] = true -> 1 < m) ->
           (name = "FOR_ITER" -> jump = Some true) -> - p < needs_of u m)).

Lemma table_ok : Forall (fun '(lo, hi, name, u) => forall v, lo <= minor v <= hi -> entry_ok v name u) uses_table.
Proof.
  unfold uses_table. repeat (apply Forall_cons; [|]). all: try apply Forall_nil.
  all: intros v R; destruct v; cbn [minor] in R; try (exfalso; clear - R; lia); clear R.
  all: intros n m jump NM; cbv zeta.
  all: match goal with |- context [understated ?x ?y] => let b := eval vm_compute in (understated x y) in change (understated x y) with b end.
  all: match goal with |- context [str_mem ?x ["LIST_EXTEND"; "SET_UPDATE"; "DICT_UPDATE"; "DICT_MERGE"]] => let b := eval vm_compute in (str_mem x ["LIST_EXTEND"; "SET_UPDATE"; "DICT_UPDATE"; "DICT_MERGE"]) in change (str_mem x ["LIST_EXTEND"; "SET_UPDATE"; "DICT_UPDATE"; "DICT_MERGE"]) with b end.
  all: unfold pair_of.
  all: match goal with |- context [static_name ?x ?y] => let b := eval vm_compute in (static_name x y) in change (static_name x y) with b end; cbv iota.
  all: try match goal with |- context [String.eqb] => cbv [String.eqb Ascii.eqb Bool.eqb str_mem existsb orb has_prefix String.prefix ascii_dec ascii_rec ascii_rect bool_dec bool_rec bool_rect sumbool_rec sumbool_rect] end.
  all: cbn [effect_of needs_of PY312 minor] in *; subst.
  all: destruct jump as [[|]|]; cbv iota.
  all: repeat match goal with |- context [if ?a <=? ?b then _ else _] => change (a <=? b) with true || change (a <=? b) with false; cbv iota end.
  all: repeat match goal with |- context [flag ?z ?k] => pose proof (flag_range z k); generalize dependent (flag z k); intros end.
  all: repeat match goal with |- context [?z =? 3] => destruct (z =? 3) end.
  all: try (split; [lia|intros P0 PJ; split; [intros U; (discriminate U || lia)|intros U Q1 Q2; try discriminate U; try specialize (Q1 eq_refl); try (specialize (Q2 eq_refl); discriminate Q2); lia]]).
Qed.
