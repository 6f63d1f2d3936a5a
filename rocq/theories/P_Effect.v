(** The stack effects of src/bytecode/instr.py against those of CPython 3.11. *)
From Verif Require Import PyBase OpTable Table311 P_Base M_Instr M_Concrete M_Stack CPyEffect.
Open Scope string_scope.
Open Scope list_scope.
Open Scope Z_scope.

(** the number an instruction has as argument; 0 if it is not a number *)
Definition arg_number (i : instr) : Z := match as_int (i_arg i) with Some z => z | None => 0 end.

(** the instructions of 3.11 for which the items needed are not fully counted *)
Definition undercounted (name : string) : bool :=
  str_mem name ["YIELD_VALUE"; "SEND"; "RERAISE"; "LOAD_METHOD"; "BEFORE_WITH"; "JUMP_IF_FALSE_OR_POP";
    "JUMP_IF_TRUE_OR_POP"; "PRECALL"; "LIST_APPEND"; "SET_ADD"; "MAP_ADD"; "LIST_EXTEND"; "SET_UPDATE";
    "DICT_MERGE"; "DICT_UPDATE"].

Lemma dget_In {V} (l : list (string * V)) n x : dget String.eqb l n = Some x -> In (n, x) l.
Proof.
  induction l as [|[a b] l IH]; cbn; [discriminate|]. destruct (String.eqb n a) eqn:E; [|auto].
  apply String.eqb_eq in E. subst a. intros Q. injection Q as ->. auto.
Qed.

Lemma bit_range n k : 0 <= bit n k <= 1.
Proof. unfold bit. destruct (Z.testbit n k); lia. Qed.

(** What dis.stack_effect is asked. *)
Lemma asked i j e : stack_effect V311 T311 dis_effect311 i j = Ok e ->
  exists a, dis_effect311 (i_op i) a j = Some e
  /\ (a = None \/ a = Some (arg_number i) \/ z_mem (i_op i) (t_hasconst T311) = true \/ is_bitflag V311 T311 (i_op i) = true).
Proof.
  unfold stack_effect, arg_number. intros E.
  assert (OP : forall x, of_option ValueError x = Ok e -> x = Some e) by (intros [x|]; cbn; congruence).
  destruct (opcode_has_argument V311 T311 (i_op i)) eqn:HA; cbn [negb] in E.
  2:{ exists None. split; [apply OP; exact E|auto]. }
  assert (PL : match as_int (i_arg i) with
     | None => of_option ValueError (dis_effect311 (i_op i) (Some 0) j)
     | Some z => if z_mem (i_op i) (t_hasconst T311) then of_option ValueError (dis_effect311 (i_op i) (Some 0) j)
                 else of_option ValueError (dis_effect311 (i_op i) (Some z) j)
     end = Ok e ->
     exists a, dis_effect311 (i_op i) a j = Some e
       /\ (a = None \/ a = Some (match as_int (i_arg i) with Some z => z | None => 0 end)
           \/ z_mem (i_op i) (t_hasconst T311) = true \/ is_bitflag V311 T311 (i_op i) = true)).
  { intros Q. destruct (as_int (i_arg i)) as [z|].
    - destruct (z_mem (i_op i) (t_hasconst T311)).
      + exists (Some 0). split; [apply OP; exact Q|auto].
      + exists (Some z). split; [apply OP; exact Q|auto].
    - exists (Some 0). split; [apply OP; exact Q|]. auto. }
  destruct (i_arg i) as [| | | |l| | | | | | | | |]; try (apply PL; exact E).
  destruct (is_bitflag V311 T311 (i_op i)) eqn:BF; [|apply PL; exact E].
  destruct (Nat.eqb (length l) 2); cbn [guard bind] in E; [|discriminate E].
  destruct (nth_error l 0) as [o|]; cbn [of_option bind] in E; [|discriminate E].
  destruct (as_int o) as [z|]; cbn [of_option bind] in E; [|discriminate E].
  exists (Some z). split; [apply OP; exact E|auto].
Qed.

Ltac ev t H := let x := eval vm_compute in t in change t with x in H; cbv beta iota in H.

(** in these the number is how far down the container is: 0 is meaningless *)
Definition extends (name : string) : bool := str_mem name ["LIST_EXTEND"; "SET_UPDATE"; "DICT_MERGE"; "DICT_UPDATE"].

Lemma ok_inj (a b c d : Z) : Ok (a, b) = Ok (c, d) -> c = a /\ d = b.
Proof. intros E. injection E as -> ->. auto. Qed.
Lemma some_inj (a b : Z) : Some a = Some b -> b = a.
Proof. intros E. injection E as ->. auto. Qed.

Ltac fin arg := cbn [of_option bind] in *; try discriminate;
  try (destruct (as_int arg) as [?|]; cbn [of_option bind] in *; try discriminate);
  repeat match goal with H : Ok _ = Ok _ |- _ => apply ok_inj in H; destruct H; subst end;
  repeat match goal with H : Some _ = Some _ |- _ => apply some_inj in H; subst end;
  repeat match goal with
         | |- context [bit ?z ?k] => pose proof (bit_range z k); generalize dependent (bit z k); intros
         | |- context [?z =? 3] => destruct (z =? 3)
         | H : context [?z =? 0] |- _ => destruct (Z.eqb_spec z 0); cbn [andb] in H; try discriminate H
         end;
  try lia.

Lemma both311 i j e p q : opmap T311 (i_name i) = Some (i_op i) ->
  stack_effect V311 T311 dis_effect311 i j = Ok e -> pre_and_post V311 T311 dis_effect311 i j = Ok (p, q) ->
  p + q = e /\
  (0 <= arg_number i -> forall b k, j = Some b -> needs311 (i_name i) (arg_number i) b = Some k ->
     (undercounted (i_name i) = false -> k <= - p \/ k = 0)
     /\ (extends (i_name i) && (arg_number i =? 0) = false -> - p <= k)).
Proof.
  intros K S1 S2.
  destruct (asked _ _ _ S1) as (a & A & AN). unfold pre_and_post in S2. rewrite S1 in S2. cbn [bind] in S2.
  clear S1. apply dget_In in K. destruct i as [name op arg loc]. unfold arg_number in *. cbn [i_name i_op i_arg] in *.
  set (n := match as_int arg with Some z => z | None => 0 end) in *.
  unfold dis_effect311 in A. unfold T311 in K at 1. cbn [t_opmap In] in K. revert A AN S2.
  repeat (destruct K as [K'|K]; [injection K' as <- <-|]).
  all: try contradiction.
  all: intros A AN S2.
  all: match type of S2 with context [static_effect ?x ?y ?z] => ev (static_effect x y z) S2 end.
  all: match type of A with context [opname ?x ?y] => ev (opname x y) A end.
  all: match type of A with context [t_have_argument ?x <=? ?y] => ev (t_have_argument x <=? y) A end.
  all: match type of AN with context [z_mem ?x ?y] => ev (z_mem x y) AN end.
  all: match type of AN with context [is_bitflag ?x ?y ?z] => ev (is_bitflag x y z) AN end.
  all: unfold effect311 in A; cbv [use311 stack_use311 dget String.eqb Ascii.eqb Bool.eqb fst snd] in A.
  all: unfold needs311; cbv [use311 stack_use311 dget String.eqb Ascii.eqb Bool.eqb fst snd].
  all: try (match type of S2 with context [dynamic_effect ?x ?y ?z ?u ?w ?t] =>
     let f := eval vm_compute in (fun e arg j => match dynamic_effect x y z e arg j with Some _ => true | None => false end) in
     match f with
     | (fun _ _ _ => false) => change (dynamic_effect x y z u w t) with (@None (res (Z * Z))) in S2
     | _ => let g := eval cbv [dynamic_effect String.eqb Ascii.eqb Bool.eqb PY312 minor Z.leb Z.compare Pos.compare Pos.compare_cont str_mem existsb orb andb] in (dynamic_effect x y z u w t) in change (dynamic_effect x y z u w t) with g in S2
     end end; cbv beta iota in S2;
    try match type of S2 with context [has_prefix ?x ?y] => ev (has_prefix x y) S2 end;
    try match type of S2 with context [opmap ?x ?y] => ev (opmap x y) S2 end).
  all: match goal with |- context [undercounted ?x] => let x := constr:(undercounted x) in let y := eval vm_compute in x in change x with y end.
  all: match goal with |- context [extends ?x] => let x := constr:(extends x) in let y := eval vm_compute in x in change x with y end.
  all: destruct a as [z|]; try discriminate A.
  all: destruct j as [[|]|].
  all: try (destruct AN as [AN|[AN|[AN|AN]]]; try discriminate AN; apply some_inj in AN; subst z).
  all: split; [|intros N0 b k EB EK; try discriminate EB; injection EB as <-; apply some_inj in EK; subst k; split; intros HX].
  all: try (unfold n in *; clear n; fin arg).
Qed.
