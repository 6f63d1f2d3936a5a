(** Specification: the documented argument kinds of Instr (doc/api.rst, class Instr) and
    coherent locations (doc/api.rst, class InstrLocation).  Stated as rules, without any
    order between categories. *)
From Verif Require Import PyBase OpTable M_Instr.
Open Scope string_scope.
Open Scope Z_scope.

Section Doc.
  Variables (v : pyver) (T : optable) (op : Z).

  Definition jumps : Prop := In op (t_hasjrel T) \/ In op (t_hasjabs T).
  (** no special category: the argument is a plain integer *)
  Definition plain : Prop :=
    ~ jumps /\ ~ In op (t_hasfree T) /\ ~ In op (t_haslocal T) /\ ~ In op (t_hasname T)
    /\ ~ In op (t_hasconst T) /\ ~ In op (t_hascompare T) /\ is_intrinsic v T op = false.
  (** a local-variable or name opcode that takes just a string *)
  Definition simple_name : Prop :=
    (In op (t_haslocal T) \/ In op (t_hasname T))
    /\ is_bitflag v T op = false /\ is_bitflag2 v T op = false /\ is_dual v T op = false.

  Inductive doc_arg : pyobj -> Prop :=
  | doc_none : opcode_has_argument v T op = false -> doc_arg OUnset
  | doc_label n : jumps -> doc_arg (OLabel n)
  | doc_block n : jumps -> doc_arg (OBlock n)
  | doc_cell s : In op (t_hasfree T) -> doc_arg (OCell s)
  | doc_free s : In op (t_hasfree T) -> doc_arg (OFree s)
  | doc_str s : simple_name -> doc_arg (OStr s)
  | doc_local_cell s : simple_name -> In op (t_haslocal T) -> PY313 v = true -> doc_arg (OCell s)
  | doc_local_free s : simple_name -> In op (t_haslocal T) -> PY313 v = true -> doc_arg (OFree s)
  | doc_flag b s : In op (t_hasname T) -> is_bitflag v T op = true ->
      doc_arg (OTuple [OBool b; OStr s])
  | doc_flag2 b c s : In op (t_hasname T) -> is_bitflag2 v T op = true ->
      doc_arg (OTuple [OBool b; OBool c; OStr s])
  | doc_pair x y : is_dual v T op = true ->
      (exists s, x = OStr s \/ x = OCell s) -> (exists s, y = OStr s \/ y = OCell s) ->
      doc_arg (OTuple [x; y])
  | doc_const x : In op (t_hasconst T) -> x <> OUnset ->
      (forall n, x <> OLabel n) -> (forall n, x <> OBlock n) -> doc_arg x
  | doc_compare z : In op (t_hascompare T) -> doc_arg (OCompare z)
  | doc_intr1 z : is_intrinsic1 v T op = true -> doc_arg (OIntr1 z)
  | doc_intr2 z : is_intrinsic2 v T op = true -> doc_arg (OIntr2 z)
  | doc_int x z : plain -> opcode_has_argument v T op = true -> as_int x = Some z ->
      0 <= z <= 2147483647 -> doc_arg x.
End Doc.

(** A legal instruction: name and opcode correspond, the opcode is a base opcode other
    than EXTENDED_ARG, the argument is of a documented kind. *)
Definition legal_instr (v : pyver) (T : optable) (i : instr) : Prop :=
  opmap T (i_name i) = Some (i_op i) /\ i_op i < t_min_instrumented T
  /\ i_name i <> "EXTENDED_ARG" /\ doc_arg v T (i_op i) (i_arg i).

(** [k] is the number of base-256 digits of [a]: the least number (at least one) with
    [a < 256^k]. *)
Definition digits256 (a k : Z) : Prop :=
  1 <= k /\ a < 256 ^ k /\ forall k', 1 <= k' -> a < 256 ^ k' -> k <= k'.

(** A legal concrete instruction: the argument is an integer in range exactly when the
    opcode takes one (opcode 0, CACHE, may have one), and the size is two bytes per
    base-256 digit of the argument, or as forced by extended_args. *)
Definition legal_cinstr (v : pyver) (T : optable) (i : cinstr) : Prop :=
  opmap T (c_name i) = Some (c_op i) /\ c_op i < t_min_instrumented T
  /\ match c_arg i with
     | Some a => 0 <= a <= 2147483647 /\ (opcode_has_argument v T (c_op i) = true \/ c_op i = 0)
     | None => opcode_has_argument v T (c_op i) = false
     end
  /\ match c_ext i with
     | Some n => c_size i = 2 + 2 * n
     | None => exists k, c_size i = 2 * k /\ 1 <= k
         /\ match c_arg i with
            | None => k = 1
            | Some a => a < 256 ^ k /\ (k = 1 \/ 256 ^ (k - 1) <= a)
            end
     end.

(** Coherent locations. *)
Definition coherent (v : pyver) (l el c ec : option Z) : Prop :=
  (forall x, l = Some x -> (if PY311 v then 0 else 1) <= x)
  /\ (forall x, el = Some x -> 1 <= x /\ exists y, l = Some y /\ y <= x)
  /\ (forall x, c = Some x -> 0 <= x /\ exists y, ec = Some y)
  /\ (forall x, ec = Some x -> 0 <= x /\ exists y, c = Some y)
  /\ (forall x y, c = Some x -> ec = Some y ->
        exists l1 l2, l = Some l1 /\ el = Some l2 /\ (l1 = l2 -> x <= y)).

(** A location that says more than a line. *)
Definition detailed (l : option loc) : Prop :=
  exists x, l = Some x /\ (l_end_lineno x <> None \/ l_col x <> None \/ l_end_col x <> None).

Definition line_ok (v : pyver) (x : linev) : Prop :=
  match x with LLine z => (if PY311 v then 0 else 1) <= z | _ => True end.

(** A history of mutations; failed ones are simply skipped, as when the caller catches
    the exception. *)
Definition run (v : pyver) (T : optable) (i : instr) (ops : list iop) : instr :=
  fold_left (fun i o => fst (instr_step v T i o)) ops i.
Definition crun (v : pyver) (T : optable) (i : cinstr) (ops : list iop) : cinstr :=
  fold_left (fun i o => fst (cinstr_step v T i o)) ops i.
