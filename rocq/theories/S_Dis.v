(** Specification vocabulary for disassembled code (Bytecode made from a ConcreteBytecode). *)
From Verif Require Import PyBase OpTable M_Instr M_Tables M_Concrete S_Args S_Asm.
Open Scope string_scope.
Open Scope list_scope.
Open Scope Z_scope.

(** Labels among some elements, in order. *)
Definition labels_in (l : list bitem) : list nat :=
  flat_map (fun it => match it with BLabel n => [n] | _ => [] end) l.

(** The instructions that are kept: all, or all but the inline caches. *)
Definition kept (prune : bool) (c : cinstr) : bool := negb (prune && String.eqb (c_name c) "CACHE").

(** Number of kept instructions before number [k]. *)
Definition kept_before (prune : bool) (cs : list cinstr) (k : nat) : nat :=
  length (filter (kept prune) (firstn k cs)).

(** The exception table entry that covers instruction number [k]. *)
Definition covering (v : pyver) (cs : list cinstr) (ex : list exentry) (k : nat) : option exentry :=
  find (fun e => (e_start e <=? executed_at v cs k) && (executed_at v cs k <=? e_stop e)) ex.

(** An exception table over the instructions [cs] that a Bytecode can show: every range starts at
    the beginning of an instruction, ends with an instruction, and the ranges are apart. *)
Definition tidy (v : pyver) (cs : list cinstr) (ex : list exentry) : Prop :=
  (forall e, In e ex -> exists s t, (s <= t < length cs)%nat
     /\ e_start e = offset_of v cs s /\ e_stop e = executed_at v cs t)
  /\ (forall m n e f, (m < n)%nat -> nth_error ex m = Some e -> nth_error ex n = Some f ->
        e_stop e < e_start f \/ e_stop f < e_start e).

(** A concrete instruction that the constructor makes, other than EXTENDED_ARG, whose number of
    EXTENDED_ARG is not forced to be negative. *)
Definition ordinary (v : pyver) (T : optable) (c : cinstr) : Prop :=
  legal_cinstr v T c /\ c_name c <> "EXTENDED_ARG" /\ forall n, c_ext c = Some n -> 0 <= n.
