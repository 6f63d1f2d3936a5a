(** Python strings: decimal notation, padding, slices. *)
From Coq Require Import DecimalString.
From Verif Require Import PyBase.
Open Scope string_scope.
Open Scope list_scope.
Open Scope Z_scope.

Definition nl : string := String "010"%char "".
(** ["%s" % z] of an int *)
Definition dec (z : Z) : string := NilZero.string_of_int (Z.to_int z).
Definition dec_nat (n : nat) : string := dec (Z.of_nat n).
Fixpoint spaces (n : nat) : string := match n with O => "" | S n => String " "%char (spaces n) end.
(** ["% 3s" % s] *)
Definition pad3 (s : string) : string := (spaces (3 - String.length s) ++ s)%string.
(** [s[:-n]] *)
Definition chop (n : nat) (s : string) : string := substring 0 (String.length s - n) s.
