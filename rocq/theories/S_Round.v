(** Code as the compiler writes it. *)
From Verif Require Import PyBase OpTable.
Open Scope string_scope.
Open Scope list_scope.
Open Scope Z_scope.

(** Pairs of an opcode and a byte: the byte is 0 if the opcode takes no argument; an
    EXTENDED_ARG stands before an instruction that takes an argument; an instruction with
    inline caches is followed by pairs 0 0.  [caches]: how many of these are to come;
    [extended]: an EXTENDED_ARG is before. *)
Fixpoint normal (v : pyver) (T : optable) (caches : Z) (extended : bool) (code : list Z) : Prop :=
  match code with
  | [] => extended = false
  | [_] => False
  | op :: b :: rest =>
      if 0 <? caches then op = 0 /\ b = 0 /\ normal v T (caches - 1) extended rest
      else exists name, opmap T name = Some op /\ 0 <= b < 256
        /\ (if opcode_has_argument v T op
            then normal v T (cache_entries v T name op) (op =? t_extended_arg T) rest
            else b = 0 /\ extended = false /\ normal v T (cache_entries v T name op) false rest)
  end.
