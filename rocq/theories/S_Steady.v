(** When legalize() leaves the lines of a program as they are. *)
From Verif Require Import PyBase M_Instr M_Concrete M_Bytecode.
Open Scope list_scope.
Open Scope Z_scope.

Section Spec.
  Context {A : Type} (view : A -> lview).

  (** No instruction that comes after a SetLineno has a location of its own *)
  Definition bare_after_set (l : list A) : Prop :=
    forall pre x mid y post z lo, l = pre ++ x :: mid ++ y :: post ->
      view x = VSetLine z -> view y = VInstr lo -> lo = None.

  (** An instruction without a location does not take it from an instruction with an end line, with
      columns, or with no line number: the last location or SetLineno before it is just a line *)
  Definition plain_heirs (l : list A) : Prop :=
    forall pre x mid y post lo, l = pre ++ x :: mid ++ y :: post ->
      view x = VInstr (Some lo) -> view y = VInstr None ->
      (forall w, In w mid -> view w = VOther \/ view w = VInstr None) ->
      exists z, lo = line_loc (Some z).
End Spec.
