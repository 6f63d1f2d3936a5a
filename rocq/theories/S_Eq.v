(** When two instruction lists are the same program, and renaming of the Label and TryBegin
    objects. *)
From Verif Require Import PyBase OpTable M_Instr M_Concrete M_Bytecode S_Prog.
Open Scope list_scope.
Open Scope Z_scope.

Definition takes_const (T : optable) (name : string) : Prop :=
  exists op, opmap T name = Some op /\ In op (t_hasconst T).

(** Arguments: jumps to the same place; constants with the same const_key ([keq]); other
    arguments that are equal for Python ([py_eq]). *)
Definition same_parg (T : optable) (keq : pyobj -> pyobj -> bool) (name : string) (a b : parg) : Prop :=
  match a, b with
  | PTo j, PTo k => j <> None /\ j = k
  | PObj x, PObj y => (takes_const T name -> keq x y = true) /\ (~ takes_const T name -> py_eq x y = true)
  | _, _ => False
  end.

Definition same_pitem (T : optable) (keq : pyobj -> pyobj -> bool) (a b : pitem) : Prop :=
  match a, b with
  | PInstr n x l h, PInstr m y l' h' => n = m /\ same_parg T keq n x y /\ l = l' /\ h = h'
  | PSet z, PSet w => z = w
  | _, _ => False
  end.

Definition same_program (T : optable) (keq : pyobj -> pyobj -> bool) (a b : list bitem) : Prop :=
  Forall2 (same_pitem T keq) (program a) (program b).

(** Name and opcode of the instructions correspond (C05) *)
Definition named (T : optable) (l : list bitem) : Prop :=
  forall i, In (BI i) l -> opmap T (i_name i) = Some (i_op i).

(** Use label [f n] in the place of label [n], TryBegin [g n] in the place of TryBegin [n]. *)
Definition rename_arg (f : nat -> nat) (o : pyobj) : pyobj :=
  match o with OLabel n => OLabel (f n) | _ => o end.
Definition rename_item (f g : nat -> nat) (it : bitem) : bitem :=
  match it with
  | BI i => BI (mkInstr (i_name i) (i_op i) (rename_arg f (i_arg i)) (i_loc i))
  | BLabel n => BLabel (f n)
  | BSet z => BSet z
  | BTB id t la d => BTB (g id) (rename_arg f t) la d
  | BTE id => BTE (g id)
  end.
Definition rename (f g : nat -> nat) (b : bytecode) : bytecode :=
  mkB (b_meta b) (b_argnames b) (map (rename_item f g) (b_items b)).
Definition injective (f : nat -> nat) : Prop := forall x y, f x = f y -> x = y.
