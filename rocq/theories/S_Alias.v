(** Which objects may share a list (C79). *)
From Verif Require Import PyBase M_Alias.
Open Scope list_scope.
Open Scope nat_scope.

Section Spec.
  Context {A : Type}.
  (** One object more, made by a constructor or a conversion *)
  Inductive creates : state A -> state A -> Prop :=
  | c_construct st c k n v : creates st (construct st c k n v)
  | c_from_code st n k v f c : creates st (from_code st n k v f c)
  | c_graph_of st i st' : graph_of_bytecode st i = Some st' -> creates st st'
  | c_of_graph st i st' : bytecode_of_graph st i = Some st' -> creates st st'
  | c_of_concrete st i n st' : bytecode_of_concrete st i n = Some st' -> creates st st'
  | c_to_concrete st i k n m st' : concrete_of_bytecode st i k n m = Some st' -> creates st st'.

  (** Everything that can be reached: [family] gives each object the number of its family; a copy or
      slice belongs to the family of what it is a copy of, every other new object begins a family. *)
  Inductive made : state A -> list nat -> Prop :=
  | m_none : made (mkSt [] []) []
  | m_new st family st' : made st family -> creates st st' -> made st' (family ++ [length family])
  | m_copy st family i st' m : made st family -> copy st i = Some st' -> nth_error family i = Some m -> made st' (family ++ [m])
  | m_edit st family i a f st' : made st family -> edit st i a f = Some st' -> made st' family
  | m_assign st family i a l st' : made st family -> assign st i a l = Some st' -> made st' family.

  (** Attributes that copies of a Bytecode or ConcreteBytecode share with it *)
  Definition shared_by_copies (c : cls) (a : attr) : bool :=
    match c, a with
    | CBytecode, Argnames => true
    | CConcrete, (Consts | Names | Varnames) => true
    | _, _ => false
    end.
  (** [x_i.a is x_j.b] *)
  Definition same_list (st : state A) (i : nat) (a : attr) (j : nat) (b : attr) : Prop :=
    exists x y, nth_error (s_objs st) i = Some x /\ nth_error (s_objs st) j = Some y
      /\ has (o_cls x) a = true /\ has (o_cls y) b = true /\ o_slot x a = o_slot y b.
End Spec.
