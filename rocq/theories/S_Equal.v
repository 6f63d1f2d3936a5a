(** When two graphs, or two ConcreteBytecodes, are the same (specification). *)
From Verif Require Import PyBase OpTable M_Instr M_Tables M_Concrete M_Bytecode M_Cfg S_Eq.
Open Scope string_scope.
Open Scope list_scope.
Open Scope Z_scope.

Definition a_try_end (it : bitem) : bool := match it with BTE _ => true | _ => false end.

(** The elements of a block that count: up to the first instruction that jumps or never goes on,
    and the end of the try block after it. *)
Fixpoint live (T : optable) (l : list bitem) : list bitem :=
  match l with
  | [] => []
  | BI i :: r =>
      if has_jump T i || is_final i then BI i :: match find a_try_end r with Some e => [e] | None => [] end
      else BI i :: live T r
  | it :: r => it :: live T r
  end.
Definition elements (T : optable) (g : cfg) : list (list bitem) := map (fun n => live T (k_items (blk g n))) (g_order g).

(** Block [a] of [g] and block [b] of [h] stand at the same place. *)
Definition same_place (g h : cfg) (a b : pyobj) : Prop :=
  exists k n m, a = OBlock n /\ b = OBlock m /\ nth_error (g_order g) k = Some n /\ nth_error (g_order h) k = Some m.

(** Two elements are the same; [R] says which TryBegins correspond. *)
Section Same.
  Variables (T : optable) (keq : pyobj -> pyobj -> bool) (g h : cfg) (R : nat -> nat -> Prop).
  Inductive same_element : bitem -> bitem -> Prop :=
  | se_jump i j : has_jump T i = true -> has_jump T j = true -> i_name i = i_name j -> i_loc i = i_loc j ->
      same_place g h (i_arg i) (i_arg j) -> same_element (BI i) (BI j)
  | se_instr i j : has_jump T i = false -> has_jump T j = false -> i_name i = i_name j -> i_loc i = i_loc j ->
      (takes_const T (i_name i) -> keq (i_arg i) (i_arg j) = true) ->
      (~ takes_const T (i_name i) -> py_eq (i_arg i) (i_arg j) = true) -> same_element (BI i) (BI j)
  | se_set z : same_element (BSet z) (BSet z)
  | se_begin a b t u la d e : R a b -> same_place g h t u -> same_element (BTB a t la d) (BTB b u la e)
  | se_end a b : R a b -> same_element (BTE a) (BTE b).
End Same.

Definition one_to_one (R : nat -> nat -> Prop) : Prop := forall a b a' b', R a b -> R a' b' -> (a = a' <-> b = b').

(** The attributes that make two of them the same (the docstring is a str, None or UNSET). *)
Definition same_attributes (m n : meta) : Prop :=
  m_argcount m = m_argcount n /\ m_posonly m = m_posonly n /\ m_kwonly m = m_kwonly n /\ m_flags m = m_flags n
  /\ m_first_lineno m = m_first_lineno n /\ m_filename m = m_filename n /\ m_name m = m_name n
  /\ m_qualname m = m_qualname n /\ py_eq (m_docstring m) (m_docstring n) = true
  /\ m_cellvars m = m_cellvars n /\ m_freevars m = m_freevars n.

(** Two graphs with the same elements in the same order, wherever the blocks begin. *)
Definition same_elements (T : optable) (keq : pyobj -> pyobj -> bool) (g h : cfg) : Prop :=
  exists R, one_to_one R /\ Forall2 (same_element T keq g h R) (concat (elements T g)) (concat (elements T h)).

(** Two graphs with the same blocks. *)
Definition same_blocks (T : optable) (keq : pyobj -> pyobj -> bool) (g h : cfg) : Prop :=
  exists R, one_to_one R /\ Forall2 (Forall2 (same_element T keq g h R)) (elements T g) (elements T h).

(** Names and opcodes correspond (C05). *)
Definition named_graph (T : optable) (g : cfg) : Prop :=
  forall n i, In n (g_order g) -> In (BI i) (k_items (blk g n)) -> opmap T (i_name i) = Some (i_op i).

(** Two ConcreteBytecodes with the same elements: instructions are compared by name, argument and
    location (C41 for Instr). *)
Definition same_citem (x y : citem) : Prop :=
  match x, y with
  | CI c, CI d => c_name c = c_name d /\ c_arg c = c_arg d /\ c_loc c = c_loc d
  | CSet z, CSet w => z = w
  | _, _ => False
  end.
