(** What legalize() has to do, in terms of the elements of the list. *)
From Verif Require Import PyBase M_Instr M_Concrete M_Bytecode.
Open Scope list_scope.
Open Scope Z_scope.

Section Spec.
  (** [view x]: x is SetLineno(z), an instruction with a location, or something else *)
  Context {A : Type} (view : A -> lview).

  Definition no_set (pre : list A) : Prop := forall x z, In x pre -> view x <> VSetLine z.
  (** the last SetLineno of [pre] has line [z] *)
  Definition last_set (pre : list A) (z : Z) : Prop :=
    exists p x q, pre = p ++ x :: q /\ view x = VSetLine z /\ no_set q.

  (** instruction [x] has line number [z] *)
  Definition has_line (x : A) (z : Z) : Prop :=
    exists lo, view x = VInstr (Some lo) /\ l_lineno lo = Some z.
  (** the line inherited after [pre]: that of the last instruction having one, or [first] *)
  Definition inherited (first : Z) (pre : list A) (z : Z) : Prop :=
    (exists p x q, pre = p ++ x :: q /\ has_line x z /\ forall y w, In y q -> ~ has_line y w)
    \/ (z = first /\ forall y w, In y pre -> ~ has_line y w).

  (** the location given to an instruction with location [lo] that comes after [pre] *)
  Definition new_loc (first : Z) (pre : list A) (lo lo' : option loc) : Prop :=
    (exists z, last_set pre z /\ lo' = Some (line_loc (Some z)))
    \/ (no_set pre /\ lo <> None /\ lo' = lo)
    \/ (no_set pre /\ lo = None /\ exists z, inherited first pre z /\ lo' = Some (line_loc (Some z))).

  Definition is_set (x : A) : bool := match view x with VSetLine _ => true | _ => false end.
  Definition nonset (l : list A) : list A := filter (fun x => negb (is_set x)) l.

  (** [l'] is [l] without its SetLineno elements: everything else stays in order, and an
      instruction only changes in its location *)
  Definition legalized (with_loc : A -> option loc -> A) (first : Z) (l l' : list A) : Prop :=
    length l' = length (nonset l)
    /\ forall k x, nth_error l k = Some x -> is_set x = false ->
       exists x', nth_error l' (length (nonset (firstn k l))) = Some x'
         /\ match view x with
            | VInstr lo => exists lo', x' = with_loc x lo' /\ new_loc first (firstn k l) lo lo'
            | _ => x' = x
            end.

  (** end line or columns are known *)
  Definition detailed (lo : option loc) : Prop :=
    exists l, lo = Some l /\ (l_end_lineno l <> None \/ l_col l <> None \/ l_end_col l <> None).

  (** lines are as the constructors of SetLineno and InstrLocation leave them *)
  Definition lines_ok (v : pyver) (l : list A) : Prop :=
    forall x, In x l -> match view x with
      | VSetLine z => min_lineno v <= z
      | VInstr (Some lo) => forall z, l_lineno lo = Some z -> min_lineno v <= z
      | _ => True
      end.

  (** no instruction with a detailed location comes after a SetLineno *)
  Definition no_detail_after_set (l : list A) : Prop :=
    forall pre x mid y post lo z, l = pre ++ x :: mid ++ y :: post ->
      view x = VSetLine z -> view y = VInstr lo -> ~ detailed lo.
End Spec.
