(** What a Bytecode means as a program, independent of which Label and TryBegin objects it
    uses: the sequence of its instructions, each with its argument (a jump: the number of
    the instruction it goes to), its location, and the handler that protects it. *)
From Verif Require Import PyBase M_Instr M_Concrete.
Open Scope list_scope.
Open Scope Z_scope.

Definition is_instr (it : bitem) : bool := match it with BI _ => true | _ => false end.
Definition ninstrs (l : list bitem) : nat := length (filter is_instr l).

(** The number of instructions before the place where label [n] stands (the last one if it
    stands several times). *)
Fixpoint position (l : list bitem) (n : nat) : option nat :=
  match l with
  | [] => None
  | it :: r =>
      match position r n with
      | Some k => Some (ninstrs [it] + k)%nat
      | None => match it with
                | BLabel m => if Nat.eqb n m then Some 0%nat else None
                | _ => None
                end
      end
  end.

(** Argument of an instruction: where a jump goes ([None]: to a label that is nowhere), or
    an ordinary argument. *)
Inductive parg : Type := PTo (k : option nat) | PObj (o : pyobj).

Definition arg_of (pos : nat -> option nat) (o : pyobj) : parg :=
  match o with OLabel n => PTo (pos n) | _ => PObj o end.

(** A protecting handler: where it starts, and push_lasti *)
Definition handler : Type := (parg * bool)%type.

Inductive pitem : Type :=
| PInstr (name : string) (arg : parg) (l : option loc) (h : option handler)
| PSet (z : Z).

Fixpoint walk (pos : nat -> option nat) (open : option handler) (l : list bitem) : list pitem :=
  match l with
  | [] => []
  | BI i :: r => PInstr (i_name i) (arg_of pos (i_arg i)) (i_loc i) open :: walk pos open r
  | BSet z :: r => PSet z :: walk pos open r
  | BLabel _ :: r => walk pos open r
  | BTB _ t la _ :: r => walk pos (Some (arg_of pos t, la)) r
  | BTE _ :: r => walk pos None r
  end.

Definition program (l : list bitem) : list pitem := walk (position l) None l.
