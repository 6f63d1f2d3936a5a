(** Specification vocabulary for "the same program": used to compare a Bytecode with the one
    obtained by assembling and disassembling it. *)
From Verif Require Import PyBase OpTable M_Instr M_Tables M_Concrete S_Args S_Asm S_Prog S_Slots.
Open Scope string_scope.
Open Scope list_scope.
Open Scope Z_scope.

(** The instructions of a program, each with the location in force: its own, else the one of
    the instruction or SetLineno before, at the beginning [cur]. *)
Fixpoint located (cur : loc) (l : list pitem) : list (string * parg * loc * option handler) :=
  match l with
  | [] => []
  | PSet z :: r => located (line_loc (Some z)) r
  | PInstr n a lo h :: r =>
      let cur := match lo with Some x => x | None => cur end in (n, a, cur, h) :: located cur r
  end.

(** Same name, same location, same protecting handler, and the same argument: the same
    instruction as target of a jump, else [same_arg]. *)
Definition same_instr (v : pyver) (T : optable) (cb : cbytecode)
  (x y : string * parg * loc * option handler) : Prop :=
  let '(n, a, l, h) := x in let '(n', a', l', h') := y in
  n' = n /\ l' = l /\ h' = h
  /\ match a, a' with
     | PTo k, PTo k' => k = k'
     | PObj o, PObj o' => exists op, opmap T n = Some op /\ same_arg v T cb op o o'
     | _, _ => False
     end.

(** Try blocks: TryBegin and TryEnd alternate and correspond, with an instruction between
    them ([st]: the block we are in, and whether it has an instruction already). *)
Fixpoint bracketed (st : option (nat * bool)) (items : list bitem) : Prop :=
  match items with
  | [] => st = None
  | BTB id _ _ _ :: r => st = None /\ bracketed (Some (id, false)) r
  | BTE id :: r => st = Some (id, true) /\ bracketed None r
  | BI _ :: r => bracketed (option_map (fun x => (fst x, true)) st) r
  | _ :: r => bracketed st r
  end.

(** Each TryBegin object is used once. *)
Definition try_blocks (items : list bitem) : Prop := NoDup (tb_ids items) /\ bracketed None items.

(** The labels that are used: by jumps and as handlers. *)
Definition used_label (l : nat) (items : list bitem) : Prop :=
  (exists i, In (BI i) items /\ i_arg i = OLabel l)
  \/ exists id la d, In (BTB id (OLabel l) la d) items.
