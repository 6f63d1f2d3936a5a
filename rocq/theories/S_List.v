(** What ControlFlowGraph.to_bytecode() writes, for a graph made in any way (C78): the program of a
    graph, read off its blocks in order. *)
From Verif Require Import PyBase OpTable M_Instr M_Concrete M_Convert M_Bytecode M_Cfg S_Prog.
Open Scope list_scope.
Open Scope Z_scope.

(** The number of instructions in the blocks before block [t] *)
Fixpoint place (g : cfg) (order : list nat) (t : nat) : option nat :=
  match order with
  | [] => None
  | n :: r => if Nat.eqb n t then Some 0%nat
              else option_map (Nat.add (ninstrs (k_items (blk g n)))) (place g r t)
  end.
(** an argument: a block stands for the place where it starts *)
Definition shown_arg (g : cfg) (o : pyobj) : parg :=
  match o with OBlock t => PTo (place g (g_order g) t) | _ => PObj o end.

(** The instructions and SetLineno of the blocks in their order, under the handler of the try block
    that is open: a TryEnd ends its own try block, if that is the open one, and is nothing else. *)
Fixpoint shown (g : cfg) (open : option (nat * handler)) (l : list bitem) : list pitem :=
  match l with
  | [] => []
  | BI i :: r => PInstr (i_name i) (shown_arg g (i_arg i)) (i_loc i) (option_map snd open) :: shown g open r
  | BSet z :: r => PSet z :: shown g open r
  | BLabel _ :: r => shown g open r
  | BTB id t la _ :: r => shown g (Some (id, (shown_arg g t, la))) r
  | BTE id :: r => shown g (match open with
                            | Some (id', _) => if Nat.eqb id id' then None else open
                            | None => None end) r
  end.
Definition graph_program (g : cfg) : list pitem := shown g None (all_items g).

(** Try blocks, over the blocks in order: a TryBegin is a new one and stands when no try block is
    open; a TryEnd ends the open one, or one that is already ended (the TryEnd of a try block with
    several exits stands in several blocks). *)
Fixpoint try_paired (op : option nat) (opened : list nat) (l : list bitem) : bool :=
  match l with
  | [] => true
  | BTB id _ _ _ :: r => match op with None => true | _ => false end && negb (nat_mem id opened)
                         && try_paired (Some id) (id :: opened) r
  | BTE id :: r => match op with
                   | Some id' => if Nat.eqb id id' then try_paired None opened r
                                 else nat_mem id opened && try_paired op opened r
                   | None => nat_mem id opened && try_paired op opened r
                   end
  | _ :: r => try_paired op opened r
  end.

Record listable (T : optable) (g : cfg) : Prop := {
  ls_order : NoDup (g_order g);
  ls_iter : forall n, In n (g_order g) -> block_iter T (k_items (blk g n)) = Ok tt;
  (** jumps go to blocks of the graph, and only jumps have blocks as arguments *)
  ls_args : forall n i, In n (g_order g) -> In (BI i) (k_items (blk g n)) ->
    match i_arg i with OLabel _ => False | OBlock t => has_jump T i = true /\ In t (g_order g) | _ => True end;
  ls_handlers : forall n id t la d, In n (g_order g) -> In (BTB id t la d) (k_items (blk g n)) ->
    exists b, t = OBlock b /\ In b (g_order g);
  ls_pairs : try_paired None [] (all_items g) = true }.

(** no TryBegin has a stack depth, or all have one *)
Definition depths_alike (g : cfg) : Prop :=
  (forall id t la d, In (BTB id t la d) (all_items g) -> d = None)
  \/ (forall id t la d, In (BTB id t la d) (all_items g) -> d <> None).

(** *** Removing a block *)
(** Nothing in the other blocks refers to block [n]. *)
Definition unreferred (g : cfg) (n : nat) : Prop :=
  (forall m i, In m (g_order g) -> m <> n -> In (BI i) (k_items (blk g m)) -> i_arg i <> OBlock n)
  /\ (forall m id la d, In m (g_order g) -> m <> n -> ~ In (BTB id (OBlock n) la d) (k_items (blk g m))).
(** No try block begins or ends in the block. *)
Definition no_try (l : list bitem) : Prop :=
  forall x, In x l -> match x with BTB _ _ _ _ | BTE _ => False | _ => True end.
(** [c] instructions that stood from place [p] are gone *)
Definition moved_arg (p c : nat) (a : parg) : parg :=
  match a with PTo (Some q) => PTo (Some (if Nat.leb (p + c) q then q - c else q))%nat | _ => a end.
Definition moved (p c : nat) (x : pitem) : pitem :=
  match x with
  | PInstr n a l h => PInstr n (moved_arg p c a) l (option_map (fun h => (moved_arg p c (fst h), snd h)) h)
  | PSet z => PSet z
  end.
