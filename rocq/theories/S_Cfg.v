(** What the operations on a ControlFlowGraph have to do. *)
From Verif Require Import PyBase OpTable M_Instr M_Concrete M_Bytecode M_Cfg S_Prog S_Legal.
Open Scope list_scope.
Open Scope Z_scope.

(** ** Histories of a graph (C24) *)

(** Two graphs with the same blocks at the same places; the contents of the blocks and
    their next_block may differ. *)
Definition same_list (g g' : cfg) : Prop :=
  g_order g' = g_order g /\ g_index g' = g_index g /\ length (g_heap g') = length (g_heap g).

(** A new graph or one made from a Bytecode, changed any number of times: blocks added,
    deleted by (not negative) index or as objects, split; blocks edited in place. *)
Inductive history (T : optable) : cfg -> Prop :=
| h_new : history T new_cfg
| h_from b g : from_bytecode T b = Ok g -> history T g
| h_add g items : history T g -> history T (fst (add_block g items))
| h_del g i g' : history T g -> 0 <= i -> delitem g i = Ok g' -> history T g'
| h_del_block g n g' : history T g -> delitem_block g n = Ok g' -> history T g'
| h_split g n i g' b : history T g -> split_block T g n i = Ok (g', b) -> history T g'
| h_edit g g' : history T g -> same_list g g' -> history T g'.

(** cfg.get_block_index(cfg[i]) is i, and other blocks are refused *)
Definition indexed (g : cfg) : Prop :=
  (forall i n, nth_error (g_order g) i = Some n ->
     getitem g (Z.of_nat i) = Ok n /\ get_block_index g n = Ok (Z.of_nat i))
  /\ (forall n, ~ In n (g_order g) -> get_block_index g n = Err ValueError).

(** ** Splitting (C25) *)

(** Block [n] of [g], at place [k], was split at [index] in two: it keeps the first part,
    the new block [b] has the rest and stands right after it; nothing else changed. *)
Definition was_split (g g' : cfg) (k n : nat) (index : Z) (b : nat) : Prop :=
  ~ In b (g_order g)
  /\ g_order g' = firstn (S k) (g_order g) ++ b :: skipn (S k) (g_order g)
  /\ k_items (blk g' n) = firstn (Z.to_nat index) (k_items (blk g n))
  /\ k_items (blk g' b) = skipn (Z.to_nat index) (k_items (blk g n))
  /\ k_next (blk g' n) = Some b
  /\ (forall m, In m (g_order g) -> m <> n -> blk g' m = blk g m)
  /\ g_meta g' = g_meta g /\ g_argnames g' = g_argnames g.

(** ** Reachability (C26) *)

(** [a] refers to [b]: a jump to it, or it is the handler of a try block of [a] *)
Definition refers (g : cfg) (a b : nat) : Prop :=
  (exists i, In (BI i) (k_items (blk g a)) /\ i_arg i = OBlock b)
  \/ (exists id la d, In (BTB id (OBlock b) la d) (k_items (blk g a))).
(** control can fall through from [a] to [b] *)
Definition falls (g : cfg) (a b : nat) : Prop := k_next (blk g a) = Some b.

Inductive reaches (edge : nat -> nat -> Prop) (a : nat) : nat -> Prop :=
| r_refl : reaches edge a a
| r_step b c : reaches edge a b -> edge b c -> reaches edge a c.

(** every block can be iterated over: no label, jumps only at the end, targets are blocks *)
Definition iterable (T : optable) (g : cfg) : Prop :=
  forall n, is_ok (block_iter T (k_items (blk g n))) = true.

(** ** Legalization (C36) *)

(** the line in force at the end of [l], when it is entered with [first] *)
Definition end_line (first : Z) (l : list bitem) (z : Z) : Prop :=
  last_set bview l z \/ (no_set bview l /\ inherited bview first l z).

(** [lines k] is the line in force when entering the [k]-th block *)
Definition legalized_graph (g g' : cfg) : Prop :=
  exists lines : nat -> Z,
    lines 0%nat = m_first_lineno (g_meta g)
    /\ forall k n, nth_error (g_order g) k = Some n ->
         legalized bview bset_loc (lines k) (k_items (blk g n)) (k_items (blk g' n))
         /\ no_set bview (k_items (blk g' n))
         /\ k_next (blk g' n) = k_next (blk g n)
         /\ end_line (lines k) (k_items (blk g n)) (lines (S k)).

(** ** Graphs made from a Bytecode (C27, C28, C29) *)

(** Try blocks are paired: a TryBegin is a new one and stands when no try block is open, a
    TryEnd ends the open one.  [opened]: the TryBegin so far. *)
Fixpoint paired (op : option nat) (opened : list nat) (l : list bitem) : bool :=
  match l with
  | [] => true
  | BTB id _ _ _ :: r => match op with None => true | _ => false end
                         && negb (nat_mem id opened) && paired (Some id) (id :: opened) r
  | BTE id :: r => match op with Some id' => Nat.eqb id id' | None => false end && paired None opened r
  | _ :: r => paired op opened r
  end.

(** Labels are the arguments of the jumps, and of nothing else; handlers are labels. *)
Definition arg_fits (T : optable) (it : bitem) : Prop :=
  match it with
  | BI i => if has_jump T i then exists n, i_arg i = OLabel n
            else forall n, i_arg i <> OLabel n /\ i_arg i <> OBlock n
  | BTB _ t _ _ => exists n, t = OLabel n
  | _ => True
  end.
(** the label an element refers to *)
Definition target (it : bitem) : list nat :=
  match it with
  | BI i => match i_arg i with OLabel n => [n] | _ => [] end
  | BTB _ (OLabel n) _ _ => [n]
  | _ => []
  end.

Record proper (T : optable) (l : list bitem) : Prop := {
  proper_try : paired None [] l = true;
  proper_args : forall it, In it l -> arg_fits T it;
  proper_labels : forall it n, In it l -> In n (target it) -> In (BLabel n) l }.

(** The number of instructions in the first [k] blocks *)
Definition before (g : cfg) (k : nat) : nat :=
  ninstrs (flat_map (fun n => k_items (blk g n)) (firstn k (g_order g))).

(** Argument of an instruction in the graph, for its argument in the list [l]: a jump to a
    label became a jump to the block that starts where the label stands. *)
Definition same_argument (l : list bitem) (g : cfg) (a a' : pyobj) : Prop :=
  match a with
  | OLabel n => exists k t, nth_error (g_order g) k = Some t /\ a' = OBlock t /\ position l n = Some (before g k)
  | _ => a' = a
  end.
Definition same_instruction (l : list bitem) (g : cfg) (x y : bitem) : Prop :=
  match x, y with
  | BI i, BI j => i_name j = i_name i /\ i_op j = i_op i /\ i_loc j = i_loc i /\ same_argument l g (i_arg i) (i_arg j)
  | _, _ => False
  end.

(** The graph made from [l] (C27) *)
Record well_formed (T : optable) (l : list bitem) (g : cfg) : Prop := {
  (** the same instructions in the same order *)
  wf_same : Forall2 (same_instruction l g) (filter is_instr l) (filter is_instr (all_items g));
  (** handlers are blocks that start where their label stands *)
  wf_handlers : forall id t la d, In (BTB id t la d) (all_items g) ->
    exists n k b, t = OBlock b /\ nth_error (g_order g) k = Some b /\ position l n = Some (before g k);
  (** blocks can be iterated over *)
  wf_iter : forall n, In n (g_order g) -> block_iter T (k_items (blk g n)) = Ok tt;
  (** there is an entry block; every block but the last has an instruction *)
  wf_blocks : g_order g <> [] /\ forall k n m, nth_error (g_order g) k = Some n -> nth_error (g_order g) (S k) = Some m ->
    exists i, In (BI i) (k_items (blk g n));
  (** jumps and final instructions only as the last instruction of a block *)
  wf_stops : forall n a i c, In n (g_order g) -> k_items (blk g n) = a ++ BI i :: c ->
    has_jump T i = true \/ is_final i = true -> ninstrs c = 0%nat;
  (** a block falls through to the block after it, exactly if there is one and its last
      instruction is not a final one *)
  wf_next : forall k n t, nth_error (g_order g) k = Some n ->
    (k_next (blk g n) = Some t <->
     nth_error (g_order g) (S k) = Some t
     /\ exists a i c, k_items (blk g n) = a ++ BI i :: c /\ ninstrs c = 0%nat /\ is_final i = false) }.

(** all the stack depths of the TryBegin are unset *)
Definition no_depths (l : list bitem) : Prop := forall id t la d, In (BTB id t la d) l -> d = None.
