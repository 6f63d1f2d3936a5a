(** Model of src/bytecode/cfg.py: BasicBlock and ControlFlowGraph, except the stack size
    computation (M_Stack).

    Blocks are objects: a block is known by its number in the heap of the graph, and
    instructions and TryBegin refer to it as [OBlock n].  A TryBegin is known by its
    identity, its data is written where it stands (as in M_Concrete.bitem).
    Simplification: instructions are values; [instr.copy()] of an Instr gives the same
    value (proved for legal instructions by C48_instr_copy), and replacing the label of a
    jump by a block is accepted since the opcode is a jump (instr.py:840-845). *)
From Verif Require Import PyBase OpTable M_Instr M_Tables M_Concrete M_Convert M_Bytecode.
Open Scope string_scope.
Open Scope list_scope.
Open Scope Z_scope.

(** cfg.py:32-42 BasicBlock: the elements and next_block *)
Record block : Type := mkBlk { k_items : list bitem; k_next : option nat }.

(** cfg.py:464-471 ControlFlowGraph: the heap of blocks, _blocks and _block_index *)
Record cfg : Type := mkG {
  g_meta : meta; g_argnames : list string;
  g_heap : list block; g_order : list nat; g_index : list (nat * Z) }.

(** instr.py:696-700 Instr.has_jump *)
Definition has_jump (T : optable) (i : instr) : bool := op_has_jump T (i_op i).
Definition is_final (i : instr) : bool := is_final_name (i_name i).

(** cfg.py:95-100 get_last_non_artificial_instruction *)
Fixpoint last_instr_of (l : list bitem) : option instr :=
  match l with
  | [] => None
  | BI i :: r => match last_instr_of r with Some j => Some j | None => Some i end
  | _ :: r => last_instr_of r
  end.

Definition is_BI (it : bitem) : bool := match it with BI _ => true | _ => false end.

(** cfg.py:44-77 BasicBlock.__iter__: the checks on one element, [rest] being the elements
    after it *)
Definition elem_check (T : optable) (it : bitem) (rest : list bitem) : res unit :=
  match it with
  | BLabel _ => Err ValueError
  | BI i =>
      if has_jump T i then
        if existsb is_BI rest then Err ValueError
        else match i_arg i with OBlock _ => Ok tt | _ => Err ValueError end
      else Ok tt
  | BTB _ t _ _ => match t with OBlock _ => Ok tt | _ => Err ValueError end
  | _ => Ok tt
  end.

(** cfg.py:44-77 a complete iteration *)
Fixpoint block_iter (T : optable) (l : list bitem) : res unit :=
  match l with
  | [] => Ok tt
  | it :: r => _ <- elem_check T it r ;; block_iter T r
  end.

(** cfg.py:133-143 get_jump *)
Definition get_jump (T : optable) (l : list bitem) : res (option nat) :=
  match last_instr_of l with
  | Some i => if has_jump T i then
                match i_arg i with OBlock n => Ok (Some n) | _ => Err AssertionError end
              else Ok None
  | None => Ok None
  end.

(** ** The graph as a list of blocks *)

Definition blk (g : cfg) (n : nat) : block :=
  match nth_error (g_heap g) n with Some b => b | None => mkBlk [] None end.

(** cfg.py:465-471 __init__ and 485-495 add_block: the new block is returned by number *)
Definition add_block (g : cfg) (items : list bitem) : cfg * nat :=
  let n := length (g_heap g) in
  (mkG (g_meta g) (g_argnames g) (g_heap g ++ [mkBlk items None]) (g_order g ++ [n])
     (dset Nat.eqb (g_index g) n (zlen (g_order g))), n).

Definition new_cfg : cfg := fst (add_block (mkG meta0 [] [] [] []) []).

(** cfg.py:479-483 get_block_index *)
Definition get_block_index (g : cfg) (n : nat) : res Z :=
  of_option ValueError (dget Nat.eqb (g_index g) n).

(** cfg.py:675-678 cfg[i] and cfg[block] *)
Definition getitem (g : cfg) (i : Z) : res nat := py_index (g_order g) i.
Definition getitem_block (g : cfg) (n : nat) : res nat :=
  i <- get_block_index g n ;; getitem g i.

Definition remove_at {A} (n : nat) (l : list A) : list A := firstn n l ++ skipn (S n) l.

(** [range(index, len)] applied to [self._blocks[i]]: for a negative index the loop starts
    at the negative index, and Python indexing wraps around *)
Definition zrange (a b : Z) : list Z := map (fun k => a + Z.of_nat k) (seq 0 (Z.to_nat (b - a))).

(** cfg.py:680-688 __delitem__ with an integer.  [self._block_index[id] -= 1] needs the key
    (KeyError).  *)
Definition delitem (g : cfg) (index : Z) : res cfg :=
  b <- py_index (g_order g) index ;;
  let pos := Z.to_nat (if index <? 0 then index + zlen (g_order g) else index) in
  let order := remove_at pos (g_order g) in
  _ <- of_option KeyError (dget Nat.eqb (g_index g) b) ;;
  let idx := ddel Nat.eqb (g_index g) b in
  idx <- foldM (fun idx i =>
           b <- py_index order i ;;
           k <- of_option KeyError (dget Nat.eqb idx b) ;;
           Ok (dset Nat.eqb idx b (k - 1)))
         (zrange index (zlen order)) idx ;;
  Ok (mkG (g_meta g) (g_argnames g) (g_heap g) order idx).

(** cfg.py:680-688 __delitem__ with a block *)
Definition delitem_block (g : cfg) (n : nat) : res cfg :=
  i <- get_block_index g n ;; delitem g i.

Definition set_heap (h : list block) (n : nat) (b : block) : list block := upd n b h.

(** The position meant by a slice bound or by [insert], clipped as Python does *)
Definition clip {A} (i : Z) (l : list A) : Z :=
  let j := if i <? 0 then i + zlen l else i in Z.max 0 (Z.min j (zlen l)).
(** [l[i:]] *)
Definition slice_from {A} (i : Z) (l : list A) : list A := skipn (Z.to_nat (clip i l)) l.

Definition insert_at {A} (n : nat) (x : A) (l : list A) : list A := firstn n l ++ x :: skipn n l.

(** cfg.py:690-721 split_block: the graph and the returned block.  [BasicBlock(instructions)]
    (cfg.py:709) goes through BasicBlock.__iter__, which checks the elements moved. *)
Definition split_block (T : optable) (g : cfg) (n : nat) (index : Z) : res (cfg * nat) :=
  block_index <- get_block_index g n ;;
  if index <? 0 then Err ValueError else
  b <- py_index (g_order g) block_index ;;
  let items := k_items (blk g b) in
  if index =? 0 then Ok (g, b)
  else if zlen items <? index then Err ValueError
  else
    let instructions := skipn (Z.to_nat index) items in
    if match instructions with [] => block_index + 1 <? zlen (g_order g) | _ => false end then
      b' <- py_index (g_order g) (block_index + 1) ;; Ok (g, b')
    else
      _ <- block_iter T instructions ;;
      let b2 := length (g_heap g) in
      let heap := set_heap (g_heap g) b (mkBlk (firstn (Z.to_nat index) items) (Some b2))
                  ++ [mkBlk instructions None] in
      idx <- foldM (fun idx c => k <- of_option KeyError (dget Nat.eqb idx c) ;;
                                 Ok (dset Nat.eqb idx c (k + 1)))
               (slice_from (block_index + 1) (g_order g)) (g_index g) ;;
      Ok (mkG (g_meta g) (g_argnames g) heap
            (insert_at (Z.to_nat (clip (block_index + 1) (g_order g))) b2 (g_order g))
            (dset Nat.eqb idx b2 (block_index + 1)), b2).

(** ** Dead blocks *)

(** cfg.py:734-739 the blocks pushed when visiting a block *)
Definition pushes (l : list bitem) : list nat :=
  flat_map (fun it => match it with
                      | BI i => match i_arg i with OBlock n => [n] | _ => [] end
                      | BTB _ t _ _ => match t with OBlock n => [n] | _ => [] end
                      | _ => [] end) l.

(** cfg.py:728-739 the worklist; the stack is a list, top first.  [fuel] bounds the number
    of iterations; Nontermination is returned if it runs out (it does not: C26). *)
Fixpoint reach_loop (T : optable) (g : cfg) (fuel : nat) (seen stack : list nat) : res (list nat) :=
  match fuel with
  | O => Err Nontermination
  | S f =>
      match stack with
      | [] => Ok seen
      | n :: stack =>
          if nat_mem n seen then reach_loop T g f seen stack
          else
            _ <- block_iter T (k_items (blk g n)) ;;
            reach_loop T g f (n :: seen) (rev (pushes (k_items (blk g n))) ++ stack)
      end
  end.

(** enough iterations: every block is expanded at most once *)
Definition reach_fuel (g : cfg) : nat :=
  2 + length (g_heap g) + length (flat_map (fun b => pushes (k_items b)) (g_heap g)).

(** cfg.py:723-741 get_dead_blocks *)
Definition get_dead_blocks (T : optable) (g : cfg) : res (list nat) :=
  match g_order g with
  | [] => Ok []
  | n :: _ =>
      seen <- reach_loop T g (reach_fuel g) [] [n] ;;
      Ok (filter (fun n => negb (nat_mem n seen)) (g_order g))
  end.

(** ** legalize *)

(** cfg.py:107-131 the loop of BasicBlock.legalize: the elements after the loop, the
    outcome and current_lineno *)
Fixpoint block_legalize_loop (v : pyver) (T : optable) (set_line : option Z) (current : Z)
  (l : list bitem) : list bitem * res Z :=
  match l with
  | [] => ([], Ok current)
  | x :: r =>
      match elem_check T x r with
      | Err e => (l, Err e)
      | Ok _ =>
          match x with
          | BSet z => let '(r', o) := block_legalize_loop v T (Some z) z r in (x :: r', o)
          | BI i =>
              let go lo' cur := let '(r', o) := block_legalize_loop v T set_line cur r in
                                (bset_loc x lo' :: r', o) in
              match set_line with
              | Some z =>
                  match set_lineno v (i_loc i) (LLine z) with
                  | (lo', Err e) => (bset_loc x lo' :: r, Err e)
                  | (lo', Ok _) => go lo' current
                  end
              | None =>
                  match loc_lineno (i_loc i) with
                  | LUnset =>
                      match set_lineno v (i_loc i) (LLine current) with
                      | (lo', Err e) => (bset_loc x lo' :: r, Err e)
                      | (lo', Ok _) => go lo' current
                      end
                  | LLine z => go (i_loc i) z
                  | LNone => go (i_loc i) current
                  end
              end
          | _ => let '(r', o) := block_legalize_loop v T set_line current r in (x :: r', o)
          end
      end
  end.

Definition block_legalize (v : pyver) (T : optable) (first : Z) (l : list bitem)
  : list bitem * res Z :=
  match block_legalize_loop v T None first l with
  | (l', Err e) => (l', Err e)
  | (l', Ok c) => (filter (fun x => match x with BSet _ => false | _ => true end) l', Ok c)
  end.

(** cfg.py:473-477 ControlFlowGraph.legalize, on the heap *)
Fixpoint cfg_legalize_loop (v : pyver) (T : optable) (current : Z) (h : list block)
  (order : list nat) : list block * res unit :=
  match order with
  | [] => (h, Ok tt)
  | n :: r =>
      let b := match nth_error h n with Some b => b | None => mkBlk [] None end in
      match block_legalize v T current (k_items b) with
      | (l', Err e) => (set_heap h n (mkBlk l' (k_next b)), Err e)
      | (l', Ok c) => cfg_legalize_loop v T c (set_heap h n (mkBlk l' (k_next b))) r
      end
  end.
Definition cfg_legalize (v : pyver) (T : optable) (g : cfg) : cfg * res unit :=
  let '(h, o) := cfg_legalize_loop v T (m_first_lineno (g_meta g)) (g_heap g) (g_order g) in
  (mkG (g_meta g) (g_argnames g) h (g_order g) (g_index g), o).

(** ** From a Bytecode *)

(** cfg.py:745-758 label_to_block_index, jumps and try_end_locations *)
Record pass1 : Type := mkP1 {
  p_labels : list (nat * nat); p_jumps : list nat; p_ends : list (nat * nat) }.

Fixpoint from_pass1 (index : nat) (P : pass1) (l : list bitem) : res pass1 :=
  match l with
  | [] => Ok P
  | it :: r =>
      match it with
      | BLabel n => from_pass1 (S index) (mkP1 (dset Nat.eqb (p_labels P) n index) (p_jumps P) (p_ends P)) r
      | BI i => match i_arg i with
                | OLabel n => from_pass1 (S index) (mkP1 (p_labels P) (p_jumps P ++ [n]) (p_ends P)) r
                | _ => from_pass1 (S index) P r
                end
      | BTB _ t _ _ => match t with
                       | OLabel n => from_pass1 (S index) (mkP1 (p_labels P) (p_jumps P ++ [n]) (p_ends P)) r
                       | _ => Err AssertionError
                       end
      | BTE id => from_pass1 (S index) (mkP1 (p_labels P) (p_jumps P) (dset Nat.eqb (p_ends P) id index)) r
      | BSet _ => from_pass1 (S index) P r
      end
  end.

(** cfg.py:760-764 block_starts: index -> label *)
Definition block_starts (labels : list (nat * nat)) (jumps : list nat) : res (list (nat * nat)) :=
  foldM (fun d n => i <- of_option KeyError (dget Nat.eqb labels n) ;; Ok (dset Nat.eqb d i n)) jumps [].

(** Variables of the main loop (cfg.py:770-785).  The current block is the last of
    [f_blocks]; blocks and new TryBegin are numbered in order of creation.  [f_tbs]:
    try_begins, the numbers of the new TryBegin of each original one; [f_add]: add_try_end
    (label and the TryBegin of the TryEnd to insert). *)
Record fstate : Type := mkFS {
  f_blocks : list block; f_labels : list (nat * nat); f_tbs : list (nat * list nat);
  f_fresh : nat; f_add : list (nat * list nat);
  f_active : option (nat * pyobj * bool); f_inserted : bool; f_last : option instr }.

Definition cur_items (bs : list block) : list bitem := k_items (last bs (mkBlk [] None)).
(** [block.append(x)] on the current block *)
Definition append_cur (bs : list block) (x : bitem) : list block :=
  removelast bs ++ [mkBlk (cur_items bs ++ [x]) (k_next (last bs (mkBlk [] None)))].
Definition set_next_cur (bs : list block) (n : nat) : list block :=
  removelast bs ++ [mkBlk (cur_items bs) (Some n)].
Definition new_cur (bs : list block) : list block := bs ++ [mkBlk [] None].

(** cfg.py:787-821 creation of a new block before element [index]; the boolean says whether
    there is an old_block *)
Definition maybe_new_block (T : optable) (starts : list (nat * nat)) (index : nat) (S : fstate)
  : res (fstate * bool) :=
  let '(mkFS bs labels tbs fresh add active ins lst) := S in
  match dget Nat.eqb starts index with
  | Some old_label =>
      let '(bs, created) :=
        match (if Nat.eqb index 0 then None else last_instr_of (cur_items bs)) with
        | Some li => (new_cur (if is_final li then bs else set_next_cur bs (length bs)), true)
        | None => (bs, false)
        end in
      Ok (mkFS bs (dset Nat.eqb labels old_label (length bs - 1)%nat) tbs fresh add active ins lst, created)
  | None =>
      match last_instr_of (cur_items bs), lst with
      | Some _, Some li =>
          if is_final li then Ok (mkFS (new_cur bs) labels tbs fresh add active ins lst, true)
          else if has_jump T li then
            match i_arg li with
            | OLabel _ => Ok (mkFS (new_cur (set_next_cur bs (length bs))) labels tbs fresh add active ins lst, true)
            | _ => Err AssertionError
            end
          else Ok (S, false)
      | _, _ => Ok (S, false)
      end
  end.

Definition last_nat (l : list nat) : option nat := nth_error l (pred (length l)).
(** [try_begins[tb][-1]] *)
Definition last_tb (tbs : list (nat * list nat)) (id : nat) : res nat :=
  l <- of_option KeyError (dget Nat.eqb tbs id) ;; of_option IndexError (last_nat l).

(** [old_block.append(x)]: the block before the current one *)
Definition append_old (bs : list block) (x : bitem) : list block :=
  let old := last (removelast bs) (mkBlk [] None) in
  removelast (removelast bs) ++ [mkBlk (k_items old ++ [x]) (k_next old)]
  ++ [last bs (mkBlk [] None)].

(** cfg.py:829-875 what is done when a new block was created after [lst]; the boolean says
    whether the loop continues with the next element *)
Definition split_try (T : optable) (P : pass1) (instr : bitem) (S : fstate) : res (fstate * bool) :=
  let '(mkFS bs labels tbs fresh add active temp lst) := S in
  let S := mkFS bs labels tbs fresh add active false lst in
  match lst with
  | None => Ok (S, false)
  | Some li =>
      if is_final li && match instr with BTE _ => true | _ => false end then
        match active with
        | None => Err AssertionError
        | Some (a, _, _) =>
            k <- last_tb tbs a ;;
            Ok (mkFS (append_old bs (BTE k)) labels tbs fresh add None false lst, true)
        end
      else
        match active with
        | None => Ok (S, false)
        | Some (a, t, la) =>
            add <- (if has_jump T li && dmem Nat.eqb (p_ends P) a then
                      match i_arg li with
                      | OLabel n =>
                          i <- of_option KeyError (dget Nat.eqb (p_labels P) n) ;;
                          e <- of_option KeyError (dget Nat.eqb (p_ends P) a) ;;
                          if (e <=? i)%nat then
                            k <- last_tb tbs a ;;
                            Ok (dset Nat.eqb add n
                                  (match dget Nat.eqb add n with Some l => l | None => [] end ++ [k]))
                          else Ok add
                      | _ => Err TypeError   (* a block is not hashable *)
                      end
                    else Ok add) ;;
            if is_final li && temp then
              k <- last_tb tbs a ;;
              l <- of_option KeyError (dget Nat.eqb tbs a) ;;
              let bs := append_cur (append_old bs (BTE k)) (BTB fresh t la None) in
              Ok (mkFS bs labels (dset Nat.eqb tbs a (l ++ [fresh])) (fresh + 1)%nat add active true lst, false)
            else Ok (mkFS bs labels tbs fresh add active false lst, false)
        end
  end.

(** cfg.py:877-904 the element itself *)
Definition add_elem (instr : bitem) (S : fstate) : res fstate :=
  let '(mkFS bs labels tbs fresh add active ins _) := S in
  match instr with
  | BLabel _ => Ok (mkFS bs labels tbs fresh add active ins None)
  | BSet z => Ok (mkFS (append_cur bs instr) labels tbs fresh add active ins None)
  | BTB id t la d =>
      match active with
      | Some _ => Err AssertionError
      | None => Ok (mkFS (append_cur bs (BTB fresh t la d)) labels (dset Nat.eqb tbs id [fresh])
                      (fresh + 1)%nat add (Some (id, t, la)) true None)
      end
  | BTE id =>
      k <- last_tb tbs id ;;
      Ok (mkFS (append_cur bs (BTE k)) labels tbs fresh add None false None)
  | BI i => Ok (mkFS (append_cur bs instr) labels tbs fresh add active ins (Some i))
  end.

(** cfg.py:786-904 main loop of from_bytecode *)
Fixpoint from_loop (T : optable) (P : pass1) (starts : list (nat * nat)) (index : nat)
  (S : fstate) (l : list bitem) : res fstate :=
  match l with
  | [] => Ok S
  | it :: r =>
      ' (S1, created) <- maybe_new_block T starts index S ;;
      ' (S2, continue) <- (if created : bool then split_try T P it S1 else Ok (S1, false)) ;;
      S3 <- (if continue : bool then Ok S2 else add_elem it S2) ;;
      from_loop T P starts (Datatypes.S index) S3 r
  end.

(** cfg.py:910-920 the TryEnd at the beginning of a block *)
Fixpoint leading_ends (l : list bitem) : list nat :=
  match l with BTE k :: r => k :: leading_ends r | _ => [] end.

(** cfg.py:921-924 insertion of the missing TryEnd *)
Fixpoint insert_ends (existing : list nat) (items : list bitem) (tes : list nat) : list bitem :=
  match tes with
  | [] => items
  | k :: r => if nat_mem k existing then insert_ends existing items r
              else insert_ends (k :: existing) (BTE k :: items) r
  end.

(** cfg.py:906-924 *)
Definition insert_try_ends (labels : list (nat * nat)) (bs : list block) (x : nat * list nat)
  : res (list block) :=
  let '(lab, tes) := x in
  n <- of_option KeyError (dget Nat.eqb labels lab) ;;
  b <- of_option IndexError (nth_error bs n) ;;
  Ok (upd n (mkBlk (insert_ends (leading_ends (k_items b)) (k_items b) tes) (k_next b)) bs).

(** cfg.py:926-937 labels replaced by blocks.  The jumps are exactly the instructions with a
    label; the TryBegin are those recorded in try_begins. *)
Definition resolve_item (labels : list (nat * nat)) (known : list nat) (it : bitem) : res bitem :=
  match it with
  | BI i =>
      match i_arg i with
      | OLabel n => b <- of_option KeyError (dget Nat.eqb labels n) ;;
                    Ok (BI (mkInstr (i_name i) (i_op i) (OBlock b) (i_loc i)))
      | _ => Ok it
      end
  | BTB id t la d =>
      if nat_mem id known then
        match t with
        | OLabel n => b <- of_option KeyError (dget Nat.eqb labels n) ;; Ok (BTB id (OBlock b) la d)
        | _ => Err AssertionError
        end
      else Ok it
  | _ => Ok it
  end.
Definition resolve_block (labels : list (nat * nat)) (known : list nat) (b : block) : res block :=
  items <- mapM (resolve_item labels known) (k_items b) ;; Ok (mkBlk items (k_next b)).

(** cfg.py:743-939 ControlFlowGraph.from_bytecode *)
Definition from_bytecode (T : optable) (b : bytecode) : res cfg :=
  let items := b_items b in
  let '(ys, stop) := iterate false items in
  (* the first loop runs through the elements yielded, then the iterator may raise *)
  P <- from_pass1 0 (mkP1 [] [] []) ys ;;
  _ <- match stop with Some e => Err e | None => Ok tt end ;;
  starts <- block_starts (p_labels P) (p_jumps P) ;;
  S <- from_loop T P starts 0 (mkFS [mkBlk [] None] [] [] 0 [] None false None) items ;;
  bs <- foldM (insert_try_ends (f_labels S)) (f_add S) (f_blocks S) ;;
  bs <- mapM (resolve_block (f_labels S) (flat_map snd (f_tbs S))) bs ;;
  let order := seq 0 (length bs) in
  Ok (mkG (copy_attr (b_meta b)) (b_argnames b) bs order (map (fun n => (n, Z.of_nat n)) order)).

(** ** To a Bytecode *)

(** All the elements of the graph *)
Definition all_items (g : cfg) : list bitem := flat_map (fun n => k_items (blk g n)) (g_order g).

(** The TryBegin object with a given identity: target, push_lasti, stack_depth.
    Simplification: it is looked up in the graph; a TryEnd whose TryBegin is not in the
    graph is not modelled beyond the KeyError of cfg.py:1020. *)
Fixpoint find_tb (id : nat) (l : list bitem) : option (pyobj * bool * option Z) :=
  match l with
  | [] => None
  | BTB id' t la d :: r => if Nat.eqb id id' then Some (t, la, d) else find_tb id r
  | _ :: r => find_tb id r
  end.

(** [min] of two stack depths.  UNSET is an int of value 0 whose comparisons return
    NotImplemented, so that the comparison of the other operand decides. *)
Definition depth_min (a b : option Z) : res (option Z) :=
  match a, b with
  | Some x, Some y => Ok (Some (if y <? x then y else x))
  | Some x, None => Ok (if 0 <? x then None else Some x)
  | None, Some y => Ok (if y <? 0 then Some y else None)
  | None, None => Err TypeError
  end.

Definition set_depth (id : nat) (d : option Z) (l : list bitem) : list bitem :=
  map (fun it => match it with
                 | BTB id' t la d' => if Nat.eqb id id' then BTB id' t la d else it
                 | _ => it end) l.

Definition block_eqb (a b : pyobj) : bool :=
  match a, b with OBlock n, OBlock m => Nat.eqb n m | _, _ => false end.

Fixpoint remove_last_end (l : list bitem) : list bitem :=
  match l with
  | [] => []
  | x :: r => if existsb (fun y => match y with BTE _ => true | _ => false end) r
              then x :: remove_last_end r
              else match x with BTE _ => r | _ => x :: remove_last_end r end
  end.

(** Variables of the main loop (cfg.py:953-964).  New TryBegin are numbered in order of
    creation.  [t_ltb]: last_try_begin (target, push_lasti of the graph's one, number of
    the new one); [t_lte]: last_try_end (the graph's entry, the new entry, and whether the
    new TryEnd was already removed from the list: it is the last TryEnd of the list). *)
Record tstate : Type := mkTS {
  t_out : list bitem; t_tbs : list (nat * nat); t_seen : list nat; t_fresh : nat;
  t_ltb : option (pyobj * bool * nat); t_lte : option (nat * nat * bool) }.

(** cfg.py:972-1032 one element of a block *)
Definition to_elem (g : cfg) (S : tstate) (it : bitem) : res tstate :=
  let '(mkTS out tbs seen fresh ltb lte) := S in
  match it with
  | BTB id t la d =>
      out <- match ltb with
             | None => Ok out
             | Some (t', la', k) =>
                 _ <- guard (block_eqb t t') AssertionError ;;
                 _ <- guard (Bool.eqb la la') AssertionError ;;
                 ' (_, _, dk) <- of_option KeyError (find_tb k out) ;;
                 d' <- depth_min dk d ;;
                 Ok (set_depth k d' out)
             end ;;
      let plain := Ok (mkTS (out ++ [BTB fresh t la d]) (dset Nat.eqb tbs id fresh) seen (fresh + 1)%nat
                         (Some (t, la, fresh)) None) in
      match lte with
      | None => plain
      | Some (e, k, removed) =>
          ' (te, lae, de) <- of_option KeyError (find_tb e (all_items g)) ;;
          if block_eqb te t && Bool.eqb lae la then
            d' <- match de with
                  | None => match d with None => Ok None | Some _ => Err AssertionError end
                  | Some _ => depth_min de d
                  end ;;
            if removed : bool then Err ValueError
            else Ok (mkTS (set_depth k d' (remove_last_end out)) (dset Nat.eqb tbs id k) seen fresh ltb
                       (Some (e, k, true)))
          else plain
      end
  | BTE id =>
      if nat_mem id seen then Ok S
      else
        k <- of_option KeyError (dget Nat.eqb tbs id) ;;
        Ok (mkTS (out ++ [BTE k]) tbs (id :: seen) fresh None (Some (id, k, false)))
  | BI _ => Ok (mkTS (out ++ [it]) tbs seen fresh ltb None)
  | _ => Ok (mkTS (out ++ [it]) tbs seen fresh ltb lte)
  end.

(** cfg.py:944-951 used_blocks *)
Definition used_blocks (T : optable) (g : cfg) : res (list nat) :=
  l <- mapM (fun n => let items := k_items (blk g n) in
               j <- get_jump T items ;;
               _ <- block_iter T items ;;
               Ok (match j with Some t => [t] | None => [] end
                   ++ flat_map (fun it => match it with BTB _ (OBlock t) _ _ => [t] | _ => [] end) items))
         (g_order g) ;;
  Ok (concat l).

(** cfg.py:966-1032: the new label of block [n] is label number [n] *)
Definition to_block (g : cfg) (used : list nat) (S : tstate) (n : nat) : res tstate :=
  let S := if nat_mem n used
           then mkTS (t_out S ++ [BLabel n]) (t_tbs S) (t_seen S) (t_fresh S) (t_ltb S) (t_lte S)
           else S in
  foldM (to_elem g) (k_items (blk g n)) S.

(** cfg.py:1034-1039 blocks replaced by labels; [labelled]: the blocks that got one *)
Definition unresolve_item (labelled known : list nat) (it : bitem) : res bitem :=
  match it with
  | BI i => match i_arg i with
            | OBlock n => if nat_mem n labelled
                          then Ok (BI (mkInstr (i_name i) (i_op i) (OLabel n) (i_loc i)))
                          else Err KeyError
            | _ => Ok it
            end
  | BTB id t la d =>
      if nat_mem id known then
        match t with
        | OBlock n => if nat_mem n labelled then Ok (BTB id (OLabel n) la d) else Err KeyError
        | _ => Err KeyError
        end
      else Ok it
  | _ => Ok it
  end.

(** cfg.py:941-1046 ControlFlowGraph.to_bytecode *)
Definition cfg_to_bytecode (T : optable) (g : cfg) : res bytecode :=
  used <- used_blocks T g ;;
  S <- foldM (to_block g used) (g_order g) (mkTS [] [] [] 0 None None) ;;
  out <- mapM (unresolve_item (filter (fun n => nat_mem n used) (g_order g)) (map snd (t_tbs S))) (t_out S) ;;
  Ok (mkB (copy_attr (g_meta g)) (g_argnames g) out).
