(** Model of the operations of ControlFlowGraph that change it, with the graph they leave behind
    when they raise.  (M_Cfg and M_Stack give the graph only when they return; T_Atomic proves that
    both agree.) *)
From Verif Require Import PyBase OpTable M_Instr M_Tables M_Concrete M_Convert M_Bytecode M_Cfg M_Stack.
Open Scope string_scope.
Open Scope list_scope.
Open Scope Z_scope.

(** cfg.py:686-688 the loop of __delitem__: the dictionary after it *)
Fixpoint renumber_down (order : list nat) (idx : list (nat * Z)) (l : list Z) : list (nat * Z) * res unit :=
  match l with
  | [] => (idx, Ok tt)
  | i :: l =>
      match py_index order i with
      | Err e => (idx, Err e)
      | Ok b =>
          match dget Nat.eqb idx b with
          | None => (idx, Err KeyError)
          | Some k => renumber_down order (dset Nat.eqb idx b (k - 1)) l
          end
      end
  end.
(** cfg.py:680-688 __delitem__ with an integer *)
Definition delitem_run (g : cfg) (index : Z) : cfg * res unit :=
  match py_index (g_order g) index with
  | Err e => (g, Err e)
  | Ok b =>
      let pos := Z.to_nat (if index <? 0 then index + zlen (g_order g) else index) in
      let order := remove_at pos (g_order g) in
      match dget Nat.eqb (g_index g) b with
      | None => (mkG (g_meta g) (g_argnames g) (g_heap g) order (g_index g), Err KeyError)
      | Some _ =>
          let '(idx, o) := renumber_down order (ddel Nat.eqb (g_index g) b) (zrange index (zlen order)) in
          (mkG (g_meta g) (g_argnames g) (g_heap g) order idx, o)
      end
  end.
(** cfg.py:680-688 __delitem__ with a block *)
Definition delitem_block_run (g : cfg) (n : nat) : cfg * res unit :=
  match get_block_index g n with
  | Err e => (g, Err e)
  | Ok i => delitem_run g i
  end.

(** cfg.py:715-716 the loop of split_block: the dictionary after it *)
Fixpoint renumber_up (idx : list (nat * Z)) (l : list nat) : list (nat * Z) * res unit :=
  match l with
  | [] => (idx, Ok tt)
  | b :: l =>
      match dget Nat.eqb idx b with
      | None => (idx, Err KeyError)
      | Some k => renumber_up (dset Nat.eqb idx b (k + 1)) l
      end
  end.
(** cfg.py:690-721 split_block.  [del block[index:]] comes before [BasicBlock(instructions)], which
    checks the elements moved. *)
Definition split_block_run (T : optable) (g : cfg) (n : nat) (index : Z) : cfg * res nat :=
  match get_block_index g n with
  | Err e => (g, Err e)
  | Ok block_index =>
      if index <? 0 then (g, Err ValueError) else
      match py_index (g_order g) block_index with
      | Err e => (g, Err e)
      | Ok b =>
          let items := k_items (blk g b) in
          if index =? 0 then (g, Ok b)
          else if zlen items <? index then (g, Err ValueError)
          else
            let instructions := skipn (Z.to_nat index) items in
            if match instructions with [] => block_index + 1 <? zlen (g_order g) | _ => false end then
              match py_index (g_order g) (block_index + 1) with
              | Err e => (g, Err e)
              | Ok b' => (g, Ok b')
              end
            else
              let kept := firstn (Z.to_nat index) items in
              match block_iter T instructions with
              | Err e => (mkG (g_meta g) (g_argnames g) (set_heap (g_heap g) b (mkBlk kept (k_next (blk g b))))
                            (g_order g) (g_index g), Err e)
              | Ok _ =>
                  let b2 := length (g_heap g) in
                  let heap := set_heap (g_heap g) b (mkBlk kept (Some b2)) ++ [mkBlk instructions None] in
                  match renumber_up (g_index g) (slice_from (block_index + 1) (g_order g)) with
                  | (idx, Err e) => (mkG (g_meta g) (g_argnames g) heap (g_order g) idx, Err e)
                  | (idx, Ok _) =>
                      (mkG (g_meta g) (g_argnames g) heap
                         (insert_at (Z.to_nat (clip (block_index + 1) (g_order g))) b2 (g_order g))
                         (dset Nat.eqb idx b2 (block_index + 1)), Ok b2)
                  end
              end
      end
  end.

(** cfg.py:581-585 the TryBegin of one block never met: the blocks after it.  (A TryBegin object
    that occurs twice is written twice, with the same number.) *)
Fixpoint unmet_block (T : optable) (heap : list block) (l : list bitem) : list block * res unit :=
  match l with
  | [] => (heap, Ok tt)
  | it :: r =>
      match elem_check T it r with
      | Err e => (heap, Err e)
      | Ok _ => unmet_block T (match it with BTB id _ _ None => store_depth id 32768 heap | _ => heap end) r
      end
  end.
(** cfg.py:581-585 *)
Fixpoint unmet_run (T : optable) (g : cfg) (C : common) (heap : list block) (order : list nat) : list block * res unit :=
  match order with
  | [] => (heap, Ok tt)
  | n :: r =>
      match dget Nat.eqb (c_starts C) n with
      | Some [] =>
          match unmet_block T heap (k_items (blk g n)) with
          | (h, Err e) => (h, Err e)
          | (h, Ok _) => unmet_run T g C h r
          end
      | _ => unmet_run T g C heap r
      end
  end.
(** cfg.py:587-592 *)
Fixpoint depths_run (C : common) (heap : list block) (tbs : list tbinfo) : list block * res unit :=
  match tbs with
  | [] => (heap, Ok tt)
  | (id, t, _) :: r =>
      match t with
      | OBlock b =>
          match dget Nat.eqb (c_ex_start C) b with
          | None => (heap, Err KeyError)
          | Some s => if 0 <=? s then depths_run C (store_depth id s heap) r else (heap, Err AssertionError)
          end
      | _ => (heap, Err KeyError)
      end
  end.
(** cfg.py:497-594 compute_stacksize, with the graph it leaves behind *)
Definition compute_run (v : pyver) (T : optable) (se : oracle) (check depths : bool) (g : cfg) : cfg * res Z :=
  let with_heap h := mkG (g_meta g) (g_argnames g) h (g_order g) (g_index g) in
  match g_order g with
  | [] => (g, Ok 0)
  | n :: _ =>
      match run v T se check g (visit_fuel g) n (initial_size v (m_flags (g_meta g))) 0 0 None None (common0 g) with
      | Err e => (g, Err e)
      | Ok (r, C) =>
          let r := fold_left Z.max (map snd (c_ex_max C)) r in
          match unmet_run T g C (g_heap g) (g_order g) with
          | (h, Err e) => (with_heap h, Err e)
          | (h, Ok _) =>
              if depths then
                match depths_run C h (c_tbs C) with
                | (h, Err e) => (with_heap h, Err e)
                | (h, Ok _) => (with_heap h, Ok r)
                end
              else (with_heap h, Ok r)
          end
      end
  end.
