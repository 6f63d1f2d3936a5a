(** Model of the stack effects (src/bytecode/instr.py:292-407, 658-691) and of the stack
    size computation (src/bytecode/cfg.py:145-461, 497-594). *)
From Verif Require Import PyBase OpTable M_Instr M_Concrete M_Bytecode M_Flags M_Cfg.
Open Scope string_scope.
Open Scope list_scope.
Open Scope Z_scope.

(** ** Stack effects *)

(** [dis.stack_effect(opcode, oparg, jump=jump)] is a parameter of the model: a number, or
    [None] where it raises ValueError. *)
Definition oracle : Type := Z -> option Z -> option bool -> option Z.

(** instr.py:658-677 BaseInstr.stack_effect *)
Definition stack_effect (v : pyver) (T : optable) (se : oracle) (i : instr) (jump : option bool)
  : res Z :=
  let call a := of_option ValueError (se (i_op i) a jump) in
  let first (l : list pyobj) (n : nat) :=
    _ <- guard (Nat.eqb (length l) n) AssertionError ;;
    o <- of_option IndexError (nth_error l 0) ;;
    z <- of_option TypeError (as_int o) ;;
    call (Some z) in
  let plain :=
    match as_int (i_arg i) with
    | None => call (Some 0)
    | Some z => if z_mem (i_op i) (t_hasconst T) then call (Some 0) else call (Some z)
    end in
  if negb (opcode_has_argument v T (i_op i)) then call None
  else match i_arg i with
       | OTuple l => if is_bitflag v T (i_op i) then first l 2%nat
                     else if is_bitflag2 v T (i_op i) then first l 3%nat
                     else plain
       | _ => plain
       end.

Definition has_prefix (p n : string) : bool := String.prefix p n.

(** instr.py:301-360 STATIC_STACK_EFFECTS.  The entries of BINARY_SLICE and so on stand
    after those made from opmap and override them. *)
Definition static_effects (v : pyver) : list (string * (Z * Z)) := [
  ("ROT_TWO", (-2, 2)); ("ROT_THREE", (-3, 3)); ("ROT_FOUR", (-4, 4)); ("DUP_TOP", (-1, 2));
  ("DUP_TOP_TWO", (-2, 4)); ("GET_LEN", (-1, 2)); ("GET_ITER", (-1, 1));
  ("GET_YIELD_FROM_ITER", (-1, 1)); ("GET_AWAITABLE", (-1, 1)); ("GET_AITER", (-1, 1));
  ("GET_ANEXT", (-1, 2)); ("LIST_TO_TUPLE", (-1, 1)); ("LIST_EXTEND", (-2, 1));
  ("SET_UPDATE", (-2, 1)); ("DICT_UPDATE", (-2, 1)); ("DICT_MERGE", (-2, 1));
  ("COMPARE_OP", (-2, 1)); ("IS_OP", (-2, 1)); ("CONTAINS_OP", (-2, 1)); ("IMPORT_NAME", (-2, 1));
  ("ASYNC_GEN_WRAP", (-1, 1)); ("PUSH_EXC_INFO", (-1, 2)); ("BEFORE_ASYNC_WITH", (-1, 2));
  ("IMPORT_FROM", (-1, 2)); ("COPY_DICT_WITHOUT_KEYS", (-2, 2));
  ("WITH_EXCEPT_START", if PY311 v then (-4, 5) else (-7, 8));
  ("MATCH_CLASS", (-3, if PY311 v then 1 else 2)); ("MATCH_MAPPING", (-1, 2));
  ("MATCH_SEQUENCE", (-1, 2)); ("MATCH_KEYS", (-2, if PY311 v then 3 else 4));
  ("CHECK_EXC_MATCH", (-2, 2)); ("CHECK_EG_MATCH", (-2, 2)); ("PREP_RERAISE_STAR", (-2, 1));
  ("BINARY_SLICE", (-3, 1)); ("LOAD_FROM_DICT_OR_GLOBALS", (-1, 1));
  ("LOAD_FROM_DICT_OR_DEREF", (-1, 1)); ("LOAD_INTRISIC_1", (-1, 1)); ("LOAD_INTRISIC_2", (-2, 1));
  ("SET_FUNCTION_ATTRIBUTE", (-2, 1)); ("CONVERT_VALUE", (-1, 1)); ("FORMAT_SIMPLE", (-1, 1));
  ("FORMAT_SPEC", (-2, 1)); ("TO_BOOL", (-1, 1)) ].

Definition static_effect (v : pyver) (T : optable) (n : string) : option (Z * Z) :=
  match dget String.eqb (static_effects v) n with
  | Some e => Some e
  | None =>
      match opmap T n with
      | None => None
      | Some _ => if has_prefix "UNARY_" n then Some (-1, 1)
                  else if has_prefix "BINARY_" n || has_prefix "INPLACE_" n then Some (-2, 1)
                  else None
      end
  end.

(** instr.py:363-406 DYNAMIC_STACK_EFFECTS: the pair, if there is an entry.  [-arg] with an
    argument that is not an int raises TypeError. *)
Definition dynamic_effect (v : pyver) (T : optable) (n : string) (effect : Z) (arg : pyobj)
  (jump : option bool) : option (res (Z * Z)) :=
  let int (f : Z -> Z * Z) := Some (z <- of_option TypeError (as_int arg) ;; Ok (f z)) in
  if String.eqb n "CALL" then
    if PY312 v then int (fun a => (-2 - a, 1)) else Some (Ok (-2, 1))
  else if String.eqb n "CALL_KW" then int (fun a => (-3 - a, 1))
  else if String.eqb n "LOAD_ATTR" then Some (Ok (-1, 1 + effect))
  else if String.eqb n "LOAD_SUPER_ATTR" then Some (Ok (-3, 3 + effect))
  else if String.eqb n "SWAP" then int (fun a => (- a, a))
  else if String.eqb n "COPY" then int (fun a => (- a, a + effect))
  else if String.eqb n "ROT_N" then int (fun a => (- a, a))
  else if String.eqb n "SET_ADD" then int (fun a => (- a, a - 1))
  else if String.eqb n "LIST_APPEND" then int (fun a => (- a, a - 1))
  else if String.eqb n "MAP_ADD" then int (fun a => (- a, a - 2))
  else if String.eqb n "FORMAT_VALUE" then Some (Ok (effect - 1, 1))
  else if String.eqb n "FOR_ITER" then
    Some (Ok (match jump with Some true => (effect, 0) | _ => (-1, 2) end))
  else if str_mem n ["UNPACK_SEQUENCE"; "UNPACK_EX"] then Some (Ok (-1, effect + 1))
  else if str_mem n ["MAKE_FUNCTION"; "CALL_FUNCTION"; "CALL_FUNCTION_EX"; "CALL_FUNCTION_KW"; "CALL_METHOD"]
          || (has_prefix "BUILD_" n && match opmap T n with Some _ => true | None => false end)
       then Some (Ok (effect - 1, 1))
  else None.

(** instr.py:679-691 pre_and_post_stack_effect *)
Definition pre_and_post (v : pyver) (T : optable) (se : oracle) (i : instr) (jump : option bool)
  : res (Z * Z) :=
  effect <- stack_effect v T se i jump ;;
  match static_effect v T (i_name i) with
  | Some p => Ok p
  | None => match dynamic_effect v T (i_name i) effect (i_arg i) jump with
            | Some r => r
            | None => Ok (effect, 0)
            end
  end.

(** ** Stack size *)

(** cfg.py:325-329, 378-382: the effect used, depending on check_pre_and_post *)
Definition used_effect (v : pyver) (T : optable) (se : oracle) (check : bool) (i : instr) (jump : bool)
  : res (Z * Z) :=
  if check then pre_and_post v T se i (Some jump)
  else e <- stack_effect v T se i (Some jump) ;; Ok (e, 0).

(** cfg.py:154-163 _update_size: size, maxsize, minsize *)
Definition update_size (e : Z * Z) (size maxsize minsize : Z) : res (Z * Z * Z) :=
  let size := size + fst e in
  if size <? 0 then Err RuntimeError
  else let size := size + snd e in
       Ok (size, Z.max maxsize size, Z.min minsize size).

(** A TryBegin met by the computation: identity, target, push_lasti *)
Definition tbinfo : Type := (nat * pyobj * bool)%type.

(** cfg.py:169-197 _StackSizeComputationStorage (check_pre_and_post apart).  Dictionaries
    are indexed by blocks; a set is a list. *)
Record common : Type := mkSC {
  c_seen : list nat;
  c_starts : list (nat * list (Z * option bool));
  c_tbs : list tbinfo;
  c_ex_start : list (nat * Z);
  c_ex_max : list (nat * Z) }.

(** cfg.py:145-151 get_trailing_try_end: the first TryEnd among the elements after *)
Fixpoint trailing_end (rest : list bitem) : option nat :=
  match rest with
  | [] => None
  | BTE id :: _ => Some id
  | _ :: r => trailing_end r
  end.

(** A recursive analysis ([yield _StackSizeComputer(...)], resumed with the result): block,
    size, maxsize, minsize, exception_handler, pending_try_begin *)
Definition visit : Type :=
  nat -> Z -> Z -> Z -> option bool -> option tbinfo -> common -> res (Z * common).

(** cfg.py:428-445 _compute_exception_handler_stack_usage *)
Definition compute_handler (call : visit) (target : pyobj) (lasti : bool) (maxsize minsize : Z)
  (C : common) : res common :=
  match target with
  | OBlock b =>
      s <- of_option KeyError (dget Nat.eqb (c_ex_start C) b) ;;
      if minsize <? s then
        ' (r, C) <- call b minsize maxsize minsize (Some lasti) None C ;;
        Ok (mkSC (c_seen C) (c_starts C) (c_tbs C)
              (dset Nat.eqb (c_ex_start C) b minsize) (dset Nat.eqb (c_ex_max C) b r))
      else Ok C
  | _ => Err AssertionError
  end.

(** [set.remove] of a member *)
Definition unsee (b : nat) (C : common) : common :=
  mkSC (filter (fun n => negb (Nat.eqb b n)) (c_seen C)) (c_starts C) (c_tbs C) (c_ex_start C) (c_ex_max C).

Section Computation.
  Variables (v : pyver) (T : optable) (se : oracle) (check : bool) (g : cfg).

  (** cfg.py:279-414 the loop over the elements of block [b] and what follows it.
      [rest]: the elements not yet met; [cur]: _current_try_begin.  The entry of a TryEnd is
      looked up in the graph (M_Cfg.find_tb). *)
  Fixpoint block_loop (call : visit) (b : nat) (rest : list bitem) (size maxsize minsize : Z)
    (cur : option tbinfo) (C : common) : res (Z * common) :=
    match rest with
    | [] =>
        (* 401-414; [if self.block.next_block:] is false for an empty block *)
        ' (maxsize, C) <-
          match k_next (blk g b) with
          | Some m => match k_items (blk g m) with
                      | [] => Ok (maxsize, C)
                      | _ => call m size maxsize minsize None cur C
                      end
          | None => Ok (maxsize, C)
          end ;;
        Ok (maxsize, unsee b C)
    | it :: r =>
        _ <- elem_check T it r ;;
        match it with
        | BSet _ | BLabel _ => block_loop call b r size maxsize minsize cur C
        | BTB id t la _ =>
            match cur with
            | Some _ => Err AssertionError
            | None => block_loop call b r size maxsize size (Some (id, t, la))
                        (mkSC (c_seen C) (c_starts C) (c_tbs C ++ [(id, t, la)]) (c_ex_start C) (c_ex_max C))
            end
        | BTE id =>
            match cur with
            | Some (id', t, la) =>
                if Nat.eqb id id' then
                  C <- compute_handler call t la maxsize minsize C ;;
                  block_loop call b r size maxsize minsize None C
                else block_loop call b r size maxsize minsize cur C
            | None => block_loop call b r size maxsize minsize cur C
            end
        | BI i =>
            (* 322-375 *)
            ' (maxsize, C, stop) <-
              (if has_jump T i then
                 e <- used_effect v T se check i true ;;
                 ' (taken, max1, min1) <- update_size e size maxsize minsize ;;
                 target <- match i_arg i with OBlock n => Ok n | _ => Err AssertionError end ;;
                 let pending := if is_final i && match trailing_end r with Some _ => true | None => false end
                                then None else cur in
                 ' (max2, C) <- call target taken max1 min1 None pending C ;;
                 let maxsize := Z.max maxsize max2 in
                 if is_uncond_jump_name (i_name i) then
                   C <- match trailing_end r, cur with
                        | Some id, Some (id', t, la) =>
                            if Nat.eqb id id' then compute_handler call t la maxsize minsize C else Ok C
                        | _, _ => Ok C
                        end ;;
                   Ok (maxsize, unsee b C, true)
                 else Ok (maxsize, C, false)
               else Ok (maxsize, C, false)) ;;
            if stop : bool then Ok (maxsize, C) else
            (* 377-383 *)
            e <- used_effect v T se check i false ;;
            ' (size, maxsize, minsize) <- update_size e size maxsize minsize ;;
            (* 385-399 *)
            if is_final i then
              C <- match trailing_end r with
                   | Some id =>
                       ' (t, la, _) <- of_option AttributeError (find_tb id (all_items g)) ;;
                       compute_handler call t la maxsize minsize C
                   | None => Ok C
                   end ;;
              Ok (maxsize, unsee b C)
            else block_loop call b r size maxsize minsize cur C
        end
    end.

  Definition fingerprint_eqb (a b : Z * option bool) : bool :=
    (fst a =? fst b) &&
    match snd a, snd b with
    | None, None => true | Some x, Some y => Bool.eqb x y | _, _ => false end.

  (** cfg.py:447-461 _is_stacksize_computation_relevant *)
  Definition relevant (sizes : list (Z * option bool)) (f : Z * option bool) : bool :=
    if PY311 v then negb (existsb (fingerprint_eqb f) sizes)
    else forallb (fun s => fst s <? fst f) sizes.

  (** cfg.py:247-414 _StackSizeComputer.run.  [yield] of a computer is a recursive call, of
      an int a return: the generator is not resumed (cfg.py:550-567).  [fuel] bounds the
      nesting; Nontermination if it runs out (it does not: C32). *)
  Fixpoint run (fuel : nat) : visit := fun b size maxsize minsize exh pending C =>
    match fuel with
    | O => Err Nontermination
    | S f =>
        if nat_mem b (c_seen C) then Ok (maxsize, C) else
        sizes <- of_option KeyError (dget Nat.eqb (c_starts C) b) ;;
        if negb (relevant sizes (size, exh)) then Ok (maxsize, C) else
        let C := mkSC (b :: c_seen C) (dset Nat.eqb (c_starts C) b ((size, exh) :: sizes))
                   (c_tbs C) (c_ex_start C) (c_ex_max C) in
        ' (size, maxsize, minsize) <-
          match exh with
          | Some lasti => update_size (0, 1 + (if lasti then 1 else 0)) size maxsize minsize
          | None => Ok (size, maxsize, minsize)
          end ;;
        block_loop (run f) b (k_items (blk g b)) size maxsize minsize pending C
    end.
End Computation.

(** cfg.py:513-521 the storage at the start *)
Definition common0 (g : cfg) : common :=
  mkSC [] (map (fun n => (n, [])) (g_order g)) []
    (map (fun n => (n, 32768)) (g_order g)) (map (fun n => (n, -32768)) (g_order g)).

(** cfg.py:523-536 *)
Definition initial_size (v : pyver) (flags : Z) : Z :=
  if negb (PY313 v) && PY310 v && has_flag flags (Z.lor GENERATOR (Z.lor COROUTINE ASYNC_GENERATOR))
  then 1 else 0.

(** [tb.stack_depth = d] for the TryBegin with identity [id] *)
Definition store_depth (id : nat) (d : Z) (h : list block) : list block :=
  map (fun b => mkBlk (set_depth id (Some d) (k_items b)) (k_next b)) h.

(** cfg.py:577-585 the TryBegin of the blocks never met, whose depth is unset *)
Definition unmet_tbs (T : optable) (g : cfg) (C : common) : res (list nat) :=
  l <- mapM (fun n =>
         match dget Nat.eqb (c_starts C) n with
         | Some [] =>
             _ <- block_iter T (k_items (blk g n)) ;;
             Ok (flat_map (fun it => match it with BTB id _ _ None => [id] | _ => [] end) (k_items (blk g n)))
         | _ => Ok []
         end) (g_order g) ;;
  Ok (concat l).

(** the nesting allowed *)
Definition visit_fuel (g : cfg) : nat := S (length (g_order g)).

(** cfg.py:497-594 compute_stacksize: the graph after it (stack depths are written in its
    TryBegin) and the result, with at most [fuel] nested visits.  Simplification: on an exception the graph is not given. *)
Definition compute_nested (fuel : nat) (v : pyver) (T : optable) (se : oracle) (check depths : bool) (g : cfg)
  : res (cfg * Z) :=
  match g_order g with
  | [] => Ok (g, 0)
  | n :: _ =>
      ' (r, C) <- run v T se check g fuel n
                    (initial_size v (m_flags (g_meta g))) 0 0 None None (common0 g) ;;
      let r := fold_left Z.max (map snd (c_ex_max C)) r in
      dead <- unmet_tbs T g C ;;
      let heap := fold_left (fun h id => store_depth id 32768 h) dead (g_heap g) in
      heap <- (if depths : bool then
                 foldM (fun h (x : tbinfo) =>
                          let '(id, t, _) := x in
                          match t with
                          | OBlock b =>
                              s <- of_option KeyError (dget Nat.eqb (c_ex_start C) b) ;;
                              _ <- guard (0 <=? s) AssertionError ;;
                              Ok (store_depth id s h)
                          | _ => Err KeyError
                          end) (c_tbs C) heap
               else Ok heap) ;;
      Ok (mkG (g_meta g) (g_argnames g) heap (g_order g) (g_index g), r)
  end.

Definition compute_stacksize (v : pyver) (T : optable) (se : oracle) (check depths : bool) (g : cfg)
  : res (cfg * Z) := compute_nested (visit_fuel g) v T se check depths g.
