(** Model of class _ConvertBytecodeToConcrete of src/bytecode/concrete.py: assembly of a
    Bytecode into a ConcreteBytecode. *)
From Verif Require Import PyBase OpTable M_Instr M_Tables M_Concrete.
Open Scope string_scope.
Open Scope list_scope.
Open Scope Z_scope.

(** concrete.py:1152-1168 attributes of the converter, and the local variables of
    concrete_instructions.  [k_jumps]: index and label (the instruction object is the one
    at the index).  [k_ex]: for each TryBegin (by identity) the index of the first and last
    instruction, its target, stack depth and push_lasti.  [k_try] is the variable
    seen_try_begin of Bytecode.__iter__ (bytecode.py:251). *)
Record exidx : Type := mkXI {
  xi_start : Z; xi_stop : Z; xi_target : pyobj; xi_depth : Z; xi_lasti : bool }.

Record conv : Type := mkK {
  k_instrs : list cinstr;
  k_jumps : list (nat * nat);
  k_labels : list (nat * nat);
  k_ex : list (nat * exidx);
  k_req : Z;
  k_manual : bool;
  k_consts : list pyobj;
  k_names : list string;
  k_varnames : list string;
  k_loc : loc;
  k_cells : list nat;
  k_frees : list nat;
  k_try : bool }.

(** concrete.py:1170-1177 add_const.  [keq] decides whether two constants have the same
    const_key (instr.py:225-231: marshal bytes, or type and identity); it is an oracle,
    see DESIGN.md. *)
Fixpoint const_index (keq : pyobj -> pyobj -> bool) (x : pyobj) (l : list pyobj) : option nat :=
  match l with
  | [] => None
  | y :: l' => if keq x y then Some 0%nat else option_map S (const_index keq x l')
  end.

Definition add_const (keq : pyobj -> pyobj -> bool) (l : list pyobj) (x : pyobj)
  : list pyobj * Z :=
  match const_index keq x l with
  | Some n => (l, Z.of_nat n)
  | None => (l ++ [x], zlen l)
  end.

(** concrete.py:1179-1186 add *)
Definition add_name (l : list string) (x : string) : list string * Z :=
  match str_index x l with
  | Some n => (l, Z.of_nat n)
  | None => (l ++ [x], zlen l)
  end.

(** bytecode.py:249-260 Bytecode.__iter__, the check made before an element is produced *)
Definition iter_check (seen : bool) (it : bitem) : res bool :=
  match it with
  | BTB _ _ _ _ => if seen then Err RuntimeError else Ok true
  | BTE _ => Ok false
  | _ => Ok seen
  end.

(** concrete.py:1195-1204 on 3.13 the names used by paired opcodes get the first indices *)
Definition prescan_item (v : pyver) (T : optable) (st : list string * bool) (it : bitem)
  : res (list string * bool) :=
  let '(names, seen) := st in
  seen <- iter_check seen it ;;
  match it with
  | BI i =>
      if is_dual v T (i_op i) then
        match i_arg i with
        | OTuple l =>
            names <- foldM (fun names o => match o with
                              | OStr s => Ok (fst (add_name names s))
                              | _ => Err AssertionError end) l names ;;
            Ok (names, seen)
        | _ => Err AssertionError
        end
      else Ok (names, seen)
  | _ => Ok (names, seen)
  end.

Definition prescan (v : pyver) (T : optable) (names : list string) (items : list bitem)
  : res (list string) :=
  if PY313 v then r <- foldM (prescan_item v T) items (names, false) ;; Ok (fst r)
  else Ok names.

(** instr.py:77-93 Compare._get_mask *)
Definition compare_mask (z : Z) : Z :=
  let x := Z.land z 15 in
  if x =? 2 then 8 else if x =? 3 then 1 + 2 + 4 else if x =? 0 then 2
  else if x =? 1 then 2 + 8 else if x =? 4 then 4 else 4 + 8.

(** Argument of COMPARE_OP (concrete.py:1344-1359) *)
Definition encode_compare (v : pyver) (z : Z) : Z :=
  if PY313 v then compare_mask z + Z.shiftl (Z.land z 15) 5 + Z.land z 16
  else if PY312 v then compare_mask z + Z.shiftl z 4
  else z.

(** How the index of a cell or free variable is finished at the end. *)
Inductive vkind : Set := VNone | VCell | VFree.

(** concrete.py:1275-1366 the conversion of the argument: new tables, possibly a first
    instruction (paired opcodes that do not fit), the name of the instruction, its
    argument, and whether it is a cell or free variable instruction.  An argument that is
    not of the kind required by Instr gives AssertionError; it cannot occur (C05, C06). *)
Definition encode_arg (v : pyver) (T : optable) (keq : pyobj -> pyobj -> bool) (m : meta)
  (K : conv) (i : instr)
  : res (list pyobj * list string * list string * option (string * Z) * string * pyobj * vkind) :=
  let op := i_op i in
  let consts := k_consts K in let names := k_names K in let varnames := k_varnames K in
  let cellref n := match str_index n (m_cellvars m) with
                   | Some j => Ok (consts, names, varnames, None, i_name i, OInt (Z.of_nat j), VCell)
                   | None => Err ValueError end in
  let freeref n := match str_index n (m_freevars m) with
                   | Some j => Ok (consts, names, varnames, None, i_name i, OInt (Z.of_nat j), VFree)
                   | None => Err ValueError end in
  match i_arg i with
  | OLabel _ => Ok (consts, names, varnames, None, i_name i, OInt 0, VNone)
  | arg =>
    if z_mem op (t_hasconst T) then
      let '(consts, j) := add_const keq consts arg in
      Ok (consts, names, varnames, None, i_name i, OInt j, VNone)
    else if z_mem op (t_haslocal T) then
      if is_dual v T op then
        match arg with
        | OTuple [OStr a; OStr b] =>
            let '(varnames, j1) := add_name varnames a in
            let '(varnames, j2) := add_name varnames b in
            if (16 <? j1) || (16 <? j2) then
              match dual_single_ops v T op with
              | Some (n1, n2) =>
                  Ok (consts, names, varnames, Some (n1, j1), n2, OInt j2, VNone)
              | None => Err KeyError
              end
            else Ok (consts, names, varnames, None, i_name i, OInt (Z.shiftl j1 4 + j2), VNone)
        | _ => Err AssertionError
        end
      else
        match arg with
        | OCell n => if PY313 v then cellref n else Err AssertionError
        | OFree n => if PY313 v then freeref n else Err AssertionError
        | OStr s => let '(varnames, j) := add_name varnames s in
                    Ok (consts, names, varnames, None, i_name i, OInt j, VNone)
        | _ => Err AssertionError
        end
    else if z_mem op (t_hasname T) then
      if is_bitflag v T op then
        match arg with
        | OTuple [OBool b; OStr s] =>
            let '(names, j) := add_name names s in
            Ok (consts, names, varnames, None, i_name i,
                OInt ((if b then 1 else 0) + Z.shiftl j 1), VNone)
        | _ => Err AssertionError
        end
      else if is_bitflag2 v T op then
        match arg with
        | OTuple [OBool b; OBool c; OStr s] =>
            let '(names, j) := add_name names s in
            Ok (consts, names, varnames, None, i_name i,
                OInt ((if b then 1 else 0) + 2 * (if c then 1 else 0) + Z.shiftl j 2), VNone)
        | _ => Err AssertionError
        end
      else
        match arg with
        | OStr s => let '(names, j) := add_name names s in
                    Ok (consts, names, varnames, None, i_name i, OInt j, VNone)
        | _ => Err AssertionError
        end
    else if z_mem op (t_hasfree T) then
      match arg with
      | OCell n => cellref n
      | OFree n => freeref n
      | _ => Err AssertionError
      end
    else if z_mem op (t_hascompare T) then
      match arg with
      | OCompare z => Ok (consts, names, varnames, None, i_name i, OInt (encode_compare v z), VNone)
      | _ => Err AssertionError
      end
    else if is_intrinsic v T op then
      match arg with
      | OIntr1 z | OIntr2 z => Ok (consts, names, varnames, None, i_name i, OInt z, VNone)
      | _ => Err AssertionError
      end
    else if is_unset arg then Ok (consts, names, varnames, None, i_name i, OUnset, VNone)
    else match as_int arg with
         | Some z => Ok (consts, names, varnames, None, i_name i, OInt z, VNone)
         | None => Err AssertionError
         end
  end.

(** concrete.py:1206-1235 explicit and generated CACHE instructions, before element [it]
    ([None] is the sentinel) *)
Definition is_cache (it : option bitem) : bool :=
  match it with Some (BI i) => String.eqb (i_name i) "CACHE" | _ => false end.

Definition flush_caches (v : pyver) (T : optable) (K : conv) (it : option bitem) : res conv :=
  let '(mkK ins jumps labels ex req manual co na va lo ce fr tr) := K in
  if is_cache it then
    if req =? 0 then Err RuntimeError
    else Ok (mkK ins jumps labels ex (req - 1) true co na va lo ce fr tr)
  else if req =? 0 then Ok K
  else if manual then Err RuntimeError
  else
    (* self.instructions[-1] exists since required_caches was set by it *)
    last <- of_option IndexError (nth_error ins (pred (length ins))) ;;
    c <- new_cinstr v T "CACHE" (OInt 0) (c_loc last) None ;;
    Ok (mkK (ins ++ repeat c (Z.to_nat req)) jumps labels ex 0 false co na va lo ce fr tr).

(** concrete.py:1237-1378 the body of the loop for one element *)
Definition conv_body (v : pyver) (T : optable) (keq : pyobj -> pyobj -> bool) (m : meta)
  (K : conv) (it : bitem) : res conv :=
  let '(mkK ins jumps labels ex req manual co na va lo ce fr tr) := K in
  match it with
  | BLabel l => Ok (mkK ins jumps (dset Nat.eqb labels l (length ins)) ex req manual co na va lo ce fr tr)
  | BSet z =>
      (* InstrLocation(instr.lineno, ...): SetLineno has checked the line *)
      Ok (mkK ins jumps labels ex req manual co na va (line_loc (Some z)) ce fr tr)
  | BTB id target lasti depth =>
      d <- of_option AssertionError depth ;;
      Ok (mkK ins jumps labels (dset Nat.eqb ex id (mkXI (zlen ins) 0 target d lasti))
            req manual co na va lo ce fr tr)
  | BTE id =>
      e <- of_option KeyError (dget Nat.eqb ex id) ;;
      Ok (mkK ins jumps labels
            (dset Nat.eqb ex id (mkXI (xi_start e) (zlen ins - 1) (xi_target e) (xi_depth e) (xi_lasti e)))
            req manual co na va lo ce fr tr)
  | BI i =>
      let lo := match i_loc i with Some l => l | None => lo end in
      ' (co, na, va, first, name, arg, kind) <- encode_arg v T keq m K i ;;
      ' (ins, pos_) <- (match first with
                 | Some (n1, j1) => c1 <- new_cinstr v T n1 (OInt j1) (Some lo) None ;;
                                    Ok (ins ++ [c1], length ins)
                 | None => Ok (ins, length ins) end) ;;
      c <- new_cinstr v T name arg (Some lo) None ;;
      let jumps := match i_arg i with OLabel l => jumps ++ [(length ins, l)] | _ => jumps end in
      let ce := match kind with VCell => ce ++ [pos_] | _ => ce end in
      let fr := match kind with VFree => fr ++ [pos_] | _ => fr end in
      Ok (mkK (ins ++ [c]) jumps labels ex
            (if PY311 v then use_cache_opcodes v T c else req)
            (if PY311 v then false else manual) co na va lo ce fr tr)
  end.

Definition conv_item (v : pyver) (T : optable) (keq : pyobj -> pyobj -> bool) (m : meta)
  (K : conv) (it : bitem) : res conv :=
  tr <- iter_check (k_try K) it ;;
  let '(mkK ins jumps labels ex req manual co na va lo ce fr _) := K in
  K <- flush_caches v T (mkK ins jumps labels ex req manual co na va lo ce fr tr) (Some it) ;;
  conv_body v T keq m K it.

(** [c_instr.arg = arg] on an existing instruction (concrete.py:117-130, the setter) *)
Definition set_arg (v : pyver) (T : optable) (c : cinstr) (arg : Z) : res cinstr :=
  match c_set v T c (c_name c) (OInt arg) with
  | (c', Ok _) => Ok c'
  | (_, Err e) => Err e
  end.

(** concrete.py:1384-1394 shared_name_indexes, as the list of indices of the cell variables *)
Fixpoint shared_indexes (varnames : list string) (n_unshared : Z) (cells : list string) : list Z :=
  match cells with
  | [] => []
  | n :: r => match str_index n varnames with
              | Some j => Z.of_nat j :: shared_indexes varnames n_unshared r
              | None => (zlen varnames + n_unshared) :: shared_indexes varnames (n_unshared + 1) r
              end
  end.

(** [c_instr = self.instructions[index]; c_instr.arg = f(c_instr.arg)] *)
Definition map_arg_at (v : pyver) (T : optable) (f : Z -> res Z) (ins : list cinstr) (n : nat)
  : res (list cinstr) :=
  c <- of_option IndexError (nth_error ins n) ;;
  a <- f (match c_arg c with Some a => a | None => 0 end) ;;
  c' <- set_arg v T c a ;;
  Ok (upd n c' ins).

(** concrete.py:1380-1406 final cell and free variable indices *)
Definition fix_vars (v : pyver) (T : optable) (m : meta) (K : conv) : res (list cinstr) :=
  let va := k_varnames K in
  let shared := shared_indexes va 0 (m_cellvars m) in
  let n_shared := zlen (filter (fun n => str_mem n va) (m_cellvars m)) in
  ins <- (if PY311 v
          then foldM (map_arg_at v T (fun a => of_option KeyError (nth_error shared (Z.to_nat a))))
                 (k_cells K) (k_instrs K)
          else Ok (k_instrs K)) ;;
  let free_offset := if PY311 v then zlen va + zlen (m_cellvars m) - n_shared
                     else zlen (m_cellvars m) in
  foldM (map_arg_at v T (fun a => Ok (a + free_offset))) (k_frees K) ins.

(** concrete.py:1188-1406 concrete_instructions: the state at the end of the main loop and
    the instructions after the last adjustments *)
Definition concrete_instructions (v : pyver) (T : optable) (keq : pyobj -> pyobj -> bool)
  (m : meta) (consts : list pyobj) (varnames : list string) (items : list bitem)
  : res (conv * list cinstr) :=
  varnames <- prescan v T varnames items ;;
  K <- foldM (conv_item v T keq m) items
         (mkK [] [] [] [] 0 false consts [] varnames (line_loc (Some (m_first_lineno m))) [] [] false) ;;
  K <- flush_caches v T K None ;;
  ins <- fix_vars v T m K ;;
  Ok (K, ins).

(** ** Jumps *)

(** concrete.py:1412-1427 label_offsets: the offset of each instruction, and the end *)
Fixpoint label_offsets (v : pyver) (offset : Z) (ins : list cinstr) : list Z :=
  match ins with
  | [] => [offset]
  | c :: r =>
      offset :: label_offsets v
        (offset + (if OFFSET_AS_INSTRUCTION v then c_size c / 2 - 1 else c_size c - 2)
         + (if OFFSET_AS_INSTRUCTION v then 1 else 2)) r
  end.

(** concrete.py:1413-1425 instruction_offsets: after the EXTENDED_ARG of the instruction *)
Fixpoint instruction_offsets (v : pyver) (offset : Z) (ins : list cinstr) : list Z :=
  match ins with
  | [] => []
  | c :: r =>
      let o := offset + (if OFFSET_AS_INSTRUCTION v then c_size c / 2 - 1 else c_size c - 2) in
      o :: instruction_offsets v (o + (if OFFSET_AS_INSTRUCTION v then 1 else 2)) r
  end.

(** concrete.py:1430-1452 one jump *)
Definition fix_jump (v : pyver) (T : optable) (labels : list (nat * nat)) (offs : list Z)
  (st : list cinstr * bool) (j : nat * nat) : res (list cinstr * bool) :=
  let '(ins, modified) := st in
  let '(index, label) := j in
  ti <- of_option KeyError (dget Nat.eqb labels label) ;;
  target <- of_option IndexError (nth_error offs ti) ;;
  c <- of_option IndexError (nth_error ins index) ;;
  o <- of_option IndexError (nth_error offs index) ;;
  let instr_offset := o + use_cache_opcodes v T c in
  let arg :=
    if is_forward_rel_jump v T (c_name c) (c_op c) then target - (instr_offset + units v (c_size c))
    else if is_backward_rel_jump v T (c_name c) (c_op c) then instr_offset + units v (c_size c) - target
    else target in
  c' <- set_arg v T c arg ;;
  Ok (upd index c' ins, modified || negb (c_size c' =? c_size c)).

(** concrete.py:1408-1457 first part of compute_jumps *)
Definition jump_pass (v : pyver) (T : optable) (labels : list (nat * nat))
  (jumps : list (nat * nat)) (ins : list cinstr) : res (list cinstr * bool) :=
  foldM (fix_jump v T labels (label_offsets v 0 ins)) jumps (ins, false).

(** concrete.py:1459-1471 exception table entries *)
Definition fix_entry (v : pyver) (ioffs loffs : list Z) (labels : list (nat * nat)) (e : exidx)
  : res exentry :=
  start <- py_index ioffs (xi_start e) ;;
  stop <- py_index ioffs (xi_stop e) ;;
  l <- match xi_target e with OLabel l => Ok l | _ => Err AssertionError end ;;
  ti <- of_option KeyError (dget Nat.eqb labels l) ;;
  target <- of_option IndexError (nth_error loffs ti) ;;
  Ok (mkEx start stop target (xi_depth e) (xi_lasti e)).

(** concrete.py:1495-1503 the passes of compute_jumps.  The entries are resolved with the
    offsets computed at the beginning of the last pass, in which no size changed. *)
Fixpoint compute_jumps (v : pyver) (T : optable) (labels : list (nat * nat))
  (jumps : list (nat * nat)) (ex : list (nat * exidx)) (passes : nat) (ins : list cinstr)
  : res (list cinstr * list exentry) :=
  match passes with
  | O => Err RuntimeError
  | S p =>
      ' (ins', modified) <- jump_pass v T labels jumps ins ;;
      if modified then compute_jumps v T labels jumps ex p ins'
      else
        entries <- mapM (fun x => fix_entry v (instruction_offsets v 0 ins) (label_offsets v 0 ins)
                                    labels (snd x)) ex ;;
        Ok (ins', entries)
  end.

(** concrete.py:1150 *)
Definition default_passes : nat := 10.

(** concrete.py:1475-1513 to_concrete_bytecode with compute_exception_stack_depths=False
    (or before 3.11); the other case first replaces the bytecode, see M_Full *)
Definition to_concrete (v : pyver) (T : optable) (keq : pyobj -> pyobj -> bool) (passes : nat)
  (b : bytecode) : res cbytecode :=
  let m := b_meta b in
  let consts := match m_docstring m with
                | OUnset => []
                | d => fst (add_const keq [] d) end in
  ' (K, ins) <- concrete_instructions v T keq m consts (b_argnames b) (b_items b) ;;
  ' (ins, entries) <- compute_jumps v T (k_labels K) (k_jumps K) (k_ex K) passes ins ;;
  Ok (mkCB m (map CI ins) (k_consts K) (k_names K) (k_varnames K) entries).
