(** Model of src/bytecode/instr.py (arguments, locations, Instr) and of the class
    ConcreteInstr of src/bytecode/concrete.py. *)
From Verif Require Import PyBase OpTable.
Open Scope string_scope.
Open Scope Z_scope.

(** ** Python objects used as instruction arguments *)

(** Objects are immutable values here, except that labels, blocks and objects of other
    classes are known by their identity (a number).  [OOther ty id] is any object of a
    class the library does not know. *)
Inductive pyobj : Type :=
| ONone
| OBool (b : bool)
| OInt (z : Z)
| OStr (s : string)
| OTuple (l : list pyobj)
| OUnset                       (* instr.py:161-222 the UNSET singleton *)
| OLabel (n : nat)             (* instr.py:234 Label *)
| OBlock (n : nat)             (* cfg.py:32 BasicBlock *)
| OCell (s : string)           (* instr.py:261 CellVar *)
| OFree (s : string)           (* instr.py:265 FreeVar *)
| OCompare (z : Z)             (* instr.py:63-100 Compare member *)
| OIntr1 (z : Z)               (* instr.py:134 Intrinsic1Op member *)
| OIntr2 (z : Z)               (* instr.py:150 Intrinsic2Op member *)
| OOther (ty id : nat).

Definition is_unset (o : pyobj) : bool := match o with OUnset => true | _ => false end.

(** Integer value of the objects for which [isinstance(o, int)] holds (bool and the
    IntEnum classes are ints).  UNSET, also an int subclass, is treated apart. *)
Definition as_int (o : pyobj) : option Z :=
  match o with
  | OInt z => Some z
  | OBool b => Some (if b then 1 else 0)
  | OCompare z | OIntr1 z | OIntr2 z => Some z
  | _ => None
  end.

Definition is_str (o : pyobj) : bool := match o with OStr _ => true | _ => false end.

(** ** Locations *)

(** instr.py:426-441 InstrLocation *)
Record loc : Type := mkLoc {
  l_lineno : option Z; l_end_lineno : option Z;
  l_col : option Z; l_end_col : option Z }.

(** instr.py:413-423 _check_location (the non-int TypeError is ruled out by typing) *)
Definition check_location (x : option Z) (min_value : Z) : res unit :=
  match x with
  | None => Ok tt
  | Some z => if z <? min_value then Err ValueError else Ok tt
  end.

(** [0 if PY311 else 1] (instr.py:458, 508) *)
Definition min_lineno (v : pyver) : Z := if PY311 v then 0 else 1.

(** instr.py:445-491 InstrLocation.__init__ *)
Definition new_location (v : pyver) (lineno end_lineno col end_col : option Z) : res loc :=
  _ <- check_location lineno (min_lineno v) ;;
  _ <- check_location end_lineno 1 ;;
  _ <- check_location col 0 ;;
  _ <- check_location end_col 0 ;;
  _ <- match end_lineno with
       | Some el =>
           if el =? 0 then Ok tt           (* [if end_lineno:] is a truth test *)
           else match lineno with
                | None => Err ValueError
                | Some l => if el <? l then Err ValueError else Ok tt
                end
       | None => Ok tt
       end ;;
  _ <- match col, end_col with
       | None, None => Ok tt
       | _, _ =>
           match lineno, end_lineno with
           | Some l, Some el =>
               match end_col with
               | Some ec =>
                   match col with
                   | None => Err ValueError
                   | Some c => if (l =? el) && (ec <? c) then Err ValueError else Ok tt
                   end
               | None => Err ValueError
               end
           | _, _ => Err ValueError
           end
       end ;;
  Ok (mkLoc lineno end_lineno col end_col).

(** [InstrLocation(lineno, None, None, None)] once [lineno] was checked. *)
Definition line_loc (lineno : option Z) : loc := mkLoc lineno None None None.

(** The type of [instr.lineno]: UNSET, None or an int. *)
Inductive linev : Set := LUnset | LNone | LLine (z : Z).

Definition linev_of (o : option Z) : linev := match o with Some z => LLine z | None => LNone end.

(** ** Instr *)

(** instr.py:555-575, 811: name, opcode, argument, location. *)
Record instr : Type := mkInstr {
  i_name : string; i_op : Z; i_arg : pyobj; i_loc : option loc }.

(** instr.py:269-280 _check_arg_int *)
Definition check_arg_int (arg : pyobj) : res unit :=
  match as_int arg with
  | None => Err TypeError
  | Some z => if (0 <=? z) && (z <=? 2147483647) then Ok tt else Err ValueError
  end.

(** instr.py:820-928 Instr._check_arg *)
Definition instr_check_arg (v : pyver) (T : optable) (name : string) (op : Z) (arg : pyobj)
  : res unit :=
  if String.eqb name "EXTENDED_ARG" then Err ValueError else
  _ <- (if opcode_has_argument v T op
        then (if is_unset arg then Err ValueError else Ok tt)
        else (if is_unset arg then Ok tt else Err ValueError)) ;;
  if op_has_jump T op then
    match arg with OLabel _ | OBlock _ => Ok tt | _ => Err TypeError end
  else if z_mem op (t_hasfree T) then
    match arg with OCell _ | OFree _ => Ok tt | _ => Err TypeError end
  else if z_mem op (t_haslocal T) || z_mem op (t_hasname T) then
    if is_bitflag v T op then
      match arg with OTuple [OBool _; OStr _] => Ok tt | _ => Err TypeError end
    else if is_bitflag2 v T op then
      match arg with OTuple [OBool _; OBool _; OStr _] => Ok tt | _ => Err TypeError end
    else if is_dual v T op then
      match arg with
      | OTuple [a; b] =>
          match a, b with
          | (OStr _ | OCell _), (OStr _ | OCell _) => Ok tt
          | _, _ => Err TypeError
          end
      | _ => Err TypeError
      end
    else if PY313 v && z_mem op (t_haslocal T)
            && match arg with OCell _ | OFree _ => true | _ => false end then Ok tt
    else if is_str arg then Ok tt else Err TypeError
  else if z_mem op (t_hasconst T) then
    match arg with OLabel _ | OBlock _ => Err ValueError | _ => Ok tt end
  else if z_mem op (t_hascompare T) then
    match arg with OCompare _ => Ok tt | _ => Err TypeError end
  else if is_intrinsic1 v T op then
    match arg with OIntr1 _ => Ok tt | _ => Err TypeError end
  else if is_intrinsic2 v T op then
    match arg with OIntr2 _ => Ok tt | _ => Err TypeError end
  else if opcode_has_argument v T op then check_arg_int arg
  else Ok tt.

(** instr.py:764-776, first half of BaseInstr._set: resolve the name *)
Definition resolve_name (T : optable) (name : string) : res Z :=
  match opmap T name with
  | None => Err ValueError
  | Some op => if t_min_instrumented T <=? op then Err ValueError else Ok op
  end.

(** instr.py:764-782 BaseInstr._set for Instr, on the object [i].  Returns the object
    after the call (assignments are performed in program order) and the outcome. *)
Definition instr_set (v : pyver) (T : optable) (i : instr) (name : string) (arg : pyobj)
  : instr * res unit :=
  match resolve_name T name with
  | Err e => (i, Err e)
  | Ok op =>
      match instr_check_arg v T name op arg with
      | Err e => (i, Err e)
      | Ok _ => (mkInstr name op arg (i_loc i), Ok tt)
      end
  end.

(** instr.py:561-575 BaseInstr.__init__ for Instr *)
Definition new_instr (v : pyver) (T : optable) (name : string) (arg : pyobj)
  (lineno : linev) (location : option loc) : res instr :=
  op <- resolve_name T name ;;
  _ <- instr_check_arg v T name op arg ;;
  match location with
  | Some l => Ok (mkInstr name op arg (Some l))
  | None =>
      match lineno with
      | LUnset => Ok (mkInstr name op arg None)
      | LNone => Ok (mkInstr name op arg (Some (line_loc None)))
      | LLine z => l <- new_location v (Some z) None None None ;;
                   Ok (mkInstr name op arg (Some l))
      end
  end.

(** instr.py:602-614 the opcode setter: which name an opcode number stands for *)
Definition name_of_opcode (T : optable) (op : Z) : res string :=
  if (0 <=? op) && (op <=? 255) then of_option ValueError (opname T op) else Err ValueError.

(** instr.py:624-626 lineno getter *)
Definition loc_lineno (l : option loc) : linev :=
  match l with Some l => linev_of (l_lineno l) | None => LUnset end.

(** instr.py:628-644 lineno setter, on the location field.  Returns the field after the
    call and the outcome. *)
Definition set_lineno (v : pyver) (l : option loc) (lineno : linev) : option loc * res unit :=
  let detailed := match l with
    | Some l => match l_end_lineno l, l_col l, l_end_col l with
                | None, None, None => false | _, _, _ => true end
    | None => false end in
  if detailed then (l, Err RuntimeError)
  else match lineno with
       | LUnset => (None, Ok tt)
       | LNone => (Some (line_loc None), Ok tt)
       | LLine z => match new_location v (Some z) None None None with
                    | Ok l' => (Some l', Ok tt)
                    | Err e => (l, Err e)
                    end
       end.

(** The public mutations of an instruction (instr.py:578-656). *)
Inductive iop : Type :=
| IopSet (name : string) (arg : pyobj)
| IopName (name : string)
| IopOpcode (op : Z)
| IopArg (arg : pyobj)
| IopLineno (l : linev)
| IopLocation (l : option loc).

(** instr.py:578-656 set / name / opcode / arg / lineno / location, for Instr *)
Definition instr_step (v : pyver) (T : optable) (i : instr) (o : iop) : instr * res unit :=
  match o with
  | IopSet n a => instr_set v T i n a
  | IopName n => instr_set v T i n (i_arg i)
  | IopOpcode op => match name_of_opcode T op with
                    | Ok n => instr_set v T i n (i_arg i)
                    | Err e => (i, Err e) end
  | IopArg a => instr_set v T i (i_name i) a
  | IopLineno l => let '(l', r) := set_lineno v (i_loc i) l in
                   (mkInstr (i_name i) (i_op i) (i_arg i) l', r)
  | IopLocation l => (mkInstr (i_name i) (i_op i) (i_arg i) l, Ok tt)
  end.

(** instr.py:693-694 BaseInstr.copy for Instr *)
Definition instr_copy (v : pyver) (T : optable) (i : instr) : res instr :=
  new_instr v T (i_name i) (i_arg i) LUnset (i_loc i).

(** ** Classification of instructions (instr.py:696-741) *)

Definition is_cond_jump_name (n : string) : bool :=
  str_contains "JUMP_" n && str_contains "IF_" n.

Definition is_uncond_jump_name (n : string) : bool :=
  str_mem n ["JUMP_FORWARD"; "JUMP_ABSOLUTE"; "JUMP_BACKWARD"; "JUMP_BACKWARD_NO_INTERRUPT"].

Definition is_abs_jump (v : pyver) (T : optable) (op : Z) : bool := in_HASJABS v T op.

Definition is_forward_rel_jump (v : pyver) (T : optable) (n : string) (op : Z) : bool :=
  in_HASJREL v T op && negb (str_contains "BACKWARD" n).

Definition is_backward_rel_jump (v : pyver) (T : optable) (n : string) (op : Z) : bool :=
  in_HASJREL v T op && str_contains "BACKWARD" n.

Definition is_final_name (n : string) : bool :=
  str_mem n ["RETURN_VALUE"; "RETURN_CONST"; "RAISE_VARARGS"; "RERAISE";
             "BREAK_LOOP"; "CONTINUE_LOOP"] || is_uncond_jump_name n.

(** ** ConcreteInstr *)

(** concrete.py:74-130: the argument is an int or UNSET ([None]). *)
Record cinstr : Type := mkC {
  c_name : string; c_op : Z; c_arg : option Z; c_loc : option loc;
  c_ext : option Z; c_size : Z }.

(** concrete.py:103-115 ConcreteInstr._check_arg *)
Definition c_check_arg (v : pyver) (T : optable) (op : Z) (arg : pyobj) : res unit :=
  if opcode_has_argument v T op then
    if is_unset arg then Err ValueError else check_arg_int arg
  else if op =? 0 then
    check_arg_int (if is_unset arg then OInt 0 else arg)
  else if is_unset arg then Ok tt else Err ValueError.

(** The loop [while arg > 0xFF: size += 2; arg >>= 8] (concrete.py:125-127).  Fuel is the
    bit length of [arg], which the loop cannot exceed. *)
Fixpoint size_loop (fuel : nat) (size arg : Z) : Z :=
  match fuel with
  | O => size
  | S f => if 0xFF <? arg then size_loop f (size + 2) (Z.shiftr arg 8) else size
  end.

Definition bit_fuel (arg : Z) : nat := S (Z.to_nat (Z.log2 arg)).

(** concrete.py:123-130 size computed by ConcreteInstr._set *)
Definition compute_size (ext : option Z) (arg : option Z) : Z :=
  let size := match arg with
              | None => 2
              | Some a => size_loop (bit_fuel a) 2 a
              end in
  match ext with Some n => 2 + 2 * n | None => size end.

Definition carg_of (arg : pyobj) : option Z := if is_unset arg then None else as_int arg.

(** concrete.py:117-130 ConcreteInstr._set on the object [i] *)
Definition c_set (v : pyver) (T : optable) (i : cinstr) (name : string) (arg : pyobj)
  : cinstr * res unit :=
  match resolve_name T name with
  | Err e => (i, Err e)
  | Ok op =>
      match c_check_arg v T op arg with
      | Err e => (i, Err e)
      | Ok _ =>
          let a := carg_of arg in
          (mkC name op a (c_loc i) (c_ext i) (compute_size (c_ext i) a), Ok tt)
      end
  end.

(** concrete.py:88-101 ConcreteInstr.__init__ (location given or None; the [lineno]
    keyword is the case [location = Some (line_loc _)]) *)
Definition new_cinstr (v : pyver) (T : optable) (name : string) (arg : pyobj)
  (location : option loc) (ext : option Z) : res cinstr :=
  op <- resolve_name T name ;;
  _ <- c_check_arg v T op arg ;;
  let a := carg_of arg in
  Ok (mkC name op a location ext (compute_size ext a)).

(** Getter of [_arg] as a Python object *)
Definition c_pyarg (i : cinstr) : pyobj :=
  match c_arg i with Some a => OInt a | None => OUnset end.

(** The public mutations, for ConcreteInstr *)
Definition cinstr_step (v : pyver) (T : optable) (i : cinstr) (o : iop) : cinstr * res unit :=
  match o with
  | IopSet n a => c_set v T i n a
  | IopName n => c_set v T i n (c_pyarg i)
  | IopOpcode op => match name_of_opcode T op with
                    | Ok n => c_set v T i n (c_pyarg i)
                    | Err e => (i, Err e) end
  | IopArg a => c_set v T i (c_name i) a
  | IopLineno l => let '(l', r) := set_lineno v (c_loc i) l in
                   (mkC (c_name i) (c_op i) (c_arg i) l' (c_ext i) (c_size i), r)
  | IopLocation l => (mkC (c_name i) (c_op i) (c_arg i) l (c_ext i) (c_size i), Ok tt)
  end.

(** instr.py:693-694 BaseInstr.copy for ConcreteInstr: extended_args is not passed on *)
Definition cinstr_copy (v : pyver) (T : optable) (i : cinstr) : res cinstr :=
  new_cinstr v T (c_name i) (c_pyarg i) (c_loc i) None.

(** concrete.py:183-193 *)
Definition use_cache_opcodes (v : pyver) (T : optable) (i : cinstr) : Z :=
  cache_entries v T (c_name i) (c_op i).

(** Size of an instruction in the units in which offsets are counted
    ([size // 2 if OFFSET_AS_INSTRUCTION else size]). *)
Definition units (v : pyver) (size : Z) : Z :=
  if OFFSET_AS_INSTRUCTION v then size / 2 else size.

(** concrete.py:139-154 ConcreteInstr.get_jump_target.  A jump always has an argument
    (concrete.py:104-106), so the UNSET case only concerns non-jumps. *)
Definition get_jump_target (v : pyver) (T : optable) (i : cinstr) (instr_offset : Z)
  : option Z :=
  let s := units v (c_size i) + use_cache_opcodes v T i in
  match c_arg i with
  | None => None
  | Some a =>
      if is_forward_rel_jump v T (c_name i) (c_op i) then Some (instr_offset + s + a)
      else if is_backward_rel_jump v T (c_name i) (c_op i) then Some (instr_offset + s - a)
      else if is_abs_jump v T (c_op i) then Some a
      else None
  end.

(** The loop [while arg > 0xFF: arg >>= 8; b[:0] = [EXTENDED_ARG, arg & 0xFF]]
    (concrete.py:162-164) *)
Fixpoint assemble_loop (T : optable) (fuel : nat) (arg : Z) (b : list Z) : list Z :=
  match fuel with
  | O => b
  | S f => if 0xFF <? arg then
             let arg := Z.shiftr arg 8 in
             assemble_loop T f arg ([t_extended_arg T; Z.land arg 0xFF] ++ b)
           else b
  end.

(** The loop [while len(b) < self._size: b[:0] = [EXTENDED_ARG, 0]] (concrete.py:167-168);
    [n] bounds the number of iterations by the number of missing bytes. *)
Fixpoint pad_loop (T : optable) (n : nat) (size : Z) (b : list Z) : list Z :=
  match n with
  | O => b
  | S n' => if zlen b <? size then pad_loop T n' size ([t_extended_arg T; 0] ++ b) else b
  end.

(** concrete.py:156-170 ConcreteInstr.assemble *)
Definition assemble (T : optable) (i : cinstr) : list Z :=
  match c_arg i with
  | None => [c_op i; 0]
  | Some arg =>
      let b := assemble_loop T (bit_fuel arg) arg [c_op i; Z.land arg 0xFF] in
      match c_ext i with
      | Some n => if n =? 0 then b
                  else pad_loop T (Z.to_nat (c_size i - zlen b)) (c_size i) b
      | None => b
      end
  end.

(** concrete.py:172-181 ConcreteInstr.disassemble *)
Definition disassemble (v : pyver) (T : optable) (lineno : option Z) (code : list Z)
  (offset : Z) : res cinstr :=
  let index := if OFFSET_AS_INSTRUCTION v then 2 * offset else offset in
  op <- py_index code index ;;
  arg <- (if opcode_has_argument v T op
          then (a <- py_index code (index + 1) ;; Ok (OInt a)) else Ok OUnset) ;;
  name <- of_option ValueError (opname T op) ;;
  l <- new_location v lineno None None None ;;
  new_cinstr v T name arg (Some l) None.
