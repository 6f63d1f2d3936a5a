(** Model of class ConcreteBytecode of src/bytecode/concrete.py and of the attributes
    common to the bytecode classes (src/bytecode/bytecode.py). *)
From Verif Require Import PyBase OpTable CPy M_Instr M_Tables.
Open Scope string_scope.
Open Scope list_scope.
Open Scope Z_scope.

(** ** Containers *)

(** bytecode.py:34-51 BaseBytecode attributes; flags are the integer value of
    CompilerFlags; docstring is OUnset, ONone or OStr. *)
Record meta : Type := mkMeta {
  m_argcount : Z; m_posonly : Z; m_kwonly : Z; m_first_lineno : Z;
  m_name : string; m_qualname : string; m_filename : string;
  m_docstring : pyobj; m_cellvars : list string; m_freevars : list string; m_flags : Z }.

(** bytecode.py:34-51 BaseBytecode.__init__ *)
Definition meta0 : meta :=
  mkMeta 0 0 0 1 "<module>" "<module>" "<string>" OUnset [] [] 0.

(** Element of a ConcreteBytecode: ConcreteInstr or SetLineno (concrete.py:251) *)
Inductive citem : Type := CI (c : cinstr) | CSet (lineno : Z).

(** concrete.py:251-282 ConcreteBytecode *)
Record cbytecode : Type := mkCB {
  cb_meta : meta; cb_items : list citem; cb_consts : list pyobj;
  cb_names : list string; cb_varnames : list string; cb_ex : list exentry }.

(** The attributes of types.CodeType that are read or written.  The line table is kept in
    the interpreter's encoding. *)
Record codeobj : Type := mkCode {
  co_argcount : Z; co_posonly : Z; co_kwonly : Z; co_nlocals : Z; co_stacksize : Z;
  co_flags : Z; co_code : list Z; co_consts : list pyobj; co_names : list string;
  co_varnames : list string; co_filename : string; co_name : string; co_qualname : string;
  co_firstlineno : Z; co_linetable : list Z; co_exceptiontable : list Z;
  co_freevars : list string; co_cellvars : list string }.

(** Element of a Bytecode (bytecode.py:235): labels and TryBegin objects are known by
    identity; a TryEnd refers to the TryBegin with its identity. The target of a TryBegin
    is a label in a Bytecode and a block in a ControlFlowGraph. *)
Inductive bitem : Type :=
| BI (i : instr)
| BLabel (n : nat)
| BSet (lineno : Z)
| BTB (id : nat) (target : pyobj) (lasti : bool) (depth : option Z)
| BTE (id : nat).

(** bytecode.py:235-247 Bytecode *)
Record bytecode : Type := mkB {
  b_meta : meta; b_argnames : list string; b_items : list bitem }.

(** concrete.py:63-68 _set_docstring, on the docstring attribute *)
Definition set_docstring (doc : pyobj) (consts : list pyobj) : pyobj :=
  match consts with
  | [] => doc
  | c :: _ => match c with OStr _ | ONone => c | _ => doc end
  end.

(** ** Lines and assembly *)

(** concrete.py:403-419 _normalize_lineno *)
Fixpoint normalize_lineno (lineno : Z) (l : list citem) : list (Z * cinstr) :=
  match l with
  | [] => []
  | CSet z :: l' => normalize_lineno z l'
  | CI c :: l' =>
      let lineno := match loc_lineno (c_loc c) with LLine z => z | _ => lineno end in
      (lineno, c) :: normalize_lineno lineno l'
  end.

(** concrete.py:421-440 _assemble_code *)
Fixpoint assemble_code_loop (v : pyver) (T : optable) (offset : Z) (l : list (Z * cinstr))
  : list Z * list lent :=
  match l with
  | [] => ([], [])
  | (lineno, c) :: l' =>
      let '(code, linenos) := assemble_code_loop v T (offset + units v (c_size c)) l' in
      (assemble T c ++ code,
       mkLent (if OFFSET_AS_INSTRUCTION v then offset * 2 else offset)
              (c_size c) lineno (c_loc c) :: linenos)
  end.

Definition assemble_code (v : pyver) (T : optable) (cb : cbytecode) : list Z * list lent :=
  assemble_code_loop v T 0 (normalize_lineno (m_first_lineno (cb_meta cb)) (cb_items cb)).

(** concrete.py:874-888 choice of the line table *)
Definition assemble_lines (v : pyver) (first_lineno : Z) (linenos : list lent) : res (list Z) :=
  if PY311 v then assemble_locations first_lineno linenos
  else if PY310 v then assemble_linestable first_lineno linenos
  else assemble_lnotab first_lineno linenos.

(** concrete.py:873-926, the part of ConcreteBytecode.to_code after the optional
    recomputation (concrete.py:861-871): the arguments given to types.CodeType.  The
    checks made by the constructor of CodeType are not modelled.  On 3.8 - 3.10 the
    qualname and exception table are not passed; they are empty here. *)
Definition to_code_raw (v : pyver) (T : optable) (cb : cbytecode) (stacksize : Z)
  : res codeobj :=
  let m := cb_meta cb in
  let '(code_str, linenos) := assemble_code v T cb in
  lnotab <- assemble_lines v (m_first_lineno m) linenos ;;
  ext <- (if PY311 v then assemble_exception_table (cb_ex cb) else Ok []) ;;
  Ok (mkCode (m_argcount m) (m_posonly m) (m_kwonly m) (zlen (cb_varnames cb)) stacksize
        (m_flags m) code_str (cb_consts cb) (cb_names cb) (cb_varnames cb) (m_filename m)
        (m_name m) (if PY311 v then m_qualname m else "") (m_first_lineno m) lnotab ext
        (m_freevars m) (m_cellvars m)).

(** ** EXTENDED_ARG removal *)

(** concrete.py:745-791 _remove_extended_args.  In-place deletion is rendered by building
    the resulting list.  [UNSET] is an int subclass of value 0 and behaves as 0 in the
    addition; the NOP test comes first. *)
Fixpoint remove_extended_args (v : pyver) (T : optable) (nb : Z) (ext : option Z)
  (l : list citem) : res (list citem) :=
  match l with
  | [] => match ext with None => Ok [] | Some _ => Err ValueError end
  | CSet z :: l' => r <- remove_extended_args v T nb ext l' ;; Ok (CSet z :: r)
  | CI c :: l' =>
      let iarg := match c_arg c with Some a => a | None => 0 end in
      if String.eqb (c_name c) "EXTENDED_ARG" then
        remove_extended_args v T (nb + 1)
          (Some (match ext with Some e => Z.shiftl e 8 + iarg | None => iarg end)) l'
      else
        match ext with
        | Some e =>
            let arg := if String.eqb (c_name c) "NOP" then OUnset
                       else OInt (Z.shiftl e 8 + iarg) in
            c' <- new_cinstr v T (c_name c) arg (c_loc c) (Some nb) ;;
            r <- remove_extended_args v T 0 None l' ;;
            Ok (CI c' :: r)
        | None => r <- remove_extended_args v T nb None l' ;; Ok (CI c :: r)
        end
  end.

(** ** Disassembly of a code object *)

(** dis.get_instructions(code, show_caches=True) of 3.11+: opname ([None] for an unknown
    opcode), argument with EXTENDED_ARG accumulated, for every code unit; the units after
    an instruction with inline caches are reported as CACHE with argument 0.
    (Lib/dis.py, not /repo; the wrap-around of arguments above 2^31 is not modelled since
    only [arg % 256] is used.)  On 3.13 concrete.py:344-347 adds the CACHE entries that
    dis reports in cache_info, with the same result. *)
Fixpoint dis_units (v : pyver) (T : optable) (caches ext : Z) (code : list Z)
  : list (option string * option Z) :=
  match code with
  | op :: b :: rest =>
      if 0 <? caches then (Some "CACHE", Some 0) :: dis_units v T (caches - 1) ext rest
      else
        let name := opname T op in
        let nc := match name with Some n => cache_entries v T n op | None => 0 end in
        if opcode_has_argument v T op then
          let arg := b + ext in
          (name, Some arg)
          :: dis_units v T nc (if op =? t_extended_arg T then Z.shiftl arg 8 else 0) rest
        else (name, None) :: dis_units v T nc 0 rest
  | _ => []
  end.

(** concrete.py:331-347, 3.11+.  [positions] is co_positions(), one per code unit; missing
    ones are (None, None, None, None). *)
Fixpoint from_units (v : pyver) (T : optable) (us : list (option string * option Z))
  (positions : list position) : res (list citem) :=
  match us with
  | [] => Ok []
  | (name, arg) :: us' =>
      let '(p, positions') := match positions with
                              | [] => ((None, None, None, None), [])
                              | p :: ps => (p, ps) end in
      let '(l, el, c, ec) := p in
      lo <- new_location v l el c ec ;;
      n <- of_option ValueError name ;;
      i <- new_cinstr v T n (match arg with Some a => OInt (a mod 256) | None => OUnset end)
             (Some lo) None ;;
      r <- from_units v T us' positions' ;;
      Ok (CI i :: r)
  end.

(** concrete.py:349-366, 3.8 - 3.10: [starts] is the dict line_starts.  One code unit is
    consumed per round, so the length of the code is enough fuel. *)
Fixpoint from_bytes (v : pyver) (T : optable) (fuel : nat) (starts : list (Z * option Z))
  (code : list Z) (offset : Z) (lineno : option Z) : res (list citem) :=
  match fuel with
  | O => Ok []
  | S f =>
      if offset <? zlen code / (if OFFSET_AS_INSTRUCTION v then 2 else 1) then
        let lineno_off := if OFFSET_AS_INSTRUCTION v then 2 * offset else offset in
        let lineno := match dget Z.eqb starts lineno_off with Some l => l | None => lineno end in
        i <- disassemble v T lineno code offset ;;
        r <- from_bytes v T f starts code (offset + units v (c_size i)) lineno ;;
        Ok (CI i :: r)
      else Ok []
  end.

(** A Python dict built from pairs keeps the last value of a key; [dget] finds the first,
    hence the reversal. *)
Definition line_starts (v : pyver) (co : codeobj) : list (Z * option Z) :=
  if PY310 v then
    rev (co_lines (zlen (co_code co)) 0 (co_firstlineno co) (co_linetable co))
  else
    rev (map (fun p => (fst p, Some (snd p)))
             (findlinestarts (zlen (co_code co)) 0 (co_firstlineno co) None (co_linetable co))).

(** concrete.py:325-366 the instruction list before EXTENDED_ARG removal *)
Definition disassemble_code (v : pyver) (T : optable) (co : codeobj) : res (list citem) :=
  if PY311 v then
    from_units v T (dis_units v T 0 0 (co_code co))
      (co_positions (co_firstlineno co) (co_linetable co))
  else
    from_bytes v T (length (co_code co)) (line_starts v co) (co_code co) 0
      (Some (co_firstlineno co)).

(** concrete.py:325-401 ConcreteBytecode.from_code *)
Definition from_code (v : pyver) (T : optable) (co : codeobj) (extended_arg : bool)
  : res cbytecode :=
  instructions <- disassemble_code v T co ;;
  instructions <- (if extended_arg then Ok instructions
                   else remove_extended_args v T 0 None instructions) ;;
  Ok (mkCB
        (mkMeta (co_argcount co) (co_posonly co) (co_kwonly co) (co_firstlineno co)
           (co_name co) (if PY311 v then co_qualname co else m_qualname meta0)
           (co_filename co) (set_docstring OUnset (co_consts co))
           (co_cellvars co) (co_freevars co) (co_flags co))
        instructions (co_consts co) (co_names co) (co_varnames co)
        (if PY311 v then parse_exception_table (co_exceptiontable co) else [])).

(** ** Conversion to Bytecode *)

(** instr.py:63-100 members of Compare *)
Definition compare_member (v : pyver) (z : Z) : bool :=
  ((0 <=? z) && (z <=? 5))
  || ((minor v <? 9) && (6 <=? z) && (z <=? 10))
  || (PY313 v && (16 <=? z) && (z <=? 21)).
(** instr.py:134-147, 150-156 *)
Definition intrinsic1_member (z : Z) : bool := (0 <=? z) && (z <=? 11).
Definition intrinsic2_member (z : Z) : bool := (0 <=? z) && (z <=? 4).

(** concrete.py:983-999 [cells_lookup] *)
Definition cells_lookup (v : pyver) (cb : cbytecode) : list pyobj :=
  let cells := m_cellvars (cb_meta cb) in
  if PY311 v then
    map OStr (cb_varnames cb)
    ++ map OCell (filter (fun n => negb (str_mem n (cb_varnames cb))) cells)
  else map OCell cells.

(** concrete.py:992-999 [locals_lookup] *)
Definition locals_lookup (v : pyver) (cb : cbytecode) : list pyobj :=
  if PY313 v then
    cells_lookup v cb
    ++ map OFree (filter (fun n => negb (str_mem n (cb_varnames cb)))
                         (m_freevars (cb_meta cb)))
  else map OStr (cb_varnames cb).

(** concrete.py:1046-1095 the abstract argument of a concrete instruction *)
Definition decode_arg (v : pyver) (T : optable) (cb : cbytecode) (op : Z) (c_arg : option Z)
  : res pyobj :=
  let a := match c_arg with Some a => a | None => 0 end in
  if z_mem op (t_hasconst T) then py_index (cb_consts cb) a
  else if z_mem op (t_haslocal T) then
    if is_dual v T op then
      x <- py_index (locals_lookup v cb) (Z.shiftr a 4) ;;
      y <- py_index (locals_lookup v cb) (Z.land a 15) ;;
      Ok (OTuple [x; y])
    else py_index (locals_lookup v cb) a
  else if z_mem op (t_hasname T) then
    if is_bitflag v T op then
      n <- py_index (cb_names cb) (Z.shiftr a 1) ;;
      Ok (OTuple [OBool (negb (Z.land a 1 =? 0)); OStr n])
    else if is_bitflag2 v T op then
      n <- py_index (cb_names cb) (Z.shiftr a 2) ;;
      Ok (OTuple [OBool (negb (Z.land a 1 =? 0)); OBool (negb (Z.land a 2 =? 0)); OStr n])
    else n <- py_index (cb_names cb) a ;; Ok (OStr n)
  else if z_mem op (t_hasfree T) then
    let ncells := zlen (cells_lookup v cb) in
    if a <? ncells then
      x <- py_index (cells_lookup v cb) a ;;
      Ok (match x with OStr n => OCell n | y => y end)
    else
      n <- py_index (m_freevars (cb_meta cb)) (a - ncells) ;; Ok (OFree n)
  else if z_mem op (t_hascompare T) then
    let x := if PY313 v then Z.shiftr a 5 + (if Z.land a 16 =? 0 then 0 else Z.shiftl 1 4)
             else if PY312 v then Z.shiftr a 4 else a in
    if compare_member v x then Ok (OCompare x) else Err ValueError
  else if is_intrinsic1 v T op then
    if intrinsic1_member a then Ok (OIntr1 a) else Err ValueError
  else if is_intrinsic2 v T op then
    if intrinsic2_member a then Ok (OIntr2 a) else Err ValueError
  else Ok (match c_arg with Some a => OInt a | None => OUnset end).

Definition instrs_of (l : list citem) : list cinstr :=
  flat_map (fun x => match x with CI c => [c] | CSet _ => [] end) l.

(** concrete.py:939-952 targets of the jumps *)
Fixpoint jump_targets_of (v : pyver) (T : optable) (offset : Z) (l : list cinstr) : list Z :=
  match l with
  | [] => []
  | c :: l' =>
      (match get_jump_target v T c offset with Some t => [t] | None => [] end)
      ++ jump_targets_of v T (offset + units v (c_size c)) l'
  end.

(** concrete.py:954-964 [assert entry.start_offset not in ex_start] *)
Definition ex_starts_distinct (l : list exentry) : bool :=
  nodupb Z.eqb (map e_start l).

(** [ex_start[offset]], as the index of the entry in the table *)
Fixpoint ex_start_at (n : nat) (offset : Z) (l : list exentry) : option (nat * exentry) :=
  match l with
  | [] => None
  | e :: l' => if e_start e =? offset then Some (n, e) else ex_start_at (S n) offset l'
  end.

(** [ex_end[offset]], in table order *)
Fixpoint ex_ends_at (n : nat) (offset : Z) (l : list exentry) : list (nat * exentry) :=
  match l with
  | [] => []
  | e :: l' => (if e_stop e =? offset then [(n, e)] else []) ++ ex_ends_at (S n) offset l'
  end.

(** Labels made by to_bytecode are identified by the offset they stand for. *)
Definition label_at (offset : Z) : pyobj := OLabel (Z.to_nat offset).

(** TryBegin made for entry number [n]: the target label is set at the end
    (concrete.py:1125-1127); here it is written directly. *)
Definition make_tb (conserve : bool) (n : nat) (e : exentry) : bitem :=
  BTB n (label_at (e_target e)) (e_lasti e) (if conserve then Some (e_depth e) else None).

(** concrete.py:1097-1116 TryEnd entries after an instruction; [created] is the key set
    of tb_instrs *)
Fixpoint emit_ends (conserve : bool) (created : list nat) (es : list (nat * exentry))
  : list bitem * list nat :=
  match es with
  | [] => ([], created)
  | (n, e) :: es' =>
      if nat_mem n created then
        let '(r, c) := emit_ends conserve created es' in (BTE n :: r, c)
      else
        let '(r, c) := emit_ends conserve (n :: created) es' in
        (make_tb conserve n e :: BTE n :: r, c)
  end.

(** concrete.py:1001-1116 main loop of to_bytecode.  Returns the elements, the offsets
    at which a label was created, and the entries whose TryBegin was created.  The
    placeholder label of a jump (concrete.py:1090-1093, 1118-1123) is written directly as
    the label of the target offset; that this label exists is checked at the end. *)
Fixpoint to_bytecode_loop (v : pyver) (T : optable) (cb : cbytecode)
  (prune conserve : bool) (targets : list Z) (created : list nat) (offset : Z)
  (l : list (Z * cinstr)) : res (list bitem * list Z * list nat) :=
  match l with
  | [] => Ok ([], [], created)
  | (lineno, c) :: l' =>
      let is_target := z_mem offset targets in
      let lbl := if is_target then [BLabel (Z.to_nat offset)] else [] in
      let '(tb, created) :=
        match ex_start_at 0 offset (cb_ex cb) with
        | Some (n, e) => if nat_mem n created then ([], created)
                         else ([make_tb conserve n e], n :: created)
        | None => ([], created)
        end in
      let jump_target := get_jump_target v T c offset in
      let size := c_size c in
      let current := offset + (if OFFSET_AS_INSTRUCTION v then size / 2 - 1 else size - 2) in
      let offset' := current + (if OFFSET_AS_INSTRUCTION v then 1 else 2) in
      body <- (if prune && String.eqb (c_name c) "CACHE" then
                 match jump_target with None => Ok [] | Some _ => Err AssertionError end
               else
                 arg <- decode_arg v T cb (c_op c) (c_arg c) ;;
                 lo <- match c_loc c with
                       | Some x => Ok x
                       | None => new_location v (Some lineno) None None None
                       end ;;
                 let arg := match jump_target with Some t => label_at t | None => arg end in
                 i <- new_instr v T (c_name c) arg LUnset (Some lo) ;;
                 Ok [BI i]) ;;
      let '(ends, created) := emit_ends conserve created (rev (ex_ends_at 0 current (cb_ex cb))) in
      ' (r, labels, created') <-
        to_bytecode_loop v T cb prune conserve targets created offset' l' ;;
      Ok (lbl ++ tb ++ body ++ ends ++ r, (if is_target then [offset] else []) ++ labels,
          created')
  end.

(** concrete.py:1132-1138 number of argument names *)
Definition nargs_of (m : meta) : Z :=
  m_argcount m + m_kwonly m + m_posonly m
  + (if Z.land (m_flags m) 4 =? 0 then 0 else 1)
  + (if Z.land (m_flags m) 8 =? 0 then 0 else 1).

(** concrete.py:928-1142 ConcreteBytecode.to_bytecode.  Every jump target must have a label (KeyError, concrete.py:1123) and so must the
    targets of the created TryBegin (concrete.py:1127). *)
Definition to_bytecode (v : pyver) (T : optable) (cb : cbytecode) (prune conserve : bool)
  : res bytecode :=
  items <- remove_extended_args v T 0 None (cb_items cb) ;;
  let cs := instrs_of items in
  let targets := jump_targets_of v T 0 cs ++ map e_target (cb_ex cb) in
  _ <- guard (ex_starts_distinct (cb_ex cb)) AssertionError ;;
  ' (out, labels, created) <-
    to_bytecode_loop v T cb prune conserve targets [] 0
      (normalize_lineno (m_first_lineno (cb_meta cb)) items) ;;
  _ <- guard (forallb (fun t => z_mem t labels) (jump_targets_of v T 0 cs)) KeyError ;;
  _ <- guard (forallb (fun n => match nth_error (cb_ex cb) n with
                                | Some e => z_mem (e_target e) labels
                                | None => true end) created) KeyError ;;
  let m := cb_meta cb in
  let nargs := nargs_of m in
  Ok (mkB (mkMeta (m_argcount m) (m_posonly m) (m_kwonly m) (m_first_lineno m) (m_name m)
             (m_qualname m) (m_filename m) (set_docstring (m_docstring m) (cb_consts cb))
             (m_cellvars m) (m_freevars m) (m_flags m))
          (firstn (Z.to_nat nargs) (cb_varnames cb)) out).
