(** How the interpreter runs a code object (specification; Python/ceval.c, Lib/dis.py,
    Objects/exception_handling_notes.txt): the instructions it executes, where their jumps go,
    which handler an exception goes to, the location it reports.  Everything is read from the
    fields of the code object; byte offsets throughout. *)
From Verif Require Import PyBase OpTable CPy M_Instr M_Tables M_Concrete S_Args S_Prog S_Slots S_Lines S_Round.
Open Scope string_scope.
Open Scope list_scope.
Open Scope Z_scope.

(** An executed instruction: where it begins (its first EXTENDED_ARG), where its opcode is, where
    it ends (after its inline caches), its opcode and its argument if it takes one. *)
Record ran : Type := mkRan { r_start : Z; r_at : Z; r_end : Z; r_op : Z; r_arg : option Z }.

Section Code.
  Variables (v : pyver) (T : optable).

  Definition caches_of (op : Z) : Z :=
    match opname T op with Some n => cache_entries v T n op | None => 0 end.

  (** The instructions of some code, at offset [off]; [ext]: where the EXTENDED_ARG before began,
      and their value; [skip]: how many inline caches are to come. *)
  Fixpoint listing (off : Z) (ext : option (Z * Z)) (skip : Z) (code : list Z) : list ran :=
    match code with
    | op :: b :: rest =>
        if 0 <? skip then listing (off + 2) None (skip - 1) rest
        else
          let s := match ext with Some (s, _) => s | None => off end in
          let arg := match ext with Some (_, e) => e * 256 + b | None => b end in
          if op =? t_extended_arg T then listing (off + 2) (Some (s, arg)) 0 rest
          else mkRan s off (off + 2 + 2 * caches_of op) op
                 (if opcode_has_argument v T op then Some arg else None)
               :: listing (off + 2) None (caches_of op) rest
    | _ => []
    end.

  Definition instructions (co : codeobj) : list ran := listing 0 None 0 (co_code co).

  (** Where a jump goes.  The argument counts code units of two bytes from 3.10, bytes before. *)
  Definition goes_to (r : ran) : Z :=
    let a := (if PY310 v then 2 else 1) * match r_arg r with Some a => a | None => 0 end in
    if z_mem (r_op r) (t_hasjrel T) then
      match opname T (r_op r) with
      | Some n => if str_contains "BACKWARD" n then r_end r - a else r_end r + a
      | None => r_end r + a
      end
    else a.

  (** Where instruction number [k] begins; the end of the code for the number of instructions. *)
  Definition begins (co : codeobj) (k : nat) : option Z :=
    match nth_error (instructions co) k with
    | Some r => Some (r_start r)
    | None => if Nat.eqb k (length (instructions co)) then Some (zlen (co_code co)) else None
    end.

  (** The tables of a code object, as [reads] wants them. *)
  Definition tables (co : codeobj) : cbytecode :=
    mkCB (mkMeta 0 0 0 0 "" "" "" OUnset (co_cellvars co) (co_freevars co) 0) []
      (co_consts co) (co_names co) (co_varnames co) [].

  (** The location reported at a byte offset. *)
  Definition reports (co : codeobj) (off : Z) (l : loc) : Prop :=
    if PY311 v then
      nth_error (co_positions (co_firstlineno co) (co_linetable co)) (Z.to_nat (off / 2)) = Some (recorded l)
    else if PY310 v then
      linetable_line 0 (co_firstlineno co) off (co_linetable co) = Some (l_lineno l)
    else forall z, l_lineno l = Some z -> addr2line 0 (co_firstlineno co) off (co_linetable co) = z.
End Code.

(** Exception table (3.11+): big-endian groups of six bits, bit 6 set on all but the last. *)
Fixpoint read_big (acc : Z) (bs : list Z) : option (Z * list Z) :=
  match bs with
  | [] => None
  | b :: rest =>
      let acc := acc * 64 + b mod 64 in
      if (b / 64) mod 2 =? 0 then Some (acc, rest) else read_big acc rest
  end.

(** get_exception_handler: target (a code unit), stack depth, and whether the offset of the
    instruction is pushed, for an exception raised by the code unit [index].  Entries are sorted
    by start; every entry takes at least four bytes, so [fuel = length bs] is enough. *)
Fixpoint handler_loop (fuel : nat) (index : Z) (bs : list Z) : option (Z * Z * bool) :=
  match fuel with
  | O => None
  | S f =>
      match read_big 0 bs with None => None | Some (start, bs) =>
      if index <? start then None else
      match read_big 0 bs with None => None | Some (size, bs) =>
      match read_big 0 bs with None => None | Some (target, bs) =>
      match read_big 0 bs with None => None | Some (dl, bs) =>
        if index <? start + size then Some (target, dl / 2, Z.odd dl)
        else handler_loop f index bs
      end end end end
  end.

Definition find_handler (co : codeobj) (index : Z) : option (Z * Z * bool) :=
  handler_loop (length (co_exceptiontable co)) index (co_exceptiontable co).

(** The code object runs a program: its instructions are those of the program, in order, with
    the same opcodes; jumps go to the instruction they should; other arguments are what the
    interpreter reads; every byte of the instruction reports its location; an exception raised
    by any code unit of it goes to the handler that protects it, or to none. *)
Definition runs (v : pyver) (T : optable) (co : codeobj)
  (prog : list (string * parg * loc * option handler)) : Prop :=
  length (instructions v T co) = length prog
  /\ forall k n a l h r, nth_error prog k = Some (n, a, l, h) ->
     nth_error (instructions v T co) k = Some r ->
     opmap T n = Some (r_op r)
     /\ match a with
        | PTo (Some t) => begins v T co t = Some (goes_to v T r)
        | PTo None => False
        | PObj o => reads v T (tables co) (r_op r) (r_arg r) o
        end
     /\ (forall off, r_start r <= off < r_end r -> reports v co off l)
     /\ (PY311 v = true -> forall u, r_at r <= 2 * u < r_end r ->
         match h with
         | None => find_handler co u = None
         | Some (PTo (Some t), lasti) => exists target depth,
             find_handler co u = Some (target, depth, lasti) /\ begins v T co t = Some (2 * target)
         | Some _ => False
         end).

(** For every instruction of a Bytecode, the stack depth of the TryBegin of the try block it
    stands in ([None]: it stands in none). *)
Fixpoint try_depths (cur : option (option Z)) (items : list bitem) : list (option (option Z)) :=
  match items with
  | [] => []
  | BI _ :: r => cur :: try_depths cur r
  | BTB _ _ _ d :: r => try_depths (Some d) r
  | BTE _ :: r => try_depths None r
  | _ :: r => try_depths cur r
  end.

(** ** Code objects as a compiler makes them (3.11+) *)

(** The entries of the exception table: start and size of the range, target, stack depth,
    push_lasti. *)
Fixpoint entries_loop (fuel : nat) (bs : list Z) : list (Z * Z * Z * Z * bool) :=
  match fuel with
  | O => []
  | S f =>
      match read_big 0 bs with None => [] | Some (start, bs) =>
      match read_big 0 bs with None => [] | Some (size, bs) =>
      match read_big 0 bs with None => [] | Some (target, bs) =>
      match read_big 0 bs with None => [] | Some (dl, bs) =>
        (start, size, target, dl / 2, Z.odd dl) :: entries_loop f bs
      end end end end
  end.
Definition table_entries (co : codeobj) : list (Z * Z * Z * Z * bool) :=
  entries_loop (length (co_exceptiontable co)) (co_exceptiontable co).

Definition constant_object (x : pyobj) : Prop :=
  match x with
  | OLabel _ | OBlock _ | OUnset | OCell _ | OFree _ | OCompare _ | OIntr1 _ | OIntr2 _ => False
  | _ => True
  end.

Record as_compiled (v : pyver) (T : optable) (co : codeobj) : Prop := {
  ac_code : normal v T 0 false (co_code co);
  (** inline caches are where they should be, and none is missing *)
  ac_whole : forall r, In r (instructions v T co) ->
    opname T (r_op r) <> Some "CACHE" /\ r_end r <= zlen (co_code co);
  (** jumps go to instructions *)
  ac_jumps : forall r, In r (instructions v T co) -> op_has_jump T (r_op r) = true ->
    exists r', In r' (instructions v T co) /\ r_start r' = goes_to v T r;
  (** the ranges of the exception table are made of whole instructions, handlers start at
      instructions, ranges are sorted and apart *)
  ac_ranges : forall s n t d la, In (s, n, t, d, la) (table_entries co) ->
    exists a b h, In a (instructions v T co) /\ In b (instructions v T co) /\ In h (instructions v T co)
      /\ r_start a = 2 * s /\ r_start a <= r_start b /\ r_end b = 2 * (s + n) /\ r_start h = 2 * t;
  ac_apart : forall i j s n t d la s' n' t' d' la', (i < j)%nat ->
    nth_error (table_entries co) i = Some (s, n, t, d, la) ->
    nth_error (table_entries co) j = Some (s', n', t', d', la') -> s + n <= s';
  (** there is a position for every code unit, the same for all units of an instruction; one
      without column does not span lines *)
  ac_positions : (2 * length (co_positions (co_firstlineno co) (co_linetable co)) = length (co_code co))%nat;
  ac_lines : forall p, In p (co_positions (co_firstlineno co) (co_linetable co)) ->
    match p with (Some l, Some el, None, _) => l = el | _ => True end;
  ac_extended : forall k, nth_error (co_code co) (2 * k) = Some (t_extended_arg T) ->
    nth_error (co_positions (co_firstlineno co) (co_linetable co)) k
    = nth_error (co_positions (co_firstlineno co) (co_linetable co)) (S k);
  ac_same : forall r off, In r (instructions v T co) -> r_at r <= off < r_end r ->
    nth_error (co_positions (co_firstlineno co) (co_linetable co)) (Z.to_nat (off / 2))
    = nth_error (co_positions (co_firstlineno co) (co_linetable co)) (Z.to_nat (r_at r / 2));
  (** the variables of closures *)
  ac_free : forall n, In n (co_freevars co) -> ~ In n (co_varnames co);
  ac_deref : forall r a n, In r (instructions v T co) -> In (r_op r) (t_hasfree T) -> r_arg r = Some a ->
    at_ (co_varnames co) a n -> In n (co_cellvars co);
  (** the constants are not objects of this library *)
  ac_consts : forall x, In x (co_consts co) -> constant_object x }.
