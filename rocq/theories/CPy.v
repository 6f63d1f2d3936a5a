(** How the interpreter (and its [dis] module) reads the parts of a code object.
    This file is specification: it describes CPython, not /repo, from
    Python/ceval.c (EXTENDED_ARG), Objects/lnotab_notes.txt (3.8 - 3.10),
    Objects/locations.md (3.11+) and Lib/dis.py.  It uses only arithmetic. *)
From Verif Require Import PyBase.
Open Scope list_scope.
Open Scope Z_scope.

(** Two's complement reading of a byte. *)
Definition signed_byte (b : Z) : Z := if b <? 128 then b else b - 256.

(** ** EXTENDED_ARG accumulation: the instructions executed, each with the number of
    EXTENDED_ARG units before it, its opcode and its full argument. *)
Fixpoint executed (extended_arg : Z) (n_ext ext : Z) (code : list Z) : list (Z * Z * Z) :=
  match code with
  | op :: b :: rest =>
      let arg := ext * 256 + b in
      if op =? extended_arg then executed extended_arg (n_ext + 1) arg rest
      else (n_ext, op, arg) :: executed extended_arg 0 0 rest
  | _ => []
  end.

(** ** lnotab (3.8, 3.9): PyCode_Addr2Line(co, addrq) *)
Fixpoint addr2line (addr line addrq : Z) (lnotab : list Z) : Z :=
  match lnotab with
  | da :: dl :: rest =>
      if addrq <? addr + da then line
      else addr2line (addr + da) (line + signed_byte dl) addrq rest
  | _ => line
  end.

(** ** linetable (3.10): the line of the byte offset [addrq], [None] for "no line".
    The outer [None] means that no entry covers [addrq]. *)
Fixpoint linetable_line (addr line addrq : Z) (table : list Z) : option (option Z) :=
  match table with
  | da :: dl :: rest =>
      let no_line := dl =? 128 in
      let line' := if no_line then line else line + signed_byte dl in
      if (addr <=? addrq) && (addrq <? addr + da)
      then Some (if no_line then None else Some line')
      else linetable_line (addr + da) line' addrq rest
  | _ => None
  end.

(** ** location table (3.11+) *)

(** line, end line, column, end column *)
Definition position : Type := option Z * option Z * option Z * option Z.

(** Little-endian groups of six bits, bit 6 set on all but the last. *)
Fixpoint read_varint (bs : list Z) : option (Z * list Z) :=
  match bs with
  | [] => None
  | b :: rest =>
      if (b / 64) mod 2 =? 0 then Some (b mod 64, rest)
      else match read_varint rest with
           | Some (v, rest') => Some (b mod 64 + 64 * v, rest')
           | None => None
           end
  end.

(** The sign is in the lowest bit. *)
Definition read_svarint (bs : list Z) : option (Z * list Z) :=
  match read_varint bs with
  | Some (u, rest) => Some (if u mod 2 =? 0 then u / 2 else - (u / 2), rest)
  | None => None
  end.

(** One entry: number of code units, their position, the new reference line. *)
Definition read_entry (line : Z) (bs : list Z) : option (Z * position * Z * list Z) :=
  match bs with
  | [] => None
  | b :: rest =>
      let code := (b / 8) mod 16 in
      let len := b mod 8 + 1 in
      if code =? 15 then Some (len, (None, None, None, None), line, rest)
      else if code =? 14 then
        match read_svarint rest with None => None | Some (dl, rest) =>
        match read_varint rest with None => None | Some (del, rest) =>
        match read_varint rest with None => None | Some (c, rest) =>
        match read_varint rest with None => None | Some (ec, rest) =>
          let l := line + dl in
          Some (len, (Some l, Some (l + del),
                      (if c =? 0 then None else Some (c - 1)),
                      (if ec =? 0 then None else Some (ec - 1))), l, rest)
        end end end end
      else if code =? 13 then
        match read_svarint rest with None => None | Some (dl, rest) =>
          let l := line + dl in
          Some (len, (Some l, Some l, None, None), l, rest)
        end
      else if 10 <=? code then
        match rest with
        | c :: ec :: rest =>
            let l := line + (code - 10) in
            Some (len, (Some l, Some l, Some c, Some ec), l, rest)
        | _ => None
        end
      else
        match rest with
        | b2 :: rest =>
            let c := code * 8 + (b2 / 16) mod 8 in
            Some (len, (Some line, Some line, Some c, Some (c + b2 mod 16)), line, rest)
        | _ => None
        end
  end.

(** co_positions(): the position of each code unit.  Every entry takes at least one
    byte, so [fuel = length bs] reads everything. *)
Fixpoint read_positions (fuel : nat) (line : Z) (bs : list Z) : list position :=
  match fuel with
  | O => []
  | S f =>
      match read_entry line bs with
      | None => []
      | Some (len, p, line', rest) => repeat p (Z.to_nat len) ++ read_positions f line' rest
      end
  end.

Definition co_positions (first_lineno : Z) (linetable : list Z) : list position :=
  read_positions (length linetable) first_lineno linetable.

(** ** What [ConcreteBytecode.from_code] asks the standard library on 3.8 - 3.10: the
    line starting at a byte offset, if an entry of dict(dis.findlinestarts(code)) /
    code.co_lines() starts there. *)

(** dis.findlinestarts of 3.8 / 3.9 *)
Fixpoint findlinestarts (code_len addr line : Z) (last : option Z) (lnotab : list Z)
  : list (Z * Z) :=
  let changed := match last with Some l => negb (l =? line) | None => true end in
  match lnotab with
  | da :: dl :: rest =>
      if da =? 0 then findlinestarts code_len addr (line + signed_byte dl) last rest
      else
        (if changed then [(addr, line)] else []) ++
        (if code_len <=? addr + da then []
         else findlinestarts code_len (addr + da) (line + signed_byte dl) (Some line) rest)
  | _ => if changed then [(addr, line)] else []
  end.

(** code.co_lines() of 3.10: the non-empty ranges, until the end of the code *)
Fixpoint co_lines (code_len addr line : Z) (table : list Z) : list (Z * option Z) :=
  match table with
  | da :: dl :: rest =>
      let no_line := dl =? 128 in
      let line' := if no_line then line else line + signed_byte dl in
      if da =? 0 then co_lines code_len addr line' rest
      else (addr, if no_line then None else Some line')
           :: (if code_len <=? addr + da then [] else co_lines code_len (addr + da) line' rest)
  | _ => []
  end.
