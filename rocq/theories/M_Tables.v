(** Model of the side tables of a code object: exception table, lnotab (3.8, 3.9),
    linetable (3.10) and location table (3.11+), src/bytecode/concrete.py. *)
From Verif Require Import PyBase OpTable M_Instr.
Open Scope list_scope.
Open Scope Z_scope.

(** ** Exception table *)

(** concrete.py:196-238 ExceptionTableEntry *)
Record exentry : Type := mkEx {
  e_start : Z; e_stop : Z; e_target : Z; e_depth : Z; e_lasti : bool }.

(** The loop [while value: temp.append(value & 63 | (64 if temp else 0)); value >>= 6]
    (concrete.py:829-831).  [temp] is kept in reverse, which is the order returned. *)
Fixpoint encode_varint_loop (fuel : nat) (value : Z) (rtemp : list Z) : list Z :=
  match fuel with
  | O => rtemp
  | S f =>
      if value =? 0 then rtemp
      else encode_varint_loop f (Z.shiftr value 6)
             (Z.lor (Z.land value 63) (match rtemp with [] => 0 | _ => 64 end) :: rtemp)
  end.

(** concrete.py:823-835 _encode_varint *)
Definition encode_varint (value : Z) (set_begin_marker : bool) : res (list Z) :=
  if value <? 0 then Err AssertionError
  else
    let rtemp := match encode_varint_loop (bit_fuel value) value [] with
                 | [] => [0] | l => l end in
    Ok (match rtemp with
        | b :: r => (if set_begin_marker then Z.lor b 128 else b) :: r
        | [] => []
        end).

(** concrete.py:793-802 _parse_varint; [None] is StopIteration *)
Fixpoint parse_varint_loop (val : Z) (it : list Z) : option (Z * list Z) :=
  match it with
  | [] => None
  | b :: it' =>
      let val := Z.lor (Z.shiftl val 6) (Z.land b 63) in
      if Z.land b 64 =? 0 then Some (val, it') else parse_varint_loop val it'
  end.

Definition parse_varint (it : list Z) : option (Z * list Z) :=
  match it with
  | [] => None
  | b :: it' =>
      let val := Z.land b 63 in
      if Z.land b 64 =? 0 then Some (val, it') else parse_varint_loop val it'
  end.

(** concrete.py:804-821 _parse_exception_table.  Each round consumes at least one byte,
    so the length of the input is enough fuel. *)
Fixpoint parse_exception_table_loop (fuel : nat) (it : list Z) : list exentry :=
  match fuel with
  | O => []
  | S f =>
      match parse_varint it with None => [] | Some (start, it) =>
      match parse_varint it with None => [] | Some (len, it) =>
      match parse_varint it with None => [] | Some (target, it) =>
      match parse_varint it with None => [] | Some (dl, it) =>
        mkEx start (start + len - 1) target (Z.shiftr dl 1) (negb (Z.land dl 1 =? 0))
        :: parse_exception_table_loop f it
      end end end end
  end.

Definition parse_exception_table (table : list Z) : list exentry :=
  parse_exception_table_loop (length table) table.

(** concrete.py:837-847 _assemble_exception_table *)
Definition assemble_entry (e : exentry) : res (list Z) :=
  let size := e_stop e - e_start e + 1 in
  let depth := Z.shiftl (e_depth e) 1 + (if e_lasti e then 1 else 0) in
  a <- encode_varint (e_start e) true ;;
  b <- encode_varint size false ;;
  c <- encode_varint (e_target e) false ;;
  d <- encode_varint depth false ;;
  Ok (a ++ b ++ c ++ d).

Definition assemble_exception_table (l : list exentry) : res (list Z) :=
  bs <- mapM assemble_entry l ;; Ok (concat bs).

(** ** Line tables *)

(** Element of the list [linenos] built by _assemble_code (concrete.py:430-437):
    byte offset, byte size, inherited line, location. *)
Record lent : Type := mkLent {
  le_off : Z; le_size : Z; le_line : Z; le_loc : option loc }.

(** [struct.pack("Bb", b, s)] *)
Definition pack_Bb (b s : Z) : res (list Z) :=
  if (0 <=? b) && (b <=? 255) && (-128 <=? s) && (s <=? 127)
  then Ok [b; s mod 256] else Err StructError.

(** *** lnotab, 3.8 and 3.9 *)

(** [while doff > 255: lnotab.append(b"\xff\x00"); doff -= 255]  (concrete.py:459-461) *)
Fixpoint lnotab_doff (fuel : nat) (doff : Z) : Z * list Z :=
  match fuel with
  | O => (doff, [])
  | S f => if 255 <? doff
           then let '(d, r) := lnotab_doff f (doff - 255) in (d, [255; 0] ++ r)
           else (doff, [])
  end.

(** [while dlineno < -128: ...]  (concrete.py:463-466) *)
Fixpoint lnotab_neg (fuel : nat) (doff dlineno : Z) : res (Z * Z * list Z) :=
  match fuel with
  | O => Ok (doff, dlineno, [])
  | S f => if dlineno <? -128 then
             b <- pack_Bb doff (-128) ;;
             ' (d, l, r) <- lnotab_neg f 0 (dlineno + 128) ;;
             Ok (d, l, b ++ r)
           else Ok (doff, dlineno, [])
  end.

(** [while dlineno > 127: ...]  (concrete.py:468-471) *)
Fixpoint lnotab_pos (fuel : nat) (doff dlineno : Z) : res (Z * Z * list Z) :=
  match fuel with
  | O => Ok (doff, dlineno, [])
  | S f => if 127 <? dlineno then
             b <- pack_Bb doff 127 ;;
             ' (d, l, r) <- lnotab_pos f 0 (dlineno - 127) ;;
             Ok (d, l, b ++ r)
           else Ok (doff, dlineno, [])
  end.

(** concrete.py:459-476, the bytes appended for one line change *)
Definition lnotab_entry (doff dlineno : Z) : res (list Z) :=
  let '(doff, b1) := lnotab_doff (Z.to_nat (doff / 255 + 1)) doff in
  ' (doff, dlineno, b2) <- lnotab_neg (Z.to_nat ((- dlineno) / 128 + 1)) doff dlineno ;;
  ' (doff, dlineno, b3) <- lnotab_pos (Z.to_nat (dlineno / 127 + 1)) doff dlineno ;;
  _ <- guard ((0 <=? doff) && (doff <=? 255)) AssertionError ;;
  _ <- guard ((-128 <=? dlineno) && (dlineno <=? 127)) AssertionError ;;
  b4 <- pack_Bb doff dlineno ;;
  Ok (b1 ++ b2 ++ b3 ++ b4).

(** concrete.py:443-478 _assemble_lnotab *)
Fixpoint lnotab_loop (old_offset old_lineno : Z) (l : list lent) : res (list Z) :=
  match l with
  | [] => Ok []
  | e :: l' =>
      let dlineno := le_line e - old_lineno in
      if dlineno =? 0 then lnotab_loop old_offset old_lineno l'
      else
        b <- lnotab_entry (le_off e - old_offset) dlineno ;;
        r <- lnotab_loop (le_off e) (le_line e) l' ;;
        Ok (b ++ r)
  end.

Definition assemble_lnotab (first_lineno : Z) (linenos : list lent) : res (list Z) :=
  lnotab_loop 0 first_lineno linenos.

(** *** linetable, 3.10 *)

(** concrete.py:487-489 *)
Fixpoint linetable_neg (fuel : nat) (dlineno : Z) : Z * list Z :=
  match fuel with
  | O => (dlineno, [])
  | S f => if dlineno <? -127
           then let '(d, r) := linetable_neg f (dlineno + 127) in (d, [0; 129] ++ r)
           else (dlineno, [])
  end.

(** concrete.py:491-493 *)
Fixpoint linetable_pos (fuel : nat) (dlineno : Z) : Z * list Z :=
  match fuel with
  | O => (dlineno, [])
  | S f => if 127 <? dlineno
           then let '(d, r) := linetable_pos f (dlineno - 127) in (d, [0; 127] ++ r)
           else (dlineno, [])
  end.

(** [while doff > 254: linetable.append(b"\xfe\x00"); doff -= 254] (concrete.py:507-509) *)
Fixpoint linetable_doff (fuel : nat) (doff : Z) : Z * list Z :=
  match fuel with
  | O => (doff, [])
  | S f => if 254 <? doff
           then let '(d, r) := linetable_doff f (doff - 254) in (d, [254; 0] ++ r)
           else (doff, [])
  end.

(** concrete.py:480-515 _pack_linetable: the bytes appended *)
Definition pack_linetable (doff : Z) (dlineno : option Z) : res (list Z) :=
  ' (dl, b1) <- match dlineno with
                | Some d =>
                    let '(d, r1) := linetable_neg (Z.to_nat ((- d) / 127 + 1)) d in
                    let '(d, r2) := linetable_pos (Z.to_nat (d / 127 + 1)) d in
                    _ <- guard ((-127 <=? d) && (d <=? 127)) AssertionError ;;
                    Ok (d, r1 ++ r2)
                | None => Ok (-128, [])
                end ;;
  if 254 <? doff then
    b2 <- pack_Bb 254 dl ;;
    let '(doff, b3) := linetable_doff (Z.to_nat (doff / 254 + 1)) (doff - 254) in
    b4 <- pack_Bb doff 0 ;;
    _ <- guard ((0 <=? doff) && (doff <=? 254)) AssertionError ;;
    Ok (b1 ++ b2 ++ b3 ++ b4)
  else
    b2 <- pack_Bb doff dl ;;
    _ <- guard ((0 <=? doff) && (doff <=? 254)) AssertionError ;;
    Ok (b1 ++ b2).

(** [location.lineno - ref if location.lineno is not None else None], or
    [lineno - ref] without location (concrete.py:532-539, 543-550) *)
Definition dlineno_of (e : lent) (ref : Z) : option Z :=
  match le_loc e with
  | Some l => match l_lineno l with Some z => Some (z - ref) | None => None end
  | None => Some (le_line e - ref)
  end.

(** The loop of concrete.py:542-560 and the final packing (concrete.py:562-564); [last]
    is the last element seen ([offset] and [i_size] are used after the loop). *)
Fixpoint linestable_loop (old_offset old_lineno : Z) (old_dlineno : option Z) (last : lent)
  (l : list lent) : res (list Z) :=
  match l with
  | [] => pack_linetable (le_off last + le_size last - old_offset) old_dlineno
  | e :: l' =>
      let dlineno := dlineno_of e old_lineno in
      if match old_dlineno, dlineno with
         | _, Some 0 => true
         | None, None => true
         | _, _ => false
         end
      then linestable_loop old_offset old_lineno old_dlineno e l'
      else
        b <- pack_linetable (le_off e - old_offset) old_dlineno ;;
        r <- linestable_loop (le_off e) (le_line e) dlineno e l' ;;
        Ok (b ++ r)
  end.

(** concrete.py:518-566 _assemble_linestable *)
Definition assemble_linestable (first_lineno : Z) (linenos : list lent) : res (list Z) :=
  match linenos with
  | [] => Ok []
  | e :: l' => linestable_loop 0 (le_line e) (dlineno_of e first_lineno) e l'
  end.

(** *** location table, 3.11+ *)

(** concrete.py:570-580 _encode_location_varint.  On a negative number the Python loop
    does not end (it is never called with one, see the proofs). *)
Fixpoint location_varint_loop (fuel : nat) (varint : Z) : list Z :=
  match fuel with
  | O => []
  | S f =>
      let b := Z.land varint 0x3F in
      let varint := Z.shiftr varint 6 in
      if varint =? 0 then [b] else Z.lor b 0x40 :: location_varint_loop f varint
  end.

Definition encode_location_varint (varint : Z) : res (list Z) :=
  if varint <? 0 then Err Nontermination
  else Ok (location_varint_loop (bit_fuel varint) varint).

(** concrete.py:582-586 _encode_location_svarint *)
Definition encode_location_svarint (svarint : Z) : res (list Z) :=
  if svarint <? 0 then encode_location_varint (Z.lor (Z.shiftl (- svarint) 1) 1)
  else encode_location_varint (Z.shiftl svarint 1).

(** concrete.py:590-591 _pack_location_header *)
Definition pack_location_header (code size : Z) : Z :=
  Z.shiftl 1 7 + Z.shiftl code 3 + (if size <=? 8 then size - 1 else 7).

(** [packed.append(b)] / [packed.extend(bs)] on a bytearray: ValueError unless in 0..255 *)
Definition bytes_of (bs : list Z) : res (list Z) :=
  if forallb (fun b => (0 <=? b) && (b <=? 255)) bs then Ok bs else Err ValueError.

(** concrete.py:593-681 _pack_location *)
Definition pack_location (size lineno : Z) (location : option loc) : res (list Z) :=
  let '(l_line, end_lineno, col_offset, end_col_offset) :=
    match location with
    | None => (Some lineno, None, None, None)
    | Some l => (l_lineno l, l_end_lineno l, l_col l, l_end_col l)
    end in
  match l_line with
  | None => bytes_of [pack_location_header 15 size]
  | Some l_line =>
      match col_offset with
      | None =>
          _ <- match end_lineno with
               | Some el => guard (el =? l_line) ValueError
               | None => Ok tt
               end ;;
          s <- encode_location_svarint (l_line - lineno) ;;
          bytes_of (pack_location_header 13 size :: s)
      | Some col =>
          el <- of_option AssertionError end_lineno ;;
          ec <- of_option AssertionError end_col_offset ;;
          if (el =? l_line) && (l_line - lineno =? 0) && (col <? 72) && (ec - col <=? 15) then
            bytes_of [pack_location_header (col / 8) size; Z.shiftl (col mod 8) 4 + (ec - col)]
          else if (el =? l_line) && ((l_line - lineno =? 1) || (l_line - lineno =? 2))
                  && (col <? 256) && (ec <? 256) then
            bytes_of [pack_location_header (10 + l_line - lineno) size; col; ec]
          else
            a <- encode_location_svarint (l_line - lineno) ;;
            b <- encode_location_varint (el - l_line) ;;
            c <- encode_location_varint (col + 1) ;;
            d <- encode_location_varint (ec + 1) ;;
            bytes_of (pack_location_header 14 size :: a ++ b ++ c ++ d)
      end
  end.

(** concrete.py:683-705 _push_locations: bytes appended and the new reference line.
    The loop runs once per group of eight code units. *)
Fixpoint push_locations_loop (fuel : nat) (size lineno : Z) (location : loc)
  : res (list Z * Z) :=
  match fuel with
  | O => Err Nontermination
  | S f =>
      b <- pack_location size lineno (Some location) ;;
      let lineno := match l_lineno location with Some z => z | None => lineno end in
      let size := size - 8 in
      if size <? 1 then Ok (b, lineno)
      else ' (r, ln) <- push_locations_loop f size lineno location ;; Ok (b ++ r, ln)
  end.

Definition push_locations (size lineno : Z) (location : loc) : res (list Z * Z) :=
  let size := size / 2 in
  push_locations_loop (Z.to_nat (size / 8 + 1)) size lineno location.

(** Equality of InstrLocation (frozen dataclass) *)
Definition optz_eqb (a b : option Z) : bool :=
  match a, b with Some x, Some y => x =? y | None, None => true | _, _ => false end.
Definition loc_eqb (a b : loc) : bool :=
  optz_eqb (l_lineno a) (l_lineno b) && optz_eqb (l_end_lineno a) (l_end_lineno b)
  && optz_eqb (l_col a) (l_col b) && optz_eqb (l_end_col a) (l_end_col b).

(** concrete.py:724-740, the loop and the final push *)
Fixpoint locations_loop (size lineno : Z) (old_location : loc) (l : list lent)
  : res (list Z) :=
  match l with
  | [] => ' (b, _) <- push_locations size lineno old_location ;; Ok b
  | e :: l' =>
      let location := match le_loc e with Some x => x | None => old_location end in
      if match l_lineno old_location with Some _ => true | None => false end
         && loc_eqb old_location location
      then locations_loop (size + le_size e) lineno old_location l'
      else
        ' (b, lineno) <- push_locations size lineno old_location ;;
        r <- locations_loop (le_size e) lineno location l' ;;
        Ok (b ++ r)
  end.

(** concrete.py:707-742 _assemble_locations *)
Definition assemble_locations (first_lineno : Z) (linenos : list lent) : res (list Z) :=
  match linenos with
  | [] => Ok []
  | e :: l' =>
      let old := match le_loc e with Some x => x | None => line_loc (Some (le_line e)) end in
      locations_loop (le_size e) first_lineno old l'
  end.
