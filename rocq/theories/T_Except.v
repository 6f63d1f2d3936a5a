(** Property theorems about the exception table encoding: C09, C10. *)
From Verif Require Import PyBase OpTable M_Instr M_Tables P_Base P_Except.
Open Scope list_scope.
Open Scope Z_scope.

(** C09. Every non-negative integer is encoded; whatever follows, parsing returns it and
    leaves exactly what follows; only the first byte of a marked value has bit 7 set. *)
Theorem C09_varint_round_trip : forall value marker,
  0 <= value ->
  exists b r, encode_varint value marker = Ok (b :: r)
    /\ (forall rest, parse_varint ((b :: r) ++ rest) = Some (value, rest))
    /\ (if marker then 128 <= b < 256 else 0 <= b < 128)
    /\ Forall (fun x => 0 <= x < 128) r.
Proof.
  intros value marker H. destruct (encode_varint_total value marker H) as (bs & E).
  pose proof (encode_varint_spec _ _ _ E) as (_ & P & b & r & -> & B & F).
  exists b, r. auto.
Qed.
Print Assumptions C09_varint_round_trip.

(** Negative values are refused. *)
Theorem C09_negative_rejected : forall value marker,
  value < 0 -> encode_varint value marker = Err AssertionError.
Proof. intros value marker H. unfold encode_varint. now apply Z.ltb_lt in H as ->. Qed.
Print Assumptions C09_negative_rejected.

Example C09_ex : encode_varint 5000 true = Ok [193; 78; 8]
  /\ parse_varint [193; 78; 8; 7] = Some (5000, [7]).
Proof. split; vm_compute; reflexivity. Qed.

(** C10. *)
Theorem C10_exception_table_round_trip : forall l bs,
  assemble_exception_table l = Ok bs -> parse_exception_table bs = l.
Proof. exact parse_assemble_table. Qed.
Print Assumptions C10_exception_table_round_trip.

(** Assembly succeeds exactly when no field is negative and every range has a length of
    at least 0 (the stop offset is inclusive). *)
Theorem C10_exception_table_domain : forall l,
  (exists bs, assemble_exception_table l = Ok bs) <->
  Forall (fun e => 0 <= e_start e /\ e_start e - 1 <= e_stop e
                   /\ 0 <= e_target e /\ 0 <= e_depth e) l.
Proof. exact assemble_table_total. Qed.
Print Assumptions C10_exception_table_domain.

(** The first byte of each entry, and no other, has bit 7 set: the entries can be found
    by a reader that starts in the middle of the table. *)
Theorem C10_entries_are_framed : forall e bs,
  assemble_entry e = Ok bs ->
  exists b r, bs = b :: r /\ 128 <= b < 256 /\ Forall (fun x => 0 <= x < 128) r.
Proof. exact assemble_entry_framed. Qed.
Print Assumptions C10_entries_are_framed.

Example C10_ex :
  let l := [mkEx 4 9 70 0 false; mkEx 100 5000 80 130 true] in
  exists bs, assemble_exception_table l = Ok bs /\ parse_exception_table bs = l
             /\ length bs = 14%nat.
Proof. eexists. repeat split; vm_compute; reflexivity. Qed.
