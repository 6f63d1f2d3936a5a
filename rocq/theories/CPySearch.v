(** How CPython 3.11 and later look for the handler of an exception (ceval.c,
    get_exception_handler).  [S_Code.find_handler] reads the exception table entry by entry; the
    interpreter does so only in the last forty bytes of its search: before, it bisects the BYTES of
    the table, relying on the marker bit of the first byte of every entry, on the entries being
    sorted, and on no entry taking more than half of these forty bytes. *)
From Coq Require Import ZArith List String Bool Lia.
From Verif Require Import PyBase M_Tables S_Code.
Import ListNotations.
Open Scope string_scope. Open Scope list_scope. Open Scope Z_scope.

(** scan_back_to_entry_start: [for (; (p[0] & 128) == 0; p--);] *)
Fixpoint back (bs : list Z) (p : nat) : nat :=
  match p with
  | O => O
  | S q => if (nth p bs 0 / 128) mod 2 =? 0 then back bs q else p
  end.

(** skip_to_next_entry; [stop] is the number of bytes after [end] *)
Fixpoint skip_to_next_entry (bs : list Z) (stop : nat) : list Z :=
  if (length bs <=? stop)%nat then bs
  else match bs with
       | [] => []
       | b :: r => if (b / 128) mod 2 =? 0 then skip_to_next_entry r stop else bs
       end.

(** The final scan.  [bs] are the bytes from [scan] to the end of the table, [stop] the number of
    those that come after [end].  [Some h]: the search ended with [h]; [None]: it read
    outside of the table, or did not end. *)
Fixpoint scan_loop (fuel : nat) (index : Z) (bs : list Z) (stop : nat) : option (option (Z * Z * bool)) :=
  match fuel with
  | O => None
  | S f =>
      if (length bs <=? stop)%nat then Some None else
      match read_big 0 bs with None => None | Some (start, bs) =>
      if index <? start then Some None else
      match read_big 0 bs with None => None | Some (size, bs) =>
      if index <? start + size then
        match read_big 0 bs with None => None | Some (target, bs) =>
        match read_big 0 bs with None => None | Some (dl, _) => Some (Some (target, dl / 2, Z.odd dl))
        end end
      else scan_loop f index (skip_to_next_entry bs stop) stop
      end end
  end.

Definition MAX_LINEAR_SEARCH : nat := 40.

(** The bisection, on the positions [start, end): [do ... while (end - start > 40)]. *)
Fixpoint bisect_loop (fuel : nat) (index : Z) (bs : list Z) (start stop : nat) : option (nat * nat) :=
  match fuel with
  | O => None
  | S f =>
      if (stop - start <=? MAX_LINEAR_SEARCH)%nat then Some (start, stop) else
      let mid := back bs (start + (stop - start) / 2) in
      match read_big 0 (skipn mid bs) with None => None | Some (offset, _) =>
      if index <? offset then bisect_loop f index bs start mid
      else bisect_loop f index bs mid stop
      end
  end.

Definition search (bs : list Z) (index : Z) : option (option (Z * Z * bool)) :=
  let n := length bs in
  let scan '(start, stop) := scan_loop (S n) index (skipn start bs) (n - stop) in
  if (n <=? MAX_LINEAR_SEARCH)%nat then scan (0%nat, n)
  else match read_big 0 bs with None => None | Some (offset, _) =>
       if index <? offset then Some None
       else match bisect_loop (S n) index bs 0 n with
            | None => None
            | Some r => scan r
            end
       end.

(** Tables whose entries are in order and disjoint, with numbers that fit. *)
Definition apart (en : list exentry) : Prop :=
  forall m n f e, (m < n)%nat -> nth_error en m = Some f -> nth_error en n = Some e ->
    e_start f <= e_start e /\ e_stop f < e_start e.
Definition small (e : exentry) : Prop :=
  e_start e < 2 ^ 30 /\ e_stop e - e_start e + 1 < 2 ^ 30 /\ e_target e < 2 ^ 30 /\ e_depth e < 2 ^ 29.
