(** Specification vocabulary for assembled code: offsets, where a jump goes, and what a
    correct layout of the elements of a Bytecode is.  Independent of the assembler. *)
From Verif Require Import PyBase OpTable M_Instr M_Tables M_Concrete.
Open Scope string_scope.
Open Scope list_scope.
Open Scope Z_scope.

(** Offsets are counted in bytes before 3.10, in 2-byte code units since. *)
Definition in_units (v : pyver) (bytes : Z) : Z :=
  match v with V38 | V39 => bytes | _ => bytes / 2 end.

(** Offset of instruction number [k] of an encoded list (of the end for [k] the length). *)
Definition offset_of (v : pyver) (cs : list cinstr) (k : nat) : Z :=
  fold_right Z.add 0 (map (fun c => in_units v (c_size c)) (firstn k cs)).

(** Where CPython continues when it takes the jump [c] located at [offset]: relative
    jumps count from the instruction after the jump and its inline caches. *)
Definition jumps_to (v : pyver) (T : optable) (c : cinstr) (offset : Z) : Z :=
  let next := offset + in_units v (c_size c) + cache_entries v T (c_name c) (c_op c) in
  let a := match c_arg c with Some a => a | None => 0 end in
  if z_mem (c_op c) (t_hasjrel T) then
    if str_contains "BACKWARD" (c_name c) then next - a else next + a
  else a.

(** ** Layout *)

Definition explicit_cache (it : option bitem) : bool :=
  match it with Some (BI i) => String.eqb (i_name i) "CACHE" | _ => false end.

(** The CACHE entry that CPython expects in a free slot, at a given location. *)
Definition cache_at (l : option loc) : cinstr := mkC "CACHE" 0 (Some 0) l None 2.

(** What one element of a Bytecode contributes to the concrete code, [explicit] telling
    whether an explicit CACHE instruction comes next: an instruction contributes itself
    (a 3.13 paired instruction may contribute its two halves), followed by the inline
    caches of its opcode unless they are explicit; other elements contribute nothing. *)
Definition produced (v : pyver) (T : optable) (it : bitem) (explicit : bool) (g : list cinstr)
  : Prop :=
  match it with
  | BI i =>
      exists before c,
        g = before ++ c :: (if explicit then []
                            else repeat (cache_at (c_loc c))
                                   (Z.to_nat (cache_entries v T (c_name c) (c_op c))))
        /\ ((before = [] /\ c_name c = i_name i /\ c_op c = i_op i)
            \/ exists c1, before = [c1] /\ is_dual v T (i_op i) = true
               /\ dual_single_ops v T (i_op i) = Some (c_name c1, c_name c)
               /\ c_loc c1 = c_loc c)
  | _ => g = []
  end.

Inductive laid_out (v : pyver) (T : optable) : list bitem -> list (list cinstr) -> Prop :=
| lo_nil : laid_out v T [] []
| lo_item it items g gs :
    produced v T it (explicit_cache (hd_error items)) g ->
    laid_out v T items gs -> laid_out v T (it :: items) (g :: gs).

(** Number of instructions contributed by the elements before position [p]. *)
Definition instrs_before (gs : list (list cinstr)) (p : nat) : nat := length (concat (firstn p gs)).

(** Position of the last place where label [l] stands. *)
Definition label_position (l : nat) (items : list bitem) (q : nat) : Prop :=
  nth_error items q = Some (BLabel l)
  /\ forall q', (q < q')%nat -> nth_error items q' <> Some (BLabel l).

(** ** Shape of a list of elements *)

(** No TryBegin between a TryBegin and the next TryEnd ([inside] at the beginning). *)
Fixpoint flat_try (inside : bool) (items : list bitem) : Prop :=
  match items with
  | [] => True
  | BTB _ _ _ _ :: r => inside = false /\ flat_try true r
  | BTE _ :: r => flat_try false r
  | _ :: r => flat_try inside r
  end.

(** No CACHE instruction is written explicitly. *)
Definition no_cache (items : list bitem) : Prop :=
  forall i, In (BI i) items -> i_name i <> "CACHE".

(** Instructions whose argument is a Label. *)
Definition takes_label (it : bitem) : bool :=
  match it with BI i => match i_arg i with OLabel _ => true | _ => false end | _ => false end.

(** Identities of the TryBegin, in order. *)
Definition tb_ids (items : list bitem) : list nat :=
  flat_map (fun it => match it with BTB id _ _ _ => [id] | _ => [] end) items.

(** Every TryBegin object occurs once and is followed by exactly one TryEnd, with at least
    one instruction between them. *)
Definition proper_try (items : list bitem) : Prop :=
  NoDup (tb_ids items)
  /\ forall p id t la d, nth_error items p = Some (BTB id t la d) ->
     exists q, (p < q)%nat /\ nth_error items q = Some (BTE id)
       /\ (forall q', nth_error items q' = Some (BTE id) -> q' = q)
       /\ exists r i, (p < r < q)%nat /\ nth_error items r = Some (BI i).

(** Offset at which CPython executes instruction number [k], after its EXTENDED_ARG. *)
Definition executed_at (v : pyver) (cs : list cinstr) (k : nat) : Z :=
  match nth_error cs k with
  | Some c => offset_of v cs k + in_units v (c_size c - 2)
  | None => offset_of v cs k
  end.

(** ** Locations: the location in force at position [p] is set by the last instruction
    with a location, or SetLineno, up to [p]; else it is the first line. *)
Definition sets_location (it : option bitem) : option loc :=
  match it with
  | Some (BI i) => i_loc i
  | Some (BSet z) => Some (line_loc (Some z))
  | _ => None
  end.

Definition in_force (first : Z) (items : list bitem) (p : nat) (l : loc) : Prop :=
  (exists r, (r <= p)%nat /\ sets_location (nth_error items r) = Some l
     /\ forall r', (r < r' <= p)%nat -> sets_location (nth_error items r') = None)
  \/ ((forall r, (r <= p)%nat -> sets_location (nth_error items r) = None)
      /\ l = line_loc (Some first)).

(** ** Inline caches: instruction number [k] is followed by exactly the CACHE entries its
    opcode needs, at its location. *)
Definition caches_after (v : pyver) (T : optable) (cs : list cinstr) (k : nat) : Prop :=
  forall c, nth_error cs k = Some c -> c_name c <> "CACHE" ->
  let n := Z.to_nat (cache_entries v T (c_name c) (c_op c)) in
  (forall j, (j < n)%nat -> nth_error cs (S k + j) = Some (cache_at (c_loc c)))
  /\ (forall d, nth_error cs (S k + n) = Some d -> c_name d <> "CACHE").

(** ** Encodings: [es] is another encoding of the same code in which every jump has an
    argument that fits its size and reaches its label. *)
Definition encodes (v : pyver) (T : optable) (items : list bitem) (gs : list (list cinstr))
  (es : list cinstr) : Prop :=
  length es = length (concat gs)
  /\ (forall k c e, nth_error (concat gs) k = Some c -> nth_error es k = Some e ->
        c_name e = c_name c /\ c_op e = c_op c /\ 2 <= c_size e /\ c_size e mod 2 = 0
        /\ ((forall p i l, nth_error items p = Some (BI i) -> i_arg i = OLabel l ->
               k <> instrs_before gs p) -> c_size c <= c_size e))
  /\ (forall p i l q e, nth_error items p = Some (BI i) -> i_arg i = OLabel l ->
        label_position l items q -> nth_error es (instrs_before gs p) = Some e ->
        exists a, c_arg e = Some a /\ 0 <= a < 256 ^ (c_size e / 2)
          /\ jumps_to v T e (offset_of v es (instrs_before gs p))
             = offset_of v es (instrs_before gs q)).
