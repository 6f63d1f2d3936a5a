(** What is read back of a ConcreteBytecode that was written (specification). *)
From Verif Require Import PyBase OpTable CPy M_Instr M_Tables M_Concrete S_Args S_Dis S_Lines.
Open Scope string_scope.
Open Scope list_scope.
Open Scope Z_scope.

(** An inline cache *)
Definition inline_cache (d : cinstr) : Prop :=
  c_name d = "CACHE" /\ c_op d = 0 /\ c_arg d = Some 0 /\ c_size d = 2 /\ (c_ext d = None \/ c_ext d = Some 0).

(** Instructions as code holds them: legal ones whose size is that of their encoding, no
    EXTENDED_ARG among them, each followed by its inline caches. *)
Inductive whole (v : pyver) (T : optable) : list cinstr -> Prop :=
| whole_nil : whole v T []
| whole_cons c ks rest : ordinary v T c -> c_name c <> "CACHE" -> c_size c = zlen (assemble T c) ->
    zlen ks = cache_entries v T (c_name c) (c_op c) -> Forall inline_cache ks -> whole v T rest ->
    whole v T (c :: ks ++ rest).

(** The location each instruction is written with on 3.11+: its own, or that of the instruction
    before it; at the beginning, the line in force. *)
Fixpoint placed (before : option loc) (line : Z) (items : list citem) : list (cinstr * loc) :=
  match items with
  | [] => []
  | CSet z :: r => placed before z r
  | CI c :: r =>
      let l := match c_loc c, before with
               | Some l, _ => l
               | None, Some l => l
               | None, None => line_loc (Some line)
               end in
      (c, l) :: placed (Some l) (match line_shown line c with Some z => z | None => line end) r
  end.

(** What the location table of 3.11+ keeps of a location *)
Definition kept_loc (l : loc) : loc := let '(a, b, c, d) := recorded l in mkLoc a b c d.

(** The same concrete instruction, with the part of its location that is kept.  (c_ext, the number
    of EXTENDED_ARG asked for, is not compared; the number there is, c_size, is.) *)
Definition read_back (x : cinstr * loc) (y : citem) : Prop :=
  match y with
  | CI d => c_name d = c_name (fst x) /\ c_op d = c_op (fst x) /\ c_arg d = c_arg (fst x) /\ c_size d = c_size (fst x)
      /\ c_loc d = Some (kept_loc (snd x))
  | CSet _ => False
  end.

(** The line each instruction is written with before 3.11: the one in force, its own included. *)
Fixpoint lined (line : Z) (items : list citem) : list (cinstr * Z) :=
  match items with
  | [] => []
  | CSet z :: r => lined z r
  | CI c :: r => let z := match line_shown line c with Some z => z | None => line end in (c, z) :: lined z r
  end.

(** The same concrete instruction, with the line and nothing else of its location (before 3.11). *)
Definition read_before (x : cinstr * Z) (y : citem) : Prop :=
  match y with
  | CI d => c_name d = c_name (fst x) /\ c_op d = c_op (fst x) /\ c_arg d = c_arg (fst x) /\ c_size d = c_size (fst x)
      /\ c_loc d = Some (line_loc (Some (snd x)))
  | CSet _ => False
  end.
