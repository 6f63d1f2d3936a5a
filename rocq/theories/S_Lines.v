(** Specification used by the line-number properties (C11 - C14): the code string of a
    list of elements and the line each instruction should have. *)
From Verif Require Import PyBase OpTable M_Instr M_Tables M_Concrete CPy.
Open Scope list_scope.
Open Scope Z_scope.

(** Bytes of the instructions among [items]. *)
Definition code_of (T : optable) (items : list citem) : list Z :=
  flat_map (fun it => match it with CI c => assemble T c | CSet _ => [] end) items.

(** The line in force after [items]: the last one given, by a SetLineno or by an
    instruction with a line. *)
Definition current_line (first : Z) (items : list citem) : Z :=
  fold_left (fun cur it =>
    match it with
    | CSet z => z
    | CI c => match c_loc c with
              | Some l => match l_lineno l with Some z => z | None => cur end
              | None => cur
              end
    end) items first.

(** The line instruction [c] should be shown with when [cur] is the line in force before
    it: its own (which may be explicitly "no line"), else [cur]. *)
Definition line_shown (cur : Z) (c : cinstr) : option Z :=
  match c_loc c with Some l => l_lineno l | None => Some cur end.

(** The size known to the library is the size of the encoding (see C01, C04). *)
Definition sized (T : optable) (it : citem) : Prop :=
  match it with CI c => c_size c = zlen (assemble T c) | CSet _ => True end.

(** An instruction is explicitly without line. *)
Definition no_line (it : citem) : Prop :=
  match it with
  | CI c => match c_loc c with Some l => l_lineno l = None | None => False end
  | CSet _ => False
  end.

(** Runs of instructions without line that the 3.10 writer renders correctly: at most
    254 bytes, started while the line in force [cur] is the last line shown [p], and
    followed by a line other than [p].  [run] is the number of bytes of the current run. *)
Fixpoint no_line_runs_ok (cur p : Z) (run : option Z) (items : list citem) : Prop :=
  match items with
  | [] => match run with Some n => n <= 254 | None => True end
  | CSet z :: r => no_line_runs_ok z p run r
  | CI c :: r =>
      match line_shown cur c with
      | Some z => match run with Some n => n <= 254 /\ z <> p | None => True end
                  /\ no_line_runs_ok z z None r
      | None => match run with
                | Some n => no_line_runs_ok cur p (Some (n + c_size c)) r
                | None => cur = p /\ no_line_runs_ok cur p (Some (c_size c)) r
                end
      end
  end.

(** The position recorded for a location: a location without columns is on one line. *)
Definition recorded (l : loc) : position :=
  match l_lineno l, l_col l with
  | None, _ => (None, None, None, None)
  | Some z, None => (Some z, Some z, None, None)
  | Some z, Some c => (Some z, l_end_lineno l, Some c, l_end_col l)
  end.

(** Locations over several lines without columns, which have no encoding. *)
Definition spans_without_columns (l : loc) : Prop :=
  l_col l = None /\ exists el, l_end_lineno l = Some el /\ l_lineno l <> Some el.

Definition coherent_loc (v : pyver) (l : loc) : Prop :=
  new_location v (l_lineno l) (l_end_lineno l) (l_col l) (l_end_col l) = Ok l.

(** Every instruction has a (coherent) location. *)
Definition located (v : pyver) (it : citem) : Prop :=
  match it with
  | CI c => exists l, c_loc c = Some l /\ coherent_loc v l
  | CSet _ => True
  end.
