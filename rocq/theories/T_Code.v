(** Property theorems: what the interpreter does with the code object of a Bytecode (C50). *)
From Verif Require Import PyBase OpTable CPy Table311 TablesEx P_Base M_Instr M_Tables M_Concrete M_Convert S_Args S_Lines S_Asm S_Prog S_Slots S_Dis S_Ident S_Code
  P_Layout P_Code2 T_Asm T_Args T_Ident.
Open Scope string_scope.
Open Scope list_scope.
Open Scope Z_scope.

(** The instructions of a Bytecode with the locations in force. *)
Definition source (b : bytecode) : list (string * parg * loc * option handler) :=
  located (line_loc (Some (m_first_lineno (b_meta b)))) (program (b_items b)).

(** Every location in force is a coherent one; on 3.10 every instruction has a line (C12). *)
Definition locations_ok (v : pyver) (b : bytecode) : Prop :=
  forall n a l h, In (n, a, l, h) (source b) -> coherent_loc v l /\ (v = V310 -> l_lineno l <> None).

(** On 3.13 the variables of paired instructions are among the first sixteen (C47). *)
Definition pairs_near (v : pyver) (T : optable) (b : bytecode) (vars : list string) : Prop :=
  forall i n, In (BI i) (b_items b) -> is_dual v T (i_op i) = true -> In n (locals_of (i_arg i)) ->
  In n (firstn 16 vars).

(** C50.  The code object made from a Bytecode, read as the interpreter reads it, is the program
    of the Bytecode. *)
Theorem C50_code_runs_program_partial : forall v T keq passes b cb stacksize co,
  wf_optable v T = true -> all_legal v T b -> all_members v b -> sound_key keq ->
  no_cache (b_items b) -> try_blocks (b_items b) -> locations_ok v b ->
  to_concrete v T keq passes b = Ok cb -> pairs_near v T b (cb_varnames cb) ->
  to_code_raw v T cb stacksize = Ok co ->
  runs v T co (source b).
Proof.
  intros v T keq passes b cb st co wf HL HM HK NC TB LO H HP TO.
  destruct (to_concrete_assembled v T keq wf passes b cb H) as (vn & K0 & gs0 & Kf & gs & en & A).
  exact (code_runs v T keq wf b cb vn K0 gs0 Kf gs en A HL HM HK NC TB HP co st TO LO).
Qed.
Print Assumptions C50_code_runs_program_partial.

Definition coherentb (v : pyver) (l : loc) : bool :=
  match new_location v (l_lineno l) (l_end_lineno l) (l_col l) (l_end_col l) with Ok _ => true | Err _ => false end.
Definition check_locations (v : pyver) (b : bytecode) : bool :=
  forallb (fun x => coherentb v (snd (fst x)) && match l_lineno (snd (fst x)) with Some _ => true | None => false end) (source b).
Lemma check_locations_ok v b : check_locations v b = true -> locations_ok v b.
Proof.
  unfold check_locations. rewrite forallb_forall. intros H n a l h I. specialize (H _ I). cbn [fst snd] in H.
  apply andb_true_iff in H. destruct H as [H1 H2]. split; [|intros _ X; rewrite X in H2; discriminate].
  unfold coherentb in H1. unfold coherent_loc. destruct (new_location _ _ _ _ _) as [x|e] eqn:E; [|discriminate].
  f_equal. unfold new_location in E. do 6 (apply bind_ok in E; destruct E as (? & _ & E)). injection E as <-. now destruct l.
Qed.

(** A program for 3.11 with a loop, jumps over several hundred instructions, inline caches, a try
    block with an instruction that needs EXTENDED_ARG, inherited lines. *)
Example C50_ex : all_legal V311 T311 ex23 /\ all_members V311 ex23 /\ no_cache (b_items ex23) /\ try_blocks (b_items ex23)
  /\ locations_ok V311 ex23
  /\ exists cb co, to_concrete V311 T311 keq0 default_passes ex23 = Ok cb /\ pairs_near V311 T311 ex23 (cb_varnames cb)
     /\ to_code_raw V311 T311 cb 1 = Ok co
     /\ length (instructions V311 T311 co) = 308%nat
     /\ map (fun u => find_handler co u) [7; 8; 9; 10] = [None; Some (312, 1, true); Some (312, 1, true); None]
     /\ nth_error (instructions V311 T311 co) 1 = Some (mkRan 12 14 16 115 (Some 305)).
Proof.
  destruct C23_ex as (H1 & H2 & H3 & H4 & _). repeat (split; [assumption|]). clear.
  split; [apply check_locations_ok; vm_compute; reflexivity|].
  do 2 eexists. split; [vm_compute; reflexivity|]. split; [intros i n _ D; exfalso; unfold is_dual in D; discriminate D|].
  split; [vm_compute; reflexivity|]. repeat split; vm_compute; reflexivity.
Qed.

(** A program for 3.8: absolute and relative jumps, in bytes. *)
Definition ins8 (n : string) (a : pyobj) : bitem :=
  match new_instr V38 TPre n a LUnset None with Ok i => BI i | Err _ => BSet 0 end.
Definition ex50 : bytecode := mkB meta0 []
  ([BLabel 0; BSet 4; ins8 "LOAD_NAME" (OStr "f"); ins8 "POP_JUMP_IF_TRUE" (OLabel 1)]
   ++ repeat (ins8 "NOP" OUnset) 300
   ++ [BSet 900; ins8 "JUMP_ABSOLUTE" (OLabel 0); BLabel 1; ins8 "LOAD_CONST" ONone; ins8 "RETURN_VALUE" OUnset]).
Example C50_ex38 : all_legal V38 TPre ex50 /\ all_members V38 ex50 /\ no_cache (b_items ex50) /\ try_blocks (b_items ex50)
  /\ locations_ok V38 ex50
  /\ exists cb co, to_concrete V38 TPre keq0 default_passes ex50 = Ok cb /\ pairs_near V38 TPre ex50 (cb_varnames cb)
     /\ to_code_raw V38 TPre cb 1 = Ok co
     /\ length (instructions V38 TPre co) = 305%nat
     /\ map (goes_to V38 TPre) (firstn 1 (skipn 1 (instructions V38 TPre co))) = [608].
Proof.
  split; [apply check_legal_ok; vm_compute; reflexivity|].
  split. { intros i I. assert (X : forallb (fun it => match it with BI i => match i_arg i with OCompare _ | OIntr1 _ | OIntr2 _ => false | _ => true end | _ => true end) (b_items ex50) = true) by (vm_compute; reflexivity).
    rewrite forallb_forall in X. specialize (X _ I). cbv beta iota in X. destruct (i_arg i); try exact Logic.I; discriminate. }
  split. { intros i I E. assert (X : existsb (fun it => is_cache (Some it)) (b_items ex50) = true).
    { apply existsb_exists. exists (BI i). split; [exact I|]. cbn. now apply String.eqb_eq. } vm_compute in X. discriminate. }
  split. { split; [constructor|]. vm_compute. auto. }
  split; [apply check_locations_ok; vm_compute; reflexivity|].
  do 2 eexists. split; [vm_compute; reflexivity|]. split; [intros i n _ D; exfalso; unfold is_dual in D; discriminate D|].
  split; [vm_compute; reflexivity|]. split; vm_compute; reflexivity.
Qed.
