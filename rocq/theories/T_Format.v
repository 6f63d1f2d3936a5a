(** Property theorems: the text of a bytecode (C63). *)
From Verif Require Import PyBase PyText OpTable CPy Table311 TablesEx M_Instr M_Tables M_Concrete M_Convert M_Bytecode M_Cfg M_Format
  S_Flags S_Format S_Cfg P_Base P_Bytecode P_Format P_Format2.
Open Scope string_scope.
Open Scope list_scope.
Open Scope Z_scope.

(** C63, Bytecode.  The text is made of one line for each element, in order (and an empty line
    before each label but a first one).  A label is shown by its position, a jump by the label it
    goes to, a TryBegin by its number and its handler, a TryEnd by the number of its TryBegin, and
    with lineno=True a line number is shown where it changes. *)
Theorem C63_bytecode_partial : forall rp lineno b,
  not_nested (b_items b) -> no_set_lineno (b_items b) -> (lineno = true -> located (b_items b)) ->
  exists lines, format_bytecode rp lineno b = Ok (String.concat nl (layout 0 (b_items b) lines ++ [""]))
    /\ length lines = length (b_items b)
    /\ forall k it, nth_error (b_items b) k = Some it -> exists line, nth_error lines k = Some line
         /\ shows rp (label_name (b_items b)) (fun _ _ => False) lineno (m_first_lineno (b_meta b)) (firstn k (b_items b)) k it line.
Proof.
  intros rp lineno b NN NS LO. destruct (format_bytecode_ok rp lineno b NN NS LO) as (lines & A & B).
  apply all_show_nth in B. exists lines. tauto.
Qed.
Print Assumptions C63_bytecode_partial.

(** C63, ConcreteBytecode: one line for each instruction, with its offset, then the exception table. *)
Theorem C63_concrete_partial : forall rp lineno cb,
  (forall z, ~ In (CSet z) (cb_items cb)) -> (lineno = true -> forall c, In (CI c) (cb_items cb) -> c_loc c <> None) ->
  exists lines, format_concrete rp lineno cb
      = Ok (String.concat nl (lines ++ match cb_ex cb with [] => [] | ex => [""; "Exception table:"] ++ map entry_text ex end))
    /\ length lines = length (cb_items cb)
    /\ forall k it, nth_error (cb_items cb) k = Some it -> exists line, nth_error lines k = Some line
         /\ shows_concrete rp lineno (m_first_lineno (cb_meta cb)) (firstn k (cb_items cb)) it line.
Proof. intros rp lineno cb. apply format_concrete_ok. Qed.
Print Assumptions C63_concrete_partial.

(** C63, ControlFlowGraph: for each block, its name, one line for each element, and the name of the next block.
    TryBegins are numbered throughout the graph. *)
Theorem C63_graph_partial : forall T rp lineno g,
  (forall n, In n (g_order g) -> is_ok (block_iter T (k_items (blk g n))) = true) ->
  (forall n, In n (g_order g) -> no_set_lineno (k_items (blk g n)) /\ (lineno = true -> located (k_items (blk g n)))) ->
  (forall n m, In n (g_order g) -> k_next (blk g n) = Some m -> In m (g_order g)) ->
  exists paragraphs, format_cfg T rp lineno g = Ok (String.concat nl (concat paragraphs))
    /\ length paragraphs = length (g_order g)
    /\ forall k n, nth_error (g_order g) k = Some n -> exists title lines arrow,
         nth_error paragraphs k = Some ((title ++ ":")%string :: lines ++ arrow ++ [""])
         /\ block_name (g_order g) n title
         /\ length lines = length (k_items (blk g n))
         /\ (forall j it, nth_error (k_items (blk g n)) j = Some it -> exists line, nth_error lines j = Some line
              /\ shows rp (fun _ _ => False) (block_name (g_order g)) lineno (m_first_lineno (g_meta g))
                   (flat_map (fun n => k_items (blk g n)) (firstn k (g_order g)) ++ firstn j (k_items (blk g n))) j it line)
         /\ match k_next (blk g n) with
            | None => arrow = []
            | Some m => exists ind s, block_name (g_order g) m s /\ arrow = [(spaces ind ++ "-> " ++ s)%string]
            end.
Proof.
  intros T rp lineno g IT NS NX. destruct (format_cfg_ok T rp lineno g) as (paras & A & B).
  { intros n I. destruct (NS n I) as [U V]. specialize (IT n I). destruct (block_iter T (k_items (blk g n))) as [[]|]; [|discriminate]. repeat split; eauto. }
  apply all_paras_nth in B. destruct B as [B C]. exists paras. split; [exact A|]. split; [exact B|].
  intros k n E. destruct (C k n E) as (p & P & title & lines & arrow & -> & Q & R & S). apply all_show_nth in R. destruct R as [R1 R2].
  exists title, lines, arrow. auto.
Qed.
Print Assumptions C63_graph_partial.

(** The name of a block is its rank, that of a label its position, when it occurs once. *)
Theorem C63_names_partial : forall order prog,
  (NoDup order -> forall k n s, nth_error order k = Some n -> block_name order n s -> s = ("block" ++ dec (Z.of_nat k + 1))%string)
  /\ ((forall i j n, nth_error prog i = Some (BLabel n) -> nth_error prog j = Some (BLabel n) -> i = j) ->
      forall k n s, nth_error prog k = Some (BLabel n) -> label_name prog n s -> s = ("label_instr" ++ dec (Z.of_nat k))%string).
Proof.
  intros order prog. split.
  - intros ND k n s A (j & B & ->). rewrite (NoDup_nth_error order) in ND. rewrite (ND k j); [reflexivity|apply nth_error_Some; congruence|congruence].
  - intros U k n s A (j & B & ->). now rewrite (U _ _ _ A B).
Qed.
Print Assumptions C63_names_partial.

(** C63, dump_bytecode: it prints these lines, each ended by a newline. *)
Theorem C63_dump : forall A (format : bool -> A -> res string) lineno x lines,
  format lineno x = Ok (String.concat nl lines) -> lines <> [] ->
  dump format lineno x = Ok (String.concat "" (map (fun line => line ++ nl)%string lines)).
Proof.
  intros A format lineno x lines H N. unfold dump. rewrite H. cbn [bind]. f_equal. clear H.
  destruct lines as [|l lines]; [congruence|]. clear N. revert l. induction lines as [|m lines IH]; intros l; [reflexivity|].
  change (String.concat nl (l :: m :: lines)) with (l ++ nl ++ String.concat nl (m :: lines))%string.
  change (String.concat "" (map (fun line => line ++ nl)%string (l :: m :: lines)))
    with ((l ++ nl) ++ "" ++ String.concat "" (map (fun line => line ++ nl)%string (m :: lines)))%string.
  rewrite <- IH. rewrite !app_s_assoc. reflexivity.
Qed.
Print Assumptions C63_dump.

(** Missing: with a SetLineno, format_bytecode never returns. *)
Theorem C63_set_lineno_refuted : forall rp lineno z,
  (forall b s, In (BSet z) (b_items b) -> format_bytecode rp lineno b <> Ok s)
  /\ (forall cb s, In (CSet z) (cb_items cb) -> format_concrete rp lineno cb <> Ok s).
Proof.
  intros rp lineno z. split.
  - intros b s. apply format_bytecode_set.
  - intros cb s I H. unfold format_concrete in H. apply bind_ok in H. destruct H as (ws & H & _). revert H. now apply concrete_loop_set with z.
Qed.
Print Assumptions C63_set_lineno_refuted.

(** Missing: an instruction with no location is shown on line 0, not on the line it inherits.
    A TryBegin whose depth is not set is shown with depth 0. *)
Definition rp0 (o : pyobj) : string := match o with OInt z => dec z | _ => "..." end.
Definition fmt_ex (l : list bitem) : bytecode := mkB (mkMeta 0 0 0 7 "f" "f" "f.py" OUnset [] [] 0) [] l.
Definition at_line (z : Z) : option loc := Some (mkLoc (Some z) None None None).
Theorem C63_lineno_refuted :
  format_bytecode rp0 true (fmt_ex [BI (mkInstr "NOP" 9 OUnset (at_line 8)); BI (mkInstr "NOP" 9 OUnset None)])
  = Ok (String.concat nl ["    L.  8   0: NOP"; "    L.  0   1: NOP"; ""]).
Proof. vm_compute. reflexivity. Qed.
Print Assumptions C63_lineno_refuted.
Theorem C63_depth_refuted : forall rp lineno, exists b b', b_items b <> b_items b' /\ format_bytecode rp lineno b = format_bytecode rp lineno b'.
Proof.
  intros rp lineno. exists (fmt_ex [BTB 0 (OLabel 0) false None; BTE 0; BLabel 0]), (fmt_ex [BTB 0 (OLabel 0) false (Some 0); BTE 0; BLabel 0]).
  split; [discriminate|]. destruct lineno; reflexivity.
Qed.
Print Assumptions C63_depth_refuted.

(** A program with a try block and a jump, without and with line numbers *)
Definition fmt_prog : list bitem :=
  [BI (mkInstr "NOP" 9 OUnset (at_line 8)); BTB 5 (OLabel 1) true (Some 2); BI (mkInstr "LOAD_CONST" 100 (OInt 3) (at_line 8));
   BI (mkInstr "JUMP_FORWARD" 110 (OLabel 0) (at_line 9)); BTE 5; BLabel 1; BI (mkInstr "RERAISE" 119 (OInt 0) (at_line 9)); BLabel 0;
   BI (mkInstr "JUMP_FORWARD" 110 (OLabel 9) (Some (mkLoc None None None None)))].
Example C63_ex : format_bytecode rp0 false (fmt_ex fmt_prog) = Ok (String.concat nl
  ["    NOP"; "    TryBegin 0 -> <label_instr5> [2] last_i"; "      LOAD_CONST 3"; "      JUMP_FORWARD <label_instr7>"; "    TryEnd (0)";
   ""; "label_instr5:"; "    RERAISE 0"; ""; "label_instr7:"; "    JUMP_FORWARD <error: unknown label>"; ""]).
Proof. vm_compute. reflexivity. Qed.
Example C63_lineno_ex : format_bytecode rp0 true (fmt_ex fmt_prog) = Ok (String.concat nl
  ["    L.  8   0: NOP"; "            1: TryBegin 0 -> <label_instr5> [2] last_i"; "              2: LOAD_CONST 3"; "      L.  9   3: JUMP_FORWARD <label_instr7>";
   "            4: TryEnd (0)"; ""; "label_instr5:"; "            6: RERAISE 0"; ""; "label_instr7:"; "            8: JUMP_FORWARD <error: unknown label>"; ""]).
Proof. vm_compute. reflexivity. Qed.
Example C63_hyps_ex : not_nested fmt_prog /\ no_set_lineno fmt_prog /\ located fmt_prog.
Proof.
  split; [apply iterate_not_nested; reflexivity|]. split.
  - intros z I. cbn in I. decompose [or] I; discriminate || contradiction.
  - intros i I. cbn in I. decompose [or] I; try contradiction; match goal with H : _ = BI _ |- _ => first [discriminate H|injection H as <-; discriminate] end.
Qed.
Definition fmt_graph : cfg :=
  mkG (mkMeta 0 0 0 7 "f" "f" "f.py" OUnset [] [] 0) []
    [mkBlk [BTB 5 (OBlock 1) false (Some 2); BI (mkInstr "JUMP_FORWARD" 110 (OBlock 2) (at_line 7)); BTE 5] (Some 1%nat);
     mkBlk [BI (mkInstr "NOP" 9 OUnset (at_line 8))] (Some 2%nat); mkBlk [BI (mkInstr "RETURN_VALUE" 83 OUnset (at_line 8))] None]
    [0; 1; 2]%nat [(0%nat, 0); (1%nat, 1); (2%nat, 2)].
Example C63_graph_ex : format_cfg T311 rp0 false fmt_graph = Ok (String.concat nl
  ["block1:"; "    TryBegin 0 -> <block2> [2]"; "      JUMP_FORWARD <block3>"; "    TryEnd (0)"; "    -> block2"; "";
   "block2:"; "    NOP"; "    -> block3"; ""; "block3:"; "    RETURN_VALUE"; ""])
  /\ (forall n, In n (g_order fmt_graph) -> is_ok (block_iter T311 (k_items (blk fmt_graph n))) = true).
Proof. split; [vm_compute; reflexivity|]. intros n I. cbn in I. decompose [or] I; try contradiction; subst; vm_compute; reflexivity. Qed.
Example C63_concrete_ex : format_concrete rp0 false (mkCB (b_meta (fmt_ex [])) [CI (mkC "NOP" 9 None None None 2); CI (mkC "LOAD_CONST" 100 (Some 300) None None 4); CI (mkC "RETURN_VALUE" 83 None None None 2)]
    [] [] [] [mkEx 2 6 6 1 true])
  = Ok (String.concat nl ["  0    NOP"; "  2    LOAD_CONST 300"; "  6    RETURN_VALUE"; ""; "Exception table:"; "2 to 6 -> 6 [1] lasti"]).
Proof. vm_compute. reflexivity. Qed.
