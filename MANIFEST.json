{
 "claims": [
  {
   "property": "C01",
   "status": "proved",
   "theorems": [
    "C01_size_is_encoded_length"
   ],
   "note": ""
  },
  {
   "property": "C02",
   "status": "proved",
   "theorems": [
    "C02_assembled_instruction_decodes"
   ],
   "note": ""
  },
  {
   "property": "C03",
   "status": "partial",
   "theorems": [
    "C03_code_round_trip_refuted",
    "C03_code_round_trip_partial",
    "C03_code_accepted_partial",
    "C03_positions_round_trip_partial",
    "C03_attributes_round_trip"
   ],
   "note": "False for an EXTENDED_ARG before a NOP (refuted: the bytes are lost). Proved for all other code: the bytes (all versions, folded or not), acceptance, positions and exception table on 3.11+, all attributes."
  },
  {
   "property": "C04",
   "status": "partial",
   "theorems": [
    "C04_forced_size_refuted",
    "C04_forced_size_partial"
   ],
   "note": "False as stated (C04_forced_size_refuted: forced count too small, or on an argument-less opcode, gives a wrong size). Partial: true exactly when the forced count is at least the needed one."
  },
  {
   "property": "C05",
   "status": "proved",
   "theorems": [
    "C05_instr_stays_legal",
    "C05_failed_mutation_changes_nothing",
    "C05_set_stores",
    "C05_concrete_stays_legal",
    "C05_failed_concrete_mutation_changes_nothing"
   ],
   "note": ""
  },
  {
   "property": "C06",
   "status": "proved",
   "theorems": [
    "C06_instr_accepts_documented_arguments"
   ],
   "note": ""
  },
  {
   "property": "C07",
   "status": "proved",
   "theorems": [
    "C07_location_accepts_coherent",
    "C07_location_stores"
   ],
   "note": ""
  },
  {
   "property": "C08",
   "status": "proved",
   "theorems": [
    "C08_line_setter"
   ],
   "note": ""
  },
  {
   "property": "C09",
   "status": "proved",
   "theorems": [
    "C09_varint_round_trip",
    "C09_negative_rejected"
   ],
   "note": ""
  },
  {
   "property": "C10",
   "status": "proved",
   "theorems": [
    "C10_exception_table_round_trip",
    "C10_exception_table_domain",
    "C10_entries_are_framed"
   ],
   "note": ""
  },
  {
   "property": "C11",
   "status": "proved",
   "theorems": [
    "C11_lnotab_lines"
   ],
   "note": ""
  },
  {
   "property": "C12",
   "status": "partial",
   "theorems": [
    "C12_linetable_refuted",
    "C12_linetable_partial",
    "C12_linetable_all_lines_partial"
   ],
   "note": "Refuted in general (a run of instructions without line is not always ended, and can swallow the following line). Proved whenever no_line_runs_ok holds (the three situations of the refutation are absent), in particular for every program in which no instruction is explicitly without line; assembling succeeds for every program."
  },
  {
   "property": "C13",
   "status": "proved",
   "theorems": [
    "C13_location_table",
    "C13_spanning_location_fails"
   ],
   "note": ""
  },
  {
   "property": "C14",
   "status": "partial",
   "theorems": [
    "C14_assembled_locations",
    "C14_inherited_line_refuted",
    "C14_inherited_line_before_311_partial",
    "C14_inherited_line_311_partial"
   ],
   "note": "Assembler path (C14_assembled_locations) holds for all programs. ConcreteBytecode path: holds before 3.11; refuted on 3.11+ where instructions without location keep none."
  },
  {
   "property": "C15",
   "status": "proved",
   "theorems": [
    "C15_labels_resolve"
   ],
   "note": "Final argument of every label jump, read as CPython reads it (EXTENDED_ARG size, caches, direction), reaches the final offset of the code following its label; hypothesis: the instructions are legal (what C05 shows every Instr is)."
  },
  {
   "property": "C16",
   "status": "proved",
   "theorems": [
    "C16_enough_passes_converge",
    "C16_default_passes_insufficient"
   ],
   "note": "Both halves: with more than 3 passes per jump the failure never happens (no explicit CACHE, no nested try, which raise RuntimeError themselves) and more passes change nothing; and a program for which the default 10 passes fail."
  },
  {
   "property": "C17",
   "status": "proved",
   "theorems": [
    "C17_minimal_sizes"
   ],
   "note": "The produced code is itself such an encoding and its sizes are pointwise below every encoding."
  },
  {
   "property": "C18",
   "status": "proved",
   "theorems": [
    "C18_args_survive",
    "C18_shown_is_read"
   ],
   "note": "Assembled number read by CPython (spec `reads`) gives the argument, and decode_arg gives it back (same_arg: equal, same int, or on 3.13 a local cell by name). Labels are C15, pairs C47. Assumes equal constant keys mean equal constants, enum arguments are members; decoding assumes no free variable is a local (3.13). Converse: C18_shown_is_read."
  },
  {
   "property": "C19",
   "status": "proved",
   "theorems": [
    "C19_tables",
    "C19_firsts_minimal"
   ],
   "note": "Tables are exactly the first uses in order after docstring / argument names (3.13: variables of pairs first); C19_firsts_minimal says what first uses means."
  },
  {
   "property": "C20",
   "status": "partial",
   "theorems": [
    "C20_caches_partial",
    "C20_explicit_caches_refuted"
   ],
   "note": "Proved when no CACHE is written explicitly. With explicit CACHE it is false (refuted: 1 of 5 accepted; the right number raises RuntimeError)."
  },
  {
   "property": "C21",
   "status": "partial",
   "theorems": [
    "C21_try_ranges_partial",
    "C21_empty_try_refuted"
   ],
   "note": "Proved for try ranges containing at least one instruction. An empty try is mis-assembled (refuted: at the beginning it protects the whole function; examples for IndexError at the end and a start after the stop)."
  },
  {
   "property": "C22",
   "status": "proved",
   "theorems": [
    "C22_disassembly",
    "C22_accepted",
    "C22_of_code",
    "C22_keep_caches_refuted"
   ],
   "note": "Whole claim, for the default prune_caches=True and also False. Separately refuted: to_bytecode(prune_caches=False) succeeding on code with inline caches (it raises ValueError)."
  },
  {
   "property": "C23",
   "status": "partial",
   "theorems": [
    "C23_identity_partial",
    "C23_wide_try_refuted",
    "C23_label_at_end_refuted"
   ],
   "note": "Same instructions, arguments, jump targets, locations in force and protecting handlers, for all programs with no explicit CACHE, matched nonempty try blocks, used labels not at the end, paired variables among the first 16, and no exception range starting in the middle of an instruction. Without the last two of these the property is false (refuted: the handler of a try starting with a wide instruction is lost; a jump to a label at the end is assembled and then not disassembled)."
  },
  {
   "property": "C24",
   "status": "partial",
   "theorems": [
    "C24_index_partial",
    "C24_negative_index_refuted",
    "C24_by_block_partial"
   ],
   "note": "Any history of add_block, del by non-negative index or block, split_block, edits. del cfg[-1] corrupts the map (C24_negative_index_refuted)."
  },
  {
   "property": "C25",
   "status": "partial",
   "theorems": [
    "C25_split_partial",
    "C25_successor_refuted"
   ],
   "note": "Everything but the fall-through successor, which is lost (C25_successor_refuted)."
  },
  {
   "property": "C26",
   "status": "partial",
   "theorems": [
    "C26_dead_partial",
    "C26_unreachable_found_partial",
    "C26_fall_through_refuted"
   ],
   "note": "Exact with respect to jumps and handlers, termination included; fall-through is ignored (C26_fall_through_refuted)."
  },
  {
   "property": "C27",
   "status": "proved",
   "theorems": [
    "C27_from_bytecode",
    "C27_one_end"
   ],
   "note": "For every proper list (try blocks paired with distinct TryBegin, jumps to labels in the list) the graph is made and satisfies the record well_formed of S_Cfg. C27_one_end: a block never begins with the same TryEnd twice."
  },
  {
   "property": "C28",
   "status": "partial",
   "theorems": [
    "C28_round_trip_partial",
    "C28_depths_refuted"
   ],
   "note": "The program made back is the same (instructions, locations, jump positions, handlers) whenever to_bytecode returns, always if no TryBegin has a stack depth; with mixed depths it may raise AssertionError (C28_depths_refuted)."
  },
  {
   "property": "C29",
   "status": "partial",
   "theorems": [
    "C29_coverage_partial"
   ],
   "note": "Same handler and push_lasti for every instruction whenever to_bytecode returns (see C28 for the AssertionError)."
  },
  {
   "property": "C30",
   "status": "partial",
   "theorems": [
    "C30_stacksize_sufficient_partial",
    "C30_varying_depths_partial",
    "C30_only_depths_change",
    "C30_empty_block_refuted"
   ],
   "note": "For graphs whose blocks are entered with one depth and where every handler has a TryBegin that shows its depth (record regular; 4136 of 4153 code objects with try blocks of the 3.11 standard library satisfy it); refuted for an empty block that is fallen into. Without try blocks also for blocks entered with different depths (C30_varying_depths_partial)."
  },
  {
   "property": "C31",
   "status": "partial",
   "theorems": [
    "C31_no_underflow_partial",
    "C31_underflow_reported_partial",
    "C31_needs_met_partial",
    "C31_no_false_alarm_partial",
    "C31_needs_refuted"
   ],
   "note": "Exact (RuntimeError iff underflow) on regular complete graphs with the package's own effect numbers; against CPython 3.11's needs for all but 15 instructions, for which it is refuted."
  },
  {
   "property": "C32",
   "status": "proved",
   "theorems": [
    "C32_terminates"
   ],
   "note": "Every graph; nesting at most number of blocks + 1."
  },
  {
   "property": "C33",
   "status": "partial",
   "theorems": [
    "C33_handler_depth_partial",
    "C33_dead_try_partial",
    "C33_entered_from_outside_refuted"
   ],
   "note": "For regular graphs (see C30); refuted for a try block entered by a jump from outside. Try blocks never entered: C33_dead_try_partial."
  },
  {
   "property": "C34",
   "status": "proved",
   "theorems": [
    "C34_pre_post",
    "C34_pre_is_need",
    "C34_understated_refuted",
    "C34_static_names",
    "C34_pre_post_311",
    "C34_pre_is_need_311",
    "C34_computed_entries"
   ],
   "note": "C34_pre_post: the sum, for every version from 3.8 to 3.13 and every instruction of the table S_Effect.uses_table (all those that have an entry in /repo and the most common others), every argument and jump; C34_computed_entries: the sum, for the instructions without a fixed entry, with any dis.stack_effect; C34_pre_post_311: every instruction of 3.11. C34_pre_is_need: the first number is minus the items needed, except for the instructions named in S_Effect.understated, for which it is shown to be too small (C34_understated_refuted). C34_static_names: the entries LOAD_INTRISIC_1, LOAD_INTRISIC_2 and FORMAT_SPEC belong to no instruction."
  },
  {
   "property": "C35",
   "status": "partial",
   "theorems": [
    "C35_bytecode_partial",
    "C35_concrete_partial",
    "C35_detailed_refuted"
   ],
   "note": "Proved for both list classes when no instruction with detailed location follows a SetLineno; otherwise legalize() raises RuntimeError (refuted, for every such list). Distinct instruction objects assumed."
  },
  {
   "property": "C36",
   "status": "partial",
   "theorems": [
    "C36_legalize_partial",
    "C36_detailed_refuted",
    "C36_returns_iff"
   ],
   "note": "Holds when no instruction with a detailed location follows a SetLineno of its block, and returns only then (C36_returns_iff); else RuntimeError, for every such graph (C36_detailed_refuted)."
  },
  {
   "property": "C37",
   "status": "proved",
   "theorems": [
    "C37_async_kept",
    "C37_graph"
   ],
   "note": "An explicit or existing async kind is kept (Bytecode, 3.8-3.13)."
  },
  {
   "property": "C38",
   "status": "partial",
   "theorems": [
    "C38_kinds",
    "C38_one_kind",
    "C38_raises",
    "C38_yield_without_resume_refuted",
    "C38_graph_kinds",
    "C38_graph_raises_partial",
    "C38_graph_try_refuted"
   ],
   "note": "One-kind table and the ValueError cases proved for legal, non-nested code, for Bytecode, ConcreteBytecode and graphs; totality without the RESUME-follows-YIELD side condition is refuted (StopIteration/AssertionError); on a graph with a try block inference always fails (C38_graph_try_refuted: AttributeError)."
  },
  {
   "property": "C39",
   "status": "partial",
   "theorems": [
    "C39_kept_partial",
    "C39_future_annotations_refuted",
    "C39_graph_partial",
    "C39_update_flags"
   ],
   "note": "Five of the six flags kept; FUTURE_ANNOTATIONS refuted: always dropped."
  },
  {
   "property": "C40",
   "status": "partial",
   "theorems": [
    "C40_optimized",
    "C40_nofree",
    "C40_nofree_concrete_partial",
    "C40_nofree_concrete_refuted",
    "C40_graph"
   ],
   "note": "OPTIMIZED exact; NOFREE exact for Bytecode; for ConcreteBytecode the exact condition is proved and the English claim refuted on 3.13."
  },
  {
   "property": "C41",
   "status": "proved",
   "theorems": [
    "C41_equivalence",
    "C41_renaming",
    "C41_same_program"
   ],
   "note": "Equivalence (given keq is one), independence of Label/TryBegin identities on both sides, equal => same program (S_Prog)."
  },
  {
   "property": "C42",
   "status": "partial",
   "theorems": [
    "C42_attributes_partial",
    "C42_code_objects",
    "C42_unset_docstring_refuted",
    "C42_argnames_survive"
   ],
   "note": "All attributes but the docstring survive any chain of assemble/disassemble/to CFG/from CFG; the docstring too when it is a string or None; unset docstring refuted. Argument names survive when there is one per argument counted."
  },
  {
   "property": "C43",
   "status": "partial",
   "theorems": [
    "C43_argnames_partial",
    "C43_posonly_refuted"
   ],
   "note": "True without positional-only parameters; refuted with them (counted twice)."
  },
  {
   "property": "C44",
   "status": "proved",
   "theorems": [
    "C44_iteration"
   ],
   "note": ""
  },
  {
   "property": "C45",
   "status": "proved",
   "theorems": [
    "C45_cell_free_slots"
   ],
   "note": "Slot numbers against an independent description of the frame (3.11+) and of the cell array (before)."
  },
  {
   "property": "C46",
   "status": "proved",
   "theorems": [
    "C46_comparisons"
   ],
   "note": "All members, all versions: comparison number, bool bit, outcome mask and decoding."
  },
  {
   "property": "C47",
   "status": "partial",
   "theorems": [
    "C47_pairs_partial",
    "C47_index_16_refuted",
    "C47_cell_pair_refuted"
   ],
   "note": "True unless the second variable is local number 16 (refuted: argument (0<<4)+16 reads another pair); pairs with a CellVar are accepted by Instr but fail an assert in the assembler (refuted)."
  },
  {
   "property": "C48",
   "status": "partial",
   "theorems": [
    "C48_bytecode_copy",
    "C48_concretebytecode_copy_partial",
    "C48_exception_table_refuted",
    "C48_block_copy",
    "C48_instr_copy",
    "C48_concrete_copy_partial",
    "C48_concrete_copy_size_refuted"
   ],
   "note": "Instr.copy, Bytecode.copy/slices and BasicBlock.copy/slices faithful; ConcreteInstr.copy drops extended_args (refuted), ConcreteBytecode.copy drops the exception table (refuted), faithful otherwise. Sharing of the argnames/consts lists is C79."
  },
  {
   "property": "C49",
   "status": "proved",
   "theorems": [
    "C49_coverage_shown",
    "C49_markers",
    "C49_coverage_shown_refuted"
   ],
   "note": "Proved for all such tables. Refuted for tables whose ranges start after an EXTENDED_ARG, which is what the library itself writes."
  },
  {
   "property": "C50",
   "status": "partial",
   "theorems": [
    "C50_code_runs_program_partial"
   ],
   "note": "One theorem over the final code object and an independent reader of it. Excludes explicit CACHE instructions, on 3.10 instructions explicitly without line (C12), on 3.13 paired instructions whose variables are not among the first sixteen (C47); empty or unmatched try blocks (C21)."
  },
  {
   "property": "C51",
   "status": "partial",
   "theorems": [
    "C51_to_code_runs_program_partial",
    "C51_graph_to_code_runs_program_partial",
    "C51_concrete_to_code_runs_program_partial",
    "C51_attributes"
   ],
   "note": "Same exclusions as C50 (explicit CACHE, 3.10 instructions without line, far paired instructions on 3.13, empty or unmatched try blocks). Only about calls that return; when they raise is C31, C16 and C28."
  },
  {
   "property": "C52",
   "status": "proved",
   "theorems": [
    "C52_from_code_shows_program_since_311",
    "C52_from_code_is_writable_since_311",
    "C52_attributes",
    "C52_from_code_shows_program",
    "C52_from_code_is_writable"
   ],
   "note": "Every version 3.8 to 3.13. 'As a compiler makes them' is `compiled`: on 3.11+ as_compiled (S_Code: whole instructions and caches, jumps to instructions, sorted disjoint ranges of whole instructions, one position per code unit, same position for an EXTENDED_ARG and its instruction; all 68642 code objects of the 3.11 standard library satisfy it), before as_compiled_before (S_Old: whole instructions, one line for all bytes of an instruction). prune_caches=True, the default. That the result can be assembled again is C52_from_code_is_writable; on 3.10 it supposes that every byte has a line (C53_no_line_refuted)."
  },
  {
   "property": "C53",
   "status": "partial",
   "theorems": [
    "C53_round_trip_since_311",
    "C53_graph_round_trip_since_311",
    "C53_attributes",
    "C53_round_trip",
    "C53_graph_round_trip",
    "C53_no_line_refuted"
   ],
   "note": "Every version. On 3.10, instructions without line do not come back (C53_no_line_refuted, from C12): the theorem supposes every byte has a line there. On 3.13 paired instructions must name variables among the first sixteen of the new code object (C47). Only about calls that return (C58: they do). The stack size and the handler depths are not compared: that is C54."
  },
  {
   "property": "C54",
   "status": "partial",
   "theorems": [
    "C54_stacksize_enough_partial",
    "C54_handlers_partial",
    "C54_stacksize_enough_311_partial",
    "C54_needs_met_311_partial",
    "C54_dead_code_refuted"
   ],
   "note": "Without try blocks: every version, as long as no instruction is reached again with more items than before (blocks may be entered with different depths). With try blocks: 3.11+, for programs whose graph is regular (C30/C33) and whose TryBegins are all reached; then also the depth of every handler is one the stack has, and on 3.11 every instruction finds the items it needs (15 undercounted instructions excepted, C31). Refuted: dead code in a try block after a return makes a live handler unwind to depth 32768."
  },
  {
   "property": "C55",
   "status": "proved",
   "theorems": [
    "C55_effect_of_assembled",
    "C55_effect_of_assembled_311"
   ],
   "note": "For any dis.stack_effect that only looks at numbers (only_numbers, proved for 3.11); same exclusions as C51 for the program (writable)."
  },
  {
   "property": "C56",
   "status": "proved",
   "theorems": [
    "C56_assembles_or_more_passes",
    "C56_assembles",
    "C56_code_made"
   ],
   "note": "assemblable/recordable in S_Total say what a well-formed program is: legal instructions, defined labels, paired try blocks with known depths, relative jumps in the direction of their name, declared closure variables, at most 10^6 instructions. With too few passes the only error is RuntimeError; 3 passes per jump suffice. C56_code_made is for a given stack size."
  },
  {
   "property": "C57",
   "status": "proved",
   "theorems": [
    "C57_after_from_code",
    "C57_to_code_returns"
   ],
   "note": "regular (S_Stack) says that a block is always entered with the same depth and that handler depths fit; TryBegins are reached, or dead and without a depth. Under these hypotheses the two outcomes are exactly: underflow and RuntimeError, or no underflow and a code object that runs the program. C57_after_from_code: the same for the Bytecode from_code() shows, in terms of the original code object."
  },
  {
   "property": "C58",
   "status": "proved",
   "theorems": [
    "C58_from_code_returns_any_version",
    "C58_code_remade_any_version",
    "C58_from_code_returns",
    "C58_code_remade"
   ],
   "note": "Every version. compiled (S_Code, S_Old) and understandable (S_From, S_Old) say what a code object of a compiler is; C58_ex and C58_before_ex show that compiled functions with a loop, exceptions and a closure meet them."
  },
  {
   "property": "C59",
   "status": "partial",
   "theorems": [
    "C59_graph_equality_partial",
    "C59_same_blocks_partial",
    "C59_equivalence",
    "C59_block_boundaries_refuted",
    "C59_no_effect_refuted"
   ],
   "note": "What == says is characterised (iff); reflexive, symmetric; equal graphs with blocks of the same sizes have the same blocks. Refuted in general: block boundaries are not compared, so graphs of two programs that jump to different instructions are equal (C59_block_boundaries_refuted); the comparison writes the stack depths of the TryBegins (C59_no_effect_refuted)."
  },
  {
   "property": "C60",
   "status": "partial",
   "theorems": [
    "C60_concrete_equality_partial",
    "C60_equivalence",
    "C60_instructions_refuted"
   ],
   "note": "What == says is characterised (iff); an equivalence. The instructions and the exception table are not compared (C60_instructions_refuted)."
  },
  {
   "property": "C61",
   "status": "partial",
   "theorems": [
    "C61_graph_ne",
    "C61_bytecode_partial",
    "C61_bytecode_refuted",
    "C61_concrete_refuted",
    "C61_concrete_ne_partial"
   ],
   "note": "Holds for graphs. False for Bytecode and ConcreteBytecode, which inherit list.__ne__ (refuted); for Bytecodes that are not != it is shown that they are ==."
  },
  {
   "property": "C62",
   "status": "partial",
   "theorems": [
    "C62_jumps",
    "C62_unconditional",
    "C62_final_partial",
    "C62_conditional_partial",
    "C62_refuted"
   ],
   "note": "has_jump, the three ways to tell a target and is_uncond_jump exact; is_final exact but for INTERPRETER_EXIT, is_cond_jump exact but for FOR_ITER, SEND, SETUP_* and CALL_FINALLY (refuted: they may jump or go on)."
  },
  {
   "property": "C63",
   "status": "partial",
   "theorems": [
    "C63_bytecode_partial",
    "C63_concrete_partial",
    "C63_graph_partial",
    "C63_names_partial",
    "C63_dump",
    "C63_set_lineno_refuted",
    "C63_lineno_refuted",
    "C63_depth_refuted"
   ],
   "note": "Proved for the three containers without SetLineno and, with lineno=True, when each instruction has a location. Refuted otherwise: any SetLineno makes format_bytecode raise AttributeError (C63_set_lineno_refuted, for every code holding one); an instruction without location is shown as being on line 0 (C63_lineno_refuted); a TryBegin whose depth is not set is shown like one of depth 0 (C63_depth_refuted). repr() is an abstract parameter; print() is not modelled."
  },
  {
   "property": "C64",
   "status": "proved",
   "theorems": [
    "C64_search_table",
    "C64_search_program",
    "C64_unsorted_table_refuted"
   ],
   "note": "CPySearch.search transcribes get_exception_handler of ceval.c (3.11+). C64_search_table: every ConcreteBytecode with a sorted table; C64_search_program: the table of every Bytecode is sorted, so the search agrees with find_handler, which C50 relates to the program. C64_unsorted_table_refuted: nothing sorts or checks the table of a ConcreteBytecode edited by the user, and the handler is then not found."
  },
  {
   "property": "C65",
   "status": "partial",
   "theorems": [
    "C65_given_partial",
    "C65_given_concrete_partial",
    "C65_given_graph",
    "C65_computed",
    "C65_computed_default",
    "C65_computed_graph",
    "C65_computed_concrete",
    "C65_given_size_refuted"
   ],
   "note": "True for graphs (C65_given_graph), for computed sizes everywhere (C65_computed*), and for given sizes of Bytecode/ConcreteBytecode when the exception depths are not recomputed (C65_given_partial, C65_given_concrete_partial). C65_given_size_refuted: on 3.11+ with the default compute_exception_stack_depths=True the stacksize passed by the caller is thrown away and recomputed."
  },
  {
   "property": "C66",
   "status": "partial",
   "theorems": [
    "C66_bytecode_partial",
    "C66_to_code_partial",
    "C66_graph_partial",
    "C66_concrete_before_311_partial",
    "C66_bytecode_idempotent",
    "C66_concrete_idempotent",
    "C66_graph_idempotent",
    "C66_own_line_refuted",
    "C66_columns_refuted",
    "C66_no_line_refuted",
    "C66_concrete_311_refuted"
   ],
   "note": "Idempotent for the three classes without condition. The program is kept (list, code object, graph, concrete before 3.11) if no instruction carries its own location after a SetLineno (bare_after_set) and no location-less instruction follows one with columns or with no line (plain_heirs); each condition is shown necessary: C66_own_line_refuted, C66_columns_refuted, C66_no_line_refuted, and C66_concrete_311_refuted for ConcreteBytecode.to_code on 3.11+, where the SetLineno has no effect in to_code() before legalize() and has one after."
  },
  {
   "property": "C67",
   "status": "proved",
   "theorems": [
    "C67_bytecode",
    "C67_concrete",
    "C67_graph"
   ],
   "note": "For the three classes, with the same is_async or with None the second time."
  },
  {
   "property": "C68",
   "status": "partial",
   "theorems": [
    "C68_as_it_stands_partial",
    "C68_default_refuted"
   ],
   "note": "C68_as_it_stands_partial: with a given stacksize and without recomputed depths. C68_default_refuted: with the default options to_code() goes through Bytecode and back, which drops unused constants and forced EXTENDED_ARGs."
  },
  {
   "property": "C69",
   "status": "partial",
   "theorems": [
    "C69_assembly",
    "C69_options",
    "C69_graph",
    "C69_table_refuted"
   ],
   "note": "C69_assembly: two lists that say the same give code objects equal in everything but the stack size and the exception table (identical before 3.11 with the same stack size); C69_options and C69_graph: the options and a graph in between make no difference. C69_table_refuted: the exception table itself is not decided by the coverage: a try block cut in two gives two entries."
  },
  {
   "property": "C70",
   "status": "partial",
   "theorems": [
    "C70_again_partial",
    "C70_argnames_refuted"
   ],
   "note": "C70_again_partial: under the conditions of C23, arguments plainly written (plain ints; a local that is also a cell written by its name where a local is expected), one argument name per counted argument; the docstring is compared when it was set; the exception table is not compared (C21, C49). C70_argnames_refuted: with more argument names than counted arguments the second variable table loses names."
  },
  {
   "property": "C71",
   "status": "partial",
   "theorems": [
    "C71_not_deeper_partial",
    "C71_computed_kept",
    "C71_three_pieces_refuted"
   ],
   "note": "C71_not_deeper_partial: if the depths of the try blocks with one handler do not grow along the graph. C71_computed_kept: if they agree, as compute_stacksize() leaves those that control meets, every instruction keeps its depth exactly. C71_three_pieces_refuted: three pieces with depths 1, 2, 2 become one of depth 2, because only the last two are compared (cfg.py:998-1001); with computed depths this is what C54_dead_code_refuted shows."
  },
  {
   "property": "C72",
   "status": "partial",
   "theorems": [
    "C72_distinct",
    "C72_distinct_graph",
    "C72_others_untouched",
    "C72_copy_is_same",
    "C72_copy_partial",
    "C72_shared_refuted",
    "C72_slice_refuted"
   ],
   "note": "C72_distinct, C72_distinct_graph, C72_others_untouched are the full first two sentences. C72_copy_partial: under the conditions of C66 on the placement of locations. C72_shared_refuted: an Instr object that occurs before and after SetLineno(9) has line 9 in both places afterwards. C72_slice_refuted: legalizing a slice without the SetLineno before it changes the lines of the original."
  },
  {
   "property": "C73",
   "status": "partial",
   "theorems": [
    "C73_written_partial",
    "C73_shown",
    "C73_round_trip_partial",
    "C73_graph_partial",
    "C73_unset",
    "C73_graph_given_size_refuted"
   ],
   "note": "C73_shown and C73_unset in full. C73_written_partial, C73_round_trip_partial, C73_graph_partial with the exclusions of C50 (explicit CACHE, empty try blocks, far pairs on 3.13); for a graph also: try blocks with the same handler have the same depth (else they are merged, C71). C73_graph_given_size_refuted: ControlFlowGraph.to_code(stacksize=N) raises AssertionError when the depths have not been computed, although computing them is the default."
  },
  {
   "property": "C74",
   "status": "partial",
   "theorems": [
    "C74_written_is_read_partial",
    "C74_line_zero_refuted",
    "C74_before_311_partial"
   ],
   "note": "C74_written_is_read_partial: for instructions as code holds them (legal, size = size of the encoding, followed by their caches; no EXTENDED_ARG items), 3.11+. The locations must be coherent and be so when read again: C74_line_zero_refuted shows an instruction at line 0, accepted by InstrLocation on 3.11+, that is written but cannot be read. C74_before_311_partial: before 3.11 (3.8 - 3.10), each instruction with the line in force; lines of at least 1, and on 3.10 no instruction explicitly without line (C12_linetable_refuted, C75_no_line_310_refuted)."
  },
  {
   "property": "C75",
   "status": "partial",
   "theorems": [
    "C75_to_code_from_code_partial",
    "C75_code_round_trip_partial",
    "C75_code_round_trip_before_311_partial",
    "C75_to_code_before_311_partial",
    "C75_no_line_310_refuted"
   ],
   "note": "Conditions of C23 (no explicit CACHE, matched nonempty try blocks, jump and handler labels followed by an instruction, free names not local, paired instructions' names among the first 16, exception table entries beginning at an instruction) and locations that can be read again (C74_line_zero_refuted). C75_code_round_trip_partial for to_concrete_bytecode().to_code(), C75_to_code_from_code_partial for Bytecode.to_code() with all its options, the conditions on the result stated on the code object. Examples: a loop, EXTENDED_ARG, inline caches, a try block and inherited lines. Before 3.11: C75_code_round_trip_before_311_partial and C75_to_code_before_311_partial (no try blocks, every instruction with a line, first line at least 1); examples on 3.8, 3.9, 3.10."
  },
  {
   "property": "C76",
   "status": "partial",
   "theorems": [
    "C76_rewriting_is_stable_partial",
    "C76_to_code_again_partial",
    "C76_recorded_alike_refuted",
    "C76_docstring_refuted",
    "C76_rewriting_before_311_partial",
    "C76_to_code_before_311_partial"
   ],
   "note": "C76_rewriting_is_stable_partial for the concrete conversions, C76_to_code_again_partial for Bytecode.to_code() with any options. Conditions of C75 and C70 (one argument name per argument, no bool or Compare written for a plain number), docstring unset, None or a string (C76_docstring_refuted: a number is lost and the constants change), and different locations recorded differently (C76_recorded_alike_refuted: a line only, followed by the same line with an end line, gives two entries in the location table, then one). Before 3.11: C76_rewriting_before_311_partial, C76_to_code_before_311_partial (conditions of C75 and C70 there, docstring unset, None or a string; no condition on the locations but that they have lines): the code object is the same, or differs in the stack size only. Examples on 3.8, 3.9 and 3.10."
  },
  {
   "property": "C77",
   "status": "partial",
   "theorems": [
    "C77_same_delete",
    "C77_same_delete_block",
    "C77_same_split",
    "C77_same_stacksize",
    "C77_instr",
    "C77_concrete_instr",
    "C77_delete_partial",
    "C77_delete_block",
    "C77_delete_negative_refuted",
    "C77_split_partial",
    "C77_split_lost",
    "C77_split_refuted",
    "C77_stacksize_partial",
    "C77_unchecked_gives_back",
    "C77_stacksize_refuted",
    "C77_legalize_partial",
    "C77_legalize_refuted",
    "C77_stacksize_negative_refuted"
   ],
   "note": "Full for instructions and for del cfg[block]. del cfg[i] for 0 <= i (C77_delete_negative_refuted: del cfg[-1] of the only block raises after removing it); split_block of a block that can be iterated over (C77_split_refuted: otherwise the elements that were to be moved can be lost; C77_split_lost: nothing else can happen); compute_stacksize of a graph whose blocks can be iterated over, with the handlers in the graph, and whose instructions' second effects are not negative (C77_stacksize_refuted, C77_stacksize_negative_refuted: stack depths already written stay); legalize(): the list and all but lines (C77_legalize_refuted: lines already given stay). C77_same_*: the models that give the object left behind are those of C24, C25 and C30."
  },
  {
   "property": "C78",
   "status": "proved",
   "theorems": [
    "C78_listed",
    "C78_no_assertion",
    "C78_made",
    "C78_split",
    "C78_delete",
    "C78_add",
    "C78_split_and_back"
   ],
   "note": "For graphs that are `listable` (S_List.v: blocks can be iterated over, jumps and handlers go to blocks of the graph, a TryBegin is opened once and when none is open, a TryEnd ends an open or an already ended one). C78_listed: the list, or AssertionError, which can only be when some TryBegin have a stack depth and some not. C78_made: every graph made by from_bytecode() of a proper list is listable. C78_delete: the removed block has no TryBegin or TryEnd."
  },
  {
   "property": "C79",
   "status": "proved",
   "theorems": [
    "C79_shared",
    "C79_change",
    "C79_graphs_own",
    "C79_copy",
    "C79_copies_share",
    "C79_new_object",
    "C79_construct",
    "C79_from_code",
    "C79_graph_of",
    "C79_bytecode_of_graph",
    "C79_bytecode_of_concrete",
    "C79_concrete_of_bytecode",
    "C79_assign"
   ],
   "note": "M_Alias: objects as references to lists. Histories (S_Alias.made) do not contain assignments of a list that another object holds (x.argnames = y.argnames), which is the user's own sharing. C79_copies_share: what is done to the argnames of a copy is done to those of the original, for every Bytecode."
  },
  {
   "property": "C80",
   "status": "proved",
   "theorems": [
    "C80_same_source",
    "C80_assembly",
    "C80_to_code",
    "C80_attributes_ignored"
   ],
   "note": "From C41 and C69. Plain numbers are written as ints (not True for 1: such instructions are == and are not covered); constants with the same const_key are the same value (sound_key). C80_same_source: also the handlers that protect the instructions are the same. C80_attributes_ignored: why the attributes are a condition."
  }
 ]
}