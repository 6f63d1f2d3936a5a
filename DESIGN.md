# Formal model of MatthieuDartiailh/bytecode in Rocq (Coq 8.16.1)

## 1. Approach

Shallow, executable Gallina functions mirror the Python functions branch by branch;
a Python exception is a value of the result type `res` (`Err "ValueError"` ...).
The Python version (3.8 .. 3.13, `pyver`) and the tables of the `opcode`/`dis` modules
(`optable`) are *parameters*: unless a theorem names `T311`, it holds for every version and
for every table that satisfies the decidable predicate `wf_optable` (`OpTable.v`), which
is shown to hold for the real CPython 3.11 table (`Table311.v`, data of the standard
library's `opcode.py`) and for the excerpts of `TablesEx.v`.

What CPython does with the produced bytes (EXTENDED_ARG accumulation, lnotab, 3.10
linetable, 3.11 location table, exception table) is written down as small independent readers
in `CPy.v` and `S_*.v`.  They are specification and use nothing of the model but its data
types.

Layout of `rocq/theories`:

| files | contents |
|---|---|
| `PyBase`, `OpTable`, `Table311`, `TablesEx` | exceptions, lists, versions, opcode tables |
| `M_*` | the model; each definition cites file and lines in /repo and says what it simplifies |
| `CPy`, `CPyEffect`, `S_*` | specification: CPython's readers, meaning of programs, of arguments, of graphs |
| `P_*` | proofs |
| `T_*` | property theorems `Cnn_...` (short proofs, `Print Assumptions`), non-vacuity examples `Cnn_ex...` |

`tools/` holds the scripts that regenerate `properties.jsonl` (`props.py`) and `MANIFEST.json`
(`manifest.py`, `notes.json`), and the seeding harness (`seed.py`, `seedlog.py`).

Naming: `_partial` = part of the English property (the note in MANIFEST.json says what is
missing), `_refuted` = a machine-checked proof that the English property, or a part of it, is
false of the code.

## 2. Trusted base

* Coq's kernel including `vm_compute`.
* Axioms: none.  `Print Assumptions` stands under every property theorem and prints "Closed
  under the global context".  (`coqchk`/`vcheck` also list seven constants of the
  libraries *loaded* through `Lia` / `ZifyBool` / ssreflect, such as `ssr.ssrunder.Under_rel`;
  no theorem depends on them.)
* No functor, module type, `Declare Module`, section-less `Variable`, `Admitted`, plugin or
  switched-off check.
* The reading of the Python code in the comments of `M_*`, in particular:
  * Python integers are `Z`, lists are Coq lists, objects with identity (labels, TryBegin,
    blocks) are natural numbers; an attribute that may be missing is `OUnset`.
  * values of constants are the type `pyobj`; `const_key` is an argument `keq` of the
    assembler ("the two constants have the same key"), about which the theorems assume only what
    they state (`sound_key`: equal keys only for equal constants; for equality: an
    equivalence).  `keq0` is an instance.
  * each instruction object occurs once in a list (the Python code stores updated lines in
    the object; an object used twice would be updated twice).
  * `dis.stack_effect` is an argument `se` of the stack size computation; theorems about
    CPython 3.11 use the table in `CPyEffect.v` (net effects of 110 opcodes compared with
    `dis.stack_effect` of CPython 3.11.10; number of items needed read by hand from ceval.c).
  * recursion by generators (`_StackSizeComputer.run`) is a recursive function with fuel;
    C32 shows the fuel used is always enough, so it is not a bound.
* `CPy.v`, `CPyEffect.v` and `S_*.v` as descriptions of CPython and of the English property.

## 3. What is modelled and what is not

Modelled:

* `instr.py`: `InstrLocation`, `SetLineno`, `BaseInstr`/`Instr` (all constructors, setters,
  argument checks, jump classification, `copy`, `stack_effect`, `pre_and_post_stack_effect` with its two
  tables), `Compare`/`BinaryOp`/intrinsics as names, `opcode_has_argument`, `TryBegin`, `TryEnd`.
* `concrete.py`: `ConcreteInstr`, `ExceptionTableEntry`, `from_code`, `_normalize_lineno`, `_assemble_code`,
  `_assemble_lnotab`, `_assemble_linestable`, `_assemble_locations` with all helpers, `_remove_extended_args`,
  varints, exception table reader and writer, `to_code`, `to_bytecode`,
  `_ConvertBytecodeToConcrete` (all of it), `_set_docstring`, iteration checks, copies.
* `bytecode.py`: `Bytecode` iteration, slices, `copy`, `legalize`, `_copy_attr_from`, `_InstrList._flat` and `==`, `to_code`.
* `cfg.py`: `BasicBlock` (iteration, `get_jump`, `legalize`, ...), `ControlFlowGraph`
  (`add_block`, `del`, `split_block`, `get_dead_blocks`, `legalize`, `from_bytecode`,
  `to_bytecode`, `compute_stacksize` with `_StackSizeComputer`, `to_code`).
* `flags.py`: `CompilerFlags`, `infer_flags` for the list classes and for graphs, `update_flags`.
* `utils.py`/`__init__.py`: `format_bytecode`, `dump_bytecode` (`M_Format`; `repr()` of a value is abstract).

Elements of lists are values in all files but `M_Objects`, where they are references to objects
(`legalize()`, the one operation that writes into elements of a list, C72). The lists of names and constants
that objects hold are values in all files but `M_Alias`, where they are references (which objects share
a list, C79).

Not modelled: `__repr__`, typing overloads, exception *messages* (only the exception class),
`types.CodeType`'s own validation, weird values whose `__eq__`/`__hash__` misbehave, memory and recursion limits,
subclasses written by the user.
`const_key` is an abstract relation on constants that is supposed to be an equivalence
(`sound_key`): it is the equality of `marshal.dumps` (of type and identity where that fails), whose bytes may
differ for equal values with other reference counts.

## 4. Per property plan

Status is in MANIFEST.json.  "Refuted" in the last column names the machine-checked
counterexample; then the theorem with `_partial` states the largest part that was proved.

| id | modelled by | proof | false parts found |
|---|---|---|---|
| C01 size = encoded length | `new_cinstr`, `assemble` | arithmetic on base-256 digits | |
| C02 encoded instruction decodes | + `CPy.executed` | induction on digits | |
| C03 code string round trip | `from_code`, `to_code_raw` | induction on units, all versions | EXTENDED_ARG before NOP |
| C04 forced EXTENDED_ARG | `new_cinstr` | case analysis | forced count too small |
| C05 validity under mutation | `instr_step`, `cinstr_step` | invariant over histories | |
| C06 accepted arguments | `instr_check_arg` vs `S_Args` | case analysis over opcode classes | |
| C07/C08 locations | `new_location`, `set_lineno` | case analysis | |
| C09/C10 exception table | `encode_varint`, `parse_*` | strong induction, framing lemma | |
| C11 lnotab | `assemble_lnotab`, `CPy.addr2line` | induction on entries | |
| C12 3.10 line table | `assemble_linestable`, `CPy.linetable_line` | induction | "no line" spans |
| C13 3.11 positions | `assemble_locations`, `CPy.co_positions` | per-form lemmas, induction | |
| C14 inherited lines | `normalize_lineno`, `conv_item` | induction | 3.11+ concrete |
| C15 labels resolve | `to_concrete` | fixpoint of `jump_pass` = all arguments right | |
| C16 convergence | `to_concrete` | measure: sizes only grow | default 10 passes can fail |
| C17 minimal sizes | `to_concrete` | least fixed point | |
| C18 arguments survive, C19 tables, C45, C46 | `encode_arg`, `fix_vars` vs `S_Slots` | trace invariant of the conversion | |
| C20 caches | `flush_caches` | induction | explicit CACHE |
| C21 try ranges | `fix_entry` | ranges of positions to offsets | empty try |
| C22 disassembly, C49 coverage shown | `to_bytecode` vs `S_Dis` | trace of the loop | prune_caches=False; range starting inside an instruction |
| C23 assemble then disassemble | `to_concrete`, `to_bytecode` | C15, C18, C21 with C22, C49 | wide first instruction of a try; label at the end |
| C24-C26 graph edits, dead blocks | `M_Cfg` | invariants over histories; closure of reachability | del cfg[-1]; successor of split; fall-through |
| C27-C29 CFG from/to Bytecode | `from_bytecode`, `cfg_to_bytecode` | simulation of both loops | mixed stack depths |
| C30-C33 stack size | `compute_stacksize` vs machine of `S_Stack` | invariant of the traversal (see section 5) | empty block; jump into a try; missing needs |
| C34 pre/post effects | `pre_and_post` | enumeration of names with symbolic arguments | |
| C35/C36 legalize | `M_Bytecode`, `M_Cfg` | induction | detailed location after SetLineno |
| C37-C40 flags | `M_Flags` vs `S_Flags` | fold invariant, bit lemmas | RESUME, FUTURE_ANNOTATIONS, 3.13 cells |
| C41 equality | `flat`, `bytecode_eq` | label numbering is canonical | |
| C42 metadata, C43 argnames | all conversions | induction on chains | unset docstring; positional-only |
| C44 iteration rejects nesting | `iterate` | induction | |
| C47 pairs on 3.13 | `encode_arg` | arithmetic | local number 16; cell in a pair |
| C48 copies | `*_copy` | case analysis | extended_args, exception table |

Properties added later are described in section 5.

## 5. Additions

(see the end of properties.jsonl; each new id is listed here with its plan)

* C50 the code object made by `to_concrete_bytecode()` and the raw writer, read as CPython reads it
  (`S_Code`: a reader of instructions, jumps, tables, locations and exception table written from
  CPython, independent of the model), is the program of the Bytecode.
* C51 the same for `to_code()` of the three classes under all options (`M_Full`): the trips through
  a control flow graph and back keep the program.
* C52 `Bytecode.from_code` of a code object of a compiler (record `as_compiled` in `S_Code`) shows
  the program the interpreter runs, and can be written again.  `as_compiled` was evaluated on the
  68642 code objects compiled from the standard library of CPython 3.11: all satisfy it.
* C53 C52 and C51 together: `from_code` then `to_code`.
* C30, C31, C33, second version.  `regular` (S_Stack.v) asks that each block is always entered with
  one depth (as CPython's compiler asks), that along the ways that enter no block twice try blocks
  are not nested and the stack does not fall below the depth of the handler, and that every handler
  has one TryBegin that shows its depth (the stack falls to it in the block of the TryBegin, and a
  TryEnd of it is reached from there through blocks that are entered in no other way).  How the
  proof goes: a visit of a block with the depth control really has there is "low"; visits with
  greater depths (made because of greater minima) change nothing for the low ones; every low visit
  analyses all ways on from it; the handler of a TryBegin that shows is visited low (`P_StackL`).
  The conditions were evaluated (with the extracted model) on the 4153 code objects of the standard
  library of CPython 3.11 that have exception tables: 4136 satisfy all of them; 7 have a TryEnd
  after a final instruction with no try block open, 10 have a handler without a showing TryBegin.
  Exceptions are raised where the dynamic try block is open and, besides, wherever a relation
  `cover` over places says so; the theorems hold for every such relation.
* C54 the stack of the code object.  `S_Run.v` has a machine (`cstep`) that executes the instructions
  of a code object as `S_Code` reads them and counts the items on the stack with dis.stack_effect();
  an exception may be raised by any code unit and goes to the handler `find_handler` finds in
  co_exceptiontable, unwinding to the depth that stands there.  `P_Run` shows that this machine and
  the one over the graph (`S_Stack`) follow each other instruction by instruction, so that C30 and
  C33 carry over; `P_Run2` that the depth in the table is that of the graph.  What is supposed about
  dis.stack_effect() (`only_numbers`, `adds_up`) is proved for 3.11 in `P_Effect2`.
* C55 `effect_real` in `P_Run`: stack_effect() asks dis.stack_effect() with 0 or 1 in place of the
  real argument when that refers to something; with `only_numbers` the answer is the same.
* C56 `S_Total` says which programs are well formed; `P_Total`..`P_Total4` show that no step of the
  assembler raises on them: operands fit 32 bits (the program has at most 10^6 instructions), fixups
  keep the direction of relative jumps, and the number of passes is bounded by C16's argument (each
  pass but the last grows an operand, and an operand grows at most three times).
* C57 `P_Total5`: the graph made from a proper list is `complete`; the computation of the stack size
  returns exactly without underflow (C31); it leaves no TryBegin without a depth, so that going back to
  a list cannot fail (`to_ok`); the list is well formed again, and C56 applies.
* C58 `P_Total6`, `P_Total7`: reading cannot fail (C03, C07), every argument decodes to one that Instr()
  accepts (`reads_shown`, `reads_doc`), jumps and handlers go to instruction starts (groups of `P_From`),
  so C22's totality applies; what comes out is `buildable`, and C56 gives the way back.
* C52, C53, C58 before 3.11.  `S_Old` says what code objects are there: the interpreter finds the line
  of a byte with lnotab (`addr2line`, before 3.10) or the 3.10 table (`linetable_line`), dis finds where
  lines start (`findlinestarts`, `co_lines`).  `P_Old`: the lines from_code() takes from the starts are
  the lines of the interpreter (`starts_lines`, `lines_lines`).  `P_Old2`..`P_Old4` repeat the proof for
  3.11 without exception table and inline caches; `shown_writable` in `P_From2` serves both.
* C59, C60, C61.  `M_Equal` models _get_instructions, `__eq__` of graphs and ConcreteBytecodes and the
  `!=` that Python takes (object.__ne__ for graphs, list.__ne__ for the two list classes: it comes before
  object's in the method resolution order).  `S_Equal` says when two graphs have the same elements or the
  same blocks: jumps and handlers go to blocks at the same place and the TryBegins correspond one to
  one.  `==` also calls compute_stacksize(), which writes depths: the graphs after the comparison are part
  of the result.  The two operands are supposed to share no block.
* C37-C40 for graphs.  `M_FlagsG`: infer_flags sees what _get_instructions makes (`M_Equal`), TryBegins
  and TryEnds are tuples there.  `P_FlagsG`: inference on the graph is inference on the elements one after
  the other (`graph_bytecode`), so that the theorems for Bytecode carry over; with a try block it fails
  (`graph_try`).
* C62.  `S_Flow` lists, per version, the instructions of CPython that may jump, how their target is told,
  and those after which the next instruction never runs.  The hypotheses `flow_table`, `names_of` say that the
  opcode table lists these jumps; checked for the tables at hand.
- C63: `PyText` (decimal notation, padding, slices of strings), `M_Format` (format_bytecode, function by function, repr() abstract, the StringIO as the list of the strings written), `S_Format` (what a line shows), proofs by induction on the elements with an invariant on cur_lineno, prev_lineno, indent and try_begins (`P_Format`, `P_Format2`), `T_Format`.
- C34, all versions: `S_Effect` gives what each instruction of CPython 3.8 to 3.13 needs and leaves (written from ceval.c, compile.c and bytecodes.c; only 3.11 could be compared with a running interpreter); `T_Effect` proves the entries of /repo against it, by cases on the table with symbolic arguments (`P_Effect3`).
- C64: `CPySearch` is the byte-level search of CPython 3.11+ (get_exception_handler, with its pointer arithmetic on positions, fuel for the loops and `None` for reading outside of the table or not ending); `P_Search` proves by induction on the entries between the two pointers that it finds what the linear reading `find_handler` of C50 finds, given the framing (C10), the order of the entries (`P_Search2.entries_apart`) and that no entry takes more than twenty bytes.
- C65: the equations of `M_Full` are followed through the three `to_code` functions; the only obstacle is the recomputation on 3.11+.
- C66: `S_Steady` states the two conditions on the placement of locations; `P_Steady` shows that `to_bytecode`/`to_concrete` relate element by element (`sames`) two lists that differ only by resolved locations, `P_Steady2`-`P_Steady4` lift this to the assembled program, the graph and the three `legalize`.
- C67: `infer_flags` on its own result; cases over the flag bits.
- C68: unfolding of `to_code` for a ConcreteBytecode with both conditions.
- C69: `P_Only` shows that the conversion to concrete form (`run`) is a function of the labels-free listing (`canon1`, `jumps_same`): labels are compared by the instruction they precede; `P_Only2` lifts this to `to_concrete`; the options and the graph are handled by C51's lemmas (`through_ok`, `back_ok`).
- C70: C23 gives the same located program; `P_Only2.to_concrete_only` (C69) says that the concrete form is a function of it; `P_Again` shows that a docstring that is the first constant anyway makes no difference.
- C71: `P_CfgTo4` carries, beside the invariant of C28, the map from the TryBegin of the graph to the new ones and a relation between their depths, closed under the merge step; the two theorems are two instances of the relation.
- C72: `M_Objects` is `legalize()` on references into a store of objects; `P_Objects` proves by induction that with distinct instruction objects it computes what `M_Bytecode`/`M_Cfg` compute on values; a frame lemma gives the rest.
- C73: `P_DisDepth` replays the walk of C22/C49 over the disassembled list with the depth of the open TryBegin as state; `code_depths` (of C54) is the assembling direction; C71_computed_kept for graphs.
- C74: the bytes decode to the instructions by C04/C05 (per instruction, `P_Written`), the location table by the round trip of C12/C13, EXTENDED_ARG removal by counting; C75 composes C74, a renaming lemma (`moved_bytecode`: to_bytecode commutes with a change of locations) and C23. Before 3.11 (`P_Written3`): the code is normal (spelled out from the instructions), the line table is bytes and gives by C11/C12 the line in force for every byte, so the code object is `as_compiled_before` and `old_facts` (C52 before 3.11) says what is read; the bytes determine the instructions.
- C76: `reread` (what is shown of the code object is what is shown of the concrete bytecode, with the locations that are recorded, by C74 and `moved_bytecode`), P_Moved (`to_concrete_own`: the assembler passes locations through, so a list with moved locations is assembled to the same instructions with moved locations; `raw_moved`: the location table of the recorded locations is that of the locations, if different ones are recorded differently), `again_setup` and `to_concrete_only` (C70, C69), `assembled_shown_proper` (labels and try blocks of what is shown). T_Stable2 does the same before 3.11, where the line tables depend on the lines only (`raw_line`) and code has no qualified name (`requal`: the assembler does not read it).
- C77: M_Atomic gives del, split_block and compute_stacksize with the graph left behind when they raise; `C77_same_*` prove that they return what M_Cfg and M_Stack return. compute: invariant `keyed` (the start sizes of handlers are not negative and every handler has one) through `run`, so that the writing of depths, the only part that changes the graph, cannot fail.
- C78: `graph_program` reads the program off the blocks (S_List). P_List: the list with labels that used_blocks and the labels give (`gl`), its walk is `shown` (invariant: the open try block, the ones already ended), then `to_all` of P_CfgTo as for C28. P_List2: from_bytecode and split_block keep `listable`. P_List3: removal moves the places (`moved`), addition appends.
- C79: M_Alias has objects whose attributes are numbers of lists in a store. Ghost: the family of each object (a copy is in the family of its original). Invariant: two slots with the same list are the same attribute of objects of one family and class, and shared by copies; each new object has either fresh lists or those of an object of its family (`pushed`).
- C80: `same_program` (C41) is equality of `program` for legal instructions with plain ints (P_Same: for each category of opcodes, Python's == on its arguments is identity); then C69.
