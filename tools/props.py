#!/usr/bin/env python3
"""Writes /verif/properties.jsonl (kept as a script so the text stays reviewable)."""
import json
P=[]
def p(title, statement, quantifier, why, anchors):
    P.append(dict(id="C%02d"%(len(P)+1), title=title, statement=statement, quantifier=quantifier, why_tests_cant=why, anchors=anchors))
C="src/bytecode/concrete.py"; I="src/bytecode/instr.py"; B="src/bytecode/bytecode.py"; G="src/bytecode/cfg.py"; F="src/bytecode/flags.py"
p("Encoded length equals size","For a ConcreteInstr created without explicit extended_args, len(instr.assemble()) == instr.size, and that size is the minimal one (2 bytes plus 2 per extra base-256 digit of the argument).","every opcode and every argument 0..2147483647 (and no argument)","2^31 arguments per opcode; tests try a handful around 255/256",[f"{C}:ConcreteInstr._set",f"{C}:ConcreteInstr.assemble",f"{C}:ConcreteInstr.size"])
p("Encoded instruction decodes to itself","Reading the bytes of instr.assemble() with CPython's EXTENDED_ARG accumulation yields exactly one instruction with the same opcode and argument, preceded only by EXTENDED_ARG units.","every opcode, argument 0..2147483647 and forced extended_args count","unbounded arguments and padding counts",[f"{C}:ConcreteInstr.assemble"])
p("Code string round trip","ConcreteBytecode.from_code(code), with or without folding EXTENDED_ARG, reassembled without recomputation, gives back the original co_code byte for byte.","every even-length byte string whose opcodes are known, whose argument-less opcodes carry a 0 byte and whose folded arguments are in range; every Python version","arbitrary byte strings and EXTENDED_ARG chains, including redundant zero ones",[f"{C}:ConcreteBytecode.from_code",f"{C}:ConcreteBytecode._remove_extended_args",f"{C}:ConcreteBytecode._assemble_code",f"{C}:ConcreteInstr.disassemble"])
p("Forced EXTENDED_ARG count is consistent","For every ConcreteInstr, whatever extended_args it was created with, instr.size is the number of bytes instr.assemble() produces.","every instruction, argument and extended_args value","interaction between an arbitrary argument, later argument edits and the remembered prefix count",[f"{C}:ConcreteInstr.__init__",f"{C}:ConcreteInstr._set",f"{C}:ConcreteInstr.assemble"])
p("Instructions stay valid under mutation","After any sequence of set(), .name=, .opcode=, .arg= on an Instr or ConcreteInstr, name and opcode correspond, the argument is legal for the opcode and (concrete) size matches; an operation that raises leaves the instruction unchanged.","every history of mutations with arbitrary values","unbounded operation histories",[f"{I}:BaseInstr._set",f"{I}:BaseInstr.set",f"{I}:BaseInstr.name",f"{I}:BaseInstr.opcode",f"{I}:BaseInstr.arg",f"{C}:ConcreteInstr._check_arg"])
p("Instr accepts exactly the documented arguments","Instr(name, arg) succeeds if and only if name is a base opcode other than EXTENDED_ARG and arg is of the kind documented for the opcode's category (Label/BasicBlock for jumps, CellVar/FreeVar, str, tuples, Compare, non-label constants, int in range, nothing).","every opcode name and every argument object, every supported Python version","product of all opcodes and all Python values",[f"{I}:Instr._check_arg",f"{I}:BaseInstr._set"])
p("InstrLocation accepts exactly coherent locations","InstrLocation(l, el, c, ec) succeeds iff all given values are in range, an end line comes with a not larger line, columns come in pairs with both lines, and on one line the columns are ordered.","every quadruple of optional integers","infinite domain",[f"{I}:InstrLocation.__init__",f"{I}:_check_location"])
p("Line setter never drops detail","Setting instr.lineno succeeds only when the instruction has no end line and no columns, then lineno reads back the assigned value; otherwise it raises and the location is unchanged.","every location and every assigned line","infinite domain and histories",[f"{I}:BaseInstr.lineno",f"{I}:BaseInstr.location"])
p("Exception-table varints round trip and are framed","Encoding any non-negative integer then parsing returns it and consumes exactly its bytes; only the first byte of an entry's start value has bit 7 set, all other bytes are below 128.","every integer >= 0 and every following byte stream","infinite domain; parsing depends on what follows",[f"{C}:ConcreteBytecode._encode_varint",f"{C}:ConcreteBytecode._parse_varint"])
p("Exception table round trip","Parsing the bytes assembled from an exception table returns the same entries in the same order (start, inclusive stop, target, depth, lasti); assembly fails only for negative fields or ranges.","every list of entries of any length","unbounded tables",[f"{C}:ConcreteBytecode._assemble_exception_table",f"{C}:ConcreteBytecode._parse_exception_table"])
p("Line table 3.8/3.9 (lnotab)","CPython's lnotab reader applied to the assembled table gives every instruction the line number it has in the bytecode.","every sequence of instruction sizes and line numbers, every first line","arbitrary jumps forwards and backwards in lines and long runs",[f"{C}:ConcreteBytecode._assemble_lnotab"])
p("Line table 3.10 (linetable)","CPython's 3.10 co_lines reader applied to the assembled table gives every instruction its line number, including 'no line'.","every sequence of instruction sizes and optional line numbers","runs longer than 254 bytes and None/line alternations are unbounded",[f"{C}:ConcreteBytecode._assemble_linestable",f"{C}:ConcreteBytecode._pack_linetable"])
p("Location table 3.11+","CPython's location-table reader applied to the assembled table gives every code unit of every instruction its exact (line, end line, column, end column).","every sequence of instruction sizes and valid locations","four variable-width encodings, 8-unit splitting and delta lines interact",[f"{C}:ConcreteBytecode._assemble_locations",f"{C}:ConcreteBytecode._push_locations",f"{C}:ConcreteBytecode._pack_location",f"{C}:ConcreteBytecode._encode_location_varint",f"{C}:ConcreteBytecode._encode_location_svarint"])
p("Inherited line numbers","In a ConcreteBytecode each instruction without a line number takes the line of the closest preceding instruction or SetLineno that has one (else first_lineno), and that is the line recorded in the code object.","every mix of SetLineno, located and unlocated instructions, every Python version","histories of inheritance",[f"{C}:ConcreteBytecode._normalize_lineno",f"{C}:ConcreteBytecode._assemble_code",f"{C}:ConcreteBytecode._assemble_locations"])
p("Labels resolve to the right offset","When Bytecode.to_concrete_bytecode() returns, the target of every jump, computed from its final argument, size and caches, is the final offset of the instruction following its Label.","every bytecode, including those whose jumps need EXTENDED_ARG, absolute/forward/backward jumps, offsets in bytes or instructions","changing one argument's width moves all other targets; fixpoint over arbitrary layouts",[f"{C}:_ConvertBytecodeToConcrete.compute_jumps",f"{C}:ConcreteInstr.get_jump_target"])
p("Jump computation converges","Sizes only grow from pass to pass, so with compute_jumps_passes larger than three times the number of jumps to_concrete_bytecode() never raises 'failed to converge'; the default of 10 passes is not always enough.","every bytecode","no finite set of layouts bounds the number of passes",[f"{C}:_ConvertBytecodeToConcrete.compute_jumps",f"{C}:_ConvertBytecodeToConcrete.to_concrete_bytecode"])
p("Jump encoding is the smallest consistent one","The sizes chosen for the jumps are pointwise minimal among all size assignments under which every jump argument fits its own size.","every bytecode","quantifies over all alternative layouts",[f"{C}:_ConvertBytecodeToConcrete.compute_jumps"])
p("Arguments survive assembly","Each abstract argument (constant, local, name with flag bits, cell/free variable, comparison, intrinsic, plain int) is turned into an index that the disassembler maps back to the same argument.","every bytecode, every table size, all Python versions","index tables grow with the program and are shared between all instructions",[f"{C}:_ConvertBytecodeToConcrete.concrete_instructions",f"{C}:ConcreteBytecode.to_bytecode"])
p("Name and constant tables are minimal and ordered","co_consts/co_names/co_varnames produced by assembly contain each key once, in order of first use, with the docstring as first constant and the argument names as first local names.","every bytecode","depends on the whole history of additions",[f"{C}:_ConvertBytecodeToConcrete.add_const",f"{C}:_ConvertBytecodeToConcrete.add",f"{C}:_ConvertBytecodeToConcrete.to_concrete_bytecode"])
p("Inline caches","After assembly every instruction is followed by exactly the number of CACHE entries its opcode requires, at its location, whether they were pruned or written explicitly; a wrong number of explicit CACHE raises.","every bytecode with or without explicit CACHE instructions (3.11+)","arbitrary interleavings with labels and pseudo instructions",[f"{C}:_ConvertBytecodeToConcrete.concrete_instructions",f"{C}:ConcreteInstr.use_cache_opcodes"])
p("Try ranges become exception-table ranges","After assembly the exception table has one entry per TryBegin, in order, and its inclusive offset range contains exactly the instructions (with caches) lying between that TryBegin and its TryEnd; its target is the offset of the handler label; depth and lasti are kept.","every bytecode with properly paired TryBegin/TryEnd","offsets depend on the widths of all instructions",[f"{C}:_ConvertBytecodeToConcrete.concrete_instructions",f"{C}:_ConvertBytecodeToConcrete.compute_jumps"])
p("Disassembly places labels at jump targets","ConcreteBytecode.to_bytecode() keeps the instructions in order and turns every jump into a jump to a Label standing immediately before the instruction at the target offset.","every concrete bytecode whose jump targets are instruction starts","arbitrary control flow",[f"{C}:ConcreteBytecode.to_bytecode"])
p("Assemble then disassemble is the identity on programs","bytecode.to_concrete_bytecode().to_bytecode() is the same program: same instructions and arguments, every jump to the same instruction, same protected ranges.","every abstract bytecode","whole-program property over arbitrary programs",[f"{C}:_ConvertBytecodeToConcrete",f"{C}:ConcreteBytecode.to_bytecode"])
p("Block index map","At any time cfg.get_block_index(cfg[i]) == i for every i, and blocks not in the graph are rejected.","every history of add_block, del cfg[i], del cfg[block], split_block","unbounded operation histories",[f"{G}:ControlFlowGraph.add_block",f"{G}:ControlFlowGraph.__delitem__",f"{G}:ControlFlowGraph.split_block",f"{G}:ControlFlowGraph.get_block_index"])
p("split_block preserves the program","Splitting a block keeps the concatenated instruction sequence, puts instructions [index:] in the returned block, keeps all other blocks, and keeps the fall-through successor of the split block.","every graph, block and index","arbitrary graphs",[f"{G}:ControlFlowGraph.split_block",f"{G}:BasicBlock.__getitem__"])
p("Dead blocks","get_dead_blocks() returns exactly the blocks that no execution starting at the first block can reach (through jumps, exception handlers or fall-through).","every control flow graph, cyclic or not","reachability over arbitrary graphs",[f"{G}:ControlFlowGraph.get_dead_blocks"])
p("Blocks built from bytecode are well formed","ControlFlowGraph.from_bytecode keeps the instruction sequence, starts with the entry block, puts jumps and final instructions only at block ends, links next_block exactly when control can fall through, points every jump at the block starting at its label, and never begins a block with two TryEnd of the same try block.","every bytecode","arbitrary label and jump placement",[f"{G}:ControlFlowGraph.from_bytecode"])
p("CFG round trip","ControlFlowGraph.from_bytecode(b).to_bytecode() has the same instructions in the same order and every jump goes to the same instruction as in b.","every bytecode","whole-program property",[f"{G}:ControlFlowGraph.from_bytecode",f"{G}:ControlFlowGraph.to_bytecode"])
p("CFG round trip keeps exception coverage","After ControlFlowGraph.from_bytecode(b).to_bytecode() every instruction is protected by the same handler with the same push_lasti as in b.","every bytecode with paired TryBegin/TryEnd","splitting and re-fusing of ranges depends on arbitrary control flow",[f"{G}:ControlFlowGraph.from_bytecode",f"{G}:ControlFlowGraph.to_bytecode"])
p("Computed stack size is sufficient","compute_stacksize() is at least the stack depth reached on every path through the graph.","every path (unbounded length, loops) of every graph whose blocks are entered with consistent depths","infinitely many paths",[f"{G}:ControlFlowGraph.compute_stacksize",f"{G}:_StackSizeComputer.run"])
p("Stack underflow is reported","If some path executes an instruction with fewer items on the stack than it needs, compute_stacksize() raises RuntimeError; if it returns, no analysed path underflows.","every path of every graph","infinitely many paths",[f"{G}:_update_size",f"{G}:_StackSizeComputer.run"])
p("Stack size computation terminates","compute_stacksize() terminates on every graph, including cyclic and irreducible ones, with nesting of block visits at most the number of blocks plus one.","every graph","termination is not testable",[f"{G}:ControlFlowGraph.compute_stacksize",f"{G}:_StackSizeComputer.run"])
p("Handler depth is safe","The stack depth stored in each analysed TryBegin is a depth available at every analysed point of its protected range.","every graph with exception handling (3.11+)","minimum over infinitely many paths",[f"{G}:_StackSizeComputer._compute_exception_handler_stack_usage",f"{G}:ControlFlowGraph.compute_stacksize"])
p("Pre and post stack effects add up","For every instruction the pair returned by pre_and_post_stack_effect() sums to stack_effect() and its first component is not positive where the instruction only consumes.","every opcode with a special entry and every argument","arguments are unbounded",[f"{I}:BaseInstr.pre_and_post_stack_effect",f"{I}:STATIC_STACK_EFFECTS",f"{I}:DYNAMIC_STACK_EFFECTS"])
p("legalize() on instruction lists","Bytecode/ConcreteBytecode.legalize() removes every SetLineno, keeps all other elements in order, and gives each instruction the line of the last SetLineno before it, or else its own, or else the inherited one.","every instruction list","histories of line inheritance",[f"{B}:_BaseBytecodeList.legalize"])
p("legalize() on control flow graphs","ControlFlowGraph.legalize() removes every SetLineno from every block, keeps other elements, and the line current at the end of a block is inherited by the next.","every graph","histories",[f"{G}:ControlFlowGraph.legalize",f"{G}:BasicBlock.legalize"])
p("Flag inference never makes async code sync","update_flags()/infer_flags with is_async None or True keeps async code async; with is_async=False it either raises or returns flags without any async kind.","every instruction sequence, previous flags and is_async","all flag combinations times all instruction sequences",[f"{F}:infer_flags"])
p("Flag inference yields one kind of code","The inferred flags contain at most one of GENERATOR, COROUTINE, ASYNC_GENERATOR, ITERABLE_COROUTINE, determined by previous flags and the presence of yield/async opcodes as documented.","every instruction sequence, previous flags and is_async","all combinations",[f"{F}:infer_flags"])
p("Flag inference keeps flags it cannot infer","infer_flags keeps NEWLOCALS, VARARGS, VARKEYWORDS, NESTED and the FUTURE_* flags exactly as they were.","every previous flags value","all flag words",[f"{F}:infer_flags"])
p("OPTIMIZED and NOFREE","Inferred OPTIMIZED is set iff no *_NAME opcode is used; inferred NOFREE is set iff no cell or free variable is used.","every instruction sequence, all three bytecode classes","arbitrary sequences",[f"{F}:infer_flags"])
p("Bytecode equality is structural","Comparing two Bytecode (their instruction content) is an equivalence, does not depend on which Label/TryBegin objects are used, and equal bytecodes have the same instructions, jump targets and protected ranges.","every pair of bytecodes","quantifies over all renamings",[f"{B}:_InstrList._flat",f"{B}:_InstrList.__eq__"])
p("Metadata survives conversions","name, qualname, filename, first line, argument counts, flags, cellvars, freevars and docstring are unchanged by every conversion between Bytecode, ConcreteBytecode and ControlFlowGraph.","every object and every chain of conversions","unbounded chains",[f"{B}:BaseBytecode._copy_attr_from",f"{C}:ConcreteBytecode.to_bytecode",f"{G}:ControlFlowGraph.from_bytecode",f"{G}:ControlFlowGraph.to_bytecode"])
p("argnames are the parameters","Bytecode.from_code(code).argnames are exactly the names of the function's parameters in order.","every code object","all signatures",[f"{C}:ConcreteBytecode.to_bytecode"])
p("Nested try blocks are rejected","Iterating a Bytecode raises RuntimeError exactly when a TryBegin occurs before the previous TryBegin was closed by a TryEnd, otherwise it yields all elements in order.","every element sequence","arbitrary sequences",[f"{B}:Bytecode.__iter__"])
p("Cell and free variable numbering","Cell and free variable arguments get the index CPython uses in its combined locals array (cells sharing a local's slot when names coincide on 3.11+).","every set of local, cell and free names","all overlaps of three name lists",[f"{C}:_ConvertBytecodeToConcrete.concrete_instructions",f"{C}:ConcreteBytecode.to_bytecode"])
p("Comparison operands","Every Compare member is encoded with the version's mask and cast bits and decodes to the same member.","every member, every Python version","finite but spans six interpreter versions that cannot run together",[f"{I}:Compare._get_mask",f"{C}:_ConvertBytecodeToConcrete.concrete_instructions",f"{C}:ConcreteBytecode.to_bytecode"])
p("Paired local instructions (3.13)","LOAD_FAST_LOAD_FAST and its relatives assemble to code accessing exactly the two given locals, whatever their indices.","every pair of local indices","all index pairs",[f"{C}:_ConvertBytecodeToConcrete.concrete_instructions"])
p("Copies are faithful","copy() and full slicing of instructions, bytecodes and blocks give an equal object with the same attributes (including the encoded size of concrete instructions).","every object","infinite domain",[f"{I}:BaseInstr.copy",f"{B}:_BaseBytecodeList.copy",f"{B}:_BaseBytecodeList.__getitem__",f"{G}:BasicBlock.copy"])
p("Disassembly keeps exception coverage","In ConcreteBytecode.to_bytecode(), each instruction is inside a TryBegin/TryEnd range with a given target and push_lasti exactly when an entry of the exception table with that target and push_lasti covers it.","every exception table whose ranges are disjoint, begin at an instruction start and end at an instruction end","arbitrary tables and instruction sizes",[f"{C}:ConcreteBytecode.to_bytecode"])
p("The code object runs the program","The code object made from a Bytecode, read the way the interpreter reads it (EXTENDED_ARG, inline caches, jump offsets, name tables, line table, exception table), executes exactly the instructions of the Bytecode in order: same opcodes and operands, every jump to the right instruction, every byte reporting the right location, every exception going to the handler of the try block around the instruction.","every Bytecode with matched non-empty try blocks, every supported Python version","whole-program property that spans six interpreter versions",[f"{C}:_ConvertBytecodeToConcrete",f"{C}:ConcreteBytecode.to_code",f"{C}:ConcreteBytecode._assemble_code"])
p("to_code() keeps the program under all options","Bytecode.to_code(), ControlFlowGraph.to_code() on a graph made from a Bytecode, and ConcreteBytecode.to_code() produce, for every value of compute_jumps_passes, stacksize, check_pre_and_post and compute_exception_stack_depths for which they return, a code object that runs the program of the Bytecode (C50) and carries its attributes, although these options send it through a control flow graph with inserted and merged try blocks.","every writable Bytecode, every option, every supported version","the detour through the graph rewrites try blocks, labels and jump targets; combinations of options and programs are unbounded",[f"{B}:Bytecode.to_code",f"{G}:ControlFlowGraph.to_code",f"{C}:ConcreteBytecode.to_code"])
p("from_code() shows the program that runs","Bytecode.from_code(code), for a code object as a compiler makes them, shows exactly the program the interpreter runs: the same instructions in order, every jump leading to a Label before the instruction it goes to, the arguments the interpreter reads from the tables of the code object, the source location of every code unit, and around each instruction a try block with the handler and push_lasti the interpreter finds in the exception table, if any; the result can be assembled again.","every code object with whole instructions, jumps to instructions and sorted ranges of whole instructions","unbounded code, tables and control flow",[f"{B}:Bytecode.from_code",f"{C}:ConcreteBytecode.from_code",f"{C}:ConcreteBytecode.to_bytecode",f"{C}:ExceptionTableEntry"])
p("from_code() then to_code() keeps the program","Bytecode.from_code(code).to_code(...), and the same through a ControlFlowGraph, with any options for which it returns, gives a code object that runs the same program as the original one and has the same name, qualname, filename, first line, argument counts, flags, free and cell variables and docstring.","every code object as a compiler makes them, every combination of options","whole-program property over unbounded code objects",[f"{B}:Bytecode.from_code",f"{B}:Bytecode.to_code",f"{G}:ControlFlowGraph.to_code"])
p("The stack of the code object suffices","When the code object made by to_code() runs, the stack never holds more than co_stacksize items (or the number it starts with), an exception unwinds it to a depth it has, and the handler and what follows stay within co_stacksize.","every execution (unbounded, with loops and exceptions at any instruction) of every code object made from a Bytecode","infinitely many executions of infinitely many programs",[f"{B}:Bytecode.to_code",f"{G}:ControlFlowGraph.compute_stacksize",f"{G}:_StackSizeComputer.run",f"{C}:ConcreteBytecode.to_code"])
p("stack_effect() is that of the assembled instruction","Instr.stack_effect(jump) of an instruction is what dis.stack_effect() gives for the opcode and the real argument of the instruction that takes its place in the code object, and raises ValueError for the same instructions, although names, constants, variables and jump targets have no number before assembling.","every instruction of every Bytecode, every argument, every supported version","arguments and programs are unbounded",[f"{I}:BaseInstr.stack_effect",f"{B}:Bytecode.to_code"])
p("Every well-formed program assembles","to_concrete_bytecode() and to_code(stacksize=n) return for every well-formed program (legal instructions, labels that stand in the list, relative jumps in the direction of their name, paired non-empty try blocks with known depths, declared closure variables): no exception except RuntimeError when compute_jumps_passes is smaller than three per jump, and the result runs the program (C50).","every well-formed Bytecode, every supported version, any number of passes","absence of exceptions on an unbounded domain",[f"{C}:_ConvertBytecodeToConcrete.to_concrete_bytecode",f"{C}:ConcreteBytecode.to_code",f"{B}:Bytecode.to_code"])
p("to_code() with its defaults returns, or reports an underflow","Bytecode.to_code() that computes the stack size and the depths of the handlers, on a well-formed program whose blocks are always entered with one stack depth: if an instruction that can be reached can take more items than are on the stack it raises RuntimeError, otherwise it returns a code object that runs the program; it raises nothing else.","every well-formed Bytecode with consistent stack depths, every option that computes the stack size, every supported version","absence of exceptions, and the presence of one, over unbounded programs with loops and handlers",[f"{B}:Bytecode.to_code",f"{G}:ControlFlowGraph.compute_stacksize",f"{G}:ControlFlowGraph.to_bytecode",f"{C}:_ConvertBytecodeToConcrete.to_concrete_bytecode"])
p("from_code() returns for every compiled code object","Bytecode.from_code(code) of every code object a compiler makes (code in normal form, jumps and handlers to instruction starts, coherent positions, arguments inside the tables) returns; the Bytecode it returns is a well-formed program in the sense of C56, so it can be assembled again; with conserve_exception_block_stackdepth=True, to_code(stacksize=n, compute_exception_stack_depths=False) of it returns a code object that runs the same program unless compute_jumps_passes is less than three per jump and one more, and then the only possible exception is RuntimeError.","every code object as a compiler makes them (3.11+ and before), every stack size and number of passes","all code objects; a test runs the code objects at hand",[f"{B}:Bytecode.from_code",f"{C}:ConcreteBytecode.from_code",f"{C}:ConcreteBytecode.to_bytecode",f"{C}:_ConvertBytecodeToConcrete.to_concrete_bytecode"])
p("Graph equality is structural","Two ControlFlowGraphs are equal exactly if they have the same argument names, attributes, stack size and the same blocks with the same instructions, jumps and try blocks, whatever block and TryBegin objects they use; the comparison is reflexive and symmetric and changes neither graph.","every pair of graphs","quantifies over all pairs of graphs and all choices of objects",[f"{G}:ControlFlowGraph._get_instructions",f"{G}:ControlFlowGraph.__eq__",f"{B}:BaseBytecode.__eq__"])
p("ConcreteBytecode equality is structural","Two ConcreteBytecodes are equal exactly if they have the same instructions, exception table, constants, names, local variables, attributes and stack size; the comparison is an equivalence.","every pair of ConcreteBytecodes","infinite domain",[f"{C}:ConcreteBytecode.__eq__",f"{B}:BaseBytecode.__eq__"])
p("!= is the negation of ==","For two graphs, two Bytecodes or two ConcreteBytecodes, a != b gives the negation of a == b.","every pair of objects","infinite domain",[f"{B}:BaseBytecode.__eq__",f"{B}:_InstrList.__eq__",f"{B}:_BaseBytecodeList",f"{G}:ControlFlowGraph.__eq__",f"{C}:ConcreteBytecode.__eq__"])
p("Control flow queries tell the truth","For every instruction: has_jump() says whether it may jump; is_abs_jump(), is_forward_rel_jump() and is_backward_rel_jump() say how the interpreter finds its target; is_uncond_jump() says that it jumps and never goes on to the next instruction; is_cond_jump() that it may do both; is_final() that it never goes on.","every instruction of every supported version","spans six interpreter versions that cannot run together",[f"{I}:BaseInstr.has_jump",f"{I}:BaseInstr.is_cond_jump",f"{I}:BaseInstr.is_uncond_jump",f"{I}:BaseInstr.is_abs_jump",f"{I}:BaseInstr.is_forward_rel_jump",f"{I}:BaseInstr.is_backward_rel_jump",f"{I}:BaseInstr.is_final"])
p("format_bytecode shows the program",
  "format_bytecode(code), lineno=True or not, returns a text with one line for each element of the code, in order: an instruction by its name and argument, a label or a block by its position, a jump and a TryBegin by the label or block they lead to, a TryEnd by the number of its TryBegin, a concrete instruction by its offset; the exception table follows; with lineno=True the line number is shown where it changes. dump_bytecode prints that text.",
  "every Bytecode, ConcreteBytecode and ControlFlowGraph, every repr() of the arguments",
  "Numbering, indentation and the current line are carried along the whole program; tests compare a few fixed texts.",
  ["src/bytecode/__init__.py: format_bytecode, dump_bytecode"])
p("The interpreter's own search finds the handlers",
  "On 3.11 and later, when an exception is raised by any code unit of a code object made by to_code() from a Bytecode (or from a ConcreteBytecode whose exception table is in order and without overlaps), CPython's search - a bisection over the bytes of co_exceptiontable that looks for the marker bit of an entry, then a linear scan of the last forty bytes - ends, stays inside the table, and finds the handler, stack depth and lasti flag of the try block that encloses the instruction, or none if there is none. Numbers are bounded as in CPython: code shorter than 2**31 bytes, handler depths below 2**29.",
  "all programs with any number of try blocks, all code units, all versions from 3.11",
  "the bisection only starts beyond forty bytes of table, and its correctness depends on the order, framing and size of every entry of every table; a few tables cannot settle it",
  ["src/bytecode/concrete.py:ConcreteBytecode._assemble_exception_table","src/bytecode/concrete.py:ConcreteBytecode._encode_varint","src/bytecode/concrete.py:_ConvertBytecodeToConcrete.to_concrete_bytecode","src/bytecode/concrete.py:ConcreteBytecode.to_code"])
p("The stack size of the code object is the one asked for, or the one computed",
  "to_code(stacksize=N) on a Bytecode, a ConcreteBytecode or a ControlFlowGraph writes N as co_stacksize; to_code() without a stacksize writes exactly the number that compute_stacksize() of the same object reports, with the same check_pre_and_post and whatever the other options, and fails when it fails.",
  "all programs, all stack sizes, all option values, all versions",
  "the number goes through several layers (graph, bytecode, concrete bytecode) with options that recompute it or not; which one is written depends on version, options and program",
  ["src/bytecode/concrete.py:ConcreteBytecode.to_code","src/bytecode/bytecode.py:Bytecode.to_code","src/bytecode/cfg.py:ControlFlowGraph.to_code","src/bytecode/bytecode.py:Bytecode.compute_stacksize","src/bytecode/concrete.py:ConcreteBytecode.compute_stacksize"])
p("legalize() keeps the program, and once is enough",
  "Calling legalize() on a Bytecode, ConcreteBytecode or ControlFlowGraph resolves the line-number settings without changing what the object means: the same instructions, arguments, jumps, try blocks and lines are seen before and after, and to_code() gives the same code object; calling legalize() again changes nothing.",
  "all programs, all placements of SetLineno and of located and unlocated instructions, all versions",
  "the rewriting depends on the history of SetLineno and located instructions before each element; the claim quantifies over all of them",
  ["src/bytecode/bytecode.py:_InstrList","src/bytecode/bytecode.py:Bytecode.legalize","src/bytecode/concrete.py:ConcreteBytecode.legalize","src/bytecode/cfg.py:ControlFlowGraph.legalize","src/bytecode/cfg.py:BasicBlock.legalize","src/bytecode/concrete.py:ConcreteBytecode._normalize_lineno"])
p("update_flags() a second time changes nothing",
  "After b.update_flags(is_async=a) has returned, calling b.update_flags() again, with the same is_async or with none, leaves b.flags as it is; the same for a ConcreteBytecode and for a ControlFlowGraph.",
  "all programs, all initial flags, all values of is_async, all versions",
  "the inference reads the flags it wrote the first time; whether the second reading agrees depends on the instructions, the initial flags and is_async together",
  ["src/bytecode/bytecode.py:BaseBytecode.update_flags","src/bytecode/flags.py:infer_flags"])
p("A ConcreteBytecode is written as it stands",
  "ConcreteBytecode.to_code(stacksize=N, compute_exception_stack_depths=False) writes exactly what the object holds: co_code is the concatenation of the assembled instructions, the constant, name and variable tables, the exception table and the attributes are copied as they are, and nothing is dropped, merged or renumbered.",
  "all concrete bytecodes, all stack sizes, all versions",
  "the claim is about every list of concrete instructions and every content of the tables",
  ["src/bytecode/concrete.py:ConcreteBytecode.to_code","src/bytecode/concrete.py:ConcreteBytecode._assemble_code"])
p("The code object depends only on the program",
  "Two programs that say the same thing (same instructions and arguments, jumps to the same instructions, same locations, same attributes) give the same code object, whichever Label objects are used, wherever labels and line marks stand, however the options of to_code() are set and whether a ControlFlowGraph is made in between; only the stack size and the exception table can differ.",
  "all pairs of programs that say the same, all option values, all versions",
  "a relation between the results of two executions on two different inputs; no finite set of pairs settles it",
  ["src/bytecode/concrete.py:_ConvertBytecodeToConcrete","src/bytecode/bytecode.py:Bytecode.to_code","src/bytecode/cfg.py:ControlFlowGraph.to_code","src/bytecode/cfg.py:ControlFlowGraph.from_bytecode","src/bytecode/cfg.py:ControlFlowGraph.to_bytecode"])
p("Assembling what was disassembled gives the same concrete bytecode",
  "If a Bytecode is assembled with to_concrete_bytecode(), the result disassembled with to_bytecode() and the outcome assembled again, the second ConcreteBytecode has the same instructions (arguments, sizes, locations), the same constant, name and variable tables in the same order and the same attributes as the first.",
  "all well-formed programs, all versions",
  "the tables are rebuilt from scratch in the order of first use; equality with the first tables depends on every instruction of the program together",
  ["src/bytecode/concrete.py:ConcreteBytecode.to_bytecode","src/bytecode/concrete.py:_ConvertBytecodeToConcrete","src/bytecode/bytecode.py:Bytecode.to_concrete_bytecode"])
p("Making a list of a graph never deepens a handler",
  "ControlFlowGraph.to_bytecode() joins the pieces of try blocks that touch and have the same handler; the stack depth written for the joined block is no greater than the depth of any of the pieces, so no instruction is protected by a handler that expects more on the stack than the graph says; depths that agree are kept.",
  "all graphs made from a program, with any depths, all versions",
  "the joined depth is computed while walking over the graph from two pieces at a time; any number of pieces may be joined",
  ["src/bytecode/cfg.py:ControlFlowGraph.to_bytecode","src/bytecode/instr.py:TryBegin"])
p("legalize() changes objects, not only the list",
  "legalize() writes lines into the Instr objects of the list. If no Instr object occurs twice in it, every instruction gets its own line, as if the elements were values; lists and graphs that share no Instr object with it stay as they are; legalizing a copy() leaves the original the same program.",
  "all stores of objects, all lists and graphs of references to them, all versions",
  "whether two references meet in one object depends on the whole history of slices, copies and insertions",
  ["src/bytecode/bytecode.py:_BaseBytecodeList.legalize","src/bytecode/bytecode.py:_BaseBytecodeList.copy","src/bytecode/cfg.py:BasicBlock.legalize","src/bytecode/cfg.py:ControlFlowGraph.legalize"])
p("A handler depth that is given or conserved is the one the interpreter uses",
  "With compute_exception_stack_depths=False, an exception raised in a try block unwinds the stack to exactly the stack_depth of its TryBegin; from_code() with conserve_exception_block_stackdepth=True shows for every instruction the depth the interpreter unwinds to; together they keep all depths of a code object. A graph is written with the depths of its TryBegins; a TryBegin without depth is never written.",
  "all programs, code objects and graphs made from programs on 3.11+, all instructions and code units, all options",
  "depths pass through the exception table encoder and decoder and the merging of try blocks, per code unit of every instruction",
  ["src/bytecode/concrete.py:_ConvertBytecodeToConcrete.concrete_instructions","src/bytecode/concrete.py:ConcreteBytecode.to_bytecode","src/bytecode/concrete.py:ConcreteBytecode._assemble_exception_table","src/bytecode/cfg.py:ControlFlowGraph.to_code"])
p("What ConcreteBytecode.to_code() writes, from_code() reads back",
  "ConcreteBytecode.from_code() of the code object that ConcreteBytecode.to_code() produced gives the same concrete instructions in the same order (name, opcode, argument, size, hence the same number of EXTENDED_ARG), each with the location it was written with (its own or the inherited one; of locations the recorded part), the same constants, names, varnames and exception table, and the same attributes. Before 3.11 a code object has of the locations the lines only, no exception table and no qualified name.",
  "all concrete bytecodes whose instructions are legal, have the size of their encoding and are followed by their inline caches, all versions, all opcode tables",
  "two encoders (code units, location table) and their decoders have to agree on every list of instructions, with the EXTENDED_ARG folded away after the locations are given out",
  ["src/bytecode/concrete.py:ConcreteBytecode.to_code","src/bytecode/concrete.py:ConcreteBytecode.from_code","src/bytecode/concrete.py:ConcreteBytecode._pack_linetable","src/bytecode/concrete.py:ConcreteBytecode._assemble_code","src/bytecode/concrete.py:ConcreteBytecode.remove_extended_args"])
p("A program survives its code object",
  "Bytecode.from_code() of the code object to which a Bytecode was assembled gives the same program: the same instructions in order with the same arguments, jumps to the same instructions, the same try blocks with the same handlers, and the locations (of each location the part the location table records; before 3.11 the line).",
  "all Bytecode objects (labels, jumps, try blocks, free and cell variables) as in C23, with coherent locations; all options; all key functions",
  "the whole way from labels to bytes, the location and exception tables, and back again, for every program",
  ["src/bytecode/bytecode.py:Bytecode.from_code","src/bytecode/bytecode.py:Bytecode.to_concrete_bytecode","src/bytecode/concrete.py:ConcreteBytecode.to_code","src/bytecode/concrete.py:ConcreteBytecode.from_code","src/bytecode/concrete.py:ConcreteBytecode.to_bytecode"])
p("Writing what was read back changes nothing",
  "The code object written from a Bytecode, read with Bytecode.from_code() and written again, is the same code object: the same bytes, constants, names and variables in the same order, the same flags, counts, strings and line or location table; only the stack size and (3.11+) the division of the exception table into entries may differ.",
  "all Bytecode objects as in C75 (on 3.11+ those in which different locations are recorded differently), all options of both calls of to_code(), all stack effects",
  "composition of all encoders and decoders; the tables are filled in an order that depends on every argument of the program",
  ["src/bytecode/bytecode.py:Bytecode.from_code","src/bytecode/bytecode.py:Bytecode.to_code","src/bytecode/concrete.py:ConcreteBytecode.to_code","src/bytecode/concrete.py:ConcreteBytecode.from_code","src/bytecode/concrete.py:_ConvertBytecodeToConcrete.to_concrete_bytecode"])
p("A call that raises leaves the object as it was",
  "If a call that changes an object raises, the object is afterwards as before: changing or setting an instruction (abstract or concrete), deleting a block from a graph, splitting a block, computing the stack size; Bytecode.legalize() that raises leaves the list and everything but the lines of its instructions.",
  "all instructions and graphs that the API can make, all arguments for which the call raises, all stack effects",
  "a failure in the middle of an update loop needs inputs that fail only there; every point of failure and every object must be considered",
  ["src/bytecode/instr.py:BaseInstr.set","src/bytecode/cfg.py:ControlFlowGraph.__delitem__","src/bytecode/cfg.py:ControlFlowGraph.split_block","src/bytecode/cfg.py:ControlFlowGraph.compute_stacksize","src/bytecode/bytecode.py:_BaseBytecodeList.legalize"])
p("to_bytecode() writes the blocks of any graph, in order",
  "ControlFlowGraph.to_bytecode() on a graph made in any way writes the instructions and line marks of its blocks in their order, each jump and handler going to the place where its block starts, each instruction under the try block that is open there; so splitting blocks between from_bytecode() and to_bytecode() does not change the program, and removing a block that nothing refers to removes its instructions and nothing else.",
  "all graphs, however made, whose jumps and handlers go to blocks of the graph and whose try blocks are paired; all splits, removals and additions, in any number",
  "the round trip tests start from a list; graphs that were edited in between, and where their jumps go afterwards, are unboundedly many",
  ["src/bytecode/cfg.py:ControlFlowGraph.to_bytecode","src/bytecode/cfg.py:ControlFlowGraph.split_block","src/bytecode/cfg.py:ControlFlowGraph.__delitem__"])
p("Which objects share their lists of names",
  "After any use of constructors, conversions, copies, slices, assignments and in-place changes, a list of names or constants (cellvars, freevars, argnames, consts, names, varnames) that is changed in place changes for its object and for no other object, except that a Bytecode shares argnames, and a ConcreteBytecode consts, names and varnames, with its copies and slices. Graphs share nothing; conversions hand on the names in new lists; assigning a new list changes one object only.",
  "all histories of operations, all numbers of objects, all contents of the lists",
  "aliasing shows only when one object is changed after another was made from it; the pairs of objects and orders of operations are unboundedly many",
  ["src/bytecode/bytecode.py:BaseBytecode._copy_attr_from","src/bytecode/bytecode.py:_BaseBytecodeList.copy","src/bytecode/bytecode.py:Bytecode._copy_attr_from","src/bytecode/concrete.py:ConcreteBytecode._copy_attr_from","src/bytecode/cfg.py:ControlFlowGraph.from_bytecode","src/bytecode/cfg.py:ControlFlowGraph.to_bytecode"])
p("Equal Bytecodes give equal code objects",
  "If two Bytecodes are == and have the same attributes and argument names, the code objects that to_code() makes of them, with any options on either side, agree in everything but the stack size and the exception table, and before 3.11 in everything if the stack sizes are the same; == itself looks at the elements only.",
  "all pairs of Bytecodes of legal instructions whose plain numbers are written as ints, with paired try blocks and no explicit CACHE; all options",
  "quantifies over all pairs of equal programs and all options of the assembler",
  ["src/bytecode/bytecode.py:_InstrList.__eq__","src/bytecode/bytecode.py:Bytecode.to_code","src/bytecode/instr.py:Instr._cmp_key"])

with open("/verif/properties.jsonl","w") as f:
    for q in P: f.write(json.dumps(q)+"\n")
print(len(P))
