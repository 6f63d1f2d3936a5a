{"id": "C01", "title": "Encoded length equals size", "statement": "For a ConcreteInstr created without explicit extended_args, len(instr.assemble()) == instr.size, and that size is the minimal one (2 bytes plus 2 per extra base-256 digit of the argument).", "quantifier": "every opcode and every argument 0..2147483647 (and no argument)", "why_tests_cant": "2^31 arguments per opcode; tests try a handful around 255/256", "anchors": ["src/bytecode/concrete.py:ConcreteInstr._set", "src/bytecode/concrete.py:ConcreteInstr.assemble", "src/bytecode/concrete.py:ConcreteInstr.size"]}
{"id": "C02", "title": "Encoded instruction decodes to itself", "statement": "Reading the bytes of instr.assemble() with CPython's EXTENDED_ARG accumulation yields exactly one instruction with the same opcode and argument, preceded only by EXTENDED_ARG units.", "quantifier": "every opcode, argument 0..2147483647 and forced extended_args count", "why_tests_cant": "unbounded arguments and padding counts", "anchors": ["src/bytecode/concrete.py:ConcreteInstr.assemble"]}
{"id": "C03", "title": "Code string round trip", "statement": "ConcreteBytecode.from_code(code), with or without folding EXTENDED_ARG, reassembled without recomputation, gives back the original co_code byte for byte.", "quantifier": "every even-length byte string whose opcodes are known, whose argument-less opcodes carry a 0 byte and whose folded arguments are in range; every Python version", "why_tests_cant": "arbitrary byte strings and EXTENDED_ARG chains, including redundant zero ones", "anchors": ["src/bytecode/concrete.py:ConcreteBytecode.from_code", "src/bytecode/concrete.py:ConcreteBytecode._remove_extended_args", "src/bytecode/concrete.py:ConcreteBytecode._assemble_code", "src/bytecode/concrete.py:ConcreteInstr.disassemble"]}
{"id": "C04", "title": "Forced EXTENDED_ARG count is consistent", "statement": "For every ConcreteInstr, whatever extended_args it was created with, instr.size is the number of bytes instr.assemble() produces.", "quantifier": "every instruction, argument and extended_args value", "why_tests_cant": "interaction between an arbitrary argument, later argument edits and the remembered prefix count", "anchors": ["src/bytecode/concrete.py:ConcreteInstr.__init__", "src/bytecode/concrete.py:ConcreteInstr._set", "src/bytecode/concrete.py:ConcreteInstr.assemble"]}
{"id": "C05", "title": "Instructions stay valid under mutation", "statement": "After any sequence of set(), .name=, .opcode=, .arg= on an Instr or ConcreteInstr, name and opcode correspond, the argument is legal for the opcode and (concrete) size matches; an operation that raises leaves the instruction unchanged.", "quantifier": "every history of mutations with arbitrary values", "why_tests_cant": "unbounded operation histories", "anchors": ["src/bytecode/instr.py:BaseInstr._set", "src/bytecode/instr.py:BaseInstr.set", "src/bytecode/instr.py:BaseInstr.name", "src/bytecode/instr.py:BaseInstr.opcode", "src/bytecode/instr.py:BaseInstr.arg", "src/bytecode/concrete.py:ConcreteInstr._check_arg"]}
{"id": "C06", "title": "Instr accepts exactly the documented arguments", "statement": "Instr(name, arg) succeeds if and only if name is a base opcode other than EXTENDED_ARG and arg is of the kind documented for the opcode's category (Label/BasicBlock for jumps, CellVar/FreeVar, str, tuples, Compare, non-label constants, int in range, nothing).", "quantifier": "every opcode name and every argument object, every supported Python version", "why_tests_cant": "product of all opcodes and all Python values", "anchors": ["src/bytecode/instr.py:Instr._check_arg", "src/bytecode/instr.py:BaseInstr._set"]}
{"id": "C07", "title": "InstrLocation accepts exactly coherent locations", "statement": "InstrLocation(l, el, c, ec) succeeds iff all given values are in range, an end line comes with a not larger line, columns come in pairs with both lines, and on one line the columns are ordered.", "quantifier": "every quadruple of optional integers", "why_tests_cant": "infinite domain", "anchors": ["src/bytecode/instr.py:InstrLocation.__init__", "src/bytecode/instr.py:_check_location"]}
{"id": "C08", "title": "Line setter never drops detail", "statement": "Setting instr.lineno succeeds only when the instruction has no end line and no columns, then lineno reads back the assigned value; otherwise it raises and the location is unchanged.", "quantifier": "every location and every assigned line", "why_tests_cant": "infinite domain and histories", "anchors": ["src/bytecode/instr.py:BaseInstr.lineno", "src/bytecode/instr.py:BaseInstr.location"]}
{"id": "C09", "title": "Exception-table varints round trip and are framed", "statement": "Encoding any non-negative integer then parsing returns it and consumes exactly its bytes; only the first byte of an entry's start value has bit 7 set, all other bytes are below 128.", "quantifier": "every integer >= 0 and every following byte stream", "why_tests_cant": "infinite domain; parsing depends on what follows", "anchors": ["src/bytecode/concrete.py:ConcreteBytecode._encode_varint", "src/bytecode/concrete.py:ConcreteBytecode._parse_varint"]}
{"id": "C10", "title": "Exception table round trip", "statement": "Parsing the bytes assembled from an exception table returns the same entries in the same order (start, inclusive stop, target, depth, lasti); assembly fails only for negative fields or ranges.", "quantifier": "every list of entries of any length", "why_tests_cant": "unbounded tables", "anchors": ["src/bytecode/concrete.py:ConcreteBytecode._assemble_exception_table", "src/bytecode/concrete.py:ConcreteBytecode._parse_exception_table"]}
{"id": "C11", "title": "Line table 3.8/3.9 (lnotab)", "statement": "CPython's lnotab reader applied to the assembled table gives every instruction the line number it has in the bytecode.", "quantifier": "every sequence of instruction sizes and line numbers, every first line", "why_tests_cant": "arbitrary jumps forwards and backwards in lines and long runs", "anchors": ["src/bytecode/concrete.py:ConcreteBytecode._assemble_lnotab"]}
{"id": "C12", "title": "Line table 3.10 (linetable)", "statement": "CPython's 3.10 co_lines reader applied to the assembled table gives every instruction its line number, including 'no line'.", "quantifier": "every sequence of instruction sizes and optional line numbers", "why_tests_cant": "runs longer than 254 bytes and None/line alternations are unbounded", "anchors": ["src/bytecode/concrete.py:ConcreteBytecode._assemble_linestable", "src/bytecode/concrete.py:ConcreteBytecode._pack_linetable"]}
{"id": "C13", "title": "Location table 3.11+", "statement": "CPython's location-table reader applied to the assembled table gives every code unit of every instruction its exact (line, end line, column, end column).", "quantifier": "every sequence of instruction sizes and valid locations", "why_tests_cant": "four variable-width encodings, 8-unit splitting and delta lines interact", "anchors": ["src/bytecode/concrete.py:ConcreteBytecode._assemble_locations", "src/bytecode/concrete.py:ConcreteBytecode._push_locations", "src/bytecode/concrete.py:ConcreteBytecode._pack_location", "src/bytecode/concrete.py:ConcreteBytecode._encode_location_varint", "src/bytecode/concrete.py:ConcreteBytecode._encode_location_svarint"]}
{"id": "C14", "title": "Inherited line numbers", "statement": "In a ConcreteBytecode each instruction without a line number takes the line of the closest preceding instruction or SetLineno that has one (else first_lineno), and that is the line recorded in the code object.", "quantifier": "every mix of SetLineno, located and unlocated instructions, every Python version", "why_tests_cant": "histories of inheritance", "anchors": ["src/bytecode/concrete.py:ConcreteBytecode._normalize_lineno", "src/bytecode/concrete.py:ConcreteBytecode._assemble_code", "src/bytecode/concrete.py:ConcreteBytecode._assemble_locations"]}
{"id": "C15", "title": "Labels resolve to the right offset", "statement": "When Bytecode.to_concrete_bytecode() returns, the target of every jump, computed from its final argument, size and caches, is the final offset of the instruction following its Label.", "quantifier": "every bytecode, including those whose jumps need EXTENDED_ARG, absolute/forward/backward jumps, offsets in bytes or instructions", "why_tests_cant": "changing one argument's width moves all other targets; fixpoint over arbitrary layouts", "anchors": ["src/bytecode/concrete.py:_ConvertBytecodeToConcrete.compute_jumps", "src/bytecode/concrete.py:ConcreteInstr.get_jump_target"]}
{"id": "C16", "title": "Jump computation converges", "statement": "Sizes only grow from pass to pass, so with compute_jumps_passes larger than three times the number of jumps to_concrete_bytecode() never raises 'failed to converge'; the default of 10 passes is not always enough.", "quantifier": "every bytecode", "why_tests_cant": "no finite set of layouts bounds the number of passes", "anchors": ["src/bytecode/concrete.py:_ConvertBytecodeToConcrete.compute_jumps", "src/bytecode/concrete.py:_ConvertBytecodeToConcrete.to_concrete_bytecode"]}
{"id": "C17", "title": "Jump encoding is the smallest consistent one", "statement": "The sizes chosen for the jumps are pointwise minimal among all size assignments under which every jump argument fits its own size.", "quantifier": "every bytecode", "why_tests_cant": "quantifies over all alternative layouts", "anchors": ["src/bytecode/concrete.py:_ConvertBytecodeToConcrete.compute_jumps"]}
{"id": "C18", "title": "Arguments survive assembly", "statement": "Each abstract argument (constant, local, name with flag bits, cell/free variable, comparison, intrinsic, plain int) is turned into an index that the disassembler maps back to the same argument.", "quantifier": "every bytecode, every table size, all Python versions", "why_tests_cant": "index tables grow with the program and are shared between all instructions", "anchors": ["src/bytecode/concrete.py:_ConvertBytecodeToConcrete.concrete_instructions", "src/bytecode/concrete.py:ConcreteBytecode.to_bytecode"]}
{"id": "C19", "title": "Name and constant tables are minimal and ordered", "statement": "co_consts/co_names/co_varnames produced by assembly contain each key once, in order of first use, with the docstring as first constant and the argument names as first local names.", "quantifier": "every bytecode", "why_tests_cant": "depends on the whole history of additions", "anchors": ["src/bytecode/concrete.py:_ConvertBytecodeToConcrete.add_const", "src/bytecode/concrete.py:_ConvertBytecodeToConcrete.add", "src/bytecode/concrete.py:_ConvertBytecodeToConcrete.to_concrete_bytecode"]}
{"id": "C20", "title": "Inline caches", "statement": "After assembly every instruction is followed by exactly the number of CACHE entries its opcode requires, at its location, whether they were pruned or written explicitly; a wrong number of explicit CACHE raises.", "quantifier": "every bytecode with or without explicit CACHE instructions (3.11+)", "why_tests_cant": "arbitrary interleavings with labels and pseudo instructions", "anchors": ["src/bytecode/concrete.py:_ConvertBytecodeToConcrete.concrete_instructions", "src/bytecode/concrete.py:ConcreteInstr.use_cache_opcodes"]}
{"id": "C21", "title": "Try ranges become exception-table ranges", "statement": "After assembly the exception table has one entry per TryBegin, in order, and its inclusive offset range contains exactly the instructions (with caches) lying between that TryBegin and its TryEnd; its target is the offset of the handler label; depth and lasti are kept.", "quantifier": "every bytecode with properly paired TryBegin/TryEnd", "why_tests_cant": "offsets depend on the widths of all instructions", "anchors": ["src/bytecode/concrete.py:_ConvertBytecodeToConcrete.concrete_instructions", "src/bytecode/concrete.py:_ConvertBytecodeToConcrete.compute_jumps"]}
{"id": "C22", "title": "Disassembly places labels at jump targets", "statement": "ConcreteBytecode.to_bytecode() keeps the instructions in order and turns every jump into a jump to a Label standing immediately before the instruction at the target offset.", "quantifier": "every concrete bytecode whose jump targets are instruction starts", "why_tests_cant": "arbitrary control flow", "anchors": ["src/bytecode/concrete.py:ConcreteBytecode.to_bytecode"]}
{"id": "C23", "title": "Assemble then disassemble is the identity on programs", "statement": "bytecode.to_concrete_bytecode().to_bytecode() is the same program: same instructions and arguments, every jump to the same instruction, same protected ranges.", "quantifier": "every abstract bytecode", "why_tests_cant": "whole-program property over arbitrary programs", "anchors": ["src/bytecode/concrete.py:_ConvertBytecodeToConcrete", "src/bytecode/concrete.py:ConcreteBytecode.to_bytecode"]}
{"id": "C24", "title": "Block index map", "statement": "At any time cfg.get_block_index(cfg[i]) == i for every i, and blocks not in the graph are rejected.", "quantifier": "every history of add_block, del cfg[i], del cfg[block], split_block", "why_tests_cant": "unbounded operation histories", "anchors": ["src/bytecode/cfg.py:ControlFlowGraph.add_block", "src/bytecode/cfg.py:ControlFlowGraph.__delitem__", "src/bytecode/cfg.py:ControlFlowGraph.split_block", "src/bytecode/cfg.py:ControlFlowGraph.get_block_index"]}
{"id": "C25", "title": "split_block preserves the program", "statement": "Splitting a block keeps the concatenated instruction sequence, puts instructions [index:] in the returned block, keeps all other blocks, and keeps the fall-through successor of the split block.", "quantifier": "every graph, block and index", "why_tests_cant": "arbitrary graphs", "anchors": ["src/bytecode/cfg.py:ControlFlowGraph.split_block", "src/bytecode/cfg.py:BasicBlock.__getitem__"]}
{"id": "C26", "title": "Dead blocks", "statement": "get_dead_blocks() returns exactly the blocks that no execution starting at the first block can reach (through jumps, exception handlers or fall-through).", "quantifier": "every control flow graph, cyclic or not", "why_tests_cant": "reachability over arbitrary graphs", "anchors": ["src/bytecode/cfg.py:ControlFlowGraph.get_dead_blocks"]}
{"id": "C27", "title": "Blocks built from bytecode are well formed", "statement": "ControlFlowGraph.from_bytecode keeps the instruction sequence, starts with the entry block, puts jumps and final instructions only at block ends, links next_block exactly when control can fall through, points every jump at the block starting at its label, and never begins a block with two TryEnd of the same try block.", "quantifier": "every bytecode", "why_tests_cant": "arbitrary label and jump placement", "anchors": ["src/bytecode/cfg.py:ControlFlowGraph.from_bytecode"]}
{"id": "C28", "title": "CFG round trip", "statement": "ControlFlowGraph.from_bytecode(b).to_bytecode() has the same instructions in the same order and every jump goes to the same instruction as in b.", "quantifier": "every bytecode", "why_tests_cant": "whole-program property", "anchors": ["src/bytecode/cfg.py:ControlFlowGraph.from_bytecode", "src/bytecode/cfg.py:ControlFlowGraph.to_bytecode"]}
{"id": "C29", "title": "CFG round trip keeps exception coverage", "statement": "After ControlFlowGraph.from_bytecode(b).to_bytecode() every instruction is protected by the same handler with the same push_lasti as in b.", "quantifier": "every bytecode with paired TryBegin/TryEnd", "why_tests_cant": "splitting and re-fusing of ranges depends on arbitrary control flow", "anchors": ["src/bytecode/cfg.py:ControlFlowGraph.from_bytecode", "src/bytecode/cfg.py:ControlFlowGraph.to_bytecode"]}
{"id": "C30", "title": "Computed stack size is sufficient", "statement": "compute_stacksize() is at least the stack depth reached on every path through the graph.", "quantifier": "every path (unbounded length, loops) of every graph whose blocks are entered with consistent depths", "why_tests_cant": "infinitely many paths", "anchors": ["src/bytecode/cfg.py:ControlFlowGraph.compute_stacksize", "src/bytecode/cfg.py:_StackSizeComputer.run"]}
{"id": "C31", "title": "Stack underflow is reported", "statement": "If some path executes an instruction with fewer items on the stack than it needs, compute_stacksize() raises RuntimeError; if it returns, no analysed path underflows.", "quantifier": "every path of every graph", "why_tests_cant": "infinitely many paths", "anchors": ["src/bytecode/cfg.py:_update_size", "src/bytecode/cfg.py:_StackSizeComputer.run"]}
{"id": "C32", "title": "Stack size computation terminates", "statement": "compute_stacksize() terminates on every graph, including cyclic and irreducible ones, with nesting of block visits at most the number of blocks plus one.", "quantifier": "every graph", "why_tests_cant": "termination is not testable", "anchors": ["src/bytecode/cfg.py:ControlFlowGraph.compute_stacksize", "src/bytecode/cfg.py:_StackSizeComputer.run"]}
{"id": "C33", "title": "Handler depth is safe", "statement": "The stack depth stored in each analysed TryBegin is a depth available at every analysed point of its protected range.", "quantifier": "every graph with exception handling (3.11+)", "why_tests_cant": "minimum over infinitely many paths", "anchors": ["src/bytecode/cfg.py:_StackSizeComputer._compute_exception_handler_stack_usage", "src/bytecode/cfg.py:ControlFlowGraph.compute_stacksize"]}
{"id": "C34", "title": "Pre and post stack effects add up", "statement": "For every instruction the pair returned by pre_and_post_stack_effect() sums to stack_effect() and its first component is not positive where the instruction only consumes.", "quantifier": "every opcode with a special entry and every argument", "why_tests_cant": "arguments are unbounded", "anchors": ["src/bytecode/instr.py:BaseInstr.pre_and_post_stack_effect", "src/bytecode/instr.py:STATIC_STACK_EFFECTS", "src/bytecode/instr.py:DYNAMIC_STACK_EFFECTS"]}
{"id": "C35", "title": "legalize() on instruction lists", "statement": "Bytecode/ConcreteBytecode.legalize() removes every SetLineno, keeps all other elements in order, and gives each instruction the line of the last SetLineno before it, or else its own, or else the inherited one.", "quantifier": "every instruction list", "why_tests_cant": "histories of line inheritance", "anchors": ["src/bytecode/bytecode.py:_BaseBytecodeList.legalize"]}
{"id": "C36", "title": "legalize() on control flow graphs", "statement": "ControlFlowGraph.legalize() removes every SetLineno from every block, keeps other elements, and the line current at the end of a block is inherited by the next.", "quantifier": "every graph", "why_tests_cant": "histories", "anchors": ["src/bytecode/cfg.py:ControlFlowGraph.legalize", "src/bytecode/cfg.py:BasicBlock.legalize"]}
{"id": "C37", "title": "Flag inference never makes async code sync", "statement": "update_flags()/infer_flags with is_async None or True keeps async code async; with is_async=False it either raises or returns flags without any async kind.", "quantifier": "every instruction sequence, previous flags and is_async", "why_tests_cant": "all flag combinations times all instruction sequences", "anchors": ["src/bytecode/flags.py:infer_flags"]}
{"id": "C38", "title": "Flag inference yields one kind of code", "statement": "The inferred flags contain at most one of GENERATOR, COROUTINE, ASYNC_GENERATOR, ITERABLE_COROUTINE, determined by previous flags and the presence of yield/async opcodes as documented.", "quantifier": "every instruction sequence, previous flags and is_async", "why_tests_cant": "all combinations", "anchors": ["src/bytecode/flags.py:infer_flags"]}
{"id": "C39", "title": "Flag inference keeps flags it cannot infer", "statement": "infer_flags keeps NEWLOCALS, VARARGS, VARKEYWORDS, NESTED and the FUTURE_* flags exactly as they were.", "quantifier": "every previous flags value", "why_tests_cant": "all flag words", "anchors": ["src/bytecode/flags.py:infer_flags"]}
{"id": "C40", "title": "OPTIMIZED and NOFREE", "statement": "Inferred OPTIMIZED is set iff no *_NAME opcode is used; inferred NOFREE is set iff no cell or free variable is used.", "quantifier": "every instruction sequence, all three bytecode classes", "why_tests_cant": "arbitrary sequences", "anchors": ["src/bytecode/flags.py:infer_flags"]}
{"id": "C41", "title": "Bytecode equality is structural", "statement": "Comparing two Bytecode (their instruction content) is an equivalence, does not depend on which Label/TryBegin objects are used, and equal bytecodes have the same instructions, jump targets and protected ranges.", "quantifier": "every pair of bytecodes", "why_tests_cant": "quantifies over all renamings", "anchors": ["src/bytecode/bytecode.py:_InstrList._flat", "src/bytecode/bytecode.py:_InstrList.__eq__"]}
{"id": "C42", "title": "Metadata survives conversions", "statement": "name, qualname, filename, first line, argument counts, flags, cellvars, freevars and docstring are unchanged by every conversion between Bytecode, ConcreteBytecode and ControlFlowGraph.", "quantifier": "every object and every chain of conversions", "why_tests_cant": "unbounded chains", "anchors": ["src/bytecode/bytecode.py:BaseBytecode._copy_attr_from", "src/bytecode/concrete.py:ConcreteBytecode.to_bytecode", "src/bytecode/cfg.py:ControlFlowGraph.from_bytecode", "src/bytecode/cfg.py:ControlFlowGraph.to_bytecode"]}
{"id": "C43", "title": "argnames are the parameters", "statement": "Bytecode.from_code(code).argnames are exactly the names of the function's parameters in order.", "quantifier": "every code object", "why_tests_cant": "all signatures", "anchors": ["src/bytecode/concrete.py:ConcreteBytecode.to_bytecode"]}
{"id": "C44", "title": "Nested try blocks are rejected", "statement": "Iterating a Bytecode raises RuntimeError exactly when a TryBegin occurs before the previous TryBegin was closed by a TryEnd, otherwise it yields all elements in order.", "quantifier": "every element sequence", "why_tests_cant": "arbitrary sequences", "anchors": ["src/bytecode/bytecode.py:Bytecode.__iter__"]}
{"id": "C45", "title": "Cell and free variable numbering", "statement": "Cell and free variable arguments get the index CPython uses in its combined locals array (cells sharing a local's slot when names coincide on 3.11+).", "quantifier": "every set of local, cell and free names", "why_tests_cant": "all overlaps of three name lists", "anchors": ["src/bytecode/concrete.py:_ConvertBytecodeToConcrete.concrete_instructions", "src/bytecode/concrete.py:ConcreteBytecode.to_bytecode"]}
{"id": "C46", "title": "Comparison operands", "statement": "Every Compare member is encoded with the version's mask and cast bits and decodes to the same member.", "quantifier": "every member, every Python version", "why_tests_cant": "finite but spans six interpreter versions that cannot run together", "anchors": ["src/bytecode/instr.py:Compare._get_mask", "src/bytecode/concrete.py:_ConvertBytecodeToConcrete.concrete_instructions", "src/bytecode/concrete.py:ConcreteBytecode.to_bytecode"]}
{"id": "C47", "title": "Paired local instructions (3.13)", "statement": "LOAD_FAST_LOAD_FAST and its relatives assemble to code accessing exactly the two given locals, whatever their indices.", "quantifier": "every pair of local indices", "why_tests_cant": "all index pairs", "anchors": ["src/bytecode/concrete.py:_ConvertBytecodeToConcrete.concrete_instructions"]}
{"id": "C48", "title": "Copies are faithful", "statement": "copy() and full slicing of instructions, bytecodes and blocks give an equal object with the same attributes (including the encoded size of concrete instructions).", "quantifier": "every object", "why_tests_cant": "infinite domain", "anchors": ["src/bytecode/instr.py:BaseInstr.copy", "src/bytecode/bytecode.py:_BaseBytecodeList.copy", "src/bytecode/bytecode.py:_BaseBytecodeList.__getitem__", "src/bytecode/cfg.py:BasicBlock.copy"]}
{"id": "C49", "title": "Disassembly keeps exception coverage", "statement": "In ConcreteBytecode.to_bytecode(), each instruction is inside a TryBegin/TryEnd range with a given target and push_lasti exactly when an entry of the exception table with that target and push_lasti covers it.", "quantifier": "every exception table whose ranges are disjoint, begin at an instruction start and end at an instruction end", "why_tests_cant": "arbitrary tables and instruction sizes", "anchors": ["src/bytecode/concrete.py:ConcreteBytecode.to_bytecode"]}
{"id": "C50", "title": "The code object runs the program", "statement": "The code object made from a Bytecode, read the way the interpreter reads it (EXTENDED_ARG, inline caches, jump offsets, name tables, line table, exception table), executes exactly the instructions of the Bytecode in order: same opcodes and operands, every jump to the right instruction, every byte reporting the right location, every exception going to the handler of the try block around the instruction.", "quantifier": "every Bytecode with matched non-empty try blocks, every supported Python version", "why_tests_cant": "whole-program property that spans six interpreter versions", "anchors": ["src/bytecode/concrete.py:_ConvertBytecodeToConcrete", "src/bytecode/concrete.py:ConcreteBytecode.to_code", "src/bytecode/concrete.py:ConcreteBytecode._assemble_code"]}
{"id": "C51", "title": "to_code() keeps the program under all options", "statement": "Bytecode.to_code(), ControlFlowGraph.to_code() on a graph made from a Bytecode, and ConcreteBytecode.to_code() produce, for every value of compute_jumps_passes, stacksize, check_pre_and_post and compute_exception_stack_depths for which they return, a code object that runs the program of the Bytecode (C50) and carries its attributes, although these options send it through a control flow graph with inserted and merged try blocks.", "quantifier": "every writable Bytecode, every option, every supported version", "why_tests_cant": "the detour through the graph rewrites try blocks, labels and jump targets; combinations of options and programs are unbounded", "anchors": ["src/bytecode/bytecode.py:Bytecode.to_code", "src/bytecode/cfg.py:ControlFlowGraph.to_code", "src/bytecode/concrete.py:ConcreteBytecode.to_code"]}
{"id": "C52", "title": "from_code() shows the program that runs", "statement": "Bytecode.from_code(code), for a code object as a compiler makes them, shows exactly the program the interpreter runs: the same instructions in order, every jump leading to a Label before the instruction it goes to, the arguments the interpreter reads from the tables of the code object, the source location of every code unit, and around each instruction a try block with the handler and push_lasti the interpreter finds in the exception table, if any; the result can be assembled again.", "quantifier": "every code object with whole instructions, jumps to instructions and sorted ranges of whole instructions", "why_tests_cant": "unbounded code, tables and control flow", "anchors": ["src/bytecode/bytecode.py:Bytecode.from_code", "src/bytecode/concrete.py:ConcreteBytecode.from_code", "src/bytecode/concrete.py:ConcreteBytecode.to_bytecode", "src/bytecode/concrete.py:ExceptionTableEntry"]}
{"id": "C53", "title": "from_code() then to_code() keeps the program", "statement": "Bytecode.from_code(code).to_code(...), and the same through a ControlFlowGraph, with any options for which it returns, gives a code object that runs the same program as the original one and has the same name, qualname, filename, first line, argument counts, flags, free and cell variables and docstring.", "quantifier": "every code object as a compiler makes them, every combination of options", "why_tests_cant": "whole-program property over unbounded code objects", "anchors": ["src/bytecode/bytecode.py:Bytecode.from_code", "src/bytecode/bytecode.py:Bytecode.to_code", "src/bytecode/cfg.py:ControlFlowGraph.to_code"]}
{"id": "C54", "title": "The stack of the code object suffices", "statement": "When the code object made by to_code() runs, the stack never holds more than co_stacksize items (or the number it starts with), an exception unwinds it to a depth it has, and the handler and what follows stay within co_stacksize.", "quantifier": "every execution (unbounded, with loops and exceptions at any instruction) of every code object made from a Bytecode", "why_tests_cant": "infinitely many executions of infinitely many programs", "anchors": ["src/bytecode/bytecode.py:Bytecode.to_code", "src/bytecode/cfg.py:ControlFlowGraph.compute_stacksize", "src/bytecode/cfg.py:_StackSizeComputer.run", "src/bytecode/concrete.py:ConcreteBytecode.to_code"]}
{"id": "C55", "title": "stack_effect() is that of the assembled instruction", "statement": "Instr.stack_effect(jump) of an instruction is what dis.stack_effect() gives for the opcode and the real argument of the instruction that takes its place in the code object, and raises ValueError for the same instructions, although names, constants, variables and jump targets have no number before assembling.", "quantifier": "every instruction of every Bytecode, every argument, every supported version", "why_tests_cant": "arguments and programs are unbounded", "anchors": ["src/bytecode/instr.py:BaseInstr.stack_effect", "src/bytecode/bytecode.py:Bytecode.to_code"]}
{"id": "C56", "title": "Every well-formed program assembles", "statement": "to_concrete_bytecode() and to_code(stacksize=n) return for every well-formed program (legal instructions, labels that stand in the list, relative jumps in the direction of their name, paired non-empty try blocks with known depths, declared closure variables): no exception except RuntimeError when compute_jumps_passes is smaller than three per jump, and the result runs the program (C50).", "quantifier": "every well-formed Bytecode, every supported version, any number of passes", "why_tests_cant": "absence of exceptions on an unbounded domain", "anchors": ["src/bytecode/concrete.py:_ConvertBytecodeToConcrete.to_concrete_bytecode", "src/bytecode/concrete.py:ConcreteBytecode.to_code", "src/bytecode/bytecode.py:Bytecode.to_code"]}
{"id": "C57", "title": "to_code() with its defaults returns, or reports an underflow", "statement": "Bytecode.to_code() that computes the stack size and the depths of the handlers, on a well-formed program whose blocks are always entered with one stack depth: if an instruction that can be reached can take more items than are on the stack it raises RuntimeError, otherwise it returns a code object that runs the program; it raises nothing else.", "quantifier": "every well-formed Bytecode with consistent stack depths, every option that computes the stack size, every supported version", "why_tests_cant": "absence of exceptions, and the presence of one, over unbounded programs with loops and handlers", "anchors": ["src/bytecode/bytecode.py:Bytecode.to_code", "src/bytecode/cfg.py:ControlFlowGraph.compute_stacksize", "src/bytecode/cfg.py:ControlFlowGraph.to_bytecode", "src/bytecode/concrete.py:_ConvertBytecodeToConcrete.to_concrete_bytecode"]}
{"id": "C58", "title": "from_code() returns for every compiled code object", "statement": "Bytecode.from_code(code) of every code object a compiler makes (code in normal form, jumps and handlers to instruction starts, coherent positions, arguments inside the tables) returns; the Bytecode it returns is a well-formed program in the sense of C56, so it can be assembled again; with conserve_exception_block_stackdepth=True, to_code(stacksize=n, compute_exception_stack_depths=False) of it returns a code object that runs the same program unless compute_jumps_passes is less than three per jump and one more, and then the only possible exception is RuntimeError.", "quantifier": "every code object as a compiler makes them (3.11+ and before), every stack size and number of passes", "why_tests_cant": "all code objects; a test runs the code objects at hand", "anchors": ["src/bytecode/bytecode.py:Bytecode.from_code", "src/bytecode/concrete.py:ConcreteBytecode.from_code", "src/bytecode/concrete.py:ConcreteBytecode.to_bytecode", "src/bytecode/concrete.py:_ConvertBytecodeToConcrete.to_concrete_bytecode"]}
{"id": "C59", "title": "Graph equality is structural", "statement": "Two ControlFlowGraphs are equal exactly if they have the same argument names, attributes, stack size and the same blocks with the same instructions, jumps and try blocks, whatever block and TryBegin objects they use; the comparison is reflexive and symmetric and changes neither graph.", "quantifier": "every pair of graphs", "why_tests_cant": "quantifies over all pairs of graphs and all choices of objects", "anchors": ["src/bytecode/cfg.py:ControlFlowGraph._get_instructions", "src/bytecode/cfg.py:ControlFlowGraph.__eq__", "src/bytecode/bytecode.py:BaseBytecode.__eq__"]}
{"id": "C60", "title": "ConcreteBytecode equality is structural", "statement": "Two ConcreteBytecodes are equal exactly if they have the same instructions, exception table, constants, names, local variables, attributes and stack size; the comparison is an equivalence.", "quantifier": "every pair of ConcreteBytecodes", "why_tests_cant": "infinite domain", "anchors": ["src/bytecode/concrete.py:ConcreteBytecode.__eq__", "src/bytecode/bytecode.py:BaseBytecode.__eq__"]}
{"id": "C61", "title": "!= is the negation of ==", "statement": "For two graphs, two Bytecodes or two ConcreteBytecodes, a != b gives the negation of a == b.", "quantifier": "every pair of objects", "why_tests_cant": "infinite domain", "anchors": ["src/bytecode/bytecode.py:BaseBytecode.__eq__", "src/bytecode/bytecode.py:_InstrList.__eq__", "src/bytecode/bytecode.py:_BaseBytecodeList", "src/bytecode/cfg.py:ControlFlowGraph.__eq__", "src/bytecode/concrete.py:ConcreteBytecode.__eq__"]}
{"id": "C62", "title": "Control flow queries tell the truth", "statement": "For every instruction: has_jump() says whether it may jump; is_abs_jump(), is_forward_rel_jump() and is_backward_rel_jump() say how the interpreter finds its target; is_uncond_jump() says that it jumps and never goes on to the next instruction; is_cond_jump() that it may do both; is_final() that it never goes on.", "quantifier": "every instruction of every supported version", "why_tests_cant": "spans six interpreter versions that cannot run together", "anchors": ["src/bytecode/instr.py:BaseInstr.has_jump", "src/bytecode/instr.py:BaseInstr.is_cond_jump", "src/bytecode/instr.py:BaseInstr.is_uncond_jump", "src/bytecode/instr.py:BaseInstr.is_abs_jump", "src/bytecode/instr.py:BaseInstr.is_forward_rel_jump", "src/bytecode/instr.py:BaseInstr.is_backward_rel_jump", "src/bytecode/instr.py:BaseInstr.is_final"]}
{"id": "C63", "title": "format_bytecode shows the program", "statement": "format_bytecode(code), lineno=True or not, returns a text with one line for each element of the code, in order: an instruction by its name and argument, a label or a block by its position, a jump and a TryBegin by the label or block they lead to, a TryEnd by the number of its TryBegin, a concrete instruction by its offset; the exception table follows; with lineno=True the line number is shown where it changes. dump_bytecode prints that text.", "quantifier": "every Bytecode, ConcreteBytecode and ControlFlowGraph, every repr() of the arguments", "why_tests_cant": "Numbering, indentation and the current line are carried along the whole program; tests compare a few fixed texts.", "anchors": ["src/bytecode/__init__.py: format_bytecode, dump_bytecode"]}
{"id": "C64", "title": "The interpreter's own search finds the handlers", "statement": "On 3.11 and later, when an exception is raised by any code unit of a code object made by to_code() from a Bytecode (or from a ConcreteBytecode whose exception table is in order and without overlaps), CPython's search - a bisection over the bytes of co_exceptiontable that looks for the marker bit of an entry, then a linear scan of the last forty bytes - ends, stays inside the table, and finds the handler, stack depth and lasti flag of the try block that encloses the instruction, or none if there is none. Numbers are bounded as in CPython: code shorter than 2**31 bytes, handler depths below 2**29.", "quantifier": "all programs with any number of try blocks, all code units, all versions from 3.11", "why_tests_cant": "the bisection only starts beyond forty bytes of table, and its correctness depends on the order, framing and size of every entry of every table; a few tables cannot settle it", "anchors": ["src/bytecode/concrete.py:ConcreteBytecode._assemble_exception_table", "src/bytecode/concrete.py:ConcreteBytecode._encode_varint", "src/bytecode/concrete.py:_ConvertBytecodeToConcrete.to_concrete_bytecode", "src/bytecode/concrete.py:ConcreteBytecode.to_code"]}
{"id": "C65", "title": "The stack size of the code object is the one asked for, or the one computed", "statement": "to_code(stacksize=N) on a Bytecode, a ConcreteBytecode or a ControlFlowGraph writes N as co_stacksize; to_code() without a stacksize writes exactly the number that compute_stacksize() of the same object reports, with the same check_pre_and_post and whatever the other options, and fails when it fails.", "quantifier": "all programs, all stack sizes, all option values, all versions", "why_tests_cant": "the number goes through several layers (graph, bytecode, concrete bytecode) with options that recompute it or not; which one is written depends on version, options and program", "anchors": ["src/bytecode/concrete.py:ConcreteBytecode.to_code", "src/bytecode/bytecode.py:Bytecode.to_code", "src/bytecode/cfg.py:ControlFlowGraph.to_code", "src/bytecode/bytecode.py:Bytecode.compute_stacksize", "src/bytecode/concrete.py:ConcreteBytecode.compute_stacksize"]}
{"id": "C66", "title": "legalize() keeps the program, and once is enough", "statement": "Calling legalize() on a Bytecode, ConcreteBytecode or ControlFlowGraph resolves the line-number settings without changing what the object means: the same instructions, arguments, jumps, try blocks and lines are seen before and after, and to_code() gives the same code object; calling legalize() again changes nothing.", "quantifier": "all programs, all placements of SetLineno and of located and unlocated instructions, all versions", "why_tests_cant": "the rewriting depends on the history of SetLineno and located instructions before each element; the claim quantifies over all of them", "anchors": ["src/bytecode/bytecode.py:_InstrList", "src/bytecode/bytecode.py:Bytecode.legalize", "src/bytecode/concrete.py:ConcreteBytecode.legalize", "src/bytecode/cfg.py:ControlFlowGraph.legalize", "src/bytecode/cfg.py:BasicBlock.legalize", "src/bytecode/concrete.py:ConcreteBytecode._normalize_lineno"]}
{"id": "C67", "title": "update_flags() a second time changes nothing", "statement": "After b.update_flags(is_async=a) has returned, calling b.update_flags() again, with the same is_async or with none, leaves b.flags as it is; the same for a ConcreteBytecode and for a ControlFlowGraph.", "quantifier": "all programs, all initial flags, all values of is_async, all versions", "why_tests_cant": "the inference reads the flags it wrote the first time; whether the second reading agrees depends on the instructions, the initial flags and is_async together", "anchors": ["src/bytecode/bytecode.py:BaseBytecode.update_flags", "src/bytecode/flags.py:infer_flags"]}
{"id": "C68", "title": "A ConcreteBytecode is written as it stands", "statement": "ConcreteBytecode.to_code(stacksize=N, compute_exception_stack_depths=False) writes exactly what the object holds: co_code is the concatenation of the assembled instructions, the constant, name and variable tables, the exception table and the attributes are copied as they are, and nothing is dropped, merged or renumbered.", "quantifier": "all concrete bytecodes, all stack sizes, all versions", "why_tests_cant": "the claim is about every list of concrete instructions and every content of the tables", "anchors": ["src/bytecode/concrete.py:ConcreteBytecode.to_code", "src/bytecode/concrete.py:ConcreteBytecode._assemble_code"]}
{"id": "C69", "title": "The code object depends only on the program", "statement": "Two programs that say the same thing (same instructions and arguments, jumps to the same instructions, same locations, same attributes) give the same code object, whichever Label objects are used, wherever labels and line marks stand, however the options of to_code() are set and whether a ControlFlowGraph is made in between; only the stack size and the exception table can differ.", "quantifier": "all pairs of programs that say the same, all option values, all versions", "why_tests_cant": "a relation between the results of two executions on two different inputs; no finite set of pairs settles it", "anchors": ["src/bytecode/concrete.py:_ConvertBytecodeToConcrete", "src/bytecode/bytecode.py:Bytecode.to_code", "src/bytecode/cfg.py:ControlFlowGraph.to_code", "src/bytecode/cfg.py:ControlFlowGraph.from_bytecode", "src/bytecode/cfg.py:ControlFlowGraph.to_bytecode"]}
{"id": "C70", "title": "Assembling what was disassembled gives the same concrete bytecode", "statement": "If a Bytecode is assembled with to_concrete_bytecode(), the result disassembled with to_bytecode() and the outcome assembled again, the second ConcreteBytecode has the same instructions (arguments, sizes, locations), the same constant, name and variable tables in the same order and the same attributes as the first.", "quantifier": "all well-formed programs, all versions", "why_tests_cant": "the tables are rebuilt from scratch in the order of first use; equality with the first tables depends on every instruction of the program together", "anchors": ["src/bytecode/concrete.py:ConcreteBytecode.to_bytecode", "src/bytecode/concrete.py:_ConvertBytecodeToConcrete", "src/bytecode/bytecode.py:Bytecode.to_concrete_bytecode"]}
{"id": "C71", "title": "Making a list of a graph never deepens a handler", "statement": "ControlFlowGraph.to_bytecode() joins the pieces of try blocks that touch and have the same handler; the stack depth written for the joined block is no greater than the depth of any of the pieces, so no instruction is protected by a handler that expects more on the stack than the graph says; depths that agree are kept.", "quantifier": "all graphs made from a program, with any depths, all versions", "why_tests_cant": "the joined depth is computed while walking over the graph from two pieces at a time; any number of pieces may be joined", "anchors": ["src/bytecode/cfg.py:ControlFlowGraph.to_bytecode", "src/bytecode/instr.py:TryBegin"]}
{"id": "C72", "title": "legalize() changes objects, not only the list", "statement": "legalize() writes lines into the Instr objects of the list. If no Instr object occurs twice in it, every instruction gets its own line, as if the elements were values; lists and graphs that share no Instr object with it stay as they are; legalizing a copy() leaves the original the same program.", "quantifier": "all stores of objects, all lists and graphs of references to them, all versions", "why_tests_cant": "whether two references meet in one object depends on the whole history of slices, copies and insertions", "anchors": ["src/bytecode/bytecode.py:_BaseBytecodeList.legalize", "src/bytecode/bytecode.py:_BaseBytecodeList.copy", "src/bytecode/cfg.py:BasicBlock.legalize", "src/bytecode/cfg.py:ControlFlowGraph.legalize"]}
{"id": "C73", "title": "A handler depth that is given or conserved is the one the interpreter uses", "statement": "With compute_exception_stack_depths=False, an exception raised in a try block unwinds the stack to exactly the stack_depth of its TryBegin; from_code() with conserve_exception_block_stackdepth=True shows for every instruction the depth the interpreter unwinds to; together they keep all depths of a code object. A graph is written with the depths of its TryBegins; a TryBegin without depth is never written.", "quantifier": "all programs, code objects and graphs made from programs on 3.11+, all instructions and code units, all options", "why_tests_cant": "depths pass through the exception table encoder and decoder and the merging of try blocks, per code unit of every instruction", "anchors": ["src/bytecode/concrete.py:_ConvertBytecodeToConcrete.concrete_instructions", "src/bytecode/concrete.py:ConcreteBytecode.to_bytecode", "src/bytecode/concrete.py:ConcreteBytecode._assemble_exception_table", "src/bytecode/cfg.py:ControlFlowGraph.to_code"]}
{"id": "C74", "title": "What ConcreteBytecode.to_code() writes, from_code() reads back", "statement": "ConcreteBytecode.from_code() of the code object that ConcreteBytecode.to_code() produced gives the same concrete instructions in the same order (name, opcode, argument, size, hence the same number of EXTENDED_ARG), each with the location it was written with (its own or the inherited one; of locations the recorded part), the same constants, names, varnames and exception table, and the same attributes. Before 3.11 a code object has of the locations the lines only, no exception table and no qualified name.", "quantifier": "all concrete bytecodes whose instructions are legal, have the size of their encoding and are followed by their inline caches, all versions, all opcode tables", "why_tests_cant": "two encoders (code units, location table) and their decoders have to agree on every list of instructions, with the EXTENDED_ARG folded away after the locations are given out", "anchors": ["src/bytecode/concrete.py:ConcreteBytecode.to_code", "src/bytecode/concrete.py:ConcreteBytecode.from_code", "src/bytecode/concrete.py:ConcreteBytecode._pack_linetable", "src/bytecode/concrete.py:ConcreteBytecode._assemble_code", "src/bytecode/concrete.py:ConcreteBytecode.remove_extended_args"]}
{"id": "C75", "title": "A program survives its code object", "statement": "Bytecode.from_code() of the code object to which a Bytecode was assembled gives the same program: the same instructions in order with the same arguments, jumps to the same instructions, the same try blocks with the same handlers, and the locations (of each location the part the location table records; before 3.11 the line).", "quantifier": "all Bytecode objects (labels, jumps, try blocks, free and cell variables) as in C23, with coherent locations; all options; all key functions", "why_tests_cant": "the whole way from labels to bytes, the location and exception tables, and back again, for every program", "anchors": ["src/bytecode/bytecode.py:Bytecode.from_code", "src/bytecode/bytecode.py:Bytecode.to_concrete_bytecode", "src/bytecode/concrete.py:ConcreteBytecode.to_code", "src/bytecode/concrete.py:ConcreteBytecode.from_code", "src/bytecode/concrete.py:ConcreteBytecode.to_bytecode"]}
{"id": "C76", "title": "Writing what was read back changes nothing", "statement": "The code object written from a Bytecode, read with Bytecode.from_code() and written again, is the same code object: the same bytes, constants, names and variables in the same order, the same flags, counts, strings and line or location table; only the stack size and (3.11+) the division of the exception table into entries may differ.", "quantifier": "all Bytecode objects as in C75 (on 3.11+ those in which different locations are recorded differently), all options of both calls of to_code(), all stack effects", "why_tests_cant": "composition of all encoders and decoders; the tables are filled in an order that depends on every argument of the program", "anchors": ["src/bytecode/bytecode.py:Bytecode.from_code", "src/bytecode/bytecode.py:Bytecode.to_code", "src/bytecode/concrete.py:ConcreteBytecode.to_code", "src/bytecode/concrete.py:ConcreteBytecode.from_code", "src/bytecode/concrete.py:_ConvertBytecodeToConcrete.to_concrete_bytecode"]}
{"id": "C77", "title": "A call that raises leaves the object as it was", "statement": "If a call that changes an object raises, the object is afterwards as before: changing or setting an instruction (abstract or concrete), deleting a block from a graph, splitting a block, computing the stack size; Bytecode.legalize() that raises leaves the list and everything but the lines of its instructions.", "quantifier": "all instructions and graphs that the API can make, all arguments for which the call raises, all stack effects", "why_tests_cant": "a failure in the middle of an update loop needs inputs that fail only there; every point of failure and every object must be considered", "anchors": ["src/bytecode/instr.py:BaseInstr.set", "src/bytecode/cfg.py:ControlFlowGraph.__delitem__", "src/bytecode/cfg.py:ControlFlowGraph.split_block", "src/bytecode/cfg.py:ControlFlowGraph.compute_stacksize", "src/bytecode/bytecode.py:_BaseBytecodeList.legalize"]}
{"id": "C78", "title": "to_bytecode() writes the blocks of any graph, in order", "statement": "ControlFlowGraph.to_bytecode() on a graph made in any way writes the instructions and line marks of its blocks in their order, each jump and handler going to the place where its block starts, each instruction under the try block that is open there; so splitting blocks between from_bytecode() and to_bytecode() does not change the program, and removing a block that nothing refers to removes its instructions and nothing else.", "quantifier": "all graphs, however made, whose jumps and handlers go to blocks of the graph and whose try blocks are paired; all splits, removals and additions, in any number", "why_tests_cant": "the round trip tests start from a list; graphs that were edited in between, and where their jumps go afterwards, are unboundedly many", "anchors": ["src/bytecode/cfg.py:ControlFlowGraph.to_bytecode", "src/bytecode/cfg.py:ControlFlowGraph.split_block", "src/bytecode/cfg.py:ControlFlowGraph.__delitem__"]}
{"id": "C79", "title": "Which objects share their lists of names", "statement": "After any use of constructors, conversions, copies, slices, assignments and in-place changes, a list of names or constants (cellvars, freevars, argnames, consts, names, varnames) that is changed in place changes for its object and for no other object, except that a Bytecode shares argnames, and a ConcreteBytecode consts, names and varnames, with its copies and slices. Graphs share nothing; conversions hand on the names in new lists; assigning a new list changes one object only.", "quantifier": "all histories of operations, all numbers of objects, all contents of the lists", "why_tests_cant": "aliasing shows only when one object is changed after another was made from it; the pairs of objects and orders of operations are unboundedly many", "anchors": ["src/bytecode/bytecode.py:BaseBytecode._copy_attr_from", "src/bytecode/bytecode.py:_BaseBytecodeList.copy", "src/bytecode/bytecode.py:Bytecode._copy_attr_from", "src/bytecode/concrete.py:ConcreteBytecode._copy_attr_from", "src/bytecode/cfg.py:ControlFlowGraph.from_bytecode", "src/bytecode/cfg.py:ControlFlowGraph.to_bytecode"]}
{"id": "C80", "title": "Equal Bytecodes give equal code objects", "statement": "If two Bytecodes are == and have the same attributes and argument names, the code objects that to_code() makes of them, with any options on either side, agree in everything but the stack size and the exception table, and before 3.11 in everything if the stack sizes are the same; == itself looks at the elements only.", "quantifier": "all pairs of Bytecodes of legal instructions whose plain numbers are written as ints, with paired try blocks and no explicit CACHE; all options", "why_tests_cant": "quantifies over all pairs of equal programs and all options of the assembler", "anchors": ["src/bytecode/bytecode.py:_InstrList.__eq__", "src/bytecode/bytecode.py:Bytecode.to_code", "src/bytecode/instr.py:Instr._cmp_key"]}
