{"id": "C01", "title": "Thread FSM computes what the Python source computes", "statement": "A function handed to a Thread (assignments, augmented assignments, if/elif/else, while, for over range, pass, nested blocks) runs in hardware with the same effect as in Python: starting from equal variable values, the generated state machine arrives at its final state exactly when the source terminates, and all variables then hold the values the source computes.", "quantifier": "all programs of the supported statement forms, all expressions, all initial variable values, all run lengths", "why_tests_cant": "Tests compile a handful of fixed programs; correctness is about every nesting of control structures and every terminating or non-terminating execution.", "anchors": ["veriloggen/thread/compiler.py:CompileVisitor.visit_Assign,visit_If,visit_While,visit_For,setFsm,setBind", "veriloggen/fsm/fsm.py:FSM"]}
{"id": "C02", "title": "break and continue act on the innermost enclosing loop", "statement": "In thread code, break leaves and continue restarts exactly the innermost loop that lexically encloses it, wherever in the loop body it stands.", "quantifier": "all programs containing break/continue at any depth, all inputs", "why_tests_cant": "The defect depends on the relative position of an early break and a later nested loop; only a statement over all nestings settles it.", "anchors": ["veriloggen/thread/compiler.py:CompileVisitor._while,visit_For,visit_Break,visit_Continue", "veriloggen/thread/scope.py:ScopeFrameList.getUnresolvedBreak,getUnresolvedContinue"]}
{"id": "C03", "title": "Calls from thread code return the callee's value and keep locals apart", "statement": "Calling a plain Python function from thread code evaluates the arguments, runs the callee's body with its own local variables, and yields the value of the first return statement executed (or None/0 when none); the caller's variables are unchanged except through the result.", "quantifier": "all call-free and nested-call programs, all argument values, all positions of return", "why_tests_cant": "Whether inlining into one state machine preserves call semantics depends on the nesting of return inside branches and loops.", "anchors": ["veriloggen/thread/compiler.py:CompileVisitor._call_Name,_visit_FunctionDef,visit_Return", "veriloggen/thread/scope.py"]}
{"id": "C04", "title": "for-range iterates over exactly Python's range", "statement": "for i in range(a,b,s) in thread code runs its body once for each value of Python's range(a,b,s), in order, with i bound to that value.", "quantifier": "all integers a, b, s with s != 0", "why_tests_cant": "Infinite integer domain; negative steps and empty ranges are easy to miss.", "anchors": ["veriloggen/thread/compiler.py:CompileVisitor._for_range_fsm"]}
{"id": "C05", "title": "Case-form and if-form of a state machine behave identically", "statement": "FSM.make_always(case=True) and make_always(case=False) give the same next value of the state register and of every register, for every machine that was built.", "quantifier": "all FSMs (any number of states, statements and jumps), all register valuations, all input sequences", "why_tests_cant": "Equivalence of two emitters over every machine cannot be enumerated.", "anchors": ["veriloggen/fsm/fsm.py:FSM.make_case,make_if,_get_case_statement,_get_if_statement"]}
{"id": "C06", "title": "FSM transitions follow goto calls, later ones taking priority", "statement": "In each state the machine moves to the destination of the last goto whose condition holds (or to its else destination), stays put when none holds, and never moves to a state nobody named.", "quantifier": "all sequences of goto/goto_next/goto_from/goto_init calls, all condition values", "why_tests_cant": "Priority among overlapping conditions must hold for every combination.", "anchors": ["veriloggen/fsm/fsm.py:FSM.goto,_go,_add_jump,_get_jump_statement"]}
{"id": "C07", "title": "Seq.If/Elif/Else chains are mutually exclusive and exhaustive", "statement": "After seq.If(c1)(s1).Elif(c2)(s2)...Else(sn) exactly the first branch whose condition is true takes effect in a cycle.", "quantifier": "all chains of any length, all valuations of the conditions", "why_tests_cant": "Branch selection must hold under every combination of overlapping conditions and every chain length.", "anchors": ["veriloggen/seq/seq.py:Seq.If,Else,Elif,_add_statement"]}
{"id": "C08", "title": "Seq.Delay(n) executes a statement exactly n cycles later", "statement": "A conditional assignment added under Delay(n) takes effect exactly n clock cycles after the cycle in which its condition held, using (eager) the value at request time or (default) the value at execution time, and never otherwise.", "quantifier": "all delays n, all input traces of any length, all requests in flight at once", "why_tests_cant": "Requires reasoning about overlapping requests over unbounded traces.", "anchors": ["veriloggen/seq/seq.py:Seq.Delay,_add_delayed_cond,_add_delayed_subst,make_code"]}
{"id": "C09", "title": "Seq.Prev(x, n) is the value of x n cycles ago", "statement": "The signal returned by Seq.Prev(x,n,initval,cond) equals x as it was n enabled cycles earlier, and initval before that.", "quantifier": "all n, all traces, all sequences of Prev calls on the same signal", "why_tests_cant": "Unbounded trace property, and the register cache couples different calls.", "anchors": ["veriloggen/seq/seq.py:Seq.Prev"]}
{"id": "C10", "title": "Reset initialises every register the block drives", "statement": "While reset is asserted, every register assigned anywhere in a Seq or FSM block (whole, bit or slice) takes the bits of its initval after one clock edge; no other register changes.", "quantifier": "all sets of assigned registers, all prior states", "why_tests_cant": "Must hold for every mix of whole/bit/slice assignment targets and every corrupted prior state.", "anchors": ["veriloggen/seq/seq.py:Seq.make_reset", "veriloggen/seq/reset_visitor.py:ResetVisitor"]}
{"id": "C11", "title": "FIFO behaves as a bounded first-in first-out queue", "statement": "Under any schedule of enqueue/dequeue requests, words leave the FIFO in exactly the order they were accepted, none is lost, duplicated or corrupted, an enqueue when full and a dequeue when empty have no effect.", "quantifier": "all address widths, all data, all request traces of any length", "why_tests_cant": "Pointer wrap-around bugs appear only at particular occupancies and histories.", "anchors": ["veriloggen/types/fifo.py:mkFifoDefinition"]}
{"id": "C12", "title": "FIFO flags and element count tell the truth", "statement": "empty holds exactly when no word is stored, full exactly when 2^addrwidth-1 words are stored, almost_empty/almost_full exactly at one word/one free slot or beyond, and the count register kept by the thread FIFO equals the number of stored words.", "quantifier": "all widths, all traces", "why_tests_cant": "Flag/count agreement must hold after every history including simultaneous enqueue and dequeue.", "anchors": ["veriloggen/types/fifo.py:mkFifoDefinition", "veriloggen/thread/fifo.py:FIFO.__init__"]}
{"id": "C13", "title": "Skid buffer is a lossless in-order valid/ready channel", "statement": "Every word accepted on the input side (valid and ready) is delivered exactly once, in order; output valid stays asserted with stable data until accepted; the buffer never accepts a word it cannot hold; with an always-ready consumer it accepts a word every cycle.", "quantifier": "all traces of valid/ready on both sides, all data, any number of buffers in series", "why_tests_cant": "Back-pressure interleavings are unbounded.", "anchors": ["veriloggen/types/skidbuffer.py:mkSkidBufferDefinition", "veriloggen/types/axi.py:sb_depth users"]}
{"id": "C14", "title": "RAM read returns the last value written to that address", "statement": "A read on any port returns, one cycle after the enable, the most recent word written to that address through any port (including a write in the same cycle on the same port), and words at other addresses are unaffected.", "quantifier": "all port counts, all traces of read/write requests in which two ports never write the same address in the same cycle", "why_tests_cant": "Read-after-write over unbounded histories and several ports.", "anchors": ["veriloggen/types/ram.py:mkRAMDefinition"]}
{"id": "C15", "title": "Burst RAM reads and writes touch exactly the requested addresses in order", "statement": "read_burst delivers the words at addr, addr+stride, ..., length words in order with last flagged on the final one, and write_burst stores the accepted words at those addresses and reports done after the last, whatever the ready/valid timing of the other side.", "quantifier": "all addresses, strides, lengths, and all handshake schedules", "why_tests_cant": "Stall patterns are unbounded; off-by-one and lost-beat bugs depend on them.", "anchors": ["veriloggen/thread/ram.py:RAM.read_burst,write_burst"]}
{"id": "C16", "title": "Multibank RAM maps logical addresses to banks bijectively", "statement": "In a MultibankRAM with 2^k banks, word address a is word a>>k of bank a mod 2^k, every (bank, word) pair is reached by exactly one address, and packed reads return the words of all banks, bank 0 in the least significant position, which a packed write with the same value stores back.", "quantifier": "all addresses, bank counts, data widths and contents", "why_tests_cant": "Aliasing between banks is a statement over all address pairs.", "anchors": ["veriloggen/thread/ram.py:MultibankRAM.read,write,_packed"]}
{"id": "C17", "title": "Pipelined multiplier returns the exact product after its latency", "statement": "With enables held, a multiplier of depth d outputs at cycle t+d the product of the operands presented at cycle t, modulo 2^output width, for signed and unsigned operands.", "quantifier": "all operand widths, depths, signedness, operand streams and enable patterns", "why_tests_cant": "Full operand and stall space is unbounded.", "anchors": ["veriloggen/types/mul.py", "veriloggen/stream/mul.py:mkMultiplierCore", "veriloggen/stream/madd.py"]}
{"id": "C18", "title": "Pipelined divider returns quotient and remainder", "statement": "For every width and every dividend and non-zero divisor the divider produces, after its fixed latency, the truncated quotient and the remainder (Verilog / and %), for unsigned and signed operands.", "quantifier": "all widths, operand values, signedness combinations", "why_tests_cant": "Exhaustive testing is impossible beyond tiny widths.", "anchors": ["veriloggen/stream/div.py:mkDivider"]}
{"id": "C19", "title": "AXI DMA bursts never cross a 4KB boundary and cover the transfer exactly", "statement": "For a DMA of n words the issued bursts are non-empty, each has at most 256 beats, none crosses a 4096-byte boundary, they are consecutive in address, and their lengths add up to n; the request generator finishes.", "quantifier": "all start addresses, all sizes n, all data widths 8..4096 bits (powers of two)", "why_tests_cant": "Arithmetic over all addresses and sizes; the boundary case analysis is easy to get off by one.", "anchors": ["veriloggen/thread/axim.py:AXIM._check_4KB_boundary,_synthesize_read_fsm,_synthesize_write_fsm", "veriloggen/types/axi.py"]}
{"id": "C20", "title": "AXI valid signals stay asserted with stable payload until ready", "statement": "Once a master channel raises awvalid, wvalid or arvalid, it keeps it raised with unchanged address/length/data until the cycle in which ready is high, whatever requests the user makes meanwhile, and every accepted request is transferred exactly once.", "quantifier": "all request and ready traces", "why_tests_cant": "Protocol stability is a property of all schedules.", "anchors": ["veriloggen/types/axi.py:AxiWriteAddress,AxiWriteData,AxiReadAddress,AxiMaster.write_request,read_request,write_data"]}
{"id": "C21", "title": "Outstanding-write counter and write completion", "statement": "The master's count of outstanding writes equals the number of address handshakes minus the number of response handshakes, never wraps, and write_completed is only reported when every issued write has been answered.", "quantifier": "all traces of handshakes of a compliant slave", "why_tests_cant": "Counter safety needs an invariant over all histories.", "anchors": ["veriloggen/types/axi.py:AxiMaster.__init__ (outstanding_wcount), write_acceptable, write_completed"]}
{"id": "C22", "title": "DMA request descriptors survive packing", "statement": "A DMA request (operation, local address, stride, size, block size) put into the internal request queue is recovered field by field unchanged.", "quantifier": "all field values within the declared widths", "why_tests_cant": "Bit-layout agreement of two functions over all values.", "anchors": ["veriloggen/thread/axim.py:AXIM._pack_read_req,_unpack_read_req,_pack_write_req,_unpack_write_req"]}
{"id": "C23", "title": "Width-converting DMA preserves the data", "statement": "A DMA between a RAM and a bus of different width transfers the same bits: narrow bus words are assembled little-endian into RAM words, wide bus words are split low part first, with no beat lost or repeated.", "quantifier": "all power-of-two width ratios, all transfer lengths, all handshake schedules", "why_tests_cant": "Unbounded transfers and schedules.", "anchors": ["veriloggen/thread/axim.py:AXIM._synthesize_read_data_fsm_narrow,_synthesize_read_data_fsm_wide"]}
{"id": "C24", "title": "AXI register slave answers a burst with exactly the requested beats", "statement": "A read burst of length n on the slave register interface returns exactly n beats, the last and only the last flagged rlast.", "quantifier": "all burst lengths and ready schedules", "why_tests_cant": "Beat counting must hold for all lengths and stalls.", "anchors": ["veriloggen/thread/axis.py:AXISRegister._set_register_fsm"]}
{"id": "C25", "title": "Mutex grants at most one thread", "statement": "At any time at most one thread is between a successful lock() and its unlock() of a Mutex; try_lock reports success to at most one of several simultaneous callers, and to none while another thread owns the mutex.", "quantifier": "all numbers of threads, all interleavings and timings", "why_tests_cant": "Mutual exclusion is a property of every interleaving.", "anchors": ["veriloggen/thread/ttypes.py:Mutex.lock,try_lock,unlock"]}
{"id": "C26", "title": "A free Mutex is always granted to some waiting thread", "statement": "If unlock() is only called by owners, the mutex is free and at least one thread keeps requesting it, some thread owns it within a bounded number of cycles (no deadlock).", "quantifier": "all numbers of threads, all request traces", "why_tests_cant": "Liveness over all schedules.", "anchors": ["veriloggen/thread/ttypes.py:Mutex.lock"]}
{"id": "C27", "title": "Barrier releases nobody before everybody has arrived", "statement": "No thread leaves Barrier.wait() until all parties have called it in this round, and once they all have, all of them are released and the barrier is ready for the next round.", "quantifier": "all numbers of parties, all arrival orders and timings, all rounds", "why_tests_cant": "Reusability of the barrier across rounds depends on timing.", "anchors": ["veriloggen/thread/ttypes.py:Barrier.wait,Barrier.__init__"]}
{"id": "C28", "title": "Stream pipeline aligns operands and computes the dataflow function", "statement": "For every stream expression graph, the scheduled pipeline delivers at its output, a fixed number of cycles after the inputs, exactly the value of the expression on those inputs, element by element; operands of each operator always belong to the same input element.", "quantifier": "all acyclic expression graphs, all operator latencies, all input sequences", "why_tests_cant": "Graph shapes and path-length mismatches are unbounded.", "anchors": ["veriloggen/stream/scheduler.py:ASAPScheduler", "veriloggen/stream/stream.py:Stream.implement"]}
{"id": "C29", "title": "Stream output valid marks exactly the valid inputs", "statement": "The stream's valid output is the valid input delayed by the pipeline depth (in enabled cycles), so each accepted element yields exactly one valid output element.", "quantifier": "all pipeline depths, valid/enable traces", "why_tests_cant": "Unbounded traces with stalls.", "anchors": ["veriloggen/stream/stream.py:Stream.implement", "veriloggen/stream/scheduler.py"]}
{"id": "C30", "title": "Reduction operators fold exactly the elements of each group", "statement": "ReduceAdd/ReduceMul/ReduceMax/... with size n produce, at the k-th element of each group of n valid elements, the fold of the operator over the first k elements of that group starting from initval, and ReduceXValid's valid output is raised exactly at each group's last element.", "quantifier": "all n, operators, inputs, valid/enable/reset traces", "why_tests_cant": "Needs induction over element sequences with interleaved stalls and resets.", "anchors": ["veriloggen/stream/stypes.py:_Accumulator._implement,Pulse,_ReduceValid"]}
{"id": "C31", "title": "Counter produces 0,step,2*step,... wrapping at size", "statement": "Stream Counter(size, step, initval, offset) yields for the k-th enabled element the value k*step modulo the wrap rule, independent of stalls.", "quantifier": "all sizes, steps dividing size, traces", "why_tests_cant": "Unbounded sequences and stalls.", "anchors": ["veriloggen/stream/stypes.py:Counter._implement"]}
{"id": "C32", "title": "Tree-shaped reductions equal the sequential fold", "statement": "AddTree, Max, Min, AndList-like trees over any argument list equal the left-to-right fold of the operator for an associative operator, for every number of arguments; their latency is logarithmic.", "quantifier": "all argument counts and values, all associative operators", "why_tests_cant": "Argument counts are unbounded.", "anchors": ["veriloggen/stream/stypes.py:op_tree,AddTree,Max,Min", "veriloggen/core/vtypes.py:_and_or list helpers"]}
{"id": "C33", "title": "RingBuffer read returns the element written the stated number of elements ago", "statement": "RingBuffer.read(k) returns, at each element, the value k positions into the window as documented, across wrap-around; LineBuffer columns behave as delay lines.", "quantifier": "all lengths, offsets, element traces", "why_tests_cant": "Wrap-around over unbounded traces.", "anchors": ["veriloggen/stream/stypes.py:RingBuffer,LineBuffer"]}
{"id": "C34", "title": "Rounding shift and average round as documented", "statement": "SraRound(x, r) is x/2^r rounded to nearest with ties away from zero; Average/AverageRound equal the (rounded) mean for power-of-two argument counts.", "quantifier": "all integers x, all shift amounts r", "why_tests_cant": "Infinite integer domain; negative ties are the classic mistake.", "anchors": ["veriloggen/stream/stypes.py:SraRound,Average,AverageRound"]}
{"id": "C35", "title": "Multi-dimensional source and sink patterns visit the right addresses", "statement": "set_source_pattern / set_source_multidim read the RAM at offset + sum(i_k*stride_k) with the first pattern entry varying fastest, exactly once per index tuple in order; stalls do not disturb the order; multipattern runs the given patterns one after another.", "quantifier": "all pattern depths, sizes, strides, offsets, stall schedules", "why_tests_cant": "The odometer logic must be right for all nestings and sizes.", "anchors": ["veriloggen/thread/stream.py:Stream._synthesize_set_source_pattern,_synthesize_set_sink_pattern,_to_pattern,_synthesize_set_source_multipattern"]}
{"id": "C36", "title": "Integer literals survive printing and parsing", "statement": "Converting an Int with any value, width, base and signedness to its Verilog literal text and reading that text back gives the same value, width, base and signedness, and the emitted text denotes that value.", "quantifier": "all integers, widths, bases 2/8/10/16/None, signed flags", "why_tests_cant": "Infinite domain.", "anchors": ["veriloggen/core/vtypes.py:Int,str_to_value,str_to_width,str_to_signed", "veriloggen/verilog/to_verilog.py:visit_Int"]}
{"id": "C37", "title": "Bit-slicing with Python syntax selects the Python-slice bits", "statement": "x[a:b] on a signal selects bits a..b-1 (Python slice semantics with negative indices and defaults), x[i] bit i, x[a:b:s] the strided bits concatenated; the width of the result is the number of selected bits.", "quantifier": "all widths, all slice bounds and steps", "why_tests_cant": "Large combination space with off-by-one and negative cases.", "anchors": ["veriloggen/core/vtypes.py:_Numeric.__getitem__,Slice,Pointer"]}
{"id": "C38", "title": "Constant evaluation of operators agrees with the emitted hardware", "statement": "Folding an operator on constants (operator.op, used by the resolver and optimizer) gives the value the emitted Verilog operator would have on those operands.", "quantifier": "all operators, all operand values and widths", "why_tests_cant": "Infinite operand domain; signed division and shifts differ on negative values only.", "anchors": ["veriloggen/core/vtypes.py:*.op", "veriloggen/optimizer/optimizer.py", "veriloggen/resolver/resolver.py:ConstantVisitor"]}
{"id": "C39", "title": "Resolving parameters preserves the meaning of the module", "statement": "resolve() replaces every parameter and localparam by its value regardless of declaration order, unrolls constant for-loops, and the resulting statements have the same effect; it reports an error iff some parameter depends on itself or on an undefined name.", "quantifier": "all parameter dependency graphs, all statements", "why_tests_cant": "Fixpoint iteration over arbitrary dependency graphs.", "anchors": ["veriloggen/resolver/resolver.py:ModuleReplaceVisitor._update_const_dict,ReplaceVisitor"]}
{"id": "C40", "title": "Optimizer passes preserve expression values", "statement": "try_optimize rewriting yields an expression with the same value under every valuation.", "quantifier": "all expressions, all variable valuations", "why_tests_cant": "All expression trees.", "anchors": ["veriloggen/optimizer/optimizer.py:try_optimize,makeDFTree,makeASTTree"]}
{"id": "C41", "title": "A module never declares one identifier twice", "statement": "Any sequence of Input/Output/Reg/Wire/Integer/Parameter/.../Instance calls either raises an error or leaves the module with pairwise distinct identifiers apart from the permitted Output+Reg/Wire pairs.", "quantifier": "all call sequences and names", "why_tests_cant": "All histories of declarations.", "anchors": ["veriloggen/core/module.py:Module.check_existing_identifier,find_identifier"]}
{"id": "C42", "title": "Temporaries get fresh names", "statement": "TmpReg/TmpWire/... always create an identifier different from every previously created temporary, whatever prefixes are used.", "quantifier": "all sequences of Tmp calls and prefixes", "why_tests_cant": "All histories; prefixes ending in digits can collide.", "anchors": ["veriloggen/core/module.py:Module.get_tmp,TmpReg"]}
{"id": "C43", "title": "Renaming and substitution change only what they should", "statement": "Renaming identifiers in a statement and substituting register sources (RenameVisitor, SubstSrcVisitor) preserve meaning: evaluating the renamed expression in a renamed environment equals evaluating the original.", "quantifier": "all expressions/statements, all injective renamings", "why_tests_cant": "All syntax trees.", "anchors": ["veriloggen/core/rename_visitor.py", "veriloggen/seq/subst_visitor.py"]}
{"id": "C44", "title": "Fixed-point conversion and arithmetic error bounds", "statement": "Converting a real/rational to fixed point with p fractional bits is within 2^-p; fixed add/sub/compare are exact after alignment; multiplication truncates by less than 2^-p; fixed-to-int truncates toward the documented direction; round trip of representable values is the identity.", "quantifier": "all values, all point positions", "why_tests_cant": "Infinite value domain.", "anchors": ["veriloggen/types/fixed.py"]}
{"id": "C45", "title": "Saturating arithmetic clamps and never wraps", "statement": "Saturated operations return the exact result when it lies in the representable range and the nearest bound otherwise.", "quantifier": "all widths, signedness, operand values", "why_tests_cant": "All operand pairs at all widths.", "anchors": ["veriloggen/types/saturate.py"]}
{"id": "C46", "title": "PatternMux/PatternIf pick the first matching alternative", "statement": "PatternMux([(c1,v1),...,(None,d)]) evaluates to the value paired with the first true condition, else the default; PatternIf executes only that branch; Case rejects a default that is not last.", "quantifier": "all list lengths, conditions, values", "why_tests_cant": "All condition valuations and list lengths.", "anchors": ["veriloggen/core/vtypes.py:PatternMux,PatternIf,Case"]}
{"id": "C47", "title": "Incremental conditional drivers: last matching source wins", "statement": "Signals built up with add_mux / add_enable_cond / add_disable_cond equal the value of the most recently added alternative whose condition holds, the default otherwise, regardless of the number of alternatives.", "quantifier": "all sequences of additions, all condition valuations", "why_tests_cant": "All histories of calls.", "anchors": ["veriloggen/types/util.py:add_mux,add_enable_cond,add_disable_cond,log2"]}
{"id": "C48", "title": "UART transmit/receive round trip", "statement": "Every byte sent by UartTx is received by a UartRx with the same baud setting as exactly one valid pulse with the same byte, for any idle time between bytes.", "quantifier": "all bytes, all bit periods (clocks per bit), all idle gaps and byte sequences", "why_tests_cant": "Clock-accurate behaviour over all bit periods and sequences.", "anchors": ["veriloggen/thread/uart.py:mkUartTx,mkUartRx"]}
{"id": "C49", "title": "Pipeline stage handshake is lossless", "statement": "In a Pipeline with valid/ready, each accepted input element leaves each stage exactly once and in order, whatever the downstream back-pressure; without valid/ready a stage is a one-cycle delay.", "quantifier": "all valid/ready traces, all pipeline depths", "why_tests_cant": "Back-pressure interleavings are unbounded.", "anchors": ["veriloggen/pipeline/pipeline.py:Pipeline._make_tmp"]}
{"id": "C50", "title": "Pseudo-random streams are reproducible and never stick at zero", "statement": "RandXorshift with non-zero seed never produces the zero state and its k-th element is the k-th iterate of the xorshift map, independent of stalls.", "quantifier": "all seeds, all element counts, stall traces", "why_tests_cant": "State space 2^32/2^64.", "anchors": ["veriloggen/stream/stypes.py:RandXorshift"]}
{"id": "C51", "title": "Thread start, join and pool bookkeeping", "statement": "join() returns only after every run() thread has reached its end state; a thread is not reported done before it has executed its last statement.", "quantifier": "all numbers of threads and timings", "why_tests_cant": "Interleavings.", "anchors": ["veriloggen/thread/thread.py:Thread.run,join,done", "veriloggen/thread/pool.py"]}
{"id": "C52", "title": "FSM statements run in exactly their state and under exactly their conditions", "statement": "A statement added to an FSM changes its registers in a cycle exactly when the machine is in the statement's state and its If/Elif/Else conditions hold; several statements of a state act in program order.", "quantifier": "all FSM programs of assignments, If/Elif/Else chains and gotos, all register valuations", "why_tests_cant": "The builder keeps hidden call-to-call state (open If, pending Else, condition stack); every call order matters.", "anchors": ["veriloggen/fsm/fsm.py:FSM.add,If,Else,Elif,_add_statement,_set_index"]}
{"id": "C53", "title": "AXI register slave stores write bursts in order with one response each", "statement": "A write burst at byte address a on the slave register interface stores its k-th beat in register ((a >> shift) + k) mod 2^maskwidth; it is preceded by exactly one accepted address and followed by exactly one response after its last beat, for every interleaving with reads and stalls.", "quantifier": "all burst lengths, addresses, ready/valid schedules, interleavings with reads", "why_tests_cant": "The shared read/write FSM must behave for every schedule, not only for the back-to-back transfers tests make.", "anchors": ["veriloggen/thread/axis.py:AXISRegister._set_register_fsm"]}
{"id": "C54", "title": "Unlock by a thread that does not own the Mutex has no effect", "statement": "A call of unlock() by a thread that does not own the mutex changes nothing for the other threads.", "quantifier": "all numbers of threads, all interleavings", "why_tests_cant": "The effect shows only when the stray unlock coincides with an attempt of another thread.", "anchors": ["veriloggen/thread/ttypes.py:Mutex.unlock"]}
{"id": "C55", "title": "Different submodules are printed under different names", "statement": "When modules are instantiated, every instantiated module definition is printed, under its own name, and no two printed modules share a name, also if several definitions were created with the same name.", "quantifier": "all sequences of Instance calls, all module names", "why_tests_cant": "All histories of instantiations and name collisions.", "anchors": ["veriloggen/core/module.py:Module.Instance,find_module,get_modules"]}
{"id": "C56", "title": "Plain sources and sinks visit offset + i*stride", "statement": "set_source reads, and set_sink writes, the RAM at offset, offset+stride, ..., offset+(size-1)*stride (modulo the address width), each exactly once and in order, whatever the stalls; a sink with a when condition gives the k-th address to the k-th datum that is taken.", "quantifier": "all sizes from 1, strides, offsets, stall schedules and when conditions", "why_tests_cant": "All counter values, wrap-arounds and stall schedules.", "anchors": ["veriloggen/thread/stream.py:Stream._synthesize_set_source,_synthesize_set_sink"]}
{"id": "C57", "title": "Written Verilog means what the objects mean", "statement": "to_verilog turns expressions, statements, always and initial blocks, instances, generate blocks and whole modules into syntax trees with the same meaning: same values, same process behaviour (including delays, waits and cut-off runs), same ports and, after the generate constructs are worked out, the same declarations and processes, for every meaning of names, operators and states.", "quantifier": "all modules built from these objects, all interpretations of values and states", "why_tests_cant": "All nestings of statements and all interpretations; tests compare fixed texts.", "anchors": ["veriloggen/verilog/to_verilog.py:VerilogBindVisitor,VerilogCommonVisitor,VerilogAlwaysVisitor,VerilogBlockingVisitor,VerilogModuleVisitor"]}
{"id": "C58", "title": "Reading a Verilog module preserves its meaning", "statement": "from_verilog turns a syntax tree into objects with the same meaning, and writing these objects gives a tree with the same meaning as the one read.", "quantifier": "all syntax trees of the supported constructs, all interpretations of values and states", "why_tests_cant": "All nestings, all interpretations.", "anchors": ["veriloggen/verilog/from_verilog.py:VerilogReadVisitor", "veriloggen/verilog/to_verilog.py"]}
{"id": "C59", "title": "Writing, reading and writing again gives the same tree", "statement": "If a module is written and the result is read and written again, the second result equals the first.", "quantifier": "all modules built from the modelled objects", "why_tests_cant": "All nestings of statements, generate blocks and literals.", "anchors": ["veriloggen/verilog/to_verilog.py", "veriloggen/verilog/from_verilog.py"]}
{"id": "C60", "title": "The simulated AXI memory stores what is written and returns what it stores", "statement": "Every accepted write burst is stored byte by byte under its strobes and acknowledged with its id, in order. Every accepted read is answered with its id, its last flag and the contents of the memory. Reads after all responses return what was written. Everything is served in bounded time.", "quantifier": "all widths, delays, sleep settings, FIFO depths, initial contents, schedules of the master, bursts and requests inside the memory", "why_tests_cant": "All interleavings of five channels, all delays and back pressure patterns.", "anchors": ["veriloggen/types/axi.py:AxiMemoryModel"]}
{"id": "C61", "title": "The thread functions of the AXI memory read and write words of a packed array", "statement": "read and write access whole words at byte addresses. read_word and write_word access the word with a given index in an array of words of a given number of bits, and nothing else.", "quantifier": "all contents, offsets, indices, word widths and values", "why_tests_cant": "All widths and bit alignments.", "anchors": ["veriloggen/types/axi.py:AxiMemoryModel.read", "veriloggen/types/axi.py:AxiMemoryModel.write", "veriloggen/types/axi.py:AxiMemoryModel.read_word", "veriloggen/types/axi.py:AxiMemoryModel.write_word"]}
{"id": "C62", "title": "The ports of the simulated multi-port memory do not disturb each other", "statement": "The handshakes at a port are those of a memory with this port alone. Every port is served in bounded time. Writes are stored where no other port writes, and reads return contents of the shared memory.", "quantifier": "all numbers of ports, parameters, contents and behaviours of all masters", "why_tests_cant": "All interleavings of the traffic of all ports.", "anchors": ["veriloggen/types/axi.py:AxiMultiportMemoryModel"]}
{"id": "C63", "title": "The AXI stream input gives every job its own words, in order", "statement": "Direct reads and DMA transfers into any number of RAMs, of equal, narrower and wider words, take consecutive words of the stream in the order in which they were issued, never more than their own. When the wait function lets a thread pass, every RAM holds what its transfers ask for and every read returned its word. Without new jobs the interface is idle after a bounded number of valid words.", "quantifier": "all numbers and widths of RAMs, all requests, all stream contents and timings", "why_tests_cant": "Unbounded mixes of operations sharing one request queue and one set of registers.", "anchors": ["veriloggen/thread/axistreamin.py:AXIStreamIn", "veriloggen/types/axi.py:AxiStreamInData.read_data"]}
{"id": "C64", "title": "The AXI stream output sends every job's words in order, and ends", "statement": "Direct writes and DMA transfers out of any number of RAMs, of equal, narrower and wider words, send exactly their words, in the order in which they were issued, with the last flag on the last word of each transfer. A word the receiver does not take stays unchanged. When the wait function lets a thread pass, all words are sent or in the channel. Without new jobs everything is sent after a bounded number of cycles with tready.", "quantifier": "all numbers and widths of RAMs, all requests and RAM contents, all timings of the receiver", "why_tests_cant": "Unbounded mixes of operations sharing one request queue, one channel and three data FSMs; the tests use one RAM per width.", "anchors": ["veriloggen/thread/axistreamout.py:AXIStreamOut", "veriloggen/types/axi.py:AxiStreamOutData.write_data"]}
{"id": "C65", "title": "Dataflow pipelines neither lose, repeat nor reorder words", "statement": "A dataflow graph with valid and ready on its inputs and outputs delivers at every output exactly the stream of words that its operators define on the streams of the words accepted at the inputs, whatever the inputs and the receivers stall, and delivers a word per cycle when nothing stalls.", "quantifier": "all graphs, operators, depths, input words, all timings of inputs and receivers", "why_tests_cant": "The handshake of a graph depends on every combination of stalls at every input and output over unbounded time; the tests drive a few graphs with a few patterns.", "anchors": ["veriloggen/dataflow/dtypes.py:_BinaryOperator._implement", "veriloggen/dataflow/dtypes.py:_and_vars", "veriloggen/dataflow/dtypes.py:_connect_ready", "veriloggen/dataflow/dtypes.py:_Prev"]}
{"id": "C66", "title": "The dataflow scheduler balances all paths and changes no stream", "statement": "The scheduler inserts delays so that all paths from the inputs to any node take the same time and all outputs end in the same stage, the pipeline depth, which is the latency of the longest path. The scheduled graph has the same inputs and outputs and the same output streams; for one-stage operators the circuit, with inputs and receivers in step, delivers the streams of the graph as written, at a word per cycle.", "quantifier": "all graphs, operators, latencies, input streams", "why_tests_cant": "Delay sharing and balancing depend on the whole graph; tests compare simulations of a few graphs.", "anchors": ["veriloggen/dataflow/scheduler.py:ASAPScheduler", "veriloggen/dataflow/dataflow.py:Dataflow.implement", "veriloggen/dataflow/dtypes.py:_Delay"]}
{"id": "C67", "title": "Dataflow accumulators fold the words of the current group", "statement": "For every stream of words with optional enable and reset, a dataflow reduction gives, for each word, the fold of its operator over the enabled words of the current group: those since the last reset, in groups of size words. A counter goes from its initial value up by its step and starts again after size words or at a reset; a pulse is up exactly on the last word of each group.", "quantifier": "all operators, sizes, widths, initial values, streams, enables, resets", "why_tests_cant": "Long streams, group boundaries, and combinations of size, enable and reset are many; tests try one or two.", "anchors": ["veriloggen/dataflow/dtypes.py:_Accumulator", "veriloggen/dataflow/dtypes.py:Counter", "veriloggen/dataflow/dtypes.py:Pulse", "veriloggen/dataflow/dtypes.py:ReduceMul"]}
{"id": "C68", "title": "run and join of a thread stream do exactly one run", "statement": "When a thread calls run on a stream with RAM sources and sinks and then join, for any stalls: the pipeline takes the words of the sources in order as valid elements and no others, reduce_reset comes with the first, every sink writes the results of these elements for which its condition holds at its addresses, in order, and nothing else; join returns after the last write and within a bounded number of unstalled cycles; the stream is then ready for the next run. Runs that are started while an earlier one is still in the pipeline behave alike, and join waits for the last of them.", "quantifier": "all stall patterns, pipelines, depths, numbers of sources and sinks, offsets, sizes, strides, conditions, numbers of runs", "why_tests_cant": "The timing of start, stop and busy signals depends on depth, sizes and stalls together; tests run a few streams without stalls and without overlapping runs.", "anchors": ["veriloggen/thread/stream.py:Stream._synthesize_run", "veriloggen/thread/stream.py:Stream._synthesize_set_source", "veriloggen/thread/stream.py:Stream._synthesize_set_sink", "veriloggen/thread/stream.py:Stream.join", "veriloggen/thread/stream.py:Stream.source_join_and_run"]}
{"id": "C69", "title": "Stream operators compute on the numbers of their operands", "statement": "Every operator of the stream library stores the result of its operation on the numbers that its operands stand for (bit pattern read with width, sign and point of the node): sums and differences exactly, products and casts rounded down to the point of the result, comparisons of the numbers, shifts by powers of two, quotient and remainder, bitwise operators and reductions bit by bit, slices, concatenations and splits of the bits, selection of a value, absolute value and sign, table look-up; all modulo the range of the declared result.", "quantifier": "all widths, points, signs, values, constants, latencies", "why_tests_cant": "The result depends on Verilog's rules for widths and signs of mixed operands; the tests use one width, signed operands and mostly point 0.", "anchors": ["veriloggen/stream/stypes.py:_BinaryOperator", "veriloggen/stream/stypes.py:Plus", "veriloggen/stream/stypes.py:Times", "veriloggen/stream/stypes.py:Divide", "veriloggen/stream/stypes.py:Mod", "veriloggen/stream/stypes.py:_BinaryLogicalOperator", "veriloggen/stream/stypes.py:Cast", "veriloggen/stream/stypes.py:Split", "veriloggen/stream/stypes.py:Cond", "veriloggen/stream/stypes.py:LUT", "veriloggen/stream/stypes.py:_MulAdd"]}
{"id": "C70", "title": "Pipelined dataflow operators deliver the result of the operands that entered one latency earlier", "statement": "Times, Divide and Mod of the dataflow library behave as a pipeline with as many slots as their declared latency that moves whenever its last slot is empty or read: the valid bit is that of the operands that entered the last slot, and the data are, on the numbers the operands stand for, their product rounded down to the point of the result, their quotient truncated toward zero, or the remainder of that division, modulo the range of the result; Abs and Sign give absolute value and sign.", "quantifier": "all widths, points, signs, latencies of the multiplier, operand values, sequences of stalls, bubbles and resets", "why_tests_cant": "The sign and valid bits travel through register chains whose lengths depend on the width; tests run one width and signed operands that are small compared with the range.", "anchors": ["veriloggen/dataflow/dtypes.py:Times", "veriloggen/dataflow/dtypes.py:Divide", "veriloggen/dataflow/dtypes.py:Mod", "veriloggen/dataflow/dtypes.py:Abs", "veriloggen/dataflow/dtypes.py:Sign", "veriloggen/dataflow/div.py:get_div", "veriloggen/dataflow/mul.py:mkMultiplier"]}
{"id": "C71", "title": "The AXI stream input with FIFOs serves reads and DMA transfers in order and loses no word", "statement": "For an AXIStreamInFifo with any FIFOs (as wide as, wider or narrower than the stream), every job (a DMA transfer of n FIFO words or a direct read) takes its own consecutive words of the stream in the order in which the jobs were issued; the words of a transfer, repacked to the width of its FIFO, enter that FIFO exactly once and in order, with stalls whenever the FIFO is almost full; when dma_wait_read lets a thread pass all transfers are complete; and the engine becomes idle after enough valid words with room in the FIFOs.", "quantifier": "all widths, FIFO depths, numbers of FIFOs, sequences of requests, stream words, bubbles and FIFO reads", "why_tests_cant": "The tests transfer one block into FIFOs that never fill up; the cases that fail need a FIFO getting full in a particular cycle, two FIFOs of the same width or a size that is not a multiple of the ratio.", "anchors": ["veriloggen/thread/axistreamin.py:AXIStreamInFifo", "veriloggen/thread/axistreamin.py:AXIStreamInFifo._synthesize_read_data_fsm_same", "veriloggen/thread/axistreamin.py:AXIStreamInFifo._synthesize_read_data_fsm_narrow", "veriloggen/thread/axistreamin.py:AXIStreamInFifo._synthesize_read_data_fsm_wide", "veriloggen/thread/fifo.py:FIFO.enq_rtl"]}
{"id": "C72", "title": "The AXI stream output with FIFOs sends writes and DMA transfers in order, each with its own words", "statement": "For an AXIStreamOutFifo with any FIFOs (as wide as, wider or narrower than the stream), every job (a DMA transfer of n FIFO words or a direct write) sends its words in the order in which the jobs were issued: a transfer takes the next n words of its FIFO, no more and no less, and sends them repacked to the width of the stream, with the last flag on its last word only; a word that the receiver does not take is held; when dma_wait_write lets a thread pass all transfers are complete; and the engine becomes idle after enough cycles in which the receiver is ready and the FIFO is not empty.", "quantifier": "all widths, FIFO depths, numbers of FIFOs, sequences of requests, FIFO contents, pauses of the producers and of the receiver", "why_tests_cant": "The tests transfer one block out of one synchronous FIFO; the cases that fail need a second FIFO of the stream's width, an asynchronous FIFO or a size that is not a multiple of the ratio, and a wrong hold register only shows for particular pauses.", "anchors": ["veriloggen/thread/axistreamout.py:AXIStreamOutFifo", "veriloggen/thread/axistreamout.py:AXIStreamOutFifo._synthesize_write_data_fsm_same", "veriloggen/thread/axistreamout.py:AXIStreamOutFifo._synthesize_write_data_fsm_narrow", "veriloggen/thread/axistreamout.py:AXIStreamOutFifo._synthesize_write_data_fsm_wide", "veriloggen/thread/fifo.py:FIFO.deq_rtl", "veriloggen/types/axi.py:AxiStreamOutData.write_data"]}
{"id": "C73", "title": "Calls on a shared thread FIFO act like single operations on one bounded list", "statement": "Threads that share a FIFO and call enq, deq, try_enq and try_deq in any order see one bounded list of words: there is an order of single put and get operations, each taking place inside the call it belongs to, that explains all results; try_enq returns true exactly when its word was stored, try_deq returns a valid word exactly when it removed that word; enq waits only while the FIFO is (almost) full and deq only while it is empty; a consumer receives exactly what a producer was told was sent, in order.", "quantifier": "all numbers of threads, programs (including ones that choose calls from earlier results), interleavings, depths, synchronous and asynchronous read", "why_tests_cant": "The tests run one producer and one consumer with fixed loops; whether a result is true for a word accepted in the cycle before depends on the exact cycle of the other thread's call, and two threads driving one port in one cycle is never scheduled.", "anchors": ["veriloggen/thread/fifo.py:FIFO.enq", "veriloggen/thread/fifo.py:FIFO.deq", "veriloggen/thread/fifo.py:FIFO.try_enq", "veriloggen/thread/fifo.py:FIFO.try_deq", "veriloggen/thread/fifo.py:FIFO.enq_rtl", "veriloggen/thread/fifo.py:FIFO.deq_rtl", "veriloggen/types/util.py:add_mux", "veriloggen/types/util.py:add_enable_cond"]}
{"id": "C74", "title": "The AXI-Lite register slave carries out one transaction at a time on an array of registers", "statement": "For every behaviour of the master and of the threads, the bus events of AXISLiteRegister are those of a register bank that serves one transaction at a time: every accepted read delivers the contents of the addressed register (clearing it when it is flagged), every accepted write stores its word before the response, words and responses stay until they are taken; accepted requests are served within a fixed number of cycles, and every request that stays on the bus is accepted in the end.", "quantifier": "all register numbers, address widths and shifts, all sequences of inputs of the master and updates of the threads", "why_tests_cant": "The tests write a few registers from one master that never has a read and a write pending at once; the arbitration by the previous cycle's valid signals only matters for overlapping requests.", "anchors": ["veriloggen/thread/axis.py:AXISLiteRegister.__init__", "veriloggen/thread/axis.py:AXISLiteRegister.write", "veriloggen/thread/axis.py:AXISLiteRegister.write_flag", "veriloggen/thread/axis.py:AXISLiteRegister.wait_flag", "veriloggen/types/axi.py:AxiLiteSlave.pull_request", "veriloggen/types/axi.py:AxiLiteSlaveReadData.push_read_data"]}
{"id": "C75", "title": "Every call on an AXI-Lite master is one bus transaction and returns", "statement": "Calls of read, write, read_delayed and write_delayed on an AXI-Lite master put exactly one transaction each on the bus, in call order and one at a time, with the address and word of the call; addresses and data stay on the bus until they are taken; a read returns the word the slave delivered for it and a write returns after its response; connected to AXISLiteRegister a read returns the word written last to that register; every call returns on every slave that follows the AXI rules, and within a fixed number of cycles on AXISLiteRegister.", "quantifier": "all numbers of skid buffers, all sequences of calls and delays, all behaviours of a slave that answers only what was asked", "why_tests_cant": "The tests use one slave model that takes addresses without looking at the data and never stalls in the middle; the skid buffers and the outstanding counter matter only for other timings.", "anchors": ["veriloggen/thread/axim.py:AXIMLite.read", "veriloggen/thread/axim.py:AXIMLite.write", "veriloggen/thread/axim.py:AXIMLiteVerify.read_delayed", "veriloggen/thread/axim.py:AXIMLiteVerify.write_delayed", "veriloggen/types/axi.py:AxiLiteMaster.write_request", "veriloggen/types/axi.py:AxiLiteMasterWriteAddress.write_request", "veriloggen/types/axi.py:AxiLiteMasterWriteData.write_data", "veriloggen/types/axi.py:AxiLiteMasterReadData.read_data"]}
{"id": "C76", "title": "Block bursts deal the words to the banks in blocks, and reading them back restores the order", "statement": "A block write burst of L words with block size B on a multibank RAM stores the k-th word in bank (k/B) mod n at the next free place of that bank's address sequence, changes nothing else, raises done once, after the last word, and is then idle; a block read burst delivers the words in the order of the deal, flags exactly the last and is then idle; reading after writing returns the words in order; a broadcast write stores all words in every bank; the producer that keeps a word until wready writes every word once.", "quantifier": "all numbers of banks, block sizes, lengths, addresses and strides, all producer and consumer schedules", "why_tests_cant": "The tests use two or four banks, a power-of-two block size and a DMA that is always ready and never looks at wready.", "anchors": ["veriloggen/thread/ram.py:MultibankRAM.read_burst_block", "veriloggen/thread/ram.py:MultibankRAM.write_burst_block", "veriloggen/thread/ram.py:MultibankRAM.write_burst_bcast"]}
{"id": "C77", "title": "Packed bursts move consecutive elements of a multibank RAM", "statement": "A packed write of a number of elements (dma_read_packed) stores the elements of the wide words at consecutive element addresses from the given address on and changes no other element; a packed read delivers wide words whose elements are the elements at consecutive addresses; done is raised once, after the last word; what is written is read back.", "quantifier": "all numbers of banks, element widths, addresses and sizes, all producer and consumer schedules", "why_tests_cant": "The tests use aligned addresses, sizes that are multiples of the number of banks, and two or four banks.", "anchors": ["veriloggen/thread/ram.py:MultibankRAM.read_burst_packed", "veriloggen/thread/ram.py:MultibankRAM.write_burst_packed", "veriloggen/thread/axim.py:AXIM._dma_read_packed", "veriloggen/thread/axim.py:AXIM._dma_write_packed"]}
{"id": "C78", "title": "Stream operators with state depend only on the elements", "statement": "A predicate holds the data of the last element whose condition holds. The index of ReduceArgMax (ReduceArgMin) is the place of the first maximum (minimum) of the current group. The valid output of CounterValid marks the last number before the counter wraps. A read of a scratchpad returns the word after the writes up to the same element. The variables of a CustomCounter start at the initial values and follow the function with each element. All this for every pattern of stalls and bubbles.", "quantifier": "all element sequences, group sizes, enables and resets, addresses, distances between write and read, user functions, stalls and bubbles", "why_tests_cant": "The tests use one group of positive numbers, steps of one, reads in the stage after the write and no bubbles.", "anchors": ["veriloggen/stream/stypes.py:Predicate", "veriloggen/stream/stypes.py:ReduceArgMax", "veriloggen/stream/stypes.py:ReduceArgMin", "veriloggen/stream/stypes.py:CounterValid", "veriloggen/stream/stypes.py:Scratchpad", "veriloggen/stream/stypes.py:_CustomCounter"]}
{"id": "C79", "title": "Evaluating a stream expression does not change the number it stands for", "statement": "eval() of a stream expression returns a number or a simpler expression that has the value of the expression for all values of its variables; an expression without variables is evaluated to a number; Pointer has latency 0 only for constant positions.", "quantifier": "all expressions over the stream operators, all values of the variables, all widths of the nodes", "why_tests_cant": "No test calls eval on more than a literal; the expressions form an infinite set.", "anchors": ["veriloggen/stream/stypes.py:*.eval", "veriloggen/stream/stypes.py:Pointer.__init__", "veriloggen/stream/stypes.py:_Numeric.__lt__"]}
{"id": "C80", "title": "A reduction by division divides by every element of the group", "statement": "ReduceDiv holds, when it is not busy, the initial value divided by the elements of the group one after the other (for unsigned numbers: by their product); it stalls the stream for at most width + 2 cycles per element, loses no element and takes none while busy.", "quantifier": "all widths, group sizes, initial values, non-zero elements, all patterns of valid and ready, any number of cycles", "why_tests_cant": "A test runs one sequence of elements at one width; the interplay of the stall with the pipeline of the divider depends on the width and on when elements arrive.", "anchors": ["veriloggen/stream/stypes.py:ReduceDiv", "veriloggen/stream/div.py:get_div"]}
{"id": "C81", "title": "The mover from bus to stream makes one packet per request", "statement": "AXIM_for_AXIStreamIn hands the words read from the bus to the stream in order, none lost or doubled under any waits, with the last flag exactly on the last word of every request; the bursts cover the requests; idle means that all packets are complete; once requests stop, enough cycles with a willing bus and stream make it idle; a word offered stays until it is taken.", "quantifier": "all address widths, word sizes up to 4096 bytes, queue sizes of at least 4, all sequences of requests of at least one word inside the address space, all wait patterns, any number of cycles", "why_tests_cant": "A test uses few requests and wait patterns; mixing up sizes of queued requests needs several requests under way with particular waits.", "anchors": ["veriloggen/thread/axim_for_axistream.py:AXIM_for_AXIStreamIn"]}
{"id": "C82", "title": "The mover from stream to bus sends every burst its words", "statement": "AXIM_for_AXIStreamOut puts the words of the stream on the write data channel in order, none lost or doubled, with the last flag exactly on the last word of every burst put on the address channel; the bursts cover the requests; idle means that all bursts are complete and as many words were sent as requested; once requests stop, enough cycles with a willing bus and stream make it idle; a word offered stays until it is taken.", "quantifier": "all address widths, word sizes up to 4096 bytes, queue sizes of at least 4, all sequences of requests of at least one word inside the address space, all wait patterns, any number of cycles", "why_tests_cant": "Totals and burst sizes share one queue; taking one for the other needs particular sizes and waits that no finite test set covers.", "anchors": ["veriloggen/thread/axim_for_axistream.py:AXIM_for_AXIStreamOut"]}
{"id": "C83", "title": "The serial memory carries out one burst after the other", "statement": "AxiSerialMemoryModel, driven by any master that offers its requests in order and holds them until taken, does what a memory does that carries out whole bursts one by one in some order that keeps the order of the writes and of the reads: each read is answered with the memory left by the bursts before it, with last flag and id; each write is answered by one response with its id after all its beats were taken; between bursts the memory, the requests taken and the answers are exactly those of the bursts carried out, and this list only grows at its end.", "quantifier": "all data, address and id widths, delays, sleep intervals, memories, lists of bursts inside the memory, all wait patterns and any number of cycles", "why_tests_cant": "A test runs a few bursts with one master; mixing of bursts, stale addresses or lost responses depend on when responses are taken and on sleeps, over unbounded runs.", "anchors": ["veriloggen/types/axi.py:AxiSerialMemoryModel"]}
{"id": "C84", "title": "A submodule gets variables as wide as its ports and the parameters asked for", "statement": "Submodule(parent, child, name, prefix, arg_params, arg_ports, as_io, as_wire): the constants it adds to the parent give every new variable the width that the port of the instance has, overridden parameters included; the instance has the constants it would have with the arguments themselves; every port of the child is connected once, to its argument or to the new variable of its name, which is declared exactly once: as a port of the same direction if listed in as_io, else as a wire, or as a reg for inputs not listed in as_wire; arguments for parameters or ports the child does not have are errors.", "quantifier": "all children with constants declared before use, all prefixes, arguments, values of the parent's names, and lists as_io and as_wire", "why_tests_cant": "Tests instantiate a few children; which constants have to be copied depends on how constants speak of each other.", "anchors": ["veriloggen/core/submodule.py:Submodule", "veriloggen/core/collect_visitor.py:CollectVisitor", "veriloggen/core/module.py:Module.copy_params_as_localparams"]}
