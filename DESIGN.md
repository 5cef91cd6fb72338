# Formal model of veriloggen in Rocq (Coq 8.16.1)

## 1. Approach

veriloggen is a generator: Python calls build Verilog.  Users rely on two things: the
generator functions (what text/AST they build) and the behaviour of the hardware they build.
The model follows this split.

* **Generator code** (`vtypes`, `seq`, `fsm`, `thread.compiler`, `stream.scheduler`, visitors, `module`)
  is modelled by Gallina functions on ASTs that mirror the Python functions branch by branch;
  Python exceptions are values of an `Err`/`None` result.  Emitted Verilog gets a small semantics
  (synchronous non-blocking assignment, last write wins) which is part of the trusted base.
* **Library hardware** (`fifo`, `skidbuffer`, `ram`, `mul`, `div`, `axi`, `axim`, `ttypes`, `stypes`, `uart`, ...)
  is modelled as clocked next-state functions.  Every `seq.If(c)(x(v))` / `fsm.If(c)(x(v))` of the source is one
  conditional update of the next state computed from the *old* state; updates are applied in emission order, so
  a later one overrides an earlier one exactly as non-blocking assignments do.  Register wrap-around is written
  explicitly (`mod 2^w`) wherever the property depends on it.
* Each model definition carries a comment `[file:lines]`, with simplifications named there.

Files (in `rocq/theories/`): `X_Model.v` holds definitions only, `X_Proofs.v` the lemmas, `X_Props.v` only property
theorems, each closed with `exact` and followed by `Print Assumptions`, with non-vacuity `Example`s beside them.
Small specs a reader needs (e.g. "a queue is a list") are in the Props files or in `X_Spec.v`.

## 2. Property plan

| id | files | proof method |
|----|-------|--------------|
| C01-C04 | `Py_*` (Python subset, big-step semantics), `Comp_*` (the thread compiler) | forward simulation by induction on the big-step semantics; determinism gives the converse; refutations by computation |
| C05,C06,C52 | `Fsm_*`: builder tables, case- and if-emitters, statement semantics | structural induction on tables and statements |
| C07-C10 | `Vlog`, `Seq_*`: builder with last_cond, delayed tables, Prev cache; clocked semantics | induction on traces |
| C11,C12 | `Fifo_*`, `FifoThread_*` | refinement to a list queue, induction on traces |
| C13 | `Skid_*`, `Pack` | refinement to a two-place queue; composition for chains |
| C14-C16 | `Ram_*` | invariants over histories; schedule induction |
| C17,C18 | `Mult_*`, `Div_*`, `Bits` | invariant per stage; restoring-division loop invariant for all widths |
| C19-C24,C53 | `AxiDma_*`, `AxiChan_*`, `AxiData_*`, `AxiSlave_*` | induction on the remaining size; handshake invariants |
| C25-C27,C54 | `Mutex_*`, `Barrier_*` | invariants over all interleavings (synchronous steps with arbitrary client requests) |
| C28,C29,C50 | `Stream_*`: expression DAG, scheduling, registers | induction over the DAG and over element traces |
| C30,C31 | `Reduce_*`: accumulators, counters, pulses | induction over element traces |
| C32,C34 | `Tree_*` | list induction; Z arithmetic |
| C33 | `Buffer_*` | refinement to a delay line / abstract rows |
| C35,C56 | `Pat_*` | lists of remaining addresses, induction on dimensions and traces |
| C36 | `Lit_*` | string induction |
| C37,C38,C46,C47 | `Vx_*` | structural induction; Z bit lemmas |
| C39,C40 | `Res_*` | structural induction; fixed point of the dependency passes |
| C41,C42,C55 | `Mod_*` | invariant over call sequences |
| C43 | `Ren_*` | structural induction |
| C44,C45 | `Fix_*`, `Sat_*` | Z arithmetic |
| C48 | `Uart_*` | cycle-accurate product machine; induction on bits |
| C49 | `Pipe_*` | refinement to queues; rank induction over the pipeline |
| C51 | `Thr_*` | invariant of the builder, then of all runs |
| C57-C59 | `Rw_*`: objects and pyverilog trees, writer and reader | structural induction; processes as sets of runs over an arbitrary algebra; normal forms |
| C60 | `AxiMem_*`: the five channel machine of the simulated memory | state invariants over all runs; a measure for bounded time |
| C61 | `AxiMemWord_*`: thread functions on the memory | bit by bit |
| C62 | `AxiPorts_*`: several ports on one memory | projection to one port; frame argument for the contents |
| C63 | `AxisIn_*`: the AXI stream input, its request queue, three shared data FSMs, reads | each operation in progress is a run of the machine of C23; the others are quiet |
| C64 | `AxisOut_*`: the AXI stream output, its request queue, three shared data FSMs, the channel, writes | data state 2 of the selected operation is the write machine of C23 with an empty burst queue; refutations for two RAMs of the stream's width and for two ratios |
| C65 | `Dflow_*`: valid/ready pipelines of `dataflow/dtypes.py` after scheduling, any graph of any operators | streams of a graph (`den`) defined without timing; all results for *fair* runs, in which an operator takes a word exactly when its operand gives it away; fairness from the graph (`closed`) or from lockstep (`levelled`, `synchronous`); refutations for lost and repeated words |
| C66 | `Dsched_*`: the dataflow scheduler: ASAP stages, delays, balanced outputs | invariant with the old node each new node stands for; stages against the latencies of all paths; streams kept; the result meets the hypotheses of C65 |
| C67 | `Dacc_*`: reductions, counters and pulses of the dataflow library as operators of C65; registers with their conditional assignments in program order | the enabled words since the last reset, in groups, as lists; invariant: register = fold over the current group, counter = position; exact behaviour after a reset with a size, refutations |
| C68 | `Srun_*`: run FSM, delays, busy, plain sources and sinks (FSMs of C56) and the calling thread of `thread/stream.py`; the pipeline is any function of the elements it took | one run as lists: elements of the run, addresses, results that pass the condition; all registers as functions of the number of unstalled cycles since the start; refutations for overlapping runs |
| C69 | `Sop_*`: the operators of `stream/stypes.py` as functions of their operands: result width, point and sign, Verilog expression (semantics of C43), multiplier and divider of C17, C18 held for their latency | an operand is a rational number (raw value and point); sums, products, casts, comparisons as equations and rounding bounds on rationals, bit operators bit by bit; refutations for mixed signs, positive constants, points of Divide, Mod, Cond, comparisons |
| C70 | `Dop_*`: the pipelined operators of `dataflow/dtypes.py` (`Times`, `Divide`, `Mod`) register by register: operand, magnitude, sign and valid registers around the multiplier of C17 and the divider of C18, moved by `accept`; `Abs` and `Sign` | run of the operator = run of a pipeline of `latency` slots (spec); the last slot shows product, quotient or remainder of the operands that entered it (invariant over all runs with stalls and resets) |
| C71 | `AxisInFifo_*`: `AXIStreamInFifo` of `thread/axistreamin.py` register by register: request queue, three data machines, packing registers and the FIFO of every operation, direct `read` | invariant by phase (idle, read, transfer), word packing of C57 reused; stalls by `almost_full`; refutations for the missing selector, partial stream words and the word lost at the end |
| C72 | `AxisOutFifo_*`: `AXIStreamOutFifo` of `thread/axistreamout.py` register by register: request queue, three data machines, the FIFO, the hold and packing registers of every operation, the channel with the last flag, direct `write` | invariant by phase (idle, write, transfer) over what the running transfer took and sent; measure for progress; refutation for a second FIFO of the stream's width by an invariant over all runs |
| C73 | `FifoCalls_*`: the states of `enq`, `deq`, `try_enq`, `try_deq` of `thread/fifo.py` for any number of threads, with the muxes in front of the FIFO ports | linearizability: single operations chosen cycle by cycle (gets before puts when a word can be taken, puts first otherwise), invariant relating each thread's phase to its last operation |
| C74 | `AxisLite_*`: `AXISLiteRegister` (`thread/axis.py:244-420`) with the AXI-Lite slave channels of `types/axi.py` | simulation of the cycle-level bus by a register bank with one transaction at a time; latencies; starvation of reads by a permanent write request |
| C75 | `AximLite_*`: `AXIMLite.read`/`write` and the delayed calls of `AXIMLiteVerify` (`thread/axim.py:1803-1977`) with the AXI-Lite master channels of `types/axi.py`, and the master connected to the register slave of C74 | order automaton over the bus events, invariant per state of the call; composition with the simulation of C74; a measure (state of the call, weight of the skid buffers, state of the slave) for the time of a call |
| C76 | `Block_*`: block bursts and broadcast bursts of `MultibankRAM` (`thread/ram.py:575-683,752-831,887-903`), over the burst units of C15 | closed form of the number of words a bank got; invariant per number of words (writes) or of ready cycles (reads) with the invariant of each unit; composition for the round trip |
| C77 | `Packed_*`: packed bursts of `MultibankRAM` (`thread/ram.py:685-750,833-885`) and the sizes of the packed DMA calls (`thread/axim.py:588-618,636-668`) | control of the burst of C15 with another memory; the banks as one memory of elements, by induction over the wide words |
| C78 | `Sstate_*`: `Predicate`, `ReduceArgMax`, `ReduceArgMin`, `CounterValid`, `Scratchpad`, `CustomCounter` (`stream/stypes.py:2352-2400,3778-3927,4258-4355,4728-4760,5046-5068`) | invariant over clock cycles that relates the registers to the elements taken so far (using C30 and C31); induction over the elements of the current group; delay line of the scratchpad |
| C79 | `Seval_*`: `eval` of the stream operators and the constructor of `Pointer` (`stream/stypes.py:306-366,626-1386,1580-1885,2219-2223,2741-2776`) | structural induction: the result, number or expression, stands for the same number as the expression |
| C80 | `Rdiv_*`: `ReduceDiv` (`stream/stypes.py:3342-3508`) with the divider of C18 | invariant: idle and equal to the one-cycle reduction, or busy with the element's operands in the divider's pipeline at the place given by the count |
| C81 | `Mover_*`: `AXIM_for_AXIStreamIn` (`thread/axim_for_axistream.py:20-275`) over the request machine of C19 and the FIFO of C12 | the requests are: finished, under way, queued, not queued; what was sent are the flags of the finished ones and a part of the current one; measure for the end |
| C82 | `Mover_*`: `AXIM_for_AXIStreamOut` (`thread/axim_for_axistream.py:277-530`) | the queue is read as totals followed by bursts that add up to them, ending at what the request machine still has to ask for; measure for the end |
| C83 | `Smem_*`: `AxiSerialMemoryModel` (`types/axi.py:3864-4145`), with the memory and sleep counters of C60 | the bursts are: carried out, under way, not begun; one clause per state of the machine; the list of what was carried out grows by one when the machine returns to its first state |
| C84 | `Submod_*`: `Submodule` (`core/submodule.py:10-173`) with the copying of constants and ports (`core/module.py:657-865,1212-1221`), `CollectVisitor`, `RenameVisitor` | names declared in order; after each declaration a kept constant of the child and its copy in the parent have the same value |

Parts that depend on a Verilog simulator or synthesis tool (X values except where stated, timing, delta cycles,
blocking assignments in test benches) are outside the model.

## 3. Trusted base

* Coq 8.16.1 kernel (`coqc`, with `vm_compute`), standard library.
* The output of `Print Assumptions` for each theorem, see section 5.
* The reading of /repo recorded in the citations; nothing was executed.
* Semantics written by hand, which no theorem can check:
  * `Vlog.v`: statements of always blocks (non-blocking assignment, last write wins, one clock, two-valued),
    expressions over unbounded integers; used for `Seq`, `Fsm` and the thread compiler.
  * `Vx_Sem.v`: expressions after IEEE 1364-2005 section 5 (context-determined widths and signs, X only as a
    result of division by zero and indices out of range); used for `Vx`, `Res`, `Ren`, `Lit`, `Sat`, `Fix` and,
    through `Bv_Sem.v`, for the bit-level theorem of the thread compiler.
  * `Py_Spec.v`: the Python subset the thread compiler accepts.
  * `Rw_Spec.v`: meaning of statements as sets of finite runs, and of generate blocks, over uninterpreted values.
  * the register-level models of library hardware: each names the source lines it stands for.
* The specifications in the `_Spec.v` files and the statements in the `_Props.v` files.

## 4. What is modelled and what is not

Every `_Model.v` file starts with its own list; the main points:

* **Thread compiler** (`thread/compiler.py`): assignments, augmented assignments, if, while, for over range,
  break, continue, return, calls, conditional expressions, boolean and comparison operators; `Py_Spec.covered`
  lists each restriction.  Not modelled: classes, tuples, lists, strings, `print`, intrinsics (except those with
  their own property), try/with, list comprehensions.  Constant folding (`vtypes` operators on Python numbers and
  the optimizer) is a parameter `opt` assumed sound.  Stored values must fit the data width.  Expressions are
  evaluated twice: over the integers (`Vlog.v`), and with Verilog's widths and signs (`Bv_Sem.v`, on top of
  `Vx_Sem.v`); the second theorem needs every number to fit its expression and truth values not used as numbers.
* **Seq, FSM** (`seq/seq.py`, `fsm/fsm.py`): If/Elif/Else/When/Then/Delay/Keep/Prev/EagerVal/LazyCond, goto, inc,
  make_always, make_case, make_if, reset lists.  Not modelled: `as_module`, clocked-by-expression variants, resets
  of arrays.
* **FIFO, skid buffer, RAM, multibank RAM**: single clock.
* **AXI** (`types/axi.py`, `thread/axi.py`, `thread/axim.py`): address, data and response channels
  of masters with one operation per data FSM; DMA splitting; register slaves; the memories for
  simulation with one and several ports and their thread functions (C60-C62); the stream interfaces of
  `thread/axistreamin.py` and `thread/axistreamout.py` (C63, C64, C71, C72).  Not modelled: `AxiSerialMemoryModel`
  (its constructor passes the data width in the place of the clock, so that it cannot be created), multi-port
  scheduling beyond C20.
* **Mutex, barrier, threads, pools** as listed in the notes of MANIFEST.json.
* **Stream** (`stream/*.py`): operators are arbitrary functions with a latency; accumulators, counters, ring and
  line buffers, trees, address patterns are register-level.  Not modelled: sub-streams, the allocator, visualisation,
  `thread/stream.py` control other than C35, C50, C56 and C68 (in C68: no terminate conditions, substreams, patterns, FIFOs, `infinite`, `ram_delay`).
  Stream operators in C69: no `CustomOp`, no bits of constants, constants are integers or scaled integers.
  Dataflow operators in C70: the one-cycle operators have the expressions of C69 and are not repeated; no `LUT`, `CustomOp`. C65 treats an operator as a function with a number of stages; C70 shows this for the three operators with more than one stage.
  AXI stream input with FIFOs in C71: nothing else writes into the FIFOs; the readers of the FIFOs are arbitrary; ratios of widths are powers of two; FIFOs are synchronous (`sync=True`); where statements set and clear `read_data_busy` in one cycle the model lets the clearing one win (C71_busy_partial: it never happens).
  AXI stream output with FIFOs in C72: nothing else reads the FIFOs; their producers are arbitrary; ratios of widths are powers of two; a FIFO wider than the stream without `sync` (a combinational loop in the generated code) is not described; where statements set and clear `write_data_busy` in one cycle the model lets the clearing one win (C72_busy_partial: it never happens).
  FIFO calls in C73: the calls of a thread are an arbitrary input, so its program is arbitrary; the `Prev` registers of all call sites of a thread are one register; words are unbounded; `is_empty` and the like return wires and are not modelled.
  AXI-Lite registers in C74: the threads' side is one optional register update per cycle; write strobes are ignored as in the code; a bank of one register (a mask of width 0) is not described separately.
  AXI-Lite master in C75: one thread, which starts any call in any cycle; the base address is part of the address; widths are unbounded; the slave of `C75_transactions` is any slave that answers only what was asked.
  Block bursts in C76: a bank is a plain RAM; the memory is not written during a read; words are unbounded; the `done` list of `write_burst_bcast` (a Python list) is not modelled.
  Packed bursts in C77: the banks are plain RAMs; the memory is not written during a read; the DMA that moves the wide words is not part of the model (see the DMA rows).
  Stateful stream operators in C78: one reading port per scratchpad, initiation interval 1, no fixed point; the stages of the operands are taken as aligned (C28).
  `eval` in C79: integers only; the widths of the nodes are a parameter; a quotient of numbers beyond 2^53 (float division) is not modelled; numbers are not cut to widths (C69 is about that).
  `ReduceDiv` in C80: as for reductions (C30); the enable and reset operands are already cut to one bit.
  The movers in C81 and C82: one thread, no global base address, words not cut; the last flags of the incoming stream and bus are not looked at (as in the code).
  The serial memory in C83: the same simplifications as in C60; states are named instead of numbered; proved for masters that hold requests until taken and do not let a response wait while they offer a write address (a theorem shows what goes wrong otherwise).
  The submodules in C84: expressions are numbers, names, binary operators and conditions; names are identifiers, so matching them as regular expressions is equality; children given as text, initial values, widths and signs of constants, and clashes with names the parent already has are left out.
* **Expressions** (`core/vtypes.py`): all operators, slices, literals; not modelled: `Scope`, `SystemTask`,
  real numbers except `Fix`, four-valued X/Z arithmetic.
* **Resolver, rename visitor** (`resolver/`, `core/rename_visitor.py`): expressions, parameters, statements without
  case; not modelled: functions, tasks, interfaces of nested generate blocks.
* **Module** (`core/module.py`): declarations, temporaries, instances, module collection; submodules one level deep.
* **Fixed point, saturation** (`types/fixed.py`, `types/saturate.py`): Python floats are exact dyadic rationals.
* **UART, pipeline** (`thread/uart.py`, `pipeline/pipeline.py`): see C48, C49.
* **Writing and reading Verilog** (`verilog/to_verilog.py`, `verilog/from_verilog.py`): expressions, statements, always and
  initial blocks, ports, instances, generate blocks.  Not modelled: functions, tasks, events, hierarchical names, embedded
  code, arrays, the verilator mode, and pyverilog's own parser and printer (except the text of numbers).  Known to
  be wrong, but outside of the model: `visit_TaskCall` passes its arguments as statement, `casez` is read as nothing,
  `visit_Port` passes a name as width, a wire assigned in both branches of a generate block is rejected.
* `dataflow/`: the handshake of the operators of `dtypes.py` (C65), after scheduling.  Operators are
  arbitrary functions with a state and a depth; widths, the inside of the operators other than accumulators (C67), and inputs without valid or ready are not modelled.
  The scheduler is (C66), for nodes visited operands first; `graph.py`, `visitor.py` are not.
* Not modelled at all: `simulation/`, IP-XACT export (`types/ipxact.py`, `types/componentgen.py`), `types/rom.py`.

## 5. Assumptions per theorem

Each property theorem is followed by `Print Assumptions`.  All of them print "Closed under the global context":
no axiom of the standard library is used.  `coqchk -o` on the compiled files reports the same.

## 6. Tests of the theorems

`seeded/LOG.jsonl` records edits of model definitions (wrong programs) tried in a scratch copy: the definition, the
edit, the claim it should break, the theorems that no longer compiled, and the theorems tightened because an edit
went unnoticed.
