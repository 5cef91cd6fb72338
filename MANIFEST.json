{
 "claims": [
  {
   "property": "C01",
   "status": "proved",
   "theorems": [
    "C01_thread_runs_like_python",
    "C01_thread_runs_in_bits",
    "C01_truth_value_as_number_refuted",
    "C01_intermediate_width_refuted",
    "C01_operators_refuted"
   ],
   "note": "For the statement and expression forms of Py_Spec.covered (comment there lists every restriction); constant folding is a sound parameter. C01_thread_runs_like_python evaluates expressions over integers (stored values fit the datawidth); C01_thread_runs_in_bits runs the state machine with Verilog widths and signs, for programs that use no truth value as a number and whose numbers fit their expressions. The _refuted theorems show operators (and/or as a number, negative // and %), a comparison inside arithmetic, and too wide intermediate results, where the hardware differs from Python."
  },
  {
   "property": "C02",
   "status": "partial",
   "theorems": [
    "C02_break_continue_partial",
    "C02_break_before_loop_refuted",
    "C02_continue_before_loop_refuted"
   ],
   "note": "Holds when no loop follows, in the same block, a statement with a pending break/continue; the two _refuted theorems show that without this restriction the code violates the property."
  },
  {
   "property": "C03",
   "status": "proved",
   "theorems": [
    "C03_call_returns_value",
    "C03_call_in_while_test_refuted",
    "C03_call_in_arm_refuted"
   ],
   "note": "Calls outside while tests, right operands of and/or and conditional-expression arms; the _refuted theorems show these positions misbehave."
  },
  {
   "property": "C04",
   "status": "partial",
   "theorems": [
    "C04_for_range_partial",
    "C04_range_values",
    "C04_negative_step_refuted",
    "C04_range_end_refuted",
    "C04_loop_variable_assigned_refuted",
    "C04_loop_variable_after_refuted"
   ],
   "note": "Holds for positive steps, loop body not assigning the loop variable or names of the end/step; the _refuted theorems show the code violates the property for negative steps, a changed end, an assigned loop variable, and the variable after the loop."
  },
  {
   "property": "C05",
   "status": "proved",
   "theorems": [
    "C05_case_if_same_step",
    "C05_case_if_same_trace"
   ],
   "note": ""
  },
  {
   "property": "C06",
   "status": "proved",
   "theorems": [
    "C06_next_state",
    "C06_only_named_states"
   ],
   "note": "Programs are sequences of requests (each a group of calls as a user writes them); state marks are inlined as numbers."
  },
  {
   "property": "C07",
   "status": "proved",
   "theorems": [
    "C07_first_true_branch",
    "C07_chains_in_sequence",
    "C07_stacked_ifs",
    "C07_else_if_drops_condition_refuted",
    "C07_elif_delay_breaks_next_call_refuted",
    "C07_prev_captures_else_refuted"
   ],
   "note": "Chains of If/Elif/Else calls without Delay in between. The _refuted theorems show call patterns (Else.If, Elif.Delay, Prev between If and Else) where the library misbehaves."
  },
  {
   "property": "C08",
   "status": "proved",
   "theorems": [
    "C08_requests_refine",
    "C08_delay_exact",
    "C08_wide_condition_refuted",
    "C08_eager_nested_refuted"
   ],
   "note": "A single delayed condition must be 0/1-valued; the _refuted theorem shows why. EagerVal applies to top-level assignments only."
  },
  {
   "property": "C09",
   "status": "proved",
   "theorems": [
    "C09_prev_is_delay",
    "C09_conditional_prev",
    "C09_cache_ignores_condition_refuted"
   ],
   "note": ""
  },
  {
   "property": "C10",
   "status": "proved",
   "theorems": [
    "C10_reset",
    "C10_negative_initval_refuted",
    "C10_no_reset",
    "C10_dynamic_bit_refuted"
   ],
   "note": "Seq blocks; initvals that are Python ints. Registers driven through a computed bit index are only reset at the current index (_refuted). FSM reset: see C05/C06 files."
  },
  {
   "property": "C11",
   "status": "proved",
   "theorems": [
    "C11_fifo_is_bounded_queue",
    "C11_fifo_lossless_in_order",
    "C11_async_fifo_lossless_in_order",
    "C11_thread_fifo_prefix",
    "C11_thread_fifo_delivers_all",
    "C11_thread_fifo_delivers_all_aw1_refuted"
   ],
   "note": "Thread-level progress needs addrwidth>=2; for addrwidth=1 the _refuted theorem shows enq() hangs."
  },
  {
   "property": "C12",
   "status": "proved",
   "theorems": [
    "C12_count_is_occupancy",
    "C12_has_space_exact"
   ],
   "note": ""
  },
  {
   "property": "C13",
   "status": "proved",
   "theorems": [
    "C13_skid_values_roundtrip",
    "C13_skid_lossless_in_order",
    "C13_skid_output_stable",
    "C13_skid_full_throughput",
    "C13_skid_drains"
   ],
   "note": ""
  },
  {
   "property": "C14",
   "status": "proved",
   "theorems": [
    "C14_ram_read_last_write",
    "C14_async_ram_read_last_write",
    "C14_ram_initvals",
    "C14_double_write_race_refuted"
   ],
   "note": "The _refuted theorem shows the no-double-write hypothesis is needed."
  },
  {
   "property": "C15",
   "status": "proved",
   "theorems": [
    "C15_read_burst",
    "C15_write_burst",
    "C15_write_burst_done"
   ],
   "note": "Memory constant during a read burst; early termination by rquit/wquit/wlast not covered."
  },
  {
   "property": "C16",
   "status": "proved",
   "theorems": [
    "C16_multibank_is_flat_memory",
    "C16_bank_map_bijective",
    "C16_packed_words"
   ],
   "note": ""
  },
  {
   "property": "C17",
   "status": "proved",
   "theorems": [
    "C17_product",
    "C17_exact",
    "C17_madd"
   ],
   "note": "Multiplier cores (registered operands, depth-1 product registers, valid shift register) and multiply-adder cores."
  },
  {
   "property": "C18",
   "status": "partial",
   "theorems": [
    "C18_signed_partial",
    "C18_unsigned_partial",
    "C18_mixed_refuted"
   ],
   "note": "Proved when both operands and the result have the same signedness (C18_signed_partial, C18_unsigned_partial). C18_mixed_refuted: for a signed and an unsigned operand the divider returns the unsigned quotient of the magnitudes. Missing: mixed signedness, where the statement is false."
  },
  {
   "property": "C19",
   "status": "proved",
   "theorems": [
    "C19_bursts_cover",
    "C19_bursts_finish",
    "C19_write_queue",
    "C19_global_size",
    "C19_empty_read_refuted",
    "C19_empty_write_refuted"
   ],
   "note": "Any address width, bus words of 1..4096 bytes, read and write, any schedule, for requests of at least one word inside the address space. Two findings for size 0: a read DMA of size 0 requests a 256-beat burst; a write DMA of size 0 queues a zero-length data burst without an address. The request generator is a register-level model of the Seq/FSM blocks (one requester)."
  },
  {
   "property": "C20",
   "status": "proved",
   "theorems": [
    "C20_read_address_held",
    "C20_read_address_once",
    "C20_write_address_held",
    "C20_write_address_once",
    "C20_write_data",
    "C20_lite_read_address",
    "C20_lite_write_address",
    "C20_lite_write_data"
   ],
   "note": "the exactly-once theorems ask that at most one call site raises its condition per cycle (two callers in one cycle both get the acknowledgement but only the last one is sent); a write request of length 0 is dropped by the code and not counted as accepted"
  },
  {
   "property": "C21",
   "status": "proved",
   "theorems": [
    "C21_outstanding_count",
    "C21_completed"
   ],
   "note": "Counter closed over the generated write-address channel code of C20; compliant slave = never responds before taking the address in an earlier cycle."
  },
  {
   "property": "C22",
   "status": "proved",
   "theorems": [
    "C22_pack_unpack"
   ],
   "note": ""
  },
  {
   "property": "C23",
   "status": "proved",
   "theorems": [
    "C23_read_data",
    "C23_read_finishes",
    "C23_write_data",
    "C23_write_finishes",
    "C23_write_only_requested_refuted",
    "C23_empty_read_refuted"
   ],
   "note": "Read and write data FSMs for equal, narrower and wider buses, all ratios 2^lp, strides, request queues and schedules: order, assembly/splitting, last flags and completion. Restrictions: request sizes 1..2^lw-1 (for a wider bus the rounded-up size too), one operation per data FSM. Findings: a wide write with a partial last bus word also sends RAM words behind the request (C23_write_only_requested_refuted); an empty read takes one bus word (C23_empty_read_refuted)."
  },
  {
   "property": "C24",
   "status": "partial",
   "theorems": [
    "C24_read_flags_partial",
    "C24_single_reads_partial",
    "C24_read_data_partial",
    "C24_read_finishes",
    "C24_read_burst_refuted"
   ],
   "note": "The code violates the property: a read burst of n >= 2 words is answered with n+1 beats (C24_read_burst_refuted). Proved: the exact flag pattern of the answers (1 beat for n = 1, n+1 beats otherwise, rlast on the last beat only), the data of the beats while the registers do not change, and that every burst finishes. Missing: exactly n beats for n >= 2, which is false."
  },
  {
   "property": "C25",
   "status": "proved",
   "theorems": [
    "C25_mutual_exclusion",
    "C25_identifiers"
   ],
   "note": "The clause on unlock by non-owners, first part of this property, is now C54."
  },
  {
   "property": "C26",
   "status": "proved",
   "theorems": [
    "C26_progress",
    "C26_livelock_refuted"
   ],
   "note": "Assumes that only owners call unlock; without this C26_livelock_refuted shows that a thread can wait forever for a mutex nobody owns. Bound: two cycles after the observation."
  },
  {
   "property": "C27",
   "status": "proved",
   "theorems": [
    "C27_groups",
    "C27_nobody_early",
    "C27_all_released"
   ],
   "note": "util.log2 is modelled as the exact rounded-up logarithm. Bound of C27_all_released: 4n+1 cycles."
  },
  {
   "property": "C28",
   "status": "proved",
   "theorems": [
    "C28_pipeline",
    "C28_operands_aligned",
    "C28_wires_solvable",
    "C28_wrapped_accumulator_refuted",
    "C28_no_valid_refuted"
   ],
   "note": "Operators are arbitrary functions with arbitrary latency; accumulators arbitrary update functions. Restrictions: accumulators need an ivalid signal (C28_no_valid_refuted) and must not be reached through a wrapping variable (C28_wrapped_accumulator_refuted). Sub-streams and the resource allocator are not modelled."
  },
  {
   "property": "C29",
   "status": "proved",
   "theorems": [
    "C29_valid"
   ],
   "note": ""
  },
  {
   "property": "C30",
   "status": "proved",
   "theorems": [
    "C30_fold",
    "C30_blocks",
    "C30_add",
    "C30_max",
    "C30_min",
    "C30_valid",
    "C30_valid_period",
    "C30_interval",
    "C30_node",
    "C30_operands",
    "C30_mul",
    "C30_interval_stuck",
    "C30_interval_with_size_refuted",
    "C30_reset_disabled_refuted"
   ],
   "note": "Register-level model of _Accumulator; also ReduceMul with its multi-cycle stall (C30_mul). ReduceDiv is not modelled. Size/initval constant during a run; with a reset every element is enabled. Findings: size together with interval stops after the first group (C30_interval_stuck, C30_interval_with_size_refuted); a reset on a disabled element clears the value but not the position (C30_reset_disabled_refuted); _ReduceValid passes no interval to its Pulse."
  },
  {
   "property": "C31",
   "status": "proved",
   "theorems": [
    "C31_free",
    "C31_modulo",
    "C31_offset",
    "C31_interval",
    "C31_node",
    "C31_reset_disabled_refuted"
   ],
   "note": "Unsigned counters, constant step/size/offset; initval = reg_initval (the default). C31_reset_disabled_refuted: a reset on a disabled element is forgotten."
  },
  {
   "property": "C32",
   "status": "proved",
   "theorems": [
    "C32_fold",
    "C32_add_wrap",
    "C32_add_value",
    "C32_add_exact",
    "C32_mixed_width_refuted",
    "C32_plus_n",
    "C32_max",
    "C32_min",
    "C32_mixed_sign_refuted",
    "C32_add_stage",
    "C32_max_stage"
   ],
   "note": "op_tree of any associative operator is the fold; AddTree exact modulo 2^w for arguments of one width, exact without overflow for any widths; PlusN; Max and Min for arguments of the same signedness; logarithmic stage. AddTree does not extend the width and mixed-sign Max compares unsigned (refuted cases). AndList/OrList of vtypes are plain left folds by construction."
  },
  {
   "property": "C33",
   "status": "partial",
   "theorems": [
    "C33_address",
    "C33_ring_partial",
    "C33_ring_ahead_partial",
    "C33_length_refuted",
    "C33_narrow_offset_refuted",
    "C33_late_offset_refuted",
    "C33_line_partial",
    "C33_line_delay_partial",
    "C33_line_stall_refuted",
    "C33_line_narrow_refuted"
   ],
   "note": "RingBuffer with its output one stage later (offset operand no later than the data): any power-of-two length with any offset, any length with offsets 0..len-1; LineBuffer of shape (A,B), memlen >= 3 and counters representable in the data width: abstract rows under any mix of shifts, rotations, stalls, and the delay-line form. Refuted: negative offsets with other lengths or narrow offset signals, late offset operands, memlen 2, data narrower than the counters. LineBuffer of other dimensions is not modelled."
  },
  {
   "property": "C34",
   "status": "proved",
   "theorems": [
    "C34_sra_round",
    "C34_round_away_unique",
    "C34_sra_round_signal",
    "C34_long_shift_refuted",
    "C34_unsigned_refuted",
    "C34_narrow_refuted",
    "C34_average",
    "C34_average_round",
    "C34_average_overflow_refuted"
   ],
   "note": "SraRound for signed values and amounts up to the width (int or stream amount, width >= 3 for the latter); Average/AverageRound for 2^k arguments when the sum fits the argument width. Refuted outside: longer shifts, unsigned values with the top bit set, 2-bit values, overflowing sums."
  },
  {
   "property": "C35",
   "status": "partial",
   "theorems": [
    "C35_source",
    "C35_source_stop",
    "C35_sink",
    "C35_sink_stop",
    "C35_tuples",
    "C35_multidim",
    "C35_multidim_order",
    "C35_multidim_perm",
    "C35_source_multi_partial",
    "C35_sink_multi_partial",
    "C35_multi_sizes_refuted",
    "C35_multi_width_refuted",
    "C35_multi_again_refuted",
    "C35_multi_when_refuted",
    "C35_size_zero_refuted",
    "C35_negative_order_refuted"
   ],
   "note": "Proved for single patterns (sources and sinks, stalls, stop, when conditions, padding, register widths) and for multidim with default or given orders. Several patterns are proved only for patterns with equal sizes below 2^addrwidth, set anew before each run, and sinks without a when condition: in general the code violates the property (C35_multi_sizes_refuted, C35_multi_width_refuted, C35_multi_again_refuted, C35_multi_when_refuted). A size of 0 and an order containing -1 are refuted too."
  },
  {
   "property": "C36",
   "status": "partial",
   "theorems": [
    "C36_denotes",
    "C36_meaning",
    "C36_value",
    "C36_unsigned_partial",
    "C36_signed_partial",
    "C36_width_refuted",
    "C36_negative_refuted",
    "C36_str_partial",
    "C36_parse_partial",
    "C36_unknown",
    "C36_prefix_refuted",
    "C36_uppercase_refuted"
   ],
   "note": "Every emitted text is a Verilog literal with the size, sign and magnitude of the constant (all values, widths, bases), and its meaning is the one used for expressions. Reading back gives the same constant for unsigned ones and for every literal text without sign mark; refuted: signed texts lose the width, negative ones the sign, upper-case bases and 0x are misread."
  },
  {
   "property": "C37",
   "status": "partial",
   "theorems": [
    "C37_index_partial",
    "C37_slice_partial",
    "C37_bounds_refuted"
   ],
   "note": "Every index and slice whose bounds need no clamping, including negative indices, defaults and strides (negative strides with both bounds given, not stopping before position 0), on variables without dimensions. Refuted: bounds beyond the size are not clamped, x[::-1] is an empty concatenation, x[3:0:-1] raises."
  },
  {
   "property": "C38",
   "status": "partial",
   "theorems": [
    "C38_binary_partial",
    "C38_unary_partial",
    "C38_cat_partial",
    "C38_repeat_partial",
    "C38_pointer",
    "C38_slice",
    "C38_cond",
    "C38_negative_refuted",
    "C38_mixed_refuted",
    "C38_cat_refuted",
    "C38_min_refuted"
   ],
   "note": "All operators against IEEE 1364-2005 expression semantics (Vx_Sem), any literals and contexts, under the conditions of `agrees`. Refuted: division/remainder with operands of different signs, Sra rounding of negative values, Srl of negative values, mixed-sign comparison, concatenation of negative constants, the most negative literal."
  },
  {
   "property": "C39",
   "status": "partial",
   "theorems": [
    "C39_table",
    "C39_error",
    "C39_order",
    "C39_value",
    "C39_replace_partial",
    "C39_statements_partial",
    "C39_always_partial",
    "C39_width_refuted",
    "C39_negative_refuted",
    "C39_loop_refuted"
   ],
   "note": "The parameter table is proved for all dependency graphs (values, order, exact error condition, including the per-pass visitor cache). Replacement and loop unrolling are proved for expressions whose constants are 32-bit signed and do not overflow at compile time (predicate keep); outside of it the code changes the meaning: sized constants become 32 bits wide (C39_width_refuted), negative parameters in wide unsigned sums (C39_negative_refuted), loops with a non-constant bound never end (C39_loop_refuted). Loops directly in an always block stay in place (C39_always_partial). Instances, generate blocks, case statements and IntX are not modelled."
  },
  {
   "property": "C40",
   "status": "partial",
   "theorems": [
    "C40_try_optimize_partial",
    "C40_result",
    "C40_unsupported",
    "C40_foreign",
    "C40_width_refuted"
   ],
   "note": "The wrapper makeDFTree/makeASTTree/try_optimize, for every correct tree optimizer (the optimizer itself is pyverilog, outside this repository) and expressions whose constants are 32-bit signed. Refuted for sized constants: they lose width and sign even when the optimizer changes nothing (C40_width_refuted)."
  },
  {
   "property": "C41",
   "status": "partial",
   "theorems": [
    "C41_names_partial",
    "C41_exact",
    "C41_once",
    "C41_generate",
    "C41_error",
    "C41_success",
    "C41_enclosing",
    "C41_register_refuted",
    "C41_wire_refuted"
   ],
   "note": "Exact description of the declarations a name can get, for all call sequences (also after caught errors), and uniqueness in generate blocks. Refuted as stated: a register of an output can be declared repeatedly, and a register after a wire (C41_register_refuted, C41_wire_refuted)."
  },
  {
   "property": "C42",
   "status": "proved",
   "theorems": [
    "C42_distinct",
    "C42_number",
    "C42_new",
    "C42_port_refuted"
   ],
   "note": "All temporaries of a module are distinct for all prefixes. A temporary wire or register may take the name of a port declared by the user (C42_port_refuted)."
  },
  {
   "property": "C43",
   "status": "partial",
   "theorems": [
    "C43_rename",
    "C43_environment",
    "C43_names",
    "C43_sources_partial",
    "C43_blocking_refuted",
    "C43_loop_refuted"
   ],
   "note": "Expressions in every context, name injectivity, and statements without blocking assignments and loops. Refuted: SrcRenameVisitor turns blocking assignments into nonblocking ones (C43_blocking_refuted) and makes loops endless (C43_loop_refuted)."
  },
  {
   "property": "C44",
   "status": "partial",
   "theorems": [
    "C44_convert",
    "C44_convert_total",
    "C44_constant",
    "C44_convert_zero_refuted",
    "C44_integer",
    "C44_integer_total",
    "C44_negative_point_refuted",
    "C44_round_trip",
    "C44_variable",
    "C44_pattern",
    "C44_add",
    "C44_sub",
    "C44_negate",
    "C44_compare_partial",
    "C44_compare_refuted",
    "C44_times_partial",
    "C44_times_point",
    "C44_times_refuted",
    "C44_write",
    "C44_parts",
    "C44_shift",
    "C44_divide_partial",
    "C44_divide_refuted",
    "C44_radd_refuted",
    "C44_compare_point"
   ],
   "note": "Python numbers: conversion within 2^-point towards zero, exact if representable, integer part rounds down, round trips are the identity (floats as exact dyadic rationals). Signals: sums, differences, negation and integer shifts are exact at the larger point; comparisons are exact if the aligned values fit the larger width; products that fit the context lose less than one unit, downwards; assignment rounds down; parts add up; division is cut to 2^-(lp-rp). Refuted in general: float at point 0 is not converted, negative points raise in fixed_to_int, comparison wraps when alignment overflows, products overflow the 16-bit context (2.0*3.0 = 0 at point 8), 1.0/2.0 = 0, int + fixed adds to the raw value. Not modelled: $itor, vtypes.Float operands, division with lp < rp."
  },
  {
   "property": "C45",
   "status": "partial",
   "theorems": [
    "C45_add_partial",
    "C45_sub_partial",
    "C45_bounds_partial",
    "C45_constants",
    "C45_write_sum_partial",
    "C45_write_value_partial",
    "C45_variable",
    "C45_signs_partial",
    "C45_signs_refuted",
    "C45_wide_refuted",
    "C45_signed_target_refuted",
    "C45_unsigned_target_refuted",
    "C45_difference_refuted",
    "C45_signed_difference_refuted",
    "C45_bound_refuted",
    "C45_to_saturate_refuted",
    "C45_inner_bound_refuted"
   ],
   "note": "add, sub and write proved for widths up to 31 and operands of one sign (or Python ints), nested sums included. The code violates the general property: 32 bits and more wrap, unsigned values written to signed targets give the minimum, negative values written to unsigned targets wrap, unsigned differences have no upper bound, explicit bounds are ignored for unsigned operands and inside differences (the _refuted theorems)."
  },
  {
   "property": "C46",
   "status": "proved",
   "theorems": [
    "C46_mux",
    "C46_mux_accepts",
    "C46_if",
    "C46_if_accepts",
    "C46_case_accepts",
    "C46_case",
    "C46_if_list_refuted",
    "C46_log2_refuted"
   ],
   "note": "PatternMux in every context, PatternIf and Case for every state and every leaf statement. Refuted side claims: PatternIf given one list drops patterns after the default silently; util.log2 of a signal always raises."
  },
  {
   "property": "C47",
   "status": "partial",
   "theorems": [
    "C47_mux",
    "C47_enable",
    "C47_assigned",
    "C47_disable_partial",
    "C47_disable_one",
    "C47_disable_last_refuted",
    "C47_signed_refuted"
   ],
   "note": "add_mux and add_enable_cond: last match wins, in every context. add_disable_cond is the conjunction of the active alternatives, so an earlier 0 wins over a later 1 (refuted); the x default of add_mux zero-extends signed alternatives narrower than the target (refuted)."
  },
  {
   "property": "C48",
   "status": "proved",
   "theorems": [
    "C48_round_trip",
    "C48_in_order",
    "C48_line",
    "C48_any_sender",
    "C48_one_stop_bit",
    "C48_glitch",
    "C48_threads",
    "C48_one_clock_per_bit_refuted"
   ],
   "note": "Transmitter, receiver, send and recv modelled clock by clock. For every bit period of at least two clocks and every sequence of inputs exactly the bytes taken are received, in order, once each; the receiver also accepts any other sender keeping the period. With one clock per bit the receiver fails (C48_one_clock_per_bit_refuted). math.log is taken as exact; resets during operation are not modelled."
  },
  {
   "property": "C49",
   "status": "partial",
   "theorems": [
    "C49_wires",
    "C49_lossless_partial",
    "C49_counts_partial",
    "C49_single",
    "C49_in_step",
    "C49_no_dead_ends",
    "C49_delay",
    "C49_join_fork_refuted",
    "C49_nested_refuted",
    "C49_unary_refuted"
   ],
   "note": "Proved for all programs of inputs, stages and accumulators without unary operators, all depths and all handshake traces: the ready wires are uniquely determined; whenever the sources of each register are ready together, every variable passes on exactly the first elements of its stream, in order, and registers hold exactly the difference. That condition is proved for programs with one variable per expression in any environment, and for programs without nested multi-stage expressions or unused variables when the inputs are valid together and the outputs ready together (with progress). Without ready, a stage is a one-cycle delay. The code violates the property otherwise: a join and a fork lose accepted elements, nested expressions over several stages deadlock after one stall, and unary operators are dropped (refuted theorems)."
  },
  {
   "property": "C50",
   "status": "proved",
   "theorems": [
    "C50_sequence",
    "C50_nonzero",
    "C50_injective",
    "C50_node"
   ],
   "note": ""
  },
  {
   "property": "C51",
   "status": "proved",
   "theorems": [
    "C51_join",
    "C51_finished",
    "C51_run_join",
    "C51_all_joined",
    "C51_last_statement",
    "C51_done",
    "C51_run_starts",
    "C51_moves",
    "C51_reset",
    "C51_args",
    "C51_pool_join",
    "C51_pool_run",
    "C51_run_end",
    "C51_second_run_refuted",
    "C51_reset_run_refuted"
   ],
   "note": "Control flow of any number of threads that run, join, test, reset each other, pools included; all other statements and values are arbitrary. A join is left exactly when the awaited thread is in its end state; that state is entered only from the last statement, and only after a run of the thread. Findings: a second run without reset is lost and its join returns at once (C51_second_run_refuted); reset directly followed by run loses the run and the next join waits forever (C51_reset_run_refuted). Not modelled: keyword arguments, a thread of a pool that runs threads of the same pool."
  },
  {
   "property": "C52",
   "status": "proved",
   "theorems": [
    "C52_statements_of_current_state",
    "C52_stacked_ifs",
    "C52_else_after_goto_refuted",
    "C52_call_after_else_goto_refuted",
    "C52_when_delay_refuted"
   ],
   "note": "Statements without Delay/Keep, no statement after Else.goto in the same state; the _refuted theorems show the call patterns outside this where the library misbehaves."
  },
  {
   "property": "C53",
   "status": "proved",
   "theorems": [
    "C53_write_order",
    "C53_write_data"
   ],
   "note": "Write events are observed at the ports (address taken, data beat taken, response given). The data theorem assumes the attached threads do not write the registers in that run."
  },
  {
   "property": "C54",
   "status": "partial",
   "theorems": [
    "C54_owned_unaffected_partial",
    "C54_unlock_by_other_refuted"
   ],
   "note": "True while some thread owns the mutex (C54_owned_unaffected_partial). False when the mutex is free: unlock compares lock_id only, so the last owner calling unlock again cancels a simultaneous attempt (C54_unlock_by_other_refuted), which can even livelock (C26_livelock_refuted). Missing: no effect on a free mutex, which is false."
  },
  {
   "property": "C55",
   "status": "partial",
   "theorems": [
    "C55_printed_partial",
    "C55_three_refuted",
    "C55_top_refuted"
   ],
   "note": "Submodules without submodules. Holds as long as no third module of the same name is instantiated; refuted otherwise (C55_three_refuted) and if a submodule has the name of the module itself (C55_top_refuted)."
  },
  {
   "property": "C56",
   "status": "proved",
   "theorems": [
    "C56_source",
    "C56_sink",
    "C56_size_zero_refuted"
   ],
   "note": "Sizes from 1 to 2^(addrwidth+1)-1; a size of 0 is refuted."
  },
  {
   "property": "C57",
   "status": "partial",
   "theorems": [
    "C57_expressions_partial",
    "C57_statements_partial",
    "C57_modules_partial",
    "C57_always_delay_refuted",
    "C57_zero_delay_refuted",
    "C57_assign_delay_refuted",
    "C57_unconnected_refuted",
    "C57_output_sign_refuted",
    "C57_generate_reg_refuted"
   ],
   "note": "Proved for every interpretation of names, operators, states and system tasks, for expressions, statements, and modules with generate blocks. Restrictions: no delays in always blocks or on continuous assignments, no delay of 0, connected ports, the register of an output declared once and like the output, no register named like an output in a generate block: the code violates the property there (refuted theorems). Left out: functions, tasks, events, hierarchical names, embedded code, reals, arrays. The printer of pyverilog is outside of the model, except for number literals."
  },
  {
   "property": "C58",
   "status": "partial",
   "theorems": [
    "C58_expressions_partial",
    "C58_statements_partial",
    "C58_modules_partial",
    "C58_statements_back_partial",
    "C58_modules_back_partial",
    "C58_initial_nonblocking_refuted",
    "C58_generate_elif_refuted",
    "C58_unreadable_refuted",
    "C58_unconnected_refuted",
    "C58_ascending_refuted"
   ],
   "note": "Proved for every interpretation, for reading and for reading followed by writing. Restrictions: non-blocking assignments in initial blocks, generate constructs in an else branch of a generate block, and several constructs that raise exceptions are excluded, the code violates the property there (refuted theorems); literals are restricted as in C36. Left out as in C57; the parser of pyverilog is outside of the model."
  },
  {
   "property": "C59",
   "status": "partial",
   "theorems": [
    "C59_expressions_partial",
    "C59_statements_partial",
    "C59_modules_partial",
    "C59_signed_refuted",
    "C59_wait_refuted"
   ],
   "note": "Proved for modules with unsigned constants, selections from names, delays in initial blocks only, no generate constructs in an else branch. Signed constants with a width and empty wait bodies are changed by the second round (refuted theorems)."
  },
  {
   "property": "C60",
   "status": "partial",
   "theorems": [
    "C60_writes_land_partial",
    "C60_reads_answered_partial",
    "C60_write_then_read_partial",
    "C60_everything_served_partial",
    "C60_response_kept_refuted",
    "C60_short_sleep_refuted",
    "C60_wide_read_id_refuted"
   ],
   "note": "Proved for masters that hold their requests and bursts inside of the memory, for all parameters with ids of reads no wider than those of writes, and (for the bounded time) a sleep interval other than 1. Refuted: a response is lost if the master is not ready in the one cycle in which it is shown; a sleep interval of 1 stops the memory; wider ids of reads lose address bits. AxiSerialMemoryModel is not modelled."
  },
  {
   "property": "C61",
   "status": "partial",
   "theorems": [
    "C61_read",
    "C61_write",
    "C61_read_word_partial",
    "C61_write_word_partial",
    "C61_read_back_partial",
    "C61_widths",
    "C61_straddle_read_refuted",
    "C61_straddle_write_refuted",
    "C61_far_word_refuted"
   ],
   "note": "Proved for words that touch no more bytes than their width needs, which are all words for widths that are 0, 1, 2 or 4 modulo 8, and bit numbers below 2^31. Refuted for every other word, and for a far word."
  },
  {
   "property": "C62",
   "status": "partial",
   "theorems": [
    "C62_ports_independent",
    "C62_writes_land_partial",
    "C62_reads_answered_partial",
    "C62_everything_served_partial"
   ],
   "note": "As C60, for every number of ports; at addresses written by several ports nothing is said. The defects of C60 apply to every port."
  },
  {
   "property": "C63",
   "status": "proved",
   "theorems": [
    "C63_in_order",
    "C63_wait",
    "C63_finishes",
    "C63_busy"
   ],
   "note": "For widths whose ratio is a power of two, one RAM per operation, requests of at least one word inside the address width, one thread at a time inside read."
  },
  {
   "property": "C64",
   "status": "partial",
   "theorems": [
    "C64_in_order_partial",
    "C64_wait_partial",
    "C64_finishes_partial",
    "C64_hold",
    "C64_busy_partial",
    "C64_same_width_refuted",
    "C64_two_ratios_refuted"
   ],
   "note": "Proved when at most one RAM has the width of the stream and all wider RAMs have the same width; power-of-two ratios, one RAM per operation, one thread at a time inside write. Refuted otherwise: with two or more RAMs, all of the stream width, no DMA transfer ever ends (set_index(1) shifts the states of the second RAM by one); with two wider RAMs of different widths the size is scaled by the wrong ratio. The channel holds its word in every configuration."
  },
  {
   "property": "C65",
   "status": "partial",
   "theorems": [
    "C65_closed_partial",
    "C65_lockstep_partial",
    "C65_conserved_partial",
    "C65_live_partial",
    "C65_lost_refuted",
    "C65_multiplier_refuted",
    "C65_two_outputs_refuted",
    "C65_prev_output_refuted"
   ],
   "note": "Proved for operators of any depth and any timing when the operands of every operator have the same users and output values have no other user; and for every staged graph of one-stage operators when all inputs become valid together and all receivers become ready together, with the number of words held and the throughput. Refuted in general: an operator takes its operands only if all are ready, but each operand is given away when its own users accept: (u+v)+(v+z) loses words of u while z is missing, u*v+(u+w) loses words with a stalled receiver, two outputs u+v and -u lose words of v when one receiver stalls, and a value and its predecessor as outputs repeat words."
  },
  {
   "property": "C66",
   "status": "proved",
   "theorems": [
    "C66_streams",
    "C66_ports",
    "C66_balanced",
    "C66_depth",
    "C66_levelled",
    "C66_pipeline",
    "C66_live"
   ],
   "note": "Nodes needed by the outputs, visited operands first, without delays before scheduling. Streams, balance and depth for operators of any latency; the circuit for one-stage operators with inputs and receivers in step (see C65 for what goes wrong otherwise)."
  },
  {
   "property": "C67",
   "status": "partial",
   "theorems": [
    "C67_fold_partial",
    "C67_add_partial",
    "C67_sub_partial",
    "C67_mul_partial",
    "C67_counter_partial",
    "C67_pulse_partial",
    "C67_node",
    "C67_after_reset",
    "C67_reset_size_refuted",
    "C67_reset_disabled_refuted",
    "C67_product_zero"
   ],
   "note": "Proved for enable with size, enable with reset, and each alone. Violated for reset together with size: the word of a reset is a group of its own (C67_after_reset says exactly what happens; C67_reset_size_refuted), and a reset on a disabled word clears the value but not the position (C67_reset_disabled_refuted). Also: ReduceMul with its default initial value gives 0 for every word (C67_product_zero). Operators work on integers, cut to the width of the register after each word."
  },
  {
   "property": "C68",
   "status": "partial",
   "theorems": [
    "C68_run_partial",
    "C68_runs_partial",
    "C68_reset",
    "C68_results",
    "C68_overlap_refuted",
    "C68_restart_stall_refuted",
    "C68_second_run_refuted",
    "C68_oversize_refuted"
   ],
   "note": "Proved for runs one after the other (run, join) with plain RAM sources and sinks, any pipeline (C68_results: that of a data-flow graph), any stalls. Violated for overlapping runs: busy falls between two runs when the pipeline is deep and the second run short, so join ends early (C68_overlap_refuted), also with source_join_and_run when a stall hits the cycle between the runs (C68_restart_stall_refuted); a run during a run is lost (C68_second_run_refuted). A sink with a larger size than results writes one word more (C68_oversize_refuted; one_run says which)."
  },
  {
   "property": "C69",
   "status": "partial",
   "theorems": [
    "C69_sum_partial",
    "C69_sum_signals",
    "C69_compare_partial",
    "C69_compare_signals",
    "C69_bitwise_partial",
    "C69_connective",
    "C69_sll",
    "C69_shift_right",
    "C69_shift_defined",
    "C69_times_partial",
    "C69_times_signals",
    "C69_muladd",
    "C69_modulo_partial",
    "C69_divide_partial",
    "C69_unary",
    "C69_cast",
    "C69_reinterpret",
    "C69_pointer",
    "C69_slice",
    "C69_cat",
    "C69_repeat",
    "C69_split_partial",
    "C69_split_width",
    "C69_cond_partial",
    "C69_signs",
    "C69_lut_partial",
    "C69_positive_constant_refuted",
    "C69_wide_constant_refuted",
    "C69_mixed_sign_refuted",
    "C69_aligned_compare_refuted",
    "C69_divide_point_refuted",
    "C69_modulo_align_refuted",
    "C69_cond_point_refuted",
    "C69_lut_size_refuted",
    "C69_split_overhang_refuted"
   ],
   "note": "Without further condition: sums, products of signals of the same sign, comparisons of signals of the same sign and point, shifts, unary operators, casts, bits, Split by width, sign operators, _MulAdd. With conditions on signs, points and sizes: the _partial theorems. Violated: a positive fixed-point constant is printed unsigned (C69_positive_constant_refuted, C69_wide_constant_refuted), a narrow negative operand beside an unsigned one is extended with zeros (C69_mixed_sign_refuted), comparisons (C69_aligned_compare_refuted) and signed Mod/Divide (C69_modulo_align_refuted) overflow when points differ, Divide keeps the point (C69_divide_point_refuted), Cond does not align (C69_cond_point_refuted), LUT sizes that are no power of two (C69_lut_size_refuted), Split by number with more than one chunk to fill (C69_split_overhang_refuted)."
  },
  {
   "property": "C70",
   "status": "partial",
   "theorems": [
    "C70_times_partial",
    "C70_times_signals",
    "C70_divider_valid",
    "C70_divide_partial",
    "C70_mod_partial",
    "C70_divide_unsigned_refuted",
    "C70_divide_minimum_refuted",
    "C70_mod_sign_refuted",
    "C70_mod_point_refuted",
    "C70_abs_partial",
    "C70_sign"
   ],
   "note": "Proved for all runs: valid bits of the three operators; products (signals of the same sign without condition); quotients and remainders for operands whose magnitude is below half the range, not negative unless both are signed, and for Mod a positive whole divisor. Violated beyond: unsigned operands with the top bit set are divided as negative numbers (C70_divide_unsigned_refuted), the most negative number gives a quotient of the wrong sign (C70_divide_minimum_refuted), the remainder gets the sign of the quotient (C70_mod_sign_refuted) and is shifted like a quotient (C70_mod_point_refuted). Abs except of the most negative number. One-cycle operators are those of C69."
  },
  {
   "property": "C71",
   "status": "partial",
   "theorems": [
    "C71_in_order_partial",
    "C71_wait_partial",
    "C71_finishes_partial",
    "C71_delivered_partial",
    "C71_busy_partial",
    "C71_two_same_refuted",
    "C71_wide_size_refuted",
    "C71_wide_last_refuted"
   ],
   "note": "Proved for all runs of configurations with at most one FIFO of the stream width, transfers into narrower FIFOs that consist of whole stream words, and room in a narrower FIFO in the cycle after its transfer. Violated otherwise: with two FIFOs of the stream width a transfer into an almost full FIFO is counted down and ended without its words (C71_two_same_refuted), a size that is not a multiple of the ratio never ends (C71_wide_size_refuted), and the last word is lost when a narrower FIFO gets almost full with the last but one (C71_wide_last_refuted)."
  },
  {
   "property": "C72",
   "status": "partial",
   "theorems": [
    "C72_in_order_partial",
    "C72_wait_partial",
    "C72_finishes_partial",
    "C72_delivered",
    "C72_hold",
    "C72_busy_partial",
    "C72_two_same_refuted",
    "C72_async_refuted",
    "C72_wide_size_refuted"
   ],
   "note": "Proved for all runs of configurations with at most one FIFO of the stream width, synchronous FIFOs, and transfers out of narrower FIFOs that consist of whole stream words. Violated otherwise: with several FIFOs of the stream width a request for any but the first is never served (C72_two_same_refuted, for all runs), without sync no last flag is sent and the transfer does not end (C72_async_refuted), and a size that is not a multiple of the ratio takes more words than requested (C72_wide_size_refuted)."
  },
  {
   "property": "C73",
   "status": "partial",
   "theorems": [
    "C73_calls_are_single_operations_partial",
    "C73_producer_consumer_apart",
    "C73_producer_consumer_words",
    "C73_two_producers_refuted",
    "C73_two_consumers_refuted"
   ],
   "note": "Proved for runs in which no two threads drive the same port in the same cycle (always so for one producer and one consumer, C73_producer_consumer_apart); without that the property fails: two simultaneous enq both succeed and one word is lost, two simultaneous deq both return the same word (C73_two_producers_refuted, C73_two_consumers_refuted)."
  },
  {
   "property": "C74",
   "status": "partial",
   "theorems": [
    "C74_transactions",
    "C74_hold",
    "C74_latency",
    "C74_accepts_partial",
    "C74_finishes",
    "C74_reads_starve_refuted"
   ],
   "note": "The transactions, the stability of words and responses and the latencies are proved for all inputs. Acceptance fails in general: a read request that stands beside a write request on the bus all the time is never accepted (C74_reads_starve_refuted); C74_accepts_partial gives the acceptance without such a write request. The threads update at most one register per cycle; strobes are ignored as in the code."
  },
  {
   "property": "C75",
   "status": "partial",
   "theorems": [
    "C75_transactions",
    "C75_hold",
    "C75_end_to_end_partial",
    "C75_returns_partial",
    "C75_data_after_address_refuted"
   ],
   "note": "The order of the transactions, the stability of the signals, the returned words and, on the register slave, the last-written word (threads leaving the registers alone) and the time of a call are proved. Returning on every legal slave fails: write data is offered only after the address was taken, so a slave that waits for the data before it takes the address (AXI allows that, and forbids the master to wait) blocks every write (C75_data_after_address_refuted)."
  },
  {
   "property": "C76",
   "status": "partial",
   "theorems": [
    "C76_layout",
    "C76_write_block",
    "C76_write_done",
    "C76_read_block",
    "C76_round_trip",
    "C76_quit",
    "C76_broadcast",
    "C76_wready_refuted",
    "C76_producer_refuted"
   ],
   "note": "Layout, block writes, block reads, done, the round trip and broadcast are proved for all schedules. The handshake part fails: the wready returned by write_burst_block is low exactly while the first bank is served (C76_wready_refuted), so a producer that obeys it has words written twice (C76_producer_refuted); the DMA of the project ignores wready and is not affected."
  },
  {
   "property": "C77",
   "status": "partial",
   "theorems": [
    "C77_write_partial",
    "C77_done",
    "C77_quit",
    "C77_read_partial",
    "C77_size",
    "C77_unaligned_refuted",
    "C77_tail_refuted",
    "C77_three_banks_refuted"
   ],
   "note": "Proved for power-of-two numbers of banks, addresses and sizes that are multiples of it. Otherwise the code violates the property: an unaligned address is rounded down (C77_unaligned_refuted), a size that is no multiple overwrites elements behind the end (C77_tail_refuted), and with three banks, which nothing rejects, words overwrite each other (C77_three_banks_refuted)."
  },
  {
   "property": "C78",
   "status": "partial",
   "theorems": [
    "C78_predicate",
    "C78_argmax_partial",
    "C78_argmin_partial",
    "C78_argmax_stale_refuted",
    "C78_argmax_initval_refuted",
    "C78_counter_valid_partial",
    "C78_counter_valid_step_refuted",
    "C78_scratchpad_partial",
    "C78_scratchpad_late_refuted",
    "C78_custom_partial",
    "C78_custom_bubble_refuted",
    "C78_custom_initval_refuted",
    "C78_custom_reset_operand_refuted"
   ],
   "note": "The code violates the property in general. Index: proved when the first number of the group is beyond the initial value and differs from the result of the group before; else the index is stale (C78_argmax_stale_refuted, C78_argmax_initval_refuted). CounterValid: proved for step 1 (C78_counter_valid_step_refuted). Scratchpad: proved when the d-1 following cycles do not write the address; a later read sees later writes (C78_scratchpad_late_refuted). CustomCounter: proved without bubbles, with a reset on the first element and as many operands as variables (C78_custom_bubble_refuted, C78_custom_initval_refuted, C78_custom_reset_operand_refuted)."
  },
  {
   "property": "C79",
   "status": "partial",
   "theorems": [
    "C79_eval_partial",
    "C79_closed",
    "C79_total_partial",
    "C79_pointer_partial",
    "C79_pointer_constant_partial",
    "C79_pointer_variable_partial",
    "C79_unchanged_partial",
    "C79_uxor_refuted",
    "C79_numbers_refuted",
    "C79_lor_refuted",
    "C79_unot_refuted",
    "C79_error_refuted"
   ],
   "note": "Proved for expressions without Xnor, Lor, Uxor, Uxnor, Cat, Repeat, with non-negative operands of Mod, Sra and one-bit operands of Land. The others are wrong in the code: C79_uxor_refuted, C79_numbers_refuted, C79_lor_refuted (|| becomes &&), C79_unot_refuted (~ becomes !), C79_error_refuted (exceptions)."
  },
  {
   "property": "C80",
   "status": "partial",
   "theorems": [
    "C80_reduction_partial",
    "C80_busy",
    "C80_group_partial",
    "C80_product_partial",
    "C80_mixed_refuted",
    "C80_point_refuted",
    "C80_default"
   ],
   "note": "Proved for elements and results that are both signed or both unsigned integers, with non-zero elements. Wrong in the code: unsigned reduction of signed elements (C80_mixed_refuted), fixed point (C80_point_refuted: the quotient is not shifted); with the default initial value all results are 0 (C80_default)."
  },
  {
   "property": "C81",
   "status": "proved",
   "theorems": [
    "C81_packets",
    "C81_bursts",
    "C81_held",
    "C81_finish",
    "C81_empty_refuted"
   ],
   "note": "For requests of at least one word inside the address space; a request of no words blocks the mover for ever (C81_empty_refuted)."
  },
  {
   "property": "C82",
   "status": "proved",
   "theorems": [
    "C82_beats",
    "C82_bursts",
    "C82_held",
    "C82_finish",
    "C82_empty_refuted"
   ],
   "note": "For requests of at least one word inside the address space; after a request of no words the sizes in the queue are misread (C82_empty_refuted)."
  },
  {
   "property": "C83",
   "status": "partial",
   "theorems": [
    "C83_serial_partial",
    "C83_any_time_partial",
    "C83_ends_partial",
    "C83_slow_response_refuted",
    "C83_short_sleep_refuted"
   ],
   "note": "Proved for masters that never offer a write address while a response keeps waiting. A master that lets a response wait sees the next burst stored at a stale address (C83_slow_response_refuted); with sleep_interval 1 reads are never answered (C83_short_sleep_refuted)."
  },
  {
   "property": "C84",
   "status": "partial",
   "theorems": [
    "C84_widths_partial",
    "C84_instance",
    "C84_raises",
    "C84_ports",
    "C84_unknown_port_refuted",
    "C84_incomplete_refuted",
    "C84_missing_constant_refuted"
   ],
   "note": "Widths are proved for children whose copied constants speak only of copied constants. The values of constants are not searched for names, so otherwise the parent gets a constant that speaks of a name never declared (C84_missing_constant_refuted). Instance parameters and ports are proved without this restriction. Arguments for ports the child does not have are dropped silently (C84_unknown_port_refuted)."
  }
 ]
}