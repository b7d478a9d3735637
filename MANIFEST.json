{
 "claims": [
  {
   "property": "C01",
   "status": "proved",
   "theorems": [
    "C01_exact_max_is_tight_bound"
   ],
   "note": "under: known local usages of the graph add up to less than 2^64"
  },
  {
   "property": "C02",
   "status": "proved",
   "theorems": [
    "C02_lower_bound_is_witnessed"
   ],
   "note": "under: known local usages of the graph add up to less than 2^64"
  },
  {
   "property": "C03",
   "status": "proved",
   "theorems": [
    "C03_exact_iff_known_and_no_stack_recursion"
   ],
   "note": ""
  },
  {
   "property": "C04",
   "status": "proved",
   "theorems": [
    "C04_every_node_gets_a_maximum"
   ],
   "note": "covers panics and fuel; also says nothing but max changes"
  },
  {
   "property": "C05",
   "status": "proved",
   "theorems": [
    "C05_number_is_the_group_charge"
   ],
   "note": "under: known local usages of the graph add up to less than 2^64"
  },
  {
   "property": "C06",
   "status": "proved",
   "theorems": [
    "C06_passes_agree_without_recursion",
    "C06_cyclic_pass_with_recursion"
   ],
   "note": "also where the additions wrap around"
  },
  {
   "property": "C07",
   "status": "proved",
   "theorems": [
    "C07_stack_recursion_is_unbounded_and_not_exact"
   ],
   "note": ""
  },
  {
   "property": "C08",
   "status": "proved",
   "theorems": [
    "C08_caller_covers_callee"
   ],
   "note": ""
  },
  {
   "property": "C09",
   "status": "proved",
   "theorems": [
    "C09_no_wraparound_below_2_64",
    "C09_number_is_right_exactly_if_it_fits",
    "C09_wraparound_at_2_64_refuted"
   ],
   "note": "the second theorem gives the exact condition, function by function; the third shows that it can fail"
  },
  {
   "property": "C10",
   "status": "proved",
   "theorems": [
    "C10_clusters_are_recursion_groups"
   ],
   "note": "when stack usage information exists; otherwise the tool draws no clusters"
  },
  {
   "property": "C100",
   "status": "partial",
   "theorems": [
    "C100_same_names_and_types",
    "C100_any_order_partial",
    "C100_runs_partial",
    "C100_two_sizes_refuted",
    "C100_no_size_refuted",
    "C100_mapping_symbol_first_refuted"
   ],
   "note": "Proved as an equation between the reports (and logs, texts, runs) when the choice of names and types is the same; the choice is shown to be the same for any order under `unambiguous`. False in general: refuted for two sized names, for no sized name, and for a mapping symbol in front."
  },
  {
   "property": "C101",
   "status": "partial",
   "theorems": [
    "C101_same_below_partial",
    "C101_rewritten_partial",
    "C101_added_partial",
    "C101_below_start_points_partial",
    "C101_printed_maxima_partial",
    "C101_memory_routine_refuted"
   ],
   "note": "Partial: for programs with a single type that stands for fmt::Void, in which the functions concerned use no memory routine that is a symbol outside of the executable (refuted without), and with sizes of 64 bits; the theorem about added functions is for targets whose machine code is not read. Lifts C82 from call graphs to programs."
  },
  {
   "property": "C102",
   "status": "partial",
   "theorems": [
    "C102_exact_maxima_grow_partial",
    "C102_extended_partial",
    "C102_below_start_points_partial",
    "C102_printed_maxima_partial",
    "C102_lower_bounds_refuted"
   ],
   "note": "Partial: the smaller program has a single type that stands for fmt::Void, and the functions concerned use no memory routine that is a symbol outside of the executable; the sizes of the larger one fit into 64 bits. False for lower bounds (refuted). Lifts C83 from call graphs to programs."
  },
  {
   "property": "C103",
   "status": "partial",
   "theorems": [
    "C103_unknown_usages",
    "C103_missing_sizes_partial",
    "C103_below_start_points_partial",
    "C103_printed_maxima_partial",
    "C103_outlined_refuted",
    "C103_two_names_refuted"
   ],
   "note": "Partial: functions are known by the same names as before (so if the functions that lose sizes have one name), and those without their sizes were not made by the outliner (refuted otherwise), and there is a single type that stands for fmt::Void. The inequality of the numbers needs that the sizes fit into 64 bits."
  },
  {
   "property": "C104",
   "status": "partial",
   "theorems": [
    "C104_growth_is_bounded",
    "C104_exactness_is_kept",
    "C104_alignment",
    "C104_sizes_partial",
    "C104_aligned_sizes",
    "C104_recursion_refuted"
   ],
   "note": "Proved for call graphs; for programs partial: functions are known by the same names and there is a single type that stands for fmt::Void. Sums below 2^64."
  },
  {
   "property": "C105",
   "status": "partial",
   "theorems": [
    "C105_folding_partial",
    "C105_related_functions_partial",
    "C105_both_ways_partial",
    "C105_below_start_points_partial",
    "C105_printed_maxima_partial",
    "C105_types_refuted"
   ],
   "note": "Partial: one type that stands for fmt::Void, sizes whose sum fits into 64 bits; folding for targets whose machine code is not read, functions of one name that the module defines, and no statement that looks for the name under which a function is known. False for functions of different types (refuted): only the type of the first name is taken notice of, and calls through pointers are lost."
  },
  {
   "property": "C106",
   "status": "partial",
   "theorems": [
    "C106_silent_runs_lose_calls_in_five_ways",
    "C106_silent_maximum_bounds_executions_partial",
    "C106_each_way_refuted",
    "C106_printed_silent_maxima_bound_executions_partial",
    "C106_silent_maximum_bounds_machine_partial",
    "C106_printed_silent_maxima_bound_machine_partial",
    "C106_each_way_in_machine_code_refuted"
   ],
   "note": "Partial for the bounds: the functions of the execution avoid the five ways (each refuted without it), and the printed sum of the function is below 2^64 (C58); in the printed file, names without backslash (C16); for machine code, [steady]: three of the five ways for functions that branch to registers (each refuted without it), and [seen] and [promised] of C63-C65."
  },
  {
   "property": "C107",
   "status": "partial",
   "theorems": [
    "C107_calls_by_address_are_bounded_partial",
    "C107_printed_maxima_partial",
    "C107_calls_through_registers_refuted"
   ],
   "note": "Partial: [seen] and [promised] as in C64 (refuted without them there), covered_fn for the functions that branch to registers (refuted without it), the printed sum below 2^64; in the printed file, names without backslash (C16)."
  },
  {
   "property": "C11",
   "status": "proved",
   "theorems": [
    "C11_maxima_invariant_under_renumbering"
   ],
   "note": "also where the additions wrap around"
  },
  {
   "property": "C12",
   "status": "proved",
   "theorems": [
    "C12_filter_keeps_exactly_the_reachable_part"
   ],
   "note": ""
  },
  {
   "property": "C13",
   "status": "proved",
   "theorems": [
    "C13_filter_keeps_maxima"
   ],
   "note": "also where the additions wrap around"
  },
  {
   "property": "C14",
   "status": "partial",
   "theorems": [
    "C14_symbol_name_selects_symbol",
    "C14_hashed_name_resolution_partial",
    "C14_prefix_resolution",
    "C14_selects_only_hashed_names_refuted",
    "C14_unresolved_start_leaves_graph"
   ],
   "note": "the hash clause is false as stated: start point foo selects foo::helper::h...; the partial theorem assumes every name continuing the start point with ::h is a hashed form of it; C14_prefix_resolution is the exact behaviour"
  },
  {
   "property": "C15",
   "status": "partial",
   "theorems": [
    "C15_label_reads_back_partial",
    "C15_label_reads_back_iff",
    "C15_backslash_breaks_label_refuted",
    "C15_backslash_changes_label_refuted"
   ],
   "note": "holds exactly for names without a backslash, because the printer escapes quotes only"
  },
  {
   "property": "C16",
   "status": "partial",
   "theorems": [
    "C16_dot_reads_back_partial",
    "C16_clusters_are_drawn_partial",
    "C16_dot_reads_back_iff"
   ],
   "note": "holds exactly for graphs whose demangled names have no backslash"
  },
  {
   "property": "C17",
   "status": "proved",
   "theorems": [
    "C17_top_lists_functions_by_usage"
   ],
   "note": "for names without a newline (needed to read the output by lines)"
  },
  {
   "property": "C18",
   "status": "proved",
   "theorems": [
    "C18_max_line_is_the_largest_number",
    "C18_max_line_bounds_every_chain",
    "C18_max_line_marks_lower_bounds_refuted"
   ],
   "note": "the last theorem records that the MAX line drops the lower bound marker"
  },
  {
   "property": "C19",
   "status": "proved",
   "theorems": [
    "C19_dehash_strips_exactly_the_suffix",
    "C19_trait_methods_are_collected",
    "C19_only_hashes_are_removed_refuted"
   ],
   "note": "`characters` are bytes; the refutation shows that a path element of 17 bytes starting with h is taken for a hash"
  },
  {
   "property": "C20",
   "status": "partial",
   "theorems": [
    "C20_shortened_iff_unshared",
    "C20_hashed_labels_stay_different_partial",
    "C20_label_of_hashless_function_refuted",
    "C20_label_of_hashed_functions_refuted"
   ],
   "note": "the exact rule is proved; labels can coincide with hashless names and in a corner case with hashed ones"
  },
  {
   "property": "C21",
   "status": "partial",
   "theorems": [
    "C21_shortening_finishes_partial",
    "C21_shortening_panics_on_other_nodes",
    "C21_report_is_finished_exactly",
    "C21_report_is_finished_if_names_are_known",
    "C21_report_is_finished_only_if_names_are_known",
    "C21_function_pointer_type_panics_refuted",
    "C21_extern_symbol_panics_refuted"
   ],
   "note": "finishes iff every hashed node name in view has its short form in the table, with and without start point; false for nodes that do not come from defined symbols"
  },
  {
   "property": "C22",
   "status": "proved",
   "theorems": [
    "C22_outlined_function_recognition"
   ],
   "note": ""
  },
  {
   "property": "C23",
   "status": "proved",
   "theorems": [
    "C23_bl_targets"
   ],
   "note": "All valid functions (16/32-bit instructions, literal pools, mapping symbols), both architecture versions; also gives the indirect call flag and absence of panics."
  },
  {
   "property": "C24",
   "status": "partial",
   "theorems": [
    "C24_b_targets_partial",
    "C24_refuted"
   ],
   "note": "Refuted for T3 branches with J1 <> J2 (the code swaps the two bits): exact description of what is recorded, equal to the architectural target for all other branches."
  },
  {
   "property": "C25",
   "status": "partial",
   "theorems": [
    "C25_in_step_partial",
    "C25_step_of_every_half_word",
    "C25_refuted"
   ],
   "note": "Refuted for BKPT (pattern typo 1010_1110 for 1011_1110). Holds for every other assigned 16-bit encoding and every 32-bit encoding."
  },
  {
   "property": "C26",
   "status": "partial",
   "theorems": [
    "C26_stack_exact",
    "C26_never_less_partial",
    "C26_stack_total_partial",
    "C26_subw_refuted",
    "C26_stmdb_refuted",
    "C26_imm_refuted"
   ],
   "note": "Refuted for SUBW SP (T3), STMDB SP without write back, and modified immediates of the form 0x00XY00XY; holds for all other instruction sequences. What is reported for these three is stated exactly (C26_stack_exact); it is never too small without SUBW and 0x00XY00XY."
  },
  {
   "property": "C27",
   "status": "partial",
   "theorems": [
    "C27_consistent",
    "C27_iff_partial",
    "C27_gives_up_partial",
    "C27_iff_refuted",
    "C27_cbz_refuted"
   ],
   "note": "Non-zero usage implies `modifies SP`, and recorded inner branches cancel the report, for every byte string. Refuted: `sub sp, #0` trips the driver's assertion, CBZ/CBNZ are not noticed."
  },
  {
   "property": "C28",
   "status": "proved",
   "theorems": [
    "C28_pools_ignored"
   ],
   "note": ""
  },
  {
   "property": "C29",
   "status": "proved",
   "theorems": [
    "C29_matches"
   ],
   "note": ""
  },
  {
   "property": "C30",
   "status": "partial",
   "theorems": [
    "C30_types_are_read",
    "C30_print_parse_partial",
    "C30_labels_differ",
    "C30_labels_of_a_module_differ",
    "C30_void_refuted"
   ],
   "note": "Reading back fails for types in which a function returns a (pointer to a) function returning void (refuted); holds for all others. Labels of all signatures in any accepted module are different, without that restriction, since the parser never produces the bad types."
  },
  {
   "property": "C31",
   "status": "proved",
   "theorems": [
    "C31_matching_rule",
    "C31_reflexive",
    "C31_symmetric",
    "C31_transitive_refuted"
   ],
   "note": ""
  },
  {
   "property": "C32",
   "status": "partial",
   "theorems": [
    "C32_no_call_dropped_partial",
    "C32_invoke_bitcast_refuted",
    "C32_invoke_asm_refuted"
   ],
   "note": "No statement with the word `call` is dropped, for every accepted text. Refuted for `invoke` of inline assembly or of a cast function, which are recorded as `Other`."
  },
  {
   "property": "C33",
   "status": "partial",
   "theorems": [
    "C33_error_line",
    "C33_offending_line_refuted",
    "C33_only_one_kind_of_error"
   ],
   "note": "Total description for every text, no panic. `Offending` is refuted in one case: a module that begins with a blank line is rejected although every item is readable."
  },
  {
   "property": "C34",
   "status": "proved",
   "theorems": [
    "C34_direct_call",
    "C34_bitcast_call",
    "C34_asm"
   ],
   "note": ""
  },
  {
   "property": "C35",
   "status": "partial",
   "theorems": [
    "C35_indirect_call",
    "C35_varargs_refuted"
   ],
   "note": "Holds for every call in the short form `ret %f(args)`; with variable arguments LLVM writes the function type instead of the return type and that is what is recorded."
  },
  {
   "property": "C36",
   "status": "proved",
   "theorems": [
    "C36_definition"
   ],
   "note": ""
  },
  {
   "property": "C37",
   "status": "partial",
   "theorems": [
    "C37_direct_calls_become_edges_partial",
    "C37_calls_of_undefined_symbols",
    "C37_every_direct_call_refuted",
    "C37_edges_by_name_exact"
   ],
   "note": "every direct call under any alias; the one exception is memcmp, which is dropped if it is an alias of the name under which the node is known (refuted); the exact condition for an edge to any function or symbol known by a name is proved"
  },
  {
   "property": "C38",
   "status": "proved",
   "theorems": [
    "C38_edges_come_only_from_calls",
    "C38_graph_is_the_specified_one",
    "C38_edges_counted",
    "C38_edges_between_functions_exact"
   ],
   "note": "the second theorem says that the whole graph is the one of a declarative specification; the edges are also counted: once for each call under a cast and once if anything else leads there"
  },
  {
   "property": "C39",
   "status": "partial",
   "theorems": [
    "C39_no_repeated_edges_partial",
    "C39_no_repeated_edges_refuted",
    "C39_repeated_edges_exact"
   ],
   "note": "refuted for calls of bitcast functions, which are not checked for duplicates; holds for programs without them; the exact condition for having no repeated edge is proved for all programs"
  },
  {
   "property": "C40",
   "status": "partial",
   "theorems": [
    "C40_indirect_calls_reach_candidates_partial",
    "C40_indirect_calls_reach_candidates_refuted",
    "C40_calls_through_pointers_exact",
    "C40_second_type_refuted"
   ],
   "note": "exact: which functions are reached; refuted for functions that are only declared in the IR and have the type of a formatting function, and for functions with several names whose definitions have different types (only the type of the first defined name counts); holds for all others"
  },
  {
   "property": "C41",
   "status": "partial",
   "theorems": [
    "C41_unknown_callees_make_lower_bounds_partial",
    "C41_unknown_callees_make_lower_bounds_refuted",
    "C41_exact_maxima_of_a_program"
   ],
   "note": "exact: when a maximum is exact, in terms of the program; refuted for calls through a pointer of a type that no function of the program has; holds for all others"
  },
  {
   "property": "C42",
   "status": "proved",
   "theorems": [
    "C42_one_node_per_function",
    "C42_homonyms_refuted"
   ],
   "note": "a name belongs to one address (wf_prog); the refutation shows this is needed"
  },
  {
   "property": "C43",
   "status": "partial",
   "theorems": [
    "C43_graph_does_not_depend_on_orders_partial",
    "C43_maxima_do_not_depend_on_orders_partial",
    "C43_graph_does_not_depend_on_orders_refuted",
    "C43_same_calls_same_graph",
    "C43_same_calls_same_maxima",
    "C43_edges_as_often_partial"
   ],
   "note": "refuted for undefined memory routines that are called both directly and by an intrinsic; holds for all other programs with a unique fmt::Void type; the general theorem needs only that the two orders make the same calls, and counts the edges"
  },
  {
   "property": "C44",
   "status": "proved",
   "theorems": [
    "C44_branches_become_edges",
    "C44_every_function_is_analysed"
   ],
   "note": ""
  },
  {
   "property": "C45",
   "status": "partial",
   "theorems": [
    "C45_stack_size_rule_partial",
    "C45_disagreement_stops_the_tool_refuted"
   ],
   "note": "complete decision table; one case differs from the property: an outlined function with a nonzero size that disagrees is kept silently"
  },
  {
   "property": "C46",
   "status": "partial",
   "theorems": [
    "C46_wrapper_is_transparent_partial",
    "C46_version_question_is_not_passed_on_refuted",
    "C46_bytes_are_not_passed_on_refuted",
    "C46_reason_is_given"
   ],
   "note": "for all argument lists; rustc is run exactly for UTF-8 arguments with --crate-name, complete options and, for compiler_builtins, --out-dir; otherwise not (refuted)"
  },
  {
   "property": "C47",
   "status": "partial",
   "theorems": [
    "C47_options_are_read_partial",
    "C47_every_argument_list",
    "C47_equals_form_is_overlooked_refuted",
    "C47_extern_options_are_taken_for_the_name_refuted"
   ],
   "note": "all forms except --name=value and extern options other than noprelude (refuted)"
  },
  {
   "property": "C48",
   "status": "partial",
   "theorems": [
    "C48_wrapper_reports_paths",
    "C48_driver_uses_reported_paths_partial",
    "C48_any_output_of_the_build",
    "C48_every_output_is_lines",
    "C48_carriage_return_is_lost_refuted"
   ],
   "note": "exact for any output: a carriage return before a newline is lost (refuted) and a line that is not UTF-8 stops the tool"
  },
  {
   "property": "C49",
   "status": "proved",
   "theorems": [
    "C49_newest_ir_file",
    "C49_never_a_file_of_another_crate",
    "C49_finds_a_file"
   ],
   "note": ""
  },
  {
   "property": "C50",
   "status": "partial",
   "theorems": [
    "C50_cargo_is_given_the_request_partial",
    "C50_name_with_dash_refuted"
   ],
   "note": "exact: for values that do not look like options; otherwise cargo refuses the command line (refuted)"
  },
  {
   "property": "C51",
   "status": "partial",
   "theorems": [
    "C51_target_is_the_one_built_partial",
    "C51_target_decides_how_code_is_read",
    "C51_configured_target_wins_refuted"
   ],
   "note": "exact: iff not both a configured target and a different --target flag are given (refuted then)"
  },
  {
   "property": "C52",
   "status": "proved",
   "theorems": [
    "C52_unsupported_toolchains_are_refused",
    "C52_refusal_tells_what_to_do"
   ],
   "note": ""
  },
  {
   "property": "C53",
   "status": "proved",
   "theorems": [
    "C53_version_suffix_removed",
    "C53_no_version_unchanged",
    "C53_two_suffixes_keep_the_middle"
   ],
   "note": "name and version without @@; with two @@ the middle part is kept"
  },
  {
   "property": "C54",
   "status": "proved",
   "theorems": [
    "C54_last_definition_wins",
    "C54_last_stack_size_wins"
   ],
   "note": ""
  },
  {
   "property": "C55",
   "status": "proved",
   "theorems": [
    "C55_module"
   ],
   "note": ""
  },
  {
   "property": "C56",
   "status": "partial",
   "theorems": [
    "C56_bitcast_calls_become_edges_partial",
    "C56_bitcast_calls_by_alias_refuted",
    "C56_how_often"
   ],
   "note": "only if the callee is named as the graph knows it; aliases are ignored (refuted); the number of edges is exact for all programs"
  },
  {
   "property": "C57",
   "status": "partial",
   "theorems": [
    "C57_memory_intrinsics_become_edges_partial",
    "C57_memmove_refuted"
   ],
   "note": "llvm.memmove is looked up under the names of memset (refuted); the names that are looked up lead to edges"
  },
  {
   "property": "C58",
   "status": "partial",
   "theorems": [
    "C58_exact_maximum_bounds_noticed_calls",
    "C58_exact_maximum_bounds_executions_partial",
    "C58_small_usages_fit",
    "C58_debug_exact_maximum_bounds_executions_partial",
    "C58_sums_that_wrap_refuted",
    "C58_second_type_refuted",
    "C58_unread_code_refuted",
    "C58_without_text_refuted",
    "C58_assembly_calls_refuted",
    "C58_machine_code_is_read"
   ],
   "note": "for executions by functions that avoid the constructs refuted in C37, C40, C41, C56, C57, and whose code is known (refuted for functions without LLVM IR on targets whose machine code is not read, for memory intrinsics in thumb programs without section .text, and for inline assembly that calls through registers), or by calls which the tool takes notice of; and maxima whose sum in the printed graph is below 2^64 (refuted otherwise; not needed for debug builds)"
  },
  {
   "property": "C59",
   "status": "proved",
   "theorems": [
    "C59_unknown_statements_stop_the_tool"
   ],
   "note": ""
  },
  {
   "property": "C60",
   "status": "proved",
   "theorems": [
    "C60_exit_code_and_output",
    "C48_driver_uses_reported_paths_partial"
   ],
   "note": "that cargo's exit code is returned is part of C48's theorem"
  },
  {
   "property": "C61",
   "status": "partial",
   "theorems": [
    "C61_printed_maxima_bound_executions_partial"
   ],
   "note": "for executions by functions that avoid the constructs refuted in C37, C40, C41, C56, C57, names without backslash, and functions whose sum in the printed graph is below 2^64"
  },
  {
   "property": "C62",
   "status": "partial",
   "theorems": [
    "C62_branches_become_edges_partial",
    "C62_edges_come_from_branches_partial",
    "C62_recorded_branches_become_edges",
    "C62_edges_come_from_recorded_branches"
   ],
   "note": "to the target of the instruction for functions without conditional branches further than 256 KiB (refuted in C24); for all code the edges go exactly to the recorded targets"
  },
  {
   "property": "C63",
   "status": "partial",
   "theorems": [
    "C63_usage_added_up_partial",
    "C63_usage_of_any_code",
    "C63_frames_fit_partial"
   ],
   "note": "the sum is stated exactly for all code, with the recorded targets of branches (C24); frames fit if there is no SUBW SP and no 0x00XY00XY (C26)"
  },
  {
   "property": "C64",
   "status": "partial",
   "theorems": [
    "C64_exact_maximum_bounds_the_machine_partial",
    "C64_debug_exact_maximum_bounds_the_machine_partial",
    "C64_inline_assembly_refuted"
   ],
   "note": "while the running functions avoid the constructs refuted in C24, C26, C37, C40, C41, C56, C57; LLVM's sizes must be right (refuted for inline assembly in functions with branches); sums in the graph below 2^64 (C58)"
  },
  {
   "property": "C65",
   "status": "partial",
   "theorems": [
    "C65_printed_maxima_bound_the_machine_partial"
   ],
   "note": "C64 from the text on stdout; names without backslash (C15); printed sums below 2^64 (C58)"
  },
  {
   "property": "C66",
   "status": "partial",
   "theorems": [
    "C66_printed_graph_is_the_call_graph_partial"
   ],
   "note": "names without backslash (C15, C16)"
  },
  {
   "property": "C67",
   "status": "partial",
   "theorems": [
    "C67_printed_list_shows_the_functions_partial"
   ],
   "note": "names without line breaks (C17)"
  },
  {
   "property": "C68",
   "status": "proved",
   "theorems": [
    "C68_graph_is_built_exactly_when_understood",
    "C68_understood_in_any_order_partial",
    "C68_understood_in_any_order_refuted"
   ],
   "note": "both directions, for every program and order; whether a program is understood depends on the order of its definitions only if it calls an undefined `memcmp` under a cast and by name (refuted, and partial: no other programs)"
  },
  {
   "property": "C69",
   "status": "partial",
   "theorems": [
    "C69_build_is_started_exactly_when",
    "C69_files_are_loaded_exactly_when",
    "C69_success_exactly_when_understood_partial",
    "C69_understood_programs_succeed_partial"
   ],
   "note": "both directions; messages as in C48, at most one fmt::Void type and, with a start point, a graph that does not depend on the iteration order"
  },
  {
   "property": "C70",
   "status": "proved",
   "theorems": [
    "C70_output_is_complete_or_the_tool_fails"
   ],
   "note": ""
  },
  {
   "property": "C71",
   "status": "partial",
   "theorems": [
    "C71_a_source_file_is_touched_first_partial",
    "C71_directory_is_touched_refuted"
   ],
   "note": "by its name; a directory with such a name is touched too (refuted)"
  },
  {
   "property": "C72",
   "status": "proved",
   "theorems": [
    "C72_unreadable_files_are_named",
    "C72_complaint_names_the_file"
   ],
   "note": "messages of the build as in C48"
  },
  {
   "property": "C73",
   "status": "proved",
   "theorems": [
    "C73_cargo_runs_the_wrapper",
    "C73_verbose_mode_shows_the_command"
   ],
   "note": ""
  },
  {
   "property": "C74",
   "status": "proved",
   "theorems": [
    "C74_log_of_a_run",
    "C74_every_message_has_a_reason",
    "C74_log_is_only_a_log"
   ],
   "note": ""
  },
  {
   "property": "C75",
   "status": "proved",
   "theorems": [
    "C75_unknown_usage_is_announced",
    "C75_symbols_outside_refuted"
   ],
   "note": "functions of the executable; symbols outside of it have unknown usage without a message (refuted); a thumb executable without .text gets the message about that instead"
  },
  {
   "property": "C76",
   "status": "proved",
   "theorems": [
    "C76_inline_assembly_is_announced",
    "C76_lowered_intrinsics_are_announced",
    "C76_replaced_sizes_are_announced"
   ],
   "note": ""
  },
  {
   "property": "C77",
   "status": "proved",
   "theorems": [
    "C77_unbounded_calls_are_announced"
   ],
   "note": ""
  },
  {
   "property": "C78",
   "status": "partial",
   "theorems": [
    "C78_silent_runs_are_exact_partial"
   ],
   "note": "if every function called by name is in the executable; refuted otherwise (C75_symbols_outside_refuted)"
  },
  {
   "property": "C79",
   "status": "proved",
   "theorems": [
    "C79_missing_start_is_announced"
   ],
   "note": ""
  },
  {
   "property": "C80",
   "status": "proved",
   "theorems": [
    "C80_log_of_a_run_that_stops",
    "C80_log_is_determined",
    "C80_log_of_any_run",
    "C80_log_of_a_loaded_program",
    "C80_log_without_symbol_table",
    "C80_early_log_is_determined"
   ],
   "note": ""
  },
  {
   "property": "C81",
   "status": "proved",
   "theorems": [
    "C81_any_bytes",
    "C81_symbols_found",
    "C81_functions_read"
   ],
   "note": ""
  },
  {
   "property": "C82",
   "status": "proved",
   "theorems": [
    "C82_maximum_depends_on_what_is_reached"
   ],
   "note": "also where the additions wrap around"
  },
  {
   "property": "C83",
   "status": "partial",
   "theorems": [
    "C83_growth_raises_exact_maxima",
    "C83_growth_raises_numbers_partial",
    "C83_growth_raises_numbers_refuted"
   ],
   "note": "the clause on exact maxima holds without restriction; numbers do not fall if the new calls close no cycle; a call that closes a cycle can lower a number (refuted)"
  },
  {
   "property": "C84",
   "status": "proved",
   "theorems": [
    "C84_groups_share_their_maximum",
    "C84_numbers_add_up_modulo_2_64",
    "C84_numbers_add_up",
    "C84_exactness_is_passed_on"
   ],
   "note": "the numbers add up modulo 2^64 in every case and exactly where they fit"
  },
  {
   "property": "C85",
   "status": "proved",
   "theorems": [
    "C85_files_of_the_last_compilation"
   ],
   "note": ""
  },
  {
   "property": "C86",
   "status": "proved",
   "theorems": [
    "C86_command_line_read_exactly",
    "C86_run_of_a_command_line"
   ],
   "note": "clap's part is modelled from its documented behaviour"
  },
  {
   "property": "C87",
   "status": "partial",
   "theorems": [
    "C87_start_through_cargo_refuted",
    "C87_start_refused",
    "C87_no_start_partial"
   ],
   "note": "false: through cargo every command line with a start point is refused, and the name of the subcommand is taken as start point otherwise; then effects and exit code are those of the direct run unless the program has a function of that name, and the log says that the start point was not found"
  },
  {
   "property": "C88",
   "status": "partial",
   "theorems": [
    "C88_debug_ends_as_release_or_overflows",
    "C88_loaded_debug_ends_as_release_or_overflows",
    "C88_debug_prints_as_release_partial",
    "C88_branch_across_the_middle_refuted",
    "C88_usages_that_do_not_fit_refuted",
    "C88_debug_agrees_exactly_partial",
    "C88_debug_graph_exactly_partial",
    "C88_debug_maxima_exactly_if_they_fit",
    "C88_debug_numbers_are_right"
   ],
   "note": "false for a branch across address 2^31 and for usages that add up to 2^64 or more: the arithmetic checks stop the debug build. Proved: nothing else can make a difference, and there is none for code that ends 32 MiB below 2^31 with usages whose sum fits; for code anywhere that is 32 MiB smaller than 2^31 and ends below 2^32 the two are equal exactly if no branch leads across 2^31 and every charge fits. Open: longer code. The part of a debug build that adds up usages ends exactly if all charges fit, so the numbers it prints are always right"
  },
  {
   "property": "C89",
   "status": "proved",
   "theorems": [
    "C89_graph_does_not_depend_on_the_place",
    "C89_report_and_log_do_not_depend_on_the_place",
    "C89_run_does_not_depend_on_the_place",
    "C89_process_does_not_depend_on_the_place",
    "C89_debug_build_refuted"
   ],
   "note": "release builds of the tool; a debug build can stop at the new place, because a branch crosses the middle of the address space there"
  },
  {
   "property": "C90",
   "status": "partial",
   "theorems": [
    "C90_reports_show_the_same_partial",
    "C90_lists_show_the_same",
    "C90_runs_show_the_same_partial",
    "C90_same_text_refuted",
    "C90_reports_show_the_same_refuted",
    "C90_edited_programs_show_the_same_partial",
    "C90_edited_runs_show_the_same_partial",
    "C90_same_messages_partial",
    "C90_same_messages_refuted",
    "C90_same_assembly_refuted"
   ],
   "note": "proved for programs in which no memory routine is a symbol outside of the executable, with one void function type and usages below 2^64; false without the first condition: one run panics where another one makes a report. The text itself is not reproducible: nodes and edges are numbered and printed in other orders. The logs have the same messages, in some order, if inline assembly is in one definition of each function and no symbol outside of the executable is called both by name and under a cast; false without these conditions"
  },
  {
   "property": "C91",
   "status": "proved",
   "theorems": [
    "C91_report_and_log",
    "C91_runs_do_the_same",
    "C91_unreadable_refuted"
   ],
   "note": "the refuted theorem shows why the edited modules have to be readable: text that is not understood stops the run wherever it is; for other visiting orders see C90_edited_programs_show_the_same_partial and C90_edited_runs_show_the_same_partial"
  },
  {
   "property": "C92",
   "status": "proved",
   "theorems": [
    "C92_renamed_programs",
    "C92_hashes_do_not_show",
    "C92_same_output",
    "C92_twins_show_refuted",
    "C92_any_name_refuted",
    "C92_renamed_log"
   ],
   "note": "the same function is used to demangle both programs; the names at an address keep their order. The refuted theorems show that the conditions on the names are needed"
  },
  {
   "property": "C93",
   "status": "proved",
   "theorems": [
    "C93_obstacles_are_named",
    "C93_no_other_obstacles"
   ],
   "note": "the answers of the environment (rustc_version, cargo_project, rustc, the file system) are arbitrary; the text about bytes that are no UTF-8 is shorter in the model than the real one"
  },
  {
   "property": "C94",
   "status": "partial",
   "theorems": [
    "C94_maxima_are_reached_partial",
    "C94_memmove_refuted",
    "C94_exact_maximum_is_the_largest_usage_partial",
    "C94_printed_maxima_are_reached_partial"
   ],
   "note": "true of every program that does not call `llvm.memmove` on a target whose machine code is not read; for those that do it is refuted: the tool takes the intrinsic for a call of memset or memclr. The chains are chains of calls in the code; whether the program ever takes them is not asked. Numbers whose sums stay below 2^64, as in C01"
  },
  {
   "property": "C95",
   "status": "proved",
   "theorems": [
    "C95_every_run_ends_so",
    "C95_ending_is_determined",
    "C95_exit_codes"
   ],
   "note": "the text of a panic is not modelled; what the libraries return for a file (an error or a panic) is arbitrary; when the program has a report is C68, C69"
  },
  {
   "property": "C96",
   "status": "proved",
   "theorems": [
    "C96_every_run_comes_to_an_end",
    "C96_parsing_comes_to_an_end",
    "C96_analysis_comes_to_an_end"
   ],
   "note": "loops whose end is not evident have a step budget in the model that depends on the size of the input; the theorems say that it is never used up. A panic is an end. The libraries are taken to end, by hypothesis"
  },
  {
   "property": "C97",
   "status": "proved",
   "theorems": [
    "C97_only_the_text_changes",
    "C97_formats_agree",
    "C97_list_shows_exactness_refuted"
   ],
   "note": "stdout that refuses bytes is excluded: the two texts differ in length, so only one of them may fit (C70). The refuted theorem shows what the list leaves out"
  },
  {
   "property": "C98",
   "status": "proved",
   "theorems": [
    "C98_report_below_a_start_point",
    "C98_no_start_changes_nothing",
    "C98_runs_with_and_without_start"
   ],
   "note": "stack sizes are 64 bit numbers, as in the file; the converse is false: a program may have a report below a start point only (C21_start_example)"
  },
  {
   "property": "C99",
   "status": "partial",
   "theorems": [
    "C99_exact_iff_bounded_partial",
    "C99_exact_iff_bounded_inside_partial",
    "C99_silent_runs_are_of_closed_programs",
    "C99_printed_exact_iff_bounded_partial"
   ],
   "note": "Equivalence proved under the restrictions of C58 and C94 (covered p, no llvm.memmove outside of thumb, no hidden formatting function), which are refuted there without them, and, if the program is not closed, that no memory routine that is called is missing (stable p; the graph depends on the iteration order otherwise, C43); C99_printed speaks of the file that is printed by main. Examples: p3 (exact, bounded) and p_circles (recursive, lower bound, not bounded), p_out (one function leaves what is known, the other does not)."
  }
 ]
}