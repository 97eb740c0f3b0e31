{
 "claims": [
  {
   "property": "C01",
   "status": "proved",
   "theorems": [
    "C01_merge_adds_hits",
    "C01_merge_adds_hits_release",
    "C01_merge_shape",
    "C01_merge_comm_nonvacuous"
   ],
   "note": "Debug build: equality for every merge that returns; release build: equality modulo 2^32, and exact equality by merge_shape when sums fit. Only the first record must not repeat a location."
  },
  {
   "property": "C02",
   "status": "proved",
   "theorems": [
    "C02_merge_ok_tables",
    "C02_merge_shape",
    "C02_merge_total_release",
    "C02_spec_merge_wf",
    "C02_spec_merge_dense",
    "C02_plain_first_ok"
   ],
   "note": "merge_shape gives the returned record in full; merge_ok_tables says merge never returns when a counter lacks metadata or a branch has no location."
  },
  {
   "property": "C03",
   "status": "proved",
   "theorems": [
    "C03_merge_comm",
    "C03_merge_assoc",
    "C03_merge_zeroed_identity",
    "C03_merge_comm_nonvacuous"
   ],
   "note": "For records without truthiness tables and without repeated locations, when sums fit."
  },
  {
   "property": "C04",
   "status": "partial",
   "theorems": [
    "C04_merge_never_loses_hits_refuted",
    "C04_merge_comm_refuted_with_duplicates",
    "C04_merge_exact",
    "C04_merge_exact_release",
    "C04_produced_merge_loses_hits_refuted"
   ],
   "note": "False of the code: a first record listing one location twice loses all but the last of its counts; produced_merge_loses_hits_refuted shows it on the record of an instrumented program. merge_exact is the exact law for arbitrary records."
  },
  {
   "property": "C05",
   "status": "partial",
   "theorems": [
    "C05_merge_truthiness_refuted",
    "C05_merge_truthiness_panics_refuted",
    "C05_merge_truthiness_partial",
    "C05_truth_nonvacuous",
    "C05_produced_merge_panics_refuted"
   ],
   "note": "False of the code: merge renumbers bT from 0 independently of the branch table and looks its keys up in the already renumbered table (produced_merge_panics_refuted: also on the record of an instrumented program). Proved when every branch has truthiness counters and ids are dense."
  },
  {
   "property": "C06",
   "status": "proved",
   "theorems": [
    "C06_merge_placeholder_ignored",
    "C06_merge_placeholder_replaced",
    "C06_merge_keeps_identity"
   ],
   "note": ""
  },
  {
   "property": "C07",
   "status": "proved",
   "theorems": [
    "C07_key_from_loc_iff"
   ],
   "note": ""
  },
  {
   "property": "C08",
   "status": "proved",
   "theorems": [
    "C08_line_coverage_spec",
    "C08_line_coverage_panics_iff",
    "C08_line_coverage_value",
    "C08_line_cov_example"
   ],
   "note": ""
  },
  {
   "property": "C09",
   "status": "proved",
   "theorems": [
    "C09_uncovered_spec",
    "C09_uncovered_iff"
   ],
   "note": ""
  },
  {
   "property": "C10",
   "status": "proved",
   "theorems": [
    "C10_branch_by_line_spec",
    "C10_branch_by_line_counts",
    "C10_coverage_ratio",
    "C10_coverage_ratio_nan"
   ],
   "note": "Totals, covered counts and order of lines; the f32 ratio is finite and in [0,100] for a line with a path (Flocq), NaN for a line whose branches have no path."
  },
  {
   "property": "C11",
   "status": "proved",
   "theorems": [
    "C11_to_summary_spec",
    "C11_to_summary_sane"
   ],
   "note": ""
  },
  {
   "property": "C12",
   "status": "proved",
   "theorems": [
    "C12_percent_truncates",
    "C12_percent_nearest",
    "C12_percent_range",
    "C12_percent_100_iff",
    "C12_percent_full",
    "C12_percent_monotone",
    "C12_percent_zero",
    "C12_percent_lt_100",
    "C12_percent_above_ratio_refuted",
    "C12_percent_test2"
   ],
   "note": "As a real number the result may exceed the truncated ratio by single-precision rounding (percent_above_ratio_refuted); it is the nearest binary32 number to it."
  },
  {
   "property": "C13",
   "status": "proved",
   "theorems": [
    "C13_summary_merge_spec",
    "C13_summary_merge_comm",
    "C13_map_summary_is_sum",
    "C13_summary_is_empty_spec"
   ],
   "note": ""
  },
  {
   "property": "C14",
   "status": "proved",
   "theorems": [
    "C14_reset_hits_spec",
    "C14_reset_hits_idempotent",
    "C14_reset_summary"
   ],
   "note": ""
  },
  {
   "property": "C15",
   "status": "proved",
   "theorems": [
    "C15_add_coverage_effect",
    "C15_from_iter_spec",
    "C15_map_merge_spec",
    "C15_reachable_ok",
    "C15_map_example"
   ],
   "note": ""
  },
  {
   "property": "C16",
   "status": "proved",
   "theorems": [
    "C16_filter_spec",
    "C16_reachable_ok"
   ],
   "note": ""
  },
  {
   "property": "C17",
   "status": "proved",
   "theorems": [
    "C17_registration_spec",
    "C17_registration_ids",
    "C17_reachable_wf_state",
    "C17_sample_calls_run"
   ],
   "note": "registration_spec gives the whole record and every returned id as a function of the call history. Ids are unbounded in the model (the code overflows after 2^32 registrations)."
  },
  {
   "property": "C18",
   "status": "proved",
   "theorems": [
    "C18_add_path_effect",
    "C18_registration_panics_iff",
    "C18_registration_ids"
   ],
   "note": ""
  },
  {
   "property": "C19",
   "status": "partial",
   "theorems": [
    "C19_freeze_spec",
    "C19_freeze_idempotent",
    "C19_frozen_record",
    "C19_freeze_counters_perm",
    "C19_freeze_order_refuted"
   ],
   "note": "The ordering clause is false of the code: swap_remove moves the last counter row into the hole (freeze_order_refuted). Everything else is proved."
  },
  {
   "property": "C20",
   "status": "partial",
   "theorems": [
    "C20_data_object_value",
    "C20_literal_is_the_data",
    "C20_literal_recovers_exactly",
    "C20_unescaped_name_refuted",
    "C20_produced_literal"
   ],
   "note": "For every record with unique keys whose function names need no escaping (the code writes them raw; unescaped_name_refuted shows the requirement is needed)."
  },
  {
   "property": "C21",
   "status": "proved",
   "theorems": [
    "C21_fc_text_injective",
    "C21_fc_hash_collision",
    "C21_emitted_spec",
    "C21_print_ex",
    "C21_escape_table",
    "C21_escape_ex",
    "C21_fc_hash_ex",
    "C21_literal_is_the_data",
    "C21_vector_statement_2",
    "C21_vector_fn_2",
    "C21_vector_branch_2",
    "C21_vector_path_2",
    "C21_hash_str_lt"
   ],
   "note": "SipHash-1-3 is modelled bit by bit and reproduces ten hashes of the repository's tests. Two records share a hash only by a collision of the 64-bit hash of different texts."
  },
  {
   "property": "C22",
   "status": "proved",
   "theorems": [
    "C22_one_live_record",
    "C22_counts_are_kept",
    "C22_later_calls_agree",
    "C22_initial_count",
    "C22_counts_are_kept_ex"
   ],
   "note": "Every interleaving of loads, calls and increments of files with different paths, over an interpreter for the emitted counter function."
  },
  {
   "property": "C23",
   "status": "partial",
   "theorems": [
    "C23_reload_keeps_counts_refuted",
    "C23_reload_restarts",
    "C23_every_load_counts_alone",
    "C23_first_call"
   ],
   "note": "False of the code: the template compares the property $hash, which no record has, so every evaluation installs a fresh record. every_load_counts_alone says exactly what happens in every history."
  },
  {
   "property": "C24",
   "status": "partial",
   "theorems": [
    "C24_own_name_refuted",
    "C24_all_names_of_first",
    "C24_first_file_name",
    "C24_names_agree_iff",
    "C24_fn_name_vector"
   ],
   "note": "False of the code: the names live in process-wide cells set by the first file. Proved for the first file of a process."
  },
  {
   "property": "C25",
   "status": "proved",
   "theorems": [
    "C25_hint_grammar",
    "C25_no_hint_iff",
    "C25_file_hint_grammar",
    "C25_word_class",
    "C25_word_class_hi",
    "C25_space_class",
    "C25_hint_examples"
   ],
   "note": "For every interpretation of the non-ASCII part of the word class."
  },
  {
   "property": "C26",
   "status": "proved",
   "theorems": [
    "C26_lookup_first_hint",
    "C26_should_ignore_spec",
    "C26_should_ignore_none_iff",
    "C26_lookup_examples"
   ],
   "note": ""
  },
  {
   "property": "C27",
   "status": "proved",
   "theorems": [
    "C27_excluded_unchanged",
    "C27_ignored_unchanged",
    "C27_instrumented_otherwise",
    "C27_process_cases",
    "C27_repository_ignores",
    "C27_exclude_ex"
   ],
   "note": "The glob matcher and the option decoder are arbitrary functions."
  },
  {
   "property": "C28",
   "status": "proved",
   "theorems": [
    "C28_range_lookup",
    "C28_range_dummy",
    "C28_range_zero_iff"
   ],
   "note": "lookup_char_pos of the source mapper is an arbitrary function."
  },
  {
   "property": "C33",
   "status": "proved",
   "theorems": [
    "C33_erase_instrument",
    "C33_erase_clean",
    "C33_erase_visit",
    "C33_erase_instrument_ex"
   ],
   "note": "For every tree without injected nodes (clean), every comment table and option; erase is a compositional function defined without reference to the visitors."
  },
  {
   "property": "C29",
   "status": "proved",
   "theorems": [
    "C29_no_dangling_counter",
    "C29_counters_account",
    "C29_embedded_record",
    "C29_ex_function_account"
   ],
   "note": "For every clean program without TypeScript namespaces (a nested module item list would get a second template)."
  },
  {
   "property": "C30",
   "status": "partial",
   "theorems": [
    "C30_truth_counter_dangles_refuted",
    "C30_truth_slots",
    "C30_no_dangling_truth_counter_partial"
   ],
   "note": "False of the code: a default value gets a truthiness counter without slot. Proved: without default values, occurrences and slots agree exactly; counters_account and truth_slots describe the general case exactly."
  },
  {
   "property": "C31",
   "status": "proved",
   "theorems": [
    "C31_no_counter_twice",
    "C31_counters_account"
   ],
   "note": "For s, f, b and bT counters."
  },
  {
   "property": "C32",
   "status": "partial",
   "theorems": [
    "C32_slot_without_counter_refuted",
    "C32_statement_counters_exact",
    "C32_counters_account"
   ],
   "note": "False of the code: statement counters collected in the discriminant or case test of a switch are dropped. Proved: functions and branch paths always, statements when no such part contains one."
  },
  {
   "property": "C34",
   "status": "partial",
   "theorems": [
    "C34_same_behaviour",
    "C34_same_behaviour_ex",
    "C34_same_behaviour_logic_ex",
    "C34_same_behaviour_directives_refuted",
    "C34_same_behaviour_script_refuted",
    "C34_same_behaviour_tests_refuted",
    "C34_tagged_or_ex",
    "C34_same_behaviour_tagged_refuted"
   ],
   "note": "False of the code when a function or script has directives (displaced), when reportLogic's tests run user code, or when, with reportLogic, a logical expression stands in a tagged template that initialises a variable (the template is visited twice and the value is replaced by the result of a test). Proved for every environment (host) and every bound, for programs without these, without declarations as direct bodies of if/loops/with and, with reportLogic, without tagged templates as initialisers."
  },
  {
   "property": "C35",
   "status": "partial",
   "theorems": [
    "C35_ignore_next",
    "C35_ignore_next_stmt",
    "C35_ignore_next_item",
    "C35_ignore_next_export_const_refuted",
    "C35_ignore_next_ex"
   ],
   "note": "False of the code for `export const` (the counter of the export is added before the hint is looked at). Proved for every other node, block statement and module item."
  },
  {
   "property": "C36",
   "status": "proved",
   "theorems": [
    "C36_if_hints",
    "C36_if_hints_ex"
   ],
   "note": "For every if statement visited outside an ignored region; gives the shape of both sides and the final table entry with its paths."
  },
  {
   "property": "C37",
   "status": "proved",
   "theorems": [
    "C37_ignored_method",
    "C37_ignored_method_ex"
   ],
   "note": ""
  },
  {
   "property": "C38",
   "status": "partial",
   "theorems": [
    "C38_preceding_statement_influences_refuted",
    "C38_block_statements_context",
    "C38_module_items_context_partial",
    "C38_script_items_context_partial",
    "C38_influence_ex"
   ],
   "note": "False of the code: a logical expression leaves its marks on the visitor's stack. Proved: in a block every statement starts from the block's context; at the top level, if no logical expression precedes outside of function bodies and other blocks."
  },
  {
   "property": "C39",
   "status": "partial",
   "theorems": [
    "C39_tagged_init_registered_twice_refuted",
    "C39_one_entry_per_site_partial",
    "C39_entries_distinct_partial",
    "C39_one_entry_ex"
   ],
   "note": "False of the code for functions inside a tagged template that initialises a variable or field. Proved for programs without such initialisers, for functions and branches."
  },
  {
   "property": "C40",
   "status": "partial",
   "theorems": [
    "C40_prologue_displaced_refuted",
    "C40_module_prologue_layout",
    "C40_module_single_directive_partial",
    "C40_script_layout",
    "C40_function_layout"
   ],
   "note": "False of the code: only the first directive of a module keeps its place; scripts and functions lose theirs. The layouts are proved exactly."
  },
  {
   "property": "C41",
   "status": "proved",
   "theorems": [
    "C41_instrumentation_finishes",
    "C41_panics_only_without_body",
    "C41_finishes_ex",
    "C41_no_body_panics_ex",
    "C41_repository_generates"
   ],
   "note": "For every tree whose nodes have the children of their kind; the result does not depend on the fuel once it suffices. TypeScript namespaces (nested module items) are outside the shape predicate."
  },
  {
   "property": "C42",
   "status": "partial",
   "theorems": [
    "C42_declarator_keeps_name",
    "C42_declarator_keeps_name_ex",
    "C42_field_and_default_lose_name_refuted"
   ],
   "note": "Proved for declarators; false for class fields and default values, which are wrapped in a sequence expression."
  },
  {
   "property": "C43",
   "status": "partial",
   "theorems": [
    "C43_counters_accurate_partial",
    "C43_counters_tell_original_partial",
    "C43_instrument_acc",
    "C43_accurate_ex",
    "C43_accurate_ex_applies",
    "C43_field_counter_refuted",
    "C43_declarator_counter_refuted",
    "C43_repository_fixtures_pass",
    "C43_repository_tables_agree_partial"
   ],
   "note": "For every program whose counters all stay next to their events (predicate exact: no initialiser with a function in a class field or behind another declarator, no tagged template inside an expression), in every environment, each statement, function and branch counter is incremented exactly as often as the event its record entry points at happens, in the run of the instrumented and of the original program. False for class fields and later declarators with function initialisers, as shown. Truthiness counters are the subject of C51. As a check of model and semantics, the repository's own 193 fixture tests pass on them (three with generators: tables only)."
  },
  {
   "property": "C44",
   "status": "partial",
   "theorems": [
    "C44_missing_file_name",
    "C44_bad_config",
    "C44_good_config",
    "C44_bad_patterns",
    "C44_excluded_iff",
    "C44_normalize_path_spec_partial",
    "C44_normalize_ex",
    "C44_exclude_ex",
    "C44_log_once",
    "C44_log_once_ex"
   ],
   "note": "Configuration texts are decoded by the model of serde (C48). Normalisation is proved for paths the typed-path crate does not classify as Windows paths; the crate itself is a parameter."
  },
  {
   "property": "C45",
   "status": "partial",
   "theorems": [
    "C45_record_is_exact",
    "C45_registered_ex",
    "C45_initialised_variable_counted_refuted",
    "C45_lost_ex"
   ],
   "note": "The tables are exact for every program whose initialisers are no tagged templates; variables initialised with a function without a block must not stand in the head of a loop, in an unbraced arm, or after a logical expression of the same declaration or of the top level. The other premises say that case clauses stand in switch statements and statement lists contain statements. Hints, reportLogic and ignored methods are covered. The specification is a function of the source text alone. That every initialised variable is listed is false: constants with block-less functions are listed at the top level of a program only."
  },
  {
   "property": "C46",
   "status": "proved",
   "theorems": [
    "C46_produced_record",
    "C46_function_names",
    "C46_reports_never_panic",
    "C46_produced_ex"
   ],
   "note": "For every program with a list of items. The summary is total when the number of branch paths fits u32; merging is total in release builds (debug builds panic on overflowing sums)."
  },
  {
   "property": "C47",
   "status": "partial",
   "theorems": [
    "C47_published_record",
    "C47_record_tells_original_partial",
    "C47_report_tells_original_partial",
    "C47_report_ex"
   ],
   "note": "published_record holds for every file with unique keys and plain names. The link to the original program has the premises of counters_tell_original_partial (C43) and asks that identifiers need no escaping; the summary that the number of branch paths fits u32. Truthiness counters are raised as executed, their meaning is C51."
  },
  {
   "property": "C48",
   "status": "proved",
   "theorems": [
    "C48_read_options",
    "C48_read_options_array",
    "C48_read_options_other",
    "C48_read_log",
    "C48_read_source_map_spec",
    "C48_unknown_member",
    "C48_repeated_option",
    "C48_options_order",
    "C48_options_round_trip",
    "C48_parse_grammar",
    "C48_parse_fuel",
    "C48_text_unique",
    "C48_string_value",
    "C48_read_scalar",
    "C48_read_vec",
    "C48_read_option",
    "C48_good_config",
    "C48_decode_ex"
   ],
   "note": "The JSON grammar is stated as a relation and the parser is proved sound and complete for it. Round trip for source map versions below 2^32, as the Rust type has it."
  },
  {
   "property": "C49",
   "status": "proved",
   "theorems": [
    "C49_record_round_trip",
    "C49_produced_round_trip",
    "C49_produced_positions",
    "C49_read_file_coverage",
    "C49_read_branch_spec",
    "C49_read_function",
    "C49_read_range_spec",
    "C49_read_location",
    "C49_read_source_map_spec",
    "C49_read_branch_type",
    "C49_read_table",
    "C49_read_other",
    "C49_table_key",
    "C49_parse_print",
    "C49_read_record_ex",
    "C49_read_record_bad",
    "C49_produced_round_trip_ex"
   ],
   "note": "Round trip for records whose numbers fit u32, as in the Rust type; for instrumented files this holds when each kind of counter is used at most 2^32 times."
  },
  {
   "property": "C50",
   "status": "partial",
   "theorems": [
    "C50_record_from_comment",
    "C50_produced_from_comment",
    "C50_record_text_occurs",
    "C50_comment_ends_early",
    "C50_comment_lost_refuted",
    "C50_read_debug_comment",
    "C50_print_occurs",
    "C50_from_comment_ex"
   ],
   "note": "False of the code: the text is put into a block comment unchecked, so a record with */ in its path or in a string of its source map (for example a source with a block comment in sourcesContent) ends the comment early and the rest becomes code. Proved when no string of the record contains */ or the marker; for files without an input source map this only concerns the path."
  },
  {
   "property": "C51",
   "status": "proved",
   "theorems": [
    "C51_truths_in_operands",
    "C51_truths_at_most_passes",
    "C51_operand_counts",
    "C51_truths_ex",
    "C51_operand_ex"
   ],
   "note": "The four tests of a value (Array.isArray, length, prototype, Object.values) are played by the host; operand_counts asks that they return without effect. The bound and the placement hold for every host."
  },
  {
   "property": "C52",
   "status": "partial",
   "theorems": [
    "C52_merge_runs",
    "C52_merged_runs_tell_partial",
    "C52_merged_report_partial",
    "C52_merged_ex",
    "C52_merged_numbers_ex",
    "C52_merged_runs_refuted",
    "C52_merged_logic_refuted"
   ],
   "note": "Merging matches entries by location, so it loses counts when two entries share one (functions in a tagged template that initialises a variable are registered twice) and misplaces truthiness counts. Proved without reportLogic for records with distinct locations whose sums fit u32, under the premises of C47; merge_runs is about arbitrary records."
  },
  {
   "property": "C53",
   "status": "proved",
   "theorems": [
    "C53_layout_independent",
    "C53_name_only_in_record",
    "C53_comments_only_hints",
    "C53_no_hints_no_comments",
    "C53_leading_lines",
    "C53_hint_comment_matters_ex",
    "C53_no_hint_comment_ex",
    "C53_leading_lines_ex",
    "C53_leading_lines_record_ex",
    "C53_other_name_ex"
   ],
   "note": "For every tree without an already embedded record. About the tree and the record; the name of the coverage function is a hash of the file name (C24)."
  },
  {
   "property": "C54",
   "status": "partial",
   "theorems": [
    "C54_logic_loses_function_refuted",
    "C54_logic_only_adds_partial",
    "C54_logic_keeps_counters_partial",
    "C54_ex_function_plain",
    "C54_logic_only_adds_ex",
    "C54_tagged_adds_paths_refuted"
   ],
   "note": "False of the code: with the option an operand is not visited, so functions, conditionals and tagged templates inside of it lose their counters. In tagged templates that initialise variables, the truthiness tests themselves are registered as extra paths. Proved for programs whose operands and default values contain nothing to instrument (or a nested logical expression) and without tagged templates as initialisers."
  },
  {
   "property": "C55",
   "status": "partial",
   "theorems": [
    "C55_namespace_second_record_refuted",
    "C55_second_record_replaces_first",
    "C55_namespace_loses_counts_refuted",
    "C55_one_record_partial",
    "C55_one_record_ex"
   ],
   "note": "False of the code: the module items of a TypeScript namespace get a coverage function of their own with the entries registered so far; at run time its record replaces the one of the file and the counts outside the namespace are lost. Proved for programs without nested lists of module items."
  },
  {
   "property": "C56",
   "status": "proved",
   "theorems": [
    "C56_options_reach_output",
    "C56_no_function_otherwise",
    "C56_unread_options",
    "C56_unread_options_same",
    "C56_published_as_configured",
    "C56_emitted_ex"
   ],
   "note": "The run-time part asks that identifiers need no escaping (C20). The name of the function is the one of the process (C24)."
  },
  {
   "property": "C57",
   "status": "partial",
   "theorems": [
    "C57_scripts_apart_refuted",
    "C57_scripts_apart_partial",
    "C57_shared_counts",
    "C57_diverted_after",
    "C57_one_process_diverts",
    "C57_distinct_names_apart",
    "C57_scripts_apart_ex"
   ],
   "note": "False of the code: all files of a process get the same function name, so in a shared scope the function of the script loaded last receives the increments of all of them. Proved for scripts with distinct names; with equal names exactly what is counted where."
  },
  {
   "property": "C58",
   "status": "partial",
   "theorems": [
    "C58_initial_loses_null_refuted",
    "C58_initial_of_program_partial",
    "C58_initial_read_back",
    "C58_initial_is_record",
    "C58_matches_comment_iff",
    "C58_initial_read_ex"
   ],
   "note": "False of the reader: it skips null elements, so a missing entry of sourcesContent is lost. Everything else is read exactly; the comparison with the comment succeeds exactly without such nulls. Premises as in C56."
  },
  {
   "property": "C59",
   "status": "proved",
   "theorems": [
    "C59_interop_counts",
    "C59_produced_static",
    "C59_interop_ex",
    "C59_interop_overflow_ex"
   ],
   "note": "Identifiers that need no escaping (C20) and fewer than 2^32 counters per file; files with different names (C23, C24)."
  },
  {
   "property": "C60",
   "status": "partial",
   "theorems": [
    "C60_variable_read",
    "C60_project_map",
    "C60_project_tells_partial",
    "C60_project_report_partial",
    "C60_project_ex",
    "C60_project_numbers_ex"
   ],
   "note": "variable_read and project_map hold for all embedded records without truthiness counters whose entries have different locations. The link to the source programs has the premises of C52 (no reportLogic, distinct locations, sums that fit u32)."
  },
  {
   "property": "C61",
   "status": "proved",
   "theorems": [
    "C61_merge_never_lowers",
    "C61_merge_uncovered",
    "C61_merge_percentages",
    "C61_growth_ex",
    "C61_percentage_lowered_refuted",
    "C61_one_more_run",
    "C61_one_more_ex",
    "C61_logic_merge_never_lowers",
    "C61_logic_merge_percentages",
    "C61_logic_one_more_run",
    "C61_logic_one_more_release",
    "C61_logic_one_more_modes",
    "C61_logic_more_ex"
   ],
   "note": "percentage_lowered_refuted shows why the premise on the places of the second record is needed. For records with truthiness counters (the logic_* theorems) the merge and the summaries are assumed to succeed, except for records from which no branch was removed, where they do (in builds with overflow checks under the bound of C71). Duplicate locations and the truthiness counters themselves are the subject of C04 and C05."
  },
  {
   "property": "C62",
   "status": "partial",
   "theorems": [
    "C62_run_fits",
    "C62_loop_body_refuted",
    "C62_record_coherent_partial",
    "C62_merged_coherent_partial",
    "C62_project_coherent_partial",
    "C62_follows_ex",
    "C62_coherent_ex",
    "C62_ways_ex"
   ],
   "note": "run_fits holds for all modelled programs and hosts. The link to the counters has the premises of C47, C52 and C60. Generators and async functions are outside the semantics."
  },
  {
   "property": "C63",
   "status": "partial",
   "theorems": [
    "C63_run_idle",
    "C63_declared_function_refuted",
    "C63_record_unreached_partial",
    "C63_merged_unreached_partial",
    "C63_project_unreached_partial",
    "C63_guards_ex",
    "C63_unreached_ex"
   ],
   "note": "run_idle holds for all modelled programs and hosts. The link to the counters has the premises of C47, C52 and C60. Generators and async functions are outside the semantics."
  },
  {
   "property": "C64",
   "status": "proved",
   "theorems": [
    "C64_positions_kept",
    "C64_positions_same",
    "C64_positions_added",
    "C64_positions_equal",
    "C64_positions_equal_refuted",
    "C64_record_located",
    "C64_positions_ex"
   ],
   "note": "positions_equal_refuted shows that the premise without short arrow functions is needed: the injected return repeats the position of its expression."
  },
  {
   "property": "C65",
   "status": "partial",
   "theorems": [
    "C65_ignoring_only_removes_partial",
    "C65_hints_only_remove_partial",
    "C65_ignoring_adds_refuted",
    "C65_program_fewer",
    "C65_fewer_ex"
   ],
   "note": "False of the code: a logical expression at the top level takes away the counter of later variables initialised with a function without a block, so ignoring it adds them. Proved for the programs of C45, where the tables are exact."
  },
  {
   "property": "C66",
   "status": "partial",
   "theorems": [
    "C66_growth_is_linear_partial",
    "C66_tagged_init_doubles",
    "C66_growth_unbounded",
    "C66_growth_is_linear_refuted",
    "C66_linear_ex"
   ],
   "note": "False of the code: a variable or field initialised with a tagged template is visited twice, so nesting such initialisers doubles the record at each level (growth_unbounded). Proved with the factor 84 for programs without them."
  },
  {
   "property": "C67",
   "status": "proved",
   "theorems": [
    "C67_output_grammatical",
    "C67_grammar_ex"
   ],
   "note": "The grammar is that of the syntax trees of DESIGN.md; tokens, early errors other than declarations in the place of statements, and the text of the output are outside the model."
  },
  {
   "property": "C68",
   "status": "proved",
   "theorems": [
    "C68_paths_inside",
    "C68_record_nested",
    "C68_fixtures_laid",
    "C68_nested_ex"
   ],
   "note": "The premises say that spans are u32, that nodes lie inside their parents and are nested or apart, and that the source map is monotone; fixtures_laid: they hold for all programs of the repository's fixtures."
  },
  {
   "property": "C69",
   "status": "partial",
   "theorems": [
    "C69_percent_hundredths",
    "C69_percent_threshold",
    "C69_percent_is_100",
    "C69_percent_is_0",
    "C69_zero_percent_refuted",
    "C69_summary_full",
    "C69_statements_then_lines",
    "C69_lines_then_statements_refuted",
    "C69_lines_and_uncovered",
    "C69_project_threshold_partial",
    "C69_threshold_ex",
    "C69_threshold_numbers_ex",
    "C69_lines_ex"
   ],
   "note": "Percentages and summaries: all totals and records. The project theorem has the premises of C60 (modelled programs, no reportLogic, totals within u32) and asks that some file ran; without any the percentage is unknown."
  },
  {
   "property": "C70",
   "status": "partial",
   "theorems": [
    "C70_placeholders_fill",
    "C70_project_complete_partial",
    "C70_complete_ex"
   ],
   "note": "placeholders_fill is about arbitrary records and holds for every order. The project theorem has the premises of C60 (modelled programs, no reportLogic, distinct locations, totals within u32)."
  },
  {
   "property": "C71",
   "status": "partial",
   "theorems": [
    "C71_truth_bystander",
    "C71_logic_tells_partial",
    "C71_logic_report_partial",
    "C71_logic_release_partial",
    "C71_logic_report_ex",
    "C71_logic_numbers_ex",
    "C71_logic_totals_refuted",
    "C71_logic_modes_partial",
    "C71_logic_debug_ex"
   ],
   "note": "truth_bystander is about arbitrary records. The project theorems have the premises of C60 except the one on reportLogic; with it, tests for truthiness must not run code of the program (C34). That the report can be computed is proved for records without removed branches, in release builds always and in builds with overflow checks if the truthiness counters of all published records and their values add up to less than 2^32; produced_merge_panics_refuted (C05) shows that it is false otherwise. The truthiness totals themselves are wrong after a merge (logic_totals_refuted)."
  },
  {
   "property": "C72",
   "status": "partial",
   "theorems": [
    "C72_logic_coherent_partial",
    "C72_logic_threshold_partial",
    "C72_logic_complete_partial",
    "C72_logic_whole_partial",
    "C72_logic_whole_ex",
    "C72_logic_whole_modes_partial"
   ],
   "note": "The premises are those of C71; the first three theorems say what holds whenever the maps can be merged, the others that they can without removed branches, in release builds always and in builds with overflow checks under the bound of C71."
  },
  {
   "property": "C73",
   "status": "partial",
   "theorems": [
    "C73_run_truths_partial",
    "C73_process_truths_partial",
    "C73_summary_truths",
    "C73_truth_bound_ex",
    "C73_merged_truths_refuted",
    "C73_merged_truths_partial",
    "C73_merged_truths_ex"
   ],
   "note": "Proved for programs that have no tagged templates as initialisers or are instrumented without reportLogic, and for files with fewer than 2^32 paths. The theorem on processes takes the increments of a file to be those of some run of it. merged_truths_refuted shows that merging destroys the relation, because it renumbers the truthiness counters (C05); merged_truths_partial that it does not when every branch has truthiness counters."
  }
 ]
}