# (property, status, theorem names, note)
CLAIMS = [
("C01", "proved", "merge_adds_hits merge_adds_hits_release merge_shape merge_comm_nonvacuous",
 "Debug build: equality for every merge that returns; release build: equality modulo 2^32, and exact equality by merge_shape when sums fit. Only the first record must not repeat a location."),
("C02", "proved", "merge_ok_tables merge_shape merge_total_release spec_merge_wf spec_merge_dense plain_first_ok",
 "merge_shape gives the returned record in full; merge_ok_tables says merge never returns when a counter lacks metadata or a branch has no location."),
("C03", "proved", "merge_comm merge_assoc merge_zeroed_identity merge_comm_nonvacuous",
 "For records without truthiness tables and without repeated locations, when sums fit."),
("C04", "partial", "merge_never_loses_hits_refuted merge_comm_refuted_with_duplicates merge_exact merge_exact_release produced_merge_loses_hits_refuted",
 "False of the code: a first record listing one location twice loses all but the last of its counts; produced_merge_loses_hits_refuted shows it on the record of an instrumented program. merge_exact is the exact law for arbitrary records."),
("C05", "partial", "merge_truthiness_refuted merge_truthiness_panics_refuted merge_truthiness_partial truth_nonvacuous produced_merge_panics_refuted",
 "False of the code: merge renumbers bT from 0 independently of the branch table and looks its keys up in the already renumbered table (produced_merge_panics_refuted: also on the record of an instrumented program). Proved when every branch has truthiness counters and ids are dense."),
("C06", "proved", "merge_placeholder_ignored merge_placeholder_replaced merge_keeps_identity", ""),
("C07", "proved", "key_from_loc_iff", ""),
("C08", "proved", "line_coverage_spec line_coverage_panics_iff line_coverage_value line_cov_example", ""),
("C09", "proved", "uncovered_spec uncovered_iff", ""),
("C10", "proved", "branch_by_line_spec branch_by_line_counts coverage_ratio coverage_ratio_nan",
 "Totals, covered counts and order of lines; the f32 ratio is finite and in [0,100] for a line with a path (Flocq), NaN for a line whose branches have no path."),
("C11", "proved", "to_summary_spec to_summary_sane", ""),
("C12", "proved", "percent_truncates percent_nearest percent_range percent_100_iff percent_full percent_monotone percent_zero percent_lt_100 percent_above_ratio_refuted percent_test2",
 "As a real number the result may exceed the truncated ratio by single-precision rounding (percent_above_ratio_refuted); it is the nearest binary32 number to it."),
("C13", "proved", "summary_merge_spec summary_merge_comm map_summary_is_sum summary_is_empty_spec", ""),
("C14", "proved", "reset_hits_spec reset_hits_idempotent reset_summary", ""),
("C15", "proved", "add_coverage_effect from_iter_spec map_merge_spec reachable_ok map_example", ""),
("C16", "proved", "filter_spec reachable_ok", ""),
("C17", "proved", "registration_spec registration_ids reachable_wf_state sample_calls_run",
 "registration_spec gives the whole record and every returned id as a function of the call history. Ids are unbounded in the model (the code overflows after 2^32 registrations)."),
("C18", "proved", "add_path_effect registration_panics_iff registration_ids", ""),
("C19", "partial", "freeze_spec freeze_idempotent frozen_record freeze_counters_perm freeze_order_refuted",
 "The ordering clause is false of the code: swap_remove moves the last counter row into the hole (freeze_order_refuted). Everything else is proved."),
("C20", "partial", "data_object_value literal_is_the_data literal_recovers_exactly unescaped_name_refuted produced_literal",
 "For every record with unique keys whose function names need no escaping (the code writes them raw; unescaped_name_refuted shows the requirement is needed)."),
("C21", "proved", "fc_text_injective fc_hash_collision emitted_spec print_ex escape_table escape_ex fc_hash_ex literal_is_the_data vector_statement_2 vector_fn_2 vector_branch_2 vector_path_2 hash_str_lt",
 "SipHash-1-3 is modelled bit by bit and reproduces ten hashes of the repository's tests. Two records share a hash only by a collision of the 64-bit hash of different texts."),
("C22", "proved", "one_live_record counts_are_kept later_calls_agree initial_count counts_are_kept_ex", 
 "Every interleaving of loads, calls and increments of files with different paths, over an interpreter for the emitted counter function."),
("C23", "partial", "reload_keeps_counts_refuted reload_restarts every_load_counts_alone first_call",
 "False of the code: the template compares the property $hash, which no record has, so every evaluation installs a fresh record. every_load_counts_alone says exactly what happens in every history."),
("C24", "partial", "own_name_refuted all_names_of_first first_file_name names_agree_iff fn_name_vector",
 "False of the code: the names live in process-wide cells set by the first file. Proved for the first file of a process."),
("C25", "proved", "hint_grammar no_hint_iff file_hint_grammar word_class word_class_hi space_class hint_examples",
 "For every interpretation of the non-ASCII part of the word class."),
("C26", "proved", "lookup_first_hint should_ignore_spec should_ignore_none_iff lookup_examples", ""),
("C27", "proved", "excluded_unchanged ignored_unchanged instrumented_otherwise process_cases repository_ignores exclude_ex",
 "The glob matcher and the option decoder are arbitrary functions."),
("C28", "proved", "range_lookup range_dummy range_zero_iff", "lookup_char_pos of the source mapper is an arbitrary function."),
("C33", "proved", "erase_instrument erase_clean erase_visit erase_instrument_ex",
 "For every tree without injected nodes (clean), every comment table and option; erase is a compositional function defined without reference to the visitors."),
("C29", "proved", "no_dangling_counter counters_account embedded_record ex_function_account",
 "For every clean program without TypeScript namespaces (a nested module item list would get a second template)."),
("C30", "partial", "truth_counter_dangles_refuted truth_slots no_dangling_truth_counter_partial",
 "False of the code: a default value gets a truthiness counter without slot. Proved: without default values, occurrences and slots agree exactly; counters_account and truth_slots describe the general case exactly."),
("C31", "proved", "no_counter_twice counters_account", "For s, f, b and bT counters."),
("C32", "partial", "slot_without_counter_refuted statement_counters_exact counters_account",
 "False of the code: statement counters collected in the discriminant or case test of a switch are dropped. Proved: functions and branch paths always, statements when no such part contains one."),
("C34", "partial", "same_behaviour same_behaviour_ex same_behaviour_logic_ex same_behaviour_directives_refuted same_behaviour_script_refuted same_behaviour_tests_refuted tagged_or_ex same_behaviour_tagged_refuted",
 "False of the code when a function or script has directives (displaced), when reportLogic's tests run user code, or when, with reportLogic, a logical expression stands in a tagged template that initialises a variable (the template is visited twice and the value is replaced by the result of a test). Proved for every environment (host) and every bound, for programs without these, without declarations as direct bodies of if/loops/with and, with reportLogic, without tagged templates as initialisers."),
("C35", "partial", "ignore_next ignore_next_stmt ignore_next_item ignore_next_export_const_refuted ignore_next_ex",
 "False of the code for `export const` (the counter of the export is added before the hint is looked at). Proved for every other node, block statement and module item."),
("C36", "proved", "if_hints if_hints_ex",
 "For every if statement visited outside an ignored region; gives the shape of both sides and the final table entry with its paths."),
("C37", "proved", "ignored_method ignored_method_ex", ""),
("C38", "partial", "preceding_statement_influences_refuted block_statements_context module_items_context_partial script_items_context_partial influence_ex",
 "False of the code: a logical expression leaves its marks on the visitor's stack. Proved: in a block every statement starts from the block's context; at the top level, if no logical expression precedes outside of function bodies and other blocks."),
("C39", "partial", "tagged_init_registered_twice_refuted one_entry_per_site_partial entries_distinct_partial one_entry_ex",
 "False of the code for functions inside a tagged template that initialises a variable or field. Proved for programs without such initialisers, for functions and branches."),
("C40", "partial", "prologue_displaced_refuted module_prologue_layout module_single_directive_partial script_layout function_layout",
 "False of the code: only the first directive of a module keeps its place; scripts and functions lose theirs. The layouts are proved exactly."),
("C41", "proved", "instrumentation_finishes panics_only_without_body finishes_ex no_body_panics_ex repository_generates",
 "For every tree whose nodes have the children of their kind; the result does not depend on the fuel once it suffices. TypeScript namespaces (nested module items) are outside the shape predicate."),
("C42", "partial", "declarator_keeps_name declarator_keeps_name_ex field_and_default_lose_name_refuted",
 "Proved for declarators; false for class fields and default values, which are wrapped in a sequence expression."),
("C43", "partial", "counters_accurate_partial counters_tell_original_partial instrument_acc accurate_ex accurate_ex_applies field_counter_refuted declarator_counter_refuted repository_fixtures_pass repository_tables_agree_partial",
 "For every program whose counters all stay next to their events (predicate exact: no initialiser with a function in a class field or behind another declarator, no tagged template inside an expression), in every environment, each statement, function and branch counter is incremented exactly as often as the event its record entry points at happens, in the run of the instrumented and of the original program. False for class fields and later declarators with function initialisers, as shown. Truthiness counters are the subject of C51. As a check of model and semantics, the repository's own 193 fixture tests pass on them (three with generators: tables only)."),
("C44", "partial", "missing_file_name bad_config good_config bad_patterns excluded_iff normalize_path_spec_partial normalize_ex exclude_ex log_once log_once_ex",
 "Configuration texts are decoded by the model of serde (C48). Normalisation is proved for paths the typed-path crate does not classify as Windows paths; the crate itself is a parameter."),
("C45", "partial", "record_is_exact registered_ex initialised_variable_counted_refuted lost_ex",
 "The tables are exact for every program whose initialisers are no tagged templates; variables initialised with a function without a block must not stand in the head of a loop, in an unbraced arm, or after a logical expression of the same declaration or of the top level. The other premises say that case clauses stand in switch statements and statement lists contain statements. Hints, reportLogic and ignored methods are covered. The specification is a function of the source text alone. That every initialised variable is listed is false: constants with block-less functions are listed at the top level of a program only."),
("C46", "proved", "produced_record function_names reports_never_panic produced_ex",
 "For every program with a list of items. The summary is total when the number of branch paths fits u32; merging is total in release builds (debug builds panic on overflowing sums)."),
("C47", "partial", "published_record record_tells_original_partial report_tells_original_partial report_ex",
 "published_record holds for every file with unique keys and plain names. The link to the original program has the premises of counters_tell_original_partial (C43) and asks that identifiers need no escaping; the summary that the number of branch paths fits u32. Truthiness counters are raised as executed, their meaning is C51."),
("C48", "proved", "read_options read_options_array read_options_other read_log read_source_map_spec unknown_member repeated_option options_order options_round_trip parse_grammar parse_fuel text_unique string_value read_scalar read_vec read_option good_config decode_ex",
 "The JSON grammar is stated as a relation and the parser is proved sound and complete for it. Round trip for source map versions below 2^32, as the Rust type has it."),
("C49", "proved", "record_round_trip produced_round_trip produced_positions read_file_coverage read_branch_spec read_function read_range_spec read_location read_source_map_spec read_branch_type read_table read_other table_key parse_print read_record_ex read_record_bad produced_round_trip_ex",
 "Round trip for records whose numbers fit u32, as in the Rust type; for instrumented files this holds when each kind of counter is used at most 2^32 times."),
("C50", "partial", "record_from_comment produced_from_comment record_text_occurs comment_ends_early comment_lost_refuted read_debug_comment print_occurs from_comment_ex",
 "False of the code: the text is put into a block comment unchecked, so a record with */ in its path or in a string of its source map (for example a source with a block comment in sourcesContent) ends the comment early and the rest becomes code. Proved when no string of the record contains */ or the marker; for files without an input source map this only concerns the path."),
("C51", "proved", "truths_in_operands truths_at_most_passes operand_counts truths_ex operand_ex",
 "The four tests of a value (Array.isArray, length, prototype, Object.values) are played by the host; operand_counts asks that they return without effect. The bound and the placement hold for every host."),
("C52", "partial", "merge_runs merged_runs_tell_partial merged_report_partial merged_ex merged_numbers_ex merged_runs_refuted merged_logic_refuted",
 "Merging matches entries by location, so it loses counts when two entries share one (functions in a tagged template that initialises a variable are registered twice) and misplaces truthiness counts. Proved without reportLogic for records with distinct locations whose sums fit u32, under the premises of C47; merge_runs is about arbitrary records."),
("C53", "proved", "layout_independent name_only_in_record comments_only_hints no_hints_no_comments leading_lines hint_comment_matters_ex no_hint_comment_ex leading_lines_ex leading_lines_record_ex other_name_ex",
 "For every tree without an already embedded record. About the tree and the record; the name of the coverage function is a hash of the file name (C24)."),
("C54", "partial", "logic_loses_function_refuted logic_only_adds_partial logic_keeps_counters_partial ex_function_plain logic_only_adds_ex tagged_adds_paths_refuted",
 "False of the code: with the option an operand is not visited, so functions, conditionals and tagged templates inside of it lose their counters. In tagged templates that initialise variables, the truthiness tests themselves are registered as extra paths. Proved for programs whose operands and default values contain nothing to instrument (or a nested logical expression) and without tagged templates as initialisers."),
("C55", "partial", "namespace_second_record_refuted second_record_replaces_first namespace_loses_counts_refuted one_record_partial one_record_ex",
 "False of the code: the module items of a TypeScript namespace get a coverage function of their own with the entries registered so far; at run time its record replaces the one of the file and the counts outside the namespace are lost. Proved for programs without nested lists of module items."),
("C56", "proved", "options_reach_output no_function_otherwise unread_options unread_options_same published_as_configured emitted_ex",
 "The run-time part asks that identifiers need no escaping (C20). The name of the function is the one of the process (C24)."),
("C57", "partial", "scripts_apart_refuted scripts_apart_partial shared_counts diverted_after one_process_diverts distinct_names_apart scripts_apart_ex",
 "False of the code: all files of a process get the same function name, so in a shared scope the function of the script loaded last receives the increments of all of them. Proved for scripts with distinct names; with equal names exactly what is counted where."),
("C58", "partial", "initial_loses_null_refuted initial_of_program_partial initial_read_back initial_is_record matches_comment_iff initial_read_ex",
 "False of the reader: it skips null elements, so a missing entry of sourcesContent is lost. Everything else is read exactly; the comparison with the comment succeeds exactly without such nulls. Premises as in C56."),
("C59", "proved", "interop_counts produced_static interop_ex interop_overflow_ex",
 "Identifiers that need no escaping (C20) and fewer than 2^32 counters per file; files with different names (C23, C24)."),
("C60", "partial", "variable_read project_map project_tells_partial project_report_partial project_ex project_numbers_ex",
 "variable_read and project_map hold for all embedded records without truthiness counters whose entries have different locations. The link to the source programs has the premises of C52 (no reportLogic, distinct locations, sums that fit u32)."),
("C61", "proved", "merge_never_lowers merge_uncovered merge_percentages growth_ex percentage_lowered_refuted one_more_run one_more_ex logic_merge_never_lowers logic_merge_percentages logic_one_more_run logic_one_more_release logic_one_more_modes logic_more_ex",
 "percentage_lowered_refuted shows why the premise on the places of the second record is needed. For records with truthiness counters (the logic_* theorems) the merge and the summaries are assumed to succeed, except for records from which no branch was removed, where they do (in builds with overflow checks under the bound of C71). Duplicate locations and the truthiness counters themselves are the subject of C04 and C05."),
("C62", "partial", "run_fits loop_body_refuted record_coherent_partial merged_coherent_partial project_coherent_partial follows_ex coherent_ex ways_ex",
 "run_fits holds for all modelled programs and hosts. The link to the counters has the premises of C47, C52 and C60. Generators and async functions are outside the semantics."),
("C63", "partial", "run_idle declared_function_refuted record_unreached_partial merged_unreached_partial project_unreached_partial guards_ex unreached_ex",
 "run_idle holds for all modelled programs and hosts. The link to the counters has the premises of C47, C52 and C60. Generators and async functions are outside the semantics."),
("C64", "proved", "positions_kept positions_same positions_added positions_equal positions_equal_refuted record_located positions_ex",
 "positions_equal_refuted shows that the premise without short arrow functions is needed: the injected return repeats the position of its expression."),
("C65", "partial", "ignoring_only_removes_partial hints_only_remove_partial ignoring_adds_refuted program_fewer fewer_ex",
 "False of the code: a logical expression at the top level takes away the counter of later variables initialised with a function without a block, so ignoring it adds them. Proved for the programs of C45, where the tables are exact."),
("C66", "partial", "growth_is_linear_partial tagged_init_doubles growth_unbounded growth_is_linear_refuted linear_ex",
 "False of the code: a variable or field initialised with a tagged template is visited twice, so nesting such initialisers doubles the record at each level (growth_unbounded). Proved with the factor 84 for programs without them."),
("C67", "proved", "output_grammatical grammar_ex",
 "The grammar is that of the syntax trees of DESIGN.md; tokens, early errors other than declarations in the place of statements, and the text of the output are outside the model."),
("C68", "proved", "paths_inside record_nested fixtures_laid nested_ex",
 "The premises say that spans are u32, that nodes lie inside their parents and are nested or apart, and that the source map is monotone; fixtures_laid: they hold for all programs of the repository's fixtures."),
("C69", "partial", "percent_hundredths percent_threshold percent_is_100 percent_is_0 zero_percent_refuted summary_full statements_then_lines lines_then_statements_refuted lines_and_uncovered project_threshold_partial threshold_ex threshold_numbers_ex lines_ex",
 "Percentages and summaries: all totals and records. The project theorem has the premises of C60 (modelled programs, no reportLogic, totals within u32) and asks that some file ran; without any the percentage is unknown."),
("C70", "partial", "placeholders_fill project_complete_partial complete_ex",
 "placeholders_fill is about arbitrary records and holds for every order. The project theorem has the premises of C60 (modelled programs, no reportLogic, distinct locations, totals within u32)."),
("C71", "partial", "truth_bystander logic_tells_partial logic_report_partial logic_release_partial logic_report_ex logic_numbers_ex logic_totals_refuted logic_modes_partial logic_debug_ex",
 "truth_bystander is about arbitrary records. The project theorems have the premises of C60 except the one on reportLogic; with it, tests for truthiness must not run code of the program (C34). That the report can be computed is proved for records without removed branches, in release builds always and in builds with overflow checks if the truthiness counters of all published records and their values add up to less than 2^32; produced_merge_panics_refuted (C05) shows that it is false otherwise. The truthiness totals themselves are wrong after a merge (logic_totals_refuted)."),
("C72", "partial", "logic_coherent_partial logic_threshold_partial logic_complete_partial logic_whole_partial logic_whole_ex logic_whole_modes_partial",
 "The premises are those of C71; the first three theorems say what holds whenever the maps can be merged, the others that they can without removed branches, in release builds always and in builds with overflow checks under the bound of C71."),
("C73", "partial", "run_truths_partial process_truths_partial summary_truths truth_bound_ex merged_truths_refuted merged_truths_partial merged_truths_ex",
 "Proved for programs that have no tagged templates as initialisers or are instrumented without reportLogic, and for files with fewer than 2^32 paths. The theorem on processes takes the increments of a file to be those of some run of it. merged_truths_refuted shows that merging destroys the relation, because it renumbers the truthiness counters (C05); merged_truths_partial that it does not when every branch has truthiness counters."),
]
