{"id": "C01", "title": "Merging two reports adds hits location by location", "statement": "After FileCoverage::merge of two well-formed records of a file (every counter has a map entry, no record lists one source location twice), the hit count reported for every statement location, function location and branch location (every path of it) is the sum of the two records' counts for that location, with a location missing from a record counting as zero; no location is lost and none is invented.", "quantifier": "all pairs of well-formed FileCoverage values, all locations, any sizes, both overflow modes as long as the sums fit in u32", "why_tests_cant": "The merge walks two insertion-ordered maps and renumbers; the number of overlap patterns is unbounded and tests only show a few.", "anchors": ["packages/istanbul-oxide/src/file_coverage.rs::merge", "packages/istanbul-oxide/src/file_coverage.rs::merge_properties", "packages/istanbul-oxide/src/file_coverage.rs::merge_properties_hits_vec", "packages/istanbul-oxide/src/file_coverage.rs::key_from_loc"]}
{"id": "C02", "title": "Merge output is well-formed and densely numbered, and merge does not panic on well-formed input", "statement": "For well-formed records (counters have map entries, every branch has at least one location, sums fit in u32) merge returns normally; in the result the statement, function and branch counters are numbered 0..n-1 in order, counters and maps have the same ids, first-record entries come first in their original order followed by the second record's new locations, and an entry's metadata comes from the first record that has it. A record that breaks one of the named conditions makes merge panic exactly where the code says so.", "quantifier": "all pairs of FileCoverage values", "why_tests_cant": "Panics and renumbering depend on arbitrary id sets and orders that only appear in the field.", "anchors": ["packages/istanbul-oxide/src/file_coverage.rs::merge", "packages/istanbul-oxide/src/file_coverage.rs::merge_properties", "packages/istanbul-oxide/src/file_coverage.rs::merge_properties_hits_vec"]}
{"id": "C03", "title": "Merge is order independent up to renumbering", "statement": "Merging A into B and B into A report the same hits for every location; merging three records in any grouping reports the same hits for every location; merging a zeroed copy of a record changes no reported hit.", "quantifier": "all pairs and triples of well-formed FileCoverage values", "why_tests_cant": "Algebraic laws over all inputs; parallel test shards merge in arbitrary order.", "anchors": ["packages/istanbul-oxide/src/file_coverage.rs::merge"]}
{"id": "C04", "title": "Merge never loses hits", "statement": "For any two records whose counters all have map entries, the total number of hits after a merge is the sum of the totals before - even when a record lists the same source location more than once (the instrumenter produces such records, e.g. for nodes without a source position).", "quantifier": "all pairs of FileCoverage values with counters and maps in agreement", "why_tests_cant": "Needs records with repeated locations, which none of the unit tests construct.", "anchors": ["packages/istanbul-oxide/src/file_coverage.rs::merge_properties", "packages/istanbul-oxide/src/file_coverage.rs::merge_properties_hits_vec", "packages/swc-coverage-instrument/src/utils/lookup_range.rs::get_range_from_span"]}
{"id": "C05", "title": "Truthiness counters stay attached to their branch when reports are merged", "statement": "After merging two reportLogic records of one file produced by the instrumenter, the truthiness counts (bT) reported for a branch are the sum of the two records' counts for that branch, under that branch's id, and merge does not panic.", "quantifier": "all pairs of records the instrumenter can produce with reportLogic on, with any hit counts", "why_tests_cant": "Depends on which branch ids survive pruning and which branches are logical expressions; unbounded combinations.", "anchors": ["packages/istanbul-oxide/src/file_coverage.rs::merge", "packages/swc-coverage-instrument/src/source_coverage/mod.rs::freeze", "packages/swc-coverage-instrument/src/source_coverage/mod.rs::maybe_new_branch_true"]}
{"id": "C06", "title": "Placeholder records never overwrite or dilute real data", "statement": "Merging a record marked all=true into any record leaves the latter unchanged; merging a real record into one marked all=true yields exactly the real record; path and inputSourceMap of a real record are unchanged by merging another real record into it.", "quantifier": "all pairs of FileCoverage values", "why_tests_cant": "Must hold for every combination of flags and contents.", "anchors": ["packages/istanbul-oxide/src/file_coverage.rs::merge"]}
{"id": "C07", "title": "Distinct source locations are never confused", "statement": "Two locations are treated as the same location by merge exactly when all four of their numbers (start line, start column, end line, end column) are equal.", "quantifier": "all pairs of locations", "why_tests_cant": "Key collisions of a textual key over all u32 quadruples cannot be sampled.", "anchors": ["packages/istanbul-oxide/src/file_coverage.rs::key_from_loc"]}
{"id": "C08", "title": "Line coverage is the maximum over statements starting on the line", "statement": "get_line_coverage has one entry for exactly the lines on which some counted statement starts, in order of first appearance, and its value is the largest hit count of those statements; it panics exactly when some counted statement has no location.", "quantifier": "all FileCoverage values", "why_tests_cant": "Any number of statements per line, in any order, with any counts.", "anchors": ["packages/istanbul-oxide/src/file_coverage.rs::get_line_coverage"]}
{"id": "C09", "title": "Uncovered lines are exactly the lines no statement of which ran", "statement": "get_uncovered_lines lists each line at most once, in order of first appearance, and lists a line if and only if some statement starts there and all statements starting there have zero hits.", "quantifier": "all FileCoverage values whose statements all have locations", "why_tests_cant": "Iff over arbitrary statement tables.", "anchors": ["packages/istanbul-oxide/src/file_coverage.rs::get_uncovered_lines"]}
{"id": "C10", "title": "Branch coverage by line counts every path once", "statement": "get_branch_coverage_by_line reports, for every line some branch belongs to, total = number of path counters of the branches on that line and covered = number of those that are positive; the ratio reported is covered/total*100 in f32 and is a number in [0,100] whenever the line has a path.", "quantifier": "all FileCoverage values whose branches have counters and a line or location", "why_tests_cant": "Arbitrary distribution of branches over lines; NaN arises only for path-less branches.", "anchors": ["packages/istanbul-oxide/src/file_coverage.rs::get_branch_coverage_by_line", "packages/istanbul-oxide/src/coverage.rs"]}
{"id": "C11", "title": "Summary totals are faithful counts", "statement": "to_summary reports for statements/functions/lines total = number of counters, covered = number of positive counters, for branches (and truthiness) total = number of paths and covered = number of positive paths, skipped = 0, covered <= total, and pct is percent(covered,total).", "quantifier": "all FileCoverage values with fewer than 2^32 counters", "why_tests_cant": "Universally quantified over table contents.", "anchors": ["packages/istanbul-oxide/src/file_coverage.rs::to_summary", "packages/istanbul-oxide/src/file_coverage.rs::compute_simple_totals", "packages/istanbul-oxide/src/file_coverage.rs::compute_branch_totals"]}
{"id": "C12", "title": "Percentage is truncated, never rounded up", "statement": "percent(c,t) for c<=t, t>0 is the single-precision number nearest to floor(10000*c/t)/100, so it exceeds the two-decimal truncation of the true ratio by no more than single-precision rounding; it lies in [0,100], is 100 if and only if c=t, stays below 99.995 otherwise, and is monotone in c; percent(_,0)=100.", "quantifier": "all u32 covered/total with covered<=total", "why_tests_cant": "2^64 input pairs with floating-point rounding at two points.", "anchors": ["packages/istanbul-oxide/src/percent.rs::percent"]}
{"id": "C13", "title": "Summaries add up", "statement": "CoverageSummary::merge adds totals, covered and skipped per category and recomputes pct from the sums; the order in which summaries are merged does not change the result; truthiness totals are kept when only one side has them. CoverageMap::get_coverage_summary equals the sum of the per-file summaries.", "quantifier": "all summaries and all coverage maps whose sums fit in u32", "why_tests_cant": "Arbitrary many files in arbitrary order.", "anchors": ["packages/istanbul-oxide/src/coverage_summary.rs::merge", "packages/istanbul-oxide/src/coverage_map.rs::get_coverage_summary"]}
{"id": "C14", "title": "reset_hits zeroes counters and nothing else", "statement": "After reset_hits every counter is 0, the ids, their order, the number of paths per branch, the maps, path, all and source map are unchanged; resetting twice equals resetting once; the summary has covered=0 everywhere with the same totals.", "quantifier": "all FileCoverage values", "why_tests_cant": "All table shapes.", "anchors": ["packages/istanbul-oxide/src/file_coverage.rs::reset_hits"]}
{"id": "C15", "title": "A coverage map is a map from path to merged record", "statement": "For any sequence of add/merge/filter calls starting from an empty map, every record is stored under its own path, each path occurs once, get_files lists paths in order of first addition, get_coverage_for_file returns the left-to-right merge of all records added for that path, and other files' records are untouched by an add.", "quantifier": "all operation sequences over all records", "why_tests_cant": "Unbounded histories.", "anchors": ["packages/istanbul-oxide/src/coverage_map.rs::add_coverage_for_file", "packages/istanbul-oxide/src/coverage_map.rs::merge", "packages/istanbul-oxide/src/coverage_map.rs::get_files", "packages/istanbul-oxide/src/coverage_map.rs::get_coverage_for_file", "packages/istanbul-oxide/src/coverage_map.rs::from_iter"]}
{"id": "C16", "title": "Filtering a coverage map keeps exactly the matching files", "statement": "CoverageMap::filter keeps a file iff the predicate holds of its record, keeps the record unchanged and keeps the relative order.", "quantifier": "all maps reachable by API calls, all predicates", "why_tests_cant": "All predicates and maps.", "anchors": ["packages/istanbul-oxide/src/coverage_map.rs::filter"]}
{"id": "C17", "title": "Registering counters gives fresh consecutive ids and consistent tables", "statement": "For any sequence of new_statement/new_function/new_branch/add_branch_path calls on a fresh SourceCoverage, the k-th statement (function, branch) gets id k counting from 0, its location is the one given, all counters are zero, statement/function/branch tables and counter tables have the same ids in the same order, unnamed functions are called (anonymous_id), and a branch has as many path counters as locations.", "quantifier": "all call sequences", "why_tests_cant": "Invariant over unbounded histories.", "anchors": ["packages/swc-coverage-instrument/src/source_coverage/mod.rs::new_statement", "packages/swc-coverage-instrument/src/source_coverage/mod.rs::new_function", "packages/swc-coverage-instrument/src/source_coverage/mod.rs::new_branch"]}
{"id": "C18", "title": "Branch path indices are sequential and truthiness counters stay in step", "statement": "add_branch_path on a registered branch returns the number of paths the branch had before, appends the location, adds one zero path counter and - if the branch has truthiness counters - one zero truthiness counter; other branches are untouched; it panics exactly when the branch id was never registered.", "quantifier": "all reachable SourceCoverage states, all branch ids and locations", "why_tests_cant": "Interleavings of paths of different branches are unbounded.", "anchors": ["packages/swc-coverage-instrument/src/source_coverage/mod.rs::add_branch_path", "packages/swc-coverage-instrument/src/source_coverage/mod.rs::maybe_add_branch_true"]}
{"id": "C19", "title": "Freezing prunes exactly the branches without paths", "statement": "freeze removes from the branch table, the branch counters and the truthiness counters exactly those ids whose branch has no path; ids, locations and counters of all other branches, and all statements and functions are unchanged; freezing twice equals freezing once; the relative order of the remaining branch counters is the order of the branch table.", "quantifier": "all reachable SourceCoverage states", "why_tests_cant": "swap_remove reorders entries; only visible for particular removal patterns.", "anchors": ["packages/swc-coverage-instrument/src/source_coverage/mod.rs::freeze"]}
{"id": "C20", "title": "The literal embedded in the output is the coverage data", "statement": "The object literal placed in the instrumented file evaluates to an object whose fields are exactly the frozen coverage data (all, path, statementMap, fnMap, branchMap, s, f, b, bT, inputSourceMap) plus _coverageSchema and hash; the coverage data can be recovered from it.", "quantifier": "all FileCoverage values the instrumenter can produce", "why_tests_cant": "Structure depends on the whole table; tests cover five small tables.", "anchors": ["packages/swc-coverage-instrument/src/coverage_template/create_coverage_data_object.rs::create_coverage_data_object"]}
{"id": "C21", "title": "The content hash identifies the coverage data", "statement": "hash is a function of the serialized coverage data only, the serialization of two records is equal only if the records are equal, and the hash stored in the literal equals the hash compared at run time.", "quantifier": "all FileCoverage values", "why_tests_cant": "Injectivity of the serialization ranges over all pairs of records.", "anchors": ["packages/swc-coverage-instrument/src/coverage_template/create_coverage_data_object.rs::create_coverage_data_object", "packages/swc-coverage-instrument/src/coverage_template/create_coverage_fn_decl.rs::create_coverage_fn_decl"]}
{"id": "C22", "title": "The counter function returns one live record per loaded file", "statement": "In the emitted code the first call of the counter function creates global[coverageVariable][path] if needed and every later call returns the same object, so every increment performed by a loaded file is visible in one record and none is lost, whatever calls are interleaved.", "quantifier": "all interleavings of calls and increments of any number of loaded files with different paths", "why_tests_cant": "All schedules of module evaluation and calls.", "anchors": ["packages/swc-coverage-instrument/src/coverage_template/create_coverage_fn_decl.rs::create_coverage_fn_decl", "packages/swc-coverage-instrument/src/instrument/create_increase_counter_expr.rs"]}
{"id": "C23", "title": "Evaluating an unchanged file again keeps its accumulated counts", "statement": "If the same instrumented file (same path and content hash) is evaluated again in the same realm, the counts already recorded for it are kept and further hits are added; only a file with a different hash replaces the record.", "quantifier": "all histories of file evaluations and increments", "why_tests_cant": "Depends on history; unit tests evaluate each file once.", "anchors": ["packages/swc-coverage-instrument/src/coverage_template/create_coverage_fn_decl.rs::create_coverage_fn_decl"]}
{"id": "C24", "title": "Each file gets its own counter function name", "statement": "The name of the injected counter function is determined by the file's name, also when several files are instrumented in one process; files with different names get different function names unless the 64-bit hash collides.", "quantifier": "all sequences of files instrumented in one process", "why_tests_cant": "Global state set by the first call; history dependent.", "anchors": ["packages/swc-coverage-instrument/src/coverage_template/create_coverage_fn_decl.rs::create_coverage_fn_ident", "packages/swc-coverage-instrument/src/visitors/coverage_visitor.rs::create_coverage_instrumentation_visitor"]}
{"id": "C25", "title": "Hint comments are recognised by exactly the documented grammar", "statement": "A comment is an ignore hint iff its text is optional whitespace, 'istanbul', whitespace, 'ignore', whitespace, one of if/else/next, and then the end of the comment or a non-word character; the hint kind is that word. File-level hints use the word 'file' in the same grammar.", "quantifier": "all comment texts", "why_tests_cant": "Infinite language of texts, incl. near misses.", "anchors": ["packages/swc-coverage-instrument/src/utils/hint_comments.rs::COMMENT_RE", "packages/swc-coverage-instrument/src/utils/hint_comments.rs::COMMENT_FILE_REGEX"]}
{"id": "C26", "title": "Hint lookup uses the first hint before the node, with a fixed precedence", "statement": "The hint of a node is the first recognised hint among the comments leading its end position, else the first among the comments leading its start position, else none; other comments are irrelevant.", "quantifier": "all comment tables and spans", "why_tests_cant": "All comment placements.", "anchors": ["packages/swc-coverage-instrument/src/utils/hint_comments.rs::lookup_hint_comments", "packages/swc-coverage-instrument/src/utils/hint_comments.rs::should_ignore"]}
{"id": "C27", "title": "An ignored file is returned unchanged", "statement": "If a leading or trailing comment at the beginning or end of the program is a file-level ignore hint, or the file name matches a valid exclusion pattern, the program returned is the program given; otherwise the coverage function is injected.", "quantifier": "all programs, comment tables, options and file names", "why_tests_cant": "All programs and option combinations.", "anchors": ["packages/swc-coverage-instrument/src/utils/hint_comments.rs::should_ignore_file", "packages/swc-coverage-instrument/src/visitors/coverage_visitor.rs::visit_mut_program", "packages/swc-plugin-coverage/src/lib.rs::process"]}
{"id": "C28", "title": "Locations come from the source map, nodes without position get the zero location", "statement": "The location recorded for a span is (line,column) of its start and end as given by the source map, and is 0:0-0:0 iff the start or end position is missing (or the source map says so).", "quantifier": "all spans and source maps", "why_tests_cant": "All positions.", "anchors": ["packages/swc-coverage-instrument/src/utils/lookup_range.rs::get_range_from_span"]}
{"id": "C29", "title": "Emitted statement, function and branch counters never dangle", "statement": "For every program, every s[i], f[i] and b[i][j] increment in the instrumented output addresses a slot that exists in the coverage data embedded in the same output (after pruning).", "quantifier": "all programs, comment placements and options; any nesting depth", "why_tests_cant": "A dangling counter crashes the user's program at run time; requires all syntactic nestings.", "anchors": ["packages/swc-coverage-instrument/src/visitors/coverage_visitor.rs::CoverageVisitor", "packages/swc-coverage-instrument/src/macros/instrumentation_visitor.rs", "packages/swc-coverage-instrument/src/macros/instrumentation_counter_helper.rs", "packages/swc-coverage-instrument/src/source_coverage/mod.rs::freeze"]}
{"id": "C30", "title": "Emitted truthiness counters never dangle", "statement": "With reportLogic on, every bT[i][j] increment in the output addresses a slot that exists in the embedded bT table.", "quantifier": "all programs with reportLogic on", "why_tests_cant": "As above, for the optional counters.", "anchors": ["packages/swc-coverage-instrument/src/macros/instrumentation_counter_helper.rs::wrap_bin_expr_with_branch_counter", "packages/swc-coverage-instrument/src/macros/instrumentation_visitor.rs::visit_mut_assign_pat", "packages/swc-coverage-instrument/src/instrument/create_increase_true_expr.rs"]}
{"id": "C31", "title": "No counter is emitted twice", "statement": "In the output no two increment expressions address the same slot, so a slot counts one program point.", "quantifier": "all programs not already containing counters", "why_tests_cant": "All syntactic nestings, including nodes visited repeatedly.", "anchors": ["packages/swc-coverage-instrument/src/macros/instrumentation_counter_helper.rs", "packages/swc-coverage-instrument/src/macros/instrumentation_visitor.rs"]}
{"id": "C32", "title": "Every slot of the embedded data has a counter in the output", "statement": "Every statement, function and branch path listed in the embedded coverage data is incremented somewhere in the output (otherwise it can never be reported as covered).", "quantifier": "all programs", "why_tests_cant": "Counters are collected in side buffers that must all be flushed; needs all nestings.", "anchors": ["packages/swc-coverage-instrument/src/visitors/switch_case_visitor.rs", "packages/swc-coverage-instrument/src/macros/instrumentation_stmt_counter_helper.rs::insert_stmts_counter", "packages/swc-coverage-instrument/src/macros/instrumentation_counter_helper.rs::mark_prepend_stmt_counter"]}
{"id": "C33", "title": "Instrumentation only adds: erasing the counters gives back the program", "statement": "Removing the injected counter statements, counter sequence wrappers, the injected block around single-statement bodies, the injected empty else, the block made from an expression-bodied arrow and the two template statements from the output gives back the input program.", "quantifier": "all programs", "why_tests_cant": "Structural induction over all programs.", "anchors": ["packages/swc-coverage-instrument/src/macros/instrumentation_visitor.rs", "packages/swc-coverage-instrument/src/macros/instrumentation_counter_helper.rs", "packages/swc-coverage-instrument/src/visitors/coverage_visitor.rs"]}
{"id": "C34", "title": "Instrumented code behaves like the original", "statement": "Running the instrumented program produces the same result, the same exceptions and the same interaction with its environment (in the same order) as the original, for any environment that does not inspect function source, names or the coverage object; only coverage counters differ.", "quantifier": "all programs of the modelled language core, all environments, all executions (terminating or not)", "why_tests_cant": "Semantic preservation of a source-to-source transformation.", "anchors": ["packages/swc-coverage-instrument/src/macros/instrumentation_visitor.rs", "packages/swc-coverage-instrument/src/macros/instrumentation_counter_helper.rs", "packages/swc-coverage-instrument/src/instrument/create_increase_counter_expr.rs"]}
{"id": "C35", "title": "'ignore next' suppresses all instrumentation of the node", "statement": "A statement, declaration or expression carrying an 'istanbul ignore next' hint is emitted unchanged and contributes no statement, function or branch to the coverage data.", "quantifier": "all nodes that support hints, all contents, all surrounding programs", "why_tests_cant": "Arbitrary nested content below the hint.", "anchors": ["packages/swc-coverage-instrument/src/macros/create_instrumentation_visitor.rs::on_enter_with_span", "packages/swc-coverage-instrument/src/macros/instrumentation_visitor.rs", "packages/swc-coverage-instrument/src/visitors/coverage_visitor.rs::visit_mut_module_items"]}
{"id": "C36", "title": "'ignore if' / 'ignore else' suppress exactly that side", "statement": "An if statement with hint 'if' (resp. 'else') keeps its then (resp. else) side exactly as written with no counter, while the other side gets its path counter; without a hint both sides get one, an absent else side being materialised as a block.", "quantifier": "all if statements and hints", "why_tests_cant": "All bodies on both sides.", "anchors": ["packages/swc-coverage-instrument/src/macros/instrumentation_visitor.rs::visit_mut_if_stmt"]}
{"id": "C37", "title": "Methods listed in ignoreClassMethods are left alone", "statement": "A class or object method, getter, setter or function expression whose identifier name is listed in ignoreClassMethods is emitted unchanged with no counters.", "quantifier": "all methods, options", "why_tests_cant": "All bodies and lists.", "anchors": ["packages/swc-coverage-instrument/src/macros/instrumentation_visitor.rs::visit_mut_class_method", "packages/swc-coverage-instrument/src/macros/instrumentation_visitor.rs::visit_mut_fn_expr"]}
{"id": "C38", "title": "Instrumenting one statement does not influence how others are instrumented", "statement": "Whether and how a statement gets its counters depends on the statement, its enclosing nodes and hints, not on which other statements precede it.", "quantifier": "all statement lists", "why_tests_cant": "Hidden visitor state that leaks only for particular expression kinds.", "anchors": ["packages/swc-coverage-instrument/src/macros/instrumentation_visitor.rs::visit_mut_bin_expr", "packages/swc-coverage-instrument/src/macros/create_instrumentation_visitor.rs::on_exit", "packages/swc-coverage-instrument/src/macros/instrumentation_counter_helper.rs::cover_statement"]}
{"id": "C39", "title": "One function in the source, one entry in the function table", "statement": "Every source function that is instrumented contributes exactly one function entry, with its own source location.", "quantifier": "all programs", "why_tests_cant": "Repeated visits of the same node only occur for particular nestings.", "anchors": ["packages/swc-coverage-instrument/src/macros/instrumentation_counter_helper.rs::cover_statement", "packages/swc-coverage-instrument/src/macros/instrumentation_visitor.rs::visit_mut_tagged_tpl", "packages/swc-coverage-instrument/src/macros/instrumentation_visitor.rs::visit_mut_arrow_expr"]}
{"id": "C40", "title": "Directive prologues survive", "statement": "The directives ('use strict', 'use client', ...) at the head of a module, script or function body are still at the head of it after instrumentation.", "quantifier": "all programs", "why_tests_cant": "All prologues and bodies.", "anchors": ["packages/swc-coverage-instrument/src/visitors/coverage_visitor.rs::visit_mut_module_items", "packages/swc-coverage-instrument/src/visitors/coverage_visitor.rs::visit_mut_script", "packages/swc-coverage-instrument/src/macros/instrumentation_counter_helper.rs::create_fn_instrumentation"]}
{"id": "C41", "title": "Instrumentation always finishes, and fails only on functions without body", "statement": "On every program the transformation terminates; it panics only if the program contains a function without a body (a type-level declaration).", "quantifier": "all programs", "why_tests_cant": "Termination over all inputs although nodes are re-visited after being rewritten.", "anchors": ["packages/swc-coverage-instrument/src/visitors/coverage_visitor.rs", "packages/swc-coverage-instrument/src/macros/instrumentation_counter_helper.rs::create_fn_instrumentation"]}
{"id": "C42", "title": "Names inferred for functions bound to variables are preserved", "statement": "A variable declarator whose initialiser is directly a function, arrow or class keeps that initialiser unwrapped, so the inferred name is unchanged; likewise for class fields and default values.", "quantifier": "all declarators, class fields and default values", "why_tests_cant": "All initialiser shapes.", "anchors": ["packages/swc-coverage-instrument/src/macros/instrumentation_counter_helper.rs::cover_statement", "packages/swc-coverage-instrument/src/macros/instrumentation_visitor.rs::visit_mut_class_prop", "packages/swc-coverage-instrument/src/macros/instrumentation_visitor.rs::visit_mut_assign_pat"]}
{"id": "C43", "title": "Counters are accurate", "statement": "When the instrumented program runs, a branch path counter is incremented exactly when that path is taken (then/else, case entry, conditional operand, logical operand evaluated) and a statement/function counter exactly when control reaches the statement/function body.", "quantifier": "all programs of the modelled core and all executions", "why_tests_cant": "Relates two executions for all programs.", "anchors": ["packages/swc-coverage-instrument/src/macros/instrumentation_visitor.rs", "packages/swc-coverage-instrument/src/instrument/create_increase_counter_expr.rs"]}
{"id": "C44", "title": "Exclusion and option handling", "statement": "A missing file name is treated as unknown.js; an undecodable configuration behaves as the default configuration; invalid exclusion patterns exclude nothing; matching is performed on forward-slash normalised pattern and file name, and normalisation leaves paths without backslashes unchanged, leaves no backslash in the fallback case and is idempotent there. Five level names switch logging on; the second file of a process that does so crashes, and otherwise logging does not influence the output.", "quantifier": "all file names, configurations, patterns", "why_tests_cant": "All strings.", "anchors": ["packages/swc-plugin-coverage/src/lib.rs::process", "packages/swc-plugin-coverage/src/lib.rs::normalize_path", "packages/swc-coverage-instrument/src/options/instrument_options.rs"]}
{"id": "C45", "title": "The tables list exactly the countable parts of the source", "statement": "The statement, function and branch tables of the generated record are determined by the source text, its hints and the options: they list, in source order, every statement, every function with its name and both locations, and every branching construct with the locations of its paths, that no hint excludes, and nothing else.", "quantifier": "all programs, comment tables and options", "why_tests_cant": "An exact description of the output tables for every program; tests compare a few fixtures.", "anchors": ["packages/swc-coverage-instrument/src/macros/instrumentation_visitor.rs", "packages/swc-coverage-instrument/src/macros/instrumentation_counter_helper.rs", "packages/swc-coverage-instrument/src/source_coverage/mod.rs", "packages/swc-coverage-instrument/src/visitors/coverage_visitor.rs"]}
{"id": "C46", "title": "The embedded record is fresh and well formed, and can always be reported", "statement": "The record embedded in the output of every instrumented program has the file's path and source map, statement and function ids numbered from 0 without gaps, one zero counter per listed statement, function and branch path, truthiness rows exactly for the logical branches when reportLogic is on and none otherwise; functions are named by an identifier of the source, by 'anonymous' or by their number. Whatever the counters count, the line, uncovered-line and branch views and the summary of that record are computed without panicking, and without reportLogic two such records can be merged.", "quantifier": "all programs, options, comment tables and counter values", "why_tests_cant": "An invariant over all inputs linking three crates; tests look at single outputs.", "anchors": ["packages/swc-coverage-instrument/src/source_coverage/mod.rs", "packages/swc-coverage-instrument/src/visitors/coverage_visitor.rs", "packages/istanbul-oxide/src/file_coverage.rs"]}
{"id": "C47", "title": "The report tells what happened in the original program", "statement": "When an instrumented file is loaded and run, in any interleaving with other files, the record published under its path reads back as the embedded record with every counter raised by its increments, and every statement, function and branch path counter holds the number of times its source event happens in the original program. The summary computed from that record counts as covered exactly the statements, functions and branch paths whose event happened, and its uncovered lines are exactly the lines on which statements start and none was reached.", "quantifier": "all programs of the modelled core, all executions and all interleavings of files with different paths", "why_tests_cant": "Links source, instrumenter, run time and reporting for all programs and runs.", "anchors": ["packages/swc-coverage-instrument/src/macros/instrumentation_visitor.rs", "packages/swc-coverage-instrument/src/coverage_template/create_coverage_fn_decl.rs", "packages/istanbul-oxide/src/file_coverage.rs"]}
{"id": "C48", "title": "Decoding of the configuration text", "statement": "The configuration text given to the plugin is decoded as one JSON text (RFC 8259) holding an object or an array. In an object each option is either absent and has its documented default or is given exactly once with a value of its type; the order of members and unknown members do not matter; a repeated option, a value of a wrong type or an ill-formed key makes the whole text undecodable. In an array the options stand in the order of the struct, missing ones have their default. Every options value has a text that decodes to it, and decoding always terminates with a verdict.", "quantifier": "all strings", "why_tests_cant": "All configuration texts, including malformed ones; the repository tests one or two configurations.", "anchors": ["packages/swc-coverage-instrument/src/options/instrument_options.rs", "packages/istanbul-oxide/src/source_map.rs", "packages/swc-plugin-coverage/src/lib.rs::process"]}
{"id": "C49", "title": "A serialized coverage record can be read back", "statement": "Serializing a coverage record to JSON and deserializing the text gives back the same record. In particular the record of every instrumented program can be read back, and every position in it is the position of a source span. Deserialization accepts exactly the objects in which every required member is present once with a value of its type, table keys are the decimal numerals of u32 numbers, repeated keys of a table keep the last value at the first place, and unknown members are skipped.", "quantifier": "all records, all JSON values, all programs", "why_tests_cant": "All records and texts; the tests read a few.", "anchors": ["packages/istanbul-oxide/src/file_coverage.rs", "packages/istanbul-oxide/src/types.rs", "packages/istanbul-oxide/src/range.rs", "packages/istanbul-oxide/src/source_map.rs"]}
{"id": "C50", "title": "The initial record can be recovered from the debug comment", "statement": "With debugInitialCoverageComment the generated code carries a block comment from which the reader of the test-suite recovers exactly the initial coverage record, and the comment ends where the record ends.", "quantifier": "all records, all generated code around the comment, all programs", "why_tests_cant": "Depends on every string of the record (path, function names, all strings of an input source map); tests use benign ones.", "anchors": ["packages/swc-coverage-instrument/src/coverage_template/create_coverage_fn_decl.rs::create_coverage_fn_decl", "spec/util/verifier.ts::lastFileCoverage"]}
{"id": "C51", "title": "Truthiness counters count the truthy values of operands", "statement": "With reportLogic on, every bT[b][i] increment of the output sits in the operand whose pass is counted by b[b][i]. Evaluating an operand counts the pass, evaluates the expression once, yields its value unchanged, and increments bT[b][i] exactly if the value is truthy, not an empty array and not an empty plain object; an abrupt end of the expression skips the increment. Hence in every run bT[b][i] is at most b[b][i].", "quantifier": "all programs in which no initialiser is a tagged template (those are visited twice, C39), all environments, all runs", "why_tests_cant": "All nestings of logical expressions, all values and all ways control can leave an operand, including exceptions and recursion.", "anchors": ["packages/swc-coverage-instrument/src/instrument/create_increase_true_expr.rs::create_increase_true_expr", "packages/swc-coverage-instrument/src/macros/instrumentation_counter_helper.rs::wrap_bin_expr_with_branch_counter"]}
{"id": "C52", "title": "Reports of several runs add up", "statement": "When the coverage records published by several runs of the same instrumented program are merged, in any order, every statement, function and branch counter of the merged record tells how often its part of the source was executed in all runs together. The merged summary counts a part as covered exactly if at least one run reached it, and a line is uncovered exactly if no run executed a statement that starts on it.", "quantifier": "all programs of the modelled core, any number of runs with different inputs, each run next to any other instrumented files", "why_tests_cant": "Merging matches table entries by location and renumbers them; whether this keeps all counts for every program, every number of runs and every order is not visible from single merges of small records.", "anchors": ["packages/istanbul-oxide/src/file_coverage.rs::merge", "packages/istanbul-oxide/src/file_coverage.rs::to_summary", "packages/swc-coverage-instrument/src/coverage_template/create_coverage_fn_decl.rs::create_coverage_fn_decl"]}
{"id": "C53", "title": "Layout, comments and file name do not influence the instrumentation", "statement": "Which counters are inserted, where they are inserted and what the record lists depends on the program's tree, its hint comments and the options only. Moving the program to other positions (for example by lines in front of it) moves the locations of the record accordingly and changes nothing else; comments that are no hints have no effect at all; the file name and the input source map appear in the record's fields of that name and nowhere else; a panic stays the same panic.", "quantifier": "all syntax trees, all position mappings, comment tables, file names and source maps", "why_tests_cant": "Fixtures show single layouts; that no handler looks at a position, a comment or the name in any other way is a statement about pairs of runs over all programs.", "anchors": ["packages/swc-coverage-instrument/src/macros/instrumentation_visitor.rs::instrumentation_visitor", "packages/swc-coverage-instrument/src/utils/hint_comments.rs::should_ignore", "packages/swc-coverage-instrument/src/utils/lookup_range.rs::get_range_from_span", "packages/swc-coverage-instrument/src/source_coverage/mod.rs::SourceCoverage"]}
{"id": "C54", "title": "reportLogic only adds truthiness counters", "statement": "Turning the option reportLogic on leaves the statement, function and branch counters of a program and their entries in the record as they are, and only adds a truthiness counter around each operand of a logical expression and the table of their counts.", "quantifier": "all syntax trees, all comment tables and options", "why_tests_cant": "The fixtures of the option check single expressions; that nothing else of the output depends on it compares two runs over arbitrary programs.", "anchors": ["packages/swc-coverage-instrument/src/macros/instrumentation_counter_helper.rs::wrap_bin_expr_with_branch_counter", "packages/swc-coverage-instrument/src/instrument/create_increase_true_expr.rs::create_increase_true_expr", "packages/swc-coverage-instrument/src/source_coverage/mod.rs::new_branch"]}
{"id": "C55", "title": "A file has one coverage function with the complete record", "statement": "The output for a program contains exactly one coverage function, its record is the complete one (it lists every statement, function and branch of the program), and so the counts published at run time under the file's name are the counts of the whole program.", "quantifier": "all syntax trees (modules, scripts and TypeScript namespaces), all comment tables and options, all runs of the output", "why_tests_cant": "No fixture contains a namespace; the number of inserted functions depends on the nesting of lists of module items anywhere in the tree, and the loss of counts only shows when the output is run.", "anchors": ["packages/swc-coverage-instrument/src/visitors/coverage_visitor.rs::visit_mut_module_items", "packages/swc-coverage-instrument/src/coverage_template/create_coverage_fn_decl.rs::create_coverage_fn_decl"]}
{"id": "C56", "title": "The configuration reaches the emitted function", "statement": "For a file that is neither excluded nor hinted to be ignored (and without nested lists of module items, C55) the output has one coverage function. It contains the file name, the configured coverageVariable, the hash and the record built with the configured reportLogic, ignoreClassMethods and inputSourceMap; the debug comment with the record is attached exactly if debugInitialCoverageComment is set. An excluded or ignored file gets no function. compact influences nothing, coverageVariable and debugInitialCoverageComment only this function, instrumentLog only the log. At run time the counts are published under global[coverageVariable][file name].", "quantifier": "all configuration texts, file names, programs, process states and run histories of files with distinct names", "why_tests_cant": "The spec suite runs with one variable name and one set of options; which option may influence which part of the output is a statement about all pairs of configurations.", "anchors": ["packages/swc-coverage-instrument/src/coverage_template/create_coverage_fn_decl.rs::create_coverage_fn_decl", "packages/swc-coverage-instrument/src/visitors/coverage_visitor.rs::get_coverage_templates", "packages/swc-plugin-coverage/src/lib.rs::process"]}
{"id": "C57", "title": "Scripts of one page count into their own records", "statement": "If several instrumented scripts are loaded into one global scope, in any order and with their code running interleaved, the record published under a file's name holds the number of times that file's own statements, functions and branches ran.", "quantifier": "all lists of files processed by one process, all interleavings of loading the scripts and executing their counters in one shared global scope", "why_tests_cant": "The fixtures are instrumented and run one at a time, each in a scope of its own; the wrong counts only appear with two files of one process in one global scope and depend on the order of loading and calling.", "anchors": ["packages/swc-coverage-instrument/src/coverage_template/create_coverage_fn_decl.rs::create_coverage_fn_ident", "packages/swc-coverage-instrument/src/coverage_template/create_coverage_fn_decl.rs::create_coverage_fn_decl"]}
{"id": "C58", "title": "The initial coverage can be read back from the emitted code", "statement": "Reading the instrumented program with the schema marker (readInitialCoverage: find the marked function, read its variables path, hash, gcv and coverageData, rebuild the record from the object literal, drop marker and hash) yields the file name, the hash of the record, the configured coverage variable, and exactly the record of the file: deep-equal to the JSON of the record that the debug comment carries.", "quantifier": "all programs, configurations and records, including input source maps", "why_tests_cant": "The fixtures check this only for the programs they contain and no fixture has an input source map with missing contents; that reading inverts emitting is a statement about all records.", "anchors": ["spec/util/read-coverage.ts::readInitialCoverage", "spec/util/verifier.ts::verify", "packages/swc-coverage-instrument/src/coverage_template/create_coverage_data_object.rs::create_coverage_data_object"]}
{"id": "C59", "title": "The published object can be read by the Rust types, with the counts of the run", "statement": "For every interleaving of runs of instrumented files with different names, the object published for a file, without marker and hash, passed through JSON.stringify into FileCoverage (FileCoverageInterop) gives the file's record with every counter raised by the number of times its code executed the increment. The conversion panics exactly if one of these counts does not fit in 32 bits.", "quantifier": "all records the instrumenter can emit, all run histories, all counters", "why_tests_cant": "The verifier reads single runs of the fixtures; that no field of any record is rejected, renamed or defaulted by the deserializer, and where the conversion starts to panic, needs all records and counts.", "anchors": ["spec/swc-coverage-instrument-wasm/src/lib.rs::FileCoverageInterop", "spec/util/verifier.ts::getFileCoverage", "packages/istanbul-oxide/src/file_coverage.rs::FileCoverage"]}
{"id": "C60", "title": "The report of a project counts what happened in all processes", "statement": "A test run consists of processes that each load some of a project's instrumented files, in any interleaving, and leave their coverage in the global variable. The variable of a process holds exactly the records of the files that ran in it. Read as coverage maps and merged, the maps give exactly the files that ran in at least one process; every counter of a file tells how often its part of the source was executed in all processes together; and the summary of the merged map adds up over these files, counting as covered exactly the statements, functions and branch paths reached in at least one process.", "quantifier": "all projects of programs of the modelled core with different paths, any number of processes, all histories of loads, calls and increments in each", "why_tests_cant": "Joins instrumenter, run time, readers, merging and summary for every combination of files and processes.", "anchors": ["packages/istanbul-oxide/src/coverage_map.rs::merge", "packages/istanbul-oxide/src/coverage_map.rs::from_iter", "packages/istanbul-oxide/src/coverage_map.rs::get_coverage_summary", "packages/swc-coverage-instrument/src/coverage_template/create_coverage_fn_decl.rs::create_coverage_fn_decl"]}
{"id": "C61", "title": "More runs never lower coverage", "statement": "Merging a second record into a record never takes coverage away: in each of the four figures of the summary (lines, statements, functions, branch paths) the merged record has at least the total and the covered count of either record and at most their sums; a line is uncovered afterwards exactly if it has statements and is covered in neither. If the second record speaks of no place the first does not have, as between runs of one source text, the totals stay the same and no percentage goes down; so one more run of a program never lowers a percentage of its report. The record of another version of the file can lower one.", "quantifier": "all pairs of records, with or without truthiness counters, whose entries have different locations and whose sums fit; all instrumented programs and any number of runs", "why_tests_cant": "Tests compare single numbers of chosen records; this is an order relation over all pairs of records and all runs, through f32 arithmetic.", "anchors": ["packages/istanbul-oxide/src/file_coverage.rs::merge", "packages/istanbul-oxide/src/file_coverage.rs::to_summary", "packages/istanbul-oxide/src/file_coverage.rs::get_uncovered_lines", "packages/istanbul-oxide/src/percent.rs::percent"]}
{"id": "C62", "title": "The counts of one report fit together", "statement": "In every run the counts agree with the program text: something that is only reached through something else is not counted more often. So a statement is not counted more often than an earlier statement of the same list, a statement reached at most once per call of a function not more often than the function, what an arm, a conditional's branch, a case or a right operand contains not more often than that branch path, a right operand not more often than its left one, and the two ways of an if statement together not more often than the statement. This holds for the counters of the published record, of merged records of several runs and of the report of a project. The body of a loop is no such place: it can be counted more often than the loop.", "quantifier": "all programs whose events have different spans, all hosts, fuels and worlds; for records, programs of the modelled core and any number of runs and processes", "why_tests_cant": "Tests look at single numbers; these are inequalities between counters over every program, every run and every way of leaving a statement early.", "anchors": ["packages/swc-coverage-instrument/src/macros/instrumentation_visitor.rs", "packages/swc-coverage-instrument/src/instrument/create_increase_counter_expr.rs", "packages/istanbul-oxide/src/file_coverage.rs::merge"]}
{"id": "C63", "title": "Nothing inside what was never reached is counted", "statement": "If in a run, in merged runs or in the report of a project something has count zero, then everything that is only reached through it has count zero, however deeply it is nested in loops, blocks and functions: everything inside a statement, an initialised variable, a logical expression, a function, an arm of an if statement, a branch of a conditional, a right operand, a default value, a field or a case, and everything in later statements of the same list and later variables of the same declaration. Functions declared in a later statement or in a case are the exception: they exist before the statement is reached and can be counted although it is not.", "quantifier": "all programs whose events have different spans, all hosts, fuels and worlds; for records, programs of the modelled core and any number of runs and processes", "why_tests_cant": "It is about every pair of nested places in every program and every run that leaves one of them out, including calls through hoisted functions, fields and getters that a host makes at any time.", "anchors": ["packages/swc-coverage-instrument/src/macros/instrumentation_visitor.rs", "packages/swc-coverage-instrument/src/instrument/create_increase_counter_expr.rs", "packages/istanbul-oxide/src/file_coverage.rs::merge"]}
{"id": "C64", "title": "The positions of the source survive instrumentation and the record points nowhere else", "statement": "Every position of the program stands in the instrumented output, from left to right in the same order, and the output has no other positions, so a source map of the output leads back to the program and to nothing else. Injected nodes have no position at all, except the return that is put around the expression of a short arrow function: at most two positions are added for every such function and none otherwise, so without them the positions are the same list. Every location and line number in the coverage record is that of a node of the program, or 0:0 for nodes without a position.", "quantifier": "all parsed programs, comments, options and file names", "why_tests_cant": "A test compares one output; a source map that is off by one injected node needs a program with just that construct, and locations of a record can be wrong for any of the constructs at any depth.", "anchors": ["packages/swc-coverage-instrument/src/macros/instrumentation_visitor.rs", "packages/swc-coverage-instrument/src/macros/instrumentation_counter_helper.rs", "packages/swc-coverage-instrument/src/utils/lookup_range.rs", "packages/swc-coverage-instrument/src/instrument/create_increase_counter_expr.rs"]}
{"id": "C65", "title": "Ignoring code only removes entries", "statement": "With more ignore hints, more names in ignoreClassMethods or reportLogic switched on, the tables of the record are those from before with entries left out: the statements, functions and branches that stay have the same locations, lines, kinds and names (up to the number in the name of an anonymous function) and the same order, and a branch that stays has the same paths in the same order with some left out. In particular no hint ever makes something elsewhere in the file appear in the report, and a program without comments and options has the most entries.", "quantifier": "all programs, comments and options", "why_tests_cant": "It compares two instrumentations of every program for every pair of hint placements; a test fixes one program and one hint.", "anchors": ["packages/swc-coverage-instrument/src/utils/hint_comments.rs", "packages/swc-coverage-instrument/src/macros/create_instrumentation_visitor.rs", "packages/swc-coverage-instrument/src/macros/instrumentation_visitor.rs", "packages/swc-coverage-instrument/src/macros/instrumentation_stmt_counter_helper.rs"]}
{"id": "C66", "title": "The output grows at most linearly with the program", "statement": "There is a fixed factor such that, for every program and all options, the instrumented program and the tables of its record together are at most that many times as large as the program: instrumenting a file never blows up, whatever constructs it nests.", "quantifier": "all programs, comments and options", "why_tests_cant": "A test measures the growth of the programs it contains; a construct that doubles the work at each level of nesting is only noticed by a test that nests that construct deeply, and a bound for all programs is not a finite set of measurements.", "anchors": ["packages/swc-coverage-instrument/src/macros/instrumentation_counter_helper.rs", "packages/swc-coverage-instrument/src/macros/instrumentation_visitor.rs", "packages/swc-coverage-instrument/src/macros/instrumentation_stmt_counter_helper.rs", "packages/swc-coverage-instrument/src/instrument/create_increase_counter_expr.rs", "packages/swc-coverage-instrument/src/source_coverage/mod.rs"]}
{"id": "C67", "title": "The output is a program of the grammar", "statement": "Instrumenting a syntactically correct program gives a syntactically correct program: in the output every node has the parts its construct takes, expressions stand where expressions are allowed, statements where statements are, module items only at the top of a module, and a lexical or class declaration is never the whole body of an if, a loop, a with or a label. In particular the blocks, returns, parentheses and sequences the instrumenter makes around parts of the program are complete.", "quantifier": "all syntactically correct programs, comments and options", "why_tests_cant": "Every construct can stand in every slot of every other one, with or without hints; a test fixes one combination.", "anchors": ["packages/swc-coverage-instrument/src/macros/instrumentation_counter_helper.rs", "packages/swc-coverage-instrument/src/macros/instrumentation_visitor.rs", "packages/swc-coverage-instrument/src/macros/instrumentation_stmt_counter_helper.rs", "packages/swc-coverage-instrument/src/macros/visit_mut_for_like.rs", "packages/swc-coverage-instrument/src/visitors/coverage_visitor.rs"]}
{"id": "C68", "title": "Branch paths lie inside their branch, and the locations of a record are nested or apart", "statement": "In the record of an instrumented program every path of a branch lies inside the location of the branch. Any two locations of the record (of statements, functions, branches and paths) are nested or do not overlap, so a report can mark them in the source without cutting one by another. Nodes without a position, whose location is 0:0, are left out.", "quantifier": "all programs whose spans are nested like those of parsed text, all source maps that give later positions later lines and columns, all comments, options and file names", "why_tests_cant": "It is about every pair of locations of every program; a branch that gets the path of another one, or a location with start and end mixed up, shows only for the construct concerned, in nested positions.", "anchors": ["packages/swc-coverage-instrument/src/macros/instrumentation_visitor.rs", "packages/swc-coverage-instrument/src/source_coverage/mod.rs", "packages/swc-coverage-instrument/src/utils/lookup_range.rs"]}
{"id": "C69", "title": "A threshold on a percentage is a threshold on the ratio, and 100 percent means everything", "statement": "The percentage of a total is at least k (k whole, or given in hundredths) exactly when at least k in a hundred of the places were reached, in spite of the truncation and of single precision. It is 100 exactly when every place was reached. A summary with 100 percent of statements, functions or branch paths has no zero counter there, and then all lines are covered too. In the report of a project, 100 percent means that every statement, function or branch path the report lists was executed in some process, and k percent that at least k in a hundred were. The covered and the uncovered lines of a report are together the lines on which statements start, and 100 percent of the lines means that the lists of uncovered lines are empty. The converses one might expect are false: a percentage of 0 does not mean that nothing was reached, and 100 percent of the lines does not mean all statements.", "quantifier": "all totals, thresholds, file records and test runs of projects of modelled programs", "why_tests_cant": "Near a threshold the result depends on division, truncation and rounding of one particular pair of 32-bit numbers; there are too many pairs to try.", "anchors": ["packages/istanbul-oxide/src/percent.rs", "packages/istanbul-oxide/src/coverage_summary.rs", "packages/istanbul-oxide/src/file_coverage.rs", "packages/istanbul-oxide/src/coverage_map.rs"]}
{"id": "C70", "title": "Placeholders complete a report without changing it", "statement": "When records are merged together with placeholders (records marked with all), in whatever order, every file with a real record gets exactly the record it would get without the placeholders, and every other file its first placeholder; if the real records cannot be merged, the placeholders do not help. With a placeholder for every file of a project, the totals of the report are the numbers of statements, functions and branch paths of the whole project, whatever the tests load, and 100 percent means that every statement, function or branch path of every file was executed in some process.", "quantifier": "all lists of records and placeholders; all test runs of projects of modelled programs, all positions of the placeholders", "why_tests_cant": "The order in which processes and placeholders arrive is free; a merge that loses counts for one order shows only there.", "anchors": ["packages/istanbul-oxide/src/file_coverage.rs", "packages/istanbul-oxide/src/coverage_map.rs", "packages/istanbul-oxide/src/coverage_summary.rs"]}
{"id": "C71", "title": "Truthiness counters do not disturb the rest of a report", "statement": "Whenever coverage maps with truthiness counters can be merged and summed up, everything else in the merged map and in the summary is as if the truthiness counters were absent. So the report of a project instrumented with reportLogic counts as covered exactly the statements, functions and branch paths that were reached in some process. If no branch was removed from the records this report can always be computed in a release build, and in a build with overflow checks as long as the truthiness counters and their values add up to less than 2^32. The truthiness totals themselves are not preserved by merging.", "quantifier": "all lists of coverage maps; all test runs of projects of modelled programs, instrumented with or without reportLogic", "why_tests_cant": "The truthiness counters share the branch table with the branch counters and are renumbered by each merge; the unit tests merge two records with one branch.", "anchors": ["packages/istanbul-oxide/src/file_coverage.rs", "packages/istanbul-oxide/src/coverage_map.rs", "packages/istanbul-oxide/src/coverage_summary.rs"]}
{"id": "C72", "title": "With reportLogic a whole project's report is still coherent, complete and true to its percentages", "statement": "For every test run of a project some or all of whose files are instrumented with reportLogic, whenever the maps can be merged: the counts of the merged map fit together (nothing is counted more often than what it is only reached through, nothing inside something unreached is counted), 100 percent of the statements, functions or branch paths means that every one of them was reached, k percent that at least k in a hundred were, the lines are those of the files, and placeholders for files nobody loaded complete the report to the totals of the whole project. Without removed branches this report always exists in a release build, and in a build with overflow checks as long as the truthiness counters and their values add up to less than 2^32.", "quantifier": "all test runs of projects of modelled programs, each instrumented with or without reportLogic; all orders of the placeholders", "why_tests_cant": "The unit tests of the reports use hand-written records, mostly without truthiness counters, and no test merges the maps of several processes with reportLogic.", "anchors": ["packages/istanbul-oxide/src/file_coverage.rs", "packages/istanbul-oxide/src/coverage_map.rs", "packages/istanbul-oxide/src/percent.rs"]}
{"id": "C73", "title": "Truthiness counts stay below the counts of their paths", "statement": "In every record a process publishes, each truthiness count belongs to a path of a registered branch and is at most the count of that path; therefore the summary of such a record counts at most as many truthiness entries as paths and covers at most as many of them.", "quantifier": "all syntax trees, comment tables and options, all behaviours of the environment, all interleavings of files in a process", "why_tests_cant": "The relation has to hold at every moment of every execution, also after exceptions and for expressions that call each other.", "anchors": ["packages/swc-coverage-instrument/src/instrument/create_increase_true_expr.rs::create_increase_true_expr", "packages/swc-coverage-instrument/src/source_coverage/mod.rs::add_branch_path", "packages/istanbul-oxide/src/file_coverage.rs::to_summary"]}
