# Formal model of swc-plugin-coverage-instrument

This directory holds a Rocq (Coq 8.16.1) model of the Rust code in `/repo`
(`kwonoj/swc-plugin-coverage-instrument`) and proofs of the properties listed in
`properties.jsonl`. `MANIFEST.json` maps each property to its theorems.
`seeded/LOG.jsonl` records the wrong programs the theorems were tested against.

## 1. Layout

Everything is in `rocq/theories/`, logical root `Verif`.

| layer | files | models |
|---|---|---|
| base | `Base.v`, `IndexMap.v`, `Decimal.v`, `Float.v`, `FloatR.v` | `Result`-like outcomes (`Ok`/`Panic`/`OutOfFuel`), u32 arithmetic in debug (panic) and release (wrap) mode, insertion-ordered maps (`IndexMap`: get, insert, entry, retain, swap_remove) |
| M1 oxide | `Oxide*.v`, `Percent*.v` | `istanbul-oxide`: `file_coverage.rs`, `coverage_map.rs`, `coverage_summary.rs`, `percent.rs`, `coverage.rs`, `range.rs`, `types.rs` |
| M2 source coverage | `SourceCov*.v` | `source_coverage/mod.rs` |
| M3 hints | `Hints*.v` | `utils/hint_comments.rs`, `utils/lookup_range.rs` |
| M4 data/hash/runtime | `Json.v`, `JsonEscape.v`, `CovJson.v`, `JsonParse.v` (JSON grammar and parser), `Serde.v` (derived deserializers), `Options.v`, `Builder.v`, `DebugComment.v`, `SipHash.v`, `DataObject.v`, `Template.v`, `Runtime.v`, `RepoVectors.v`, `OxideVectors.v` (unit tests of the crates) | `serde_json` output and input of the coverage record and of the options, `DefaultHasher`, `coverage_template/*`, the run-time behaviour of the emitted counter function |
| M5 visitor | `Ast.v`, `Visitor.v` | `macros/*`, `visitors/*`, `instrument/*` |
| M5 proofs | `VisitorRel.v` (the visitors as an inductive relation, sound for the functions), `Erase.v`, `Counting*.v`, `Suppress.v`, `Registered.v`, `Layout.v`, `LogicOption.v`, `Namespaces.v`, `Local.v`, `Influence.v`, `Prologue.v`, `OneEntry.v`, `Total.v`, `Produced.v` | |
| M6 semantics | `Sem*.v`, `Account*.v`, `Slots.v`, `Sites.v`, `Accurate.v`, `Truths.v` | a definitional interpreter for a JavaScript core, used to state behaviour preservation and accuracy of counters |
| end to end | `Report.v`, `EndToEnd.v`, `Runs.v`, `Project.v`, `Growth*.v`, `FitReport.v`, `IdleReport.v`, `Threshold.v`, `Placeholders.v`, `LogicReport.v`, `LogicModes.v`, `LogicWhole.v`, `TruthBound.v` | source, output, run, published record and report in one theorem; reports of projects |
| validation | `JsHost.v`, `FixtureRun.v`, `Fixtures.v`, `FixtureTests.v` | a concrete JavaScript `host` (values, objects, scopes) and the repository's own fixtures (`spec/fixtures`, translated by `tools/fixtures.js`) run through `instrument` and the interpreter |
| M7 plugin | `Plugin.v`, `PluginLog.v` (the log option), `Emitted.v` (the inserted functions with the options in them), `Scripts.v` (several outputs in one global scope), `ReadInitial.v`, `Interop.v` (the test-suite's readers) | `swc-plugin-coverage/src/lib.rs`, `instrument_options.rs`, `create_coverage_fn_decl.rs` |
| properties | `Props*.v` | the theorems of each claim (`exact lemma`) with `Print Assumptions` |

Every definition of the model carries a comment with the file and lines in `/repo`
it models. Specifications (`*Spec.v`, or the `Spec` part of a file) are written
without the model's helper functions.

## 2. How each property is modelled and proved

*Oxide.* Rust's `IndexMap<u32,_>` is an insertion-ordered association list with distinct keys.
`u32` is `N` with an explicit overflow mode. `expect`, indexing and overflow are explicit panics.

- **C01, C02, C03** `fc_merge` is the literal two-loop algorithm of `merge_properties(_hits_vec)`.
  Proof: loop invariants relating the key map to a per-location hit function; the specification is
  `hits_at loc` defined by a fold over the two tables only.
- **C04** same function, records with repeated locations: a counterexample (`_refuted`), and the exact
  law that does hold (the first record's later duplicates overwrite, the second record's add).
- **C05** counterexample; the law that holds when every branch has truthiness counters (`_partial`).
- **C06** case analysis on the flags. **C07** injectivity of the decimal rendering and the `|` separator.
- **C08, C09, C10, C11, C14** folds over tables, proved against list-comprehension specifications.
- **C12** `percent` is modelled bit-exactly with `Coq.Floats.SpecFloat` (binary32/binary64); its real-number
  meaning is derived from Flocq's correctness theorems for division, normalisation and rounding.
- **C13** commutative monoid of summaries; fold over files. **C15, C16** refinement of the map
  operations to a path-indexed function, by induction on operation histories.

*SourceCoverage.* **C17, C18, C19** invariants over arbitrary call sequences from the fresh state.

*Data, hash and run time.* **C20** the object literal is a small expression tree; an evaluator for it and a
decoder are defined and the round trip proved. **C21** the `serde_json` writer is modelled to bytes,
SipHash-1-3 to bits, validated against the constants in the repo's own tests; injectivity of the writer is proved.
Injectivity of a 64-bit hash is false and is not claimed. **C22, C23** a small-step model of a realm:
global coverage object, loaded files, calls and increments in any order. C23 is expected to be refuted (the emitted
code compares a property named `$hash`, the data object's property is `hash`). **C24** history model of the
process-global `OnceCell`; the claim for several files per process is refuted, the single-file claim is proved.

*Hints.* **C25** the two regular expressions as a matcher over code points, against a declarative
grammar; Unicode `\s`/`\w` classes are explicit tables for `\s` and a parameter for non-ASCII `\w`. **C26, C27, C28**
direct models over an abstract comment store / source map.

*Visitor.* The SWC AST is a generic rose tree with a kind per node, children in SWC field order, and explicit
wrapper nodes where SWC has a dispatching enum that the visitor observes (`Expr`, `Stmt`). The visitor is a literal,
fuel-indexed interpreter of the macros in `instrumentation_visitor.rs` with state
`(coverage, before, nodes, should_ignore)`.

- **C29, C30, C31, C32** invariants of the visitor over all programs, by induction on fuel: sets of emitted counter
  addresses versus registered slots. C30 and C32 in full generality are refuted (default argument with
  reportLogic; `switch` discriminant), with the restricted theorems proved.
- **C33** an inductive relation `Instr` (input, output) or an erasure function.
- **C34, C43** a definitional interpreter (`Sem.v`) for control flow, scopes and hoisting, parameterised by a `host` that
  plays every other construct with arbitrary strategies and an arbitrary state. `SemShape.v` describes where injected
  code may stand; `SemErase.v` proves that a program of that shape and its erasure run alike (same completion, host state
  and events, for every host and bound); `SemVisit.v` proves that the visitors' output has the shape; with C33 this gives
  `same_behaviour` (`SemProps.v`). Directive prologues and impure truthiness tests are refuted there; `TaggedLogic.v` refutes tagged template initialisers with reportLogic
  (the second visit instruments the injected test, which then overwrites the shared temporary: `const y = tag`${a || 7}`` sees the test's result).
  The interpreter also logs counter increments and source events (statement reached, arm taken, ...). `Account.v` is an
  inductive accounting of a program text (each event with the counters that stand directly before or after it) and proves
  by induction on the interpreter that in an accounted program counters and events balance in every run. `Slots.v`: a
  registered counter keeps its place in the record. `Sites.v`: the events of a source text and the programs (`exact`) in
  which no counter is moved away from its event. `AccountVisit.v`: the visitors' output is accounted, every counter under
  the event at the place its record entry names. `Accurate.v`: the theorem for whole programs, and the two refutations
  (initialisers with functions in class fields and in later declarators are counted too early).
- **C51** `Truths.v`: by induction on the visit, every `bT` counter of the output stands in an operand of the shape that
  `create_increase_true_expr` builds, after the `b` counter of the same path; running that shape gives the bound and the
  exact condition of the increment.
- **C35** visiting with the Next hint is the identity on tree and coverage. Refuted for `export const`.
- **C36, C37, C42** characterisation of the corresponding hooks. **C38** refuted by the missing `on_exit` for
  logical expressions; proved for programs without them. **C39** refuted for tagged templates; **C40** refuted, with the
  exact layout of the output proved. **C45** `Registered.v` defines the list of countable parts of a source text by
  recursion on the text (with hints and options) and proves, by induction on the fuel, that the visitors extend the tables
  by exactly that list. The specification shows that `const f = () => 1` is counted at the top level of a program only:
  `cover_statement` looks for a block or program four places down the node stack, where in blocks the statement list
  stands. **C46** `Produced.v`: an invariant of the coverage state over the whole visit gives the form of the embedded record; with
  the theorems of M1 and M4 it gives totality of the views and the round trip of the literal for every instrumented program.
  **C41** a termination measure gives a sufficient fuel for every program.
  **C53** `Layout.v`: a simulation between two visits of trees that differ in positions, comments, file name and source map only.
  **C54** `LogicOption.v`: a simulation between the visits with and without `reportLogic`; `TaggedLogic.v` refutes its premise on tagged templates.
  **C55** `Namespaces.v`: a program with a nested list of module items gets two coverage functions, and the run-time theorems of
  M4 show what that does to the published counts; `CountingRoot.v` gives the positive part.

*End to end.* **C47** `Report.v`: increments on the JSON object are increments on the record that is read back from it
(`published_record`). `EndToEnd.v` combines this with C22, C43, C46 and the views of M1. **C52** `Runs.v`: merging keeps the multiset of (location,
description, count) rows, so the merge of the records of several runs is, up to numbering, the record after all their increments.
**C60** `Project.v`: the whole coverage variable is read (no other members, each name once), the maps of all processes are one sequence of
`add_coverage_for_file` calls, and a file's record keeps the invariant of C52 through it; the summary by the sum theorem of C13.
**C61** `Growth.v`: a record is a list of places with counts per figure; merging is a union of such lists, so lengths and numbers of
reached places grow; `GrowthRuns.v` applies this to runs of one program, `GrowthLogic.v` to records with truthiness counters.
**C62** `Ledger.v`: give every event a weight; `bound` computes from the program text a number the sum of the weights of a run never
falls below, proved for every host by one induction over the semantics. `Consistent.v` says which events are only reached through
which others (`follows`) and shows that the weights +1 and -1 on such a pair have bound 0; `FitReport.v` reads the counts off the records
of C47, C52 and C60.
**C63** `Keeps.v`: a property of states that survives the events and functions every single node makes survives a run. `Unreached.v` says which
events are only reached through which others (`guards`) and applies this to "g has happened, or e has not and no function made so far
makes e before g"; `IdleReport.v` carries it to the records.
**C64** `Positions.v`: one run related to itself by the relation of C53, with spans of the program on both sides; a measure that counts positions
and short arrow functions and never grows during a visit; erasing (C33) only drops positions.
**C65** `Fewer.v`: the specification of C45 is a function of hints and options and monotone in them.
**C66** `Linear.v`: each kind of node pays for what its hook can inject and record; by induction over the visits, the output and the tables
never cost more than the nodes of the program paid. `nested` is the family that is visited twice at each level.
**C67** `Grammar.v`: a tree grammar (`rule`) on the kinds of the children and, of statements and lists, of their parts; visits keep what the
parent sees of a node.  All programs of the repository's fixtures are in the grammar.

*Nested.* C68 is about how the locations of a record lie to each other. `laid` and `laminar` describe the spans of parsed
text (a node lies inside its parent, two nodes are nested or apart), `mapped` a source map that is monotone. Then the paths
of every branch lie inside of it (`paths_inside`: an induction over the visits that carries the span of the branch a case or
an operand belongs to) and any two locations of the record are nested or apart (`record_nested`, by C64). All programs of the
fixtures satisfy the premises (`fixtures_laid`).

*Threshold.* C69 is about how reports are read: through thresholds. `percent_hundredths` proves that the single-precision
percentage reaches a threshold exactly when the ratio does (two different hundredths always have two multiples of 1/256 between
them, so they round to different numbers); `percent_threshold` and `percent_is_100` are the whole percentages and 100.
`summary_full` says what 100 percent means for the counters of a file, and `project_threshold_partial` carries it to the events
of the sources over `project_report_partial`. `lines_and_uncovered` and the same theorem say that the line totals and
`get_uncovered_lines` describe the same lines. Two readings are refuted: 0 percent with something reached (1 of 10001, because of
the truncation), and 100 percent of the lines with a statement that never ran.

*Placeholders.* C70 is about files that no test loads. `placeholders_fill` relates merging with and without placeholders
(invariant `filled`: the map with placeholders is the map without, completed); `project_complete_partial` is the report of a
project in which every file has a placeholder, over `report_of`, which C60, C69 and C70 share.

*LogicReport.* C71 removes the premise on reportLogic from the report of a project. `truth_bystander`: dropping the truthiness
tables commutes with merging and summing up, for arbitrary records. `logic_tells_partial` and `logic_report_partial` transfer C60
along it, for any merge that succeeds; `logic_release_partial` proves success in release builds for records without removed branches
(invariant `bounded`: after any number of merges the truthiness ids are below the number of branches, although they no longer name
the right branch). `LogicModes.v` adds builds with overflow checks: the weight of a record (number of truthiness counters plus their values)
is subadditive under merging, so nothing overflows while the weights of the published records stay below 2^32. `logic_totals_refuted`: the truthiness totals of three merged runs count one expression twice.

*LogicWhole.* C72 carries coherence (C62), unreached code (C63), thresholds (C69) and placeholders (C70) over to projects with
reportLogic, through `truth_bystander`; the example mixes a file with the option and one without.

*TruthBound.* C73 puts `truths_at_most_passes` (C51) together with the shape of produced records and the run-time model: the records a
process publishes have no truthiness count above the count of its path. A merge breaks this (`merged_truths_refuted`).

*Plugin.* **C44** small model with oracle parameters for the glob matcher and the path library.
  **C56** `Emitted.v`: the output with its functions spelled out, and the run-time theorems on them.
  **C57** `Scripts.v`: a name stands for the last loaded function with that name; the history with the names resolved is again a history of M4.
  **C58** `ReadInitial.v`: the reader `readInitialCoverage` on the emitted function; the value it rebuilds in closed form. **C59** `Interop.v`: the
  published object is the printed record with the counters raised, and serde reads it back.

*Reading.* **C48**, **C49** `JsonParse.v`: RFC 8259 as an inductive relation between texts and values; the fuelled parser is
sound and complete for it. `Serde.v`, `Options.v`: the derived `Deserialize` impls, each characterised by an equivalence
(`Field`/`Present`/`Place`) and by a round trip with the serializers. `Builder.v`: the visitor changes its tables only by
the five operations of `SourceCoverage` with positions of source spans, so its records fit the Rust types and can be read back.
**C50** `DebugComment.v`: the comment's text, the reader `lastFileCoverage` of the test-suite, and where a given text can occur
in printed JSON.

## 3. Trusted base

- Coq 8.16.1's kernel (including `vm_compute`).
- Axioms: see section 5 (what `Print Assumptions` lists).
- The faithfulness of the model to the Rust source: by inspection, each definition cites lines.
- The model is also tested: `FixtureTests.v` proves by computation that all 193 tests of the 117 runnable fixtures in
  `spec/fixtures` pass on the model (same line, statement, function, branch and truthiness counts and same output). Three
  fixtures with generators have their tables checked only; five compare no output because it is an inferred function name;
  four only have to be instrumented. `tools/fixtures.js` (acorn) is trusted for the translation of the sources.
- Facts about dependencies written into the model: `indexmap`, `serde_json`, `std`'s `DefaultHasher`
  (SipHash-1-3, zero key, `str` hashes its bytes then 0xff), the `regex` crate's `\s`, `\b`, SWC's visitor
  dispatch and child order, JavaScript semantics of the emitted template.

- Parameters of the model (arbitrary functions in every theorem): the source mapper's `lookup_char_pos`, the comment
  table, the non-ASCII part of the regex word class, the glob matcher `wax`, `typed-path`'s classification of Windows
  paths, the JavaScript `host`.

## 4. What is not modelled

The SWC parser, code generator and host, TypeScript- and JSX-only nodes beyond being traversed as
generic nodes, suspension of functions (`yield`, `await`) and inferred function names in the semantics, the napi/wasm bindings (beyond the conversion of `FileCoverageInterop`), tracing/logging output, performance, threads.

## 5. Axioms

`Print Assumptions` stands under every property theorem (files `Props*.v`). All of them are closed
under the global context except the theorems of `Percent.v` (C12 and the f32 part of C10) and the ones on percentages in `Growth.v` and
`GrowthRuns.v`, `GrowthLogic.v` (C61) and those of `Threshold.v`, `Placeholders.v` and `LogicWhole.v` (C69, C70, C72), which use
real numbers through Flocq and depend on axioms of Coq's standard library only:

- `Coq.Reals.ClassicalDedekindReals.sig_forall_dec`, `Coq.Reals.ClassicalDedekindReals.sig_not_dec`
- `Coq.Logic.FunctionalExtensionality.functional_extensionality_dep`
- `Coq.Logic.Classical_Prop.classic`

`coqchk -o` additionally lists the opaque constants of `Coq.Reals.Rdefinitions` (sealed modules
`RbaseSymbolsImpl`, `RinvImpl`) and of `Coq.ssr.ssrunder`; these are definitions behind a signature, not axioms.

The files `Props*.v` and `MANIFEST.json` are generated from the theorem sources and `tools/claims.py`
by `tools/genprops.py`; each statement is copied and closed by `exact`.
