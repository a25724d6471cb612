# Formal model of substrate-weight-compare: design

Source under study: `/repo` (ggwpez/substrate-weight-compare), read as text, never built or run.
Model, specifications and proofs: `/verif/rocq/theories` (Rocq/Coq 8.16.1, logical name `Verif`).

## 1. Method

* **Model files `*M.v`** transcribe the Rust functions one by one into total, computable Gallina.
  Every definition cites file and lines, and says where it simplifies.
* **Specification files `Spec*.v`** define, without using the model's helpers, what the answer should be
  (denotation of a polynomial, corner boxes, abstract maps, abstract git, abstract cache, ...).
* **Proof files `*P.v`** relate the two.
* **Property files `Prop*.v`** contain only the final theorems (each closed by `exact lemma`),
  `Print Assumptions` beneath, and `Example`s that exhibit non-trivial inputs meeting the hypotheses.

Conventions:

* `outcome A = Ok a | Err msg | Panic why | Diverge`. Rust panics (`unwrap`, `expect`, `unreachable!`, `assert!`,
  checked overflow) are explicit `Panic` values, never silently excluded.
* `u128`/`u32` are `N` with explicit `2^128` arithmetic in two build modes: `Checked` (debug, test
  profiles: overflow panics) and `Wrapping` (release). Theorems either cover both or name the mode.
* `String` is Coq `string` (bytes); Rust orders strings bytewise, so does the model.
* `BTreeMap`/`BTreeSet` are sorted association lists. `HashMap` look-ups are association lists;
  the iteration order of the one iterated `HashSet` is a universally quantified parameter.
* `f64` is `Coq.Floats.SpecFloat` at precision 53, exponent 1024: executable, axiom free, IEEE-754
  round-to-nearest-even. Real-number facts about it are obtained through Flocq (proofs only).
* Terms evaluate with fuel that decreases only at variable look-up; running out is the value
  `Diverge`, excluded by theorem where claimed.
* External programs and libraries (git, glob, regex engine, the `syn` front end, file system, clock, thread
  scheduler) are parameters of the model: theorems quantify over all their behaviours, with any law they need
  written as an explicit, satisfiable hypothesis.

## 2. Properties

The statements are in `properties.jsonl`; the status of each is in `MANIFEST.json`. Names `..._refuted` are theorems
that give a concrete input for which an expected claim is false (section 6 lists what they found).

| ids | files | what is modelled | how it is proved |
|---|---|---|---|
| C01-C05 | PropTerm | `SimpleTerm` eval/free_vars/bound_vars/substitute/fmt_equation over scopes | induction on terms against a denotation into N; pigeonhole on look-up chains for termination |
| C06 | PropTerm | `Scope` operations | refinement to functions `string -> option value`, induction over operation lists |
| C07-C10 | PropTerm | `ChromaticTerm` eval/simplify/into_chromatic/splice_add, `find_largest_factor`, `sanity_check_term` | induction on (pairs of) terms |
| C11-C16, C19-C21 | PropCompare | `instance_component`, `extend_scoped_components`, `compare_terms`, `compare_extrinsics` | corner sets as an independent inductive spec; invariance under permutation of the component list |
| C17, C18 | PropCompare | the same, plus `percent` | multi-affine functions attain ratio maxima at corners (integers, cross multiplied), then transport through the float monotonicity theorem |
| C22-C25 | PropPercent | `percent`, `TermChange::cmp` | Flocq correctness theorems of each rounded operation |
| C26-C31 | PropRows | `compare_files`, `filter_changes`, `sort_changes` | list induction; the standard merge sort as a nondeterministic relation |
| C33-C38, C40-C42 | PropParse, PropStorage | the `syn` expression language accepted by the three parsers; doc-comment ranges; storage and overhead files | an independent big-step semantics of weight expressions; induction on expressions |
| C39, C43-C45 | PropFiles | path stripping, reading of files, `list_files` | list induction over an arbitrary file system and glob function |
| C46-C48 | PropGit | git command sequences, an abstract git | oracle semantics, traces; a small concrete git semantics |
| C49-C51 | PropServer | web cache, locks | labelled transition system, invariants over all executions |
| C32, C52, C53, C58-C60 | PropCli, PropHtml | the sub-commands of the command line, CSV and tables, names, web ordering and colours | composition of the theorems above; case analysis, float lemmas |
| C54, C55, C61, C66 | PropWeb | branches, versions, organisation, `do_compare` | readers of the texts against inductive specs |
| C56, C57 | PropFmt | number and term formatting | Flocq error bounds; a reader for the displayed language |
| C62-C65 | PropPage | the rows of the result page | string induction; the browser's reading as an inductive spec |
| C67-C72 | PropSite | start-up, requests, links, the pages around the results | URL and form decoding as inductive specs, proved equivalent to the reader |
| C73-C75 | PropEnd | the whole way from source code or commits to the filtered table | composition: meaning of functions (C33), corners (C17), exact thousandths (Flocq), filter and sort (C29-C31), files and git (C39-C48) |
| C76-C77 | PropIso | comparisons as programs of single steps (git, glob, reading a file), interleaved with all other requests | simulation: every interleaving is matched by whole operations one after the other; then C48-C51 and C75 |
| C78-C80 | PropText | a lexer and a parser for the texts of weight files; the texts that four benchmarking templates write for measured data, in both versions of the weights | grammar as inductive relations, reader proved sound and complete for it (fuel by size of token trees); the template's text is derived in the grammar, its meaning computed, then C75 |
| C81 | PropLive | the executions of IsoM with pushes to the remote repositories at any moment | the commands of each comparison are replayed against the remote branches seen at each of its steps; invariant over all interleavings, then C75 and C80 |
| C82 | PropShow | the whole chain: query, executions of LiveM, rows, page; measurements as in C80 | the point at which the worst case was found is carried from the comparison to the cells of the row; completeness by C73 for regressions and improvements; failures characterised by the ranges and the number of components |
| C83 | PropPrint | the two compare commands of the command line: reading of files or of commits, rows, sorting, table; measurements as in C80 | rows of the comparison and records of the table are paired (from C32, C58); then as for C82, with the cells of the console |
| C84 | PropAdd | comparisons in which one version lacks the function, in the whole chain of C82 and C83 | the first corner of the comparison is the lower one; polynomials are monotone, so its value is the least; absence from the texts is carried through the reader to absence from the list of equations |
| C85 | PropStorage | TermM.from_substrate, ScopeM.with_storage_weights, StorageM | the relation of C03 instead of the evaluator with fuel; induction on the expression of the file and on the term |
| C86 | PropArgs | clap's scanner over a table of options, the two tables of the program, `main` (ArgsM) | a grammar of command lines without a parser (SpecArgs); the scanner for any table is shown to accept just the sequences of uses of options; then the table, entry by entry; then C83 |
| C87 | PropRoot | the script of the start page as a machine of events: user, answers, failures (RootM) | what is chosen, known, asked and filled in is defined from the events alone (SpecRoot); invariants by induction on the events |
| C88 | PropWebArgs | the arguments of the web server and the start with them (WebArgsM over ArgsM and SiteM) | a grammar of arguments (SpecWebArgs); the scanner lemma of C86 for this table; then C67 |
| C89 | PropMr | the script of the page of merge requests: address, rows, double clicks (MrM) | the first match of the parameter in an address that was put together from pairs; induction on the list; C70 for the link |
| C90 | PropTheme | the script of the light switch (ThemeM) | a class in which a word was replaced contains the new word, so it is none of the others; induction from the right over the events with the state of the browser: stored theme, switch and page say `dark_after` |
| C91 | PropAnchor | the links to rows and the selection of the row by the fragment of the address (AnchorM over PageM and MrM) | the fragment of a linkable id is the id; ids are unique by C64, so the lookup that keeps the last row of an id finds the row |
| C92 | PropCorner | the comparison with the methods Base, ExactAsymptotic and Asymptotic and the filter | such a method has one corner, which assigns what `at_corner` says to all names of the two equations; then rounding of the percentage and the filter as in C73; from source code and commits as in C74 and C75 |
## 3. Trusted base

* The Coq 8.16.1 kernel. `coqchk -o` has been run over the whole development as a second check.
* The standard library. Four of its axioms appear, and only in theorems about floating point numbers
  (section 5 lists them per theorem): `ClassicalDedekindReals.sig_not_dec`,
  `ClassicalDedekindReals.sig_forall_dec`, `FunctionalExtensionality.functional_extensionality_dep`,
  `Classical_Prop.classic`. They come in with the real numbers of the standard library. The float
  functions themselves (`SpecFloat`) use no axiom; only their correctness theorems (Flocq) mention reals.
* The development declares no axiom, parameter, functor or module type of its own, uses no plugin, and
  switches no kernel check off.
* The reading of the Rust source. Each definition's comment cites the lines it transcribes and says what
  it leaves out. This reading is not machine checked.
* The reading of the libraries the source calls. Where the model contains a transcription of a library
  function (`str::trim`, `str::lines`, `str::replace`, `split_whitespace`, `u128::from_str`,
  `BTreeMap`, the stable merge sort, HTML escaping of `sailfish`, `format!` of integers and of `{:.2}`)
  the comment says so and the transcription is part of the trusted base. Where the library's behaviour is
  a parameter (git, glob, regular expressions, the clock, the thread scheduler, hash order) nothing is
  trusted beyond the hypotheses visible in the theorem.

* For C79 and C80, that `syn` reads a text that it accepts as the grammar in `SpecText.v` says, if that applies (a hypothesis
  in the theorems, `reads_grammar`). For C80, that the benchmarking tool writes the text in `SpecTmpl.v`; `Conform.v` checks that it is
  test_data/new/pallet_staking.rs.txt, character by character, for the data in that file.

## 4. Modelled and not modelled

| source | modelled (file of the model) | not modelled |
|---|---|---|
| `core/src/term.rs` | all functions: `VarValue` equality and conversion, `eval` of both term types, `into_chromatic`, `simplify`, `for_values`, `free_vars`, `bound_vars`, `substitute`, `visit`, `find_largest_factor`, `fmt_*`, `splice_add`, `as_scalar`, `as_var`, `is_const_*` (TermM, FmtM) | `serde` derive; the construction macros (they are the constructors) |
| `core/src/scope.rs` | all functions (ScopeM, FmtM) | - |
| `core/src/traits.rs` | `Weight`, `One`, `Zero`, `mul_scalar`, the formatting trait (TermM, FmtM) | - |
| `core/src/lib.rs` | row accessors, `should_pull`, `compare_commits`, `git_checkout`, `git_pull`, `git_reset`, `list_files` (GitM, FilesM); strategies, `compare_extrinsics`, `extend_scoped_components`, `instance_component`, `compare_terms` (CompareM); `compare_files`, `sanity_check_term`, `sort_changes`, both `Ord`s, `filter_changes`, `RelativeChange::new`, `percent` (RowsM, F64); `fmt_*` (FmtM); the `FromStr`/`variants` tables (CliM) | logging |
| `core/src/parse/pallet.rs` | everything from `handle_item` down, on the syntax tree (SynM, AttrM, ParseM); `parse_files*`, `try_parse_files*` (FilesM) | the lexer and parser of the `syn` crate: the parsers are modelled from its syntax tree on, for any function from texts to trees; for the part of Rust that weight files are written in, the text is modelled by a grammar and a reader (SpecText, LexM, GramM) |
| `core/src/parse/storage.rs`, `overhead.rs` | all functions, on the syntax tree (StorageM) | as above |
| `core/src/parse/mod.rs` | `PathStripping`, `try_parse_file`, `read_file`, `path_to_string` (FilesM, SynM) | UTF-8 decoding of file contents |
| `core/src/testing.rs` | - | test helpers only |
| `cli/src/main.rs` | all sub-commands, both output formats, colours, path options (CliM); the arguments of the compare commands (ArgsM) | the arguments of `parse files`, clap's texts for help and errors; the column widths of `comfy_table` (the cells are modelled) |
| `web/src/html.rs` | all functions (HtmlM, PageM) | `http_500`/`http_200` headers beyond the status |
| `web/src/git.rs` | `get_origin_org` (WebM) | - |
| `web/src/main.rs` | `branches`, `compare`, `do_compare_cached` with its cache and locks, `version` (WebM, ServerM, PageM); the steps of comparisons among other requests (IsoM), with changes of the remote repositories (LiveM); start-up, root, `compare-mr` and the query decoding (SiteM); its arguments (WebArgsM) | TLS, compression, logging, the badge drawing, static files |
| `web/templates/*.stpl` | the interpolated parts of `compare.stpl`, `root.stpl`, `merge_requests.stpl`, `error.stpl` (PageM, SiteM) | the constant page headers |
| `web/static/*.js` | the queries that `table.js`, `root.js`, `merge_requests.js` and `common.js` build (SiteM); the behaviour of `root.js` (RootM) and of `merge_requests.js` (MrM); `darkmode.js` (ThemeM); the selection of rows in `table.js` (AnchorM) | sorting in the table library |

## The log of wrong programs

`seeded/LOG.jsonl` has one line for each edit of the model after which the theories were rebuilt. Edits whose rebuilt theories still
proved, and which were judged to leave every claim true (equivalent, or about behaviour that no property speaks of), were left out of
the earlier batches; the last batches list them with an empty `failed` and say so in `claim`. Edits after which a definition or a
statement no longer compiled are not listed. Each batch rebuilt only the property files named for the edit, so `failed` is a lower bound.

## 5. `Print Assumptions` per theorem

Closed under the global context:

* `PropAdd.v`: C84_corner, C84_least, C84_worst_refuted
* `PropAnchor.v`: C91_link, C91_kept, C91_blank_refuted
* `PropArgs.v`: C86_arguments, C86_order, C86_weight_refuted, C86_change_refuted
* `PropCli.v`: C32_first, C32_failed, C32_unsupported, C32_exists, C53_kinds, C58_terms, C58_failures_refuted, C59_methods, C59_method_reflect, C59_method_complete, C59_dimensions, C59_dimension_reflect, C59_changes, C59_formats, C59_strippings, C60_parse, C60_count_refuted
* `PropCompare.v`: C11_instance, C12_exact_err, C12_exact_agrees, C13_corners, C14_scopes_order, C14_compare_order, C15_compare_no_panic, C16_worst_corner, C17_interior_quadratic_refuted, C18_base_min, C18_asymptotic_max, C18_wrapping_refuted, C19_change_kind, C19_swap, C21_storage, C25_preorder, C25_rank, C25_thousandths_special
* `PropEnd.v`: C73_asymptotic_refuted, C73_names_refuted, C73_quadratic_refuted, C74_template, C74_underscore_refuted
* `PropFiles.v`: C39_all, C39_first_error, C39_ignore, C39_ignore_stops, C39_agree, C39_file, C39_file_in_repo, C43_kind, C43_priority, C43_unreadable, C44_injective, C44_restore, C44_outside, C44_distinct, C44_file_name, C44_collision, C44_lost_refuted, C45_result, C45_fails, C45_parts, C45_order, C45_limit_refuted
* `PropFmt.v`: C04_fmt_equation, C56_below_next_unit_refuted, C57_display, C57_weight, C57_dropped_factor_refuted, C57_lost_brackets_refuted
* `PropGit.v`: C46_commands, C46_only, C46_determined, C46_pull, C46_option_refuted, C47_states, C47_checkout, C47_force, C47_pull, C47_pull_force, C47_force_refuted, C47_path_refuted, C48_newest, C48_stale, C48_first, C48_pull_refuted
* `PropHtml.v`: C52_large_refuted, C52_abs, C52_abs_kinds, C52_abs_refuted, C53_html_abs, C53_agree_refuted
* `PropIso.v`: C76_program, C76_server, C76_serial, C76_answer, C76_own, C76_alias_refuted, C77_newest, C77_pull_refuted
* `PropLive.v`: C81_newest, C81_together_refuted
* `PropMr.v`: C89_listed, C89_choice, C89_rows, C89_deleted, C89_open, C89_all_refuted, C89_markup_refuted, C89_case_refuted
* `PropPage.v`: C62_no_markup, C62_shown, C62_only, C63_body, C63_columns, C63_head, C63_messages, C63_count, C63_renders, C64_ids, C65_markup, C65_refuted
* `PropParse.v`: C33_meaning, C33_meaning_v1, C33_template, C33_template_v1, C34_leak_refuted, C34_access_refuted, C35_scalar, C35_weight, C35_structure, C10_cast_hides, C36_attribute, C36_template, C36_attributes, C20_reaches, C20_underscore_lost, C20_underscore_refuted, C37_no_panic, C37_panic_refuted, C38_sound, C38_complete, C38_fails, C38_entry, C40_reads, C40_writes, C40_count, C40_scalar_reads, C40_scalar_writes
* `PropPercent.v`: C23_percent_strict_everywhere_refuted
* `PropPrint.v`: C83_entries
* `PropRoot.v`: C87_offered, C87_filled, C87_unfilled, C87_repo, C87_compare, C87_waiting, C87_patient, C87_order_refuted, C87_null_refuted, C87_remembered_refuted, C87_last_repo, C87_overlay_refuted, C87_once_refuted
* `PropRows.v`: C26_rows, C27_first, C27_total, C27_duplicates, C27_permutation, C29_idempotent, C31_sort, C31_insertion
* `PropServer.v`: C49_cached, C49_stored, C49_fresh, C49_failed, C49_once, C49_hit, C50_exclusive, C50_branches, C50_progress, C50_bounded, C50_completes, C50_answered, C50_unique, C51_cause, C51_all, C51_isolation_refuted
* `PropSite.v`: C67_start, C67_failure, C67_missing, C67_path, C67_absolute, C67_below_refuted, C68_read, C68_encoded, C68_once, C68_answer, C68_success, C69_redirect, C69_empty_refuted, C70_offered, C70_root, C70_mr, C70_root_refuted, C70_mr_refuted, C71_repos, C71_units, C71_methods, C71_option, C71_inputs, C71_blank_refuted, C72_root, C72_mr, C72_capital_refuted
* `PropStorage.v`: C41_storage, C42_overhead, C42_time, C42_forms, C85_names, C85_picoseconds
* `PropTerm.v`: C01_eval_exact, C02_eval_err, C03_eval_terminates, C03_depth, C04_vars_split, C05_substitute_value, C05_substitute_term, C05_numbers, C05_substitute_vars, C05_definitions_refuted, C06_scope_map, C07_simplify_eval, C08_into_chromatic, C09_splice_add, C10_sanity_check, C10_every_large_factor_warned_refuted
* `PropText.v`: C78_items, C78_expr, C78_unambiguous, C78_layout, C79_reader, C80_entries, C80_grammar
* `PropTheme.v`: C90_theme, C90_rest, C90_plain, C90_system_refuted, C90_restored_refuted
* `PropWeb.v`: C54_entries, C54_last_line, C54_one_field, C54_short_hash, C54_mangled_refuted, C54_collision_refuted, C55_version, C55_none, C61_org, C61_host_refuted, C66_trim
* `PropWebArgs.v`: C88_arguments, C88_order, C88_names, C88_serves, C88_no_panic, C88_none, C88_commas_refuted

Using `ClassicalDedekindReals.sig_forall_dec`, `ClassicalDedekindReals.sig_not_dec`, `Classical_Prop.classic`, `FunctionalExtensionality.functional_extensionality_dep`:

* `PropAdd.v`: C84_page, C84_files, C84_commits
* `PropArgs.v`: C86_files, C86_commits
* `PropCli.v`: C32_table, C32_files, C32_commits, C53_console, C58_csv
* `PropCompare.v`: C17_interior, C25_thousandths, C25_thousandths_mono
* `PropCorner.v`: C92_shown, C92_real, C92_source, C92_source_real, C92_web
* `PropEnd.v`: C73_regression, C73_improvement, C73_real, C73_exact_refuted, C74_source, C75_trees, C75_table, C75_web
* `PropFmt.v`: C56_value, C56_scalar
* `PropHtml.v`: C52_kinds, C52_monotone, C52_strict, C53_html
* `PropIso.v`: C77_regression
* `PropLive.v`: C81_regression, C81_measured
* `PropPercent.v`: C22_percent_special, C23_percent_mono_new, C23_percent_mono_old, C23_percent_mono_ratio, C23_percent_sign, C23_percent_strict, C24_percent_accuracy
* `PropPrint.v`: C83_files, C83_commits
* `PropRows.v`: C28_self, C29_filter, C29_typed, C29_raise, C30_kept
* `PropShow.v`: C82_page
* `PropText.v`: C79_trees, C79_web, C80_trees, C80_web
* `PropWeb.v`: C66_answer

Using `ClassicalDedekindReals.sig_forall_dec`, `FunctionalExtensionality.functional_extensionality_dep`:

* `PropCli.v`: C53_signs
* `PropEnd.v`: C73_nan_refuted, C73_fine_refuted
* `PropRows.v`: C29_micro, C30_nan_refuted

## 6. Findings

Claims one would expect from the code that are false in the model, with the theorem that shows it or the
property where it is stated. None of these was executed; each is a reading of the source.

**Numbers**
* `percent(0, 0)` is NaN and `percent(0, n)` is infinite; a NaN row passes every threshold (C22, C30_nan_refuted).
* `percent` is not strictly monotone above 2^50 (C23_percent_strict_everywhere_refuted); there the web table shows "0" beside a coloured absolute change (C53_agree_refuted).
* Web sort keys are capped at `u32::MAX`, so all larger changes compare equal; absolute keys wrap or panic from 2^127 (C52_large_refuted, C52_abs_refuted).
* `TermDiff::cmp(Failed, Failed)` is `Less`: not a total order (C25).

**Terms and comparison**
* Quadratic equations can have their worst case inside the box; only corners are looked at (C17_interior_quadratic_refuted).
* `VarValue` equality ignores underscores, look-up does not; the ranges of components with underscores are lost (C20_underscore_refuted).
* The sanity check of factors misses factors of kind `Value` (C10_every_large_factor_warned_refuted); hence `reads(5000 as u64)` is not warned about although `reads(5000)` is (C10_cast_hides); substitution does not reach into definitions of other variables (C05_definitions_refuted); variables of the proof part leak into the time part (C34_leak_refuted).
* Added and removed extrinsics are evaluated at the first scope only, and `Base` uses the lower ends of the ranges (C11-C16).
* A cyclic scope makes evaluation diverge (C03); which error a comparison reports depends on hash order (C14).

* A regression of exactly the threshold can be filtered out: `percent(100, 115)` is 14.999999999999986 (C73_exact_refuted).
* A change from 0 to 0 has the percentage NaN, which ranks like 0: it can be shown instead of a growth below a thousandth of a percent (C73_nan_refuted).
* The worst corner is chosen by truncated thousandths of percents, so thresholds with finer decimals can hide a change above them (C73_fine_refuted).
* The default method of the root page (`asymptotic`) only looks at the largest values of the components; a tenfold base weight can be invisible (C73_asymptotic_refuted).
* Equations that differ only in underscores of names count as unchanged even if the values differ (C73_names_refuted); regressions
  beyond the default range of a component with an underscore are missed (C74_underscore_refuted).
* In builds without overflow checks the largest value of the box can wrap around and be reported as small (C18_wrapping_refuted).
* With squares only the corners are looked at: a threefold weight in between is not shown (C73_quadratic_refuted).

**Parser**
* Literals that are no integers or exceed `u128` panic, and so does a body whose single statement is not an expression, even
  when errors are ignored (C37_panic_refuted); in the web server this poisons the cache lock and every later request fails (C51_isolation_refuted).
* A bare literal is not accepted as a weight; `Weight::zero(x,)` is (C33).
* A doc attribute is recognised by its path segments glued together, without separators (AttrM).
* `parameter_types!` with more than one constant is not read (C41); proof sizes given by storage accesses are counted as 0 (C34_access_refuted).
* Added and removed functions are shown with their least weight, also by the methods for the worst case (C84_worst_refuted).

**Files and git**
* The limit on the number of files is checked before duplicates are removed (C45_limit_refuted); with `FileName` stripping, files of the same
  name collide and rows are dropped (C44_lost_refuted).
* `--git-pull` without `--git-force` only fetches (C48_pull_refuted); `reset --hard` moves the branch that happens to be checked out (C47_force_refuted);
  checking out the name of a file succeeds without changing the version (C47_path_refuted).
* Versions are passed to git without a separator, so a version can be an option of git (C46_option_refuted); ".." is refused in file
  patterns only as a substring (C45).

**Command line**
* With `--print-terms` CSV rows have one field less than the header: a comma is missing (C58). Failed rows are left out (C58_failures_refuted).
* The formats `json` and `brief-human` are offered but not implemented (C59). "Parsed N files" counts extrinsics (C60_count_refuted).
* Values just below a unit are shown as "1000.00K" and the like (C56_below_next_unit_refuted); a zero factor and some brackets are dropped in equations (C57_dropped_factor_refuted, C57_lost_brackets_refuted).

**Web**
* Versions, row ids, errors and warnings are put on the page unescaped; a branch name can carry a script (C65_refuted).
* Code links use the versions as typed, before blanks are trimmed (C66). The dot in `github.com` is not escaped (C61_host_refuted).
* The list of branches drops every `refs/heads/` and `refs/tags/` inside a name, and panics on short lines; a branch and a tag of
  the same name cannot be told apart (C54_mangled_refuted, C54_collision_refuted).
* Repositories with capital letters cannot be used from the root page (C72_capital_refuted); those with blanks break the option list
  (C71_blank_refuted); an absolute repository name leaves the root path (C67_below_refuted); the check for a missing
  repository directory is unreachable (C67_missing).
* Links do not encode branch names: `&`, `#`, `+` and `%` silently ask for another comparison (C70_root_refuted, C70_mr_refuted).
* A filter cannot be cleared on the result page (C69_empty_refuted).
* Two names of one directory (`x` and `./x`) are accepted as two repositories; a comparison is then disturbed by requests for the
  branches of the other name (C76_alias_refuted).
* The two versions are fetched one after the other: after a push in between, the table compares two commits that were never the newest
  ones at the same time (C81_together_refuted).
* `--unit weight` is refused by the command line, although the documentation of the unit keeps `weight` as an alias and both `FromStr`
  and the web accept it: clap uses the names of `ValueEnum` (C86_weight_refuted).
* `compare commits … --change added v1 v2` fails since the commits are taken for values of `--change`; `--threshold -5` fails while
  `--threshold=-5` is accepted (C86_change_refuted, C86_ex).
* The start page shows the list of whichever answer comes last: after two quick choices of a repository, the branches of the one are
  offered for, and compared in, the other (C87_order_refuted). Without a branch `master` nothing is selected, and the comparison asks
  for a version `null`, while the last step still shows the earlier branch (C87_null_refuted). `branches.includes(name)` looks for a
  name in a list of pairs and `selected_repo in branches` is asked when nothing is loaded, so no stored choice is ever restored
  (C87_remembered_refuted, C87_last_repo). After a failed request the overlay covers the page for good (C87_overlay_refuted).
* Not stated as theorems: the handler `/repos` is never registered; two buttons share the id `fetch`, so the second one does
  nothing; in `merge_requests.js`, `populate_branches` and `branches` do not exist; the names that every object has (`constructor`)
  count as known repositories in the scripts, as `in` is used.
* **C89.** A merge request whose repository was deleted (`head.repo` is null) ends the loop over the list: older ones are missing,
  the number stays 0 and the overlay covers the page (C89_all_refuted). Titles, authors and branch names go into the table as HTML,
  so whoever can open a merge request can run a script in the page (C89_markup_refuted). With `owner=Paritytech` in the address,
  GitHub answers as for `paritytech`, but all rows count as forks (C89_case_refuted). For every repository but `polkadot-sdk` a
  double click raises an exception after the overlay was put up (C89_open).
* **C90.** The theme of the system is stored at the first page and not followed later (C90_system_refuted). Browsers that restore
  form fields on reload turn a light page dark although `light` is stored: the script only ever ticks the box (C90_restored_refuted).
* **C91.** The script takes the fragment of the address without decoding it, so links to rows of files with a blank (or a character
  outside ASCII) in their path do not select the row (C91_blank_refuted).
