{"claims": [
 {"property": "C01", "status": "proved", "theorems": ["C01_eval_exact"], "note": ""},
 {"property": "C02", "status": "proved", "theorems": ["C02_eval_err"], "note": ""},
 {"property": "C03", "status": "proved", "theorems": ["C03_eval_terminates", "C03_depth"], "note": ""},
 {"property": "C04", "status": "proved", "theorems": ["C04_fmt_equation", "C04_vars_split"], "note": ""},
 {"property": "C05", "status": "proved", "theorems": ["C05_substitute_value", "C05_substitute_term", "C05_numbers", "C05_substitute_vars", "C05_definitions_refuted"], "note": "Scopes whose other definitions do not mention the variable; without that condition the statement is refuted (C05_definitions_refuted)."},
 {"property": "C06", "status": "proved", "theorems": ["C06_scope_map"], "note": ""},
 {"property": "C07", "status": "proved", "theorems": ["C07_simplify_eval"], "note": ""},
 {"property": "C08", "status": "proved", "theorems": ["C08_into_chromatic"], "note": ""},
 {"property": "C09", "status": "proved", "theorems": ["C09_splice_add"], "note": ""},
 {"property": "C10", "status": "proved", "theorems": ["C10_cast_hides", "C10_sanity_check", "C10_every_large_factor_warned_refuted"], "note": "The warning is characterised exactly; that it catches every large factor is refuted (factors stored as values are not seen; from the source: any cast hides a factor, C10_cast_hides)."},
 {"property": "C11", "status": "proved", "theorems": ["C11_instance"], "note": ""},
 {"property": "C12", "status": "proved", "theorems": ["C12_exact_err", "C12_exact_agrees"], "note": ""},
 {"property": "C13", "status": "proved", "theorems": ["C13_corners"], "note": ""},
 {"property": "C14", "status": "proved", "theorems": ["C14_scopes_order", "C14_compare_order"], "note": "The text of an error message may depend on the order (example beside the theorem)."},
 {"property": "C15", "status": "proved", "theorems": ["C15_compare_no_panic"], "note": ""},
 {"property": "C16", "status": "proved", "theorems": ["C16_worst_corner"], "note": ""},
 {"property": "C17", "status": "proved", "theorems": ["C17_interior", "C17_interior_quadratic_refuted"], "note": "Proved for equations affine in every component, with values up to 2^53; for quadratic equations the claim is refuted."},
 {"property": "C18", "status": "proved", "theorems": ["C18_base_min", "C18_asymptotic_max", "C18_wrapping_refuted"], "note": "For builds with overflow checks; without them the maximum is refuted (C18_wrapping_refuted)."},
 {"property": "C19", "status": "proved", "theorems": ["C19_change_kind", "C19_swap"], "note": ""},
 {"property": "C20", "status": "proved", "theorems": ["C20_reaches", "C20_underscore_lost", "C20_underscore_refuted"], "note": "The statement for names without underscore is C20_reaches (for any name as the map stores it, up to ambiguous annotations of both versions, which C11 covers); for names with an underscore the annotation is lost (C20_underscore_lost) and the unrestricted claim is refuted with a witness."},
 {"property": "C21", "status": "proved", "theorems": ["C21_storage"], "note": ""},
 {"property": "C22", "status": "proved", "theorems": ["C22_percent_special"], "note": ""},
 {"property": "C23", "status": "proved", "theorems": ["C23_percent_mono_new", "C23_percent_mono_old", "C23_percent_mono_ratio", "C23_percent_sign", "C23_percent_strict", "C23_percent_strict_everywhere_refuted"], "note": "Strict monotonicity above 2^50 is refuted: large differences can round to 0."},
 {"property": "C24", "status": "proved", "theorems": ["C24_percent_accuracy"], "note": ""},
 {"property": "C25", "status": "proved", "theorems": ["C25_preorder", "C25_rank", "C25_thousandths", "C25_thousandths_mono", "C25_thousandths_special"], "note": ""},
 {"property": "C26", "status": "proved", "theorems": ["C26_rows"], "note": ""},
 {"property": "C27", "status": "proved", "theorems": ["C27_first", "C27_total", "C27_duplicates", "C27_permutation"], "note": ""},
 {"property": "C28", "status": "proved", "theorems": ["C28_self"], "note": ""},
 {"property": "C29", "status": "proved", "theorems": ["C29_filter", "C29_typed", "C29_micro", "C29_idempotent", "C29_raise"], "note": ""},
 {"property": "C30", "status": "proved", "theorems": ["C30_kept", "C30_nan_refuted"], "note": "Proved for comparable percentages; for NaN percentages the claim is refuted."},
 {"property": "C31", "status": "proved", "theorems": ["C31_sort", "C31_insertion"], "note": "The order among failed rows is not preserved (example)."},
 {"property": "C32", "status": "proved", "theorems": ["C32_table", "C32_first", "C32_files", "C32_commits", "C32_failed", "C32_unsupported", "C32_exists"], "note": "C32_table speaks about the formats human and markdown, C58_csv about csv; the layout of the table (comfy-table) and the regular expressions are parameters. An invalid expression for the path panics (second alternative)."},
 {"property": "C33", "status": "proved", "theorems": ["C33_meaning", "C33_meaning_v1", "C33_template", "C33_template_v1"], "note": "Unbounded arithmetic (no saturation, no truncating casts), as in the statement; arguments of proof sizes must also not be made of storage accesses (C34_access_refuted shows why). C33_template and C33_template_v1 show that everything the benchmarking templates write, for either version of the weights, meets the hypotheses."},
 {"property": "C34", "status": "proved", "theorems": ["C34_leak_refuted", "C34_access_refuted"], "note": "The property is a refutation: the unguarded forms of C33 are false, with witnesses."},
 {"property": "C35", "status": "proved", "theorems": ["C35_scalar", "C35_weight", "C35_structure"], "note": ""},
 {"property": "C36", "status": "proved", "theorems": ["C36_attribute", "C36_template", "C36_attributes"], "note": ""},
 {"property": "C37", "status": "proved", "theorems": ["C37_no_panic", "C37_panic_refuted"], "note": "The general claim without the condition is refuted by C37_panic_refuted."},
 {"property": "C38", "status": "proved", "theorems": ["C38_sound", "C38_complete", "C38_fails", "C38_entry"], "note": ""},
 {"property": "C39", "status": "proved", "theorems": ["C39_all", "C39_first_error", "C39_ignore", "C39_ignore_stops", "C39_agree", "C39_file", "C39_file_in_repo"], "note": ""},
 {"property": "C40", "status": "proved", "theorems": ["C40_reads", "C40_writes", "C40_count", "C40_scalar_reads", "C40_scalar_writes"], "note": ""},
 {"property": "C41", "status": "proved", "theorems": ["C41_storage"], "note": ""},
 {"property": "C42", "status": "proved", "theorems": ["C42_overhead", "C42_time", "C42_forms"], "note": ""},
 {"property": "C43", "status": "proved", "theorems": ["C43_kind", "C43_priority", "C43_unreadable"], "note": ""},
 {"property": "C44", "status": "proved", "theorems": ["C44_injective", "C44_restore", "C44_outside", "C44_distinct", "C44_file_name", "C44_collision", "C44_lost_refuted"], "note": "With the stripping of file names two files can get the same name and rows are lost (C44_lost_refuted)."},
 {"property": "C45", "status": "proved", "theorems": ["C45_result", "C45_fails", "C45_parts", "C45_order", "C45_limit_refuted"], "note": "The limit is checked before duplicates are removed (C45_limit_refuted)."},
 {"property": "C46", "status": "proved", "theorems": ["C46_commands", "C46_only", "C46_determined", "C46_pull", "C46_option_refuted"], "note": "A version that starts with a dash is read as an option by git (C46_option_refuted)."},
 {"property": "C47", "status": "proved", "theorems": ["C47_states", "C47_checkout", "C47_force", "C47_pull", "C47_pull_force", "C47_force_refuted", "C47_path_refuted"], "note": "Git is a parameter in the first theorem and the small repository model of GitM in the others, which cover the four combinations of git_pull and git_force; with git_force a name that only exists locally can be resolved wrongly, and the name of a file is accepted as a version (two refuted statements)."},
 {"property": "C48", "status": "proved", "theorems": ["C48_newest", "C48_stale", "C48_first", "C48_pull_refuted"], "note": "git_pull without git_force only fetches; the claim for that case is refuted (C48_pull_refuted)."},
 {"property": "C49", "status": "proved", "theorems": ["C49_cached", "C49_stored", "C49_fresh", "C49_failed", "C49_once", "C49_hit"], "note": "Any number of requests, any schedule and any passing of time; the cache, its lock and the shards of the repository map are modelled, the result of a comparison is any relation."},
 {"property": "C50", "status": "proved", "theorems": ["C50_exclusive", "C50_branches", "C50_progress", "C50_bounded", "C50_completes", "C50_answered", "C50_unique"], "note": "Holds even for repositories in the same shard. Progress assumes that every comparison ends (a cyclic scope would not)."},
 {"property": "C51", "status": "proved", "theorems": ["C51_cause", "C51_all", "C51_isolation_refuted"], "note": "The expected isolation is refuted by an execution in which a file makes the parser panic; the theorems say exactly what is lost afterwards."},
 {"property": "C52", "status": "proved", "theorems": ["C52_kinds", "C52_monotone", "C52_strict", "C52_large_refuted", "C52_abs", "C52_abs_kinds", "C52_abs_refuted"], "note": "Changes of more than 2^32/1000 percent share one key (C52_large_refuted); absolute keys are wrong, or the page panics, from 2^127 on (C52_abs_refuted)."},
 {"property": "C53", "status": "proved", "theorems": ["C53_console", "C53_signs", "C53_kinds", "C53_html", "C53_html_abs", "C53_agree_refuted"], "note": "Above 2^50 the two columns of the page can disagree (C53_agree_refuted)."},
 {"property": "C54", "status": "proved", "theorems": ["C54_entries", "C54_last_line", "C54_one_field", "C54_short_hash", "C54_mangled_refuted", "C54_collision_refuted"], "note": "Entries for well-formed output, panics for malformed lines at any position; names that contain refs/heads/ again and the collision of branch and tag names are refutations."},
 {"property": "C55", "status": "proved", "theorems": ["C55_version", "C55_none"], "note": "Complete."},
 {"property": "C56", "status": "proved", "theorems": ["C56_value", "C56_scalar", "C56_below_next_unit_refuted"], "note": "The shown number may round up to the next unit (1000.00us), see the refuted statement."},
 {"property": "C57", "status": "proved", "theorems": ["C57_display", "C57_weight", "C57_dropped_factor_refuted", "C57_lost_brackets_refuted"], "note": "Proved for numbers below 1000 (larger ones are rounded, see C56) and constants 0 only outside of products; refuted otherwise (two witnesses)."},
 {"property": "C58", "status": "proved", "theorems": ["C58_csv", "C58_terms", "C58_failures_refuted"], "note": "With --print-terms the claim is false for every non-empty table: C58_terms shows seven fields in each row under a header of eight. C58_failures_refuted: a table of failures only prints just the header."},
 {"property": "C59", "status": "proved", "theorems": ["C59_methods", "C59_method_reflect", "C59_method_complete", "C59_dimensions", "C59_dimension_reflect", "C59_changes", "C59_formats", "C59_strippings"], "note": ""},
 {"property": "C60", "status": "proved", "theorems": ["C60_parse", "C60_count_refuted"], "note": "The count in the message is refuted by a witness."},
 {"property": "C61", "status": "proved", "theorems": ["C61_org", "C61_host_refuted"], "note": "Exact set of accepted URLs; C61_host_refuted: the dot in the expression is not escaped."},
 {"property": "C62", "status": "proved", "theorems": ["C62_no_markup", "C62_shown", "C62_only"], "note": "Complete, for bytes."},
 {"property": "C63", "status": "proved", "theorems": ["C63_body", "C63_columns", "C63_head", "C63_messages", "C63_count", "C63_renders"], "note": "Exact contents of the body of the table, with every column; renders for answers of do_compare with weights below 2^127."},
 {"property": "C64", "status": "proved", "theorems": ["C64_ids"], "note": "Complete; the condition on dots holds for Rust identifiers."},
 {"property": "C65", "status": "proved", "theorems": ["C65_markup", "C65_refuted"], "note": "Proved under the condition that no text has markup; C65_refuted: a branch name with markup is put on the page unescaped."},
 {"property": "C66", "status": "proved", "theorems": ["C66_trim", "C66_answer"], "note": "Complete, on top of the model of compare_commits; git is any function."},
 {"property": "C67", "status": "proved", "theorems": ["C67_start", "C67_failure", "C67_missing", "C67_path", "C67_absolute", "C67_below_refuted"], "note": "Complete; C67_missing assumes that git cannot be run in a missing directory. C67_absolute, C67_below_refuted: an absolute name leaves the root."},
 {"property": "C68", "status": "proved", "theorems": ["C68_read", "C68_encoded", "C68_once", "C68_answer", "C68_success"], "note": "Complete for bytes; the texts of the errors of serde are shortened, html_escape::decode_html_entities is any function."},
 {"property": "C69", "status": "proved", "theorems": ["C69_redirect", "C69_empty_refuted"], "note": "Complete; C69_empty_refuted: an empty value is refused."},
 {"property": "C70", "status": "proved", "theorems": ["C70_offered", "C70_root", "C70_mr", "C70_root_refuted", "C70_mr_refuted"], "note": "Proved for names without & # + % and control characters; refuted for the others by C70_root_refuted and C70_mr_refuted."},
 {"property": "C71", "status": "proved", "theorems": ["C71_repos", "C71_units", "C71_methods", "C71_option", "C71_inputs", "C71_blank_refuted"], "note": "Complete; C71_blank_refuted for names of repositories with blanks."},
 {"property": "C72", "status": "proved", "theorems": ["C72_root", "C72_mr", "C72_capital_refuted"], "note": "Complete; C72_capital_refuted: a repository with a capital letter cannot be used from the root page."},
 {"property": "C73", "status": "proved", "theorems": ["C73_regression", "C73_improvement", "C73_real", "C73_nan_refuted", "C73_exact_refuted", "C73_fine_refuted", "C73_asymptotic_refuted", "C73_names_refuted", "C73_quadratic_refuted"], "note": "Proved for exact-worst and guess-worst under the conditions named in the statement. C73_*_refuted show that the rounding margin, three decimals, the method, distinct names and the absence of squares are needed, and that a tiny growth can be shown as NaN."},
 {"property": "C74", "status": "proved", "theorems": ["C74_source", "C74_template", "C74_underscore_refuted"], "note": "Regressions only; improvements and soundness are proved at the level of equations (C73). C74_underscore_refuted for names with underscores."},
 {"property": "C75", "status": "proved", "theorems": ["C75_trees", "C75_table", "C75_web"], "note": "Regressions in files whose functions follow the benchmarking template, under the conditions of C74. A row may also say that the comparison failed."},
 {"property": "C76", "status": "proved", "theorems": ["C76_program", "C76_server", "C76_serial", "C76_answer", "C76_own", "C76_alias_refuted"], "note": "For repositories with a directory of their own (C76_own says when); C76_alias_refuted: two names of one directory. Commands other than git's, and other programs that use the directories, are not modelled."},
 {"property": "C77", "status": "proved", "theorems": ["C77_newest", "C77_regression", "C77_pull_refuted"], "note": "For remote repositories that do not change meanwhile, and under the conditions of C75. C77_pull_refuted: without a pull, old commits are compared."},
 {"property": "C78", "status": "proved", "theorems": ["C78_items", "C78_expr", "C78_unambiguous", "C78_layout"], "note": "Complete for the grammar in SpecText.v; that syn agrees with it is in the trusted base. All nine files of test_data are read by it."},
 {"property": "C79", "status": "proved", "theorems": ["C79_reader", "C79_trees", "C79_web"], "note": "The parser is a parameter; its agreement with the grammar is a hypothesis, met by the reader of C78 (C79_reader)."},
 {"property": "C80", "status": "proved", "theorems": ["C80_entries", "C80_grammar", "C80_trees", "C80_web"], "note": "The texts of three templates are taken from test_data/new/pallet_staking.rs.txt, test_data/new/staking_chromatic.rs.txt and test_data/old/pallet_staking.rs.txt (Conform.v: equal to the files, character by character), the fourth is the runtime template of Substrate's benchmarking tool; names of components without underscores and weights below 2^128 on the ranges, as in C74."},
 {"property": "C81", "status": "proved", "theorems": ["C81_newest", "C81_regression", "C81_measured", "C81_together_refuted"], "note": "git is the model of SpecGit; a name must not also be that of a tag or commit at moments when the remote repository has no such branch. C81_together_refuted: the two commits may never have been the newest ones at the same moment."},
 {"property": "C82", "status": "proved", "theorems": ["C82_page"], "note": "Joins C68, C63, C73, C76, C80 and C81; for thresholds that the query can give (integers below 2^32). The rows between the answer of the server and the page are passed by a parameter (run) whose value for this request is the one in the log of the execution."},
 {"property": "C83", "status": "proved", "theorems": ["C83_files", "C83_commits", "C83_entries"], "note": "The layout of human and markdown tables is a parameter (prettytable); with printed terms, csv is excluded since the percentage and the first term share a field (C58_terms). Thresholds are those whose double is exactly a multiple of 1/1000."},
 {"property": "C84", "status": "proved", "theorems": ["C84_corner", "C84_least", "C84_worst_refuted", "C84_page", "C84_files", "C84_commits"], "note": "The version without the function either has weight files of the template in which it does not occur, or files that cannot be read. C84_worst_refuted: exact-worst shows 13 for an added function whose weight goes up to 310."},
 {"property": "C85", "status": "proved", "theorems": ["C85_names", "C85_picoseconds"], "note": "The scope is not used by the commands themselves, which take 25 and 100 microseconds (C21); it is part of the library. C85_ex shows that the file of RocksDB gives just these numbers."},
 {"property": "C86", "status": "proved", "theorems": ["C86_arguments", "C86_order", "C86_files", "C86_commits", "C86_weight_refuted", "C86_change_refuted"], "note": "clap 4.5.16 is modelled from its documented rules and source as far as these options use it (trusted). Not covered: the arguments of parse files, help texts, error messages, arguments that are not valid UTF-8. The reader of numbers is a parameter that reads the default 5."},
 {"property": "C87", "status": "proved", "theorems": ["C87_offered", "C87_filled", "C87_unfilled", "C87_repo", "C87_compare", "C87_waiting", "C87_patient", "C87_order_refuted", "C87_null_refuted", "C87_remembered_refuted", "C87_last_repo", "C87_overlay_refuted", "C87_once_refuted"], "note": "web/static/root.js as a machine of events with the selection boxes, the branch cache, the local storage and the requests under way; the specification reads only the list of events. Five expected statements are refuted (C87_order_refuted, C87_null_refuted, C87_remembered_refuted, C87_overlay_refuted, C87_once_refuted)."},
 {"property": "C88", "status": "proved", "theorems": ["C88_arguments", "C88_order", "C88_names", "C88_serves", "C88_no_panic", "C88_none", "C88_commas_refuted"], "note": "clap 4.5.16 as in C86, with the table of options of the web server (WebArgsM). Whether the address can be bound and the TLS files can be read is not modelled. C88_commas_refuted: names are not split at commas."},
 {"property": "C89", "status": "proved", "theorems": ["C89_listed", "C89_choice", "C89_rows", "C89_deleted", "C89_open", "C89_all_refuted", "C89_markup_refuted", "C89_case_refuted"], "note": "web/static/merge_requests.js as functions of the address, the answer of GitHub and the answer of the server. Texts are bytes; toLocaleDateString is a parameter; the sorting of the shown rows by the table library is not modelled. Three expected statements are refuted (C89_all_refuted, C89_markup_refuted, C89_case_refuted)."},
 {"property": "C90", "status": "proved", "theorems": ["C90_theme", "C90_rest", "C90_plain", "C90_system_refuted", "C90_restored_refuted"], "note": "Holds for pages whose switch is off when they come (fresh); C90_restored_refuted shows the other case. C90_system_refuted: the page does not follow a later change of the system's preference. The model takes a class attribute as a list of classes."},
 {"property": "C91", "status": "proved", "theorems": ["C91_link", "C91_kept", "C91_blank_refuted"], "note": "The table library is modelled by its lookup of rows by id; its treatment of other texts is an arbitrary function (css). C91_blank_refuted: the condition on the characters cannot be dropped."},
 {"property": "C92", "status": "proved", "theorems": ["C92_shown", "C92_real", "C92_source", "C92_source_real", "C92_web"], "note": "The counterpart of C73 for Base, ExactAsymptotic and Asymptotic; no condition on powers. C73_asymptotic_refuted shows that one corner does not see every regression in the ranges."}
]}
