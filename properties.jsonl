{"id": "C01", "title": "Evaluating a weight equation is exact integer arithmetic", "statement": "SimpleTerm::eval of an equation in a scope whose variables are all bound to numbers returns exactly the value of the polynomial over the unbounded naturals whenever no intermediate result reaches 2^128; in a build with overflow checks an intermediate result of 2^128 or more panics, and in a release build the result is the polynomial value modulo 2^128.", "quantifier": "every term, every scope binding variables to scalars, both build modes", "why_tests_cant": "terms are unbounded trees over 2^128 values; tests evaluate a handful", "anchors": ["core/src/term.rs: SimpleTerm::eval", "core/src/traits.rs"]}
{"id": "C02", "title": "Evaluation fails exactly on an unbound variable, and names one", "statement": "SimpleTerm::eval in a scope of numbers returns Err exactly when some variable of the term is not in the scope (absent an overflow panic), and the message names the leftmost such variable; it never returns a number for such a term.", "quantifier": "every term and every scope of scalars", "why_tests_cant": "all tree shapes and all subsets of bound variables", "anchors": ["core/src/term.rs: SimpleTerm::eval, free_vars"]}
{"id": "C03", "title": "Evaluation terminates unless the scope is cyclic", "statement": "SimpleTerm::eval in any scope, including scopes whose variables are bound to further equations, terminates unless the variables reachable from the term form a cycle of definitions; look-up chains longer than the scope prove a cycle, so the recursion either finishes with at most (number of variables) nested look-ups or never finishes.", "quantifier": "every term, every scope of arbitrary terms", "why_tests_cant": "non-termination cannot be observed by a finite test", "anchors": ["core/src/term.rs: SimpleTerm::eval", "core/src/scope.rs: Scope::get"]}
{"id": "C04", "title": "free_vars and bound_vars split the variables of a term", "statement": "For every term and scope, free_vars and bound_vars are disjoint, their union is exactly the set of variables occurring in the term, bound_vars are exactly those the scope defines, both are sorted without duplicates, and fmt_equation never panics.", "quantifier": "every term and scope", "why_tests_cant": "all trees and all scopes", "anchors": ["core/src/term.rs: free_vars, bound_vars, fmt_equation"]}
{"id": "C05", "title": "Substitution equals evaluating in an extended scope", "statement": "In every scope in which no other variable's definition mentions v (in particular in every scope of numbers), evaluating t.into_substituted(v, s) gives the same outcome as evaluating t in the scope with v bound to s's value; substitution leaves every other variable untouched, and v does not occur in the result unless it occurs in s. In a scope where the definition of another variable uses v, the two can differ, because substitution does not reach into definitions.", "quantifier": "every term, variable name, replacement term and scope whose other definitions do not mention the variable", "why_tests_cant": "substitution lemma over all trees", "anchors": ["core/src/term.rs: substitute, into_substituted"]}
{"id": "C06", "title": "A scope is a last-write-wins map", "statement": "After any sequence of put_var/with_var/merge/extend, get returns the value of the latest write of that exact name, merge and extend are right-biased unions, with_var does not change the receiver, len counts distinct names and as_vec lists each binding once in ascending name order.", "quantifier": "every sequence of operations and every name", "why_tests_cant": "histories of arbitrary length", "anchors": ["core/src/scope.rs: Scope::{put_var,with_var,get,merge,extend,len,is_empty,as_vec}"]}
{"id": "C07", "title": "Splitting a two-dimensional equation commutes with evaluating it", "statement": "For every ChromaticTerm and scope on which ChromaticTerm::eval succeeds with weight w, simplifying to Time (Proof) and evaluating gives exactly w.time (w.proof). simplify never fails or panics.", "quantifier": "every chromatic term, every chromatic scope, both dimensions", "why_tests_cant": "all trees and scopes", "anchors": ["core/src/term.rs: ChromaticTerm::{eval,simplify,for_values}"]}
{"id": "C08", "title": "Lifting a one-dimensional equation is faithful in its own dimension", "statement": "into_chromatic(unit) followed by simplify(unit) evaluates to the same number as the original term; simplified to the other dimension it evaluates to zero whenever every summand contains a numeric literal. A bare variable is not zeroed in the other dimension.", "quantifier": "every simple term, scope and pair of dimensions", "why_tests_cant": "all trees and scopes", "anchors": ["core/src/term.rs: into_chromatic, scalar_into_term, simplify"]}
{"id": "C09", "title": "splice_add is addition", "statement": "Whenever both operands of splice_add evaluate, the spliced term evaluates to the component-wise sum of the two weights, for every shape of operands and every scope, and in each single dimension as well.", "quantifier": "every pair of chromatic terms and every scope", "why_tests_cant": "recursion over pairs of trees", "anchors": ["core/src/term.rs: splice_add", "core/src/parse/pallet.rs: parse_parts_args"]}
{"id": "C10", "title": "The read/write sanity warning fires exactly on literal factors above 1000", "statement": "sanity_check_term returns an error exactly when some product in the term multiplies READ or WRITE directly by an integer literal (Scalar) above 1000; the message reports the largest such factor and its kind (WRITE wins ties). A factor that was written with a cast is stored as a value and is never reported, however large: `reads(5000)` gives a warning and `reads(5000 as u64)` does not.", "quantifier": "every term", "why_tests_cant": "maximum over all sub-terms of unbounded trees", "anchors": ["core/src/lib.rs: sanity_check_term", "core/src/term.rs: find_largest_factor, visit"]}
{"id": "C11", "title": "A component is always instantiated inside its annotated range", "statement": "When a component has a range annotation in at least one version, the value chosen for it is the annotated minimum or maximum; when both versions disagree and guessing is allowed it is the smaller minimum or larger maximum, hence covers both; when none is annotated guessing uses 0 and 100. The choice does not depend on which version is called old.", "quantifier": "every component, pair of range tables, method", "why_tests_cant": "all u32 ranges and all combinations of presence", "anchors": ["core/src/lib.rs: instance_component, CompareMethod::{min,max}"]}
{"id": "C12", "title": "Exact methods fail exactly on missing or conflicting ranges and otherwise agree with the guessing methods", "statement": "extend_scoped_components with ExactWorst (ExactAsymptotic) returns Err exactly when there are more than 16 components or some free component has no range or two different ranges; whenever it succeeds GuessWorst (Asymptotic) returns the identical list of scopes. The guessing methods and Base fail only on more than 16 components.", "quantifier": "every pair of extrinsics, every base scope", "why_tests_cant": "all component sets and range tables", "anchors": ["core/src/lib.rs: extend_scoped_components, instance_component, CompareMethod"]}
{"id": "C13", "title": "The evaluated scopes are exactly the corners of the component box", "statement": "extend_scoped_components returns, in strictly ascending order and without duplicates, exactly the scopes that extend the base scope by assigning every free component either its lower or its upper instance, every combination once; at most 2^n of them and at least one.", "quantifier": "every pair of extrinsics, method and non-empty base scope with n <= 16 free components", "why_tests_cant": "2^n corners for arbitrary component sets", "anchors": ["core/src/lib.rs: extend_scoped_components"]}
{"id": "C14", "title": "Comparison results do not depend on hash iteration order", "statement": "The iteration order of the HashSet of components, which is randomised per process, affects neither whether extend_scoped_components succeeds nor the list of scopes it returns, hence neither the result of compare_extrinsics; only the text of the error message may depend on it.", "quantifier": "every pair of iteration orders of the component set, every input", "why_tests_cant": "the hash seed is random per run, tests see one order per run", "anchors": ["core/src/lib.rs: extend_scoped_components (HashSet)"]}
{"id": "C15", "title": "compare_extrinsics never panics on inputs that have an extrinsic", "statement": "If at least one version is present and no arithmetic overflow happens, compare_extrinsics returns Ok or Err and never panics: every produced scope binds every free variable, there is at least one scope, and all per-scope results are of one category. With neither version it panics.", "quantifier": "every pair of optional extrinsics, method, dimension and hash order", "why_tests_cant": "reachability of four panic sites over all inputs", "anchors": ["core/src/lib.rs: compare_extrinsics, extend_scoped_components"]}
{"id": "C16", "title": "The reported change is the worst corner", "statement": "When both versions exist, the TermChange returned by compare_extrinsics is the comparison at one of the evaluated corners, and its relative change (in thousandths of a percent, as ordered by the tool) is at least that of every other corner; ties are resolved to the last corner in scope order.", "quantifier": "every pair of extrinsics, method, dimension", "why_tests_cant": "maximum over up to 2^16 corners for arbitrary terms", "anchors": ["core/src/lib.rs: compare_extrinsics, TermChange::cmp"]}
{"id": "C17", "title": "For equations affine in every component, no interior point is worse than the reported one", "statement": "If neither equation multiplies a component by itself (each is affine in every single component), and values stay up to 2^53 on the box, then for every integer assignment of the components inside the box at which not both are 0 the relative change there, computed the way the tool computes it, is at most the one reported by ExactWorst/GuessWorst. If an equation is quadratic in a component the claim is false.", "quantifier": "every pair of multi-affine terms, every box, every integer point of it", "why_tests_cant": "universally quantified over boxes with up to 2^512 points", "anchors": ["core/src/lib.rs: compare_extrinsics", "README.md: Evaluation Method / Exact Worst"]}
{"id": "C18", "title": "Base is the minimum and Asymptotic the maximum value over the component box", "statement": "Since weight equations have no subtraction, the value reported by Base (all components at their lower instance) is at most, and the value reported by Asymptotic/ExactAsymptotic (all at their upper instance) is at least, the equation's value at every point of the box, in builds with overflow checks. In a build without them the maximum can wrap around and be reported smaller than an inner value.", "quantifier": "every term, box and integer point", "why_tests_cant": "monotonicity over all terms and points", "anchors": ["core/src/lib.rs: CompareMethod::{min,max}, compare_extrinsics", "core/src/term.rs: eval"]}
{"id": "C19", "title": "Change kinds are decided by presence and equality only", "statement": "A comparison is reported Added exactly when only the new version exists, Removed exactly when only the old one exists, Unchanged exactly when both exist and the equations are structurally equal up to underscores in variable names, and Changed otherwise, whatever the numeric values, the method and the scope. Swapping old and new exchanges Added and Removed and keeps Changed and Unchanged.", "quantifier": "every pair of optional extrinsics, method and dimension", "why_tests_cant": "all term pairs", "anchors": ["core/src/lib.rs: compare_terms, RelativeChange::new", "core/src/term.rs: VarValue::eq"]}
{"id": "C20", "title": "A range annotation reaches the component it names", "statement": "A component whose name contains no underscore and which is annotated with a range is instantiated from that range. For a component whose name contains an underscore the annotation is stored under a different name, so exact methods fail and guessing methods use 0 and 100: the full statement is false.", "quantifier": "every component name, annotation and term", "why_tests_cant": "names are arbitrary strings", "anchors": ["core/src/parse/pallet.rs: parse_component_attrs", "core/src/lib.rs: instance_component"]}
{"id": "C21", "title": "Storage operations do not count in the proof dimension", "statement": "In the Proof dimension the reported old and new values are those of the equations with every READ and WRITE taken as 0; in the Time dimension READ is 25_000_000 and WRITE is 100_000_000 and the equations are reported unmodified.", "quantifier": "every pair of extrinsics and method", "why_tests_cant": "all terms", "anchors": ["core/src/lib.rs: compare_extrinsics", "core/src/scope.rs: with_storage_weights"]}
{"id": "C22", "title": "Special values of the relative change", "statement": "percent(old,new) is NaN exactly when both are 0, +infinity exactly when only old is 0, exactly 0 when old = new > 0, exactly -100 when new = 0 < old, and otherwise a finite number not below -100; it is never -infinity.", "quantifier": "every pair of u128 values", "why_tests_cant": "2^256 pairs", "anchors": ["core/src/lib.rs: percent"]}
{"id": "C23", "title": "The relative change is monotone", "statement": "For fixed old > 0 percent is non-decreasing in new, for fixed new > 0 it is non-increasing in old, it is >= 0 when new >= old and <= 0 when new <= old; below 2^53 it is monotone in the exact ratio new/old.", "quantifier": "every triple of u128 values", "why_tests_cant": "2^384 triples and four roundings", "anchors": ["core/src/lib.rs: percent"]}
{"id": "C24", "title": "The relative change is accurate", "statement": "For old > 0 the computed percentage differs from the exact value 100*(new-old)/old by at most 2^-48 times (100*new/old + 100).", "quantifier": "every pair of u128 values with old > 0", "why_tests_cant": "2^256 pairs", "anchors": ["core/src/lib.rs: percent"]}
{"id": "C25", "title": "The order on changes is a total preorder", "statement": "TermChange::cmp is reflexive, transitive, total and antisymmetric up to equal rank, also for NaN and infinite percentages: rows are ranked first by kind (Unchanged < Added < Removed < Changed), then by percentage truncated to three decimals with NaN ranking as 0.", "quantifier": "every triple of term changes", "why_tests_cant": "all floats including NaN", "anchors": ["core/src/lib.rs: TermChange::cmp"]}
{"id": "C26", "title": "compare_files reports every extrinsic exactly once", "statement": "The rows returned by compare_files are in strictly ascending (file, extrinsic) order and there is exactly one row for each pair that occurs in old or new and passes both regex filters, and no other row.", "quantifier": "every pair of lists of extrinsics, every regex pair, parameters", "why_tests_cant": "lists of arbitrary length", "anchors": ["core/src/lib.rs: compare_files"]}
{"id": "C27", "title": "Each row is the comparison of the first occurrences", "statement": "The row for (file, extrinsic) is the result of comparing the first entry with that key in old against the first in new; a comparison error becomes a Failed row and never hides other rows; a sanity failure of the new (else old) equation becomes a Warning carrying the same change. Later duplicates have no influence, and without duplicates the order of the inputs is irrelevant.", "quantifier": "every pair of lists of extrinsics and parameters", "why_tests_cant": "arbitrary lists, permutations and duplicates", "anchors": ["core/src/lib.rs: compare_files"]}
{"id": "C28", "title": "Comparing a version with itself reports no change", "statement": "compare_files(x, x) reports every row that is not Failed as Unchanged, and filtering with any threshold of at least 0.000001 leaves only Failed rows.", "quantifier": "every list of extrinsics, parameters, thresholds", "why_tests_cant": "arbitrary lists", "anchors": ["core/src/lib.rs: compare_files, filter_changes"]}
{"id": "C29", "title": "filter_changes keeps exactly the relevant rows in order", "statement": "filter_changes returns the sub-list, in the original order, of the rows that are Failed, or whose kind is selected and which are Added/Removed, or Unchanged with threshold below 0.000001, or Changed with |percent| not below the threshold. It is idempotent, and raising a (non-NaN) threshold only removes rows.", "quantifier": "every list of rows and filter parameters", "why_tests_cant": "arbitrary lists and floats", "anchors": ["core/src/lib.rs: filter_changes, FilterParams::included"]}
{"id": "C30", "title": "A kept Changed row has at least the threshold", "statement": "Every Changed row with a comparable percentage kept by filter_changes has |percent| >= threshold. A row with NaN percentage (both values 0) is kept whatever the threshold, so the statement is false without the restriction.", "quantifier": "every row and threshold", "why_tests_cant": "all floats", "anchors": ["core/src/lib.rs: filter_changes, percent"]}
{"id": "C31", "title": "sort_changes is a stable sort with failures first", "statement": "For every execution of the standard library's merge sort, sort_changes returns a permutation of the rows in which all Failed rows precede all others, the others are in non-descending order of (kind, percentage) and rows of equal rank keep their relative order, even though the comparison ranks two failures as Less in both directions.", "quantifier": "every list of rows and every run structure of the sort", "why_tests_cant": "comparison is not a total order; arbitrary lengths", "anchors": ["core/src/lib.rs: sort_changes, TermDiff::cmp"]}
{"id": "C32", "title": "The command line shows the worst offender first", "statement": "For compare files/commits the printed table lists all failures first, then the remaining rows in non-ascending order, so the first non-failed row is one of maximal rank among all rows that pass the filter; every row passing the filter is printed exactly once.", "quantifier": "every diff, filter and sort execution", "why_tests_cant": "arbitrary lists", "anchors": ["cli/src/main.rs: main, print_changes_human", "core/src/lib.rs: filter_changes, sort_changes"]}
{"id": "C33", "title": "Parsed equations mean what the Rust weight function computes", "statement": "If handle_method accepts a weight function whose body is a well-typed weight expression in which every constructor argument has a literal in each summand and no proof size is computed from storage accesses, then for every component assignment (without saturation) the parsed equation evaluates to the function's reference time in the Time dimension and to its proof size in the Proof dimension.", "quantifier": "every expression tree of the accepted language, every assignment", "why_tests_cant": "unbounded ASTs and assignments", "anchors": ["core/src/parse/pallet.rs: handle_method, parse_expression, parse_scalar_expression, parse_call, parse_method_call, parse_rw"]}
{"id": "C34", "title": "A variable inside a constructor leaks into the other dimension", "statement": "For Weight::from_parts(c, x) with a variable x the Time dimension should not depend on x; it does: the unguarded form of the previous property is false.", "quantifier": "every assignment of x", "why_tests_cant": "witness for the unrestricted claim", "anchors": ["core/src/parse/pallet.rs: parse_parts_args", "core/src/term.rs: into_chromatic"]}
{"id": "C35", "title": "Parentheses, casts and conversions do not change the parsed equation", "statement": "Wrapping any sub-expression, other than the database handle on which reads and writes are called and the name of a called function, in parentheses, in `as T` or in `.into()` does not change the equation returned by parse_expression and parse_scalar_expression on it (the same tree, up to writing a scalar as a value); a literal argument of reads/writes wrapped in a cast keeps its value but changes from scalar to value.", "quantifier": "every expression and nesting depth", "why_tests_cant": "unbounded nesting", "anchors": ["core/src/parse/pallet.rs: parse_expression, parse_scalar_expression, parse_rw"]}
{"id": "C36", "title": "The component range comment round-trips", "statement": "For every component name of ASCII word characters and every min <= max <= u32::MAX, written in decimal with underscores at any position, a doc comment containing 'The range of component `c` is `[min, max]`.' is parsed to exactly (c, min, max); a comment with min > max or a bound above u32::MAX is an error; a comment without such text is ignored.", "quantifier": "every name, pair of bounds and digit grouping", "why_tests_cant": "2^64 pairs and all groupings", "anchors": ["core/src/parse/pallet.rs: parse_component_attr, parse_component_attrs"]}
{"id": "C37", "title": "Parsing never aborts on integer-only weight files", "statement": "Parsing any syntactically valid file in which every literal in a weight body is an integer of at most 128 bits and each one-statement weight body is an expression returns Ok or Err and never panics. A float or string literal, or a single non-expression statement, panics even with ignore_errors.", "quantifier": "every item list", "why_tests_cant": "all ASTs", "anchors": ["core/src/parse/pallet.rs: lit_to_value, handle_method, parse_content"]}
{"id": "C38", "title": "A file yields the functions of its first usable implementation, in order", "statement": "parse_content returns the weight functions, all of them and in source order, of the first impl block for (), WeightInfo or SubstrateWeight whose functions all parse; it fails exactly when there is none or the text is not a Rust file. Every returned entry carries the given pallet name.", "quantifier": "every list of items", "why_tests_cant": "arbitrary files", "anchors": ["core/src/parse/pallet.rs: parse_content, handle_item"]}
{"id": "C39", "title": "ignore_errors only drops failing files", "statement": "parse_files succeeds exactly when every file parses and then returns the concatenation in argument order; try_parse_files returns the concatenation of the files that parse; both agree when all files parse, and the error reported by parse_files is that of the first failing file.", "quantifier": "every list of files and every per-file outcome", "why_tests_cant": "arbitrary lists", "anchors": ["core/src/parse/pallet.rs: parse_files, try_parse_files, parse_files_in_repo, try_parse_files_in_repo"]}
{"id": "C40", "title": "Only known database handles count as storage access", "statement": "reads/writes are accepted only on a call without arguments to T::DbWeight::get or a path ending in RocksDbWeight::get or ParityDbWeight::get, take exactly one argument, and then denote argument times READ (WRITE).", "quantifier": "every receiver expression and argument list", "why_tests_cant": "all ASTs", "anchors": ["core/src/parse/pallet.rs: validate_db_call, validate_db_func, parse_method_call"]}
{"id": "C41", "title": "Storage weight files are read faithfully", "statement": "The storage parser returns the read and write equations of the first parameter_types! constant named RocksDbWeight/ParityDbWeight of type RuntimeDbWeight with exactly a read and a write field (in either field order), looking into modules named constants; it fails exactly when there is none or the text is not a Rust file; evaluating them gives the value of the source expression.", "quantifier": "every item tree and expression", "why_tests_cant": "all ASTs and nesting depths", "anchors": ["core/src/parse/storage.rs: parse_content, handle_item, parse_macro, parse_runtime_db_weight, parse_expression"]}
{"id": "C42", "title": "Overhead weight files are read faithfully", "statement": "The overhead parser returns BlockExecution (ExtrinsicBase) with the equation of the first parameter_types! constant of that name and of type Weight, looking into modules named constants; its Time value is that of the source expression.", "quantifier": "every item tree and expression", "why_tests_cant": "all ASTs", "anchors": ["core/src/parse/overhead.rs: parse_content, handle_item, parse_macro", "core/src/term.rs: TryInto<SimpleTerm> for &ExprBinary"]}
{"id": "C43", "title": "File type detection is by fixed priority and loses nothing", "statement": "try_parse_file returns the pallet reading if the file parses as pallet, else the storage reading, else the overhead reading, and None exactly when all three fail.", "quantifier": "every file content", "why_tests_cant": "all contents", "anchors": ["core/src/parse/mod.rs: try_parse_file"]}
{"id": "C44", "title": "Repository-relative names are unique, file names are not", "statement": "RepoRelative stripping is injective on the files below the repository and prefixing the repository restores the path; FileName stripping identifies files of equal base name in different directories, so that compare files silently drops the extrinsics of the later one.", "quantifier": "every repository and pair of paths", "why_tests_cant": "all paths", "anchors": ["core/src/parse/mod.rs: PathStripping::strip", "core/src/lib.rs: compare_files"]}
{"id": "C45", "title": "list_files returns the sorted set of matching files within the limit", "statement": "On success list_files returns exactly the paths matched by some comma-separated pattern, except files named mod.rs, strictly ascending and without duplicates, at most max_files; it fails on count exactly when the number of matches counted with multiplicity exceeds max_files at some prefix, hence independently of pattern order.", "quantifier": "every pattern list, directory tree and limit", "why_tests_cant": "arbitrary trees", "anchors": ["core/src/lib.rs: list_files"]}
{"id": "C46", "title": "compare_commits runs the documented git commands and no others", "statement": "A path pattern containing '..' is rejected before any command runs; otherwise the commands executed are, in order, those for old then those for new, nothing is fetched when offline is set or git_pull is not, a hard reset is used exactly when git_force is set, and after the first failing step nothing further runs.", "quantifier": "every parameter set and every behaviour of git (any result of any command)", "why_tests_cant": "every failure point of the external program", "anchors": ["core/src/lib.rs: compare_commits, git_checkout, git_pull, git_reset, CompareParams::should_pull"]}
{"id": "C47", "title": "Old equations come from the old commit and new ones from the new commit", "statement": "If compare_commits succeeds, the compared old extrinsics were read while the repository was checked out at the old revision and the new ones at the new revision, and the working tree is left at the new revision.", "quantifier": "every repository history, every pair of revisions", "why_tests_cant": "all repositories and failure points", "anchors": ["core/src/lib.rs: compare_commits"]}
{"id": "C48", "title": "git_pull with git_force compares the newest remote commit; without git_force it does not", "statement": "With git_force and git_pull (the web configuration) and a branch name known to the remote, the compared tree is the remote's current commit of that branch. Without git_force, checkout uses the stale local branch, so the documented guarantee of --git-pull is false.", "quantifier": "every repository state", "why_tests_cant": "all states of local, tracking and remote refs", "anchors": ["core/src/lib.rs: git_checkout, git_reset, git_pull"]}
{"id": "C49", "title": "Cached answers are at most ten minutes old and only successes are cached", "statement": "For every history of requests, an answer flagged as cached equals a successful result computed for equal arguments and stored less than 600 seconds (in whole seconds) before; failures are never served from the cache; an answer not flagged was computed for this request.", "quantifier": "every request history and clock", "why_tests_cant": "histories of arbitrary length", "anchors": ["web/src/main.rs: do_compare_cached"]}
{"id": "C50", "title": "Repository access is exclusive under every schedule", "statement": "For every interleaving of any number of concurrent requests, at most one comparison is running at a time and none runs on a repository while a branches request holds that repository; some thread can always make progress unless all are finished (no deadlock).", "quantifier": "every number of threads and every schedule", "why_tests_cant": "interleavings", "anchors": ["web/src/main.rs: do_compare_cached, branches, REPOS"]}
{"id": "C51", "title": "A panicking comparison disables all later comparisons", "statement": "One would expect a request that panics to affect only itself; since the cache lock is held during the computation and is a poisoning mutex, every later compare request panics as well: the isolation claim is false.", "quantifier": "every history containing a panicking comparison", "why_tests_cant": "needs a crash in a history", "anchors": ["web/src/main.rs: do_compare_cached (#[cached(sync_writes)])"]}
{"id": "C52", "title": "The web table orders rows consistently", "statement": "The sort key of the relative-change column ranks every Removed row strictly below every Unchanged and Changed row and every Added row strictly above; within Changed rows it is non-decreasing in the percentage; the absolute-change key of Changed rows is new - old exactly whenever both values are below 2^127.", "quantifier": "every pair of rows", "why_tests_cant": "all floats and values", "anchors": ["web/src/html.rs: order_percent, order_abs"]}
{"id": "C53", "title": "Colours agree with the direction of change", "statement": "In the console and in HTML a Changed row is green exactly when the percentage is negative, red exactly when it is positive, neutral when it is 0 or NaN; the absolute column is green exactly when new < old and red exactly when new > old for values below 2^127.", "quantifier": "every row", "why_tests_cant": "all floats and values", "anchors": ["cli/src/main.rs: color_percent", "web/src/html.rs: html_color_percent, html_color_abs"]}
{"id": "C54", "title": "Branch listing keeps every ref", "statement": "For well-formed ls-remote output every line without '{' or '^' yields exactly one entry, in order, with the first 12 digits of its commit hash and its ref name without the refs/heads/ or refs/tags/ prefix; a ref name containing refs/heads/ again is mangled. A line with fewer than two fields or a hash shorter than 12 panics.", "quantifier": "every list of lines", "why_tests_cant": "arbitrary outputs", "anchors": ["web/src/main.rs: branches"]}
{"id": "C55", "title": "The version check accepts exactly the running version", "statement": "/version?is=v answers 200 exactly when v is the running version or the running version with every '+' replaced by a space, otherwise 500.", "quantifier": "every string", "why_tests_cant": "all strings", "anchors": ["web/src/main.rs: version"]}
{"id": "C56", "title": "Formatted quantities use the right unit and two correct decimals", "statement": "fmt_time, fmt_proof and fmt_scalar choose the largest unit not above the value, and the printed number differs from the exact quotient by at most half a hundredth plus one part in 2^51; within a unit they are monotone.", "quantifier": "every u128 value", "why_tests_cant": "2^128 values", "anchors": ["core/src/lib.rs: Dimension::{fmt_time,fmt_proof,fmt_scalar}"]}
{"id": "C57", "title": "The displayed equation denotes the equation", "statement": "Reading back the text shown for a term whose numbers are below 1000 and which contains no zero constant, with the usual precedence of + and *, gives an equation of the same value in every scope. For terms with zero constants the text can denote a different value (a zero factor or a bracket is lost). A chromatic weight is shown as its time and its proof size in brackets.", "quantifier": "every term and scope", "why_tests_cant": "all trees", "anchors": ["core/src/term.rs: Display, fmt_with_bracket, maybe_fmt_with_bracket"]}
{"id": "C58", "title": "CSV rows have as many fields as the header", "statement": "Without --print-terms every CSV row has exactly the five fields of the header provided file and extrinsic names contain no comma and no line end, and failed rows are omitted. With --print-terms rows have fewer fields than the header: a separator is missing.", "quantifier": "every diff", "why_tests_cant": "arbitrary rows", "anchors": ["cli/src/main.rs: print_changes_csv"]}
{"id": "C59", "title": "Names of methods, dimensions and change kinds round-trip", "statement": "from_str accepts exactly the strings listed by variants (and the alias weight for time), reflect pairs each listed name with the value from_str gives it, and unknown strings are rejected.", "quantifier": "every string", "why_tests_cant": "all strings", "anchors": ["core/src/lib.rs: FromStr for CompareMethod, Dimension, RelativeChange; reflect"]}
{"id": "C60", "title": "The parse command succeeds exactly when every file can be read", "statement": "parse files prints its success message exactly when every listed file is parsed, and fails otherwise; one would expect the number in the message to be the number of files, but it is the number of weight functions found in them, so that claim is false.", "quantifier": "every list of files and file system", "why_tests_cant": "arbitrary files", "anchors": ["cli/src/main.rs: main (SubCommand::Parse)"]}
{"id": "C61", "title": "The organisation is read from GitHub URLs only", "statement": "The organisation of a repository is found exactly for remote URLs https://github?com/ORG/... with a non-empty ORG without slash, where ? is any character but a line end; one would expect only a dot there, so the claim for the host name is false.", "quantifier": "every URL", "why_tests_cant": "all strings", "anchors": ["web/src/git.rs: Org detection (origin_org)"]}
{"id": "C62", "title": "Escaped text is shown literally and is never markup", "statement": "For every text, its escaped form contains none of < > \" ' and a browser that replaces the character references shows exactly that text; escaping is injective.", "quantifier": "every string", "why_tests_cant": "all strings", "anchors": ["web/templates/compare.stpl (<%= %>, sailfish escape)"]}
{"id": "C63", "title": "The result page shows every row once", "statement": "For every diff, the body of the table consists of one table row for each row of the diff that did not fail, in order, each with the nine cells of the head in the right columns; all errors and warnings are listed; and the page of every answered request renders without panic if all weights are below 2^127.", "quantifier": "every diff", "why_tests_cant": "arbitrary tables", "anchors": ["web/templates/compare.stpl:108-195"]}
{"id": "C64", "title": "Links to rows are unambiguous", "statement": "In the answer to every request no two rows have the same file and name, and if extrinsic names contain no dot, no two rows have the same anchor.", "quantifier": "every request and repository", "why_tests_cant": "arbitrary tables", "anchors": ["web/templates/compare.stpl:156-167", "core/src/lib.rs: compare_files"]}
{"id": "C65", "title": "Row structure does not depend on data", "statement": "If versions, repository, organisation, file, extrinsic and component names have no markup characters, the numbers of < > \" ' in a table row depend only on its values. One would expect this for every branch name git allows; it is false, since versions are put into links unescaped (script injection).", "quantifier": "every row and argument", "why_tests_cant": "arbitrary strings", "anchors": ["web/templates/compare.stpl", "web/src/html.rs: code_link"]}
{"id": "C66", "title": "A web answer is the relevant part of the comparison of the trimmed versions", "statement": "For every request, the rows of the answer are exactly the rows of the comparison of the two versions without surrounding blanks that are relevant for the given threshold and filters, sorted like the table of the command line; versions are always reset by force and pulled unless git_pull=false.", "quantifier": "every request, repository and git behaviour", "why_tests_cant": "arbitrary inputs", "anchors": ["web/src/main.rs: do_compare_cached"]}
{"id": "C67", "title": "The web server starts exactly when its repositories are usable", "statement": "The server starts if and only if at least one repository is named, git reports a GitHub organisation for each of them, their directories exist and the static directory exists; it then knows exactly the named repositories with their paths and organisations. Otherwise it stops with a message about the first problem, and the message about a missing directory can never appear since git is run there first. One would expect every repository to lie below the root path; absolute names make this false.", "quantifier": "every list of names, file system and git behaviour", "why_tests_cant": "arbitrary file systems", "anchors": ["web/src/main.rs: main", "web/src/git.rs: get_origin_org"]}
{"id": "C68", "title": "A request is read as the arguments it encodes", "statement": "A query string yields comparison arguments exactly if, after URL decoding, every required field occurs once with a readable value, optional fields at most once, and unknown fields are ignored; every list of pairs that a browser encodes is read back unchanged. A request that asks for no known repository is answered with status 500 without running a comparison, an error of the comparison with status 500 and the escaped message, and a result with status 200 and its page.", "quantifier": "every query string, set of repositories and result", "why_tests_cant": "all strings", "anchors": ["web/src/main.rs: CompareArgs, compare"]}
{"id": "C69", "title": "Changing one setting changes exactly that argument", "statement": "Redirecting from a result page with a new value for one argument gives a request with that value and all other arguments unchanged, whatever characters the values contain. One would expect every value to be reachable; it is false for the empty text, which is refused.", "quantifier": "every query, argument and value", "why_tests_cant": "all strings", "anchors": ["web/static/table.js: url_redirect"]}
{"id": "C70", "title": "A link compares the versions that were chosen", "statement": "For branch names without & # + % and control characters, the links of the root page and of merge requests ask for exactly the chosen versions with the default settings. For other branch names that git allows the claim is false: another comparison is shown.", "quantifier": "all pairs of branch names", "why_tests_cant": "all strings", "anchors": ["web/static/root.js: bthPost", "web/static/merge_requests.js", "web/static/common.js"]}
{"id": "C71", "title": "The settings on the result page are those of the request", "statement": "The result page shows the versions, the pattern, the filters, the threshold and the flags of the request, and in each selection lists every value once with exactly the requested one selected, provided repository names have no blanks; with blanks the page has no option for the repository.", "quantifier": "every request", "why_tests_cant": "all strings", "anchors": ["web/templates/compare.stpl:24-105"]}
{"id": "C72", "title": "Every repository can be chosen on the root page", "statement": "The root page has one option for every repository, with its name as text and the name in lower case as value, and so has the page of merge requests with organisation and name. One would expect every choice to be a known repository; it is false for names with capital letters.", "quantifier": "every list of repositories", "why_tests_cant": "all strings", "anchors": ["web/templates/root.stpl:43-48", "web/templates/merge_requests.stpl:49-53"]}
{"id": "C73", "title": "No regression is missed and none is invented", "statement": "If at any point within the ranges of the components the weight has grown by at least the threshold plus the rounding error of the percentage, then with the methods exact-worst and guess-worst the filtered table has a row for that extrinsic that says that it failed or shows at least the threshold and, up to two thousandths, at least the change at that point; if the weight fell by the threshold everywhere, that is shown too; and every shown change is the change at some point of the ranges. It is proved for equations without squares, with names that are not equal up to underscores, thresholds of at most three decimals, and weights below 2^128; growth from 0 counts as infinite, and percentages above 2^100 as 2^100. Without a threshold, a row that shows no number can stand for a growth below two thousandths of a percent. Without the margin for rounding, with squares, with names equal up to underscores, with finer thresholds, or with the default method of the web page, it is false.", "quantifier": "every pair of equation lists, threshold, point of the box and hash order", "why_tests_cant": "all points of all boxes, real-valued changes", "anchors": ["core/src/lib.rs: compare_files, compare_terms, filter_changes, percent"]}
{"id": "C74", "title": "No regression in the source of a weight function is missed", "statement": "Regressions are shown, under the conditions of C73, when the weights are what the two Rust weight functions return for parameters within their annotated ranges, if no name has an underscore and the arguments of the weight constructors contain literals, as in the templates; weights of either version are meant. One would expect it for all names; it is false, since the range of a component with an underscore is lost.", "quantifier": "every pair of weight functions and all parameters in range", "why_tests_cant": "all function bodies and annotations", "anchors": ["core/src/parse/pallet.rs", "core/src/lib.rs: compare_files"]}
{"id": "C75", "title": "No regression between two commits is missed", "statement": "Regressions are shown, under the conditions of C74, for functions in files that match the pattern in the trees of two commits, if the functions of the file are as the template writes them, have distinct names, and all matches lie within the repository: the row is in the printed table of the command line, and in the answer of the web server for the newest commits of two unambiguous branches of the remote repository, if pulling was not switched off.", "quantifier": "every repository, request and file system", "why_tests_cant": "arbitrary repositories", "anchors": ["core/src/lib.rs: compare_commits", "cli/src/main.rs: print_changes", "web/src/main.rs: do_compare_cached"]}
{"id": "C76", "title": "A comparison is not disturbed by other requests", "statement": "While a comparison runs git and reads the files of its directory step by step, other requests are served, list branches, and run git in other directories. For every interleaving of all these steps, the results that the server computes, and so all results it answers, are those of whole comparisons and branch commands one after the other, in the order in which the comparisons ended; and when none is going on, the directories are in the state after them. It is proved if no two repositories share a directory, which holds if they are named like directories below the root. For two names of one directory, which the server accepts, it is false: another request can change the branches between the two commits.", "quantifier": "every behaviour of git and of the disk, all requests and all interleavings of single steps", "why_tests_cant": "all schedules of unboundedly many requests", "anchors": ["web/src/main.rs: do_compare_cached, branches", "core/src/lib.rs: compare_commits"]}
{"id": "C77", "title": "Every answer of the server is about the newest commits and shows every regression", "statement": "If the remote repositories do not change while the server runs, then every table it answers, computed or cached, for a request that does not switch off pulling and names two unambiguous branches of the remote repository, is that of comparing the trees of the newest commits of the two branches, whatever requests were served before or at the same time; and a regression in the source code of a weight function between these commits is shown in it, under the conditions of C75. With pulling switched off it is false.", "quantifier": "all requests, all interleavings, every repository and file system", "why_tests_cant": "all schedules, repositories and points of the ranges", "anchors": ["web/src/main.rs: compare, do_compare_cached, branches", "core/src/lib.rs: compare_commits, git_reset"]}
{"id": "C78", "title": "The text of a weight file has one meaning", "statement": "A reader of source texts accepts exactly the texts of a small grammar of Rust, which covers the weight files of the repository, and returns the syntax trees they denote; no text denotes two; and texts that differ only in layout, comments that are not documentation, and underscores or type suffixes of numbers denote the same.", "quantifier": "all texts and syntax trees", "why_tests_cant": "all strings", "anchors": ["core/src/parse/pallet.rs: parse_content", "core/src/parse/overhead.rs: parse_content", "core/src/parse/storage.rs: parse_content", "core/src/parse/mod.rs: read_file"]}
{"id": "C79", "title": "No regression between the texts of two commits is missed", "statement": "C75 with the texts of the files instead of their syntax trees, for every parser of Rust that reads the texts of the grammar of C78 as that says whenever it accepts them; the reader of C78 is one.", "quantifier": "every parser that agrees with the grammar, every repository, request and file system", "why_tests_cant": "arbitrary texts", "anchors": ["core/src/parse/mod.rs: try_parse_file, parse_files", "core/src/parse/pallet.rs: parse_file", "core/src/lib.rs: compare_commits", "web/src/main.rs: do_compare_cached"]}
{"id": "C80", "title": "No regression between the measurements behind two commits is missed", "statement": "For all measurements of the functions of a pallet (base weights, slopes, reads, writes and proof sizes, ranges of components), the file that Substrate's template writes for them is in the grammar of C78 and read as one equation per function with the measured numbers and ranges. If the weight that the measurements give at some point of the ranges has grown by the threshold from one commit to another, then the table and the web answer show it, under the conditions of C73 and C75. There are four templates, two for pallets and two for runtimes; three are those of the files in test_data, one writes weights of the first version, which are plain numbers. The two commits can use different ones. Numbers can be grouped by underscores in any way, comments are arbitrary if they contain no range.", "quantifier": "all measurements, templates, layouts of numbers, comments, repositories and requests", "why_tests_cant": "arbitrary data", "anchors": ["test_data/new/pallet_staking.rs.txt", "test_data/new/staking_chromatic.rs.txt", "test_data/old/pallet_staking.rs.txt", "core/src/parse/pallet.rs: parse_file", "core/src/lib.rs: compare_commits", "web/src/main.rs: do_compare_cached"]}
{"id": "C81", "title": "Answers are about commits that were newest while they were compared", "statement": "While the server runs, others push to the remote repositories and delete branches there at any moment. Every table the server answers, computed or cached, for a request that does not switch off pulling and names two unambiguous branches, is that of comparing two commits c_old and c_new in a comparison for the same parameters whose result was stored less than ten minutes before; c_old was the newest commit of the old branch and, later, c_new that of the new branch while that comparison was going on. A regression between these commits is shown in it, under the conditions of C75 for source code and of C80 for measurements. One would expect the two commits to have been the newest ones at the same time; that is false.", "quantifier": "all requests, all interleavings with each other and with pushes, every repository and file system", "why_tests_cant": "all schedules of requests and pushes", "anchors": ["web/src/main.rs: compare, do_compare_cached, branches", "core/src/lib.rs: compare_commits, git_reset"]}
{"id": "C82", "title": "The page tells all and only the changes that were measured", "statement": "Let the server have started with plain names of repositories, serve requests at the same time while others push to the remote repositories, and answer a request with a page of results. If the query asks for two branches with pulling and one of the methods exact-worst and guess-worst, then there are two commits, each the newest one of its branch while they were compared less than ten minutes before, such that the following holds for all functions whose measurements are in files of the template in these commits, under the conditions of C80. (1) If the weight has grown by the (positive) threshold at some point of the ranges, then the page has a red row for the function with the weights at some point of the ranges, written in their best unit, and with a percentage that is right for them, at least the threshold, and up to rounding at least the growth at that point; or the two versions cannot be compared (more than 16 components; or exact-worst, and a range is missing or differs), and the page has a message with the name of the function. (2) If it is lower by the threshold everywhere in the ranges, the same with a green row. (3) Every row of the table shows the weights of the function that its id names, at some point of the ranges, and their change, which is at least the threshold up to rounding; or says that the function is unchanged, and then the threshold is 0 and the weights are equal everywhere.", "quantifier": "all requests and texts of queries, all interleavings with each other and with pushes, all measurements, repositories and file systems", "why_tests_cant": "all schedules, data and real-valued changes", "anchors": ["web/src/main.rs: compare, do_compare_cached, templates::compare", "web/src/html.rs", "core/src/lib.rs: compare_commits, compare_files, filter_changes", "core/src/parse/pallet.rs", "test_data/new/pallet_staking.rs.txt"]}
{"id": "C83", "title": "The table of the command line tells all and only the changes that were measured", "statement": "The weight files of both versions contain files of the benchmarking template, as in C80. 'swc compare files' and 'swc compare commits' with a method that looks for the worst case, a threshold of at most three decimals that is a double, and the format human, markdown or csv, have ended successfully. Then the output is a table with the columns File, Extrinsic, Old, New, Change (or says that there are no changes), with at most one record per function of a file, and for all functions with measurements, under the conditions of C80: (1) If the weight has grown by the (positive) threshold at some point of the ranges, then there is a record for the function with the weights at some point of the ranges, in their best unit, and in red a percentage that is right for them, at least the threshold and up to rounding at least the growth at that point; or the versions cannot be compared (more than 16 components; or exact-worst, and a range is missing or differs), and a record says ERROR (in csv there is none). (2) If it is lower by the threshold everywhere in the ranges, the same with a green record. (3) Every record of such a function shows the weights at some point of the ranges and their change, which is at least the threshold up to rounding; or says Unchanged, and then the threshold is 0 and the weights are equal everywhere. For files, the measurements are those in the first file of that name; entries of files that cannot be read are left out if errors are ignored, and otherwise nothing is printed and the command fails. For commits, the files are those of the commits that the versions stand for, with all combinations of pull, force and offline.", "quantifier": "all lists of files and their texts, repositories, versions, flags and measurements", "why_tests_cant": "all texts, data and real-valued changes", "anchors": ["cli/src/main.rs:189-354", "core/src/lib.rs: compare_commits, compare_files, filter_changes, sort_changes", "core/src/fmt.rs", "core/src/parse/pallet.rs"]}
{"id": "C84", "title": "Functions that only one version has are shown with their least weight", "statement": "In the setting of C82 and C83, every function that the files of only one of the two versions have is in the table of the page and of the command line, whatever the threshold is (if the filters select its file, its name and this kind of change): as Added with an empty old value, or as Removed with an empty new value, and with the least weight that its measurements give in the ranges of its components; unless it has more than 16 components or exact-worst misses a range, and then the table or the page has the error. Every row for such a function says this. This holds for the methods base, guess-worst and exact-worst; for all methods, the reported corner is the one with the lower value of each component. One would expect the two methods for the worst case to report the greatest weight of an added function; that is false.", "quantifier": "all measurements, repositories, requests, interleavings and pushes", "why_tests_cant": "all schedules, texts and data", "anchors": ["core/src/lib.rs: compare_extrinsics, filter_changes", "web/src/main.rs: compare, do_compare_cached", "web/templates/compare.stpl", "cli/src/main.rs:189-354", "README.md:190-194"]}
{"id": "C85", "title": "Storage weights of a file are picoseconds in Substrate's scope", "statement": "The scope with Substrate's constants defines exactly four names, the two names of the number of weight units per nanosecond, each with and without 'constants::', as 1000. If the storage parser accepts a file, then the equations it returns for reads and for writes evaluate in this scope to the picoseconds that the expressions in the file stand for, provided they use only these names and no intermediate result exceeds 128 bits; and in the scope with these equations as READ and WRITE (whose definitions again refer to the constants) and any components, every weight term evaluates to its value with these picoseconds per read and write.", "quantifier": "all files, expressions, weight terms and values of components", "why_tests_cant": "all syntax trees and terms", "anchors": ["core/src/scope.rs:23-35", "core/src/parse/storage.rs", "core/src/term.rs: eval", "core/src/lib.rs:48"]}
{"id": "C86", "title": "The command does what its arguments say", "statement": "A command line is accepted as 'compare files' or 'compare commits' if and only if it is a sequence of the parts that the documentation describes ('--name value', '--name=value', '-m value', '-mvalue', '-m=value', flags, lists after '--change', '--old' and '--new', commits, and commits after '--'), where the required parts are there, no part that cannot be repeated is there twice, and the values are words for methods, units, formats and changes (in any case), numbers or paths; and then method, unit, threshold, filters, git flags, format, files, commits, repository and pattern are what the parts say, and the documented defaults otherwise (time, 5, human, master, the current directory). '--verbose' counts wherever it is. The order of the parts does not matter, except among commits and among uses of a list. Together with C83: from the text of the arguments to the printed table. False as documented: the old name 'weight' of the unit is refused here; commits after a '--change' are taken for changes.", "quantifier": "all lists of arguments", "why_tests_cant": "infinitely many command lines", "anchors": ["cli/src/main.rs:12-137", "cli/src/main.rs: main", "core/src/lib.rs:103-165", "README.md:81-126"]}
{"id": "C87", "title": "The start page offers the branches of the chosen repository and compares what was chosen", "statement": "For every sequence of choices of repositories and branches, uses of the fetch button, answers of the server in any order and failures, and whatever the local storage holds: if no answer arrives for another repository than the one chosen at that moment (which is so if the user waits for each answer), then as soon as the branches of the chosen repository have been received, both boxes offer exactly the newest list of them, in its order; the value of each box is what the user chose since the list was filled in, otherwise 'master' if the list has it, otherwise nothing; the last step of the form shows the chosen repository and branches; and the button asks the server for the comparison of these two branches of this repository, if their names have no characters with a meaning in a link. Every request is under way until it is answered or fails; for a user who waits, each repository is requested once unless fetching is asked for or a request fails, and the overlay is shown exactly while a request is under way if none failed. False: without waiting, the branches of one repository are compared in another; without a branch 'master', the comparison asks for 'null' while the form shows an older choice; the stored choice is never restored; after a failure the overlay stays; without waiting, the same list is requested twice.", "quantifier": "all sequences of events of a visit, all answers, repositories and local storages", "why_tests_cant": "all interleavings of user and answers", "anchors": ["web/static/root.js", "web/templates/root.stpl", "web/static/common.js: path_pattern_presets", "web/src/main.rs: branches"]}
{"id": "C88", "title": "The web server serves what its arguments say, where they say", "statement": "The arguments of the web server are accepted if and only if they are a sequence of parts ('--name value', '--name=value', '-p value', '-pvalue', '-p=value', lists after '--repos', a final '--') in which nothing but '--repos' is said twice, paths are not empty, the port is a 16-bit number, and a certificate comes with a key; then root, static directory, repositories, endpoint, port, certificate and key are what the parts say, and the defaults otherwise. The order of the parts does not matter, except among the lists of repositories; all names after '--repos' up to the next option are repositories, commas included. Then the server starts if and only if there is a repository, the static directory is one, and every named repository is there below the root and has an origin of the expected form; it serves exactly these, listens on endpoint ':' port, and uses TLS exactly if certificate and key are given. It never panics for want of a key; an empty list of repositories is refused with its message.", "quantifier": "all lists of arguments, directories and remotes", "why_tests_cant": "infinitely many command lines", "anchors": ["web/src/main.rs:33-58", "web/src/main.rs:95-173", "web/src/git.rs: get_origin_org", "README.md:62-71"]}
{"id": "C89", "title": "The page of merge requests lists, marks and compares what it says", "statement": "For every address of the page: the listed repository is the one whose owner and name the address gives (the first value; the defaults paritytech and polkadot-sdk if it is missing or empty), and after a choice in the selection it is the chosen one, with all other parameters of the address unchanged. For every answer of GitHub in which no merge request comes from a deleted repository: there is one row for each merge request, the newest first and those of equal date in GitHub's order, with the first hundred characters of the title, the author, the branches and the date; rows of forks are gray, say so and do nothing; of the others exactly those with the word 'weight' (in any case) in the title or a branch name are green; the number shown is that of the green rows, and the overlay goes away. If one comes from a deleted repository, the list ends there and the overlay stays. A double click on another row has the branches fetched and asks the server to compare the base (old) with the head (new) in that repository, if it is polkadot-sdk and the names have no characters with a meaning in a link; for another repository the page is covered. False: titles are shown as text (they are inserted as HTML); the owner counts in any case.", "quantifier": "all addresses, answers of GitHub, dates and repositories", "why_tests_cant": "all lists of merge requests and addresses", "anchors": ["web/static/merge_requests.js", "web/static/common.js", "web/templates/merge_requests.stpl"]}
{"id": "C90", "title": "The pages keep to one theme, and the switch says which", "statement": "For every sequence of opened pages and clicks in a browser, with or without a stored theme and whatever the system prefers: an open page with a switch is dark or light as the stored theme was (or, if nothing was stored, as the system preferred when the first such page was opened), turned around by each click on a switch since, on whichever page. Dark means: the body has the classes bg-dark and text-light, no element has bg-light or text-dark, and all tables have table-dark; light likewise with the words exchanged and no table with table-dark. The switch of the page and the stored theme say the same. All elements stay, with all classes that contain none of the five words, in their order; a page without a switch stays as it came. This holds for pages whose switch is off when they come; one that the browser restores as on overrides a stored light theme. A change of the system's preference after the first page has no effect.", "quantifier": "all sequences of pages, preferences and clicks, all class attributes, all stored texts", "why_tests_cant": "unbounded sequences of events and all class attributes", "anchors": ["web/static/darkmode.js", "web/templates/header.stpl:20", "web/templates/compare.stpl:19-20"]}
{"id": "C91", "title": "The link in a row of the results selects this row", "statement": "For every finished comparison of the web server whose function names have no dots (Rust names have none), every row of the table and every address: if the file and the name of the row consist of visible ASCII characters other than quotes, <, >, & and the backquote, then clicking the link in the row and loading the address (also in another browser) selects this row and no other, whatever the table library does with texts that are not ids. It stays so after another choice on the page: the address that the page then goes to selects the row of the same file and function in the new table, if it has one. For a file with a blank in its path, the script looks for a text that is not the id of the row.", "quantifier": "all comparisons, tables, addresses, rows and choices", "why_tests_cant": "all tables and addresses", "anchors": ["web/static/table.js:15-26,48-62", "web/templates/compare.stpl:155-168"]}
{"id": "C92", "title": "The methods that look at one corner show every change there, and only such", "statement": "With the asymptotic methods (the default of the pages) the table shows for every extrinsic of both versions, whose equations may also have products and powers of components, the two weights when every component has its largest annotated value (100 if it has none), and with the base method those at the smallest (0 if it has none), with reads and writes at their cost; the percentage is that of these two weights. If these differ by at least the threshold and the rounding error, in either direction (or the weight was zero and is no more), the filtered table has the row with exactly these weights, or a row that says that the comparison failed. Conversely, every change in the filtered table is between these two weights, and they differ by at least the threshold less the rounding error. The weights at the corner must be 128-bit numbers, and names must differ in more than underscores. The same holds for what the two Rust weight functions return when all parameters have their largest (smallest) annotated values, if no name has an underscore; and for the answers of the web server about the newest commits of two branches of the remote repository.", "quantifier": "all files, extrinsics, units, thresholds of thousandths of percents and filters, all orders of the hash maps", "why_tests_cant": "all equations, ranges and thresholds", "anchors": ["core/src/lib.rs: compare_files, compare_extrinsics, filter_changes", "core/src/lib.rs: CompareMethod", "core/src/lib.rs: ComponentInstanceStrategy"]}
