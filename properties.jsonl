{"id": "C01", "title": "Version comparison is a coherent comparison function", "statement": "For all versions a and b: comparing a with itself gives Equal; comparing b with a gives the reverse of comparing a with b; and a == b holds exactly when the comparison is Equal.", "quantifier": "all pairs of versions (any token lists, including empty and infinite)", "why_tests_cant": "Pairs of token strings are unbounded and the comparison has five different branches per token plus a length rule; a test only samples pairs.", "anchors": ["crates/rez-next-version/src/version.rs: Version::cmp/eq, compare_rez, compare_single_token, compare_token_strings"]}
{"id": "C02", "title": "Version comparison is transitive (usable for sorting)", "statement": "If a <= b and b <= c then a <= c for all versions, so that sorting and latest-version selection are well defined.", "quantifier": "all triples of versions", "why_tests_cant": "A violation needs a special triple; tests check adjacent pairs of hand-picked lists.", "anchors": ["crates/rez-next-version/src/version.rs: Version::cmp, compare_token_strings"]}
{"id": "C03", "title": "Equal versions hash equally", "statement": "Whenever two versions compare equal, they feed identical data to the hasher, so hash maps keyed by version find them.", "quantifier": "all pairs of versions", "why_tests_cant": "Needs all pairs that are equal under a comparison that ignores spelling.", "anchors": ["crates/rez-next-version/src/version.rs: impl Hash for Version, impl PartialEq for Version"]}
{"id": "C04", "title": "Version text round-trips", "statement": "If parsing a string yields a version v, then parsing v's text yields a version with the same tokens, separators and text; and for a non-special version the text is exactly the tokens interleaved with the separators.", "quantifier": "all input strings accepted by the parser", "why_tests_cant": "The set of accepted strings is infinite; the parser uses a regex scanner with separate separator recovery.", "anchors": ["crates/rez-next-version/src/version.rs: Version::parse, as_str, parse_internal_gil_free"]}
{"id": "C05", "title": "The set of accepted version strings is exactly the documented grammar", "statement": "A (trimmed) string is accepted iff it is empty, 'inf', 'epsilon', or is a sequence of 1..10 word tokens separated by single '.', '-' or '+' characters, not starting with v/V, with at most 5 all-digit tokens, no token with a leading/trailing underscore, no all-letter token longer than 10, and no token 'not' or 'version'.", "quantifier": "all strings over the byte alphabet", "why_tests_cant": "Both directions of an iff over all strings; tests can only list accepted and rejected samples.", "anchors": ["crates/rez-next-version/src/version.rs: Version::parse, parse_internal_gil_free"]}
{"id": "C06", "title": "The state-machine tokenizer agrees with the version parser", "statement": "On every trimmed, non-special string not starting with v/V whose digit tokens fit in 64 bits, the state-machine tokenizer accepts iff the version parser accepts, and both produce the same token texts (up to numeric normalisation) and the same separators.", "quantifier": "all strings", "why_tests_cant": "Differential equivalence of two independent parsers over all strings.", "anchors": ["crates/rez-next-version/src/parser.rs: StateMachineParser::parse_tokens, finalize_token", "crates/rez-next-version/src/version.rs: parse_internal_gil_free"]}
{"id": "C07", "title": "Range intersection contains exactly the common versions", "statement": "When intersecting two ranges yields a range, that range contains a version iff both operands contain it; when it yields nothing, no version is contained in both.", "quantifier": "all pairs of ranges built by parsing, intersecting, union or subtraction, and all versions", "why_tests_cant": "Quantifies over all versions for each pair of ranges; the unsatisfiability shortcut is only sound if it never discards a populated conjunction.", "anchors": ["crates/rez-next-version/src/range/mod.rs: VersionRange::intersect, contains", "crates/rez-next-version/src/range/satisfiability.rs: is_bound_set_satisfiable"]}
{"id": "C08", "title": "Range union contains exactly the versions of either operand", "statement": "The union of two ranges contains a version iff at least one operand contains it.", "quantifier": "all pairs of ranges (including results of subtraction) and all versions", "why_tests_cant": "Requires all versions; the failing case requires a composite range.", "anchors": ["crates/rez-next-version/src/range/mod.rs: VersionRange::union, contains"]}
{"id": "C09", "title": "Range subtraction removes exactly the subtracted versions", "statement": "Subtracting b from a yields a range containing exactly the versions in a and not in b; it yields nothing only when every version of a is in b.", "quantifier": "all pairs of ranges and all versions", "why_tests_cant": "The emptiness decision samples a finite set of probe versions, while the claim ranges over all versions.", "anchors": ["crates/rez-next-version/src/range/mod.rs: VersionRange::subtract, is_subset_of, collect_probe_versions_with_other"]}
{"id": "C10", "title": "Subset test is sound and complete", "statement": "is_subset_of(a,b) is true iff every version contained in a is contained in b.", "quantifier": "all pairs of ranges and all versions", "why_tests_cant": "Implementation probes finitely many versions; correctness for all others needs an argument (or a counterexample).", "anchors": ["crates/rez-next-version/src/range/mod.rs: VersionRange::is_subset_of"]}
{"id": "C11", "title": "Range text and alternation semantics", "statement": "A range text 'A|B' contains exactly the versions contained in A or in B, and a conjunction 'A,B' exactly those contained in both; the empty and '*' texts contain every version.", "quantifier": "all range texts accepted by the parser and all versions", "why_tests_cant": "Infinite grammar; the semantics of a parsed text must be compositional for every text.", "anchors": ["crates/rez-next-version/src/range/parser.rs: parse_range_str, parse_conjunction, parse_single_constraint", "crates/rez-next-version/src/range/mod.rs: VersionRange::parse, contains"]}
{"id": "C12", "title": "A range survives serialisation", "statement": "Serialising a range and reading it back yields a range that contains exactly the same versions.", "quantifier": "all ranges and all versions", "why_tests_cant": "Ranges produced by operations carry state outside their text.", "anchors": ["crates/rez-next-version/src/range/mod.rs: VersionRange serde derives, contains"]}
{"id": "C13", "title": "Disjointness test is sound", "statement": "If intersects(a,b) is false then no version is contained in both a and b.", "quantifier": "all pairs of ranges and all versions", "why_tests_cant": "Needs all versions for each pair of ranges.", "anchors": ["crates/rez-next-version/src/range/mod.rs: VersionRange::intersects", "crates/rez-next-version/src/range/satisfiability.rs: bound_sets_intersect"]}
{"id": "C14", "title": "Requirement constraint satisfaction is the documented predicate", "statement": "A version satisfies a constraint conjunction iff it satisfies every member, an alternative iff some member, an exclusion iff no member, and combining two constraints with and/or yields exactly the conjunction/disjunction of their satisfaction, at every nesting depth.", "quantifier": "all constraint trees and all versions", "why_tests_cant": "Constraint trees nest without bound.", "anchors": ["crates/rez-next-package/src/requirement/types.rs: VersionConstraint::is_satisfied_by, and, or"]}
{"id": "C15", "title": "Requirement text round-trips through parse and display", "statement": "Displaying a parsed requirement and parsing it again yields a requirement with the same name, weak/conflict flags and the same set of satisfying versions.", "quantifier": "all requirement strings accepted by the parser", "why_tests_cant": "Infinite grammar of names, operators, version lists and conditions.", "anchors": ["crates/rez-next-package/src/requirement/parser.rs: RequirementParser::parse", "crates/rez-next-package/src/requirement/display.rs: Display for Requirement"]}
{"id": "C16", "title": "Prefix and depth comparison semantics", "statement": "Comparing a version with a bound looks at the leading tokens only up to the shorter length; a prefix constraint accepts exactly the versions whose leading tokens equal the prefix.", "quantifier": "all pairs of token lists", "why_tests_cant": "All token lists.", "anchors": ["crates/rez-next-package/src/requirement/types.rs: cmp_at_depth, VersionConstraint::is_satisfied_by (Prefix)", "crates/rez-next-version/src/version.rs: has_prefix"]}
{"id": "C17", "title": "Package request matching honours every constraint in its list", "statement": "A package requirement with a comma separated version spec is satisfied iff each constraint in it is satisfied; no spec is satisfied by all versions.", "quantifier": "all requirement specs and versions", "why_tests_cant": "Infinite spec lists.", "anchors": ["crates/rez-next-package/src/package/requirement.rs: PackageRequirement::satisfied_by, check_single_constraint"]}
{"id": "C18", "title": "Package orderers only permute", "statement": "Every orderer returns a permutation of its input (nothing dropped, duplicated or invented); the sorted orderer's output is ordered by version whenever the versions involved are totally ordered, and is stable.", "quantifier": "all package lists, all orderer configurations", "why_tests_cant": "All lists of any length.", "anchors": ["crates/rez-next-package/src/package_order.rs: SortedOrder::reorder, VersionSplitPackageOrder::reorder, PerFamilyOrder::reorder, TimestampPackageOrder::reorder"]}
{"id": "C19", "title": "Orderers never crash", "statement": "Reordering returns a result for every package list, including packages without a version.", "quantifier": "all package lists", "why_tests_cant": "The crash needs a particular mix of versioned and versionless packages.", "anchors": ["crates/rez-next-package/src/package_order.rs: VersionSplitPackageOrder::reorder"]}
{"id": "C20", "title": "A successful strict resolution satisfies every request", "statement": "When strict resolution succeeds, for each requested (non-conflict, non-weak) package there is a resolved package with that name whose version satisfies the request, and the same holds for each requirement of each resolved package (including its selected variant).", "quantifier": "all repositories, all request lists, all package orders", "why_tests_cant": "Backtracking search over arbitrary repositories.", "anchors": ["crates/rez-next-solver/src/dependency_resolver.rs: DependencyResolver::resolve, resolve_recursive", "crates/rez-next-solver/src/resolution_state.rs"]}
{"id": "C21", "title": "At most one version per package family in a resolution", "statement": "The list of resolved packages contains no two packages with the same name.", "quantifier": "all repositories and request lists", "why_tests_cant": "Invariant across unbounded backtracking.", "anchors": ["crates/rez-next-solver/src/resolution_state.rs: add_resolved_package", "crates/rez-next-solver/src/dependency_resolver.rs: try_resolve_with_candidate"]}
{"id": "C22", "title": "Requested conflicts are respected", "statement": "When resolution succeeds, no resolved package is one that a request-level conflict forbids.", "quantifier": "all repositories and request lists", "why_tests_cant": "All search histories.", "anchors": ["crates/rez-next-solver/src/resolution_state.rs: check_conflicts, check_explicit_conflicts"]}
{"id": "C23", "title": "Package-level conflicts are respected", "statement": "When resolution succeeds, no resolved package is forbidden by a conflict requirement of another resolved package.", "quantifier": "all repositories and request lists", "why_tests_cant": "Depends on the order in which packages are resolved.", "anchors": ["crates/rez-next-solver/src/resolution_state.rs: check_explicit_conflicts", "crates/rez-next-solver/src/dependency_resolver.rs: try_resolve_with_candidate"]}
{"id": "C24", "title": "Resolution always terminates", "statement": "Resolution returns success or failure for every finite repository and request list.", "quantifier": "all finite repositories and request lists", "why_tests_cant": "A hang is reached only by particular cyclic repositories.", "anchors": ["crates/rez-next-solver/src/dependency_resolver.rs: resolve_recursive, backtrack_package"]}
{"id": "C25", "title": "Topological order is a linear extension", "statement": "When the dependency graph yields an ordering it lists every package exactly once and each dependency edge respects the order; it fails exactly when the graph has a cycle.", "quantifier": "all dependency graphs and all map iteration orders", "why_tests_cant": "All graphs of any size.", "anchors": ["crates/rez-next-solver/src/graph.rs: DependencyGraph::get_resolved_packages/topological_sort"]}
{"id": "C26", "title": "Cycle detection finds a real cycle and never misses one", "statement": "Cycle search returns a path of packages each depending on the next, closing on itself; it returns nothing iff the graph is acyclic.", "quantifier": "all dependency graphs and iteration orders", "why_tests_cant": "All graphs.", "anchors": ["crates/rez-next-solver/src/graph.rs: find_cycle"]}
{"id": "C27", "title": "Dependency graph edits keep the graph consistent", "statement": "After any sequence of package additions, edge additions and removals, every edge connects present packages, forward and reverse edges mirror each other, and removing a package removes exactly its edges.", "quantifier": "all operation sequences", "why_tests_cant": "All histories.", "anchors": ["crates/rez-next-solver/src/graph.rs: add_package, add_dependency_edge, remove_package"]}
{"id": "C28", "title": "Environment actions have sequential assignment semantics", "statement": "Applying a list of actions produces for each variable exactly the value given by folding the actions touching that variable in order; actions never affect other variables; nothing after a stop has any effect.", "quantifier": "all action lists and all initial environments", "why_tests_cant": "All sequences.", "anchors": ["crates/rez-next-rex/src/lib.rs: RexEnvironment::apply, apply_action"]}
{"id": "C29", "title": "Variable expansion is deterministic", "statement": "Expanding context variables in an action gives the same result regardless of the map iteration order.", "quantifier": "all iteration orders, all variable contexts, all texts", "why_tests_cant": "Depends on hash iteration order that tests cannot control.", "anchors": ["crates/rez-next-rex/src/executor.rs: RexExecutor::expand_action_vars"]}
{"id": "C30", "title": "Generated shell scripts reproduce values literally", "statement": "Interpreting a quoted variable value, alias or path in the generated script by the shell's quoting rules gives back exactly the original string.", "quantifier": "all strings, for bash, powershell and fish output", "why_tests_cant": "All strings, including quotes, dollars, backslashes and backticks.", "anchors": ["crates/rez-next-rex/src/shell.rs: generate_bash_script, generate_powershell_script", "crates/rez-next-context/src/environment.rs: escape_bash_value, escape_powershell_value, escape_fish_value"]}
{"id": "C31", "title": "Environment diff is exact", "statement": "Applying the reported additions, modifications and removals to the base environment gives exactly the generated environment, and the diff reports nothing unchanged.", "quantifier": "all pairs of environments", "why_tests_cant": "All maps.", "anchors": ["crates/rez-next-context/src/environment.rs: EnvironmentManager::get_env_diff, EnvDiff"]}
{"id": "C32", "title": "PATH normalisation preserves lookup order", "statement": "Normalising the path list removes only later duplicates: it has no duplicates, contains the same entries in the same first-occurrence order, so the first directory providing a tool is unchanged, and is idempotent.", "quantifier": "all path lists", "why_tests_cant": "All lists.", "anchors": ["crates/rez-next-context/src/environment.rs: normalize_environment_paths"]}
{"id": "C33", "title": "Context validation accepts every context that meets its requests", "statement": "A resolved context whose packages meet each positive request validates, and one missing a positively requested package does not.", "quantifier": "all contexts", "why_tests_cant": "All request lists incl. weak and conflict ones.", "anchors": ["crates/rez-next-context/src/context.rs: ResolvedContext::validate, satisfies_requirement"]}
{"id": "C34", "title": "A filter excludes a package iff an exclusion matches and no inclusion does", "statement": "A package is excluded iff at least one exclusion rule matches and no inclusion rule matches; filtering a list keeps exactly the non-excluded packages in order; filter lists exclude iff a member does.", "quantifier": "all filters, rules and packages", "why_tests_cant": "All rule lists.", "anchors": ["crates/rez-next-package-filter/src/filter.rs: PackageFilter::excludes, includes", "crates/rez-next-package/src/filter.rs: PackageFilter::excludes, filter_packages"]}
{"id": "C35", "title": "Filters survive conversion to plain data and back", "statement": "Converting a filter to plain data and back yields a filter excluding the same packages.", "quantifier": "all filters and packages", "why_tests_cant": "All rule texts and family keys.", "anchors": ["crates/rez-next-package/src/filter.rs: to_pod, from_pod, parse_rule", "crates/rez-next-package-filter/src/filter.rs: to_pod, from_pod"]}
{"id": "C36", "title": "Base-26 successor enumerates all names without repetition", "statement": "Starting from 'a', repeated successor visits every non-empty lowercase name exactly once, in order of length then alphabet; invalid names are rejected.", "quantifier": "all lowercase names, all iteration counts", "why_tests_cant": "Infinite sequence.", "anchors": ["crates/rez-next-util/src/base26.rs: get_next_base26", "crates/rez-next-package/src/package_cache.rs: increment_string"]}
{"id": "C37", "title": "Unique symlink creation never overwrites and always succeeds when a name is free", "statement": "Creating a link for a new target yields a fresh name and leaves existing links unchanged, an existing target returns its existing link, and creation succeeds for any number of existing links.", "quantifier": "all directory contents", "why_tests_cant": "Fails only with more than 26 existing links.", "anchors": ["crates/rez-next-util/src/base26.rs: create_unique_base26_symlink, get_max_base26_name"]}
{"id": "C38", "title": "Suite context names stay unique and tool tables are conflict-policy exact", "statement": "After any sequence of suite edits no two contexts share a name; the tool table in first/last/error mode maps each visible tool name to the first/last/only visible context providing it.", "quantifier": "all edit histories and alias map iteration orders", "why_tests_cant": "All histories.", "anchors": ["crates/rez-next-suites/src/suite.rs: Suite::add_context, remove_context, get_tools"]}
{"id": "C39", "title": "Prefix conflict mode loses no tool", "statement": "In prefix mode every visible tool of each context appears in the tool table under some name.", "quantifier": "all suites", "why_tests_cant": "Needs adversarial context/tool names.", "anchors": ["crates/rez-next-suites/src/suite.rs: Suite::get_tools"]}
{"id": "C40", "title": "A crash during caching never yields a half-copied payload", "statement": "If a process caching a variant stops at any point, a later lookup of that variant never reports it as found unless its payload was completely copied.", "quantifier": "all crash points, all prior cache contents", "why_tests_cant": "Every crash point.", "anchors": ["crates/rez-next-package/src/package_cache.rs: PackageCache::add_variant, get_cached_root"]}
{"id": "C41", "title": "Concurrent caching never yields a half-copied payload", "statement": "With several processes caching variants concurrently, a lookup never reports a variant as found while its payload is incomplete.", "quantifier": "all interleavings", "why_tests_cant": "Schedules.", "anchors": ["crates/rez-next-package/src/package_cache.rs: PackageCache::add_variant, next_increment, get_cached_root"]}
{"id": "C42", "title": "Caching a variant never disturbs another cached variant", "statement": "Adding a variant to the cache leaves every previously cached variant findable with its own payload.", "quantifier": "all histories of additions", "why_tests_cant": "Needs more than 26 variants in one hash bucket.", "anchors": ["crates/rez-next-package/src/package_cache.rs: add_variant, next_increment"]}
{"id": "C43", "title": "The two-level cache returns the latest value put", "statement": "A lookup returns either nothing or the value most recently stored for that key, after any history of puts, gets, removals, clears, evictions, promotions and expiry.", "quantifier": "all operation histories and clock readings", "why_tests_cant": "Stale value requires an eviction between two puts.", "anchors": ["crates/rez-next-cache/src/intelligent_manager.rs: IntelligentCacheManager put/get/remove, promote_to_l1, demote_to_l2, evict_l1_entries"]}
{"id": "C44", "title": "Two-level cache never serves expired entries and respects capacity", "statement": "A lookup never returns an entry whose lifetime elapsed; with single-threaded use each level never holds more entries than its limit.", "quantifier": "all histories", "why_tests_cant": "All histories.", "anchors": ["crates/rez-next-cache/src/intelligent_manager.rs: get, put, evict_l1_entries, evict_l2_entries"]}
{"id": "C45", "title": "Repository cache operations cannot deadlock", "statement": "Any number of tasks running cache lookups, stores, removals and cleanups concurrently always make progress.", "quantifier": "all schedules of any number of tasks", "why_tests_cant": "A deadlock needs one particular interleaving.", "anchors": ["crates/rez-next-repository/src/cache.rs: RepositoryCache::get, put, remove, cleanup"]}
{"id": "C46", "title": "Repository cache never serves stale or expired data and stays within its limit", "statement": "A lookup returns only entries within their lifetime whose source is unchanged, and the number of entries never exceeds the configured maximum.", "quantifier": "all histories", "why_tests_cant": "All histories and clock values.", "anchors": ["crates/rez-next-repository/src/cache.rs: CacheEntry::is_valid, RepositoryCache::get, put"]}
{"id": "C47", "title": "The repository manager returns the latest available version", "statement": "Asking for a package without a version returns a package whose version is not lower than any version of that package in any registered repository; listing is sorted newest first and complete.", "quantifier": "all sets of repositories", "why_tests_cant": "All contents.", "anchors": ["crates/rez-next-repository/src/simple_repository.rs: RepositoryManager::find_packages, get_package"]}
{"id": "C48", "title": "Repeated queries of an unchanged repository agree", "statement": "Asking an unchanged repository twice for the same package yields the same answer.", "quantifier": "all repository contents, including unreadable packages", "why_tests_cant": "Needs the cold/warm sequence with a broken package.", "anchors": ["crates/rez-next-repository/src/simple_repository.rs: SimpleRepository::find_packages, get_package"]}
{"id": "C49", "title": "The emptiness and universality tests of a range are truthful", "statement": "For every range obtained from the constructors and set operations, is_empty() true implies no version is contained, and is_any() true implies every version is contained.", "quantifier": "all ranges reachable through parse/any/none/intersect/union/subtract, all versions", "why_tests_cant": "quantifies over all range expressions and all versions", "anchors": ["crates/rez-next-version/src/range/mod.rs: is_any, is_empty, subtract"]}
{"id": "C50", "title": "Compatible-release ranges", "statement": "~=X.Y contains exactly the versions v with X.Y <= v < (X+1).0 and ~=X.Y.Z... exactly those with X.Y.Z... <= v < X.(Y+1).0; in particular it always contains its own base version.", "quantifier": "all numbers X, Y, Z, ... and all versions v", "why_tests_cant": "all numbers up to the 64-bit limit, where the bump overflows", "anchors": ["crates/rez-next-version/src/range/types.rs: bound_matches", "crates/rez-next-version/src/range/parser.rs"]}
{"id": "C51", "title": "Converting a package request for the solver preserves it", "statement": "Turning a parsed command line request into the requirement given to the resolver keeps the package name, the weak/conflict marker and the set of accepted versions.", "quantifier": "all request texts accepted by PackageRequirement::parse", "why_tests_cant": "Infinite grammar of names, operators and versions; both sides are parsers.", "anchors": ["crates/rez-next-package/src/package/requirement.rs: PackageRequirement::parse, Display", "crates/rez-next-solver/src/solver.rs: DependencySolver::resolve", "src/cli/commands/env.rs"]}
{"id": "C52", "title": "Package requirement and solver requirement agree on a request text", "statement": "For the same request text, PackageRequirement::satisfied_by and Requirement::is_satisfied_by accept the same versions.", "quantifier": "all request texts accepted by both parsers, all versions", "why_tests_cant": "Two independently written matchers over infinite inputs.", "anchors": ["crates/rez-next-package/src/package/requirement.rs: PackageRequirement::satisfied_by", "crates/rez-next-package/src/requirement/types.rs: Requirement::is_satisfied_by"]}
{"id": "C53", "title": "Platform and environment conditions are order-independent and respected", "statement": "A requirement's environment conditions hold iff each of them holds; its platform conditions hold iff some positive one matches (when there are any) and no negated one does, whatever their order, and a written architecture counts.", "quantifier": "all condition lists, platforms, architectures and environments", "why_tests_cant": "Lists of any length in any order.", "anchors": ["crates/rez-next-package/src/requirement/types.rs: is_platform_satisfied, is_env_satisfied", "crates/rez-next-package/src/requirement/parser.rs: parse_platform_condition"]}
{"id": "C54", "title": "Orderer configuration survives serialisation", "statement": "Reading back the plain-data form of an orderer (to_pod then from_pod) gives the same orderer; a list of orderers read back keeps all its members.", "quantifier": "all orderers, all orderer lists", "why_tests_cant": "Covers all nested orderers and all field values; loss is silent because unreadable entries are skipped.", "anchors": ["crates/rez-next-package/src/package_order.rs: to_pod, from_pod, PackageOrderList::from_pod"]}
{"id": "C55", "title": "The first applicable orderer is used for a family", "statement": "PackageOrderList::get returns the first orderer that lists the family or lists no families; if there is none, get_orderer leaves the package order untouched.", "quantifier": "all orderer lists, all families", "why_tests_cant": "All lists of any length.", "anchors": ["crates/rez-next-package/src/package_order.rs: PackageOrderList::get, get_orderer"]}
{"id": "C56", "title": "Resolved packages come from the repository", "statement": "Every package in a resolution is one the repository offers under its name; pre-release versions are not chosen unless allowed; a package with variants is used through one of its variants; all requirement texts of the package and the variant are readable.", "quantifier": "all repositories, configurations, request lists and hash map orders", "why_tests_cant": "The selection is changed many times by backtracking; tests see a few search histories.", "anchors": ["crates/rez-next-solver/src/dependency_resolver.rs: filter_and_sort_candidates, try_resolve_with_candidate, select_variant"]}
{"id": "C57", "title": "Cycle reports and successes are truthful", "statement": "A successful resolution contains no dependency cycle among the resolved packages, and a reported cycle is a closed chain of names each of which is required by a package of the preceding name.", "quantifier": "all repositories and request lists, all hash map orders", "why_tests_cant": "The search starts from hash map keys in arbitrary order and the graph is rebuilt on each selection.", "anchors": ["crates/rez-next-solver/src/resolution_state.rs: detect_cycle, record_dependency", "crates/rez-next-solver/src/dependency_resolver.rs: resolve"]}
{"id": "C58", "title": "A resolution contains nothing superfluous", "statement": "Every resolved package is requested, or is a non-weak requirement of a resolved package that is itself needed; dependencies of abandoned versions do not stay behind.", "quantifier": "all repositories and request lists", "why_tests_cant": "Orphans appear only after particular backtracking sequences.", "anchors": ["crates/rez-next-solver/src/resolution_state.rs: prune_orphaned_packages, set_package_requirements"]}
{"id": "C59", "title": "Strict resolution fails only when no valid selection exists", "statement": "If strict resolution reports failure there is no selection of packages that satisfies all requests, all requirements of the selected packages and all conflicts; and what it returns on success is such a selection.", "quantifier": "all repositories and request lists", "why_tests_cant": "Completeness of a search cannot be sampled.", "anchors": ["crates/rez-next-solver/src/dependency_resolver.rs: backtrack_for_requirement, backtrack_package"]}
{"id": "C60", "title": "A single request gets the best acceptable version", "statement": "Requesting one package whose versions have no dependencies succeeds whenever some version is acceptable (accepted by the request, and not an unwanted pre-release), and returns the newest acceptable version, or the oldest when the configuration prefers oldest.", "quantifier": "all version sets on which comparison is transitive, all requests", "why_tests_cant": "Depends on sorting and filtering arbitrary version lists.", "anchors": ["crates/rez-next-solver/src/dependency_resolver.rs: filter_and_sort_candidates"]}
{"id": "C61", "title": "Constraints and excludes of a solver request are respected", "statement": "No package excluded by a SolverRequest, and no version outside its constraints, is part of the resolution.", "quantifier": "all requests and repositories", "why_tests_cant": "Fields that are never read produce no failing test.", "anchors": ["crates/rez-next-solver/src/solver.rs: SolverRequest, DependencySolver::resolve"]}
{"id": "C62", "title": "The accessibility table is the transitive closure", "statement": "The accessibility table has one row per package, listing the package itself and exactly the packages it leads to through one or more dependency edges, sorted and without repetition.", "quantifier": "all graphs, consistent or not, and all map iteration orders", "why_tests_cant": "All graphs of any size, including those with cycles and with edges to absent packages.", "anchors": ["crates/rez-next-solver/src/graph.rs: accessibility, dfs_reachable"]}
{"id": "C63", "title": "The reported depth is the longest dependency chain", "statement": "The maximal depth in the graph statistics equals the length of a longest chain of packages each depending on the next, independently of map iteration order.", "quantifier": "all loop-free graphs and iteration orders", "why_tests_cant": "Whether the reported depth is right depends on hash iteration order, which a test run fixes arbitrarily.", "anchors": ["crates/rez-next-solver/src/graph.rs: get_stats, calculate_depth_recursive"]}
{"id": "C64", "title": "Reported conflicts are exactly the unsatisfiable packages", "statement": "A package is reported as conflicting iff no version satisfies all requirements recorded for it.", "quantifier": "all requirement texts and versions", "why_tests_cant": "All version ranges and all versions.", "anchors": ["crates/rez-next-solver/src/graph.rs: detect_conflicts, requirements_compatible"]}
{"id": "C65", "title": "Distinct packages have distinct graph keys", "statement": "Two packages of the graph share a key only if they have the same name and version text.", "quantifier": "all names and versions", "why_tests_cant": "All names, including names containing the separator.", "anchors": ["crates/rez-next-solver/src/graph.rs: add_package, GraphNode::key"]}
{"id": "C66", "title": "Applying a conflict resolution removes that conflict and no other", "statement": "After applying a resolution that selects a version for a package, that package is no longer reported as conflicting, the reports for all other packages are unchanged, and exactly the listed packages are removed.", "quantifier": "all histories of edits and all resolutions", "why_tests_cant": "All histories.", "anchors": ["crates/rez-next-solver/src/graph.rs: apply_conflict_resolution, detect_conflicts"]}
{"id": "C67", "title": "A cached payload is only returned for its own variant", "statement": "Looking up a variant never returns the cached payload of a different variant.", "quantifier": "all digests, all variant handles", "why_tests_cant": "Needs colliding texts or digests.", "anchors": ["crates/rez-next-package/src/package_cache.rs: VariantHandle::hashable_repr, hash_path, get_cached_root"]}
{"id": "C68", "title": "Removing a cached variant removes it", "statement": "After a removal of a cached variant, finished or interrupted, with or without lookups at the same time, no lookup reports the variant as found with its payload missing, and no other entry is touched.", "quantifier": "all interruption points, all interleavings with lookups", "why_tests_cant": "Needs interruption points and schedules.", "anchors": ["crates/rez-next-package/src/package_cache.rs: remove_variant, get_cached_root, update_access_time"]}
{"id": "C69", "title": "Listing the cache agrees with looking up", "statement": "The list of cached variants reports a variant as found exactly if a lookup of it reports found.", "quantifier": "all cache states", "why_tests_cant": "Needs states in the middle of an operation.", "anchors": ["crates/rez-next-package/src/package_cache.rs: list_cached, get_cached_root"]}
{"id": "C70", "title": "The disk-space check never admits a payload that does not fit", "statement": "The check for free space says yes exactly if the payload and the configured reserve fit in the free space, and never panics.", "quantifier": "all sizes", "why_tests_cant": "All 64-bit values.", "anchors": ["crates/rez-next-package/src/package_cache.rs: check_disk_space, variant_meets_space_requirements"]}
{"id": "C71", "title": "An interrupted caching can be repeated", "statement": "If caching a variant is interrupted at any point, a later attempt can cache it.", "quantifier": "all interruption points, all later times", "why_tests_cant": "Every crash point and unbounded time.", "anchors": ["crates/rez-next-package/src/package_cache.rs: add_variant, get_cached_root, is_file_stalled"]}
{"id": "C72", "title": "A lookup never loses a cached variant", "statement": "Looking up a cached variant, even if the process stops in the middle, leaves the variant findable.", "quantifier": "all interruption points", "why_tests_cant": "Every crash point.", "anchors": ["crates/rez-next-package/src/package_cache.rs: get_cached_root, update_access_time"]}
{"id": "C73", "title": "Cleaning removes exactly the unused entries", "statement": "Cleaning the cache with a maximum age removes exactly the completely cached variants not used for longer than this age.", "quantifier": "all cache contents, listing orders and clocks", "why_tests_cant": "Orders of the file system and clocks.", "anchors": ["crates/rez-next-package/src/package_cache.rs: clean"]}
{"id": "C74", "title": "Glob rules match like globs", "statement": "A glob rule of the filter crate matches a name exactly if the name is the pattern with each star replaced by some text and each question mark by some character.", "quantifier": "all patterns and names", "why_tests_cant": "All patterns.", "anchors": ["crates/rez-next-package-filter/src/rule.rs: GlobRule::matches_glob"]}
{"id": "C75", "title": "A version-range rule only concerns its own package", "statement": "A version-range rule written for one package family matches no package of another family, and exactly the versions in the range of its own.", "quantifier": "all rules and packages", "why_tests_cant": "All names.", "anchors": ["crates/rez-next-package/src/filter.rs: RangeRule::matches", "crates/rez-next-package-filter/src/rule.rs: RangeRule::apply"]}
{"id": "C76", "title": "The digest of a filter identifies it", "statement": "Filters with the same text from which the digest is computed exclude the same packages.", "quantifier": "all pairs of filters", "why_tests_cant": "All pairs of texts.", "anchors": ["crates/rez-next-package-filter/src/filter.rs: PackageFilter::sha1, Display"]}
{"id": "C77", "title": "A filter applies the rules it was given", "statement": "Adding rules to a filter of the filter crate and asking whether a package is excluded gives the answer of the rules themselves.", "quantifier": "all rules and packages", "why_tests_cant": "All texts of ranges and families.", "anchors": ["crates/rez-next-package-filter/src/filter.rs: add_exclusion, add_inclusion, rule_to_pod, pod_to_rule", "crates/rez-next-package-filter/src/rule.rs: parse_rule"]}
{"id": "C78", "title": "Expansion replaces exactly the references", "statement": "Expanding the variables of a command replaces every braced reference to a known variable by its value, all at once, and leaves all other text, and the names of the variables being set, as they are.", "quantifier": "all texts and variable maps", "why_tests_cant": "References may be adjacent, nested, partial or part of longer names, and values may contain references; the cases multiply beyond listing.", "anchors": ["crates/rez-next-rex/src/executor.rs: RexExecutor::expand_action_vars"]}
{"id": "C79", "title": "Commands are read as written", "statement": "The command parser accepts exactly the lines made of the documented calls and shell forms, and yields the action each one names with its arguments unchanged, in the order of the lines.", "quantifier": "all texts", "why_tests_cant": "The set of texts is infinite and the patterns overlap.", "anchors": ["crates/rez-next-rex/src/parser.rs: RexParser::parse"]}
{"id": "C80", "title": "The script of an environment is reproducible", "statement": "Generating the script of the same environment twice gives the same text, whatever the iteration order of the maps.", "quantifier": "all environments and iteration orders", "why_tests_cant": "The iteration order changes from process to process; a test sees one.", "anchors": ["crates/rez-next-rex/src/shell.rs: generate_bash_script, generate_fish_script, generate_cmd_script, generate_powershell_script", "crates/rez-next-context/src/environment.rs: generate_shell_script"]}
{"id": "C81", "title": "stop() ends what the packages do", "statement": "After a command calls stop, no later command has any effect on the generated environment.", "quantifier": "all packages, command texts and base environments", "why_tests_cant": "Any command can follow the stop in any later phase or package.", "anchors": ["crates/rez-next-context/src/environment.rs: EnvironmentManager::generate_rex_environment, rex_effects"]}
{"id": "C82", "title": "Package commands take effect in order", "statement": "Every variable of the generated environment has the value obtained from the base by running the package variables, then pre_commands, commands and post_commands of all packages in order, then the additional variables; generation fails exactly if some command text cannot be read.", "quantifier": "all package lists, command texts, configurations and base environments", "why_tests_cant": "The result depends on all commands of all packages together.", "anchors": ["crates/rez-next-context/src/environment.rs: EnvironmentManager::generate_rex_environment, apply_env_definition"]}
{"id": "C83", "title": "The search path lists the tool directories where the strategy says", "statement": "In an environment with one search-path variable that is not reset or unset, the path consists of the tool directories of the packages in order, put before, behind or in place of the entries the commands left (or left alone), with later duplicates removed; so a lookup finds the first suitable directory of that list.", "quantifier": "all package lists, file systems, strategies and base environments", "why_tests_cant": "Needs all file layouts, duplicates and strategies.", "anchors": ["crates/rez-next-context/src/environment.rs: apply_path_modifications, package_tool_path, normalize_environment_paths"]}
{"id": "C84", "title": "The generated environment is reproducible", "statement": "The generated environment does not depend on the iteration order of any map, and the base environment is taken over completely.", "quantifier": "all packages, configurations, environments and iteration orders", "why_tests_cant": "The iteration order changes from process to process; a test sees one.", "anchors": ["crates/rez-next-context/src/environment.rs: EnvironmentManager::with_base_environment, generate_rex_environment, normalize_environment_paths"]}
{"id": "C85", "title": "The tool list of a context is sorted and complete", "statement": "get_all_tools lists exactly the tools of the resolved packages, each once, in increasing order.", "quantifier": "all contexts", "why_tests_cant": "All lists with all repetitions.", "anchors": ["crates/rez-next-context/src/context.rs: ResolvedContext::get_all_tools"]}
{"id": "C86", "title": "The fingerprint of a context identifies what it generates", "statement": "Contexts with the same fingerprint input generate the same environment from the same packages.", "quantifier": "all pairs of contexts", "why_tests_cant": "Quantifies over pairs of configurations.", "anchors": ["crates/rez-next-context/src/context.rs: ResolvedContext::get_fingerprint"]}
{"id": "C87", "title": "The default file of a context is recognised as a context file", "statement": "get_default_filename never fails and its result is accepted by is_context_file.", "quantifier": "all contexts", "why_tests_cant": "All names and ids.", "anchors": ["crates/rez-next-context/src/serialization.rs: ContextFileUtils::get_default_filename, is_context_file"]}
{"id": "C88", "title": "An exported environment file reads back", "statement": "Reading an exported environment file line by line gives back exactly the variables.", "quantifier": "all variable maps and iteration orders", "why_tests_cant": "All values, including ones with separators.", "anchors": ["crates/rez-next-context/src/serialization.rs: ContextSerializer::export_to_env_file"]}
{"id": "C89", "title": "The package variables name the right package", "statement": "For every package of the environment, NAME_ROOT and NAME_VERSION hold its root and its version.", "quantifier": "all package lists, configurations and base environments", "why_tests_cant": "Names of different packages may collide after upper-casing.", "anchors": ["crates/rez-next-context/src/environment.rs: package_metadata_definitions"]}
{"id": "C90", "title": "A saved suite loads back unchanged", "statement": "Saving a suite to a directory and loading that directory gives the same contexts, description, conflict mode and tool table, marks the directory as a suite, and changes no other file or suite.", "quantifier": "all suites, directories and prior disk contents; any YAML library that reads back what it writes", "why_tests_cant": "Tests save one or two small suites; the claim ranges over all suites and over every other file on disk.", "anchors": ["crates/rez-next-suites/src/suite.rs: Suite::save, Suite::load, Suite::is_suite"]}
{"id": "C91", "title": "Loaded suites satisfy the naming rules", "statement": "Every suite obtained by loading has distinct context names that satisfy the naming rule enforced when contexts are added.", "quantifier": "all files that parse", "why_tests_cant": "Needs files not written by the tool and every edit history for those that were.", "anchors": ["crates/rez-next-suites/src/suite.rs: Suite::load, is_valid_context_name"]}
{"id": "C92", "title": "Context priority decides tool conflicts", "statement": "When two contexts expose the same tool name, the context with the higher priority wins, as documented on the field.", "quantifier": "all suites and conflict modes", "why_tests_cant": "A claim about every suite and mode; an independence proof shows the field is never read.", "anchors": ["crates/rez-next-suites/src/suite_context.rs: SuiteContext::priority", "crates/rez-next-suites/src/suite.rs: Suite::get_tools"]}
{"id": "C93", "title": "An interrupted save leaves the old or the new suite", "statement": "If saving a suite stops after any file-system step, the directory still loads as the old or the new suite, and other suites load as before.", "quantifier": "all suites, prior disks and interruption points", "why_tests_cant": "Tests do not kill the process between two file-system steps.", "anchors": ["crates/rez-next-suites/src/suite.rs: Suite::save"]}
{"id": "C94", "title": "Loading by name finds the first suite of that name on the search path", "statement": "load_suite returns the suite of the first search path that has a loadable suite of that name, and fails only if there is none.", "quantifier": "all search paths and disks", "why_tests_cant": "Needs adversarial directories on earlier paths.", "anchors": ["crates/rez-next-suites/src/suite_manager.rs: SuiteManager::load_suite"]}
{"id": "C95", "title": "contains_key says yes exactly when a lookup would find a value", "statement": "contains_key(k) is true exactly when get(k) at the same moment returns a value.", "quantifier": "all cache states, keys and moments", "why_tests_cant": "Needs expired entries on either level next to live ones, at every combination of deadlines.", "anchors": ["crates/rez-next-cache/src/intelligent_manager.rs: IntelligentCacheManager::contains_key", "crates/rez-next-cache/src/intelligent_manager.rs: IntelligentCacheManager::get"]}
{"id": "C96", "title": "Reported hits and misses match the lookups made", "statement": "After any history, the overall hits are the number of lookups that found a value and the overall misses the number that found none.", "quantifier": "all histories of operations", "why_tests_cant": "Tests count a handful of lookups and assert lower bounds.", "anchors": ["crates/rez-next-cache/src/cache_stats.rs", "crates/rez-next-cache/src/intelligent_manager.rs: IntelligentCacheManager::get"]}
{"id": "C97", "title": "A removed key stays removed until it is stored again", "statement": "After remove(k) returns, no lookup of k returns a value until some task stores k again, also when other tasks use the cache.", "quantifier": "all histories and all schedules of concurrent tasks", "why_tests_cant": "Needs a removal to fall between two steps of an eviction in another task.", "anchors": ["crates/rez-next-cache/src/intelligent_manager.rs: IntelligentCacheManager::remove", "crates/rez-next-cache/src/intelligent_manager.rs: evict and demote paths"]}
{"id": "C98", "title": "Under concurrent use a lookup returns only unexpired values stored under its key", "statement": "Whatever other tasks do, a lookup of k that returns v at time t saw an entry for k with value v, stored by some task and not expired.", "quantifier": "all schedules and all numbers of tasks", "why_tests_cant": "Interleavings cannot be enumerated by tests.", "anchors": ["crates/rez-next-cache/src/intelligent_manager.rs: IntelligentCacheManager::get", "crates/rez-next-cache/src/intelligent_manager.rs: IntelligentCacheManager::put"]}
{"id": "C99", "title": "Statistics of the repository cache match its contents and use", "statement": "The reported number of entries is the number of entries in the cache, and hits and misses add up to the lookups since the last clear.", "quantifier": "all histories and surroundings", "why_tests_cant": "Needs lookups that drop stale entries between the other operations.", "anchors": ["crates/rez-next-repository/src/cache.rs: RepositoryCache::get, put, remove, cleanup, get_stats"]}
{"id": "C100", "title": "The repository cache survives a restart", "statement": "A cache opened in the directory of an earlier one opens without error and serves the packages stored there that are still valid.", "quantifier": "all histories before the restart", "why_tests_cant": "Tests open a cache in a fresh directory.", "anchors": ["crates/rez-next-repository/src/cache.rs: RepositoryCache::initialize, load_cache_index, write_cache_file"]}
{"id": "C101", "title": "Asking for a version finds it in whichever repository has it", "statement": "Asking the manager for a name and version returns a package of that name and an equal version if any repository has one, and nothing otherwise, whatever was asked before.", "quantifier": "all repositories, names, versions and earlier questions", "why_tests_cant": "All contents and question histories.", "anchors": ["crates/rez-next-repository/src/simple_repository.rs: RepositoryManager::get_package", "crates/rez-next-repository/src/simple_repository.rs: SimpleRepository::get_package"]}
{"id": "C102", "title": "The list of package names is complete, sorted and without repeats", "statement": "Listing gives the name of every loadable package of every repository, once, in order, whatever was asked before.", "quantifier": "all repositories and map orders", "why_tests_cant": "All contents and map orders.", "anchors": ["crates/rez-next-repository/src/simple_repository.rs: RepositoryManager::list_packages"]}
{"id": "C103", "title": "The environment of a resolved context is what its export lines stand for", "statement": "The environment returned for a resolved context is obtained by reading the export lines of the packages in order, each value with the fields of its package and the variables as they are at that moment; it does not depend on the iteration order of maps, and unset variables read as nothing.", "quantifier": "all lists of packages with any commands, all system environments, all iteration orders of the map", "why_tests_cant": "The result depends on the iteration order of a randomised map and on unbounded texts; a test sees one order and one text.", "anchors": ["crates/rez-next-context/src/resolved_context.rs:150-252"]}
{"id": "C104", "title": "Variables that no package exports keep their value", "statement": "A variable that no export line of any package in the context assigns has, in the environment of the context, exactly the value it has in the system environment, or is unset in both.", "quantifier": "all lists of packages with any commands, all system environments, all variables, all iteration orders", "why_tests_cant": "Frame property over all command texts and all variables.", "anchors": ["crates/rez-next-context/src/resolved_context.rs:150-221"]}
{"id": "C105", "title": "Extending a search path in an export line keeps the old entries", "statement": "An export line that puts entries before or after the variable's own old value gives exactly those entries and the old value separated by a colon; no empty entry is added.", "quantifier": "all variables, values, environments and iteration orders", "why_tests_cant": "Needs all values and both states of the variable; an empty entry means the current directory to a shell and is easily overlooked.", "anchors": ["crates/rez-next-context/src/resolved_context.rs:186-221"]}
{"id": "C106", "title": "Tools and packages of a resolved context are found under a fixed rule", "statement": "The tool table has exactly the tools of the packages, each with the path under the root of the last package that has it; looking up a package gives the first of that name, and the version and variant lookups agree with it.", "quantifier": "all lists of packages, with repeated names and tools", "why_tests_cant": "Quantifies over all package lists with clashes.", "anchors": ["crates/rez-next-context/src/resolved_context.rs:105-147"]}
{"id": "C107", "title": "A search returns every package that matches", "statement": "For repositories and search options, the results contain one entry for every repository and package name that has a package matching the pattern and the version range, listing each matching version once, sorted by package name, and the result does not depend on hash map order.", "quantifier": "all repositories, patterns, filter modes, ranges, limits and map orders", "why_tests_cant": "Existing tests build result sets by hand or search empty directories; that the enumeration asks for the empty name, and what limits do under another map order, needs all repositories and orders.", "anchors": ["crates/rez-next-search/src/searcher.rs", "crates/rez-next-search/src/filter.rs", "crates/rez-next-search/src/result.rs"]}
{"id": "C108", "title": "The latest version of a search result is the highest", "statement": "The version shown as latest for a package in a search result is the highest matching version in the order of versions.", "quantifier": "all packages, version lists and options", "why_tests_cant": "Tests use single-digit versions for which text order and version order agree.", "anchors": ["crates/rez-next-search/src/searcher.rs", "crates/rez-next-search/src/result.rs"]}
{"id": "C109", "title": "The reverse dependency tree is layered by distance", "statement": "Layer k of a reverse dependency tree contains exactly the packages whose shortest chain of dependencies to the target has k links, up to the requested depth; every package appears once, no layer is empty, the construction ends on cycles, and the graph has one edge into every package but the target. A package is a dependent if one of its versions requires the other.", "quantifier": "all package graphs including cycles, targets and depths", "why_tests_cant": "Tests use two or three packages; layering, termination on cycles and uniqueness are statements about all graphs.", "anchors": ["crates/rez-next-repository/src/package_search.rs"]}
{"id": "C110", "title": "The depends command lists the packages that require the target", "statement": "The depends command lists, by distance, the packages of the configured repositories that require the target.", "quantifier": "all repositories, targets and depths", "why_tests_cant": "Tests do not populate repositories; that the list is always empty is a statement about all repositories.", "anchors": ["src/cli/commands/depends.rs", "crates/rez-next-repository/src/simple_repository.rs"]}
{"id": "C111", "title": "All plugins of a package are listed", "statement": "get_plugins returns, sorted and without repetition, the families that have a version declaring itself a plugin for the package.", "quantifier": "all search paths, directory listings and packages", "why_tests_cant": "Tests use families with one version; the outcome for families with several versions depends on the listing order.", "anchors": ["crates/rez-next-repository/src/package_search.rs"]}
{"id": "C112", "title": "Editing a suite changes what it says it changes", "statement": "Hiding a tool in a context withdraws exactly the names of that tool in that context; aliasing gives one name to a tool and changes nothing else; adding appends an empty context and fails exactly for bad or taken names; removing takes out exactly the named context; edits of missing contexts fail and leave the suite as it was.", "quantifier": "all suites reached by edits, names and tools", "why_tests_cant": "Tests check one edit on a small suite; that nothing else changes needs all suites.", "anchors": ["crates/rez-next-suites/src/suite.rs", "crates/rez-next-suites/src/suite_context.rs"]}
{"id": "C113", "title": "Copying a package makes a full copy and touches nothing else", "statement": "When copy_package (or rez cp) reports success, the destination directory contains exactly the directories, files and symbolic links of the source package with the same contents, the reported files and bytes are those of the package, the source is the first one on the search paths, and nothing outside the destination has changed.", "quantifier": "all disks, search paths, names, versions, destinations, force settings, and all ways in which operating system calls may fail", "why_tests_cant": "Tests copy small fixed trees between two temporary directories; they do not cover every relation between source, destination and search paths, nor every tree.", "anchors": ["crates/rez-next-package/src/package_copy.rs:91-217", "src/cli/commands/cp.rs:252-310"]}
{"id": "C114", "title": "A copy that fails does no harm", "statement": "When copy_package fails, at whatever point, the source package and all other packages are still there, and an existing destination is not touched without force; no half-copied package is left at the destination.", "quantifier": "all disks and arguments, and all ways in which operating system calls may fail", "why_tests_cant": "The failure may happen at any of unboundedly many calls and leave anything at the place where it happens; tests do not inject failures.", "anchors": ["crates/rez-next-package/src/package_copy.rs:91-217"]}
{"id": "C115", "title": "Moving a package keeps it", "statement": "After a move that reports success the package is at the destination with all its contents and no longer at its source, and packages elsewhere are as before; with keep_source it is a copy; a move to the same place is refused.", "quantifier": "all disks, search paths, destinations and failures of operating system calls, for move_package and rez mv", "why_tests_cant": "Tests use one search path apart from the destination; the loss of packages depends on how search paths, layouts and destination relate.", "anchors": ["crates/rez-next-package/src/package_move.rs:116-153", "src/cli/commands/mv.rs:279-330"]}
{"id": "C116", "title": "Removing a package version removes that version and nothing else", "statement": "A removal removes the directories of the version on all search paths, and family directories that become empty, and nothing else; its report lists exactly what was removed, with the right number and the freed bytes; the preview lists what would be removed; without force nothing is removed.", "quantifier": "all disks, search paths, names, versions and settings, and all ways in which operating system calls may fail, for remove_package_version, remove_package_family, preview_removal and rez rm", "why_tests_cant": "Tests look at single removals in fresh directories; what else changes on an arbitrary disk can not be enumerated.", "anchors": ["crates/rez-next-package/src/package_remove.rs:76-178", "src/cli/commands/rm.rs:140-180", "src/cli/commands/rm.rs:422-486"]}
{"id": "C117", "title": "The A* search returns resolutions", "statement": "Every state returned by AStarSearch::search holds, for each requirement of the caller and of every chosen package, a package of that name that the repositories offer, whose version is in the range of the requirement, and nothing that was not asked for; conflict requirements keep a package out and weak ones do not bring it in.", "quantifier": "all repositories, requirements, heuristics, hash functions, clocks and limits", "why_tests_cant": "The search branches over unboundedly many states in an order that depends on costs and hashes; tests run it on repositories with a handful of packages.", "anchors": ["crates/rez-next-solver/src/astar/astar_search.rs:101-251", "crates/rez-next-solver/src/astar/search_state.rs:94-175"]}
{"id": "C118", "title": "The A* search finds a resolution if there is one", "statement": "If the repositories can meet the requirements, AStarSearch::search does not return None, on the first and on later calls, unless it reports a limit or a repository error.", "quantifier": "all repositories with a resolution, requirements, heuristics and orders of the heap", "why_tests_cant": "Absence of a lost solution is a statement about all paths through the closed set, which hashes states incompletely.", "anchors": ["crates/rez-next-solver/src/astar/astar_search.rs:114-170", "crates/rez-next-solver/src/astar/search_state.rs:178-213"]}
{"id": "C119", "title": "The A* search ends", "statement": "AStarSearch::search ends on every repository and every list of requirements, also with circular requirements and whatever heuristic is given, after looking at no more than max_states states.", "quantifier": "all repositories with finitely many packages per name, requirements, heuristics, hash functions and clocks", "why_tests_cant": "Termination for all inputs can not be observed.", "anchors": ["crates/rez-next-solver/src/astar/astar_search.rs:114-170"]}
{"id": "C120", "title": "Heuristics that say they are admissible are", "statement": "A heuristic whose is_admissible returns true never estimates more than what the cheapest way from a state to a resolution costs.", "quantifier": "all states that a search can reach, all repositories", "why_tests_cant": "The cheapest way from a state is a minimum over unboundedly many paths, and tests only compare single estimates.", "anchors": ["crates/rez-next-solver/src/astar/heuristics.rs:83-96", "crates/rez-next-solver/src/astar/heuristics.rs:159-202", "crates/rez-next-solver/src/astar/heuristics.rs:215-274", "crates/rez-next-solver/src/astar/astar_search.rs:254-273"]}
{"id": "C121", "title": "The A* search finds a cheapest resolution", "statement": "No resolution of the requirements costs less than the one that the A* search returns.", "quantifier": "all repositories, requirements and resolutions", "why_tests_cant": "Optimality quantifies over all resolutions.", "anchors": ["crates/rez-next-solver/src/astar/astar_search.rs:101-171", "crates/rez-next-solver/src/astar/heuristics.rs:83-86", "crates/rez-next-solver/src/astar/search_state.rs:262-291"]}
{"id": "C122", "title": "The packages of a result are listed once each, in a fixed order", "statement": "reconstruct_path lists each chosen package once, in an order that depends only on the packages (the documentation says dependency order).", "quantifier": "all goal states and all orders of the hash map", "why_tests_cant": "The order of a hash map changes between runs of the same test.", "anchors": ["crates/rez-next-solver/src/astar/astar_search.rs:349-361"]}
{"id": "C123", "title": "A cached definition is that of the file as it is now", "statement": "A lookup in the file-based package cache that returns an entry returns the definition that is in the package's file at that moment.", "quantifier": "all histories of stores, lookups, removals, clears and restarts, with writes that fail or are cut short; all paths, times and hashes", "why_tests_cant": "Stale answers need particular spacings of file changes, operations and restarts, and hash collisions; the space of histories is unbounded.", "anchors": ["crates/rez-next-package-cache/src/lib.rs:56-88", "crates/rez-next-package-cache/src/lib.rs:233-286", "crates/rez-next-package-cache/src/lib.rs:381-403"]}
{"id": "C124", "title": "An entry is returned exactly while it is valid", "statement": "A lookup returns an entry only while the package's file exists with the recorded time of change (to the second) and the entry's time to live has not passed, and it does return the stored entry as long as this holds and nothing else was done to the path.", "quantifier": "all histories of operations, clocks, times to live and states of files", "why_tests_cant": "The clock may jump either way and the number of operations between store and lookup is unbounded.", "anchors": ["crates/rez-next-package-cache/src/lib.rs:56-88", "crates/rez-next-package-cache/src/lib.rs:156-182", "crates/rez-next-package-cache/src/lib.rs:247-274", "crates/rez-next-package-cache/src/lib.rs:371-378"]}
{"id": "C125", "title": "The file-based cache answers the same after a restart", "statement": "A lookup in a new process returns what it would have returned in the old one.", "quantifier": "all histories before the restart and all lookups after it", "why_tests_cant": "It relates two runs after arbitrary histories, with failing writes and colliding names.", "anchors": ["crates/rez-next-package-cache/src/lib.rs:223-286"]}
{"id": "C126", "title": "The cache never makes a lookup fail", "statement": "A lookup returns an entry or none; damaged cache files count as absent.", "quantifier": "all histories, including writes that stop in the middle", "why_tests_cant": "The failure lies in the combination of an interrupted process and any later lookups.", "anchors": ["crates/rez-next-package-cache/src/lib.rs:247-286"]}
{"id": "C127", "title": "Statistics count what happened", "statement": "hits is the number of lookups that returned an entry, misses the number of those that did not, puts, removes and clears the numbers of the calls.", "quantifier": "all histories, both backends", "why_tests_cant": "Counters are sums over unbounded histories.", "anchors": ["crates/rez-next-package-cache/src/lib.rs:113-124", "crates/rez-next-package-cache/src/lib.rs:156-212", "crates/rez-next-package-cache/src/lib.rs:317-320"]}
{"id": "C128", "title": "Clearing empties the cache and nothing else; invalidation drops stale entries only", "statement": "After clear no lookup finds anything and other files in the directory are untouched; invalidate_stale drops exactly the entries that are out of date and returns their number.", "quantifier": "all contents of the cache directory, all orders in which it is listed", "why_tests_cant": "The directory may hold any other files and may be listed in any order.", "anchors": ["crates/rez-next-package-cache/src/lib.rs:196-200", "crates/rez-next-package-cache/src/lib.rs:301-315", "crates/rez-next-package-cache/src/lib.rs:411-427"]}
{"id": "C129", "title": "Threads that share the cache lose nothing", "statement": "Under every schedule a lookup returns a current entry that was stored for its path, and an entry that was stored stays until it is out of date or removed.", "quantifier": "all numbers of threads, programs and schedules", "why_tests_cant": "A lost entry needs one schedule among exponentially many.", "anchors": ["crates/rez-next-package-cache/src/lib.rs:130-200"]}
{"id": "C130", "title": "Expressions in package.py have the values Python gives them", "statement": "When the loader evaluates an expression of a package.py file, the value is the one Python computes for it in the same variables and environment.", "quantifier": "all expressions the loader accepts, all variables and environment variables", "why_tests_cant": "Expressions nest without bound and mix operators, templates and calls; agreement with Python is a statement about every tree.", "anchors": ["crates/rez-next-package/src/python_ast_parser/eval.rs:11-369"]}
{"id": "C131", "title": "Loading a package.py ends in a package or an error", "statement": "No package.py file makes the loader panic.", "quantifier": "all files", "why_tests_cant": "The input is an unbounded set of programs.", "anchors": ["crates/rez-next-package/src/python_ast_parser/mod.rs:37-103", "crates/rez-next-package/src/python_ast_parser/eval.rs:79-107"]}
{"id": "C132", "title": "Fields of the package are the final values of the file's variables", "statement": "After loading, every known field holds the value its variable has at the end of the file, and a field whose variable is never set is absent.", "quantifier": "all files that load, all environments", "why_tests_cant": "Assignments, conditions and re-assignments combine without bound; the value at the end depends on the whole history.", "anchors": ["crates/rez-next-package/src/python_ast_parser/mod.rs:105-303", "crates/rez-next-package/src/python_ast_parser/extract.rs:11-178"]}
{"id": "C133", "title": "The stored commands do what the commands function does", "statement": "The text kept for commands, pre_commands, post_commands and pre_test_commands, when parsed, gives the actions that running the function after reading the file would perform, in order.", "quantifier": "all files and function bodies that load", "why_tests_cant": "Bodies contain conditions, locals and calls in any number, and the text is parsed again by another component.", "anchors": ["crates/rez-next-package/src/python_ast_parser/commands.rs:50-322", "crates/rez-next-rex/src/parser.rs"]}
{"id": "C134", "title": "A command function changes its own field and nothing else", "statement": "Removing the definition of a command function from a file that loads leaves a file that loads to the same package except for that function's field.", "quantifier": "all files and positions of the definition", "why_tests_cant": "It relates two runs on arbitrary files.", "anchors": ["crates/rez-next-package/src/python_ast_parser/commands.rs:24-66", "crates/rez-next-package/src/python_ast_parser/mod.rs:143-177"]}
{"id": "C135", "title": "What is loaded is a valid package", "statement": "A loaded package has a name of letters, digits, underscores and dashes, and no empty requirement in any list or variant; and fields that make such a package are accepted.", "quantifier": "all files", "why_tests_cant": "Validity must hold for every way of building the fields.", "anchors": ["crates/rez-next-package/src/package/methods.rs:137-197", "crates/rez-next-package/src/python_ast_parser/mod.rs:364-408"]}
{"id": "C136", "title": "A package.py written by the serializer loads to the package that was saved", "statement": "Saving a package as package.py and loading the text gives back the package.", "quantifier": "all valid packages and options", "why_tests_cant": "The text is code; whether a value stays a value depends on every character in it.", "anchors": ["crates/rez-next-package/src/serialization/save.rs:256-329", "crates/rez-next-package/src/serialization/load.rs:95-97"]}
{"id": "C137", "title": "A package.py written by to_package_py loads to the package", "statement": "Package::to_package_py gives a text that loads to the same package.", "quantifier": "all valid packages", "why_tests_cant": "The writer and the loader are separate programs with different ideas about escapes and flags.", "anchors": ["crates/rez-next-package/src/package/methods.rs:278-430"]}
{"id": "C138", "title": "A package.py written by the Python class loads to the package", "statement": "Package.to_package_py of the Python API gives a text that loads to the same package.", "quantifier": "all valid packages", "why_tests_cant": "Layout depends on the length of the description and on the number of entries.", "anchors": ["crates/rez-next-python/src/package_bindings.rs:544-686"]}
{"id": "C139", "title": "JSON and YAML texts load to the package that was saved", "statement": "save_to_string followed by load_from_string in the same data format gives back every valid package, and is an error for every other package.", "quantifier": "all packages, all four data formats", "why_tests_cant": "There are some forty optional fields; writer and reader must agree on all combinations.", "anchors": ["crates/rez-next-package/src/serialization/save.rs:77-102", "crates/rez-next-package/src/serialization/load.rs:79-217"]}
{"id": "C140", "title": "JSON and YAML files load to the package that was saved", "statement": "save_to_file followed by load_from_file gives back every valid package.", "quantifier": "all packages, options and paths", "why_tests_cant": "Options choose between layouts of the file; the loader must understand each of them.", "anchors": ["crates/rez-next-package/src/serialization/save.rs:18-75", "crates/rez-next-package/src/serialization/load.rs:16-65"]}
{"id": "C141", "title": "Binary texts and files load to the package that was saved", "statement": "Saving in the binary format and loading gives back the package, without the fields the options leave out.", "quantifier": "all packages and options", "why_tests_cant": "Positional formats need writer and reader to agree on the number of fields.", "anchors": ["crates/rez-next-package/src/serialization/save.rs:331-340", "crates/rez-next-package/src/serialization/load.rs:220-233", "crates/rez-next-package/src/package/serialize.rs:11-272"]}
{"id": "C142", "title": "TOML texts and files load to the package that was saved", "statement": "Saving as TOML and loading gives back every serialized field of the package as filtered by the options.", "quantifier": "all packages and options", "why_tests_cant": "There are some forty optional fields, and TOML has no null.", "anchors": ["crates/rez-next-package/src/serialization/save.rs:342-348", "crates/rez-next-package/src/serialization/load.rs:235-239"]}
{"id": "C143", "title": "XML texts and files load to the package that was saved", "statement": "Saving as XML and loading gives back the package, and no text makes the loader panic.", "quantifier": "all packages, all texts", "why_tests_cant": "Values are pasted between tags; which tag is found first depends on all of them.", "anchors": ["crates/rez-next-package/src/serialization/save.rs:350-391", "crates/rez-next-package/src/serialization/load.rs:241-271"]}
{"id": "C144", "title": "Options select fields", "statement": "A field that the options exclude is not in the saved package; a field that is not excluded, and is asked for when a list of fields is given, is in it unchanged.", "quantifier": "all options and packages, all fields", "why_tests_cant": "It quantifies over sets of field names and over all fields.", "anchors": ["crates/rez-next-package/src/serialization/save.rs:154-195"]}
{"id": "C145", "title": "The format of a saved file is found from its name", "statement": "A file with the default name of a format, in any directory, is recognised as that format.", "quantifier": "all directories and formats", "why_tests_cant": "Directories may contain any characters, dots included.", "anchors": ["crates/rez-next-package/src/serialization/types.rs:80-145"]}
{"id": "C146", "title": "Wildcards in requirements are expanded", "statement": "expand_requirement replaces every wildcard of a request by what the callback knows about the package, and keeps requests without wildcards.", "quantifier": "all requests, callbacks and placeholder names", "why_tests_cant": "Requests and callbacks are unbounded, and placeholders are random.", "anchors": ["crates/rez-next-package/src/package_py_utils.rs:18-109"]}
{"id": "C147", "title": "A dotted key reads nested tables", "statement": "Config.get gives a value for exactly the keys that spell a path of tables to it; the typed getters give it when it has the type.", "quantifier": "all trees of settings, all keys", "why_tests_cant": "Trees of any depth; names may hold dots.", "anchors": ["crates/rez-next-config/src/lib.rs:121-174"]}
{"id": "C148", "title": "A tree of settings merged in wins setting by setting", "statement": "After merging, a setting is the one of the tree merged in, or the one of the other tree when the first says nothing about its path.", "quantifier": "all trees, all paths", "why_tests_cant": "Trees of any depth and tables against values in any place.", "anchors": ["crates/rez-next-config/src/lib.rs:233-260"]}
{"id": "C149", "title": "Project settings override those of the user, which override those of the system", "statement": "Config.load gives each setting from the strongest layer that says something about it, and fails exactly if a chosen file cannot be read.", "quantifier": "all files, trees and directories", "why_tests_cant": "Three trees and seven places give unboundedly many combinations.", "anchors": ["crates/rez-next-config/src/lib.rs:94-119", "crates/rez-next-config/src/lib.rs:285-328"]}
{"id": "C150", "title": "Environment variables override the files", "statement": "A variable REZ_FOO_BAR sets foo.bar, whatever the files say, and no other setting changes.", "quantifier": "all environments, files and orders of variables", "why_tests_cant": "The order of variables is up to the system, and files may hold anything on the way.", "anchors": ["crates/rez-next-config/src/lib.rs:262-283", "crates/rez-next-config/src/lib.rs:351-377"]}
{"id": "C151", "title": "REZ_CONFIG_FILE names the file with the settings", "statement": "The file named by REZ_CONFIG_FILE is read by all commands.", "quantifier": "all file names and machines", "why_tests_cant": "Names are unbounded; a test that sets a short name would pass.", "anchors": ["crates/rez-next-common/src/config.rs:139-191", "crates/rez-next-common/src/config.rs:202-237"]}
{"id": "C152", "title": "A configuration file sets what it says", "statement": "A file of settings in a place that is searched changes the settings it names, others keep their defaults.", "quantifier": "all files and machines", "why_tests_cant": "It speaks about all subsets of the fields.", "anchors": ["crates/rez-next-common/src/config.rs:8-136", "crates/rez-next-common/src/config.rs:202-237"]}
{"id": "C153", "title": "Variables with package paths are read as lists of directories", "statement": "REZ_PACKAGES_PATH holds exactly the directories joined by colons, and with the two others wins over every file.", "quantifier": "all lists of directories, all files", "why_tests_cant": "Lists are unbounded and may hold blanks.", "anchors": ["crates/rez-next-common/src/config.rs:225-237", "crates/rez-next-common/src/config.rs:256-264"]}
{"id": "C154", "title": "The list of sourced files names the files that are used", "statement": "rez config --source-list prints the files whose settings are in force.", "quantifier": "all machines", "why_tests_cant": "It quantifies over all files that may be there together.", "anchors": ["crates/rez-next-common/src/config.rs:193-200", "src/cli/commands/config.rs:59-68"]}
{"id": "C155", "title": "Every setting can be asked for and the dump is a valid file", "statement": "rez config FIELD knows every field by its dotted name and no other, and the JSON dump, used as a file, gives the same settings.", "quantifier": "all settings", "why_tests_cant": "Settings hold unbounded lists and numbers.", "anchors": ["crates/rez-next-common/src/config.rs:239-253", "src/cli/commands/config.rs:70-130"]}
{"id": "C156", "title": "Comparing two contexts lists every package once", "statement": "The comparison of two lists of packages has one entry for each name with a version on either side, with the right kind of change, sorted, and the counts fit.", "quantifier": "all lists of packages, all orders of the maps", "why_tests_cant": "Lists are unbounded and the order of hash maps is random.", "anchors": ["crates/rez-next-python/src/diff_bindings.rs:146-219", "crates/rez-next-python/src/diff_bindings.rs:271-292", "crates/rez-next-python/src/diff_bindings.rs:349-377"]}
{"id": "C157", "title": "Contexts are identical when they hold the same packages", "statement": "is_identical is true exactly if both contexts hold the same packages in the same versions.", "quantifier": "all lists of packages", "why_tests_cant": "It quantifies over all pairs of lists.", "anchors": ["crates/rez-next-python/src/diff_bindings.rs:99-113"]}
{"id": "C158", "title": "Turning a comparison round turns the entries round", "statement": "Comparing new with old swaps added and removed, upgraded and downgraded.", "quantifier": "all pairs of lists", "why_tests_cant": "A symmetry over all versions.", "anchors": ["crates/rez-next-python/src/diff_bindings.rs:146-219"]}
{"id": "C159", "title": "Contexts can be compared by the texts of requests", "statement": "diff_contexts compares the packages named by the request texts.", "quantifier": "all texts", "why_tests_cant": "Names and versions are unbounded texts.", "anchors": ["crates/rez-next-python/src/diff_bindings.rs:237-293"]}
{"id": "C160", "title": "rez diff with one package compares it with the version before", "statement": "The other side is the greatest version below the given one.", "quantifier": "all repositories", "why_tests_cant": "Repositories are unbounded.", "anchors": ["src/cli/commands/diff.rs:186-206", "src/cli/commands/diff.rs:262-289"]}
{"id": "C161", "title": "rez diff shows every field that changed", "statement": "The shown changes are exactly the fields in which the packages differ.", "quantifier": "all pairs of packages", "why_tests_cant": "Fields hold unbounded lists.", "anchors": ["src/cli/commands/diff.rs:292-377", "src/cli/commands/diff.rs:454-462"]}
{"id": "C162", "title": "Names of packages with versions are read the same everywhere", "statement": "The text of a package, name-version, given to rez diff names that package.", "quantifier": "all names and versions", "why_tests_cant": "Names and versions hold dashes in any place.", "anchors": ["src/cli/commands/diff.rs:209-221", "src/cli/commands/diff.rs:224-259"]}
{"id": "C163", "title": "Search shows exactly the matching packages, sorted, up to the limit", "statement": "Every package of the repositories that the query and filters fit is found once, with its points and fields; the shown ones are the first of the sorted list.", "quantifier": "all repositories, queries and options", "why_tests_cant": "Repositories and queries are unbounded.", "anchors": ["src/cli/commands/search_v2/matcher.rs:21-170", "src/cli/commands/search_v2/filter.rs:14-139"]}
{"id": "C164", "title": "Search can show one package of each name", "statement": "With --latest-only the newest of each name are shown in the asked order, for families the best fitting of each name.", "quantifier": "all repositories and orders of the map", "why_tests_cant": "The order of hash maps is random.", "anchors": ["src/cli/commands/search_v2/filter.rs:93-169"]}
{"id": "C165", "title": "Search filters by time", "statement": "With --newer-than and --older-than only packages between these times are shown.", "quantifier": "all texts and packages", "why_tests_cant": "Texts for times are unbounded.", "anchors": ["src/cli/commands/search_v2/filter.rs:21-44", "src/cli/commands/search_v2/matcher.rs:10-17", "src/cli/utils.rs:158-169"]}
{"id": "C166", "title": "Relative times count back from now", "statement": "A number with d, w, m or y is that many days, weeks, months or years ago.", "quantifier": "all numbers", "why_tests_cant": "Machine numbers overflow far outside of tests.", "anchors": ["src/cli/utils.rs:158-204"]}
{"id": "C167", "title": "Search filters by variant", "statement": "With --has-variant only packages with such a variant are shown.", "quantifier": "all packages and texts", "why_tests_cant": "Variants are unbounded lists.", "anchors": ["src/cli/commands/search_v2/filter.rs:47-84"]}
{"id": "C168", "title": "Search takes regular expressions", "statement": "With --regex the packages are those with a field that the expression matches.", "quantifier": "all expressions and packages", "why_tests_cant": "Patterns are unbounded.", "anchors": ["src/cli/commands/search_v2/matcher.rs:28-157"]}
{"id": "C169", "title": "Lists of paths and home directories on the command line", "statement": "A list joined with the separator of the platform is read back, and ~ stands for the home directory.", "quantifier": "all lists of paths", "why_tests_cant": "Lists are unbounded.", "anchors": ["src/cli/utils.rs:104-139"]}
{"id": "C170", "title": "Resolving a conflict of requirements", "statement": "The chosen version is the greatest, the least, or one that meets all requirements.", "quantifier": "all conflicts", "why_tests_cant": "Lists of requirements are unbounded.", "anchors": ["crates/rez-next-solver/src/conflict.rs:27-167"]}
{"id": "C171", "title": "A collection of conflicts holds what was added", "statement": "After any calls the conflicts of a name are those added since its last removal, in order, and the collection lists and counts exactly these.", "quantifier": "all sequences of calls", "why_tests_cant": "Histories are unbounded.", "anchors": ["crates/rez-next-solver/src/dependency_conflicts.rs:15-62"]}
{"id": "C172", "title": "A repository with uncommitted changes is not released", "statement": "If the repository does not pass validation, the release manager installs and tags nothing.", "quantifier": "all packages, disks and states of the repository", "why_tests_cant": "The fault shows only in what is left on disk after a reported failure, for every package.", "anchors": ["crates/rez-next-build/src/release.rs:84-150", "crates/rez-next-build/src/release.rs:228-262"]}
{"id": "C173", "title": "A dry run changes nothing", "statement": "In dry-run mode no file, directory or tag is made, changed or removed, whatever happens.", "quantifier": "all packages, disks and outcomes of the system", "why_tests_cant": "It quantifies over all disks and failures.", "anchors": ["crates/rez-next-build/src/release.rs:84-150"]}
{"id": "C174", "title": "A dry run tells whether the release would be refused", "statement": "A dry run is a success exactly if the release passes its checks.", "quantifier": "all packages and repositories", "why_tests_cant": "It compares two runs in every state.", "anchors": ["crates/rez-next-build/src/release.rs:109-116"]}
{"id": "C175", "title": "A released version is not changed", "statement": "A version that was released and tagged is not replaced by a second release.", "quantifier": "all disks and tags", "why_tests_cant": "It quantifies over all earlier releases.", "anchors": ["crates/rez-next-build/src/release.rs:360-417", "crates/rez-next-build/src/release.rs:487-517"]}
{"id": "C176", "title": "A release writes only below its install path", "statement": "Whatever fails, every file and directory outside of base/name/version stays as it was.", "quantifier": "all packages, disks and outcomes of the system", "why_tests_cant": "It quantifies over all files and all failures.", "anchors": ["crates/rez-next-build/src/release.rs:84-517"]}
{"id": "C177", "title": "A successful release is complete", "statement": "If success is reported, the definition and all variants are installed, the tests passed and the tag exists.", "quantifier": "all packages, repositories and outcomes of the system", "why_tests_cant": "It quantifies over all combinations of failures.", "anchors": ["crates/rez-next-build/src/release.rs:84-653", "crates/rez-next-build/src/vcs/hg.rs:107-111"]}
{"id": "C178", "title": "A failed release leaves nothing behind", "statement": "If the release fails, neither tag nor files stay.", "quantifier": "all failures", "why_tests_cant": "It quantifies over the step that fails.", "anchors": ["crates/rez-next-build/src/release.rs:84-150"]}
{"id": "C179", "title": "Packages are released to the configured path", "statement": "In release mode the package goes to release_packages_path/name/version, in local mode to local_packages_path/name/version, with ~ for the home directory.", "quantifier": "all settings and packages", "why_tests_cant": "Settings are unbounded texts.", "anchors": ["crates/rez-next-build/src/release.rs:16-34", "crates/rez-next-build/src/release.rs:202-225", "crates/rez-next-build/src/release.rs:657-669"]}
{"id": "C180", "title": "rez release succeeds exactly if all was built, tagged and pushed", "statement": "The command succeeds exactly if its checks, all selected builds, the tag and the push succeed; then these builds are installed and the tag is here and at the origin. A dry run changes nothing.", "quantifier": "all packages, options and outcomes", "why_tests_cant": "It quantifies over all outcomes of all programs.", "anchors": ["src/cli/commands/release.rs:66-182", "src/cli/commands/release.rs:312-360"]}
{"id": "C181", "title": "A failed rez release leaves tags and packages as they were", "statement": "After a failure no tag is left here or at the origin and no package is installed.", "quantifier": "all packages, options and outcomes", "why_tests_cant": "It quantifies over the step that fails.", "anchors": ["src/cli/commands/release.rs:66-182", "src/cli/commands/release.rs:312-360"]}
{"id": "C182", "title": "rez release refuses uncommitted changes and directories that are no repository", "statement": "If the state of the repository is not known to be clean, the command fails and changes nothing.", "quantifier": "all states of the repository", "why_tests_cant": "It quantifies over all answers of git.", "anchors": ["src/cli/commands/release.rs:266-299"]}
{"id": "C183", "title": "An existing tag stops rez release unless it is told to ignore it", "statement": "With --ignore-existing-tag a version can be released again, otherwise the command fails and changes nothing.", "quantifier": "all packages, tags and options", "why_tests_cant": "It quantifies over all histories of tags.", "anchors": ["src/cli/commands/release.rs:102-111", "src/cli/commands/release.rs:312-334"]}
{"id": "C184", "title": "rez release builds the selected variants", "statement": "The indices given with --variants are built once each in the order first written; all variants without the option; anything else is an error.", "quantifier": "all texts and packages", "why_tests_cant": "Selections are unbounded texts.", "anchors": ["src/cli/commands/release.rs:184-227"]}
{"id": "C185", "title": "Names that pip takes for the same become the same package", "statement": "The Python API and rez pip map two pip names to the same package name exactly if pip takes them for the same, and they agree with each other.", "quantifier": "all names", "why_tests_cant": "Names are unbounded texts and the claim compares two programs on all of them.", "anchors": ["crates/rez-next-python/src/pip_bindings.rs:80-86", "src/cli/commands/pip.rs:124", "src/cli/commands/pip.rs:330-336"]}
{"id": "C186", "title": "A converted requirement accepts the releases that pip accepts", "statement": "The rez requirement made of a pip requirement accepts a release exactly if the pip specifiers accept it.", "quantifier": "all names, all specifiers over releases of one to five numbers and all releases", "why_tests_cant": "The sets of accepted releases are infinite.", "anchors": ["crates/rez-next-python/src/pip_bindings.rs:93-138", "crates/rez-next-python/src/pip_bindings.rs:191-204"]}
{"id": "C187", "title": "A converted requirement is a requirement on the package that is named", "statement": "The requirement made of a pip name is read back as one on that package without a constraint.", "quantifier": "all names of letters, digits, dots, dashes and underscores", "why_tests_cant": "Names are unbounded.", "anchors": ["crates/rez-next-python/src/pip_bindings.rs:191-204", "src/cli/commands/pip.rs:338-350"]}
{"id": "C188", "title": "get_pip_dependencies returns the packages that require a package", "statement": "A family is in the result exactly if one of its packages requires the named package; every family is given once.", "quantifier": "all repositories and names", "why_tests_cant": "It quantifies over all repositories.", "anchors": ["crates/rez-next-python/src/pip_bindings.rs:247-299"]}
{"id": "C189", "title": "The name in a pip specification is found", "statement": "The package that rez pip looks for after an installation is the one pip has installed.", "quantifier": "all specifications", "why_tests_cant": "Specifications are unbounded texts.", "anchors": ["crates/rez-next-python/src/pip_bindings.rs:152-174", "src/cli/commands/pip.rs:399-410"]}
{"id": "C190", "title": "rez pip succeeds only if it made every package", "statement": "A success of rez pip means that there is a rez package for every specification.", "quantifier": "all specifications and all answers of pip", "why_tests_cant": "It quantifies over all answers of external programs.", "anchors": ["src/cli/commands/pip.rs:62-142", "src/cli/commands/pip.rs:209-233"]}
{"id": "C191", "title": "A package made by rez pip holds the files of its distribution", "statement": "After rez pip the payload of a package is what pip installs for its specification.", "quantifier": "all lists of specifications, disks and answers of pip", "why_tests_cant": "It quantifies over all file trees and earlier contents.", "anchors": ["src/cli/commands/pip.rs:112-135", "src/cli/commands/pip.rs:317-397"]}
{"id": "C192", "title": "A package made by rez pip can be loaded", "statement": "package.py as written by rez pip is loaded as a package with the name, version, summary and requirements that pip gave.", "quantifier": "all distributions", "why_tests_cant": "It is a round trip through a writer and a reader on unbounded texts.", "anchors": ["src/cli/commands/pip.rs:317-375"]}
{"id": "C193", "title": "rez pip --dry-run changes nothing", "statement": "A dry run writes nothing and succeeds exactly if there is a Python and a specification.", "quantifier": "all arguments, disks and surroundings", "why_tests_cant": "It quantifies over all disks.", "anchors": ["src/cli/commands/pip.rs:62-142"]}
{"id": "C194", "title": "Requirement files are read as pip reads them", "statement": "The specifications are those of the command line followed by those of the file in their order, without comments.", "quantifier": "all files", "why_tests_cant": "Files are unbounded texts.", "anchors": ["src/cli/commands/pip.rs:85-104"]}
{"id": "C195", "title": "rez pip writes only below the chosen directory", "statement": "Files and directories outside of --prefix, the release path with --release or the local path stay as they were, whatever fails.", "quantifier": "all arguments, disks and answers of pip", "why_tests_cant": "It quantifies over all files and all failures.", "anchors": ["src/cli/commands/pip.rs:62-142", "src/cli/commands/pip.rs:317-397"]}
{"id": "C196", "title": "The output of pip show is read", "statement": "Name, version, requirements and summary are those of the last lines with these labels; without name or version there is no package.", "quantifier": "all outputs", "why_tests_cant": "Outputs are unbounded texts.", "anchors": ["src/cli/commands/pip.rs:235-268"]}
{"id": "C197", "title": "Installed distributions are found by their dist-info directory", "statement": "The first directory of the distribution gives name and version, and METADATA gives its requirements.", "quantifier": "all directory contents and names", "why_tests_cant": "It quantifies over all directories.", "anchors": ["src/cli/commands/pip.rs:270-315"]}
{"id": "C198", "title": "write_pip_package writes the package and nothing else", "statement": "It writes package.py in name/version, refuses to overwrite unless told to, and changes nothing else; what the package puts on PYTHONPATH is there.", "quantifier": "all packages and disks", "why_tests_cant": "It quantifies over all files on disk.", "anchors": ["crates/rez-next-python/src/pip_bindings.rs:301-331", "crates/rez-next-python/src/pip_bindings.rs:48-78"]}
{"id": "C199", "title": "A package written by write_pip_package can be loaded", "statement": "package.py as written by the API is loaded as the package it was made of.", "quantifier": "all packages", "why_tests_cant": "It is a round trip through a writer and a reader on unbounded texts.", "anchors": ["crates/rez-next-python/src/pip_bindings.rs:48-78"]}
{"id": "C200", "title": "Ignoring a package version hides it and nothing else", "statement": "After ignore_package reported success the version is not listed; every other version and family is listed as before, and all files of packages are as before.", "quantifier": "all repositories, names, versions and failing calls", "why_tests_cant": "It quantifies over all directory trees and over which calls fail.", "anchors": ["crates/rez-next-repository/src/package_repository/filesystem.rs:330-363", "crates/rez-next-repository/src/package_repository/filesystem.rs:225-291"]}
{"id": "C201", "title": "The results of ignore_package and unignore_package tell what was there", "statement": "-1, 0 and 1 are returned exactly if the version is missing, was in that state already, or was changed; unignoring a version that was ignored gives back the disk.", "quantifier": "all repositories, names and versions", "why_tests_cant": "It quantifies over all directory trees.", "anchors": ["crates/rez-next-repository/src/package_repository/filesystem.rs:330-388"]}
{"id": "C202", "title": "A removal that fails never leaves half a package in the listing", "statement": "Whatever call fails in remove_package, every version listed afterwards was listed before and has all its files; success means that the version and its marker are gone and all else is as before.", "quantifier": "all repositories, names, versions and failing calls, and all that a failed removal leaves", "why_tests_cant": "It quantifies over all failures and over what they leave.", "anchors": ["crates/rez-next-repository/src/package_repository/filesystem.rs:390-418"]}
{"id": "C203", "title": "A version that was removed can be released again", "statement": "A version put back after its removal, or after the removal was tried again, is listed.", "quantifier": "all repositories, names, versions and failing calls", "why_tests_cant": "It is about sequences of operations with failures.", "anchors": ["crates/rez-next-repository/src/package_repository/filesystem.rs:390-418", "crates/rez-next-repository/src/package_repository/filesystem.rs:455-536"]}
{"id": "C204", "title": "Cleaning removes exactly the versions ignored long enough", "statement": "remove_ignored_since touches no version that is not ignored or not for that long, removes all the others, and its result and that of a trial run are their number.", "quantifier": "all repositories, days, ages and failing calls", "why_tests_cant": "It quantifies over all trees, ages and failures.", "anchors": ["crates/rez-next-repository/src/package_repository/filesystem.rs:455-536"]}
{"id": "C205", "title": "Removing a family needs force if it has packages", "statement": "Without force remove_package_family changes nothing if the family has a package; other families are never changed.", "quantifier": "all repositories, names and failing calls", "why_tests_cant": "It quantifies over all trees and failures.", "anchors": ["crates/rez-next-repository/src/package_repository/filesystem.rs:420-453"]}
{"id": "C206", "title": "A read-only repository is never changed", "statement": "Every operation that writes is an error and leaves the disk as it is.", "quantifier": "all operations, arguments and disks", "why_tests_cant": "It quantifies over all arguments and disks.", "anchors": ["crates/rez-next-repository/src/package_repository/filesystem.rs:123-131", "crates/rez-next-repository/src/package_repository/filesystem.rs:330-536"]}
{"id": "C207", "title": "Names of families and versions cannot lead elsewhere", "statement": "Operations accept exactly the names of a single directory, and change nothing outside of the directory of the family.", "quantifier": "all texts as names and versions, all disks", "why_tests_cant": "Names are unbounded texts.", "anchors": ["crates/rez-next-repository/src/package_repository/filesystem.rs:102-147", "crates/rez-next-repository/src/package_repository/filesystem.rs:158-177"]}
{"id": "C208", "title": "get_package finds the package asked for", "statement": "With a version it finds the package of that version if it is listed and else nothing; without one it finds the latest.", "quantifier": "all repositories, names and versions", "why_tests_cant": "It quantifies over all directory trees and orders of reading.", "anchors": ["crates/rez-next-repository/src/package_repository/mod.rs:174-198", "crates/rez-next-repository/src/package_repository/filesystem.rs:225-291"]}
{"id": "C209", "title": "Families are listed exactly", "statement": "The listed families are the directories whose name does not start with a dot or underscore, each once; a family is found exactly if it is listed, and ignoring a version adds none.", "quantifier": "all repositories", "why_tests_cant": "It quantifies over all directory trees.", "anchors": ["crates/rez-next-repository/src/package_repository/filesystem.rs:158-223", "crates/rez-next-repository/src/package_repository/mod.rs:168-171"]}
{"id": "C210", "title": "unbundle_context gives back what bundle_context was given", "statement": "The list of packages that unbundle_context returns is the one bundle_context wrote, and nothing but the manifest is written.", "quantifier": "all lists of texts, directories and disks", "why_tests_cant": "Texts and lists are unbounded, and the reader of the manifest is a state machine over its lines.", "anchors": ["crates/rez-next-python/src/bundle_functions.rs:12-88"]}
{"id": "C211", "title": "unbundle_context reads bundles made by the command", "statement": "For a directory made by rez bundle, unbundle_context returns the packages of the bundle.", "quantifier": "all requests, resolutions, disks and failing calls", "why_tests_cant": "It relates two programs over all bundles.", "anchors": ["crates/rez-next-python/src/bundle_functions.rs:44-88", "src/cli/commands/bundle.rs:233-252"]}
{"id": "C212", "title": "list_bundles lists exactly the bundles", "statement": "The listed names are the directories with a manifest, each once and in order.", "quantifier": "all directory trees", "why_tests_cant": "It quantifies over all trees.", "anchors": ["crates/rez-next-python/src/bundle_functions.rs:93-123"]}
{"id": "C213", "title": "The arguments of rez bundle are taken as meant", "statement": "The last argument is the destination exactly if it is a path and no other one was given, all others are requests, and nothing is done without a request that can be read.", "quantifier": "all lists of arguments and disks", "why_tests_cant": "Arguments are unbounded texts.", "anchors": ["src/cli/commands/bundle.rs:75-152"]}
{"id": "C214", "title": "Bundles of different requests are in different directories", "statement": "Without a name or a directory, different requests lead to different bundles.", "quantifier": "all lists of requests", "why_tests_cant": "It quantifies over pairs of lists of texts.", "anchors": ["src/cli/commands/bundle.rs:119-134"]}
{"id": "C215", "title": "A bundle that was made has its packages", "statement": "If rez bundle succeeds, every resolved package is in the bundle with the files of the first path that has it, and no other files.", "quantifier": "all requests, resolutions, disks and failing calls", "why_tests_cant": "It quantifies over all trees and failures.", "anchors": ["src/cli/commands/bundle.rs:154-218", "src/cli/commands/bundle.rs:344-370"]}
{"id": "C216", "title": "rez bundle touches nothing outside of the bundle", "statement": "Whatever call fails, only the directory of the bundle changes; after success its files are there with their texts.", "quantifier": "all requests, resolutions, disks and failing calls, and all that a failed write leaves", "why_tests_cant": "It quantifies over all trees and failures.", "anchors": ["src/cli/commands/bundle.rs:96-274"]}
{"id": "C217", "title": "Reading activate.sh sets up the packages", "statement": "bash reads from activate.sh the root of every package, the bin directories of those that have one, and nothing else.", "quantifier": "all bundles and orders of maps", "why_tests_cant": "It is about how a shell reads all scripts that can be written.", "anchors": ["src/cli/commands/bundle.rs:372-435"]}
{"id": "C218", "title": "activate.sh keeps the path and works anywhere", "statement": "The previous PATH stays after the bin directories, and the roots hold in any working directory.", "quantifier": "all bundles", "why_tests_cant": "It is about every script that is written.", "anchors": ["src/cli/commands/bundle.rs:128-134", "src/cli/commands/bundle.rs:372-417"]}
{"id": "C219", "title": "Bundling does not change the packages", "statement": "The packages a bundle is made of are as before.", "quantifier": "all requests, resolutions, disks and failing calls", "why_tests_cant": "It quantifies over all trees, paths and failures.", "anchors": ["src/cli/commands/bundle.rs:184-218", "src/cli/commands/bundle.rs:355-370"]}
{"id": "C220", "title": "A build succeeds exactly if all its steps do", "statement": "A build is a success exactly if the eight steps pass in their order; otherwise no step after the one that failed is carried out, and the output has that of the steps that were. With skip_tests no test is run.", "quantifier": "all behaviours of the steps, worlds and packages", "why_tests_cant": "It quantifies over everything steps can do.", "anchors": ["crates/rez-next-build/src/process.rs:131-232", "crates/rez-next-build/src/process.rs:269-444"]}
{"id": "C221", "title": "The events of a build tell its course", "statement": "Listeners get a start, the beginning, lines and end of each step, and in every case the end of the build with its result.", "quantifier": "all behaviours of the steps", "why_tests_cant": "It is about all courses of a build.", "anchors": ["crates/rez-next-build/src/process.rs:269-389", "crates/rez-next-build/src/process.rs:648-694"]}
{"id": "C222", "title": "The errors of a failed build say why it failed", "statement": "The error text of a failed build has the message of the step that failed.", "quantifier": "all behaviours of the steps and all texts", "why_tests_cant": "It is about all courses of a build.", "anchors": ["crates/rez-next-build/src/process.rs:149-173", "crates/rez-next-build/src/process.rs:319-376"]}
{"id": "C223", "title": "A cancelled build stops", "statement": "After cancel, no further step is carried out and the build does not end as a success.", "quantifier": "all interleavings of the task and calls of cancel", "why_tests_cant": "Tests see one interleaving at a time.", "anchors": ["crates/rez-next-build/src/process.rs:149-173", "crates/rez-next-build/src/process.rs:235-248"]}
{"id": "C224", "title": "The build manager counts its builds", "statement": "Running, succeeded and failed builds add up to those started, no more run than allowed, and no call makes a counter go below zero.", "quantifier": "all sequences of calls", "why_tests_cant": "Sequences of calls are unbounded.", "anchors": ["crates/rez-next-build/src/builder.rs:261-454"]}
{"id": "C225", "title": "The environment of a build has a fixed precedence", "statement": "Variables of the request come before those of the configuration, then the source, the context and those of the build; REZ_BUILD_ variables say where and what is built.", "quantifier": "all packages, requests, contexts and configurations", "why_tests_cant": "Maps of variables are unbounded and overlap in many ways.", "anchors": ["crates/rez-next-build/src/environment.rs:45-147", "crates/rez-next-build/src/environment.rs:210-333", "crates/rez-next-build/src/builder.rs:300-360"]}
{"id": "C226", "title": "Variants are built and installed in directories of their own", "statement": "Two variants of a package do not share a directory, and the directory to install is not used for building.", "quantifier": "all packages, variants and paths", "why_tests_cant": "It quantifies over pairs of requests and all paths.", "anchors": ["crates/rez-next-build/src/environment.rs:45-147", "crates/rez-next-build/src/environment.rs:405-482", "crates/rez-next-build/src/builder.rs:300-330"]}
{"id": "C227", "title": "A package that is only copied is installed completely", "statement": "After a successful copy the installed package has all entries of the source that are not left out, and nothing else on the disk changes.", "quantifier": "all trees, paths and failing calls", "why_tests_cant": "It quantifies over all trees and failures.", "anchors": ["crates/rez-next-build/src/systems/custom.rs:141-175", "crates/rez-next-build/src/systems/custom.rs:524-620", "crates/rez-next-build/src/process.rs:447-471"]}
{"id": "C228", "title": "The build system is chosen by fixed rules", "statement": "The build command comes first, then the given system, then the files of the source; the choice does not change during a build.", "quantifier": "all packages and trees", "why_tests_cant": "It quantifies over all trees.", "anchors": ["crates/rez-next-build/src/systems/mod.rs:118-199", "crates/rez-next-build/src/process.rs:480", "crates/rez-next-build/src/process.rs:497", "crates/rez-next-build/src/process.rs:516", "crates/rez-next-build/src/process.rs:530", "crates/rez-next-build/src/process.rs:546"]}
{"id": "C229", "title": "Failing tests fail the build", "statement": "The test step passes exactly if the tests of the build system do.", "quantifier": "all outcomes of the commands", "why_tests_cant": "It is about all outcomes of commands.", "anchors": ["crates/rez-next-build/src/systems/make.rs:56-76", "crates/rez-next-build/src/systems/cmake.rs:92-114", "crates/rez-next-build/src/systems/cargo_build.rs:57-68", "crates/rez-next-build/src/systems/python.rs:114-144", "crates/rez-next-build/src/systems/nodejs.rs:39-78", "crates/rez-next-build/src/systems/cmd_builder.rs:26-64"]}
{"id": "C230", "title": "The address of a source is read as meant", "statement": "The kind of a source, its address and the reference after it are told apart.", "quantifier": "all texts", "why_tests_cant": "Texts are unbounded.", "anchors": ["crates/rez-next-build/src/sources.rs:460-542"]}
{"id": "C231", "title": "The tests of a package run in order up to the first failure", "statement": "Tests run by name, their places are filled in, nothing runs after a failure, and they pass exactly if all end with zero.", "quantifier": "all sets of tests and outcomes", "why_tests_cant": "Sets of tests and outcomes are unbounded.", "anchors": ["crates/rez-next-build/src/process.rs:556-626"]}
{"id": "C232", "title": "The places in a build command are filled in", "statement": "Each place in a build command is replaced by its value, once, and says what the build does.", "quantifier": "all commands, packages and directories", "why_tests_cant": "Commands are unbounded texts.", "anchors": ["crates/rez-next-build/src/systems/custom.rs:235-263"]}
{"id": "C233", "title": "rez build builds the chosen variants and reports honestly", "statement": "All chosen variants are built in order up to the first failure, with each requirement once, and success is reported exactly if there are results and all are good.", "quantifier": "all packages, choices and outcomes", "why_tests_cant": "Lists of variants and requirements are unbounded.", "anchors": ["src/cli/commands/build.rs:185-255", "src/cli/commands/build.rs:460-478", "src/cli/commands/build.rs:667-687"]}
{"id": "C234", "title": "Artifacts that were changed are noticed", "statement": "Scanning lists each installed file once with size and checksum; validation fails exactly if a file is missing or changed.", "quantifier": "all trees and changes", "why_tests_cant": "It quantifies over all trees and changes.", "anchors": ["crates/rez-next-build/src/artifacts.rs:77-133", "crates/rez-next-build/src/artifacts.rs:273-303"]}
{"id": "C235", "title": "The script of a build sets its variables", "statement": "A shell that reads the script sets each variable of the build to its value.", "quantifier": "all names and values", "why_tests_cant": "It is about how a shell reads all scripts.", "anchors": ["crates/rez-next-build/src/environment.rs:368-402"]}
{"id": "C236", "title": "The tests that are asked for are run", "statement": "Each test whose name matches a request, where a star stands for any text, is chosen once, by request and then by name; without a request all tests are.", "quantifier": "all sets of tests and all requests", "why_tests_cant": "Patterns and names are unbounded texts.", "anchors": ["src/cli/commands/test.rs:346-384", "crates/rez-next-package/src/package/test_runner.rs:223-270"]}
{"id": "C237", "title": "rez test ends with zero exactly if no test failed", "statement": "The code of the command is zero exactly if the tests that were asked for passed or were skipped, and otherwise that of the first that failed.", "quantifier": "all sets of tests, requests and outcomes", "why_tests_cant": "Sets of tests and outcomes are unbounded.", "anchors": ["src/cli/commands/test.rs:657-727", "src/cli/commands/test.rs:517-553"]}
{"id": "C238", "title": "Tests run in order and their results are reported as they are", "statement": "Each test runs in the world that the one before left, up to the first failure if so asked; its result is that of its command; a dry run runs nothing; the summary says that all passed exactly if they did.", "quantifier": "all sets of tests, worlds and outcomes", "why_tests_cant": "It quantifies over everything commands can do.", "anchors": ["src/cli/commands/test.rs:387-473", "src/cli/commands/test.rs:557-591", "src/cli/commands/test.rs:706-715", "crates/rez-next-package/src/package/test_runner.rs:281-363", "crates/rez-next-package/src/package/test_runner.rs:443-479"]}
{"id": "C239", "title": "rez test tests the package that was named", "statement": "The package that is tested is the latest version of the one that was named, or the version that was named, in the first path that has it.", "quantifier": "all trees, paths and names", "why_tests_cant": "It quantifies over all trees.", "anchors": ["src/cli/commands/test.rs:159-222"]}
{"id": "C240", "title": "Tests run in the environment of their package", "statement": "The environment has the requirements of the package, those of the tests and those of its first variant that can be resolved, with the package itself; commands before tests come last.", "quantifier": "all packages and resolvers", "why_tests_cant": "Lists of variants and requirements are unbounded.", "anchors": ["src/cli/commands/test.rs:248-341", "src/cli/commands/test.rs:595-651"]}
{"id": "C241", "title": "The command of a test is read as a shell reads it", "statement": "The library runs the program and arguments that a shell would read in the command.", "quantifier": "all commands", "why_tests_cant": "Commands are unbounded texts.", "anchors": ["crates/rez-next-package/src/package/test_runner.rs:191-203", "crates/rez-next-package/src/package/test_runner.rs:370-390", "src/cli/commands/test.rs:480-488"]}
{"id": "C242", "title": "A command in a context sees the variables of the context", "statement": "A command, script, shell or process has the variables of the configuration, then of the context, then of the parent if they are inherited, and no others.", "quantifier": "all environments and configurations", "why_tests_cant": "Maps of variables are unbounded and overlap in many ways.", "anchors": ["crates/rez-next-context/src/shell.rs:210-295", "crates/rez-next-context/src/shell.rs:340-400", "crates/rez-next-context/src/execution.rs:60-82", "crates/rez-next-context/src/execution.rs:127-146", "crates/rez-next-context/src/execution.rs:188-205"]}
{"id": "C243", "title": "Several commands in a context give all their results", "statement": "Commands run in order and the result of each that was run is given.", "quantifier": "all lists of commands, worlds and outcomes", "why_tests_cant": "Lists of commands are unbounded.", "anchors": ["crates/rez-next-context/src/shell.rs:297-309"]}
{"id": "C244", "title": "A command that takes too long is stopped", "statement": "After the time is over the command does nothing more and an error is given; otherwise it runs to its end.", "quantifier": "all commands and times", "why_tests_cant": "It is about all courses in time.", "anchors": ["crates/rez-next-context/src/shell.rs:210-266"]}
{"id": "C245", "title": "The shell that is in use is found", "statement": "The shell is told from the value of SHELL, and what is started is that shell, from SHELL or the first directory of the path that has it.", "quantifier": "all values of the variables and all file systems", "why_tests_cant": "Paths are unbounded texts.", "anchors": ["crates/rez-next-context/src/shell.rs:27-119"]}
{"id": "C246", "title": "Completion offers what the word under the cursor can become", "statement": "The word under the cursor is completed to the subcommands, packages or versions that start with it, whatever follows the cursor.", "quantifier": "all lines, cursors and packages", "why_tests_cant": "Lines and names are unbounded texts.", "anchors": ["src/cli/commands/complete.rs:224-326"]}
{"id": "C247", "title": "which finds the program that would be started", "statement": "The first program of that name on the path is found, all of them are listed once and in order, and paths are looked up as they are.", "quantifier": "all values of PATH, names and file systems", "why_tests_cant": "Paths are unbounded texts.", "anchors": ["crates/rez-next-util/src/which.rs:35-150"]}
{"id": "C248", "title": "The version a program states is the version of its package", "statement": "The command binds a program with the version number that it prints behind its name, whatever lines come before and whatever follows.", "quantifier": "all outputs of programs", "why_tests_cant": "Outputs are unbounded texts.", "anchors": ["src/cli/commands/bind/utils.rs:102-147", "src/cli/commands/bind/detect.rs:40-152"]}
{"id": "C249", "title": "The library finds the version in what a program prints", "statement": "If the output has a dotted number, the version is that number, all of it.", "quantifier": "all outputs of programs", "why_tests_cant": "Outputs are unbounded texts.", "anchors": ["crates/rez-next-bind/src/detect.rs:57-74"]}
{"id": "C250", "title": "What is bound is on the system", "statement": "The command makes a package only of a program that is there, with its version and its directory first on the PATH.", "quantifier": "all systems, disks and names", "why_tests_cant": "It quantifies over all systems and disks.", "anchors": ["src/cli/commands/bind/mod.rs:238-279", "src/cli/commands/bind/mod.rs:306-405", "src/cli/commands/bind/detect.rs:24-38", "src/cli/commands/bind/package_gen.rs:47-81"]}
{"id": "C251", "title": "The version that is asked for is bound", "statement": "If a version is given, the package has that version.", "quantifier": "all systems, names and versions", "why_tests_cant": "Names and versions are unbounded texts.", "anchors": ["src/cli/commands/bind/mod.rs:238-293", "crates/rez-next-bind/src/binder.rs:98-143"]}
{"id": "C252", "title": "Packages that were bound can be loaded", "statement": "The file that is written is read and loaded as a package with that name, version, description, requirements, tools and commands.", "quantifier": "all names, versions and paths", "why_tests_cant": "Names and paths are unbounded texts.", "anchors": ["src/cli/commands/bind/package_gen.rs:8-45", "crates/rez-next-bind/src/binder.rs:146-197"]}
{"id": "C253", "title": "The packages that a bound package requires are there", "statement": "Unless told otherwise, the packages that a bound package requires are bound with it.", "quantifier": "all systems and disks", "why_tests_cant": "It quantifies over all disks.", "anchors": ["src/cli/commands/bind/mod.rs:141-203", "src/cli/commands/bind/mod.rs:306-405", "src/cli/commands/bind/package_gen.rs:103-113"]}
{"id": "C254", "title": "Binding keeps the packages that are there", "statement": "A package that is there is kept unless it is to be replaced, and then only its file changes.", "quantifier": "all systems, disks, names and versions", "why_tests_cant": "It quantifies over all disks.", "anchors": ["crates/rez-next-bind/src/binder.rs:98-143", "src/cli/commands/bind/mod.rs:306-405"]}
{"id": "C255", "title": "A built-in binder makes the package of its name", "statement": "The binder of a tool makes a package of that name, and only if the tool is there.", "quantifier": "all systems, disks and options", "why_tests_cant": "It quantifies over all systems.", "anchors": ["crates/rez-next-bind/src/builtin_binders.rs:26-129", "crates/rez-next-bind/src/binder.rs:98-143"]}
{"id": "C256", "title": "The bound packages are listed", "statement": "The list has exactly the packages that are there, each with its versions in order.", "quantifier": "all disks", "why_tests_cant": "It quantifies over all trees.", "anchors": ["crates/rez-next-bind/src/binder.rs:202-250"]}
{"id": "C257", "title": "The package of the architecture says which it is", "statement": "The packages of the platform and the architecture differ between systems that differ.", "quantifier": "all systems", "why_tests_cant": "It quantifies over all systems.", "anchors": ["src/cli/commands/bind/detect.rs:172-212", "src/cli/commands/bind/package_gen.rs:8-45"]}
{"id": "C258", "title": "The package of the operating system has its version", "statement": "The version is the one that os-release states, in quotes or not.", "quantifier": "all os-release files", "why_tests_cant": "Files are unbounded texts.", "anchors": ["src/cli/commands/bind/detect.rs:214-241"]}
{"id": "C259", "title": "A program is asked for its version until it answers", "statement": "The version is found if one of the arguments makes the program print it.", "quantifier": "all programs", "why_tests_cant": "Programs are any functions of their arguments.", "anchors": ["crates/rez-next-bind/src/detect.rs:33-53"]}
{"id": "C260", "title": "A search for what can be bound finds it or what is close to it", "statement": "A name that can be bound is found; otherwise exactly the names that contain it or that it contains are offered, in order.", "quantifier": "all names and orders of the map", "why_tests_cant": "Names are unbounded texts.", "anchors": ["src/cli/commands/bind/mod.rs:205-236", "src/cli/commands/bind/utils.rs:70-83"]}
{"id": "C261", "title": "A repository on disk has the packages of its files", "statement": "After a repository is initialised, a package is found by name and version exactly if one of its package files declares it; the names are all the names, sorted.", "quantifier": "all disks and package files", "why_tests_cant": "It quantifies over all trees of directories.", "anchors": ["crates/rez-next-repository/src/filesystem.rs:92-138", "crates/rez-next-repository/src/filesystem.rs:202-229", "crates/rez-next-repository/src/filesystem.rs:262-300", "crates/rez-next-repository/src/filesystem.rs:303-446"]}
{"id": "C262", "title": "Without a version the latest is given", "statement": "Asking for a package without a version gives the latest, and the versions are listed from the latest on.", "quantifier": "all disks and names", "why_tests_cant": "It needs an order on an unbounded set of versions.", "anchors": ["crates/rez-next-repository/src/filesystem.rs:202-245"]}
{"id": "C263", "title": "A search finds exactly what meets its criteria", "statement": "A search finds the packages whose name matches the pattern, whose version and requirements fit and that are not prereleases unless wanted, up to the limit.", "quantifier": "all disks and criteria", "why_tests_cant": "Criteria and disks are unbounded.", "anchors": ["crates/rez-next-repository/src/filesystem.rs:140-200", "crates/rez-next-repository/src/filesystem.rs:457-471", "crates/rez-next-repository/src/repository.rs:42-53"]}
{"id": "C264", "title": "The variants of a package are those of its file", "statement": "The variants that are listed for a package and version are as many as the file declares.", "quantifier": "all disks, names and versions", "why_tests_cant": "It quantifies over all disks.", "anchors": ["crates/rez-next-repository/src/filesystem.rs:247-260", "crates/rez-next-repository/src/filesystem.rs:410-420"]}
{"id": "C265", "title": "Statistics count what is there", "statement": "The statistics of a repository count its packages, versions and variants and the bytes of its files.", "quantifier": "all disks", "why_tests_cant": "It quantifies over all disks.", "anchors": ["crates/rez-next-repository/src/filesystem.rs:303-446", "crates/rez-next-repository/src/repository.rs:107-122"]}
{"id": "C266", "title": "Refreshing forgets what was there before", "statement": "A repository that is refreshed has exactly what a new one would have; if that fails it is as it was.", "quantifier": "all disks and earlier states", "why_tests_cant": "It quantifies over all earlier states.", "anchors": ["crates/rez-next-repository/src/filesystem.rs:92-138", "crates/rez-next-repository/src/filesystem.rs:303-371"]}
{"id": "C267", "title": "Packages of several repositories are listed once", "statement": "Of packages with the same name and version the first is kept; the list is by name, latest first.", "quantifier": "all lists of packages", "why_tests_cant": "Lists and names are unbounded.", "anchors": ["crates/rez-next-repository/src/repository.rs:129-161"]}
{"id": "C268", "title": "Patterns mean what globs mean", "statement": "A star stands for anything but slashes, two for anything, a question mark for one character and everything else for itself.", "quantifier": "all patterns and texts", "why_tests_cant": "Patterns and texts are unbounded.", "anchors": ["crates/rez-next-repository/src/scanner/path.rs:20-47", "crates/rez-next-repository/src/scanner/path.rs:100-124", "crates/rez-next-repository/src/filesystem.rs:457-471"]}
{"id": "C269", "title": "What is excluded is not scanned", "statement": "Directories that match a pattern of exclusion are not scanned.", "quantifier": "all settings and disks", "why_tests_cant": "It quantifies over all disks.", "anchors": ["crates/rez-next-repository/src/scanner/path.rs:50-72", "crates/rez-next-repository/src/scanner/scan.rs:122-180"]}
{"id": "C270", "title": "A scan finds every package file within its depth", "statement": "A scan gives exactly the packages of the files with a known name in directories within the depth that are not excluded, and an error for each such file that cannot be loaded.", "quantifier": "all disks and settings", "why_tests_cant": "Depth and width of the tree are unbounded.", "anchors": ["crates/rez-next-repository/src/scanner/scan.rs:28-120", "crates/rez-next-repository/src/scanner/scan.rs:122-250"]}
{"id": "C271", "title": "The cache of a scan does not change what it finds", "statement": "With the cache a scan finds the same as without it, after any earlier scans, and the cache keeps its bound.", "quantifier": "all histories of scans and disks", "why_tests_cant": "It quantifies over all histories.", "anchors": ["crates/rez-next-repository/src/scanner/scan.rs:252-354", "crates/rez-next-repository/src/scanner/cache.rs:191-203"]}
{"id": "C272", "title": "A path is looked up in the cache", "statement": "A result that is looked up by a path is still valid and is that of the path.", "quantifier": "all caches, disks and paths", "why_tests_cant": "It quantifies over all caches.", "anchors": ["crates/rez-next-repository/src/scanner/cache.rs:70-103", "crates/rez-next-repository/src/scanner/cache.rs:196-203"]}
{"id": "C273", "title": "The fast scanner finds what the other one finds", "statement": "The fast scanner finds exactly the package files in the repository, in the order of their paths, each once.", "quantifier": "all disks", "why_tests_cant": "It quantifies over all trees.", "anchors": ["crates/rez-next-repository/src/high_performance_scanner.rs:114-271", "crates/rez-next-repository/src/high_performance_scanner.rs:447-452"]}
{"id": "C274", "title": "The fast scanner does not give stale packages", "statement": "The fast scanner gives what the files hold now, keeps its bound and forgets what was used longest ago.", "quantifier": "all caches and disks", "why_tests_cant": "It quantifies over all histories.", "anchors": ["crates/rez-next-repository/src/high_performance_scanner.rs:94-97", "crates/rez-next-repository/src/high_performance_scanner.rs:274-330"]}
{"id": "C275", "title": "A scan ends whatever the settings", "statement": "With any settings a scan ends with a result or an error.", "quantifier": "all settings and disks", "why_tests_cant": "It quantifies over all settings.", "anchors": ["crates/rez-next-repository/src/scanner/scan.rs:28-120", "crates/rez-next-repository/src/scanner/scan.rs:215-243", "crates/rez-next-repository/src/high_performance_scanner.rs:114-139", "crates/rez-next-repository/src/high_performance_scanner.rs:234-271", "crates/rez-next-repository/src/scanner_types.rs:14-91"]}
{"id": "C276", "title": "Only a published program is installed", "statement": "If an update succeeds, the program is a file of the archive of that release for this system, and the archive has the sum that the release publishes.", "quantifier": "all systems, releases, disks and arguments", "why_tests_cant": "It must hold for every disk, also one that somebody prepared.", "anchors": ["src/cli/commands/self_update.rs:294-426", "src/cli/commands/self_update.rs:230-258", "src/cli/commands/self_update.rs:428-475"]}
{"id": "C277", "title": "A failed update leaves everything as it was", "statement": "If an update fails, everything outside its temporary directory is as before, the program included.", "quantifier": "all systems, releases, disks and arguments", "why_tests_cant": "It quantifies over every point of failure and every version.", "anchors": ["src/cli/commands/self_update.rs:294-426"]}
{"id": "C278", "title": "An update changes the program and nothing else", "statement": "Apart from the program nothing is changed, and the temporary directory is gone afterwards; all programs of the release are updated.", "quantifier": "all systems, releases, disks and arguments", "why_tests_cant": "It quantifies over all disks.", "anchors": ["src/cli/commands/self_update.rs:262-270", "src/cli/commands/self_update.rs:357-426"]}
{"id": "C279", "title": "Looking for an update changes nothing and tells the truth", "statement": "With the option to check nothing is changed, and an update is reported exactly if there is a newer release.", "quantifier": "all systems, releases, disks and arguments", "why_tests_cant": "It quantifies over all pairs of versions.", "anchors": ["src/cli/commands/self_update.rs:301-322"]}
{"id": "C280", "title": "Nothing is installed unless it is newer or forced", "statement": "The version that runs is not installed again and no older one is, unless that is forced or asked for.", "quantifier": "all systems, releases, disks and arguments", "why_tests_cant": "It quantifies over all pairs of versions.", "anchors": ["src/cli/commands/self_update.rs:301-331"]}
{"id": "C281", "title": "The latest release is read from the answer of the server", "statement": "The latest version is the tag of the answer without the letter before it.", "quantifier": "all answers of the server", "why_tests_cant": "Answers are unbounded texts.", "anchors": ["src/cli/commands/self_update.rs:166-186"]}
{"id": "C282", "title": "The sum of an archive is that of its line", "statement": "The sum for an archive is the one in the line of the file of sums that names it; without a line there is none.", "quantifier": "all files of sums and names", "why_tests_cant": "Files are unbounded texts.", "anchors": ["src/cli/commands/self_update.rs:428-454"]}
{"id": "C283", "title": "The archive fits the system", "statement": "The archive is that for the architecture, system and C library of the computer; for others there is an error.", "quantifier": "all systems", "why_tests_cant": "It quantifies over outputs of programs and files of the system.", "anchors": ["src/cli/commands/self_update.rs:55-105"]}
{"id": "C284", "title": "An update depends on three addresses only", "statement": "What an update does is determined by the answers of the server for the archive, the sums and, if no version is asked for, the latest release of that version; a letter before the version does not matter.", "quantifier": "all pairs of servers", "why_tests_cant": "It compares two runs for all servers.", "anchors": ["src/cli/commands/self_update.rs:180-186", "src/cli/commands/self_update.rs:301-306", "src/cli/commands/self_update.rs:344-392"]}
{"id": "C285", "title": "An update works if everything is there", "statement": "If the release has the archive with its sum and the program in it, the update succeeds, the program is the new one and the temporary directory is gone.", "quantifier": "all systems, releases and disks", "why_tests_cant": "It quantifies over all releases and disks.", "anchors": ["src/cli/commands/self_update.rs:194-270", "src/cli/commands/self_update.rs:294-426"]}
{"id": "C286", "title": "A shortened text fits and keeps its start", "statement": "Shortening gives a text that is not longer than the limit; a text that fits is kept, another keeps its start and ends in three points.", "quantifier": "all texts and limits", "why_tests_cant": "Texts and limits are unbounded.", "anchors": ["crates/rez-next-util/src/string.rs:30-38"]}
{"id": "C287", "title": "Every text becomes a valid identifier", "statement": "The result of making a text an identifier for Python is always valid; an identifier is not changed, and different texts stay different.", "quantifier": "all texts", "why_tests_cant": "Texts are unbounded.", "anchors": ["crates/rez-next-util/src/string.rs:14-27", "crates/rez-next-util/src/string.rs:50-72"]}
{"id": "C288", "title": "Names that mean the same package are the same after normalising", "statement": "Normalising is idempotent, leaves no capital letters, blanks and hyphens, and makes two names equal exactly if they differ only in case and in the kind of separator.", "quantifier": "all pairs of names", "why_tests_cant": "It compares all pairs of names.", "anchors": ["crates/rez-next-util/src/string.rs:6-11"]}
{"id": "C289", "title": "A duration is read as it was meant", "statement": "A number with a unit, with any blanks and in any case, is read as that many seconds; a text without digits or a number that is too large is refused.", "quantifier": "all numbers, units and blanks", "why_tests_cant": "Numbers are too many to try, and the limits are those of machine numbers.", "anchors": ["crates/rez-next-util/src/time.rs:36-68"]}
{"id": "C290", "title": "The difference of two times is rounded down in its unit", "statement": "The text gives the largest unit that fits and how often it fits, and the counts stay below the next unit.", "quantifier": "all pairs of times", "why_tests_cant": "It quantifies over all times.", "anchors": ["crates/rez-next-util/src/time.rs:71-95"]}
{"id": "C291", "title": "Indenting moves every line and nothing else", "statement": "Every line is moved by the blanks, indenting twice is indenting by the sum, and the end of the text is kept.", "quantifier": "all texts and numbers of blanks", "why_tests_cant": "Texts are unbounded.", "anchors": ["crates/rez-next-util/src/string.rs:41-47"]}
{"id": "C292", "title": "A list is written with commas and one conjunction", "statement": "Items are separated by commas, with the conjunction before the last only.", "quantifier": "all lists of items", "why_tests_cant": "Lists are unbounded.", "anchors": ["crates/rez-next-util/src/string.rs:75-98"]}
{"id": "C293", "title": "A checked resolution has every package once", "statement": "A resolution that passes the check has no package twice and only usable packages; one that fails has a package twice or an unusable one, and the message names it.", "quantifier": "all resolutions", "why_tests_cant": "Resolutions and names are unbounded.", "anchors": ["crates/rez-next-solver/src/resolution.rs:118-141", "crates/rez-next-package/src/package/methods.rs:137-198"]}
{"id": "C294", "title": "Packages are found by patterns with stars", "statement": "The packages whose name fits the pattern are given in order, a star standing for anything and every other character for itself.", "quantifier": "all resolutions and patterns", "why_tests_cant": "Patterns and names are unbounded.", "anchors": ["crates/rez-next-solver/src/resolution.rs:68-90"]}
{"id": "C295", "title": "Asking for one package is the same in every way", "statement": "A package is given for a name exactly if the name is in the list of names and contained, and it is the first with it.", "quantifier": "all resolutions and names", "why_tests_cant": "It relates three questions for all names.", "anchors": ["crates/rez-next-solver/src/resolution.rs:53-65"]}
{"id": "C296", "title": "A summary counts the packages and gives their versions", "statement": "The summary counts the packages and has the version of each.", "quantifier": "all resolutions", "why_tests_cant": "Resolutions are unbounded.", "anchors": ["crates/rez-next-solver/src/resolution.rs:93-115"]}
{"id": "C297", "title": "The environment has every package and its commands", "statement": "The environment has the packages in order with their requirements and tools, and the commands of each package under its variable.", "quantifier": "all resolutions", "why_tests_cant": "Two packages may share a variable; pairs of names are unbounded.", "anchors": ["crates/rez-next-solver/src/resolution.rs:144-171"]}
{"id": "C298", "title": "A list of requirements has what was added and not removed", "statement": "After any additions and removals, a name has what was added since it was removed last, in order; nothing else is in the list, and its length and emptiness agree.", "quantifier": "all sequences of additions and removals", "why_tests_cant": "It is about all sequences.", "anchors": ["crates/rez-next-solver/src/requirement_list.rs:28-61"]}
{"id": "C299", "title": "A cache of variants gives the latest and counts its use", "statement": "After any uses, a name has the variants put last unless dropped or cleared, and hits and misses count the lookups since clearing; reductions are kept in order and counted.", "quantifier": "all sequences of uses", "why_tests_cant": "It is about all sequences.", "anchors": ["crates/rez-next-solver/src/package_variant.rs:60-105", "crates/rez-next-solver/src/reduction.rs:46-67"]}
{"id": "C300", "title": "Tools are listed once and a script sets only what it should", "statement": "The tools of all packages are listed once and in order, and the script sets every variable to its value and nothing else.", "quantifier": "all environments", "why_tests_cant": "Values are unbounded.", "anchors": ["crates/rez-next-solver/src/resolution.rs:230-261"]}
{"id": "C301", "title": "A text in the Python code stands for itself", "statement": "Python reads the text that was written, whatever characters it has.", "quantifier": "all texts", "why_tests_cant": "Texts are unbounded; quotes and backslashes combine in many ways.", "anchors": ["crates/rez-next-serialise/src/package_serialise.rs:324-336"]}
{"id": "C302", "title": "An attribute in the Python code has the value of the data", "statement": "Every attribute of the package is assigned its value in the code.", "quantifier": "all objects", "why_tests_cant": "Objects are unbounded; tests look for parts of the code only.", "anchors": ["crates/rez-next-serialise/src/package_serialise.rs:225-236", "crates/rez-next-serialise/src/package_serialise.rs:288-317"]}
{"id": "C303", "title": "Attributes come in the standard order", "statement": "Known keys come first in the standard order and others after them in that of the alphabet; none is lost, and the order of the data does not matter.", "quantifier": "all objects and orders of their keys", "why_tests_cant": "Orders of keys are too many to try.", "anchors": ["crates/rez-next-serialise/src/package_serialise.rs:51-81", "crates/rez-next-serialise/src/package_serialise.rs:291-316"]}
{"id": "C304", "title": "Objects in the data stay objects", "statement": "An object inside the data is one in the code.", "quantifier": "all objects", "why_tests_cant": "Objects are unbounded.", "anchors": ["crates/rez-next-serialise/src/package_serialise.rs:288-317"]}
{"id": "C305", "title": "Values other than objects are read back", "statement": "Nothing, truth values, whole numbers, texts and lists of them in any depth stand for themselves in Python.", "quantifier": "all values, lists in any depth", "why_tests_cant": "Depth and length are unbounded.", "anchors": ["crates/rez-next-serialise/src/package_serialise.rs:250-287"]}
{"id": "C306", "title": "A block of YAML stands for the text", "statement": "A text of one line is read back from its quotes, and lines of a longer one come one after another.", "quantifier": "all texts", "why_tests_cant": "Texts are unbounded.", "anchors": ["crates/rez-next-serialise/src/package_serialise.rs:183-207"]}
{"id": "C307", "title": "The URI of a package file gives the package of the file", "statement": "A file that loads gives its package; one that does not gives nothing.", "quantifier": "all URIs, disks and repositories", "why_tests_cant": "Disks and repositories cannot be enumerated.", "anchors": ["crates/rez-next-python/src/package_uri_functions.rs:24-72", "crates/rez-next-python/src/package_uri_functions.rs:118-137"]}
{"id": "C308", "title": "A URI with a name and a version gives that version", "statement": "If the file itself does not load, the package of the repositories with this name and version is given.", "quantifier": "all URIs, names, versions and repositories", "why_tests_cant": "Repositories and versions are unbounded.", "anchors": ["crates/rez-next-python/src/package_uri_functions.rs:46-62", "crates/rez-next-python/src/package_uri_functions.rs:100-116"]}
{"id": "C309", "title": "The package of a URI comes from the place the URI names", "statement": "A directory that holds a package gives it, and nothing is taken from elsewhere.", "quantifier": "all URIs and disks", "why_tests_cant": "Disks and paths of any depth cannot be tried.", "anchors": ["crates/rez-next-python/src/package_uri_functions.rs:74-98", "crates/rez-next-python/src/package_uri_functions.rs:139-170"]}
{"id": "C310", "title": "A handle gives the package it refers to", "statement": "A package file or a directory that holds one is loaded, by itself first and then below the first of the given paths that has it.", "quantifier": "all handles, lists of paths and disks", "why_tests_cant": "Lists of paths are unbounded.", "anchors": ["crates/rez-next-python/src/package_uri_functions.rs:222-304"]}
{"id": "C311", "title": "A package is got from its repository", "statement": "The package that the URI names is found in the repository, and only in it.", "quantifier": "all URIs, repositories and disks", "why_tests_cant": "Directories are unbounded.", "anchors": ["crates/rez-next-python/src/package_uri_functions.rs:306-348"]}
{"id": "C312", "title": "A family in a repository has the versions that are there", "statement": "A family is given if the repository has it, with each version once it is there.", "quantifier": "all names, repositories and disks", "why_tests_cant": "Directories are unbounded.", "anchors": ["crates/rez-next-python/src/package_uri_functions.rs:350-385"]}
{"id": "C313", "title": "A suite command does what it says or writes nothing", "statement": "The suite loaded afterwards has the change and no other; a command that fails writes nothing; other files and suites stay as they are.", "quantifier": "all commands, disks and suites", "why_tests_cant": "Suites and disks are unbounded.", "anchors": ["src/cli/commands/suites.rs:195-329", "crates/rez-next-suites/src/suite.rs:237-294"]}
{"id": "C314", "title": "Suite commands add up", "statement": "Commands given one after another do what the same changes of one suite in memory do, and the same of them fail.", "quantifier": "all lists of commands on a suite, all disks", "why_tests_cant": "Lists of commands cannot be enumerated.", "anchors": ["src/cli/commands/suites.rs:164-181", "src/cli/commands/suites.rs:251-329"]}
{"id": "C315", "title": "Suites made with the commands stay sound", "statement": "Names of contexts stay distinct and well formed, and no command makes a suite unreadable.", "quantifier": "all lists of commands and disks", "why_tests_cant": "An invariant over sessions of any length.", "anchors": ["src/cli/commands/suites.rs:195-329", "crates/rez-next-suites/src/suite.rs:85-118"]}
{"id": "C316", "title": "Creating a suite keeps what is there", "statement": "Creating a suite where there is one does not lose its contexts.", "quantifier": "all paths, descriptions, modes and disks", "why_tests_cant": "Disks are unbounded.", "anchors": ["src/cli/commands/suites.rs:195-212"]}
{"id": "C317", "title": "Adding a context uses all options", "statement": "The new context has the requests, the prefix and the priority that were given.", "quantifier": "all arguments, suites and disks", "why_tests_cant": "Arguments and suites are unbounded.", "anchors": ["src/cli/commands/suites.rs:85-105", "src/cli/commands/suites.rs:251-275"]}
{"id": "C318", "title": "The tools of a suite are printed the same every time", "statement": "The rows are the tools of the suite, each once, sorted by name, whatever the order of the maps.", "quantifier": "all suites, all orders of the maps", "why_tests_cant": "The order of a hash map changes from run to run.", "anchors": ["src/cli/commands/suites.rs:331-362", "crates/rez-next-suites/src/suite.rs:166-232"]}
{"id": "C319", "title": "The latest registration of a release hook counts", "statement": "A hook is made by the latest registration of its name, an unknown name is an error, and the types listed are the names registered.", "quantifier": "all lists of registrations, names and paths", "why_tests_cant": "Lists of registrations are unbounded.", "anchors": ["crates/rez-next-release-hook/src/registry.rs:34-67"]}
{"id": "C320", "title": "Release hooks come in the order asked for", "statement": "The hooks made are those of the names in their order, and only names for which no hook can be made are left out.", "quantifier": "all registries, lists of names and paths", "why_tests_cant": "Lists of names are unbounded.", "anchors": ["crates/rez-next-release-hook/src/registry.rs:73-86"]}
{"id": "C321", "title": "Built-in release hooks are available", "statement": "After the registration the four names give their hooks, other names stay, and a hook for web requests is made exactly if a configuration with an address is read.", "quantifier": "all registries, paths and configurations", "why_tests_cant": "Paths and configurations are unbounded.", "anchors": ["crates/rez-next-release-hook/src/builtin.rs:138-141", "crates/rez-next-release-hook/src/builtin.rs:197-232", "crates/rez-next-release-hook/src/builtin.rs:291-325"]}
{"id": "C322", "title": "A release hook with a broken configuration is an error", "statement": "A hook whose configuration is missing or cannot be read is not made silently.", "quantifier": "all paths and configurations", "why_tests_cant": "Paths and configurations are unbounded.", "anchors": ["crates/rez-next-release-hook/src/builtin.rs:138-141", "crates/rez-next-release-hook/src/builtin.rs:197-208", "crates/rez-next-release-hook/src/registry.rs:48-58"]}
