{
 "claims": [
  {
   "property": "C01",
   "status": "proved",
   "theorems": [
    "C01_compare_coherent",
    "C01_extremes"
   ],
   "note": "All versions (any token lists)."
  },
  {
   "property": "C02",
   "status": "partial",
   "theorems": [
    "C02_transitive_refuted",
    "C02_equality_transitive_refuted",
    "C02_huge_numbers_refuted",
    "C02_transitive_partial",
    "C02_transitive_same_length_partial"
   ],
   "note": "False of the code: witnesses 1 / 1.0.0 / 1.0.1 (order), 1 / 1.0 / 1.00 (equality), z / 99999999999999999999 / a1 (strict cycle). Proved for versions without trailing \"0\" token and for versions of equal token count, numbers below 2^64."
  },
  {
   "property": "C03",
   "status": "partial",
   "theorems": [
    "C03_hash_refuted",
    "C03_hash_partial"
   ],
   "note": "False of the code: 1.0 and 1.0.0 are equal but hash different text. Proved for canonical spellings."
  },
  {
   "property": "C04",
   "status": "proved",
   "theorems": [
    "C04_text_roundtrip",
    "C04_text_is_tokens_and_separators",
    "C04_serialize_roundtrip"
   ],
   "note": "All strings."
  },
  {
   "property": "C05",
   "status": "proved",
   "theorems": [
    "C05_accepted_iff_grammar",
    "C05_result",
    "C05_unambiguous"
   ],
   "note": "Both directions, plus uniqueness of the parse."
  },
  {
   "property": "C06",
   "status": "proved",
   "theorems": [
    "C06_tokenizer_complete",
    "C06_tokenizer_sound"
   ],
   "note": "Both directions under exactly the side conditions in the statement; an example shows they are needed."
  },
  {
   "property": "C07",
   "status": "partial",
   "theorems": [
    "C07_intersection_within_both",
    "C07_intersection_complete_partial",
    "C07_intersection_refuted",
    "C07_subtracted_refuted"
   ],
   "note": "Within-both half holds for every version and every range whose is_any() is truthful. Completeness holds on any set of versions compared transitively; refuted in general (>=1 and <=1.0.1 reported disjoint though both contain 1.0.0) because version comparison is not transitive, and refuted for 'any minus X' operands."
  },
  {
   "property": "C08",
   "status": "partial",
   "theorems": [
    "C08_union_exact_partial",
    "C08_union_loses_nothing",
    "C08_union_refuted"
   ],
   "note": "Exact for ranges built without subtraction; nothing is ever lost. Refuted for subtracted operands: union forgets the subtraction."
  },
  {
   "property": "C09",
   "status": "partial",
   "theorems": [
    "C09_difference_exact",
    "C09_reported_empty_partial",
    "C09_reported_empty_written_partial",
    "C09_reported_empty_refuted"
   ],
   "note": "A returned difference is exact, unconditionally. 'Reported empty' is right for half-open ranges with lower bounds on transitively compared versions; refuted in general because only probe versions are tested."
  },
  {
   "property": "C10",
   "status": "partial",
   "theorems": [
    "C10_negative_answer_partial",
    "C10_positive_answer_partial",
    "C10_positive_answer_refuted",
    "C10_negative_answer_refuted"
   ],
   "note": "Negative answers are right unless the left range is 'any'; positive answers are right for half-open ranges with lower bounds on transitively compared versions. Both directions refuted in general."
  },
  {
   "property": "C11",
   "status": "partial",
   "theorems": [
    "C11_alternatives_partial",
    "C11_alternatives_error_partial",
    "C11_conjunction_partial",
    "C11_any_and_empty",
    "C11_operators",
    "C11_bare_version",
    "C11_interval",
    "C11_at_least",
    "C11_at_least_below",
    "C11_alternatives_refuted",
    "C11_empty_alternative_refuted",
    "C11_conjunction_refuted"
   ],
   "note": "Alternation and conjunction semantics for all texts without '..' (and '+', '|' for conjunction) that do not spell the empty range; all operators, bare versions, intervals and '+' shorthand for all version texts. Refuted for '..' in a later alternative, 'empty' as alternative, and '+' after a comma."
  },
  {
   "property": "C12",
   "status": "partial",
   "theorems": [
    "C12_roundtrip_refuted",
    "C12_text_reparse_partial",
    "C12_roundtrip_any_partial"
   ],
   "note": "Refuted: a deserialised range matches everything. Proved: the serialised text re-parses to the same range, and 'any' ranges survive."
  },
  {
   "property": "C13",
   "status": "partial",
   "theorems": [
    "C13_disjoint_partial",
    "C13_disjoint_refuted"
   ],
   "note": "Sound on any set of versions compared transitively; refuted in general (>=1 vs <=1.0.1 with 1.0.0)."
  },
  {
   "property": "C14",
   "status": "proved",
   "theorems": [
    "C14_satisfaction_is_the_predicate",
    "C14_and",
    "C14_or"
   ],
   "note": "All constraint trees and versions, against an independent reading of the basic constraints part by part."
  },
  {
   "property": "C15",
   "status": "partial",
   "theorems": [
    "C15_display_parse_partial",
    "C15_roundtrip_partial",
    "C15_roundtrip_refuted",
    "C15_polarity_refuted",
    "C15_condition_refuted"
   ],
   "note": "Exact round-trip for every accepted text without bracket conditions whose name is well-formed and that spells no empty version, and for every printable requirement value including conditions. Refuted for 'foo-+', for a marker after a bracket condition, and for negated existence conditions."
  },
  {
   "property": "C16",
   "status": "partial",
   "theorems": [
    "C16_depth_comparison",
    "C16_depth_extension",
    "C16_prefix_tokens",
    "C16_prefix_exact",
    "C16_exact_refuted"
   ],
   "note": "Depth comparison, extension and prefix acceptance proved for all versions (prefix = leading tokens on canonical spellings). Refuted: the candidate's missing positions are ignored too, so ==1.5.2 accepts 1."
  },
  {
   "property": "C17",
   "status": "partial",
   "theorems": [
    "C17_no_spec_matches_all",
    "C17_every_constraint",
    "C17_range_spec",
    "C17_parse_keeps_list",
    "C17_exclusion_refuted"
   ],
   "note": "Exact for all operator lists, for no spec, and range specs. Refuted for requests written with '!=', which the parser takes as part of the name."
  },
  {
   "property": "C18",
   "status": "proved",
   "theorems": [
    "C18_permutation",
    "C18_sorted_stable",
    "C18_split",
    "C18_timestamp",
    "C18_per_family"
   ],
   "note": "Permutation for every orderer and every group iteration order; version order and stability on versions compared transitively (as the property states); split, timestamp and per-family results characterised."
  },
  {
   "property": "C19",
   "status": "partial",
   "theorems": [
    "C19_no_crash_versioned_partial",
    "C19_split_crash_iff_partial",
    "C19_crash_refuted",
    "C19_comparators_partial",
    "C19_comparator_refuted"
   ],
   "note": "False of the code: VersionSplitPackageOrder unwraps versions and panics when a versionless package shares the second part with another package (exact condition proved). Proved for versioned packages; comparators proved total preorders on transitively compared versions, which the standard sort asks for."
  },
  {
   "property": "C20",
   "status": "proved",
   "theorems": [
    "C20_strict",
    "C20_lenient"
   ],
   "note": "Strict mode: all requests and requirements met; lenient mode: unmet ones are exactly reported. Weak requirements are met by absence."
  },
  {
   "property": "C21",
   "status": "proved",
   "theorems": [
    "C21_one_version"
   ],
   "note": "Both modes, any hash map orders."
  },
  {
   "property": "C22",
   "status": "proved",
   "theorems": [
    "C22_request_conflicts"
   ],
   "note": "Both modes; a versionless package counts as fitting any conflict with its name."
  },
  {
   "property": "C23",
   "status": "partial",
   "theorems": [
    "C23_refuted",
    "C23_newcomers_partial"
   ],
   "note": "The general statement is refuted (a later package may refuse an earlier one). Proved: a newly selected package is not refused by the packages already selected."
  },
  {
   "property": "C24",
   "status": "partial",
   "theorems": [
    "C24_refuted",
    "C24_no_dependencies_refuted",
    "C24_layered_partial",
    "C24_no_cycle_partial"
   ],
   "note": "The general statement is refuted: a four-package repository, and three requests for a single package without dependencies, on which both modes run forever. Proved instead: the search ends, in both modes and for every hash map order, whenever package families can be put on levels with dependencies leading downwards and requirements that compare equal accept the same offered versions. Missing: repositories whose families depend on each other in a cycle."
  },
  {
   "property": "C25",
   "status": "partial",
   "theorems": [
    "C25_order_partial",
    "C25_packages_partial",
    "C25_order_refuted"
   ],
   "note": "Proved for every graph whose edges are recorded at both ends (all graphs built by careful edits, C27) and every map order, including that the in-degree count never underflows. Refuted for graphs in which a package was added twice: a loop-free graph is reported circular or the count underflows."
  },
  {
   "property": "C26",
   "status": "proved",
   "theorems": [
    "C26_cycle_search"
   ],
   "note": "The coloured search with parent links is shown to follow a plain depth-first search; holds for all graphs and orders, and the parent lookup never fails."
  },
  {
   "property": "C27",
   "status": "partial",
   "theorems": [
    "C27_edits_partial",
    "C27_removal_partial",
    "C27_filing",
    "C27_edits_refuted"
   ],
   "note": "Proved for all edit sequences that add each package once and join present packages; removal exact. Refuted: re-adding a package leaves one-sided edges, and a failing add_dependency_edge leaves half an edge behind."
  },
  {
   "property": "C28",
   "status": "proved",
   "theorems": [
    "C28_vars",
    "C28_vars_defined",
    "C28_collected",
    "C28_aliases",
    "C28_paths",
    "C28_merge"
   ],
   "note": "Value of each variable is the fold of the actions that write it up to the first stop; also aliases, collected commands, merging, path order."
  },
  {
   "property": "C29",
   "status": "partial",
   "theorems": [
    "C29_refuted",
    "C29_values_refuted",
    "C29_nested_refuted",
    "C29_partial",
    "C29_package_partial"
   ],
   "note": "Refuted: $THIS.VERSION.MAJOR with the standard package variables, values that refer to other variables, nested braces. Proved for values without braces or dollar signs and texts without nested braces or dollar signs in front of a reference."
  },
  {
   "property": "C30",
   "status": "partial",
   "theorems": [
    "C30_bash_exact",
    "C30_bash_refuted",
    "C30_fish_exact",
    "C30_powershell",
    "C30_bash_alias",
    "C30_fish_alias_refuted",
    "C30_bash_script_partial",
    "C30_bash_values",
    "C30_info_refuted",
    "C30_context_bash_partial",
    "C30_context_bash_refuted",
    "C30_context_fish_partial",
    "C30_context_fish_refuted",
    "C30_context_powershell_partial",
    "C30_context_powershell_refuted"
   ],
   "note": "Refuted for bash ($HOME), fish aliases, the context scripts, and information messages with line feeds. Exact conditions for bash and fish values, unconditional for PowerShell values and bash aliases, sufficient conditions for the rest; whole bash script read back under these. cmd quoting is not specified."
  },
  {
   "property": "C31",
   "status": "proved",
   "theorems": [
    "C31_exact",
    "C31_patch",
    "C31_count"
   ],
   "note": ""
  },
  {
   "property": "C32",
   "status": "partial",
   "theorems": [
    "C32_normal_refuted",
    "C32_normal_partial",
    "C32_firsts",
    "C32_idempotent"
   ],
   "note": "Refuted when both PATH and Path exist elsewhere than on Windows: the map order decides which one is normalised. Exact for one path variable; first occurrences, lookups and idempotence proved for all lists."
  },
  {
   "property": "C33",
   "status": "partial",
   "theorems": [
    "C33_validate_refuted",
    "C33_validate_partial"
   ],
   "note": "Refuted for conflict and weak requests. Exact for positive requests and one package per name."
  },
  {
   "property": "C34",
   "status": "proved",
   "theorems": [
    "C34_filter_crate",
    "C34_reported_rule",
    "C34_includes",
    "C34_package_crate",
    "C34_built",
    "C34_lists"
   ],
   "note": "Both filter implementations. The regex and glob libraries are arbitrary parameters."
  },
  {
   "property": "C35",
   "status": "partial",
   "theorems": [
    "C35_family_refuted",
    "C35_inclusive_refuted",
    "C35_timestamp_refuted",
    "C35_package_crate_partial",
    "C35_filter_crate"
   ],
   "note": "Refuted for the package crate (families, timestamps). Proved for it for global glob, regex and printable range rules, and for the filter crate for every filter read from texts."
  },
  {
   "property": "C36",
   "status": "proved",
   "theorems": [
    "C36_enumeration",
    "C36_immediate",
    "C36_rejects",
    "C36_cache_counter"
   ],
   "note": "Also proved for the payload cache counter on non-empty lower-case names (on the empty text that one panics)."
  },
  {
   "property": "C37",
   "status": "partial",
   "theorems": [
    "C37_existing",
    "C37_fresh",
    "C37_success_partial",
    "C37_even_partial",
    "C37_capacity_refuted",
    "C37_names"
   ],
   "note": "Freshness, preservation (also under interference) and reuse are proved. \"Succeeds for any number of links\" is refuted exactly: at most 36 distinct targets can be linked, because the last name is found alphabetically. Success proved when no name is longer than the alphabetically last one."
  },
  {
   "property": "C38",
   "status": "proved",
   "theorems": [
    "C38_unique",
    "C38_first",
    "C38_last",
    "C38_error",
    "C38_order"
   ],
   "note": "Edits are the methods of the suite and changes through a mutable context that keep its name; writing the public name field directly is left out."
  },
  {
   "property": "C39",
   "status": "partial",
   "theorems": [
    "C39_refuted",
    "C39_order_refuted",
    "C39_sound",
    "C39_exact_partial"
   ],
   "note": "Refuted: the name made for a clash can overwrite another tool, and the table can depend on hash order. Exact when those names are new and distinct; soundness is proved without conditions."
  },
  {
   "property": "C40",
   "status": "proved",
   "theorems": [
    "C40_crash",
    "C40_exact"
   ],
   "note": "All histories of additions and lookups, each cut off anywhere; removals are excluded (see C68). Reading a directory is one step. Exact payload while no hash directory has more than 26 entries."
  },
  {
   "property": "C41",
   "status": "partial",
   "theorems": [
    "C41_refuted",
    "C41_concurrent_partial"
   ],
   "note": "Refuted for two processes that cache the same variant. Proved for any interleaving in which additions to one hash directory do not overlap and no hash directory has more than 26 entries."
  },
  {
   "property": "C42",
   "status": "partial",
   "theorems": [
    "C42_refuted",
    "C42_others_partial",
    "C42_added_partial",
    "C42_unique_partial"
   ],
   "note": "Refuted with 28 variants in one hash directory. Proved up to 26 entries, also for interrupted operations."
  },
  {
   "property": "C43",
   "status": "partial",
   "theorems": [
    "C43_refuted",
    "C43_since_partial",
    "C43_once_partial",
    "C43_small_partial",
    "C43_own"
   ],
   "note": "Refuted: a value promoted to the first level leaves an older copy on the second that can come back. Proved: what is returned was stored since the last removal; it is the latest value when only one value was stored since then, or when there are fewer keys than the first level's limit."
  },
  {
   "property": "C44",
   "status": "partial",
   "theorems": [
    "C44_expiry",
    "C44_capacity_partial",
    "C44_zero_refuted"
   ],
   "note": "Refuted for a limit of 0, which the constructor accepts. Proved: nothing expired is returned, and both levels stay within positive limits."
  },
  {
   "property": "C45",
   "status": "partial",
   "theorems": [
    "C45_refuted",
    "C45_more_refuted",
    "C45_readers_partial",
    "C45_stores_partial",
    "C45_ordered",
    "C45_exclusive"
   ],
   "note": "Refuted: a store and a lookup, removal, cleanup or cleaning store can block each other for ever. Proved for any number of tasks without stores, and for stores while no cleanup is due."
  },
  {
   "property": "C46",
   "status": "partial",
   "theorems": [
    "C46_deleted_refuted",
    "C46_changed_refuted",
    "C46_limit_refuted",
    "C46_served_partial",
    "C46_kept_partial",
    "C46_cleanup_partial"
   ],
   "note": "Refuted: deleted sources, sources changed within a second or replaced by older files are served, and the limit on entries is never applied. Proved: exactly which value is served, and that its lifetime is not over."
  },
  {
   "property": "C47",
   "status": "partial",
   "theorems": [
    "C47_refuted",
    "C47_first_partial",
    "C47_only_partial",
    "C47_none",
    "C47_list"
   ],
   "note": "Refuted: an older version in an earlier repository hides newer ones. Proved: the answer is the latest of the first repository that has the package, and the list of all versions is complete and in order, for versions whose comparison is transitive."
  },
  {
   "property": "C48",
   "status": "partial",
   "theorems": [
    "C48_refuted",
    "C48_unlistable_refuted",
    "C48_partial"
   ],
   "note": "Refuted: every repository with loadable and broken versions of one package answers an error first and then the loadable ones; a failed listing leaves an incomplete answer. Proved that all answers agree otherwise."
  },
  {
   "property": "C49",
   "status": "partial",
   "theorems": [
    "C49_empty_honest",
    "C49_any_honest_partial",
    "C49_any_refuted"
   ],
   "note": "is_empty is truthful for every reachable range; is_any is truthful for ranges built without subtraction and refuted for 'any minus X'."
  },
  {
   "property": "C50",
   "status": "partial",
   "theorems": [
    "C50_two_numbers",
    "C50_more_numbers",
    "C50_base_compatible_partial",
    "C50_base_compatible_more_partial",
    "C50_base_compatible_refuted"
   ],
   "note": "Exact meaning proved for all numeric versions up to 5 components when the bumped number is below 2^64-1; refuted at 2^64-1 (wraps in release builds, panics in debug builds)."
  },
  {
   "property": "C51",
   "status": "partial",
   "theorems": [
    "C51_conversion_partial",
    "C51_operator_requests_refuted"
   ],
   "note": "Proved for bare and name-version requests. Refuted for every request with an operator: the solver is asked for a package whose name has a trailing hyphen."
  },
  {
   "property": "C52",
   "status": "partial",
   "theorems": [
    "C52_matchers_agree_partial",
    "C52_matchers_agree_refuted"
   ],
   "note": "Proved for operator lists with any polarity marker. Refuted for name-version and name-version+ texts."
  },
  {
   "property": "C53",
   "status": "partial",
   "theorems": [
    "C53_env_conditions_all",
    "C53_platform_positive_partial",
    "C53_platform_negative_partial",
    "C53_platform_order_refuted",
    "C53_arch_refuted"
   ],
   "note": "Environment conditions are a conjunction. Platform conditions: any of positive lists, none of negated lists. Refuted for mixed lists (order dependent) and for written architectures (dropped)."
  },
  {
   "property": "C54",
   "status": "partial",
   "theorems": [
    "C54_pod_roundtrip_partial",
    "C54_pod_list_roundtrip_partial",
    "C54_per_family_refuted"
   ],
   "note": "False for per-family orderers: written but never read back, silently dropped from lists. Proved for the other orderers."
  },
  {
   "property": "C55",
   "status": "proved",
   "theorems": [
    "C55_first_applicable",
    "C55_fallback"
   ],
   "note": "Exact characterisation of the chosen orderer."
  },
  {
   "property": "C56",
   "status": "proved",
   "theorems": [
    "C56_origin"
   ],
   "note": ""
  },
  {
   "property": "C57",
   "status": "proved",
   "theorems": [
    "C57_acyclic",
    "C57_reported"
   ],
   "note": "Cycles through weak requirements count as cycles, as in the code."
  },
  {
   "property": "C58",
   "status": "proved",
   "theorems": [
    "C58_no_orphans"
   ],
   "note": ""
  },
  {
   "property": "C59",
   "status": "partial",
   "theorems": [
    "C59_refuted",
    "C59_sound_partial"
   ],
   "note": "Completeness is refuted by a seven-package repository; soundness of strict success is proved."
  },
  {
   "property": "C60",
   "status": "proved",
   "theorems": [
    "C60_single_best"
   ],
   "note": "For version sets on which comparison is transitive."
  },
  {
   "property": "C61",
   "status": "partial",
   "theorems": [
    "C61_refuted",
    "C61_requirements_only_partial"
   ],
   "note": "Refuted: the fields are never read. Proved: the answer is a function of the requirements alone."
  },
  {
   "property": "C62",
   "status": "proved",
   "theorems": [
    "C62_accessibility"
   ],
   "note": "All graphs and map orders."
  },
  {
   "property": "C63",
   "status": "partial",
   "theorems": [
    "C63_depth_partial",
    "C63_depth_refuted"
   ],
   "note": "Proved: the reported depth is the length of an existing chain. Refuted: the visited set is shared between branches, so the depth depends on hash order and can miss the longest chain."
  },
  {
   "property": "C64",
   "status": "partial",
   "theorems": [
    "C64_conflicts_partial",
    "C64_conflicts_refuted"
   ],
   "note": "Proved: a reported pair has no common version among transitively compared versions. Refuted: >=1 against <=1.0.1 is reported though 1.0.0 satisfies both; requirements unsatisfiable only jointly are not reported."
  },
  {
   "property": "C65",
   "status": "partial",
   "theorems": [
    "C65_keys_partial",
    "C65_keys_refuted"
   ],
   "note": "Proved for names without dashes; refuted by the versionless package foo-1 against version 1 of foo."
  },
  {
   "property": "C66",
   "status": "proved",
   "theorems": [
    "C66_resolution",
    "C66_removed"
   ],
   "note": "For every graph reached by any edit sequence; removal of the listed packages for consistent graphs."
  },
  {
   "property": "C67",
   "status": "partial",
   "theorems": [
    "C67_refuted",
    "C67_own_partial",
    "C67_filed"
   ],
   "note": "Refuted for handles with attributes. Proved, for every digest, for handles without attributes."
  },
  {
   "property": "C68",
   "status": "partial",
   "theorems": [
    "C68_refuted",
    "C68_race_refuted",
    "C68_removal_partial"
   ],
   "note": "Refuted for an interrupted removal and for a lookup during a removal. Proved for a completed removal on its own."
  },
  {
   "property": "C69",
   "status": "partial",
   "theorems": [
    "C69_refuted",
    "C69_listing_partial"
   ],
   "note": "Refuted for half-copied entries, which the list reports as found. Proved: the list has exactly the readable entries, found if the directory exists."
  },
  {
   "property": "C70",
   "status": "partial",
   "theorems": [
    "C70_refuted",
    "C70_space_partial"
   ],
   "note": "Refuted when the payload is larger than the free space (wraps around or panics). Proved exact otherwise."
  },
  {
   "property": "C71",
   "status": "partial",
   "theorems": [
    "C71_refuted",
    "C71_stuck",
    "C71_retry_partial"
   ],
   "note": "Refuted: interrupted while copying, the variant is blocked for ever. Proved for interruptions before the metadata is written."
  },
  {
   "property": "C72",
   "status": "partial",
   "theorems": [
    "C72_refuted",
    "C72_lookup_partial"
   ],
   "note": "Refuted for a lookup interrupted while it rewrites the metadata. Proved for completed lookups."
  },
  {
   "property": "C73",
   "status": "partial",
   "theorems": [
    "C73_refuted",
    "C73_clean_partial"
   ],
   "note": "Refuted when the clock is behind the last access. Proved otherwise, without a time limit for the cleaning."
  },
  {
   "property": "C74",
   "status": "partial",
   "theorems": [
    "C74_refuted",
    "C74_globs_partial"
   ],
   "note": "Refuted for patterns with a backslash. Proved otherwise on texts without line feed, assuming the documented meaning of the five regex constructs used."
  },
  {
   "property": "C75",
   "status": "partial",
   "theorems": [
    "C75_refuted",
    "C75_name_unread",
    "C75_family_partial"
   ],
   "note": "Refuted for the package crate, which never reads the name. Proved for the filter crate."
  },
  {
   "property": "C76",
   "status": "partial",
   "theorems": [
    "C76_refuted",
    "C76_digest_partial"
   ],
   "note": "Refuted for patterns with a comma. Proved without commas and closing square brackets. The hash function itself is not modelled."
  },
  {
   "property": "C77",
   "status": "partial",
   "theorems": [
    "C77_refuted",
    "C77_family_refuted",
    "C77_as_given_partial",
    "C77_texts"
   ],
   "note": "Refuted for ranges and families with a dash. Proved for all other rules, in particular all rules read from texts; timestamps are whole seconds."
  },
  {
   "property": "C78",
   "status": "partial",
   "theorems": [
    "C78_refuted",
    "C78_partial",
    "C78_unique",
    "C78_names",
    "C78_texts"
   ],
   "note": "Refuted: $ROOTLESS is read as $ROOT followed by LESS. Proved under the conditions of C29."
  },
  {
   "property": "C79",
   "status": "partial",
   "theorems": [
    "C79_refuted",
    "C79_mixed_quotes_refuted",
    "C79_exact_partial",
    "C79_line_partial"
   ],
   "note": "Refuted: an argument with the other kind of quote is rejected and mixed quotes are accepted. The accepted language is characterised exactly."
  },
  {
   "property": "C80",
   "status": "partial",
   "theorems": [
    "C80_partial",
    "C80_refuted"
   ],
   "note": "Proved for the four scripts of the Rex crate, refuted for the script of the context crate."
  },
  {
   "property": "C81",
   "status": "partial",
   "theorems": [
    "C81_stop_refuted",
    "C81_stop_partial"
   ],
   "note": "Refuted for variables: assignments after stop still happen. Proved for aliases, commands, sourced files and messages."
  },
  {
   "property": "C82",
   "status": "partial",
   "theorems": [
    "C82_order_refuted",
    "C82_value",
    "C82_order_partial",
    "C82_succeeds"
   ],
   "note": "Refuted for resetenv, which is carried out after all assignments. The exact value of every variable is proved, and the stated one without resets."
  },
  {
   "property": "C83",
   "status": "proved",
   "theorems": [
    "C83_path",
    "C83_lookup",
    "C83_defined"
   ],
   "note": ""
  },
  {
   "property": "C84",
   "status": "partial",
   "theorems": [
    "C84_order_refuted",
    "C84_order_partial",
    "C84_base_unix",
    "C84_base_windows"
   ],
   "note": "Refuted on Windows for names that differ in case. Proved for additional names that stay distinct, one path variable, and commands that expand in one way (condition of C29)."
  },
  {
   "property": "C85",
   "status": "proved",
   "theorems": [
    "C85_tools"
   ],
   "note": ""
  },
  {
   "property": "C86",
   "status": "partial",
   "theorems": [
    "C86_fingerprint_refuted",
    "C86_fingerprint_partial"
   ],
   "note": "Refuted: additional and unset variables and the strategy are not hashed. What the hashed input identifies is proved; the hash function is not modelled."
  },
  {
   "property": "C87",
   "status": "partial",
   "theorems": [
    "C87_file_refuted",
    "C87_file_partial"
   ],
   "note": "Refuted for empty names, names ending in a slash and short ids; the exact condition is proved."
  },
  {
   "property": "C88",
   "status": "partial",
   "theorems": [
    "C88_file_refuted",
    "C88_file_partial"
   ],
   "note": "Refuted for values with line feeds; proved without them."
  },
  {
   "property": "C89",
   "status": "partial",
   "theorems": [
    "C89_vars_refuted",
    "C89_vars_partial"
   ],
   "note": "Refuted for names that differ in case; proved for distinct names not written by commands or configuration."
  },
  {
   "property": "C90",
   "status": "proved",
   "theorems": [
    "C90_round_trip",
    "C90_tools",
    "C90_others",
    "C90_mode"
   ],
   "note": ""
  },
  {
   "property": "C91",
   "status": "partial",
   "theorems": [
    "C91_refuted",
    "C91_saved_partial"
   ],
   "note": "Refuted for files not written by the tool; proved for saved edit histories."
  },
  {
   "property": "C92",
   "status": "partial",
   "theorems": [
    "C92_ignored",
    "C92_refuted"
   ],
   "note": "Refuted in every mode: the field is never read, which is proved as independence."
  },
  {
   "property": "C93",
   "status": "partial",
   "theorems": [
    "C93_refuted",
    "C93_steps_partial"
   ],
   "note": "Refuted: the file is emptied before it is written. Proved for every other moment and for other suites."
  },
  {
   "property": "C94",
   "status": "partial",
   "theorems": [
    "C94_refuted",
    "C94_first_partial",
    "C94_saved_partial",
    "C94_none"
   ],
   "note": "Refuted: a marker without a suite file hides later suites. Proved when marked directories have a suite file."
  },
  {
   "property": "C95",
   "status": "proved",
   "theorems": [
    "C95_contains"
   ],
   "note": ""
  },
  {
   "property": "C96",
   "status": "partial",
   "theorems": [
    "C96_refuted",
    "C96_exact_partial"
   ],
   "note": "Refuted: every miss counts twice in the overall totals. Proved: the exact totals."
  },
  {
   "property": "C97",
   "status": "partial",
   "theorems": [
    "C97_removed_partial",
    "C97_refuted"
   ],
   "note": "Refuted: an eviction running in another task brings a removed key back. Proved for a single task."
  },
  {
   "property": "C98",
   "status": "proved",
   "theorems": [
    "C98_concurrent",
    "C98_alone"
   ],
   "note": ""
  },
  {
   "property": "C99",
   "status": "partial",
   "theorems": [
    "C99_refuted",
    "C99_bound_partial",
    "C99_exact_partial",
    "C99_lookups_partial"
   ],
   "note": "Refuted for the number of entries, which is only an upper bound. Proved for hits and misses."
  },
  {
   "property": "C100",
   "status": "partial",
   "theorems": [
    "C100_refuted",
    "C100_index_refuted",
    "C100_opens_partial"
   ],
   "note": "Refuted: nothing survives, and a package stored under the key index makes opening fail. Proved: opening succeeds otherwise."
  },
  {
   "property": "C101",
   "status": "proved",
   "theorems": [
    "C101_version",
    "C101_bad"
   ],
   "note": "For repositories without faults in the family."
  },
  {
   "property": "C102",
   "status": "proved",
   "theorems": [
    "C102_names",
    "C102_unlistable"
   ],
   "note": "For repositories whose directories can be listed; otherwise it is an error."
  },
  {
   "property": "C103",
   "status": "partial",
   "theorems": [
    "C103_lines_partial",
    "C103_order_refuted",
    "C103_unset_refuted",
    "C103_field_name_refuted"
   ],
   "note": "Refuted in general: values that contain references are expanded again or not depending on the map order; unset variables keep their text; a variable named like a field cannot be read. Proved for programs of export lines in which each reference is to a set variable whose value has no dollar sign, for every order."
  },
  {
   "property": "C104",
   "status": "proved",
   "theorems": [
    "C104_frame",
    "C104_nothing"
   ],
   "note": ""
  },
  {
   "property": "C105",
   "status": "partial",
   "theorems": [
    "C105_extend",
    "C105_unset",
    "C105_no_empty_entry_refuted"
   ],
   "note": "The extension is exact when the variable is set (C105_extend). When it is unset an empty entry is added (C105_unset, refutation)."
  },
  {
   "property": "C106",
   "status": "proved",
   "theorems": [
    "C106_tools",
    "C106_package",
    "C106_has",
    "C106_version_variant"
   ],
   "note": ""
  },
  {
   "property": "C107",
   "status": "partial",
   "theorems": [
    "C107_nothing",
    "C107_refuted",
    "C107_given_partial",
    "C107_order_partial",
    "C107_limit_partial",
    "C107_limit_refuted",
    "C107_bad_range"
   ],
   "note": "Refuted: the searcher lists a repository by asking for the empty name, so a search over repositories whose packages have names returns nothing. Proved for given package lists without a limit; with a limit the number of results is proved and their choice is shown to depend on map order. A range that does not parse is ignored."
  },
  {
   "property": "C108",
   "status": "partial",
   "theorems": [
    "C108_refuted",
    "C108_agree_partial"
   ],
   "note": "Refuted: versions are ordered as texts, so 3.9 is later than 3.11. Proved where the order of the texts agrees with the order of the versions."
  },
  {
   "property": "C109",
   "status": "partial",
   "theorems": [
    "C109_layers_partial",
    "C109_direct_partial",
    "C109_first_refuted",
    "C109_substring_refuted"
   ],
   "note": "Layering, uniqueness, termination and the graph are proved for all graphs. Refuted for the dependency relation itself: only the first listed version is read, and a requirement counts if the name is anywhere in its text."
  },
  {
   "property": "C110",
   "status": "partial",
   "theorems": [
    "C110_nothing",
    "C110_refuted",
    "C110_whole_partial",
    "C110_version_refuted",
    "C110_levels_partial"
   ],
   "note": "Refuted: the command asks for packages with the empty name and finds none. The relation between given packages is proved; it compares whole requirements, so versioned requirements do not count. Given the dependents, the levels are proved to be the packages by distance, up to the depth, each once."
  },
  {
   "property": "C111",
   "status": "partial",
   "theorems": [
    "C111_plugins_partial",
    "C111_refuted"
   ],
   "note": "Refuted for families whose declaring version is not listed first. Proved: exactly the families whose first listed version declares it, sorted, once each."
  },
  {
   "property": "C112",
   "status": "proved",
   "theorems": [
    "C112_missing",
    "C112_hide",
    "C112_alias",
    "C112_add",
    "C112_remove"
   ],
   "note": "All edits of a suite and of its contexts."
  },
  {
   "property": "C113",
   "status": "partial",
   "theorems": [
    "C113_refuted",
    "C113_command_refuted",
    "C113_copy_partial",
    "C113_command_partial",
    "C113_source"
   ],
   "note": "Refuted for a forced copy onto the package itself: the package is removed, an empty directory is left and success is reported, by the library and by the command. Proved for all other copies: same tree (special files are skipped), right counts, everything apart from the destination unchanged, source first on the paths. The command's copy follows links, which is not modelled."
  },
  {
   "property": "C114",
   "status": "partial",
   "theorems": [
    "C114_refuted",
    "C114_overwrite_refuted",
    "C114_nested_refuted",
    "C114_apart_partial",
    "C114_refuses"
   ],
   "note": "Refuted: a failing copy leaves a part of the package, a forced one loses the old destination, and a forced copy over a directory that holds the source removes the source and fails. Proved for any failing calls: everything apart from the destination stays, and without force an existing destination is never touched."
  },
  {
   "property": "C115",
   "status": "partial",
   "theorems": [
    "C115_refuted",
    "C115_layout_refuted",
    "C115_others_refuted",
    "C115_command_refuted",
    "C115_move_partial",
    "C115_keep",
    "C115_same",
    "C115_command_partial"
   ],
   "note": "Refuted: the moved package is removed when the destination is one of the search paths; a package in the name-version layout stays; copies on other paths are removed; rez mv -f onto its own repository destroys the package. Proved when the destination is apart from the version directories on all paths and the layout is the usual one, for rez mv with another destination, for keep_source, and for the refusal of the same place."
  },
  {
   "property": "C116",
   "status": "partial",
   "theorems": [
    "C116_refuted",
    "C116_bytes_refuted",
    "C116_preview_refuted",
    "C116_only",
    "C116_report",
    "C116_families",
    "C116_absent",
    "C116_preview_partial",
    "C116_bytes_partial",
    "C116_family",
    "C116_size_partial",
    "C116_command",
    "C116_counted",
    "C116_failing"
   ],
   "note": "Refuted: force=false removes all the same, freed bytes leave out directories, the preview lists plain files. Proved for all disks: only version directories and empty families go, the report is exact when no path is below another, no empty family is left, preview and bytes right under stated conditions, families, the command, and failing calls. When removing a family fails only the state outside it is known."
  },
  {
   "property": "C117",
   "status": "partial",
   "theorems": [
    "C117_refuted",
    "C117_second_refuted",
    "C117_conflict_refuted",
    "C117_weak_refuted",
    "C117_found_partial",
    "C117_uniform_partial",
    "C117_clean_partial",
    "C117_version_conflicts",
    "C117_circular_conflicts"
   ],
   "note": "Refuted: a requirement on a package that is already chosen is dropped, the first of two requirements on a name decides, conflict and weak requirements bring the package in. Proved for every heuristic, hash and clock: all chosen packages are offered and allowed, every name asked for is chosen, nothing else is, and each package is accepted by a requirement on it; a full resolution when the requirements on a name agree; the conflict check never finds anything."
  },
  {
   "property": "C118",
   "status": "partial",
   "theorems": [
    "C118_versionless_refuted",
    "C118_again_refuted",
    "C118_complete_partial"
   ],
   "note": "Refuted for packages without version (for every hash and order) and for a second search with the same object. Proved for repositories with versions where requirements are told apart by their text, and a hash without collisions; any heuristic and clock."
  },
  {
   "property": "C119",
   "status": "proved",
   "theorems": [
    "C119_ends",
    "C119_bounded"
   ],
   "note": "For every heuristic, hash, clock and leftovers of earlier searches; the number of states looked at is at most max_states."
  },
  {
   "property": "C120",
   "status": "partial",
   "theorems": [
    "C120_remaining_refuted",
    "C120_depth_refuted",
    "C120_preference_refuted",
    "C120_names_partial"
   ],
   "note": "Refuted for all three heuristics that declare it. Proved for nine tenths per different name still needed. Costs are whole thousandths and are added without rounding."
  },
  {
   "property": "C121",
   "status": "partial",
   "theorems": [
    "C121_refuted",
    "C121_cheapest_partial",
    "C121_cost"
   ],
   "note": "Refuted with the estimate by remaining requirements. Proved for every estimate of at most nine tenths per different name, for repositories with versions and a hash without collisions."
  },
  {
   "property": "C122",
   "status": "partial",
   "theorems": [
    "C122_all",
    "C122_deterministic_refuted",
    "C122_dependencies_refuted",
    "C122_newest_partial",
    "C122_unique_partial"
   ],
   "note": "Refuted: packages of equal version come in map order, and the order is not that of dependencies. Proved: each package once, newest first where versions are in order, and independent of the map where no versions are equal."
  },
  {
   "property": "C123",
   "status": "partial",
   "theorems": [
    "C123_refuted",
    "C123_race_refuted",
    "C123_collision_refuted",
    "C123_fresh_partial"
   ],
   "note": "Refuted for two changes within a second, for a change between reading and storing, and for two paths with one hash. Proved for all histories without these, also with cut and refused writes and restarts."
  },
  {
   "property": "C124",
   "status": "proved",
   "theorems": [
    "C124_only",
    "C124_until"
   ],
   "note": "Both directions, for every history; with the clock and the state of the file read once per lookup."
  },
  {
   "property": "C125",
   "status": "partial",
   "theorems": [
    "C125_refuted",
    "C125_unwritable_refuted",
    "C125_restart_partial"
   ],
   "note": "Refuted after a refused write and for an entry that cannot be written. Proved when every entry is written and paths in use have different hashes."
  },
  {
   "property": "C126",
   "status": "partial",
   "theorems": [
    "C126_refuted",
    "C126_works_partial"
   ],
   "note": "Refuted: after a write that was cut short every later lookup of the path fails in later processes. Proved for calls that succeed in a directory of the cache's own."
  },
  {
   "property": "C127",
   "status": "partial",
   "theorems": [
    "C127_refuted",
    "C127_memory_partial",
    "C127_files_partial"
   ],
   "note": "Refuted for hits in memory and for hits, misses and puts with files. Proved: exact misses, puts, removes and clears in memory, bounds for hits, and the exact relation between the counters with files."
  },
  {
   "property": "C128",
   "status": "partial",
   "theorems": [
    "C128_refuted",
    "C128_clear_partial",
    "C128_memory_partial"
   ],
   "note": "Refuted: other files with the extension go, and invalidate_stale clears everything and reports none. Proved: nothing is found after a successful clear, and files without the extension stay."
  },
  {
   "property": "C129",
   "status": "partial",
   "theorems": [
    "C129_refuted",
    "C129_safe_partial",
    "C129_kept_partial"
   ],
   "note": "Refuted: a lookup that found an old entry removes one stored in between. Proved for every schedule: answers are current and were stored; a path whose entries are never out of date or removed stays."
  },
  {
   "property": "C130",
   "status": "partial",
   "theorems": [
    "C130_refuted",
    "C130_chain_refuted",
    "C130_or_refuted",
    "C130_format_refuted",
    "C130_wrap_refuted",
    "C130_values_partial"
   ],
   "note": "Refuted: chained comparisons, and/or on other values than booleans, templates without numbers or with braces, overflow, spreads. Proved for every other expression."
  },
  {
   "property": "C131",
   "status": "partial",
   "theorems": [
    "C131_refuted",
    "C131_calm_partial"
   ],
   "note": "Refuted: a text times a negative number panics. Proved for files without multiplication."
  },
  {
   "property": "C132",
   "status": "partial",
   "theorems": [
    "C132_refuted",
    "C132_twice_refuted",
    "C132_targets_refuted",
    "C132_fields_partial"
   ],
   "note": "Refuted: an assignment that reads its own variable is applied twice to the field; further targets are ignored. Proved for files with single targets that do not read the variable they set, with expressions of the part of C130."
  },
  {
   "property": "C133",
   "status": "partial",
   "theorems": [
    "C133_refuted",
    "C133_lost_refuted",
    "C133_early_refuted",
    "C133_unset_refuted",
    "C133_commands_partial"
   ],
   "note": "Refuted: values with quotes, subscripts, further targets, unknown values, variables set after the function. Proved when values fit on a line between quotes and only functions follow."
  },
  {
   "property": "C134",
   "status": "proved",
   "theorems": [
    "C134_function"
   ],
   "note": "For every file and position; function bodies cannot leak their local variables."
  },
  {
   "property": "C135",
   "status": "proved",
   "theorems": [
    "C135_valid",
    "C135_accepted"
   ],
   "note": "Both directions."
  },
  {
   "property": "C136",
   "status": "partial",
   "theorems": [
    "C136_python_partial",
    "C136_refuted",
    "C136_commands_refuted"
   ],
   "note": "Refuted: a quote in a description writes other fields; only eight fields are written. Proved exactly which package is loaded when values hold no quotes, backslashes or line ends."
  },
  {
   "property": "C137",
   "status": "partial",
   "theorems": [
    "C137_values_partial",
    "C137_flags_refuted"
   ],
   "note": "Refuted: with a flag or a test the text is never loaded. Proved exactly which package is loaded when there are only values; fields the writer does not know are lost."
  },
  {
   "property": "C138",
   "status": "partial",
   "theorems": [
    "C138_short_partial",
    "C138_long_refuted"
   ],
   "note": "Refuted: a description longer than 40 characters comes back framed by line feeds. Proved for shorter ones and plain values without commands."
  },
  {
   "property": "C139",
   "status": "partial",
   "theorems": [
    "C139_trees_partial",
    "C139_refuted",
    "C139_keys"
   ],
   "note": "Refuted: commands and all but nine fields are read as absent. Proved exactly what is loaded, and that packages that are not valid are errors."
  },
  {
   "property": "C140",
   "status": "partial",
   "theorems": [
    "C140_refuted",
    "C140_plain_partial"
   ],
   "note": "Refuted: files saved with metadata, the default, never load. Proved for files saved without it; pretty YAML is left out."
  },
  {
   "property": "C141",
   "status": "partial",
   "theorems": [
    "C141_text_refuted",
    "C141_file_partial"
   ],
   "note": "Refuted: binary texts never load. Files load with everything that is written, and the options are ignored."
  },
  {
   "property": "C142",
   "status": "proved",
   "theorems": [
    "C142_toml"
   ],
   "note": "Fields that serde skips are absent, as on purpose; TOML has a parser and printer as hypotheses."
  },
  {
   "property": "C143",
   "status": "partial",
   "theorems": [
    "C143_tags_partial",
    "C143_refuted",
    "C143_bad_version"
   ],
   "note": "Refuted: a description can set the version, a text with tags the wrong way round panics, requirements are not read. Proved for values without an opening angle bracket."
  },
  {
   "property": "C144",
   "status": "partial",
   "theorems": [
    "C144_filter_partial",
    "C144_refuted"
   ],
   "note": "Refuted: excluding works for four fields only, asking for a field works for eight. Proved exactly for those."
  },
  {
   "property": "C145",
   "status": "proved",
   "theorems": [
    "C145_names",
    "C145_behind"
   ],
   "note": "For every directory and format, and for the bare name."
  },
  {
   "property": "C146",
   "status": "partial",
   "theorems": [
    "C146_plain_partial",
    "C146_refuted",
    "C146_asked_partial",
    "C146_panic_refuted",
    "C146_eaten_refuted",
    "C146_marks"
   ],
   "note": "Refuted: a wildcard at the end is never expanded for a callback that knows packages by name, two stars at the end panic, two stars elsewhere eat a character. Proved that requests without wildcards are kept and what the callback is asked."
  },
  {
   "property": "C147",
   "status": "proved",
   "theorems": [
    "C147_get",
    "C147_typed"
   ],
   "note": "For tables with every name once, which is what the library holds. Floating point values are not modelled."
  },
  {
   "property": "C148",
   "status": "proved",
   "theorems": [
    "C148_merge",
    "C148_tidy"
   ],
   "note": "Exact for all settings that are no tables."
  },
  {
   "property": "C149",
   "status": "proved",
   "theorems": [
    "C149_layers",
    "C149_broken"
   ],
   "note": "Without REZ_ variables; with them see C150. Directories are named as usual; TOML is a hypothesis on the library."
  },
  {
   "property": "C150",
   "status": "partial",
   "theorems": [
    "C150_partial",
    "C150_names_partial",
    "C150_refuted",
    "C150_underscore_refuted",
    "C150_order_refuted"
   ],
   "note": "Refuted: a variable below a value that is no table is ignored, names with underscores are never reached, the order of variables counts. Proved exactly when the paths are apart and open."
  },
  {
   "property": "C151",
   "status": "partial",
   "theorems": [
    "C151_refuted",
    "C151_partial"
   ],
   "note": "Refuted: a name with a slash is cut at the slashes and never read. Proved for names without a slash."
  },
  {
   "property": "C152",
   "status": "partial",
   "theorems": [
    "C152_refuted",
    "C152_partial",
    "C152_default_partial",
    "C152_threads_partial",
    "C152_values"
   ],
   "note": "Refuted: a file that lacks one of 18 fields is as good as none. Proved for complete files in any order, and the defaults without files."
  },
  {
   "property": "C153",
   "status": "proved",
   "theorems": [
    "C153_packages",
    "C153_clean",
    "C153_others"
   ],
   "note": "On Unix, where the separator is the colon."
  },
  {
   "property": "C154",
   "status": "partial",
   "theorems": [
    "C154_partial",
    "C154_exact_partial",
    "C154_refuted"
   ],
   "note": "Refuted: files behind the one that is taken are listed and make no difference. Proved that the file in force is in the list and that the list holds exactly the searched files that exist."
  },
  {
   "property": "C155",
   "status": "proved",
   "theorems": [
    "C155_fields",
    "C155_unknown",
    "C155_dump"
   ],
   "note": "Numbers of 64 bits; printing and parsing of JSON is a hypothesis on the library."
  },
  {
   "property": "C156",
   "status": "proved",
   "theorems": [
    "C156_entries",
    "C156_fixed",
    "C156_counts",
    "C156_text"
   ],
   "note": "For all orders of the hash maps; the formatted text is covered too."
  },
  {
   "property": "C157",
   "status": "partial",
   "theorems": [
    "C157_identical_partial",
    "C157_identical_names",
    "C157_refuted"
   ],
   "note": "Refuted: packages without a version are not compared. Proved exactly for versions, and for lists in which every package has one."
  },
  {
   "property": "C158",
   "status": "partial",
   "theorems": [
    "C158_turned_partial",
    "C158_refuted"
   ],
   "note": "Refuted: versions that compare equal but are written differently are downgrades both ways. Proved when versions that compare equal are written alike."
  },
  {
   "property": "C159",
   "status": "partial",
   "theorems": [
    "C159_texts_partial",
    "C159_refuted"
   ],
   "note": "Refuted: my-tool-1.0 and my-lib-2.0 are both read as my, and ranges are ignored. Proved for names without dashes."
  },
  {
   "property": "C160",
   "status": "partial",
   "theorems": [
    "C160_previous_partial",
    "C160_refuted",
    "C160_newest",
    "C160_exact"
   ],
   "note": "Refuted: an older package is compared with the newest. Proved for the newest package under a transitive order, and what is compared when both are given."
  },
  {
   "property": "C161",
   "status": "partial",
   "theorems": [
    "C161_changes",
    "C161_silent_partial",
    "C161_refuted"
   ],
   "note": "Refuted: some fields are never compared. Proved exactly for those that are."
  },
  {
   "property": "C162",
   "status": "partial",
   "theorems": [
    "C162_spec_partial",
    "C162_refuted"
   ],
   "note": "Refuted: python-3.9-rc1 is read as the name python-3.9. Proved for versions without dashes."
  },
  {
   "property": "C163",
   "status": "partial",
   "theorems": [
    "C163_found",
    "C163_points",
    "C163_date_refuted"
   ],
   "note": "Refuted: the offered order by date is the order by name. All else proved; the order by version for transitive versions. Regular expressions are a parameter, lower case is ASCII."
  },
  {
   "property": "C164",
   "status": "partial",
   "theorems": [
    "C164_latest_partial",
    "C164_family_partial",
    "C164_refuted"
   ],
   "note": "Refuted: the newest are shown in the order of the hash map, so that a limit keeps arbitrary ones. Proved which ones they are."
  },
  {
   "property": "C165",
   "status": "partial",
   "theorems": [
    "C165_times_partial",
    "C165_refuted",
    "C165_unknown_refuted"
   ],
   "note": "Refuted: a text that is no time filters nothing, and packages without a time count as made in 1970. Proved for texts that are times."
  },
  {
   "property": "C166",
   "status": "partial",
   "theorems": [
    "C166_relative_partial",
    "C166_spec",
    "C166_refuted"
   ],
   "note": "Refuted: negative numbers give times to come, great ones wrap, a text ending in a letter outside ASCII panics. Proved for all numbers without overflow. Dates of the library are a parameter."
  },
  {
   "property": "C167",
   "status": "partial",
   "theorems": [
    "C167_variant_partial",
    "C167_refuted"
   ],
   "note": "Refuted: for families the variant is ignored. Proved for the other types."
  },
  {
   "property": "C168",
   "status": "partial",
   "theorems": [
    "C168_regex_partial",
    "C168_refuted",
    "C168_faulty"
   ],
   "note": "Refuted: without --case-sensitive the expression itself is put in lower case, which turns classes into their opposite; a faulty expression is no error. Proved with --case-sensitive and --description."
  },
  {
   "property": "C169",
   "status": "partial",
   "theorems": [
    "C169_paths",
    "C169_windows",
    "C169_there_and_back",
    "C169_home_partial",
    "C169_other",
    "C169_refuted"
   ],
   "note": "Refuted: ~//etc leaves the home directory and USERPROFILE comes before HOME on Unix. Lists of paths are proved exactly."
  },
  {
   "property": "C170",
   "status": "partial",
   "theorems": [
    "C170_latest_partial",
    "C170_earliest_partial",
    "C170_compatible_partial",
    "C170_each",
    "C170_fail",
    "C170_refuted"
   ],
   "note": "Refuted: the chosen version may break a requirement, and among ranges none is chosen. Proved: greatest and least written version under a transitive order, and what find-compatible does."
  },
  {
   "property": "C171",
   "status": "proved",
   "theorems": [
    "C171_recorded",
    "C171_all",
    "C171_count"
   ],
   "note": "For all sequences of calls and orders of the map."
  },
  {
   "property": "C172",
   "status": "partial",
   "theorems": [
    "C172_rejected_partial",
    "C172_refuted",
    "C172_states"
   ],
   "note": "Refuted in general: the failed check is only recorded, and the package is built and installed. Proved: no tag, no metadata, and the result is no success."
  },
  {
   "property": "C173",
   "status": "proved",
   "theorems": [
    "C173_dry"
   ],
   "note": "For every outcome of the parameters."
  },
  {
   "property": "C174",
   "status": "partial",
   "theorems": [
    "C174_dry_partial",
    "C174_refuted"
   ],
   "note": "Refuted: the dry run of a dirty repository is a success with errors. Proved: it is a success exactly if the package file can be read."
  },
  {
   "property": "C175",
   "status": "partial",
   "theorems": [
    "C175_tags_partial",
    "C175_refuted"
   ],
   "note": "Refuted: an existing tag is a warning and the files are replaced. Proved: tags are never moved and at most the one of this version is new."
  },
  {
   "property": "C176",
   "status": "proved",
   "theorems": [
    "C176_only_below",
    "C176_unreadable"
   ],
   "note": "For hashes that are no absolute paths."
  },
  {
   "property": "C177",
   "status": "partial",
   "theorems": [
    "C177_success_partial",
    "C177_refuted",
    "C177_unknown_tags"
   ],
   "note": "Refuted: hg takes foo-1.0.1 for foo-1.0, tests that python cannot name count as none, variants may be empty, and a repository above the directory is not seen. Proved: definition, variant directories, named tests and tags of git and svn."
  },
  {
   "property": "C178",
   "status": "partial",
   "theorems": [
    "C178_refuted",
    "C178_tests_refuted",
    "C178_left_partial"
   ],
   "note": "Refuted in general: with a skipped build a new version is tagged and then fails; failed tests keep nothing back. Proved: at most the tag and files below the install path stay."
  },
  {
   "property": "C179",
   "status": "partial",
   "theorems": [
    "C179_release_partial",
    "C179_local",
    "C179_home",
    "C179_plain",
    "C179_refuted",
    "C179_mode"
   ],
   "note": "Refuted: the default release path stands for the local one, ~bob is read as the home directory followed by bob. Proved for all other settings."
  },
  {
   "property": "C180",
   "status": "proved",
   "theorems": [
    "C180_success",
    "C180_dry"
   ],
   "note": "Builds and git are parameters; git refuses to make a tag twice."
  },
  {
   "property": "C181",
   "status": "partial",
   "theorems": [
    "C181_tags_partial",
    "C181_refuted"
   ],
   "note": "Refuted: variants built before the failure stay installed. Proved for tags, where git can delete the tag after a failed push."
  },
  {
   "property": "C182",
   "status": "partial",
   "theorems": [
    "C182_changes_partial",
    "C182_refuted"
   ],
   "note": "Refuted: the exit code of git status is not read, so that outside of a repository --vcs git finds no change. Proved for reported changes."
  },
  {
   "property": "C183",
   "status": "partial",
   "theorems": [
    "C183_refuted",
    "C183_refused_partial"
   ],
   "note": "Refuted in general: with the option everything is built and installed, then git refuses the tag. Proved that without it nothing happens."
  },
  {
   "property": "C184",
   "status": "proved",
   "theorems": [
    "C184_selected",
    "C184_all"
   ],
   "note": "Numbers are read as Rust reads usize."
  },
  {
   "property": "C185",
   "status": "partial",
   "theorems": [
    "C185_same_partial",
    "C185_agree_refuted",
    "C185_dots_refuted",
    "C185_stable_partial"
   ],
   "note": "Refuted: API and command agree exactly on names without dash and underscore, and names that differ in a dot only stay apart. Proved: each maps names to the same exactly if they differ in case, dashes and underscores."
  },
  {
   "property": "C186",
   "status": "partial",
   "theorems": [
    "C186_lower_partial",
    "C186_range_partial",
    "C186_closed_range_partial",
    "C186_equal_partial",
    "C186_strict_refuted",
    "C186_upper_refuted",
    "C186_other_refuted",
    "C186_depth_refuted"
   ],
   "note": "Refuted: > accepts the bound, == and <= accept longer releases, < and <= alone, != and ~= are read as other packages, shorter releases than the bound are accepted. Proved exactly for >= and for >= with < on releases with as many numbers as the bounds."
  },
  {
   "property": "C187",
   "status": "partial",
   "theorems": [
    "C187_dashed_refuted",
    "C187_undashed_partial",
    "C187_command_partial"
   ],
   "note": "Refuted for names with a dash or an underscore (typing_extensions is read as typing). Proved for all other names, and for all names that the command writes."
  },
  {
   "property": "C188",
   "status": "partial",
   "theorems": [
    "C188_dependents_partial",
    "C188_dashed_refuted",
    "C188_wrong_refuted",
    "C188_repeated_refuted"
   ],
   "note": "Refuted: packages with a dash in their name are missed, the name before the dash gets their dependents, families are repeated. Proved: exact characterisation by the text before the first sign."
  },
  {
   "property": "C189",
   "status": "partial",
   "theorems": [
    "C189_name_partial",
    "C189_plain_partial",
    "C189_extras_refuted",
    "C189_api_partial",
    "C189_api_refuted"
   ],
   "note": "Refuted: extras and markers stay in the name. Proved for specifications with a name and a sign, and for plain names."
  },
  {
   "property": "C190",
   "status": "partial",
   "theorems": [
    "C190_nothing_made_refuted",
    "C190_extras_refuted",
    "C190_made_partial",
    "C190_failed_partial",
    "C190_show_partial",
    "C190_options_partial"
   ],
   "note": "Refuted: what is not found after the installation is skipped and the command succeeds; so it is with every extra. Proved: what is found is made, and a failure of pip is a failure."
  },
  {
   "property": "C191",
   "status": "partial",
   "theorems": [
    "C191_shared_refuted",
    "C191_stale_refuted",
    "C191_holds_partial"
   ],
   "note": "Refuted: later packages hold the files of all earlier ones, and old files stay. Proved: the last package holds all that pip has installed and its definition."
  },
  {
   "property": "C192",
   "status": "partial",
   "theorems": [
    "C192_loads_partial",
    "C192_dotted_refuted"
   ],
   "note": "Proved for names of letters, digits, dashes and underscores and texts without backslashes and line ends, for every reader of Python that reads the fixed function. Refuted for names with dots."
  },
  {
   "property": "C193",
   "status": "proved",
   "theorems": [
    "C193_dry",
    "C193_python"
   ],
   "note": "For all surroundings."
  },
  {
   "property": "C194",
   "status": "partial",
   "theorems": [
    "C194_specs_partial",
    "C194_order_partial",
    "C194_comments_refuted"
   ],
   "note": "Refuted: comments behind a specification and options stay. Proved: exactly the lines that are neither empty nor comments, trimmed, in their order."
  },
  {
   "property": "C195",
   "status": "proved",
   "theorems": [
    "C195_below"
   ],
   "note": "Where pip leaves relative paths and the reported names and versions do not start with a slash."
  },
  {
   "property": "C196",
   "status": "proved",
   "theorems": [
    "C196_shown",
    "C196_nothing_shown"
   ],
   "note": "For all outputs."
  },
  {
   "property": "C197",
   "status": "partial",
   "theorems": [
    "C197_directory_partial",
    "C197_scan_partial",
    "C197_missing_partial",
    "C197_optional_refuted"
   ],
   "note": "Refuted: requirements of extras become requirements, and markers without a space leave a text that is no requirement. Proved: which directory is taken and how its name is split."
  },
  {
   "property": "C198",
   "status": "partial",
   "theorems": [
    "C198_written_partial",
    "C198_payload_refuted"
   ],
   "note": "Refuted: the directory on PYTHONPATH is not written. Proved: package.py is written and nothing else changes."
  },
  {
   "property": "C199",
   "status": "partial",
   "theorems": [
    "C199_loads_partial",
    "C199_quote_refuted"
   ],
   "note": "Proved for names of letters, digits, dashes and underscores and texts without quotes, backslashes and line ends. A quote in the description is written as it is."
  },
  {
   "property": "C200",
   "status": "partial",
   "theorems": [
    "C200_hides_partial",
    "C200_untouched",
    "C200_listing",
    "C200_refuted"
   ],
   "note": "Refuted: a directory with the name of the marker counts as ignored and the version stays listed. Proved for all disks with nothing but a file in that place: hidden, all else unchanged, whatever call fails."
  },
  {
   "property": "C201",
   "status": "proved",
   "theorems": [
    "C201_ignore_codes",
    "C201_unignore_codes",
    "C201_back"
   ],
   "note": "Results of both operations on all disks with nothing but a file in the place of the marker; the way back gives the same disk."
  },
  {
   "property": "C202",
   "status": "partial",
   "theorems": [
    "C202_whole_partial",
    "C202_removes",
    "C202_runs",
    "C202_refuted"
   ],
   "note": "Refuted if a directory has the name of a marker. Proved otherwise for all failures and all that a failed removal leaves; the effects of success without that condition."
  },
  {
   "property": "C203",
   "status": "partial",
   "theorems": [
    "C203_stays",
    "C203_refuted",
    "C203_again_partial"
   ],
   "note": "Refuted: if the removal of the marker fails, trying again returns false, the marker stays and hides a later release. Proved for removals that succeeded."
  },
  {
   "property": "C204",
   "status": "partial",
   "theorems": [
    "C204_untouched",
    "C204_dry",
    "C204_cleans_partial",
    "C204_counts_refuted",
    "C204_stops_refuted"
   ],
   "note": "Refuted: the trial run counts markers without a version; one file .ignore. makes the cleaning fail. Proved: what is touched at most, for all failures; exact effect and both numbers if no call fails and no marker is .ignore. or .ignore..; a trial run changes nothing."
  },
  {
   "property": "C205",
   "status": "partial",
   "theorems": [
    "C205_family",
    "C205_shown_kept_partial",
    "C205_refuted"
   ],
   "note": "Refuted: a family with a package.py and no version directory is deleted without force. Proved: with a version that is listed nothing changes; other families never change, whatever fails."
  },
  {
   "property": "C206",
   "status": "proved",
   "theorems": [
    "C206_read_only",
    "C206_no_version"
   ],
   "note": "All operations; also if no version is given."
  },
  {
   "property": "C207",
   "status": "partial",
   "theorems": [
    "C207_confined",
    "C207_refused",
    "C207_version_refused",
    "C207_family_refuted",
    "C207_family_partial",
    "C207_family_up_refuted"
   ],
   "note": "Refuted: get_package_family takes any path, such as ../home. Proved: the accepted names of all operations that write and what they change; get_package_family on plain names."
  },
  {
   "property": "C208",
   "status": "partial",
   "theorems": [
    "C208_version",
    "C208_any_partial",
    "C208_latest_refuted"
   ],
   "note": "Refuted: without a version it is the first in the order of the directory. Proved: exact with a version; without one it finds some listed version exactly if there is one."
  },
  {
   "property": "C209",
   "status": "partial",
   "theorems": [
    "C209_families",
    "C209_empty",
    "C209_found_refuted",
    "C209_made_refuted",
    "C209_kept_partial"
   ],
   "note": "Refuted: families with a leading underscore are found and not listed; ignoring a missing version makes a family. Proved: the listing, is_empty, and that ignoring a version that is there adds no family."
  },
  {
   "property": "C210",
   "status": "partial",
   "theorems": [
    "C210_exact_partial",
    "C210_same_partial",
    "C210_refuted",
    "C210_blank_refuted",
    "C210_only",
    "C210_blank_lines"
   ],
   "note": "Refuted: texts with a line feed end the list, blank ones are dropped, white space at the end is lost. Proved for texts of one line: the exact result, and that it is the same list exactly if all end visibly; nothing else is written."
  },
  {
   "property": "C211",
   "status": "partial",
   "theorems": [
    "C211_exact_partial",
    "C211_refuted"
   ],
   "note": "Refuted: only one entry comes back, such as name: a. Proved: the exact result for all bundles whose texts have one line."
  },
  {
   "property": "C212",
   "status": "proved",
   "theorems": [
    "C212_list",
    "C212_bundled"
   ],
   "note": "Exact listing, sorted, without duplicates, on trees without two entries of a name; what was bundled is listed."
  },
  {
   "property": "C213",
   "status": "partial",
   "theorems": [
    "C213_request",
    "C213_refuted",
    "C213_nothing"
   ],
   "note": "Refuted: a directory given by a name without a separator is taken as a request. Proved: the exact reading of the arguments; nothing is done without requests that can be read."
  },
  {
   "property": "C214",
   "status": "partial",
   "theorems": [
    "C214_partial",
    "C214_refuted",
    "C214_given"
   ],
   "note": "Refuted: a-1.2 and a 1_2 share a directory. Proved for requests without hyphen, dot and underscore; a given name is used as it is."
  },
  {
   "property": "C215",
   "status": "partial",
   "theorems": [
    "C215_complete_partial",
    "C215_copy_partial",
    "C215_unresolved_refuted",
    "C215_failed_refuted",
    "C215_missing_refuted",
    "C215_stale_refuted"
   ],
   "note": "Refuted: the command succeeds if nothing was resolved, if a copy failed, if a package is nowhere, and over files of an earlier bundle. Proved without failing calls into a new directory apart from the paths; what any successful copy leaves."
  },
  {
   "property": "C216",
   "status": "proved",
   "theorems": [
    "C216_only",
    "C216_files"
   ],
   "note": "All failures and what failed writes leave; the texts of bundle.json, bundle.yaml and context.rxt, and that activate.sh is there (its text is C217). A directory copied into itself is not covered, as it does not end in the model."
  },
  {
   "property": "C217",
   "status": "partial",
   "theorems": [
    "C217_sourced_partial",
    "C217_names_refuted",
    "C217_unread_refuted"
   ],
   "note": "Refuted: packages with a hyphen, a dot or a leading digit give names that are no variables, and bash cannot read that line. Proved for names that give variables and texts without expansions: exactly what bash reads."
  },
  {
   "property": "C218",
   "status": "partial",
   "theorems": [
    "C218_relative_refuted",
    "C218_path_refuted"
   ],
   "note": "Refuted: the previous PATH is lost; without a directory given all roots are relative. The values of both are those of C217."
  },
  {
   "property": "C219",
   "status": "partial",
   "theorems": [
    "C219_partial",
    "C219_refuted"
   ],
   "note": "Refuted: a bundle made again from its own packages empties their files and succeeds. Proved if the paths are apart from the bundle, whatever fails."
  },
  {
   "property": "C220",
   "status": "proved",
   "theorems": [
    "C220_success",
    "C220_output",
    "C220_failure",
    "C220_skip"
   ],
   "note": "For every behaviour of the steps: success, output, final state, and the course up to the failing step; both kinds of tests are skipped."
  },
  {
   "property": "C221",
   "status": "partial",
   "theorems": [
    "C221_events_partial",
    "C221_refuted"
   ],
   "note": "Refuted: if a step gives an error of its own, neither its end nor that of the build is told, for every build. Proved if no step does."
  },
  {
   "property": "C222",
   "status": "partial",
   "theorems": [
    "C222_message_partial",
    "C222_refuted"
   ],
   "note": "Refuted: warnings of earlier steps hide the message of a step that could not be carried out. Proved: the errors of a step that failed are there, and without earlier warnings the message is."
  },
  {
   "property": "C223",
   "status": "partial",
   "theorems": [
    "C223_refuted",
    "C223_success_refuted",
    "C223_wait_refuted",
    "C223_status_partial"
   ],
   "note": "Refuted: for every interleaving with enough turns the whole build is carried out, and it can end as a success. Proved: until then the status stays cancelled."
  },
  {
   "property": "C224",
   "status": "partial",
   "theorems": [
    "C224_counts_partial",
    "C224_wait",
    "C224_cancel",
    "C224_full",
    "C224_reset_refuted",
    "C224_variant"
   ],
   "note": "Refuted: after a reset, waiting for any active build subtracts below zero. Proved without resets, for identifiers that are drawn once."
  },
  {
   "property": "C225",
   "status": "partial",
   "theorems": [
    "C225_order_partial",
    "C225_variant",
    "C225_refuted",
    "C225_file_partial"
   ],
   "note": "Refuted: a context overrides the variable for the place to install. Proved: the order of all sources of variables, and the variables of variants."
  },
  {
   "property": "C226",
   "status": "partial",
   "theorems": [
    "C226_local_partial",
    "C226_distinct_partial",
    "C226_refuted",
    "C226_inside_refuted",
    "C226_temp",
    "C226_home",
    "C226_share",
    "C226_colon_refuted"
   ],
   "note": "Refuted: with a place to install all variants share it and are built inside it; a directory beginning with a colon is refused. Proved without a place to install, for absolute directories and names that are parts of paths."
  },
  {
   "property": "C227",
   "status": "partial",
   "theorems": [
    "C227_copied_partial",
    "C227_only",
    "C227_succeeds_partial",
    "C227_refuted"
   ],
   "note": "Refuted: a copy into a directory inside the source never ends well. Proved for directories that are apart; whatever fails, only the two directories change."
  },
  {
   "property": "C228",
   "status": "partial",
   "theorems": [
    "C228_order_partial",
    "C228_same_partial",
    "C228_refuted"
   ],
   "note": "Refuted: a directory named build made during a build changes the system. Proved: the order of the rules, and that other files do not matter."
  },
  {
   "property": "C229",
   "status": "partial",
   "theorems": [
    "C229_tests_partial",
    "C229_refuted"
   ],
   "note": "Refuted: for Python and Node.js the tests always pass, and so does npm run build. Proved for CMake, Make and Cargo."
  },
  {
   "property": "C230",
   "status": "partial",
   "theorems": [
    "C230_reference_partial",
    "C230_plain_partial",
    "C230_refuted",
    "C230_password_refuted",
    "C230_kind_refuted",
    "C230_kinds_partial"
   ],
   "note": "Refuted: addresses with a user, a password or the name of a host in a path are read wrong. Proved for http addresses with a reference and for addresses without the sign."
  },
  {
   "property": "C231",
   "status": "partial",
   "theorems": [
    "C231_tests",
    "C231_passed",
    "C231_skip",
    "C231_places_partial"
   ],
   "note": "Proved: order, end at the first failure, result and skipping for all sets of tests and outcomes. Partial: the places are filled in only under the hypotheses of C231_places_partial (values without braces)."
  },
  {
   "property": "C232",
   "status": "partial",
   "theorems": [
    "C232_places_partial",
    "C232_refuted",
    "C232_again_refuted"
   ],
   "note": "Refuted: the place for installing is always install, that for the index of the variant always empty, and values are read again. Proved for values without braces."
  },
  {
   "property": "C233",
   "status": "proved",
   "theorems": [
    "C233_variants",
    "C233_in_turn",
    "C233_requirements",
    "C233_results"
   ],
   "note": "Choice of variants, order, end at the first failure, requirements and the reported result."
  },
  {
   "property": "C234",
   "status": "partial",
   "theorems": [
    "C234_listed_partial",
    "C234_valid_partial",
    "C234_unchanged_partial",
    "C234_refuted"
   ],
   "note": "Refuted: other contents of the same size are never noticed. Proved: the list, missing files, sizes, and silence about an unchanged directory, on trees without two entries of a name."
  },
  {
   "property": "C235",
   "status": "partial",
   "theorems": [
    "C235_script_partial",
    "C235_refuted"
   ],
   "note": "Refuted: for a value with a quote the script is that of two other variables. Proved for values without quotes, backslashes and expansions."
  },
  {
   "property": "C236",
   "status": "partial",
   "theorems": [
    "C236_library_partial",
    "C236_all",
    "C236_command_partial",
    "C236_command_refuted",
    "C236_dot_refuted"
   ],
   "note": "Refuted: the command also runs tests that have the pattern inside their name, and in both a dot is any character. Proved for the library with patterns of letters and stars and names of one line; exactly what the command chooses; all tests without a request."
  },
  {
   "property": "C237",
   "status": "partial",
   "theorems": [
    "C237_code_partial",
    "C237_unknown_refuted"
   ],
   "note": "Refuted: if no test has the names asked for, nothing runs and the code is zero. Proved if tests are run and codes are below 256."
  },
  {
   "property": "C238",
   "status": "partial",
   "theorems": [
    "C238_order",
    "C238_result",
    "C238_skipped",
    "C238_summary_partial",
    "C238_counts",
    "C238_summary_refuted"
   ],
   "note": "Refuted: if all tests are skipped the summary says that all passed. Proved: order, worlds, stopping, results, dry runs, counts, and the summary without skipped tests."
  },
  {
   "property": "C239",
   "status": "partial",
   "theorems": [
    "C239_found_partial",
    "C239_refuted",
    "C239_version_refuted",
    "C239_latest_refuted",
    "C239_paths",
    "C239_paths_order"
   ],
   "note": "Refuted: a package in the working directory is tested whatever was named, 1.9 is taken for later than 1.10, a name with a version is not found. Proved: the last directory by text of the first path, and the paths."
  },
  {
   "property": "C240",
   "status": "partial",
   "theorems": [
    "C240_variant",
    "C240_commands",
    "C240_unreadable_refuted",
    "C240_other_refuted",
    "C240_absent",
    "C240_inplace"
   ],
   "note": "Refuted: a requirement that cannot be read in an early variant ends it all, and another version that the solver gives is tested. Proved: the first variant, the commands, absent packages, tests in place."
  },
  {
   "property": "C241",
   "status": "partial",
   "theorems": [
    "C241_words_partial",
    "C241_shell",
    "C241_quotes_refuted",
    "C241_both_refuted"
   ],
   "note": "Refuted: quoted arguments are torn apart and of two commands the second becomes arguments of the first. Proved for bare words and single words."
  },
  {
   "property": "C242",
   "status": "partial",
   "theorems": [
    "C242_command",
    "C242_refuted",
    "C242_script_partial",
    "C242_config"
   ],
   "note": "Refuted: scripts and interactive shells have all variables of the parent even if these are not inherited. Proved for commands and processes, and for what scripts have of the context."
  },
  {
   "property": "C243",
   "status": "partial",
   "theorems": [
    "C243_order_partial",
    "C243_lost_refuted"
   ],
   "note": "Refuted: if one command cannot be run the results of those before are lost, though what they did stays. Proved if all can be run."
  },
  {
   "property": "C244",
   "status": "partial",
   "theorems": [
    "C244_in_time_partial",
    "C244_refuted"
   ],
   "note": "Refuted: the command goes on after the error and does all that it would have done. Proved in time."
  },
  {
   "property": "C245",
   "status": "partial",
   "theorems": [
    "C245_detect_partial",
    "C245_detect_refuted",
    "C245_path",
    "C245_choice"
   ],
   "note": "Refuted: a directory with bash in its name makes any shell bash. Proved for other directories; name, existence and choice of what is started."
  },
  {
   "property": "C246",
   "status": "partial",
   "theorems": [
    "C246_packages_partial",
    "C246_all",
    "C246_subcommand_refuted",
    "C246_blank_refuted",
    "C246_cursor",
    "C246_panic_refuted",
    "C246_versions"
   ],
   "note": "Refuted: a subcommand is never completed after the name of the program, after a blank the word before is completed again, and a cursor inside a character is a panic. Proved: packages, versions, what follows the cursor."
  },
  {
   "property": "C247",
   "status": "partial",
   "theorems": [
    "C247_first_partial",
    "C247_order",
    "C247_path",
    "C247_all_refuted"
   ],
   "note": "Refuted: an absolute path is listed once for each directory of PATH. Proved for names; paths by which."
  },
  {
   "property": "C248",
   "status": "partial",
   "theorems": [
    "C248_version_partial",
    "C248_revision_refuted",
    "C248_gcc_refuted"
   ],
   "note": "Refuted: a revision after a dash becomes part of the version up to its first letter, and for gcc the first number of the line is taken (11.4.0-1). Proved for numbers with dots that end there."
  },
  {
   "property": "C249",
   "status": "partial",
   "theorems": [
    "C249_version_partial",
    "C249_stands_partial",
    "C249_letter_refuted"
   ],
   "note": "Refuted: behind a letter the first number is lost, so that v18.17.0 is 17.0. Proved for numbers that stand on their own; if there are such, one is found."
  },
  {
   "property": "C250",
   "status": "partial",
   "theorems": [
    "C250_refuted",
    "C250_partial",
    "C250_python_partial",
    "C250_path_partial"
   ],
   "note": "Refuted: names that are not known and programs that are not there are bound as 1.0.0. Proved for cmake, git and clang that state their version."
  },
  {
   "property": "C251",
   "status": "partial",
   "theorems": [
    "C251_refuted",
    "C251_library_partial"
   ],
   "note": "Refuted: the command ignores the version. Proved for the library."
  },
  {
   "property": "C252",
   "status": "partial",
   "theorems": [
    "C252_command_partial",
    "C252_library_partial",
    "C252_name_refuted",
    "C252_metadata_refuted"
   ],
   "note": "Refuted: programs such as clang++ give files that cannot be loaded, and quotes in metadata make other fields. Proved for names of packages and plain paths, without metadata."
  },
  {
   "property": "C253",
   "status": "partial",
   "theorems": [
    "C253_frame",
    "C253_refuted",
    "C253_quickstart_refuted",
    "C253_quickstart_written"
   ],
   "note": "Refuted: pip requires python, which is not bound; what the quick start binds requires nothing. Proved: only the family of the package changes."
  },
  {
   "property": "C254",
   "status": "partial",
   "theorems": [
    "C254_library_partial",
    "C254_force_partial",
    "C254_refuted"
   ],
   "note": "Refuted: the command replaces the file of a package that is there. Proved for the library."
  },
  {
   "property": "C255",
   "status": "partial",
   "theorems": [
    "C255_rust_refuted",
    "C255_name_partial",
    "C255_search_partial",
    "C255_missing_refuted",
    "C255_error"
   ],
   "note": "Refuted: the binder of rust makes rustc, and with a version given a program that is not there is bound. Proved: the package is one of the programs of the binder."
  },
  {
   "property": "C256",
   "status": "partial",
   "theorems": [
    "C256_exact",
    "C256_all",
    "C256_sorted",
    "C256_bound",
    "C256_order_refuted"
   ],
   "note": "Refuted: 2.10.0 comes before 2.9.0. Proved: the list is exact, sorted by text, and what was bound is there."
  },
  {
   "property": "C257",
   "status": "partial",
   "theorems": [
    "C257_refuted",
    "C257_partial"
   ],
   "note": "Refuted: the package is the same for all architectures. Proved: the architecture is detected."
  },
  {
   "property": "C258",
   "status": "partial",
   "theorems": [
    "C258_partial",
    "C258_quotes_refuted",
    "C258_unknown_refuted"
   ],
   "note": "Refuted: single quotes stay and the package cannot be bound; without a version it is unknown. Proved for double quotes and none."
  },
  {
   "property": "C259",
   "status": "partial",
   "theorems": [
    "C259_refuted",
    "C259_complaint_refuted",
    "C259_partial"
   ],
   "note": "Refuted: what is printed for the first argument is taken even if it is a complaint, so go is not bound. Proved if programs print nothing for what they do not know."
  },
  {
   "property": "C260",
   "status": "proved",
   "theorems": [
    "C260_search"
   ],
   "note": ""
  },
  {
   "property": "C261",
   "status": "partial",
   "theorems": [
    "C261_scan_partial",
    "C261_unique_partial",
    "C261_names_partial",
    "C261_refuted"
   ],
   "note": "Refuted: of two files with the same name and version the last is kept, and a package file in a family hides the versions below it. Proved: exactly the last of the files that are read."
  },
  {
   "property": "C262",
   "status": "partial",
   "theorems": [
    "C262_latest_partial",
    "C262_none_partial",
    "C262_versions_partial",
    "C262_refuted"
   ],
   "note": "Refuted: a version is looked up as text, so that 1 does not find 1.0, and a package without version answers to latest. Proved for versions on which comparison is transitive."
  },
  {
   "property": "C263",
   "status": "partial",
   "theorems": [
    "C263_find_partial",
    "C263_limit_partial",
    "C263_refuted",
    "C263_zero_partial"
   ],
   "note": "Refuted: a limit of zero gives a package, a version is compared as text, packages without version pass. Proved what is found otherwise."
  },
  {
   "property": "C264",
   "status": "partial",
   "theorems": [
    "C264_variants_partial",
    "C264_none_partial",
    "C264_refuted"
   ],
   "note": "Refuted: dashes in names give the variants of another package, without a version there are none, and those of a file that was replaced stay. Proved for names without dashes."
  },
  {
   "property": "C265",
   "status": "partial",
   "theorems": [
    "C265_counts_partial",
    "C265_size_partial",
    "C265_refuted"
   ],
   "note": "Refuted: packages are counted per file, not per name, and files that were replaced are counted. Proved: counts and bytes of all files that load."
  },
  {
   "property": "C266",
   "status": "partial",
   "theorems": [
    "C266_fresh",
    "C266_missing",
    "C266_refuted"
   ],
   "note": "Refuted: if the directory is there but cannot be read, everything is lost and the repository is ready. Proved otherwise."
  },
  {
   "property": "C267",
   "status": "partial",
   "theorems": [
    "C267_deduplicate_partial",
    "C267_first_partial",
    "C267_refuted"
   ],
   "note": "Refuted: with dashes in names different packages are taken for the same. Proved for names without dashes."
  },
  {
   "property": "C268",
   "status": "partial",
   "theorems": [
    "C268_glob_partial",
    "C268_points_partial",
    "C268_names_partial",
    "C268_refuted"
   ],
   "note": "Refuted: points match any character. Proved with points read so."
  },
  {
   "property": "C269",
   "status": "partial",
   "theorems": [
    "C269_excluded_partial",
    "C269_refuted"
   ],
   "note": "Refuted: the directory itself is scanned, and a repository below such a directory is not. Proved exactly which paths are excluded."
  },
  {
   "property": "C270",
   "status": "partial",
   "theorems": [
    "C270_found_partial",
    "C270_refuted",
    "C270_counts_partial"
   ],
   "note": "Refuted: one directory that cannot be read fails the scan. Proved when all can be read."
  },
  {
   "property": "C271",
   "status": "partial",
   "theorems": [
    "C271_transparent_partial",
    "C271_bound_partial",
    "C271_refuted",
    "C271_used_refuted",
    "C271_oldest_partial"
   ],
   "note": "Refuted: a file that changed within the same time and size is not read again, and using an entry does not make it recent. Proved when time and size tell files apart."
  },
  {
   "property": "C272",
   "status": "partial",
   "theorems": [
    "C272_valid_partial",
    "C272_exact_partial",
    "C272_complete_partial",
    "C272_refuted"
   ],
   "note": "Refuted: the package of another file below the path or above it is given, and paths stored with another spelling are not found. Proved: what is given is valid and near, and something is given if there is something below."
  },
  {
   "property": "C273",
   "status": "partial",
   "theorems": [
    "C273_found_partial",
    "C273_refuted"
   ],
   "note": "Refuted: the package file of the repository itself is missed, excluded directories are scanned and errors are dropped. Proved which files are found, and order."
  },
  {
   "property": "C274",
   "status": "partial",
   "theorems": [
    "C274_bound_partial",
    "C274_stale_refuted",
    "C274_refuted",
    "C274_recent_partial"
   ],
   "note": "Refuted: what is remembered is given whatever the file has become. Proved: bound and recency."
  },
  {
   "property": "C275",
   "status": "partial",
   "theorems": [
    "C275_terminates_partial",
    "C275_refuted"
   ],
   "note": "Refuted: batches of zero panic, and zero scans at a time wait for ever. Proved for other settings with directories that can be read."
  },
  {
   "property": "C276",
   "status": "partial",
   "theorems": [
    "C276_verified_partial",
    "C276_planted_refuted"
   ],
   "note": "Refuted: the temporary directory has a name that can be guessed and need not be new; a program that was put there before is installed. Proved when it is not there before."
  },
  {
   "property": "C277",
   "status": "partial",
   "theorems": [
    "C277_failed_partial",
    "C277_path_refuted"
   ],
   "note": "Refuted: a version that is a path makes the command remove another directory. Proved for versions without slashes."
  },
  {
   "property": "C278",
   "status": "partial",
   "theorems": [
    "C278_frame_partial",
    "C278_clean_partial",
    "C278_left_refuted",
    "C278_other_refuted"
   ],
   "note": "Refuted: the temporary directory stays whenever the program cannot be replaced, and the second program of the archive is never installed. Proved otherwise for versions without slashes."
  },
  {
   "property": "C279",
   "status": "partial",
   "theorems": [
    "C279_check_partial",
    "C279_older_refuted"
   ],
   "note": "Refuted: an older release is reported as an update. Proved: nothing changes, and it is up to date exactly if the texts are the same."
  },
  {
   "property": "C280",
   "status": "partial",
   "theorems": [
    "C280_same_partial",
    "C280_updated",
    "C280_downgrade_refuted"
   ],
   "note": "Refuted: an older release is installed without being forced. Proved for the same version."
  },
  {
   "property": "C281",
   "status": "partial",
   "theorems": [
    "C281_latest_partial",
    "C281_one_line_refuted"
   ],
   "note": "Refuted: an answer on one line gives something else. Proved for an answer with one entry per line."
  },
  {
   "property": "C282",
   "status": "partial",
   "theorems": [
    "C282_sum_partial",
    "C282_missing",
    "C282_sound",
    "C282_star_refuted",
    "C282_first_refuted"
   ],
   "note": "Refuted: names with the star for binary files are not found, and a broken first line hides a right one. Proved for other files, and that every sum given is in the file."
  },
  {
   "property": "C283",
   "status": "partial",
   "theorems": [
    "C283_target",
    "C283_musl_partial",
    "C283_quotes_refuted"
   ],
   "note": "Refuted: single quotes in the release file. Proved otherwise; Windows is left out."
  },
  {
   "property": "C284",
   "status": "proved",
   "theorems": [
    "C284_asked",
    "C284_latest",
    "C284_letter"
   ],
   "note": "For all servers that agree on these addresses."
  },
  {
   "property": "C285",
   "status": "partial",
   "theorems": [
    "C285_works_partial",
    "C285_device_refuted"
   ],
   "note": "Refuted: if files cannot be renamed to the place of the program, as from another device, it never works. Proved for archives without directories otherwise."
  },
  {
   "property": "C286",
   "status": "partial",
   "theorems": [
    "C286_length_partial",
    "C286_kept_partial",
    "C286_fits_refuted",
    "C286_short_refuted"
   ],
   "note": "Refuted: below three the result is longer than the limit, and texts that would fit are cut if they are within three of the limit. Proved otherwise."
  },
  {
   "property": "C287",
   "status": "partial",
   "theorems": [
    "C287_valid",
    "C287_identifier",
    "C287_same_partial",
    "C287_length",
    "C287_same_refuted",
    "C287_clash_refuted"
   ],
   "note": "Refuted: identifiers that start with an underscore get another one, and different texts become the same. Proved: always valid, and kept if it starts with a letter."
  },
  {
   "property": "C288",
   "status": "proved",
   "theorems": [
    "C288_idempotent",
    "C288_clean",
    "C288_same",
    "C288_equal"
   ],
   "note": "For ASCII names."
  },
  {
   "property": "C289",
   "status": "partial",
   "theorems": [
    "C289_units_partial",
    "C289_number",
    "C289_letters",
    "C289_overflow_refuted"
   ],
   "note": "Refuted: a number that fits but is too large in seconds overflows instead of being refused. Proved for all that fit and for texts without digits."
  },
  {
   "property": "C290",
   "status": "partial",
   "theorems": [
    "C290_difference_partial",
    "C290_future",
    "C290_months_refuted"
   ],
   "note": "Refuted: twelve months are reported before a year is over. Proved: largest unit, rounded down, and the future exactly if later."
  },
  {
   "property": "C291",
   "status": "partial",
   "theorems": [
    "C291_lines_partial",
    "C291_zero_partial",
    "C291_twice_partial",
    "C291_end_refuted"
   ],
   "note": "Refuted: the end of the last line is lost. Proved for texts of lines that are not empty."
  },
  {
   "property": "C292",
   "status": "proved",
   "theorems": [
    "C292_list"
   ],
   "note": "For all lists."
  },
  {
   "property": "C293",
   "status": "partial",
   "theorems": [
    "C293_validate_partial",
    "C293_duplicate_partial",
    "C293_invalid_partial",
    "C293_versions_refuted",
    "C293_names_refuted"
   ],
   "note": "Refuted: two versions of one package pass, and a package whose name ends in the version of another is taken for it. Proved: passes exactly if the texts of name and version differ and all packages are usable, and what failures mean."
  },
  {
   "property": "C294",
   "status": "partial",
   "theorems": [
    "C294_find_partial",
    "C294_exact",
    "C294_all",
    "C294_order",
    "C294_star_partial",
    "C294_point_refuted"
   ],
   "note": "Refuted: with a star in the pattern a point is for any character. Proved without points, and what points mean; exact without stars. Patterns with other signs of regular expressions are not modelled."
  },
  {
   "property": "C295",
   "status": "proved",
   "theorems": [
    "C295_get",
    "C295_none",
    "C295_contains",
    "C295_names"
   ],
   "note": "For all resolutions."
  },
  {
   "property": "C296",
   "status": "partial",
   "theorems": [
    "C296_count",
    "C296_last",
    "C296_versions_partial",
    "C296_versions_refuted"
   ],
   "note": "Refuted: of two packages with one name only the last version is kept. Proved for distinct names."
  },
  {
   "property": "C297",
   "status": "partial",
   "theorems": [
    "C297_packages",
    "C297_commands_partial",
    "C297_only",
    "C297_commands_refuted"
   ],
   "note": "Refuted: names that differ in capital letters share a variable and the first commands are lost. Proved otherwise."
  },
  {
   "property": "C298",
   "status": "partial",
   "theorems": [
    "C298_get",
    "C298_all",
    "C298_empty",
    "C298_added",
    "C298_length_refuted"
   ],
   "note": "Refuted: the length is the number of names, not of requirements. Proved: what every name has, and that nothing is lost."
  },
  {
   "property": "C299",
   "status": "proved",
   "theorems": [
    "C299_cache",
    "C299_counts",
    "C299_reductions"
   ],
   "note": "For all sequences; the rate of hits is not modelled."
  },
  {
   "property": "C300",
   "status": "partial",
   "theorems": [
    "C300_tools",
    "C300_lines_partial",
    "C300_only_partial",
    "C300_value_refuted"
   ],
   "note": "Refuted: a value with a quote and a line feed sets another variable. Proved: tools, that every variable and tool has its line in bash, and that no other line is there if no name, value or tool has a line feed. Other shells are not modelled."
  },
  {
   "property": "C301",
   "status": "partial",
   "theorems": [
    "C301_text_partial",
    "C301_backslash_refuted",
    "C301_quote_refuted"
   ],
   "note": "Refuted: a backslash is not escaped, and a text with both quotes that ends in a single one is read too short. Proved for texts without backslashes and carriage returns that do not end so."
  },
  {
   "property": "C302",
   "status": "partial",
   "theorems": [
    "C302_one_partial",
    "C302_tuple_refuted"
   ],
   "note": "Refuted: every attribute but the last has a comma behind it and so is a tuple in Python. Proved for one attribute."
  },
  {
   "property": "C303",
   "status": "proved",
   "theorems": [
    "C303_order",
    "C303_same",
    "C303_standard"
   ],
   "note": "For all objects; independent of the order for objects without two equal keys."
  },
  {
   "property": "C304",
   "status": "partial",
   "theorems": [
    "C304_nested_refuted",
    "C304_empty_refuted",
    "C304_list_refuted"
   ],
   "note": "Refuted: they become further assignments, and empty ones nothing. No positive part: what is proved is the wrong code for every key and value."
  },
  {
   "property": "C305",
   "status": "partial",
   "theorems": [
    "C305_value_partial"
   ],
   "note": "Proved for all values without objects whose texts are readable; numbers with fractions are not modelled, and that no other value is denoted is not proved."
  },
  {
   "property": "C306",
   "status": "partial",
   "theorems": [
    "C306_line_partial",
    "C306_block_partial",
    "C306_quote_refuted",
    "C306_end_refuted"
   ],
   "note": "Refuted: single quotes are not doubled, and a line feed at the end is lost. Proved for lines without quotes and for the lines of blocks; how YAML finds the indent is not modelled."
  },
  {
   "property": "C307",
   "status": "partial",
   "theorems": [
    "C307_file_partial",
    "C307_missing_refuted"
   ],
   "note": "Refuted: for a file that gives no package the latest package of the same name in any repository is given. Proved for files that load."
  },
  {
   "property": "C308",
   "status": "partial",
   "theorems": [
    "C308_version_partial",
    "C308_combined_refuted"
   ],
   "note": "Refuted: a version in angle brackets is not looked at. Proved for a version that is a directory of the URI, when the file does not load; the first in the order of the repositories is given."
  },
  {
   "property": "C309",
   "status": "partial",
   "theorems": [
    "C309_sources_partial",
    "C309_directory_partial",
    "C309_absolute_refuted"
   ],
   "note": "Refuted: slashes at the start are dropped, so directories given from the root on are searched from the working directory on. Proved: where packages may come from, and that directories from the working directory on are found when the repositories have nothing."
  },
  {
   "property": "C310",
   "status": "partial",
   "theorems": [
    "C310_file_partial",
    "C310_directory_partial",
    "C310_paths_partial",
    "C310_any_name_refuted"
   ],
   "note": "Refuted: below a path files of any name are loaded, and by themselves only package files. Proved: files, directories, and the first path that has something when the handle itself is not there; the handle is a text."
  },
  {
   "property": "C311",
   "status": "partial",
   "theorems": [
    "C311_sources_partial",
    "C311_top_partial",
    "C311_first_partial",
    "C311_uri_refuted",
    "C311_depth_refuted"
   ],
   "note": "Refuted: the URI is not looked at, and packages two directories down, as in the usual repository, are not found. Proved: what is found is in the repository or one directory down, and the first such."
  },
  {
   "property": "C312",
   "status": "partial",
   "theorems": [
    "C312_family_partial",
    "C312_empty_refuted",
    "C312_file_refuted"
   ],
   "note": "Refuted: directories without a package are versions, and a file is a family. Proved: the versions are the directories of the family."
  },
  {
   "property": "C313",
   "status": "proved",
   "theorems": [
    "C313_effect",
    "C313_determined",
    "C313_others",
    "C313_session"
   ],
   "note": "For a YAML library that reads back what it writes; failures of the file system are not modelled."
  },
  {
   "property": "C314",
   "status": "proved",
   "theorems": [
    "C314_memory"
   ],
   "note": "Suites are compared up to the order of the alias maps; the suite at the start is sound."
  },
  {
   "property": "C315",
   "status": "proved",
   "theorems": [
    "C315_sound",
    "C315_readable"
   ],
   "note": "Starting from a disk on which every suite that can be read is sound."
  },
  {
   "property": "C316",
   "status": "partial",
   "theorems": [
    "C316_refuted",
    "C316_mode_partial",
    "C316_new_partial"
   ],
   "note": "Refuted: the contexts are gone without a warning. Proved: which modes are accepted, and that nothing is lost where there was no suite."
  },
  {
   "property": "C317",
   "status": "partial",
   "theorems": [
    "C317_refuted",
    "C317_added_partial"
   ],
   "note": "Refuted: the priority is never used. Proved for the requests and the prefix."
  },
  {
   "property": "C318",
   "status": "partial",
   "theorems": [
    "C318_order_partial",
    "C318_rows",
    "C318_order_refuted"
   ],
   "note": "Refuted: with the prefix mode the number of rows can depend on the order of a map. Proved for the other modes; the rows are sorted and complete in all."
  },
  {
   "property": "C319",
   "status": "proved",
   "theorems": [
    "C319_latest",
    "C319_types"
   ],
   "note": "For factories as functions of the path."
  },
  {
   "property": "C320",
   "status": "proved",
   "theorems": [
    "C320_order",
    "C320_complete"
   ],
   "note": "For factories as functions of the path."
  },
  {
   "property": "C321",
   "status": "proved",
   "theorems": [
    "C321_builtin"
   ],
   "note": "The JSON and TOML libraries are parameters."
  },
  {
   "property": "C322",
   "status": "partial",
   "theorems": [
    "C322_refuted",
    "C322_used_partial",
    "C322_directory_refuted"
   ],
   "note": "Refuted: the mail hook is made with nobody to write to, and for a directory, the documented argument, there is never a hook for web requests. Proved: a configuration that is read is used as it is."
  }
 ]
}