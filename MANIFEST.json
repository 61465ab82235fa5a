{
 "claims": [
  {
   "property": "C01",
   "status": "proved",
   "theorems": [
    "C01_totals",
    "C01_run_completes",
    "C01_stats_do_not_change_report"
   ],
   "note": ""
  },
  {
   "property": "C02",
   "status": "proved",
   "theorems": [
    "C02_exit_gate",
    "C02_no_stats_never_fails",
    "C02_no_stats_refuted"
   ],
   "note": "Statistics enabled (the default). With --no-stats the gate is documented to be inert; C02_no_stats_refuted exhibits it."
  },
  {
   "property": "C03",
   "status": "partial",
   "theorems": [
    "C03_coverage",
    "C03_tracked",
    "C03_monotone",
    "C03_counted_entry",
    "C03_counted_entry_default",
    "C03_filtered_template_refuted"
   ],
   "note": "Coverage is exact for the names counted; a filter on template_attribute findings makes a seen template uncounted (refuted). The f32 rounding of the fraction is not modelled."
  },
  {
   "property": "C04",
   "status": "proved",
   "theorems": [
    "C04_modifier",
    "C04_overridden_level_unique",
    "C04_end_to_end"
   ],
   "note": ""
  },
  {
   "property": "C05",
   "status": "partial",
   "theorems": [
    "C05_verdict",
    "C05_reference_findings",
    "C05_template_refuted",
    "C05_signal",
    "C05_reported_metric",
    "C05_reported_log"
   ],
   "note": "The verdict is exact for every expression when an attribute is present under its own name. Refuted for template attributes: a required one is reported as missing although the resource carries an attribute of the template."
  },
  {
   "property": "C06",
   "status": "proved",
   "theorems": [
    "C06_longest_template",
    "C06_signals",
    "C06_exact_attribute",
    "C06_reported",
    "C06_namespace_boundary_refuted"
   ],
   "note": "The longest-prefix claim holds; the extra theorem shows a template also matches names without a dot boundary."
  },
  {
   "property": "C07",
   "status": "partial",
   "theorems": [
    "C07_missing_attributes_partial",
    "C07_exponential_histogram_refuted"
   ],
   "note": "Exact for number and histogram data points and logs; exponential histogram data points are never checked (refuted)."
  },
  {
   "property": "C08",
   "status": "partial",
   "theorems": [
    "C08_self_diff_v1",
    "C08_self_diff_v2",
    "C08_empty_iff_v1",
    "C08_empty_iff_v2",
    "C08_published_partial",
    "C08_published_refuted"
   ],
   "note": "Identical schemas always give an empty report (v1 and v2). If the baseline is the same schema read back from its published file, a rename without a note is reported again (refuted)."
  },
  {
   "property": "C09",
   "status": "proved",
   "theorems": [
    "C09_exact_v1",
    "C09_completes_v1",
    "C09_exact_v2",
    "C09_order_independent",
    "C09_counts",
    "C09_printed_summary_refuted"
   ],
   "note": "The report is exact; the extra theorem shows that the printed text summary does not add up."
  },
  {
   "property": "C10",
   "status": "proved",
   "theorems": [
    "C10_newest_rename_wins",
    "C10_chain_refuted",
    "C10_all_section_refuted"
   ],
   "note": "The extra theorems show two limits a user may not expect: chains are not followed and the section for all telemetry is ignored."
  },
  {
   "property": "C11",
   "status": "partial",
   "theorems": [
    "C11_extend_partial",
    "C11_extend_unambiguous_partial",
    "C11_metric_attributes_refuted",
    "C11_all_section_refuted",
    "C11_ambiguous_parent_refuted"
   ],
   "note": "Local renames are always kept. Parent renames are added for resource, log and span attributes and metric names; metric attributes and the section for all telemetry are dropped for shared versions (refuted)."
  },
  {
   "property": "C12",
   "status": "partial",
   "theorems": [
    "C12_idempotent",
    "C12_contents_kept",
    "C12_same_values",
    "C12_order_insensitive_partial",
    "C12_order_insensitive_refuted"
   ],
   "note": "Idempotence and content preservation hold for every document. Order-insensitivity holds up to numbers with the same double value, and exactly when there are no such ties; 2^53 and 2^53+1 refute the unrestricted claim."
  },
  {
   "property": "C13",
   "status": "proved",
   "theorems": [
    "C13_total_preorder",
    "C13_equal_means_same",
    "C13_type_order"
   ],
   "note": ""
  },
  {
   "property": "C14",
   "status": "proved",
   "theorems": [
    "C14_total_order",
    "C14_eq_is_cmp_eq",
    "C14_equal_hash",
    "C14_numeric",
    "C14_nan_greatest"
   ],
   "note": ""
  },
  {
   "property": "C15",
   "status": "partial",
   "theorems": [
    "C15_no_error_lost_partial",
    "C15_fatal_kept",
    "C15_extend_fatal_refuted",
    "C15_conversions_account_for_every_error",
    "C15_capture_warnings_exact"
   ],
   "note": "Every operation accounts for every error except extending an already fatal result, which drops the errors handed in (refuted, exactly characterised)."
  },
  {
   "property": "C16",
   "status": "proved",
   "theorems": [
    "C16_has_error_exact",
    "C16_future_mode",
    "C16_recorded_severity",
    "C16_exit_code",
    "C16_captured_diagnostics_kept"
   ],
   "note": ""
  },
  {
   "property": "C17",
   "status": "partial",
   "theorems": [
    "C17_shared_settings_partial",
    "C17_command_settings_partial",
    "C17_no_policy",
    "C17_overrides_exact",
    "C17_invalid_path_refuted",
    "C17_malformed_section_refuted"
   ],
   "note": "Layering is exact for valid values. An unusable path or one mistyped value of a command section silently falls back to defaults (refuted)."
  },
  {
   "property": "C18",
   "status": "partial",
   "theorems": [
    "C18_longest_prefix_wins",
    "C18_order_irrelevant",
    "C18_tokens_of_every_history",
    "C18_download_tokens",
    "C18_download_token_source",
    "C18_host_boundary_refuted",
    "C18_request_url_refuted"
   ],
   "note": "Rule choice and token provenance hold for every history. Two limits are refuted: the prefix test ignores host boundaries, and for GitHub releases the token of the user's URL is sent to the API host and the asset URL."
  },
  {
   "property": "C19",
   "status": "partial",
   "theorems": [
    "C19_accepted",
    "C19_parts_read_as_written",
    "C19_nothing_invented",
    "C19_round_trip_partial",
    "C19_reparse_never_panics",
    "C19_round_trip_refuted",
    "C19_parts_ignored_refuted",
    "C19_map_sub_folder"
   ],
   "note": "Round trip holds except for local folders ending in a bracket; refspec and sub-folder written for sources that cannot use them are silently ignored."
  },
  {
   "property": "C20",
   "status": "partial",
   "theorems": [
    "C20_decomposition",
    "C20_identity",
    "C20_build_then_read_partial",
    "C20_read_then_build_partial",
    "C20_parser_exists",
    "C20_http_scheme_refuted",
    "C20_name_with_scheme_refuted",
    "C20_version_with_slash_refuted"
   ],
   "note": "Decomposition and identity hold for every URL parser; the round trips for plain names and versions with any parser that reads plain URLs as written. The http scheme, a name with a scheme and a version with a slash are not recovered (refuted)."
  },
  {
   "property": "C21",
   "status": "partial",
   "theorems": [
    "C21_prefix_every_line",
    "C21_reading_unique",
    "C21_prefix_empty_refuted",
    "C21_comment_layout",
    "C21_comment_blank_prefix_refuted",
    "C21_line_limit_refuted",
    "C21_map_text"
   ],
   "note": "Layout is exact for every text and non-blank prefix; with a blank prefix leading blank lines are lost, and a line limit below the width of indentation and prefix underflows (refuted). Markdown and HTML rendering and the wrapping crate are not modelled."
  },
  {
   "property": "C22",
   "status": "partial",
   "theorems": [
    "C22_sanitize_legal_partial",
    "C22_sanitize_legal_refuted",
    "C22_sanitize_minimal",
    "C22_legal_unchanged",
    "C22_sanitize_idempotent",
    "C22_translated_name_legal_partial",
    "C22_suffixes",
    "C22_suffix_once_refuted",
    "C22_underscore_runs_refuted",
    "C22_all_names",
    "C22_series_names",
    "C22_unit_word",
    "C22_unit_per",
    "C22_unit_other"
   ],
   "note": "Legality holds for ASCII names; a non-ASCII letter before the first replaced character is kept (refuted); suffixes are repeated and underscore runs are not collapsed in general (refuted)."
  },
  {
   "property": "C23",
   "status": "proved",
   "theorems": [
    "C23_partition",
    "C23_required_exact"
   ],
   "note": ""
  },
  {
   "property": "C24",
   "status": "partial",
   "theorems": [
    "C24_sorted_partial",
    "C24_order_independent_partial",
    "C24_opt_in_text_refuted",
    "C24_v2_by_key"
   ],
   "note": "Exact for every list without an opt-in level that carries a text, which is rejected (refuted)."
  },
  {
   "property": "C25",
   "status": "partial",
   "theorems": [
    "C25_tests_partial",
    "C25_instantiated_partial",
    "C25_any_refuted",
    "C25_no_panic",
    "C25_enum_type_partial",
    "C25_double_enum_refuted",
    "C25_bool_enum_refuted",
    "C25_is_array"
   ],
   "note": "Exact except for the types any and template[any], boolean enums and enums of doubles with integral values (refuted)."
  },
  {
   "property": "C26",
   "status": "partial",
   "theorems": [
    "C26_merge",
    "C26_files",
    "C26_named_file_reported",
    "C26_unreadable_file_refuted",
    "C26_acronyms_partial",
    "C26_acronyms_refuted",
    "C26_text_maps"
   ],
   "note": "Merge exact for every list of files. Acronym merge exact when the list being merged into has no duplicate up to case; otherwise the project file may lose (refuted). An unreadable file found next to the templates is ignored (refuted). YAML parsing is a parameter; case is ASCII case."
  },
  {
   "property": "C27",
   "status": "proved",
   "theorems": [
    "C27_inside_root"
   ],
   "note": "Canonicalisation and reading are arbitrary functions; a change of the file system between the two calls is not modelled."
  },
  {
   "property": "C28",
   "status": "partial",
   "theorems": [
    "C28_update_partial",
    "C28_closed_or_open",
    "C28_unclosed_refuted",
    "C28_idempotent_partial",
    "C28_idempotent_refuted"
   ],
   "note": "Exact for documents whose snippets are all closed; otherwise the rest of the document is dropped (refuted). Snippet generators are parameters."
  },
  {
   "property": "C29",
   "status": "partial",
   "theorems": [
    "C29_nothing_reported",
    "C29_no_error",
    "C29_file",
    "C29_span_kind_refuted",
    "C29_list_of_maps_refuted",
    "C29_version2_refuted"
   ],
   "note": "Exact both for 'nothing reported' and for 'no error'. Refuted: a span without kind and duplicate references are warnings only, fields of lists of maps are not checked, version 2 files skip the checks."
  },
  {
   "property": "C30",
   "status": "proved",
   "theorems": [
    "C30_exact",
    "C30_set"
   ],
   "note": "As multisets, not only as sets."
  },
  {
   "property": "C31",
   "status": "proved",
   "theorems": [
    "C31_compatible"
   ],
   "note": "The rule is an equivalence."
  },
  {
   "property": "C32",
   "status": "partial",
   "theorems": [
    "C32_catalog_references_partial",
    "C32_no_unreferenced_entry_refuted"
   ],
   "note": "proved: references valid, denote the same attribute, catalog sorted and without duplicates, each entry referenced by some group before internal groups are dropped. The last clause of the claim is false: an attribute referenced by internal groups only stays in the catalog."
  },
  {
   "property": "C33",
   "status": "partial",
   "theorems": [
    "C33_inheritance_partial",
    "C33_ancestors",
    "C33_prefix_flag_refuted"
   ],
   "note": "all fields except the prefix flag, which is proved to be lost when the inherited attribute is a definition"
  },
  {
   "property": "C34",
   "status": "partial",
   "theorems": [
    "C34_extends_terminates",
    "C34_extends_complete",
    "C34_extends_unresolvable",
    "C34_extends_failure_justified",
    "C34_refs_terminate",
    "C34_refs_complete",
    "C34_refs_undefined_fails",
    "C34_refs_failure",
    "C34_masked_refuted",
    "C34_refs_masked_refuted"
   ],
   "note": "termination and completeness in full, for extends, include and attribute references. Naming the unresolvable reference: proved except when another error masks it (a conflict between dependencies, an excluded attribute, a duplicate among included attributes); that it is always named is refuted."
  },
  {
   "property": "C35",
   "status": "partial",
   "theorems": [
    "C35_extends",
    "C35_extends_failure",
    "C35_references",
    "C35_registry_partial",
    "C35_success",
    "C35_imports",
    "C35_dependencies_partial",
    "C35_dependencies_success",
    "C35_override_refuted",
    "C35_lineage_refuted",
    "C35_shadow_refuted",
    "C37_file_order_refuted",
    "C37_local_order_refuted"
   ],
   "note": "Inheritance is order-independent in full when ids differ and no dependency offers an id of the registry (same groups, same success or failure). For a whole registry without dependencies, whose attributes have one definition each once inherited, every order gives the same catalog, groups and warnings (but for the recorded source of attributes and the warning about attributes defined twice), and resolves for one order iff for another when nothing is marked as excluded. With dependencies, imports included, every order that resolves gives the same catalog, groups, recorded entities and warnings, when no id of the files is offered by a dependency and published ids differ. It then resolves for one order iff for another, when nothing is marked as excluded, the dependencies have an answer for every reference, and registries that offer one attribute are versions of one another with the same major number. The claim as stated is false: an inheriting definition that overrides an attribute may become its definition, recorded lineage varies, and a parent not yet resolved is replaced by a dependency's definition of the same id."
  },
  {
   "property": "C36",
   "status": "partial",
   "theorems": [
    "C36_group_ids",
    "C36_metric_names",
    "C36_names",
    "C36_root_attributes",
    "C36_colliding",
    "C36_colliding_ids",
    "C36_files_ids_partial",
    "C36_files_metrics_partial",
    "C36_files_names_partial",
    "C36_imported_groups_refuted",
    "C36_internal_refuted",
    "C36_kinds_refuted",
    "C36_imported_kinds_refuted"
   ],
   "note": "The reports are characterised exactly in terms of the published groups; two definitions of the files that share an id, metric name or name are shown to be reported. False without the conditions: definitions with internal visibility and groups imported without lineage are not counted, and names are compared across kinds."
  },
  {
   "property": "C37",
   "status": "partial",
   "theorems": [
    "C37_given",
    "C37_given_failure",
    "C37_winner",
    "C37_nothing",
    "C37_failure",
    "C37_refused",
    "C37_order",
    "C37_precedence",
    "C37_file_order_refuted",
    "C37_local_order_refuted",
    "C37_extends_order_refuted",
    "C37_one_version_refuted"
   ],
   "note": "For the lookup across dependencies the claim is proved in full: which definition each dependency gives, that the winner is the newest compatible unhidden one, exactly when the lookup is refused, and that the order of the dependencies does not matter when one registry version gives one definition. The precedence between two definitions met during resolution is proved for every pair. The claim is false of a whole resolution: the order of files decides between success and failure when two incompatible dependencies meet a local definition, two local definitions outside attribute groups are settled by order alone, and extending a definition two dependencies publish takes the first listed."
  },
  {
   "property": "C38",
   "status": "partial",
   "theorems": [
    "C38_higher_of_two",
    "C38_rejected",
    "C38_highest_of_all",
    "C38_any_order_partial",
    "C38_loaded_highest",
    "C38_replacement_reported",
    "C38_any_order_refuted",
    "C38_same_version_refuted"
   ],
   "note": "Pairs, any list, the loader's choice over the whole dependency graph and its warnings. Order independence needs compatible versions and one URL per version; both needs are shown by refutations."
  },
  {
   "property": "C39",
   "status": "proved",
   "theorems": [
    "C39_everything_loaded",
    "C39_no_cycle_no_overrun",
    "C39_failure_explained",
    "C39_loads",
    "C39_cycle_reported",
    "C39_overrun_reported",
    "C39_cache_refuted"
   ],
   "note": "The loader is a total function by recursion on the depth limit of the code (10 registries in a chain). C39_cache_refuted: the outcome also depends on what is cached."
  },
  {
   "property": "C40",
   "status": "partial",
   "theorems": [
    "C40_only_wanted",
    "C40_all_wanted",
    "C40_once",
    "C40_private",
    "C40_failure",
    "C40_unmatched",
    "C40_attributes",
    "C40_added",
    "C40_unmatched_refuted",
    "C40_unmatched_order_refuted",
    "C40_refinement_refuted",
    "C40_unreported_refuted",
    "C40_level_refuted",
    "C40_unversioned_refuted"
   ],
   "note": "Imports bring exactly the public definitions asked for, each once, with their attributes; private ones asked for by name fail. The report of unmatched patterns is exact about the imported groups, but not about the definitions of the dependencies: refuted in three ways. C40_attributes needs one version of each registry: with two, a definition loses its own requirement levels. Two definitions of an unversioned dependency that share an attribute cannot be imported together."
  },
  {
   "property": "C41",
   "status": "proved",
   "theorems": [
    "C41_signals",
    "C41_refinements",
    "C41_catalog",
    "C41_attributes",
    "C41_missing_attribute_refuted",
    "C41_key_twice_refuted"
   ],
   "note": "Every definition appears once in group order with its fields, attribute uses, associations and provenance; every signal is listed once among the refinements; the catalog holds each attribute once and every reference denotes the only attribute with the same key and properties; the attribute list is exactly the definitions. The two refuted theorems mark the boundary: an attribute number outside the catalog is skipped for all signals but entities, and a key defined differently by two groups is listed twice."
  },
  {
   "property": "C42",
   "status": "proved",
   "theorems": [
    "C42_answer",
    "C42_determined",
    "C42_walk",
    "C42_found",
    "C42_served"
   ],
   "note": "Lowercasing is a parameter; white space and separators are ASCII."
  },
  {
   "property": "C43",
   "status": "proved",
   "theorems": [
    "C43_order",
    "C43_score",
    "C43_exact",
    "C43_deprecated",
    "C43_deprecated_only"
   ],
   "note": "Scores are characterised exactly by a rating relation."
  },
  {
   "property": "C44",
   "status": "partial",
   "theorems": [
    "C44_prefix",
    "C44_namespace",
    "C44_cover",
    "C44_reach",
    "C44_order",
    "C44_reach_refuted",
    "C44_duplicates_refuted"
   ],
   "note": "Cover holds for all registries, the count for registries without two attributes of one key (refuted with). Keys with empty segments are counted but cannot be reached (refuted); all others can."
  },
  {
   "property": "C45",
   "status": "proved",
   "theorems": [
    "C45_spans",
    "C45_metrics",
    "C45_events",
    "C45_definitions",
    "C45_closed",
    "C45_bounded"
   ],
   "note": "for every stream of samples and every iteration order of the hash maps; integer to f64 conversion is a parameter"
  },
  {
   "property": "C46",
   "status": "partial",
   "theorems": [
    "C46_deprecated",
    "C46_stability",
    "C46_attribute_type",
    "C46_attribute_unknown",
    "C46_instrument_unit",
    "C46_enum",
    "C46_empty_enum_refuted"
   ],
   "note": "Exact for every advisor; an enum type with no members never reports an undefined value (refuted)."
  },
  {
   "property": "C47",
   "status": "proved",
   "theorems": [
    "C47_infer_type"
   ],
   "note": ""
  },
  {
   "property": "C48",
   "status": "proved",
   "theorems": [
    "C48_resource"
   ],
   "note": ""
  },
  {
   "property": "C49",
   "status": "partial",
   "theorems": [
    "C49_meaning_kept",
    "C49_same_value_iff",
    "C49_definition_reader_refuted",
    "C49_readers_agree_partial"
   ],
   "note": "Kind, replacement and note survive; the value is not the same for a rename without a note, and the definition reader rejects the unstructured kind."
  },
  {
   "property": "C50",
   "status": "partial",
   "theorems": [
    "C50_unpack_inside_partial",
    "C50_unpack_inside_refuted"
   ],
   "note": "Holds for entries without '..'; a .tar.gz entry with '..' is written outside (refuted). Symbolic links and the zip crate's own name filter are not modelled."
  },
  {
   "property": "C51",
   "status": "partial",
   "theorems": [
    "C51_sub_folder_exact_partial",
    "C51_nested_sub_folder_refuted"
   ],
   "note": "Exact for a sub-folder that is one name; a nested sub-folder selects nothing (shown for all two-level ones)."
  },
  {
   "property": "C52",
   "status": "proved",
   "theorems": [
    "C52_nearest_file",
    "C52_explicit_file_and_errors"
   ],
   "note": "The current directory is assumed to be available; TOML parsing is a parameter."
  },
  {
   "property": "C53",
   "status": "proved",
   "theorems": [
    "C53_stable_or_experimental",
    "C53_tests_exact"
   ],
   "note": ""
  },
  {
   "property": "C54",
   "status": "proved",
   "theorems": [
    "C54_split",
    "C54_fails_only",
    "C54_registry_namespace"
   ],
   "note": ""
  },
  {
   "property": "C55",
   "status": "proved",
   "theorems": [
    "C55_listing",
    "C55_every_field_once"
   ],
   "note": "For bodies whose root has an id; the order of the sort filter is a parameter (any total preorder)."
  },
  {
   "property": "C56",
   "status": "proved",
   "theorems": [
    "C56_acronym",
    "C56_idempotent",
    "C56_mixed_acronym_refuted"
   ],
   "note": "Letter case is ASCII case. The extra theorem shows acronyms with punctuation never apply."
  },
  {
   "property": "C57",
   "status": "proved",
   "theorems": [
    "C57_precedence",
    "C57_command_line",
    "C57_key_value",
    "C57_reserved"
   ],
   "note": ""
  },
  {
   "property": "C58",
   "status": "partial",
   "theorems": [
    "C58_schedule_independent_partial",
    "C58_same_name_refuted",
    "C58_every_result_rendered",
    "C58_nothing_else_rendered",
    "C58_single_array_result_refuted",
    "C58_unmatched_reported"
   ],
   "note": "Independence holds when no two renderings give one file different contents; otherwise the result depends on the schedule (refuted). jq, Jinja and glob matching are parameters."
  },
  {
   "property": "C59",
   "status": "partial",
   "theorems": [
    "C59_inside_output_partial",
    "C59_inside_output_refuted"
   ],
   "note": "Holds for relative names without parent components; nothing in the code rejects other names (refuted)."
  },
  {
   "property": "C60",
   "status": "partial",
   "theorems": [
    "C60_load",
    "C60_listing_partial",
    "C60_listing_refuted"
   ],
   "note": "Listing exact for directories without sub-directories; files of sub-directories are listed by their bare name (refuted)."
  },
  {
   "property": "C61",
   "status": "proved",
   "theorems": [
    "C61_reports"
   ],
   "note": "Serialisation is a parameter."
  },
  {
   "property": "C62",
   "status": "partial",
   "theorems": [
    "C62_semconv_directive",
    "C62_weaver_directive",
    "C62_trailers",
    "C62_lookup",
    "C62_malformed_refuted",
    "C62_weaver_prefix_refuted",
    "C62_tags_refuted",
    "C62_first_tag_partial"
   ],
   "note": "The grammar is characterised exactly; three expectations about it are refuted."
  },
  {
   "property": "C63",
   "status": "partial",
   "theorems": [
    "C63_no_unwanted_write",
    "C63_dry_run_exact_partial",
    "C63_crlf_refuted",
    "C63_last_line_refuted",
    "C63_file_update_partial",
    "C63_update_then_dry_run_partial",
    "C63_command"
   ],
   "note": "Agreement of dry run and update holds for files without carriage returns (refuted otherwise)."
  },
  {
   "property": "C64",
   "status": "partial",
   "theorems": [
    "C64_shape",
    "C64_contents",
    "C64_checked",
    "C64_int_for_double_refuted",
    "C64_empty_refuted",
    "C64_old_form_refuted"
   ],
   "note": "Reading and checking are characterised exactly; three expectations about them are refuted. The conversion of integers to doubles is a parameter."
  },
  {
   "property": "C65",
   "status": "partial",
   "theorems": [
    "C65_carried",
    "C65_lossless",
    "C65_file_names_refuted",
    "C65_ids_refuted"
   ],
   "note": "Carried and lossless hold; identifiers may collide (refuted)."
  },
  {
   "property": "C66",
   "status": "partial",
   "theorems": [
    "C66_loaded",
    "C66_reported",
    "C66_rejected",
    "C66_numeric_version_refuted",
    "C66_unknown_format_refuted"
   ],
   "note": "Exact for fields holding text; a numeric version is ignored and an unknown file_format beside a known version passes (refuted). Deserialisation is a parameter."
  },
  {
   "property": "C67",
   "status": "proved",
   "theorems": [
    "C67_accepted",
    "C67_reported",
    "C67_rejected"
   ],
   "note": ""
  },
  {
   "property": "C68",
   "status": "partial",
   "theorems": [
    "C68_refinement_kind_refuted",
    "C68_kind_mismatch_never_reported"
   ],
   "note": "false: the error is dropped in the round after the one that records it, and is never reported"
  },
  {
   "property": "C69",
   "status": "proved",
   "theorems": [
    "C69_refinement_fields"
   ],
   "note": "annotation keys are assumed unique in each object, as in any YAML mapping"
  },
  {
   "property": "C70",
   "status": "partial",
   "theorems": [
    "C70_files_read_partial",
    "C70_reported_path_partial",
    "C70_parallel",
    "C70_hidden_root_refuted",
    "C70_manifest_path_refuted",
    "C70_trailing_slash_refuted"
   ],
   "note": "Files: for roots whose own name is not hidden. Paths: when local path and registry path both end, or both do not end, with a slash. Neither holds without."
  },
  {
   "property": "C71",
   "status": "proved",
   "theorems": [
    "C71_resolved",
    "C71_recorded",
    "C71_errors",
    "C71_total",
    "C71_dependency_order"
   ],
   "note": ""
  },
  {
   "property": "C72",
   "status": "partial",
   "theorems": [
    "C72_imported_partial",
    "C72_recorded_partial",
    "C72_imported_refuted",
    "C72_resolution_refuted",
    "C72_replaced_refuted"
   ],
   "note": "Signals of different kinds that share a name exchange their origins (refuted), and a signal replaced by a newer version of its registry may lose them (refuted)."
  },
  {
   "property": "C73",
   "status": "partial",
   "theorems": [
    "C73_signals",
    "C73_attribute",
    "C73_absent",
    "C73_template",
    "C73_segment_refuted",
    "C73_two_answers_refuted"
   ],
   "note": "All but the last clause: a template may end in the middle of a segment of the name, and two templates with the same key are told apart by how they are asked for (refuted)."
  },
  {
   "property": "C74",
   "status": "proved",
   "theorems": [
    "C74_spans",
    "C74_metrics",
    "C74_logs",
    "C74_resources",
    "C74_observed",
    "C74_written"
   ],
   "note": "the gRPC server and the decoding of protobuf are not modelled"
  },
  {
   "property": "C75",
   "status": "partial",
   "theorems": [
    "C75_signals",
    "C75_definitions_partial",
    "C75_hash_order_refuted",
    "C75_arrival_refuted",
    "C75_type_refuted"
   ],
   "note": "the claim is false: among several spans, metrics or events that share an attribute the hash order decides whose type and examples are defined, and the first observation alone decides the type; proved: spans, metrics and events never depend on the hash order, and the whole file does not if no two sources of the same sort share an attribute"
  },
  {
   "property": "C76",
   "status": "proved",
   "theorems": [
    "C76_success",
    "C76_reason",
    "C76_panic"
   ],
   "note": "Exact conditions for success and for a panic; every error is explained by a group or by the url."
  },
  {
   "property": "C77",
   "status": "partial",
   "theorems": [
    "C77_references_partial",
    "C77_unlisted_origin_refuted"
   ],
   "note": "Proved for origins that are among the dependencies. Missing: an origin that is not among them, for which the claim is false: the reference then claims a local entity."
  },
  {
   "property": "C78",
   "status": "partial",
   "theorems": [
    "C78_order_partial",
    "C78_collision_refuted"
   ],
   "note": "Proved when no two attributes of one key have the same 64-bit hash; false when they do, because the catalog is sorted by key and hash only."
  },
  {
   "property": "C79",
   "status": "partial",
   "theorems": [
    "C79_samples",
    "C79_array_element_refuted",
    "C79_own_resource_partial",
    "C79_no_resource_refuted"
   ],
   "note": "The samples are exactly the sent items in order, and a signal with a resource is judged against its own. Missing, because false: map elements of arrays are dropped; a signal sent without a resource is judged against another sender's."
  },
  {
   "property": "C80",
   "status": "partial",
   "theorems": [
    "C80_emitted",
    "C80_panics",
    "C80_example_partial",
    "C80_boolean_example_refuted"
   ],
   "note": "Everything but the examples of booleans, which are ignored (refuted)."
  },
  {
   "property": "C81",
   "status": "partial",
   "theorems": [
    "C81_round_trip_partial",
    "C81_all_seen",
    "C81_template_refuted",
    "C81_enum_refuted",
    "C81_unnamed_refuted",
    "C81_dependency_refuted"
   ],
   "note": "Proved for coherent registries (EmitSpec.coherent). Missing, because false: a template whose example key is another attribute, enums of booleans or doubles, unnamed events, version 2 signals that use attributes of dependencies."
  },
  {
   "property": "C82",
   "status": "proved",
   "theorems": [
    "C82_view",
    "C82_refused",
    "C82_success"
   ],
   "note": "For every registry."
  },
  {
   "property": "C83",
   "status": "partial",
   "theorems": [
    "C83_shown",
    "C83_refused",
    "C83_crash",
    "C83_dangling",
    "C83_warnings",
    "C83_once",
    "C83_success",
    "C83_lookup",
    "C83_lookup_error",
    "C83_ends_partial",
    "C83_endless_refuted",
    "C83_size_refuted",
    "C83_listed_attribute_refuted",
    "C83_unlisted_dependency_refuted"
   ],
   "note": "Missing, because false: it ends only when no schema is in its own tree of dependencies; the view of a chain of n registries holds 2^n; a listed attribute the catalog lacks is skipped; a provenance outside the list of dependencies is shown as local."
  },
  {
   "property": "C84",
   "status": "partial",
   "theorems": [
    "C84_sound",
    "C84_provenance",
    "C84_lookup_partial"
   ],
   "note": "References can be followed when the entity is still declared under the recorded origin and the origin is a dependency; C77_unlisted_origin_refuted shows that the latter is needed."
  },
  {
   "property": "C85",
   "status": "partial",
   "theorems": [
    "C85_read",
    "C85_refused",
    "C85_list",
    "C85_stated",
    "C85_newer_names",
    "C85_reread_refuted"
   ],
   "note": "Reading is characterised exactly; that what the program writes can be read back is false."
  },
  {
   "property": "C86",
   "status": "partial",
   "theorems": [
    "C86_stage",
    "C86_files",
    "C86_policies",
    "C86_check",
    "C86_compare",
    "C86_incompatible",
    "C86_skipped",
    "C86_finding_fails",
    "C86_generate",
    "C86_stopped",
    "C86_baseline_stopped",
    "C86_total",
    "C86_advice",
    "C86_lost_refuted",
    "C86_level_refuted",
    "C86_unflagged_refuted",
    "C86_malformed_refuted",
    "C86_generated_refuted",
    "C86_unlisted_refuted"
   ],
   "note": "The interpreter is a parameter and the outcomes of loading, resolving and viewing are given. Six stronger claims are refuted, among them that findings before resolution survive a failing resolution."
  },
  {
   "property": "C87",
   "status": "partial",
   "theorems": [
    "C87_split",
    "C87_documents",
    "C87_pattern",
    "C87_place_refuted"
   ],
   "note": "Walking the file system and matching globs are parameters. That different files have different places is false."
  },
  {
   "property": "C88",
   "status": "partial",
   "theorems": [
    "C88_url",
    "C88_bounded",
    "C88_again",
    "C88_checked",
    "C88_failed",
    "C88_ends_partial",
    "C88_one_answer",
    "C88_made",
    "C88_stable_partial",
    "C88_served_partial",
    "C88_loader",
    "C88_loader_raw",
    "C88_poisoned_refuted",
    "C88_warnings_refuted",
    "C88_dependency_warnings_refuted",
    "C88_cycle_refuted",
    "C88_evicted_refuted",
    "C88_override_refuted"
   ],
   "note": "Requests always get a schema of their URL, and repeats the same one. Termination, one schema per URL and requestable dependencies hold without overrides and with room for all; with cyclic overrides a request never returns, a refused request leaves what it found in the cache, and warnings are lost on hits and for dependencies."
  },
  {
   "property": "C89",
   "status": "proved",
   "theorems": [
    "C89_read",
    "C89_refused",
    "C89_fields",
    "C89_file",
    "C89_file_refused",
    "C89_one_meaning",
    "C89_name_only_refused",
    "C89_every_entry",
    "C89_which_file",
    "C89_no_file",
    "C89_name_ignored_refuted"
   ],
   "note": "The YAML text layer is a parameter. A name beside a schema URL is ignored, not compared with it (refuted)."
  },
  {
   "property": "C90",
   "status": "partial",
   "theorems": [
    "C90_success",
    "C90_success_files_partial",
    "C90_succeeds",
    "C90_files",
    "C90_only_the_package",
    "C90_refused_partial",
    "C90_unversioned",
    "C90_crash_partial",
    "C90_round_trip",
    "C90_round_trip_of_files",
    "C90_found_in_directory",
    "C90_found_beside_manifest",
    "C90_found_in_sub_folder",
    "C90_absolute",
    "C90_by_name_partial",
    "C90_bare_manifest_refuted",
    "C90_git_root_refuted",
    "C90_unreadable_uri_refuted",
    "C90_directory_refuted",
    "C90_overwrite_refuted",
    "C90_full_disk_refuted"
   ],
   "note": "The full claim is false: see the refuted theorems. Proved: exact success conditions, the files written, the round trip, interruption in a fresh directory, and finding the package in a directory, beside its manifest or in a sub-folder."
  },
  {
   "property": "C91",
   "status": "partial",
   "theorems": [
    "C91_groups",
    "C91_panic",
    "C91_adds_up",
    "C91_determined",
    "C91_type_labels",
    "C91_catalog",
    "C91_signals",
    "C91_attributes",
    "C91_attributes_add_up",
    "C91_attribute_groups_partial",
    "C91_attribute_groups_wrong",
    "C91_attribute_groups_refuted",
    "C91_command",
    "C91_warnings_refuted"
   ],
   "note": "Exact for V1 groups, catalogs and the V2 signals and attributes. False for V2 attribute groups (stability, deprecation and notes are never counted) and for the warnings of loading (the command drops them)."
  },
  {
   "property": "C92",
   "status": "partial",
   "theorems": [
    "C92_shown",
    "C92_context",
    "C92_found",
    "C92_otherwise",
    "C92_metric_line_partial",
    "C92_as_templates_see",
    "C92_version_1",
    "C92_unnameable_refuted",
    "C92_provenance_refuted",
    "C92_parameters_refuted"
   ],
   "note": "Exact classification of what an id gives. Not every object can be named (a name must be a letter followed by letters, digits, dots, underscores and dashes), the provenance is dropped from the context, and of the parameters only the first tag has an effect in version 2."
  },
  {
   "property": "C93",
   "status": "partial",
   "theorems": [
    "C93_references",
    "C93_values",
    "C93_links",
    "C93_extends_partial",
    "C93_locally_refuted",
    "C93_two_bases_refuted",
    "C93_unmentioned_role_refuted",
    "C93_stale_entry_refuted"
   ],
   "note": "Proved for every reference and for groups with one base. False otherwise: fields an extended group wrote are listed as locally overridden, with two bases the fields of the first are listed for the second, annotations and role of an unmentioned attribute are not listed, and an entry may remain for a name no attribute has."
  },
  {
   "property": "C94",
   "status": "partial",
   "theorems": [
    "C94_full",
    "C94_independent",
    "C94_as_command_partial",
    "C94_compact",
    "C94_findings_partial",
    "C94_complete_refuted",
    "C94_count_refuted",
    "C94_as_command_refuted"
   ],
   "note": "Proved: the full answer, independence of samples, the exact content of the compact answer, equality, when no resource is sent, with what the command reports with the built-in checks followed by the policies. False as a whole: compact answers leave out what is wrong with a log itself, with data points, with links, with resources; the count counts parts; the tool does not attach a resource to the samples after it."
  },
  {
   "property": "C95",
   "status": "partial",
   "theorems": [
    "C95_reported",
    "C95_emitted_partial",
    "C95_unmodified",
    "C95_headline",
    "C95_record_partial",
    "C95_unambiguous_partial",
    "C95_emitted_refuted",
    "C95_context_refuted"
   ],
   "note": "The report is what the finding modifier leaves of the emitted findings. Without a modifier records and report agree. With one, records for dropped findings are still emitted, with the levels from before the overrides. The attributes are exact when no context key is empty, and unambiguous when the keys have no dots either. A scalar context and a scalar under an empty key are lost. Not modelled: export, and what is emitted before an advisor fails."
  },
  {
   "property": "C96",
   "status": "partial",
   "theorems": [
    "C96_line",
    "C96_file",
    "C96_stdin_partial",
    "C96_same_partial",
    "C96_stdin_refuted"
   ],
   "note": "Holds for files. Standard input ends at the first blank line, so the rest of a piped text is not checked. Simplified: ASCII white space; the JSON parser and UTF-8 validity are parameters."
  },
  {
   "property": "C97",
   "status": "partial",
   "theorems": [
    "C97_view",
    "C97_counts_partial",
    "C97_convert_partial",
    "C97_counts_refuted",
    "C97_convert_refuted"
   ],
   "note": "The view part holds in full. Statistics and conversion: false as stated, the two refutations give registries for which nothing is reported: a version 2 metric refinement whose base is not a metric makes the statistics and the conversion panic; a version 1 event with a prefix and no name cannot be converted. The partial theorems add exactly those conditions, and the same ones on the groups of the dependencies."
  },
  {
   "property": "C98",
   "status": "partial",
   "theorems": [
    "C98_listed",
    "C98_selected_partial",
    "C98_moves_partial",
    "C98_crash",
    "C98_leaves",
    "C98_command_line",
    "C98_no_crash_refuted",
    "C98_selected_refuted",
    "C98_once_refuted"
   ],
   "note": "Selection and moves are shown whenever something is listed. With nothing listed, two presses of Down crash a debug build and leave a release build with a selection that is not there; C98_crash says exactly when it crashes. The terminal and the text widget are parameters."
  },
  {
   "property": "C99",
   "status": "partial",
   "theorems": [
    "C99_all_written_partial",
    "C99_no_quote_partial",
    "C99_wrap",
    "C99_words",
    "C99_words_unique",
    "C99_unwrapped",
    "C99_limit_partial",
    "C99_brackets",
    "C99_escape",
    "C99_override",
    "C99_limit_refuted",
    "C99_words_refuted",
    "C99_numbers_refuted",
    "C99_nested_refuted",
    "C99_break_refuted",
    "C99_labels_refuted",
    "C99_label_refuted",
    "C99_heading_refuted",
    "C99_quote_refuted",
    "C99_first_word_refuted",
    "C99_indent_refuted"
   ],
   "note": "Proved for all documents whose numbered lists are not nested and whose reference links have plain labels, for every option and line length. The full claim is false: see the refutations. The Markdown parser is a parameter."
  },
  {
   "property": "C100",
   "status": "partial",
   "theorems": [
    "C100_elements_partial",
    "C100_wrap",
    "C100_fails",
    "C100_escape_refuted"
   ],
   "note": "Elements for the default options; independence of the line length and failure for all options. That text is safe to embed is false. The Markdown parser and the two snippets are parameters."
  },
  {
   "property": "C101",
   "status": "partial",
   "theorems": [
    "C101_item",
    "C101_not_text",
    "C101_only",
    "C101_reachable",
    "C101_methods",
    "C101_ui",
    "C101_fixed",
    "C101_search",
    "C101_search_bad",
    "C101_asks",
    "C101_filter",
    "C101_cors_start",
    "C101_cors",
    "C101_slash_refuted",
    "C101_unknown_refuted",
    "C101_star_refuted"
   ],
   "note": "Partial because the claim is false in three places, each refuted: keys that begin with a slash cannot be fetched, unknown paths below /api are answered 200 with the start page, and a star next to other origins (or with a space) ends the server at startup. Routing, percent decoding, query parsing and the CORS layer of the HTTP crates are modelled from their documented behaviour; jq, UTF-8 validity, lower case and the embedded files are parameters."
  },
  {
   "property": "C102",
   "status": "partial",
   "theorems": [
    "C102_location_partial",
    "C102_some_node",
    "C102_advice",
    "C102_message",
    "C102_reported",
    "C102_no_crash",
    "C102_no_json",
    "C102_root_refuted",
    "C102_number_refuted",
    "C102_other_key_refuted",
    "C102_slash_refuted",
    "C102_empty_refuted",
    "C102_tilde_refuted",
    "C102_ref_escape_refuted"
   ],
   "note": "The location is proved for paths of one step or more whose keys are strings that are not empty, need no escape and do not look like numbers; for each of the other cases it is refuted. The validator and the marked YAML reader are parameters."
  },
  {
   "property": "C103",
   "status": "partial",
   "theorems": [
    "C103_words",
    "C103_words_of",
    "C103_name",
    "C103_snake",
    "C103_idempotent_partial",
    "C103_pascal_refuted",
    "C103_camel_refuted",
    "C103_back",
    "C103_letters",
    "C103_distinct",
    "C103_separator_refuted",
    "C103_run_together_refuted",
    "C103_distinct_sturdy",
    "C103_const",
    "C103_const_distinct",
    "C103_first"
   ],
   "note": "Converting again changes Pascal and camel case (refuted); names that differ only in a separator have the same result, and without a delimiter words may run together (refuted; proved different where every word has letters at both ends). The convert_case library is modelled from its documentation, with the letters of ASCII."
  },
  {
   "property": "C104",
   "status": "partial",
   "theorems": [
    "C104_concat",
    "C104_flatten",
    "C104_split_id",
    "C104_numsort",
    "C104_numsort_unique",
    "C104_yaml_safe",
    "C104_yaml_same_partial",
    "C104_yaml_refuted",
    "C104_member",
    "C104_string_unique",
    "C104_member_distinct",
    "C104_member_other",
    "C104_ansi",
    "C104_ansi_both",
    "C104_ansi_refuted"
   ],
   "note": "toyaml changes the data (refuted; proved where none of the four characters occurs), and in a styled text the part after an inner styled part loses the outer style (refuted; proved where the two cover the same text). How serde_yaml writes a value and how the engine prints a number are parameters; characters are bytes."
  },
  {
   "property": "C105",
   "status": "partial",
   "theorems": [
    "C105_paths",
    "C105_sound",
    "C105_complete_partial",
    "C105_recursive_refuted",
    "C105_sibling_refuted",
    "C105_dot_refuted",
    "C105_version",
    "C105_verdict",
    "C105_unversioned",
    "C105_version_refuted",
    "C105_ordered",
    "C105_itself",
    "C105_run",
    "C105_off_refuted"
   ],
   "note": "Proved exactly for the places that do not use a definition in itself, and all places where no definition is recursive; what is removed below a recursive use, beside a reference, or behind a name with a dot is missed (refuted). A schema that loses its version or has an older one may lose properties (refuted), and the list of checks is empty (refuted). Other keywords of JSON schema, git and the runs of weaver are not modelled."
  },
  {
   "property": "C106",
   "status": "partial",
   "theorems": [
    "C106_shown_partial",
    "C106_stats",
    "C106_diff_partial",
    "C106_servers",
    "C106_stopped",
    "C106_baseline_stopped",
    "C106_not_applicable",
    "C106_work_failed_partial",
    "C106_file_failed",
    "C106_finding",
    "C106_warnings_refuted",
    "C106_servers_refuted",
    "C106_diff_refuted",
    "C106_output_refuted",
    "C106_masked_refuted"
   ],
   "note": "Messages and exit codes proved exactly for each command; that warnings are shown by stats, diff and mcp, that the servers fail on errors, that diff sees what opening reports, that a registry with errors gives no output, and that messages survive a failure of the command itself are refuted. The own steps of the commands are given by their outcomes."
  },
  {
   "property": "C107",
   "status": "partial",
   "theorems": [
    "C107_metric_partial",
    "C107_event_partial",
    "C107_entity_partial",
    "C107_span_partial",
    "C107_level_refuted",
    "C107_group_refuted",
    "C107_span_type_refuted"
   ],
   "note": "All dependencies are published ones and no two versions of a registry are in play. The requirement level of the signal is lost (refuted), public attribute groups are imported but not published again (refuted), a span type that begins with 'span.' loses it (refuted). Associations are compared by name; where they point is C72 and C77. The order of attributes is not kept."
  },
  {
   "property": "C108",
   "status": "partial",
   "theorems": [
    "C108_attribute_partial",
    "C108_metric",
    "C108_others",
    "C108_counts",
    "C108_template_refuted",
    "C108_namespace_refuted"
   ],
   "note": "Exactly the findings of a separate specification, once each, for every registry and name; the policy never produces the id that decides which attribute is counted (C03). Refuted: any name that merely begins with the name of a template is excused from the format rules, with no dot after it (http.request.headers under http.request.header); namespaces that only templates of the registry are in are not known, so a new attribute there is not pointed out. The jq and rego interpreters are not modelled."
  },
  {
   "property": "C109",
   "status": "partial",
   "theorems": [
    "C109_attributes_partial",
    "C109_signals_partial",
    "C109_grouped_attributes",
    "C109_grouped_signals",
    "C109_ignore_refuted",
    "C109_entity_attributes_refuted",
    "C109_namespace_refuted",
    "C109_annotation_refuted"
   ],
   "note": "Selection, content and order proved for every good document and all options; false and refuted: ignore_code_generation_annotations: false acts like true, identity and description attributes of version 2 entities are never filtered, dotless names have different namespaces in the two versions, and a code_generation annotation that is not a mapping makes the whole selection fail."
  },
  {
   "property": "C110",
   "status": "partial",
   "theorems": [
    "C110_layers",
    "C110_help",
    "C110_defaults",
    "C110_types",
    "C110_shared",
    "C110_commands",
    "C110_weaver",
    "C110_help_refuted",
    "C110_twice_refuted"
   ],
   "note": "Proved for every annotated struct whose settings are separate and whose defaults are readable, which all commands of weaver are; refuted without: an unreadable default is shown in the help while zero or false is used, and of two flags on one setting the later declared decides."
  },
  {
   "property": "C111",
   "status": "partial",
   "theorems": [
    "C111_pass_partial",
    "C111_select_partial",
    "C111_word_partial",
    "C111_path_partial",
    "C111_wait_partial",
    "C111_shared_refuted",
    "C111_slash_refuted",
    "C111_quoted_refuted",
    "C111_fallback_refuted",
    "C111_relative_refuted",
    "C111_timeout_refuted"
   ],
   "note": "Proved where the repositories selected are told apart by the last two segments of their addresses (else refuted), refs hold no '/' (else refuted), {weaver} stands outside quotes (else refuted), WEAVER_BIN is an absolute path of a file called weaver (else refuted) and the end of the process is seen before the deadline (else refuted)."
  },
  {
   "property": "C112",
   "status": "partial",
   "theorems": [
    "C112_checked_partial",
    "C112_once_partial",
    "C112_given_partial",
    "C112_client_partial",
    "C112_failed_partial",
    "C112_ends_partial",
    "C112_inactivity_partial",
    "C112_behind_refuted",
    "C112_slow_refuted",
    "C112_left_refuted",
    "C112_twice_refuted",
    "C112_unformatted_refuted",
    "C112_early_refuted",
    "C112_unanswered_refuted",
    "C112_unbound_refuted",
    "C112_inactivity_refuted"
   ],
   "note": "Proved: what is checked is exactly what was acknowledged before the stop was queued, in order; the report is given at most once, and exactly once when nobody leaves and no wait is cut short, to a client if one asked in time; a failure answer only comes from a second request; the command can always end if nobody leaves; the bounds of the inactivity stop. Each condition is needed: the refuted theorems show a schedule without it."
  },
  {
   "property": "C113",
   "status": "partial",
   "theorems": [
    "C113_tree_partial",
    "C113_round_trip_partial",
    "C113_only",
    "C113_remote_partial",
    "C113_git",
    "C113_top_refuted",
    "C113_missing_refuted",
    "C113_merged_refuted",
    "C113_leftover_refuted",
    "C113_query_refuted"
   ],
   "note": "proved for archives whose entries do not collide and have no file outside of a folder; false otherwise: a file on top makes every fetch fail, a missing sub-folder of an archive gives an empty directory, several top folders are merged, a downloaded archive stays in its own directory, a url whose query ends in .zip is refused after the download; links are not modelled"
  },
  {
   "property": "C114",
   "status": "partial",
   "theorems": [
    "C114_lines_partial",
    "C114_report_partial",
    "C114_stream",
    "C114_exit_partial",
    "C114_mute",
    "C114_report_all_or_nothing",
    "C114_format",
    "C114_lost_refuted",
    "C114_disabled_refuted",
    "C114_stale_refuted",
    "C114_gate_refuted",
    "C114_own_resource_refuted",
    "C114_format_refuted"
   ],
   "note": "proved with statistics enabled and for formats other than JSON lines as one document per report; false without statistics (a streamed check prints a line for them, a report does not and may leave the file of an earlier run; the exit code is always 0), after an error (a report loses the samples checked before it), for a signal with its own resource, and for names of templates in another case; standard output and files never fail in the model"
  },
  {
   "property": "C115",
   "status": "partial",
   "theorems": [
    "C115_each",
    "C115_all_or_nothing",
    "C115_kind",
    "C115_keys",
    "C115_order",
    "C115_needed",
    "C115_optional",
    "C115_default",
    "C115_twice",
    "C115_attribute",
    "C115_round_trip_partial",
    "C115_null_refuted",
    "C115_exponential_refuted",
    "C115_report_refuted",
    "C115_extra_refuted",
    "C115_guess_refuted"
   ],
   "note": "reading undoes writing for samples without findings, exponential histograms and infinite doubles; false for those (all three refuted, the first two for every such sample), and null is refused where a list may be left out; the text layer of serde_json and structs given as arrays are not modelled"
  },
  {
   "property": "C116",
   "status": "partial",
   "theorems": [
    "C116_fix_result",
    "C116_fix_again",
    "C116_fix_drift",
    "C116_fix_untouched",
    "C116_fix_pinned_refuted",
    "C116_validate",
    "C116_validate_partial",
    "C116_validate_refuted",
    "C116_validate_names",
    "C116_history",
    "C116_history_runs",
    "C116_history_vacuous_refuted",
    "C116_history_skipped_refuted",
    "C116_dispatch",
    "C116_unknown_refuted"
   ],
   "note": "the fix is proved in full for the texts it knows; validation is exact when every Cargo.toml can be parsed and false otherwise (refuted); the history may check nothing and pass over tags (refuted); an unknown task succeeds (refuted); writing the workflow file is taken to succeed"
  },
  {
   "property": "C117",
   "status": "partial",
   "theorems": [
    "C117_read_back_partial",
    "C117_readable",
    "C117_loaded",
    "C117_resolved",
    "C117_stable",
    "C117_faithful",
    "C117_diff",
    "C117_examples",
    "C117_closed",
    "C117_read_back_refuted",
    "C117_format_refuted"
   ],
   "note": "exact for every schema without an enumeration member deprecated by a mere text; with one the published file cannot be read (refuted, and C117_readable says exactly when); the format is not looked at (refuted); the YAML text is not modelled"
  },
  {
   "property": "C118",
   "status": "partial",
   "theorems": [
    "C118_written_partial",
    "C118_when",
    "C118_safe",
    "C118_again",
    "C118_listed",
    "C118_used",
    "C118_source",
    "C118_unknown_refuted",
    "C118_customised_refuted",
    "C118_override_refuted"
   ],
   "note": "proved for a target that is one name or absent; an unknown target succeeds and writes nothing, a customised template is silently replaced and one local file hides the other templates of the program (refuted); links, permissions and base directories with `..` are not modelled"
  },
  {
   "property": "C119",
   "status": "partial",
   "theorems": [
    "C119_gathered",
    "C119_reported_partial",
    "C119_failure_kept",
    "C119_warnings_partial",
    "C119_future",
    "C119_logged",
    "C119_flat",
    "C119_printed",
    "C119_printed_alone",
    "C119_report_once",
    "C119_summary",
    "C119_hidden_refuted",
    "C119_hidden_program_refuted",
    "C119_warning_refuted",
    "C119_similar_refuted"
   ],
   "note": "nothing is lost, doubled or reordered, and a failure stays one; a message of its own for each error is false for collections wrapped by another crate, and such a collection of warnings makes the command fail (refuted); how collections are printed is a parameter"
  },
  {
   "property": "C120",
   "status": "partial",
   "theorems": [
    "C120_ids",
    "C120_ids_distinct",
    "C120_points",
    "C120_log_partial",
    "C120_codes",
    "C120_scope",
    "C120_body_refuted",
    "C120_number_refuted",
    "C120_kind_refuted"
   ],
   "note": "the text of a log body is reported in a debug notation, NaN and infinities are reported as null and an unspecified kind as internal (refuted); the text of an instant and the debug notation are parameters; attributes are in the property on reading OTLP messages"
  },
  {
   "property": "C121",
   "status": "partial",
   "theorems": [
    "C121_token",
    "C121_token_line",
    "C121_session",
    "C121_not_mixed",
    "C121_tokens",
    "C121_file",
    "C121_blank_line_refuted",
    "C121_fresh_refuted",
    "C121_slash_refuted",
    "C121_query_refuted"
   ],
   "note": "a replaced file is not seen by a running process, a tag with a slash and an address with a query cannot be fetched, and a helper whose output starts with a blank line gives no token (all refuted); HTTP itself, the parsing of URLs and the decoding of the output of a helper are parameters"
  },
  {
   "property": "C122",
   "status": "partial",
   "theorems": [
    "C122_accepted",
    "C122_applied",
    "C122_refused",
    "C122_empty_ids_refuted"
   ],
   "note": "an empty list of ids makes an override never apply, although an empty list of names restricts nothing (refuted); the pattern language of globset is a parameter"
  },
  {
   "property": "C123",
   "status": "partial",
   "theorems": [
    "C123_generated",
    "C123_others_ignored",
    "C123_nothing",
    "C123_ui",
    "C123_beside_refuted",
    "C123_doc_refuted",
    "C123_warns_refuted"
   ],
   "note": "a file beside the directory of its sub-modules hides them when visited after them, what is left of //!! is still a comment for the enclosing module, and a broken-off build of the interface fails the build instead of warning (all refuted)"
  },
  {
   "property": "C124",
   "status": "partial",
   "theorems": [
    "C124_rendered",
    "C124_one_text",
    "C124_streams",
    "C124_default_names_refuted",
    "C124_no_name_refuted",
    "C124_same_success_refuted"
   ],
   "note": "templates of the same name in different directories get the same default name, a template named .j2 gets an empty one, and a configured name that cannot be rendered fails files but not the one text (all refuted); the Jinja and jq engines are parameters"
  },
  {
   "property": "C125",
   "status": "partial",
   "theorems": [
    "C125_name",
    "C125_entities",
    "C125_space_refuted",
    "C125_empty_refuted"
   ],
   "note": "a name after a comma and a space is not seen, and an empty OTEL_SERVICE_NAME counts as a name (both refuted); how the SDK combines the detectors is not modelled"
  },
  {
   "property": "C126",
   "status": "partial",
   "theorems": [
    "C126_file",
    "C126_title",
    "C126_both",
    "C126_apart",
    "C126_name",
    "C126_names",
    "C126_agree",
    "C126_required",
    "C126_refused",
    "C126_unit",
    "C126_unit_in_name_refuted",
    "C126_apart_refuted",
    "C126_misspelt_refuted"
   ],
   "note": "namespaces that differ in capitals or hyphens may share a page, a misspelt argument is not reported, and the unit of a rate is not the one in the name (all refuted); the conversion of values by minijinja is as documented for its arguments"
  }
 ]
}