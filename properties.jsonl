{"id": "C01", "title": "Live-check totals add up", "statement": "After any sequence of samples, the live-check statistics are consistent with the samples seen: the per-type entity counts sum to the total number of entities, the total number of advisories equals the sum over advice levels and equals the number of findings attached to the samples, and the 'no advice' count is exactly the number of samples with no finding.", "quantifier": "every finite sequence of samples with arbitrary findings attached", "why_tests_cant": "The counters are accumulated over an unbounded stream; a test samples a few streams.", "anchors": ["crates/weaver_live_check/src/stats.rs: CumulativeStatistics::inc_entity_count, maybe_add_live_check_result, add_advice_counts"]}
{"id": "C02", "title": "Live-check exit gate is exactly the threshold test", "statement": "A live-check run is reported as failing if and only if at least one finding that survived the configured overrides and filters has a level at or above the fail-on threshold (statistics enabled); 'none' never fails.", "quantifier": "every stream of samples and findings, every fail-on level", "why_tests_cant": "The gate is a function of the whole history of findings.", "anchors": ["crates/weaver_live_check/src/stats.rs: has_findings_at_or_above", "crates/weaver_config/src/live_check.rs: FailOnLevel::as_finding_threshold"]}
{"id": "C03", "title": "Registry coverage is a true fraction", "statement": "Reported registry coverage always lies between 0 and 1, equals the number of distinct registry entities seen divided by the number of (non-deprecated) registry entities tracked, and never decreases as more samples are processed.", "quantifier": "every registry and every sample stream", "why_tests_cant": "Needs an invariant over the whole stream; double counting only shows up on particular histories.", "anchors": ["crates/weaver_live_check/src/stats.rs: CumulativeStatistics::new, add_attribute_name_to_coverage, finalize"]}
{"id": "C04", "title": "Finding modifier: overrides first, then filters, and nothing else", "statement": "Applying the configured finding modifier to a finding sets its level to that of the first override in scope that matches (or leaves it), then drops the finding exactly when some filter in scope excludes its id, excludes its sample name, or has a minimum level above the overridden level. It never invents findings or changes any other field.", "quantifier": "every list of overrides, every list of filters, every finding and sample name", "why_tests_cant": "Interaction of ordered rules, scopes and levels is combinatorial.", "anchors": ["crates/weaver_live_check/src/finding_modifier.rs: FindingModifier::apply"]}
{"id": "C05", "title": "Entity associations: violation exactly when unsatisfied", "statement": "For an entity-association expression built from references, one_of and all_of to any depth, live-check reports a violation if and only if the expression is not satisfied by the resource's attributes.", "quantifier": "every association tree and every set of resource attributes", "why_tests_cant": "The expression is recursive with unbounded depth.", "anchors": ["crates/weaver_live_check/src/advice/type_advisor.rs: evaluate_association, evaluate_all_of, evaluate_one_of"]}
{"id": "C06", "title": "Template attribute lookup is longest-prefix", "statement": "Looking up an attribute name against the registry's template attributes returns a template whose name is a prefix of the attribute name, no other matching template is longer, and it returns nothing only when no template matches.", "quantifier": "every set of templates in any insertion order and every attribute name", "why_tests_cant": "Depends on the sort order over all template sets.", "anchors": ["crates/weaver_live_check/src/live_checker.rs: LiveChecker::new, find_template", "crates/weaver_search/src/lib.rs: find_template"]}
{"id": "C07", "title": "Required/recommended attribute findings are sound and complete", "statement": "When a signal sample is checked against its definition, a 'required attribute not present' finding is produced for exactly the definition's required attributes missing from the sample, and the analogous finding for recommended, opt-in and conditionally required ones; no finding mentions an attribute the sample carries.", "quantifier": "every definition attribute list and every sample attribute list", "why_tests_cant": "Quantifies over all pairs of lists.", "anchors": ["crates/weaver_live_check/src/advice/type_advisor.rs: check_attributes"]}
{"id": "C08", "title": "Diffing a schema with itself reports nothing", "statement": "The change report between a resolved schema and an identical baseline contains no change in any category.", "quantifier": "every resolved schema", "why_tests_cant": "Holds for all schemas, including deprecations of every kind.", "anchors": ["crates/weaver_resolved_schema/src/lib.rs: ResolvedTelemetrySchema::diff, diff_attributes, diff_signals", "crates/weaver_resolved_schema/src/v2/mod.rs: diff_signals_by_hash"]}
{"id": "C09", "title": "Schema diff is complete and exclusive", "statement": "Every attribute or signal name present only in the new schema is reported exactly once as added, whether or not it is also the target of a rename; every name present only in the baseline is reported exactly once as removed; and every name in both whose deprecation changed to a new deprecation is reported exactly once under that deprecation's kind. Nothing else is reported.", "quantifier": "every pair of schemas", "why_tests_cant": "Set equality over two arbitrary inputs.", "anchors": ["crates/weaver_resolved_schema/src/lib.rs: diff_attributes, diff_signals", "crates/weaver_resolved_schema/src/v2/mod.rs: diff_signals_by_hash"]}
{"id": "C10", "title": "Telemetry-schema renames: newest applicable version wins", "statement": "The rename computed for a name at a schema version is the one declared by the newest version not later than it that renames that name, taking the first declaration within that version; names never renamed map to themselves.", "quantifier": "every version history and every name", "why_tests_cant": "Depends on the ordering of arbitrarily many versions and change lists.", "anchors": ["crates/weaver_version/src/lib.rs: Versions::version_changes_for, VersionChanges::get_*_name"]}
{"id": "C11", "title": "Extending a schema's version history keeps local renames", "statement": "Merging a parent's version history into a child never alters a rename the child already declares for the same version, and every parent rename not overridden by the child is available afterwards.", "quantifier": "every pair of version histories", "why_tests_cant": "Quantifies over two histories with overlapping versions.", "anchors": ["crates/weaver_version/src/lib.rs: Versions::extend, VersionSpec::extend"]}
{"id": "C12", "title": "JSON canonicalisation makes comparison order-insensitive", "statement": "Canonicalising a JSON document is idempotent, keeps every element, and two documents that differ only in the order of array elements or object keys canonicalise to the same document.", "quantifier": "every JSON value of any depth and every permutation", "why_tests_cant": "Recursive data and all permutations.", "anchors": ["crates/weaver_diff/src/lib.rs: canonicalize_json, compare_values, compare_arrays, compare_objects"]}
{"id": "C13", "title": "JSON comparison is a total preorder", "statement": "The comparison used to sort JSON arrays is reflexive, total and transitive, so sorting never panics and is deterministic.", "quantifier": "every pair/triple of JSON values", "why_tests_cant": "Transitivity over all triples cannot be sampled; Rust's sort panics when it fails.", "anchors": ["crates/weaver_diff/src/lib.rs: compare_values"]}
{"id": "C14", "title": "Ordered floats have a lawful order, equality and hash", "statement": "The float wrapper used for map keys is totally ordered including NaN and signed zeros, its equality agrees with its ordering, and equal values hash equally.", "quantifier": "every pair/triple of IEEE-754 doubles", "why_tests_cant": "2^64 values, all pairs and triples.", "anchors": ["crates/weaver_common/src/ordered_float.rs: OrderedF64"]}
{"id": "C15", "title": "No error is lost by result combinators", "statement": "Combining, mapping and converting results with non-fatal errors never drops an error: every non-fatal error attached is either still attached, captured in the caller's list, or part of the returned failure; an error-free result stays successful.", "quantifier": "every result value and every chain of combinators", "why_tests_cant": "All chains of operations.", "anchors": ["crates/weaver_common/src/result.rs: WResult"]}
{"id": "C16", "title": "Warnings never make a command fail, errors always do", "statement": "A diagnostic collection is reported as containing an error exactly when at least one message has neither warning nor advice severity; in future mode every message counts as an error.", "quantifier": "every list of diagnostics", "why_tests_cant": "All lists and severities.", "anchors": ["crates/weaver_common/src/diagnostic.rs: DiagnosticMessages::has_error, DiagnosticMessage::new"]}
{"id": "C17", "title": "Configuration layering precedence", "statement": "For every setting, the value given on the command line wins over the value in .weaver.toml, which wins over the built-in default; a layer that does not set a value never changes it, and a value that is set is never silently replaced by the default.", "quantifier": "every combination of set/unset values in every layer", "why_tests_cant": "All combinations of layers for all fields.", "anchors": ["crates/weaver_config/src/effective.rs: layer_config, resolve", "crates/weaver_config/src/overrides.rs"]}
{"id": "C18", "title": "HTTP credentials go only to matching URLs, most specific first", "statement": "A bearer token is attached to a request only if its rule's URL prefix is a prefix of the request URL, and the rule used is one with the longest such prefix regardless of configuration order; with no matching rule no token is sent.", "quantifier": "every rule list and every URL", "why_tests_cant": "Security property over all URLs.", "anchors": ["crates/weaver_common/src/http_auth.rs: HttpAuthResolver::new, resolve"]}
{"id": "C19", "title": "Registry path strings round-trip", "statement": "Printing a registry path obtained by parsing and parsing it again yields the same registry path, and the source, refspec and sub-folder a user wrote are the ones used.", "quantifier": "every path string", "why_tests_cant": "All strings; lazy-regex ambiguity shows only on particular inputs.", "anchors": ["crates/weaver_common/src/vdir.rs: VirtualDirectoryPath::from_str, Display"]}
{"id": "C20", "title": "Schema URLs decompose uniquely into name and version", "statement": "A schema URL accepted by the parser is recovered from its name and version, and building a URL from a name and version then reading them back returns the same name and version.", "quantifier": "every schema URL string, name and version", "why_tests_cant": "All strings.", "anchors": ["crates/weaver_semconv/src/schema_url.rs: SchemaUrl::new, name, version, try_from_name_version"]}
{"id": "C21", "title": "Comment filter preserves text and puts every line in the comment", "statement": "Rendering a multi-line text as a code comment yields a text in which every line carries the configured prefix and whose content lines, in order, are those of the input.", "quantifier": "every text and comment format", "why_tests_cant": "All texts.", "anchors": ["crates/weaver_forge/src/extensions/code.rs: comment, comment_with_prefix"]}
{"id": "C22", "title": "Prometheus names are valid and stable", "statement": "Name sanitisation produces only characters legal in Prometheus names, never yields runs of underscores, is idempotent, and a required suffix is present exactly once.", "quantifier": "every metric name and unit", "why_tests_cant": "All strings.", "anchors": ["crates/weaver_forge/src/extensions/prom.rs: sanitize_name, get_name, with_suffixes"]}
{"id": "C23", "title": "Requirement filters partition the attribute list", "statement": "The 'required' and 'not_required' template filters split any attribute list into two order-preserving parts that together contain every attribute exactly once.", "quantifier": "every list of attributes", "why_tests_cant": "All lists.", "anchors": ["crates/weaver_forge/src/extensions/otel.rs: required, not_required"]}
{"id": "C24", "title": "Attribute sort is a deterministic total order", "statement": "The attribute_sort filter returns a permutation of its input, ordered by requirement level then name, and the result does not depend on input order when names are distinct.", "quantifier": "every attribute list and permutation", "why_tests_cant": "All permutations.", "anchors": ["crates/weaver_forge/src/extensions/otel.rs: attribute_sort, compare_requirement_level"]}
{"id": "C25", "title": "Type filters recognise every valid attribute type", "statement": "For every valid attribute type exactly one of the simple/template/enum tests holds, and instantiated_type yields the element type.", "quantifier": "every attribute type", "why_tests_cant": "All types.", "anchors": ["crates/weaver_forge/src/extensions/otel.rs: is_simple_type, is_template_type, is_enum_type, instantiated_type, enum_type"]}
{"id": "C26", "title": "Template configuration merge", "statement": "Merging a list of template configuration files is the field-wise last-writer-wins merge: a field set by a later file wins, an unset field keeps the earlier value, parameters are merged per key with null removing a key, acronyms are merged case-insensitively without duplicates.", "quantifier": "every list of configuration files", "why_tests_cant": "All lists of configs.", "anchors": ["crates/weaver_forge/src/config.rs: WeaverConfig::resolve_from, override_with, merge_acronyms, merge_text_maps"]}
{"id": "C27", "title": "Embedded template loader never escapes its root", "statement": "A file requested through the template file loader is read only if its canonical path is inside the loader's root directory.", "quantifier": "every requested path", "why_tests_cant": "Security property over all path strings.", "anchors": ["crates/weaver_forge/src/file_loader.rs: safe_join"]}
{"id": "C28", "title": "Markdown update touches only snippet bodies", "statement": "Updating a markdown file leaves every line outside snippet bodies unchanged and in order, replaces exactly the bodies between a directive and its end marker, and updating the result again changes nothing.", "quantifier": "every markdown document and every snippet generator output", "why_tests_cant": "All documents; unterminated snippets are an edge of the state machine.", "anchors": ["crates/weaver_semconv_gen/src/lib.rs: update_markdown_contents, update_markdown", "crates/weaver_semconv_gen/src/parser.rs"]}
{"id": "C29", "title": "Accepted groups have the fields later stages rely on", "statement": "If validation of a group reports no error then a metric has a name, an instrument and a unit, a span has a kind, an event has a name or body-less prefix rule satisfied, no attribute is referenced twice, and every entity association is non-empty; so later stages that assume these never crash.", "quantifier": "every group specification", "why_tests_cant": "All groups.", "anchors": ["crates/weaver_semconv/src/group.rs: GroupSpec::validate"]}
{"id": "C30", "title": "Entity association references are collected exactly", "statement": "The set of entities an association expression refers to is exactly the set of its leaves.", "quantifier": "every association tree", "why_tests_cant": "Recursive data of any depth.", "anchors": ["crates/weaver_semconv/src/entity_association.rs: referenced_entities"]}
{"id": "C31", "title": "Attribute type compatibility is sound", "statement": "An observed attribute type is accepted for a declared type only if it is equal, one of them is 'any', or it is an integer where a double is declared (scalars with scalars, arrays with arrays).", "quantifier": "every pair of types", "why_tests_cant": "All pairs (finite), used on every sample.", "anchors": ["crates/weaver_semconv/src/attribute.rs: PrimitiveOrArrayTypeSpec::is_compatible"]}
{"id": "C32", "title": "Catalog references stay valid through resolution", "statement": "Every attribute reference in a resolved schema points to an existing catalog entry and denotes the attribute it denoted before catalog compaction and sorting; the catalog contains no duplicates and no unreferenced entry.", "quantifier": "every set of groups and attributes", "why_tests_cant": "Index remapping over arbitrary catalogs.", "anchors": ["crates/weaver_resolver/src/attribute.rs: attribute_ref, gc_unreferenced_attribute_refs_and_sort", "crates/weaver_resolver/src/registry.rs: cleanup_and_stabilize"]}
{"id": "C33", "title": "Inheritance: child fields override, unset fields inherit", "statement": "After resolving 'extends', a group has exactly the union of its own and its ancestors' attributes, each at most once; each field a child sets on a reference has the child's value and each field it leaves unset has the parent's.", "quantifier": "every inheritance chain and attribute specification", "why_tests_cant": "All chains, all field combinations.", "anchors": ["crates/weaver_resolver/src/registry.rs: resolve_inheritance_attrs_unified, resolve_inheritance_attr, resolve_extends_references"]}
{"id": "C34", "title": "Reference resolution terminates and is complete", "statement": "Resolution of 'extends' and 'ref' always terminates; it succeeds only if no unresolved reference is left, and fails if some reference can never be resolved (including cycles), naming it.", "quantifier": "every registry, including cyclic ones", "why_tests_cant": "Termination over all graphs.", "anchors": ["crates/weaver_resolver/src/registry.rs: resolve_extends_references, resolve_attribute_references"]}
{"id": "C35", "title": "Resolution does not depend on file order", "statement": "Loading the same definition files in a different order (files are read in parallel) yields the same resolved schema, or fails in both cases.", "quantifier": "every permutation of the groups / every parallel schedule", "why_tests_cant": "Schedules cannot be enumerated by tests.", "anchors": ["crates/weaver_resolver/src/loader.rs: load_definition_repository", "crates/weaver_resolver/src/registry.rs: resolve_registry_with_dependencies, cleanup_and_stabilize"]}
{"id": "C36", "title": "Duplicate identifiers are always reported", "statement": "If two groups in a registry have the same id (or two metrics the same metric name, two events the same name), resolution reports it; if it reports nothing, ids are unique.", "quantifier": "every list of groups with provenance", "why_tests_cant": "All registries.", "anchors": ["crates/weaver_resolver/src/registry.rs: check_uniqueness, check_root_attribute_id_duplicates"]}
{"id": "C37", "title": "Attribute definition conflicts are settled deterministically", "statement": "When an attribute id is defined several times across a registry and its dependencies, the winner is determined by the definitions themselves: local-versus-dependency and version rules decide, and the outcome does not depend on the order in which dependencies are visited.", "quantifier": "every list of candidate definitions and every visiting order", "why_tests_cant": "All orders.", "anchors": ["crates/weaver_resolver/src/attribute.rs: attribute_ref_with_provenance, resolve_conflict", "crates/weaver_resolver/src/conflict_strategy.rs"]}
{"id": "C38", "title": "Version conflicts pick the highest compatible version", "statement": "Between two versions of the same dependency with equal major version the higher semantic version is used; different majors or different names are rejected; the choice over any list of compatible versions is the maximum, independent of order.", "quantifier": "every list of versions in any order", "why_tests_cant": "All orders and versions.", "anchors": ["crates/weaver_resolver/src/conflict_strategy.rs: UseLatestMajorVersion::resolve_conflict", "crates/weaver_resolver/src/loader.rs"]}
{"id": "C39", "title": "Dependency loading terminates, rejecting cycles and excessive depth", "statement": "Loading a registry with its dependencies always terminates: a dependency cycle is reported as circular, a chain deeper than the limit is reported, and otherwise every declared dependency is loaded.", "quantifier": "every dependency graph", "why_tests_cant": "All graphs.", "anchors": ["crates/weaver_resolver/src/loader.rs: load_semconv_repository_recursive"]}
{"id": "C40", "title": "Imports select exactly the matching groups", "statement": "A group of a dependency is imported if and only if it matches one of the import patterns for its kind, and every import pattern that matches nothing is reported.", "quantifier": "every dependency content and import list", "why_tests_cant": "All pattern/registry combinations.", "anchors": ["crates/weaver_resolver/src/imports.rs: import_groups, import_decision, unmatched_import_errors"]}
{"id": "C41", "title": "V2 conversion keeps every signal and reference", "statement": "Converting a resolved registry to the v2 form keeps every public span, metric, event, entity and attribute exactly once, and every attribute reference in the result denotes an attribute with the same key and properties.", "quantifier": "every resolved schema", "why_tests_cant": "All schemas.", "anchors": ["crates/weaver_resolved_schema/src/v2/mod.rs: convert_v1_to_v2", "crates/weaver_resolved_schema/src/v2/catalog.rs: convert_ref"]}
{"id": "C42", "title": "Search pagination partitions the result list", "statement": "Walking a search with consecutive offsets returns every matching item exactly once in rank order; the reported total is the number of matching items independent of limit and offset; no page exceeds the limit or the documented maximum.", "quantifier": "every registry, query, filter, limit and offset", "why_tests_cant": "All page sizes and offsets.", "anchors": ["crates/weaver_search/src/lib.rs: search, browse_mode, search_mode_with_total"]}
{"id": "C43", "title": "Search ranking is monotone", "statement": "Results are ordered by non-increasing score; an exact name match outranks prefix, substring, token, brief and note matches of items with the same deprecation status; deprecated items score at most a tenth but never vanish.", "quantifier": "every query and item", "why_tests_cant": "All strings.", "anchors": ["crates/weaver_search/src/lib.rs: score_fields, search_mode_with_total"]}
{"id": "C44", "title": "Namespace browsing covers every attribute", "statement": "Browsing a namespace counts exactly the attributes below it; each is either listed directly or lies in exactly one listed sub-namespace.", "quantifier": "every attribute set and prefix", "why_tests_cant": "All key sets.", "anchors": ["crates/weaver_search/src/lib.rs: browse_namespace"]}
{"id": "C45", "title": "Inference records each observed attribute once with bounded examples", "statement": "Inferring a registry from telemetry yields each observed attribute name exactly once per signal with at most five distinct examples all taken from observed values, whatever the order and number of samples.", "quantifier": "every sample stream", "why_tests_cant": "All streams.", "anchors": ["crates/weaver_infer/src/lib.rs: accumulate_attribute, add_example, add_to_existing_examples, to_semconv_spec"]}
{"id": "C46", "title": "Built-in live-check advice reports exactly the defects", "statement": "For an attribute known to the registry the built-in advisors report deprecation, a stability below stable, a value type incompatible with the declared type and an enum value outside the declared members, exactly when that defect is present; for a metric, a wrong instrument or unit, exactly when they differ.", "quantifier": "every registry entry and every sample value", "why_tests_cant": "The cases range over all types, values and member lists.", "anchors": ["crates/weaver_live_check/src/advice/{deprecated,stability,type,enum}_advisor.rs"]}
{"id": "C47", "title": "Sample type inference is sound and complete", "statement": "The type inferred for a sample attribute from its JSON value is the one whose values include it, and no type is inferred exactly for values that fit none.", "quantifier": "every JSON value of any length", "why_tests_cant": "Arrays of any length and mixture.", "anchors": ["crates/weaver_live_check/src/sample_attribute.rs: infer_type"]}
{"id": "C48", "title": "Signals are judged against the most recent resource", "statement": "In a stream, each signal is checked against the last resource sample that precedes it, in the position it was received, and against none before the first resource.", "quantifier": "every sequence of samples", "why_tests_cant": "All interleavings of resources and signals.", "anchors": ["src/registry/live_check.rs: main loop", "crates/weaver_live_check/src/live_checker.rs"]}
{"id": "C49", "title": "Deprecation information survives publication", "statement": "Writing a deprecation (renamed, obsoleted, uncategorized or unspecified) to a resolved schema file and reading the file back gives the same kind, the same replacement name and the same note, and writing it again gives the same bytes.", "quantifier": "every deprecation with every note and replacement name", "why_tests_cant": "Quantifies over all notes, including the absent one.", "anchors": ["crates/weaver_semconv/src/deprecated.rs: Deprecated, Serialize for Deprecated, Deprecated::note, deserialize_deprecated"]}
{"id": "C50", "title": "Unpacking an archive stays inside the target directory", "statement": "Whatever entry names a downloaded or local archive contains, every file weaver writes while unpacking it lies inside the directory chosen for the unpacking.", "quantifier": "every archive with any list of entry names, and every sub-folder option", "why_tests_cant": "Entry names are chosen by whoever publishes the archive; tests only try well-formed ones.", "anchors": ["crates/weaver_common/src/vdir.rs: path_to_unpack, unpack_tar_gz"]}
{"id": "C51", "title": "The archive sub-folder selects exactly that folder", "statement": "With a sub-folder option, exactly the archive entries below that folder (relative to the archive's root folder) are unpacked, each at its path relative to the folder; without one, all entries are, relative to the root folder.", "quantifier": "every archive entry path of any depth and every sub-folder", "why_tests_cant": "Quantifies over all entry paths and sub-folder strings, including nested ones.", "anchors": ["crates/weaver_common/src/vdir.rs: path_to_unpack, unpack_tar_gz, unpack_zip"]}
{"id": "C52", "title": "The nearest configuration file is used and its errors are reported", "statement": "Without --config the configuration is the .weaver.toml of the nearest directory from the current one upwards; with --config it is that file only; a file that cannot be read or parsed stops the command instead of being ignored.", "quantifier": "every directory tree, current directory and file content", "why_tests_cant": "Depth of the tree and placement of files are unbounded.", "anchors": ["crates/weaver_config/src/lib.rs: discover, load, discover_and_load", "src/registry/mod.rs: resolve_weaver_config"]}
{"id": "C53", "title": "Stability tests are exact and complementary", "statement": "In templates every object is either stable or experimental, never both; an attribute is stable exactly when its declared stability is stable, and deprecated exactly when it carries a deprecation.", "quantifier": "every template value and every attribute", "why_tests_cant": "Quantifies over all values a template can pass, including ones without a stability.", "anchors": ["crates/weaver_forge/src/extensions/otel.rs: is_stable, is_experimental, is_deprecated"]}
{"id": "C54", "title": "Namespace and id filters split names without loss", "statement": "For an attribute id the namespace and id filters return the parts before and after its first dot, so that joining them with a dot gives the id back; an id without a dot is in the namespace other; the filters fail only for an empty part.", "quantifier": "every string", "why_tests_cant": "All strings, including ones with leading, trailing and repeated dots.", "anchors": ["crates/weaver_forge/src/extensions/otel.rs: attribute_namespace, attribute_id, attribute_registry_namespace, metric_namespace"]}
{"id": "C55", "title": "Body field listing is complete and ordered", "statement": "Listing the fields of an event body yields every field of the tree exactly once, parents before their fields, siblings in the requested order, each with its dotted path and depth.", "quantifier": "every body tree of any depth and width", "why_tests_cant": "Unbounded trees.", "anchors": ["crates/weaver_forge/src/extensions/otel.rs: body_fields"]}
{"id": "C56", "title": "The acronym filter changes only whole words and is idempotent", "statement": "The acronym filter replaces exactly the words that equal a configured acronym up to letter case, keeps all other text including white space and punctuation, and applying it twice is the same as applying it once.", "quantifier": "every acronym list and every text", "why_tests_cant": "All texts and lists.", "anchors": ["crates/weaver_forge/src/extensions/util.rs: acronym"]}
{"id": "C57", "title": "Template parameters have a fixed precedence", "statement": "A parameter seen by a template has the value of the command line, else the one of the template's own section, else the one of the configuration file; the last definition on the command line wins, over the parameter file; params is reserved and holds all of them.", "quantifier": "every set of parameters at every level", "why_tests_cant": "All combinations of keys and levels.", "anchors": ["crates/weaver_forge/src/lib.rs: TemplateEngine::try_new, new_snippet_engine, init_params", "src/registry/generate.rs: generate_params, parse_key_val"]}
{"id": "C58", "title": "Artifact generation does not depend on the schedule", "statement": "For every order in which templates are rendered in parallel the generated files are the same, each is the rendering of its template with one result of its filter, no other file is touched, and the command succeeds exactly when no rendering failed.", "quantifier": "every schedule, template set, filter result and renderer", "why_tests_cant": "Schedules of a parallel iterator cannot be enumerated by tests.", "anchors": ["crates/weaver_forge/src/lib.rs: TemplateEngine::generate, process_template, evaluate_template", "crates/weaver_forge/src/jq.rs: execute_jq"]}
{"id": "C59", "title": "Generated files stay in the output directory", "statement": "Every file written by artifact generation is inside the output directory.", "quantifier": "every file name a template or configuration can produce", "why_tests_cant": "File names are computed by templates from registry data.", "anchors": ["crates/weaver_forge/src/lib.rs: evaluate_template, save_generated_code"]}
{"id": "C60", "title": "Embedded templates are listed and loaded exactly", "statement": "The files listed for an embedded template directory are exactly its files, and each listed name loads the content of that file.", "quantifier": "every embedded directory tree", "why_tests_cant": "All trees.", "anchors": ["crates/weaver_forge/src/file_loader.rs: EmbeddedFileLoader::all_files, load_file"]}
{"id": "C61", "title": "Reports are appended to one fresh output", "statement": "A sequence of reports written by one command to a file gives a file with exactly these reports in order and nothing of an earlier content, one line per report for line-delimited JSON; without a file every report is printed on its own line and no file is touched.", "quantifier": "every sequence of reports, format and destination", "why_tests_cant": "Histories of any length.", "anchors": ["crates/weaver_forge/src/output_processor.rs: OutputProcessor::generate"]}
{"id": "C62", "title": "Markdown directives are recognised exactly", "statement": "A line of a markdown file is taken as the start or end of a snippet exactly when it is written as one, with exactly the arguments written; the id of a version 2 snippet selects exactly the kind and id written.", "quantifier": "every line of text", "why_tests_cant": "All strings; the grammar is written with parser combinators.", "anchors": ["crates/weaver_semconv_gen/src/parser.rs: parse_markdown_snippet_directive, parse_weaver_snippet, is_semconv_trailer, is_weaver_trailer", "crates/weaver_semconv_gen/src/v2.rs: parse_id_lookup_v2"]}
{"id": "C63", "title": "Dry runs write nothing and agree with updates", "statement": "A dry run changes no file and succeeds exactly when an update would leave the file as it is; a failed update leaves its file as it was; after an update a dry run succeeds; the command treats every file and fails exactly when one of them fails.", "quantifier": "every file, set of files and generator", "why_tests_cant": "All file contents, including line ends and unfinished last lines.", "anchors": ["crates/weaver_semconv_gen/src/lib.rs: update_markdown, update_markdown_contents", "src/registry/update_markdown.rs: command"]}
{"id": "C64", "title": "Examples of attributes are read and checked by their kind and depth", "statement": "Examples written in a file are read as the kind (boolean, integer, double, string) and depth (one value, a list, a list of lists) of their literals with their contents kept, and examples are accepted without remark for a type exactly if kind and depth fit it, with a warning exactly for the older forms of array examples.", "quantifier": "every JSON or YAML value, every attribute type", "why_tests_cant": "Arbitrary nesting and mixtures of literals.", "anchors": ["crates/weaver_semconv/src/attribute.rs: Examples, Examples::validate"]}
{"id": "C65", "title": "Version 2 definitions are carried over without loss", "statement": "Translating a version 2 file to groups gives one group for each signal, attribute group and refinement, of the right kind and identifier and carrying every field, plus one group for the attribute definitions; two files with the same translation say the same, up to the place of group references between attributes and absent versus empty texts of refinements; different definitions get different group identifiers.", "quantifier": "every version 2 file", "why_tests_cant": "Every field of every definition.", "anchors": ["crates/weaver_semconv/src/v2/mod.rs: into_v1_specification", "crates/weaver_semconv/src/semconv.rs: provenance_path_to_name"]}
{"id": "C66", "title": "The format of a definition file decides how it is read", "statement": "A file is read as version 2 exactly if it says file_format definition/2 or version 2, as version 1 if it says definition/1, version 1 or nothing, and is otherwise rejected naming the offending field; loading returns the parsed specification without those two fields and reports exactly the validation results followed by the warnings about the format.", "quantifier": "every YAML value, every parser of specifications", "why_tests_cant": "All combinations of fields.", "anchors": ["crates/weaver_semconv/src/semconv.rs: FileFormat::detect, from_yaml_value, from_file_with_mapped_path"]}
{"id": "C67", "title": "Version 2 entities have an identity, and missing levels are reported", "statement": "A version 2 file is rejected exactly if an entity has no identity or an entity or refinement lists an attribute both as identity and as description, naming every offender; an accepted file gives exactly one warning for each signal without a requirement level.", "quantifier": "every version 2 file", "why_tests_cant": "All lists of definitions.", "anchors": ["crates/weaver_semconv/src/v2/mod.rs: SemConvSpecV2::validate"]}
{"id": "C68", "title": "Refinements have the kind of the signal they refine", "statement": "A version 2 refinement whose kind (span, metric, event, entity) differs from that of the signal it refines is rejected with an error naming both.", "quantifier": "every registry with refinements", "why_tests_cant": "All chains of refinements and all orders in which they are finished.", "anchors": ["crates/weaver_resolver/src/registry.rs: inherit_v2_refinement_fields, resolve_extends_references"]}
{"id": "C69", "title": "What a refinement inherits", "statement": "A version 2 refinement has its own brief, note, stability, deprecation and span name where it sets them and the refined signal's otherwise; metric name, instrument, unit, span kind and requirement level are always those of the refined signal; annotations are the refined signal's overridden piecemeal by its own, to any depth; everything else is as written.", "quantifier": "every chain of refinements, local or in dependencies, and every annotation tree", "why_tests_cant": "All field combinations and nested annotations.", "anchors": ["crates/weaver_resolver/src/registry.rs: inherit_v2_refinement_fields", "crates/weaver_resolver/src/merge.rs: merge_annotations, merge_yaml_values"]}
{"id": "C70", "title": "The definition files of a registry are all read, and reported under its path", "statement": "Loading a registry directory reads every .yaml/.yml file below it except hidden ones, manifests and schema-next.yaml, and no other file; each is reported under the registry's own path followed by its relative path; the order in which the parallel reader delivers them changes neither whether loading fails nor which specifications and warnings come out.", "quantifier": "every directory tree, every root path, every schedule of the parallel reader", "why_tests_cant": "directory shapes, root spellings and schedules are unbounded; tests use one checked-in tree under one plain path", "anchors": ["crates/weaver_resolver/src/loader.rs: load_definition_repository"]}
{"id": "C71", "title": "Entity associations are settled or reported", "statement": "When a registry resolves, every entity that a group names in its associations was either brought in with the group by an import, is an entity of the registry that the group may use, or is a public entity of exactly one other registry, which is recorded with the group. Resolution fails exactly when some name is private, ambiguous between several registries or unknown; every error names the group, the name and what is wrong with it, and every wrong name has an error. What imports recorded is kept, nothing else is recorded, and the outcome does not depend on the order of the dependencies.", "quantifier": "every list of groups, every association expression of any depth, every set and order of v1 and published v2 dependencies, every map of recorded origins", "why_tests_cant": "The answer depends on the whole set of groups and dependencies at once; tests try a handful of names.", "anchors": ["crates/weaver_resolver/src/registry.rs: resolve_entity_associations", "crates/weaver_resolver/src/imports.rs: resolve_entity"]}
{"id": "C72", "title": "Imported signals keep the origins of their entities", "statement": "A metric, event or span imported from a published registry carries, for each entity it is associated with, the registry that the published reference points at, so the dependent registry needs no direct dependency on it.", "quantifier": "every published registry, every imports block, every association expression, every set of ids", "why_tests_cant": "Tests import one signal; the claim is about every combination of signals in one document.", "anchors": ["crates/weaver_resolver/src/imports.rs: import_groups, v2_association_origins", "crates/weaver_resolver/src/registry.rs: resolve_dependency_imports"]}
{"id": "C73", "title": "Lookups by name find the object, templates by longest prefix", "statement": "Looking up an attribute, metric, span, event or entity by name gives an object of that name and kind (the last one in the registry) whenever there is one, and nothing otherwise. Looking up the template for an attribute name gives the template with the longest key the name begins with, and the name is that key or lies below it.", "quantifier": "every registry and name", "why_tests_cant": "All registries, including those with several objects of one name and templates that are prefixes of each other.", "anchors": ["crates/weaver_search/src/lib.rs: get_attribute, get_template, find_template, get_metric, get_span, get_event, get_entity", "src/serve/handlers.rs: get_registry_attribute"]}
{"id": "C74", "title": "Inference reads just what the handled messages hold", "statement": "`registry infer` reads OTLP requests up to the first stop signal. The spans, metrics, logs and resources it accumulates are those of these requests, in order, with the kind, instrument, unit and attribute values that the messages carry; summaries, logs without event name, scopes and the records of profiles leave nothing, and a file is written just if something is left.", "quantifier": "every sequence of OTLP requests with any nesting of values", "why_tests_cant": "All streams of requests and all nested values.", "anchors": ["src/registry/infer.rs: process_otlp_request, accumulate_resource", "src/registry/otlp/conversion.rs: maybe_to_json, sample_attribute_from_key_value, otlp_data_to_instrument, otlp_data_to_data_points"]}
{"id": "C75", "title": "Inference depends only on the telemetry", "statement": "Inferring from the same telemetry twice gives the same registry file, and the type of an inferred definition fits its examples.", "quantifier": "every sample stream and every iteration order of the hash maps", "why_tests_cant": "All streams and all iteration orders.", "anchors": ["crates/weaver_infer/src/lib.rs: to_semconv_spec, collect_attribute_defs, attribute_spec_from_sample"]}
{"id": "C76", "title": "A conversion to v2 fails only for a reason it names", "statement": "Converting a resolved registry to the v2 form succeeds exactly when its schema url is valid, every entity's attributes are in the catalog, every span and entity refinement records its base, every event has a name, every metric has a name, an instrument and a unit, and every association names an entity that the registry holds or whose origin is recorded. When it fails the error names a group of the registry and what is wrong with it; it panics exactly when a metric without name, instrument or unit is reached.", "quantifier": "every resolved schema and every validity of urls", "why_tests_cant": "All combinations of groups, types, lineages and associations.", "anchors": ["crates/weaver_resolved_schema/src/v2/mod.rs: convert_v1_to_v2, try_from, convert_attribute_ref, convert_entity_associations"]}
{"id": "C77", "title": "A v2 entity reference denotes the entity that was resolved", "statement": "In the v2 form every entity association keeps its shape and names; a reference whose origin is recorded denotes the entity declared in that registry, through the dependency list or through an entity of this registry that was declared there, and a reference without a recorded origin denotes an entity of this registry.", "quantifier": "every resolved schema, every association expression of any depth", "why_tests_cant": "All association trees, origins and dependency lists.", "anchors": ["crates/weaver_resolved_schema/src/v2/mod.rs: EntityRefResolver::resolve, convert_entity_associations"]}
{"id": "C78", "title": "The v2 form does not depend on hash order", "statement": "Converting the same resolved registry twice gives the same v2 schema, whatever order its hash set of attributes is iterated in.", "quantifier": "every resolved schema, every iteration order", "why_tests_cant": "All iteration orders.", "anchors": ["crates/weaver_resolved_schema/src/v2/catalog.rs: from_attributes", "crates/weaver_resolved_schema/src/v2/mod.rs: convert_v1_to_v2"]}
{"id": "C79", "title": "A live check of OTLP looks at what was sent", "statement": "The samples a live check judges are the resources, scopes, spans, metrics, logs and profiles of the messages it received, each with the attributes, values and types that were sent, in the order they were sent, up to a request to stop; and a signal is judged against the resource it was sent with.", "quantifier": "every sequence of received messages, every resource, scope, signal, attribute and value in them", "why_tests_cant": "All message sequences and value shapes.", "anchors": ["src/registry/otlp/otlp_ingester.rs: fill_buffer_from_request", "src/registry/otlp/conversion.rs", "crates/weaver_live_check/src/live_checker.rs"]}
{"id": "C80", "title": "Example telemetry has the declared names and types", "statement": "Emitting example telemetry gives each span, metric and event of the registry once, under its name, with its kind, instrument, unit and description, and for each attribute a value of the declared type: the first member of an enum, the first declared example where there is one. It fails only when an enum has no members.", "quantifier": "every registry of either version, every attribute type and set of examples", "why_tests_cant": "All types, examples and registries.", "anchors": ["crates/weaver_emit/src/attributes.rs", "crates/weaver_emit/src/spans.rs", "crates/weaver_emit/src/metrics.rs", "crates/weaver_emit/src/logs.rs", "crates/weaver_emit/src/lib.rs: emit"]}
{"id": "C81", "title": "Emitted telemetry passes a live check against its registry", "statement": "Emitting example telemetry for a registry and live-checking it against the same registry reports nothing on the signals of the registry except what the definitions say of themselves (deprecated, not stable, template) and what the resource lacks, however the telemetry is batched; and every metric and event of the registry is seen.", "quantifier": "every registry of either version, every batching and ordering of the emitted telemetry", "why_tests_cant": "Composition of two programs over all registries and schedules.", "anchors": ["crates/weaver_emit/src/lib.rs: emit", "crates/weaver_live_check/src/live_checker.rs", "crates/weaver_live_check/src/advice/type_advisor.rs", "crates/weaver_emit/README.md"]}
{"id": "C82", "title": "The version 1 view of a registry is faithful", "statement": "Templates and policies that read version 1 get every group of the resolved registry that is not a version 2 refinement exactly once, in the order of the ids, with every field unchanged and every attribute reference replaced by the attribute it denotes. It fails exactly when such a group refers to an attribute the catalog does not have, and then names every such reference.", "quantifier": "every resolved registry and catalog", "why_tests_cant": "All registries, orders of groups and references.", "anchors": ["crates/weaver_forge/src/registry.rs: ResolvedRegistry::try_from_resolved_registry"]}
{"id": "C83", "title": "The version 2 view of a registry is faithful", "statement": "Templates and policies that read version 2 get every attribute, signal, refinement and attribute group of the schema once, sorted, with every field unchanged, every reference replaced by what it denotes and every provenance by the url of the dependency, and the same for every dependency. It fails only for a reason it names, always ends, holds each dependency in proportion to the registry, and looking up an entity reference gives the entity the named registry declares.", "quantifier": "every version 2 schema, every resolver and tree of dependencies", "why_tests_cant": "All schemas, trees of dependencies of any depth, and references.", "anchors": ["crates/weaver_forge/src/v2/registry.rs: ForgeResolvedRegistry::try_from_resolved_schema, lookup_entity", "crates/weaver_forge/src/v2/entity.rs: from_resolved_associations", "crates/weaver_forge/src/v2/provenance.rs: Provenance::from_resolved"]}
{"id": "C84", "title": "A converted registry can be viewed and its entity references followed", "statement": "A registry that was resolved and converted to version 2 has no dangling reference, so its view is never refused on its own account; every provenance it records names one of its dependencies; and every entity reference in an association of the view leads to an entity.", "quantifier": "every resolved registry, every order of the hash sets, every resolver", "why_tests_cant": "Composition of two programs over all registries.", "anchors": ["crates/weaver_resolved_schema/src/v2/mod.rs: convert_v1_to_v2", "crates/weaver_forge/src/v2/registry.rs: try_from_resolved_schema, lookup_entity"]}
{"id": "C85", "title": "The findings of a policy are read as it states them", "statement": "A finding that a policy returns is read if and only if its entries can be taken for the fields of the kind of finding it says it is, and it then has exactly the values stated, the entry further on in the document deciding when the older and the newer name of a field are both there. What is refused is refused for the first field missing. A finding built by the program cannot be read back.", "quantifier": "every JSON value a policy may answer with", "why_tests_cant": "the claim ranges over every document: any entries, in any order, with old and new names, unknown keys and missing fields", "anchors": ["crates/weaver_checker/src/finding.rs", "crates/weaver_checker/src/lib.rs: check"]}
{"id": "C86", "title": "Policies are asked at their stages and what they find decides the outcome", "statement": "For every interpreter of policies and every registry that can be used, `registry check` reports exactly the messages of opening the registry, of the policies before resolution for each file, of loading, resolving and viewing it, of the policies after resolution and, with a baseline, of the policies that compare, in that order; each finding of a policy is one violation that makes the command fail. A stage is in use exactly when some policy of the registry, of the user or built in declares its package.", "quantifier": "all interpreters, engines, registries, baselines, settings, policy directories and data documents", "why_tests_cant": "tests run a few policies on a few registries; the claim is about what is never lost or duplicated for any set of policies, files and outcomes", "anchors": ["src/weaver.rs: load_and_resolve_main, check_after_resolution, check_comparison", "crates/weaver_checker/src/lib.rs: Engine", "src/registry/check.rs", "src/registry/generate.rs", "crates/weaver_live_check/src/advice/rego_advisor.rs"]}
{"id": "C87", "title": "Data documents reach policies under their place", "statement": "A pattern is split at its first component with a wildcard; every file found below the part before it that matches the rest and is named .json, .yaml or .yml is offered to the interpreter once, nested under the directories leading to it and its name without the extension; no error of a file keeps the others from being offered, and all errors are reported.", "quantifier": "all patterns, directory trees, matchers, file contents and interpreters", "why_tests_cant": "the claim ranges over all trees and patterns, including files that cannot be read or parsed, and over every interpreter state", "anchors": ["crates/weaver_checker/src/lib.rs: add_data_from_file_or_dir, add_data_file_from_dir, split_glob"]}
{"id": "C88", "title": "Schemas asked for by URL are answered consistently", "statement": "A resolver answers a request for a schema URL with a schema of exactly that URL, whatever was requested or loaded before, or with an error; it never holds more schemas than configured; a repeated request returns the same schema without reading anything; every request returns; in one run a URL stands for one schema; after a registry is resolved, each registry it was built from can be requested; warnings are reported whenever a schema is returned.", "quantifier": "every history of requests and loads, every set of registries and locations, every capacity and every set of URL overrides", "why_tests_cant": "what a request returns depends on the whole history through the cache: eviction order, failed requests and overrides combine without bound", "anchors": ["crates/weaver_resolver/src/lib.rs: WeaverResolver::resolve_schema, load_and_resolve_schema, resolve_loaded, resolve_dependency, resolve_registry_internal", "crates/weaver_resolver/src/loader.rs: load_semconv_repository_with_cache, find_pre_resolved"]}
{"id": "C89", "title": "A manifest means one thing, and is refused only for a stated reason", "statement": "A manifest file is read exactly as what it says: a publication if and only if it declares the file format manifest/2.0, with its schema URL, its resolved registry URI (or the deprecated key, with a warning) and its dependencies by schema URL; otherwise, without a file format, a definition with its schema URL, or with base URL and version (with a warning), in which case alone dependencies may be given by name. The dependencies are the entries, one each and in order. Anything else is refused, with the first reason that applies. The only warnings are the old file name and the deprecated syntax.", "quantifier": "all YAML values of a manifest, all file names and all URL parsers", "why_tests_cant": "the combinations of fields, kinds of entries and file names are unbounded; the tests read a few manifests", "anchors": ["crates/weaver_semconv/src/manifest.rs: RawManifestFields::into_manifest, parse_dependency, RegistryManifest::try_from_file", "crates/weaver_semconv/src/registry_repo.rs: find_manifest_path"]}
{"id": "C90", "title": "Packaging writes a complete package or changes no file, and the package is found again", "statement": "Packaging succeeds exactly for a definition registry that resolves, passes its policies and has only versioned dependencies. It then writes the resolved schema and a publication manifest that is read back as the same registry, and touches nothing else; a refused registry changes nothing; an interrupted run never leaves a manifest without its complete schema. A relative URI is found beside the manifest, however the package is opened.", "quantifier": "all manifests, resolution results, policy findings, disk failures and interruption points, all ways of opening a package", "why_tests_cant": "interruption points and failing writes cannot be enumerated by tests, and the tests open packages in two ways only", "anchors": ["src/registry/package.rs: command, write_yaml", "crates/weaver_semconv/src/manifest.rs: PublicationRegistryManifest::try_from_registry_manifest", "crates/weaver_semconv/src/registry_repo.rs: RegistryRepo::resolved_registry_uri", "crates/weaver_common/src/vdir.rs: map_sub_folder, try_from_git_url"]}
{"id": "C91", "title": "Statistics count what is there", "statement": "The statistics that weaver computes for a resolved registry are exactly what a count by hand gives: per type of group the number of groups, of attributes, of groups with a prefix, a note or a deprecation, and the breakdowns by stability, number of attributes, instrument, unit and span kind; a type is listed exactly when a group has it, and the numbers add up. Likewise for the catalog and for the metrics, spans, events, entities, attribute groups and attributes of a V2 schema. The command reports the warnings of loading.", "quantifier": "all resolved schemas (any number and order of groups, attributes and signals), all results of loading and writing", "why_tests_cant": "Tests compute statistics of one or two registries; a counter that is wrong for a combination of types, a repeated key, or another order of groups would not show.", "anchors": ["crates/weaver_resolved_schema/src/registry.rs: stats, update_stats", "crates/weaver_resolved_schema/src/catalog.rs: stats", "crates/weaver_resolved_schema/src/v2/registry.rs: stats", "src/registry/stats.rs: command"]}
{"id": "C92", "title": "A markdown snippet shows what its id names", "statement": "A directive in a markdown file is rendered from the object its id names: every attribute, attribute group, signal and refinement of the registry can be named, the context tells everything the registry says about it, and an id that names nothing or is malformed is reported as such.", "quantifier": "all resolved registries of both versions, all ids and parameters of a directive", "why_tests_cant": "Tests render a handful of fixed snippets; which of several objects is found, what is lost on the way to the context, and which names can be written at all depend on every possible name.", "anchors": ["crates/weaver_semconv_gen/src/v1.rs: generate_markdown_snippet", "crates/weaver_semconv_gen/src/v2.rs: lookup_id, resolved_metric, resolved_span, resolved_event, resolved_entity, resolved_attribute_group", "crates/weaver_semconv_gen/src/parser.rs: parse_id_lookup_v2"]}
{"id": "C93", "title": "Lineage tells where the fields of an attribute come from", "statement": "In a resolved registry the lineage of a group names the group it extends and those it includes, and for each attribute it did not define itself the place the attribute comes from; a field listed as overridden has the value written over the source's, a field listed as inherited has the source's value, and every field with a value is listed once.", "quantifier": "all registries, dependencies, groups, references and fields", "why_tests_cant": "Which entry survives the passes (inheritance, identifiers, then references until nothing changes) and which of two bases or definitions it describes depends on the whole registry; tests compare a few expected files.", "anchors": ["crates/weaver_resolved_schema/src/lineage.rs: AttributeLineage, GroupLineage", "crates/weaver_resolver/src/registry.rs: resolve_extends_references, resolve_inheritance_attrs_unified, resolve_attribute_references", "crates/weaver_resolver/src/attribute.rs: AttributeCatalog::resolve"]}
{"id": "C94", "title": "The MCP live_check tool reports what is wrong with the samples it is sent", "statement": "For every registry, every configured policy and every list of samples, the full answer of the live_check tool holds each sample sent, in order, unchanged and with a result on every entity in it, and the findings of a sample do not depend on the other samples of the call. It is the report the live-check command gives for the same samples. The compact answer mentions only findings of that report, all of them, grouped by the part of the sample they are about, and its count is the number of samples with findings.", "quantifier": "all registries, advisors, lists of samples and output modes", "why_tests_cant": "samples nest arbitrarily and each kind is compacted by its own branch; tests check that the answer parses", "anchors": ["crates/weaver_mcp/src/service.rs: live_check, collect_compact_findings, extract_findings, extract_attr_findings, create_live_checker", "src/registry/live_check.rs: command"]}
{"id": "C95", "title": "Findings as OTLP log records", "statement": "When live check emits findings as OTLP log records, the records are exactly the findings of the report, in order and once each. Each record tells the kind of the sample, the level, the message, the id, the signal, the attributes of the signal's resource and every scalar of the finding's context, each under a key of its own.", "quantifier": "every checker with any advisors and modifier, every sequence of samples, every finding with any JSON context", "why_tests_cant": "the statement ranges over all sample streams and advisors, and over all JSON contexts; tests flatten a few contexts", "anchors": ["crates/weaver_live_check/src/otlp_logger.rs: emit_finding, flatten_json_recursive, flatten_resource_attributes, json_value_to_any_value", "crates/weaver_live_check/src/advice/mod.rs: build_and_emit, emit_findings", "crates/weaver_live_check/src/generated/events.rs: populate_finding_log_record", "crates/weaver_live_check/src/lib.rs: run_advisors, sample_type"]}
{"id": "C96", "title": "Text input of live check", "statement": "A text given to live check, in a file or on standard input, yields one attribute per line that is not blank, in order: its name, or its name and value around the first equals sign, with the white space around them removed. The value is the JSON value it spells, or else the text itself.", "quantifier": "every text, every JSON parser", "why_tests_cant": "ranges over all texts and line structures; tests feed a few lines", "anchors": ["crates/weaver_live_check/src/text_file_ingester.rs: TextFileIngester::ingest", "crates/weaver_live_check/src/text_stdin_ingester.rs: TextStdinIterator::next", "crates/weaver_live_check/src/sample_attribute.rs: TryFrom<&str>"]}
{"id": "C97", "title": "What passes the checks can be used", "statement": "A registry whose files report no error when they are read, and that resolves, can be consumed: its view for templates and policies can be built, its statistics can be computed and it can be converted to the version 2 schema, whatever dependencies it imports from.", "quantifier": "all registries (any files of either version, any dependencies of either format, any imports), any iteration order of the hash maps, any schema url", "why_tests_cant": "The steps were written separately and each has its own tests on hand-made inputs; whether the output of one always meets the expectations of the next is a statement about every registry.", "anchors": ["crates/weaver_semconv/src/semconv.rs: validate, into_v1", "crates/weaver_resolver/src/registry.rs: resolve_registry_with_dependencies", "crates/weaver_forge/src/registry.rs: ResolvedRegistry::try_from_resolved_registry", "crates/weaver_resolved_schema/src/stats.rs, registry.rs: stats", "crates/weaver_resolved_schema/src/v2/mod.rs: convert_v1_to_v2"]}
{"id": "C98", "title": "The search shows matching attributes and a selection among them", "statement": "The interactive search lists exactly the attributes of the catalog whose name contains what was typed, in catalog order; after any sequence of keys, if something is listed and selected, the selection is one of the listed attributes and is the one whose details are shown; Up and Down move it by one and stop at the ends; it ends only at Escape or Control-q; and it does not crash. The command-line search prints exactly the matching names, one to a line.", "quantifier": "every catalog of fewer than 2^31 attributes, every text input widget that reports its changes honestly, every sequence of terminal events, debug and release builds", "why_tests_cant": "the sequences of keys are unbounded, and what goes wrong (an index past the results, an underflow when nothing matches) depends on how typing and moving interleave", "anchors": ["src/registry/search.rs: SearchApp, process, move_index, result_set, run_ui, run_command_line_search"]}
{"id": "C99", "title": "Rendering a Markdown comment loses and invents nothing", "statement": "What the comment filter writes for a Markdown text in a markdown format is, up to white space and quote marks, all the document shows: its texts, list markers with their numbers, code, links, emphasis, headings, in order and once, followed by the definitions of the links written by reference. The line length moves white space only; in paragraphs of text every word survives whole; lines stay within the limit unless a single word or code span is longer; with escaping on, a Markdown reader gets the original text back.", "quantifier": "all document trees, rendering options, word wrap settings, texts", "why_tests_cant": "documents nest without bound and every combination of nesting, line length and word lengths takes another path through the wrap state", "anchors": ["crates/weaver_forge/src/formats/markdown.rs: MarkdownRenderer::render, write_markdown_to", "crates/weaver_forge/src/formats/mod.rs: WordWrapContext"]}
{"id": "C100", "title": "Rendering a comment as HTML writes the elements of the document", "statement": "What the comment filter writes for a Markdown text in an html format is, up to white space, the elements of the document in order, each opened and closed; the line length moves white space only and does not decide about failure; it fails exactly when one of the two code snippets fails on a piece of code in the document; text is safe to embed.", "quantifier": "all document trees, options, word wrap settings and snippets", "why_tests_cant": "documents nest without bound and every combination of nesting and line length takes another path", "anchors": ["crates/weaver_forge/src/formats/html.rs: HtmlRenderer::render, write_html_to", "crates/weaver_forge/src/formats/mod.rs: WordWrapContext"]}
{"id": "C101", "title": "The HTTP server answers each request from the registry it was started with", "statement": "For every registry and every request: an object is served with status 200 under the path of its kind with its key in any percent-encoding, 404 is answered just when no object of the kind has the key, no answer contains an object that is not the one of its kind and key; methods other than GET and HEAD get 405 on the API's paths and HEAD the status of GET without a body; a search answers the page that was asked for of everything that matches and 400 just when the query string makes no sense; a filter answers what jq gives or 400; other sites are allowed to read answers just as the configured origins say, and the server starts with every list of origins.", "quantifier": "all registries, keys, encodings of keys, methods, paths, query strings, origins, embedded files and filter results", "why_tests_cant": "Tests fetch a few known names; encodings, query strings, methods, paths and origin lists are unbounded.", "anchors": ["src/serve/server.rs run_server, serve_ui", "src/serve/handlers.rs get_schema, get_registry_attribute, get_registry_metric, get_registry_span, get_registry_event, get_registry_entity, search_registry, filter_registry", "src/serve/types.rs SearchParams, FilterParams", "crates/weaver_search/src/types.rs SearchType"]}
{"id": "C102", "title": "Errors of a definition file that does not fit its schema are shown where they are and say what was expected", "statement": "For every definition file that cannot be deserialized and every list of violations the validator finds, each violation is reported once and in order, its text says what is wrong with every variant that was tried, the place shown is the bytes of the node the violation is about (also after characters of several bytes), the advice is the description of the innermost described schema on the way, following references, and reporting never crashes.", "quantifier": "all documents, positions, pointers, schemas, violations and nestings of variants", "why_tests_cant": "keys, escapes, nesting, character widths and schema references combine without bound", "anchors": ["crates/weaver_semconv/src/json_schema.rs: JsonSchemaValidator::validate_yaml, build_error_message, build_description, get_ref_definition, YamlDocument::source_span, parse_xpath", "crates/weaver_semconv/src/semconv.rs: better_error"]}
{"id": "C103", "title": "Case filters keep the letters of a name, cut it at its words, and give different names different results", "statement": "For every text and every case convention, the result is the words of the text, each in the case of the convention, with its delimiter between them; letters and digits are kept in order; for dotted names the words are the parts between dots and underscores; converting a result again does not change it; names with different words have different results; and two names have the same constant exactly when they differ only in underscores.", "quantifier": "all texts (ASCII letters), all nine conventions, all names of any number and length of words", "why_tests_cant": "the boundaries depend on runs of letters, digits and separators of any length", "anchors": ["crates/weaver_forge/src/config.rs: CaseConvention::convert", "crates/weaver_forge/src/extensions/case.rs: case_converter, capitalize_first", "crates/weaver_forge/src/extensions/otel.rs: snake_case_const, pascal_case_const, kebab_case_const"]}
{"id": "C104", "title": "Template helper filters keep the data they are given", "statement": "concat_if is undefined exactly when an argument is and otherwise the texts of all arguments in order; flatten gives every item of every item once, in order, and fails exactly on what has no items; split_id cuts at every dot and joins back; numsort orders integers by value before all other keys, which are in text order, keeps every entry and the order of keys of equal value; toyaml has no character that is unsafe in HTML and stands for the same data; print_member_value gives a JSON string that stands for the text; and every ansi filter shows exactly its text in exactly its style.", "quantifier": "all lists of arguments, all JSON values, all maps, all texts, all 36 styles", "why_tests_cant": "the values nest and grow without bound and the escapes depend on every character", "anchors": ["crates/weaver_forge/src/extensions/util.rs: concat_if, flatten, numsort, split_id, to_yaml", "crates/weaver_forge/src/extensions/otel.rs: print_member_value", "crates/weaver_forge/src/extensions/ansi.rs: add_filters"]}
{"id": "C105", "title": "The schema compatibility check reports every property that is gone or new without a new version", "statement": "For every pair of JSON schemas, the check lists exactly the places where documents of the older schema may have a property and documents of the newer may not, unless the major version is another, and those only the newer allows, unless the version is higher; the version is the MAJOR.MINOR of the file format; a schema compared with itself passes; and the check passes exactly if every schema can be read and nothing is listed.", "quantifier": "all JSON schemas with definitions, references, alternatives and lists of any depth, all format strings, all lists of checks", "why_tests_cant": "references may be nested and recursive without bound", "anchors": ["crates/xtask/src/schema_compat.rs: collect_paths, schema_paths, schema_version, run, CHECKS"]}
{"id": "C106", "title": "Every command that loads a registry shows what it gathered and tells by its exit code", "statement": "For every registry, policies and settings, each of resolve, stats, diff, emit, package, update-markdown, search, mcp, serve and live-check shows all messages of opening and loading the registry (and of the policies it asks), in order and once; exits 0 exactly if none of them is an error and its own work went well (or with the code of the live check); comes to no work when the registry cannot be used; and writes no output from a registry with errors.", "quantifier": "all registries, policy engines, settings, modes and outcomes of the command's own steps", "why_tests_cant": "any combination of failing stages, warnings, modes and policies can occur", "anchors": ["src/registry/resolve.rs: command", "src/registry/stats.rs: command", "src/registry/diff.rs: command", "src/registry/emit.rs: command", "src/registry/package.rs: command", "src/registry/update_markdown.rs: command", "src/registry/search.rs: command", "src/registry/mcp.rs: command", "src/registry/live_check.rs: command", "src/serve/mod.rs: run_serve", "src/main.rs: process_diagnostics"]}
{"id": "C107", "title": "A signal imported from a published registry is published again as it was", "statement": "When a registry imports a metric, event, entity or span from a published (version 2) dependency and is itself published, the new document holds that signal under the same name with the same texts, stability, deprecation, annotations, kind, instrument and unit, the same attributes with the same requirement levels, associations to the same entity names, and a provenance that names the registry and the file where it was first declared.", "quantifier": "every published dependency, every import request, every set of files of the importing registry, every order in which maps are walked", "why_tests_cant": "Resolution, catalog rebuilding and conversion are tested separately on small fixtures; what is lost between them shows only when they are composed, for arbitrary signals.", "anchors": ["crates/weaver_resolver/src/imports.rs:import_groups", "crates/weaver_resolver/src/registry.rs:resolve_dependency_imports", "crates/weaver_resolved_schema/src/v2/mod.rs:convert_v1_to_v2"]}
{"id": "C108", "title": "The default naming policy of a live check says exactly what names call for", "statement": "With the policy weaver ships, a live check reports for an attribute: missing_namespace exactly when its name has no dot; invalid_format exactly when the name is not words of lower-case letters and digits separated by single dots or underscores and starting with a letter, unless it is an instance of a template of the registry; illegal_namespace once for each namespace of the name that is itself an attribute of the registry that is not deprecated; extends_namespace, with the longest such namespace, exactly when the name is not in the registry and lies in a namespace of the registry. For a metric it reports invalid_format exactly when the name is badly formed, under the name of that metric. It reports nothing else, nothing twice, and never fails.", "quantifier": "every registry of either version, every attribute or metric name, every signal the sample comes with", "why_tests_cant": "The answer depends on all dotted prefixes of the name and of every name of the registry; a test looks at a few names.", "anchors": ["defaults/policies/live_check_advice/otel.rego", "defaults/jq/advice.jq", "crates/weaver_live_check/src/advice/rego_advisor.rs: RegoAdvisor", "crates/weaver_live_check/src/live_checker.rs: LiveChecker::new"]}
{"id": "C109", "title": "The jq selections given to templates pick exactly the wanted elements", "statement": "For every resolved document and every set of options, semconv_attributes, semconv_metrics, semconv_spans, semconv_events and semconv_entities return exactly the elements of the asked kind that no option excludes (stability, deprecation, code generation annotation, root namespace), each with its root namespace, its enum members and, for signals, its attributes filtered by the same options and nothing else changed, in the documented order; the grouped variants put each element into exactly one group, that of its root namespace, groups and their elements sorted. The options behave as documented: a boolean set to false is as if absent, nested attributes of every signal are filtered, and an element's root namespace does not depend on the document version.", "quantifier": "all documents of the published shape (any numbers of groups, attributes, members, names), all combinations of options, all five kinds", "why_tests_cant": "the options combine with nested lists and names in unboundedly many ways; the tests render a few fixed registries", "anchors": ["defaults/jq/semconv.jq: semconv_attributes, semconv_signal, stability_filter, code_generation_exclude_filter, deprecated_filter, semconv_group_attributes_by_root_namespace", "crates/weaver_forge/README.md"]}
{"id": "C110", "title": "Flags, file and defaults of every command agree with its annotations and its help", "statement": "For every command struct annotated for the configuration macro and every combination of flags: a flag that is given decides exactly the setting its annotation names, nested or not, and changes nothing else; without the flag the value of the file stays; without both the default of the annotation, read as the type of the setting, is used, and it is the default the help shows. The generated struct, its default and the overrides always agree in their types. All commands of weaver meet the conditions for this.", "quantifier": "all command structs (any number of fields, annotations in any order, nested paths), all flags, all configuration values; and the eleven commands as declared", "why_tests_cant": "the macro is run on every command at build time; tests look at a few expansions and never at the combination of flag, file and default for each field", "anchors": ["crates/weaver_macros/src/weaver_command.rs: inject_default_docs, classify_field, gen_default_expr, gen_cli_overrides_impl", "crates/weaver_config/src/overrides.rs: override_if_set", "src/registry/*.rs: the Args structs"]}
{"id": "C111", "title": "The downstream check passes exactly when every check of every selected repository passes with the weaver under test", "statement": "Running the downstream check with a list of repository arguments ends successfully exactly when each argument names a configured repository, each of these can be fetched at the ref asked for (else the configured one, else main), and each of its checks exits with 0 on that tree with the weaver under test handed over as one literal word; a check that calls a bare weaver gets that same binary, and only a check that used up its time is reported as timed out.", "quantifier": "all configurations, arguments, existing checkouts, remotes, outcomes of checks, weaver paths and interleavings of process end and clock", "why_tests_cant": "tests cover the classification of the configured repositories only; they run neither git nor checks, and no test can range over addresses, quoting and timing", "anchors": ["crates/xtask/src/downstream.rs: run, select, split_ref, normalize_url, dir_name, checkout, run_check, wait_with_timeout, shell_quote"]}
{"id": "C112", "title": "A live check that is told to stop checks everything it acknowledged and gives its report to exactly one reader", "statement": "Whatever the order in which exports, signals, requests to stop, timeouts and the steps of the check happen: every export answered with success is checked, in the order of the answers; a command that ends well has given its report exactly once, with --output http to a request to stop that is waiting and else to the standard output; a request to stop is always answered, and told that the report failed exactly when it did; the command ends once it was told to stop; an error of the receiver is reported; and the receiver stops after the given time of inactivity.", "quantifier": "all schedules of the receiver's tasks, the clients and the main thread, of any length, and all arrival times of exports", "why_tests_cant": "tests run a handful of schedules against a real clock; no test can range over the interleavings of two threads, clients that leave and timeouts", "anchors": ["src/registry/otlp/mod.rs: ShutdownCoordinator, listen_otlp_requests, spawn_stop_signal_handlers, stop_handler, spawn_http_admin_handler, spawn_inactivity_monitor, forward_to_channel", "src/registry/otlp/otlp_ingester.rs: OtlpIterator::next", "src/registry/live_check.rs: command"]}
{"id": "C113", "title": "Fetching an archive or a repository gives exactly the tree it holds", "statement": "When a registry or template location is an archive, on disk or downloaded, the directory Weaver works on holds exactly the files packed below the archive's top folder (below the sub-folder of it, if one is given), each at its relative path with its content, and the directories on the way to them; nothing else appears in it. A sub-folder that does not exist is an error, for archives as for git repositories.", "quantifier": "all archives (any number of entries, any names, any order, repeated entries), tar and zip, with and without a sub-folder, from disk or any url, and all checked out trees", "why_tests_cant": "Tests unpack two fixed archives; the result depends on the order, the repetition and the nesting of arbitrary entries and on names colliding after the top folder has been removed", "anchors": ["crates/weaver_common/src/vdir.rs: try_from_local_archive, unpack_tar_gz, unpack_zip, path_to_unpack, create_parent_dirs, try_from_remote_archive, try_from_git_url"]}
{"id": "C114", "title": "A live check writes each sample once, in order, and the same result in every mode", "statement": "For every sequence of samples, every format and every destination, a live check writes the checked samples in the order they came, each once, followed by the statistics; streaming, --no-stream, a directory and the answer to the admin client give the same content; each signal is checked with the resource seen last before it; the exit code depends only on the findings and the --fail-on level, not on how the result is written.", "quantifier": "all sequences of samples, all checkers and statistics, all formats (built-in and templates), all destinations, all settings of --no-stats, --no-stream and --fail-on, all points at which a check fails", "why_tests_cant": "Tests run a few fixed files through one format and one mode; the agreement of the modes has to hold for every history of samples and every checker", "anchors": ["src/registry/live_check.rs: command, generate_report", "crates/weaver_forge/src/output_processor.rs: OutputProcessor::new, generate, generate_to_string, content_type, is_file_output, is_line_oriented"]}
{"id": "C115", "title": "JSON samples are read as they say, and the samples of a report can be read again", "statement": "For every JSON document given to a live check: the samples checked are those of the array, each read by itself and in its order, or the whole document is refused; an object is read from the fields of its kind only, whatever their order and whatever other entries it has; a field that may be left out means its default; an attribute has the type given or else the one its value shows; and samples written by weaver are read as they were.", "quantifier": "all JSON documents, all kinds of samples and their parts, all sets and orders of entries, all samples and reports", "why_tests_cant": "Tests read a handful of files; what a missing, repeated, unknown or null entry means has to hold for every field of every kind, and reading has to undo writing for every sample", "anchors": ["crates/weaver_live_check/src/json_file_ingester.rs: JsonFileIngester::ingest", "crates/weaver_live_check/src/json_stdin_ingester.rs: JsonStdinIngester::ingest", "crates/weaver_live_check/src/lib.rs: Sample, LiveCheckResult", "crates/weaver_live_check/src/sample_attribute.rs: SampleAttribute::deserialize", "crates/weaver_live_check/src/sample_metric.rs: SampleInstrument, DataPoints, SampleMetric", "crates/weaver_live_check/src/sample_span.rs: SampleSpan", "crates/weaver_live_check/src/sample_log.rs: SampleLog", "crates/weaver_checker/src/finding.rs: PolicyFinding"]}
{"id": "C116", "title": "The maintenance tasks of the workspace pass exactly when what they guard holds", "statement": "For every workspace, repository and workflow file: fixing the release workflow either fails, with the file as it was, because a place it knows is there in neither form, or leaves every known loose text replaced by its remedy and nothing else changed, and running it again changes nothing; validating passes exactly when every crate has the name, files and manifest entries the rules ask for, and its messages name the crates at fault; the history task passes exactly when the check succeeds for every tag of a version from the start on; each task runs under its name.", "quantifier": "all workflow files, all directories of crates and manifests, all lists of tags, start versions and outcomes of the checks, all command lines", "why_tests_cant": "The tasks have tests for two workflow files at most; that texts never overlap so that a second run is idle, and that no crate or version slips through, concerns all files, manifests and tags", "anchors": ["crates/xtask/src/fix_release_permissions.rs: run, apply_patches", "crates/xtask/src/validate.rs: run, check_presence_of, check_path_is_true, check_package, check_lints_workspace", "crates/xtask/src/history.rs: run, get_versions_from_git", "crates/xtask/src/main.rs: main, print_help"]}
{"id": "C117", "title": "A published resolved schema is read back as it was written", "statement": "For every resolved registry: the file that packaging it writes is read by a registry that depends on it as the same schema - every attribute, group, signal and refinement with all its fields and in the same order - with the local file names gone and the generated note in place of a missing rename note; publishing again what was read gives the same document; registries with the same document differ in nothing that is kept; comparing a registry with its own file reports nothing where renames have notes; a file with unknown keys or of another format is refused.", "quantifier": "all resolved schemas with values a definition can give (any number of attributes, signals, refinements, nested associations, examples and annotations), all documents", "why_tests_cant": "The tests write and read a few hand-made schemas; that no combination of absent, empty and present fields, untagged variants and flattened keys is misread concerns all schemas", "anchors": ["crates/weaver_resolved_schema/src/v2/mod.rs: ResolvedTelemetrySchema", "crates/weaver_resolved_schema/src/v2: Attribute, AttributeGroup, Span, Metric, Event, Entity, EntityAssociation, Registry, Refinements, Provenance", "crates/weaver_semconv/src/attribute.rs: AttributeType, EnumEntriesSpec, Examples, RequirementLevel", "crates/weaver_semconv/src/deprecated.rs: deserialize_option_deprecated", "src/registry/package.rs: package_registry"]}
{"id": "C118", "title": "Initialised diagnostic templates are those of the program, and they are then used", "statement": "For every set of templates in the program, every state of the disk and every target: when `diagnostic init` succeeds, the templates of the target (all of them without a target) are in the directory with the content they have in the program, nothing else on disk is changed and nothing else is new but the directories on the way; it succeeds exactly when no file is in the place of a directory and no directory in the place of a template; also after an error every file is one of before or a whole template; doing it again changes nothing; diagnostics are then rendered from the directory with what the program would have used; templates come all from the directory if it has the target, else all from the program.", "quantifier": "all directories compiled into the program (any depth), all states of the disk, all base directories, all targets that are one name or absent", "why_tests_cant": "The test counts sub-directories after a run into an empty directory; that no file of the user is touched and that each template is complete concerns every tree and every disk", "anchors": ["src/diagnostic/init.rs: command, extract", "crates/weaver_forge/src/file_loader.rs: EmbeddedFileLoader, FileSystemFileLoader", "src/main.rs: print_diagnostics"]}
{"id": "C119", "title": "Errors gathered and wrapped on their way are all reported, and a failure stays a failure", "statement": "For every way errors are gathered into collections and wrapped by other parts of the program: gathering fails exactly when there is an error and keeps each one, once and in order; each elementary error is in exactly one diagnostic message and the messages keep the order; each has a message of its own; if one of them is a failure the command fails, and with warnings alone it does not (without the future mode, in which any message is a failure); the deduplicated print shows the first of similar errors with the number of the others, in the order of the first ones; the summary of a failed template has every cause once, outermost first, with the details of the last.", "quantifier": "all trees of gathered and wrapped errors (any nesting and number), all severities, both modes, all ways single errors are shown, all chains of causes", "why_tests_cant": "The test has four errors in one flat collection; losing, doubling or downgrading an error depends on how collections and wrappers nest", "anchors": ["crates/weaver_common/src/error.rs: handle_errors", "crates/weaver_forge/src/error.rs: compound_error, From<Error> for DiagnosticMessages", "crates/weaver_resolver/src/error.rs: WeaverError::compound, Error::log", "crates/weaver_resolved_schema/src/error.rs: handle_errors", "crates/weaver_semconv_gen/src/lib.rs: From<Error> for DiagnosticMessages", "src/weaver.rs: Error", "crates/weaver_forge/src/debug.rs: print_dedup_errors, error_summary"]}
{"id": "C120", "title": "The numbers, ids, times, codes and texts of received telemetry are reported as they were sent", "statement": "For every message received over OTLP: each data point is reported in its place with its value, counts, sums, bounds, buckets, minimum, maximum and flags, and its exemplars with value, time and ids; an id of 8 or 16 bytes is reported byte by byte in hexadecimal and different ids have different texts; a log keeps its severity, its ids and its text; a span keeps its kind and its status; a scope keeps its name, version, schema URL and number of dropped attributes.", "quantifier": "all points, exemplars, logs, statuses, kinds and scopes, with all numbers (including those that are not finite), all byte strings as ids and all times", "why_tests_cant": "The tests convert one or two messages with round numbers; a swapped field, a lost leading zero or a wrong byte order shows only for other values", "anchors": ["src/registry/otlp/conversion.rs: otlp_number_data_points, otlp_histogram_data_points, otlp_exponential_histogram_data_points, otlp_exemplar_to_sample_exemplar, span_id_hex, trace_id_hex, unix_nanos_to_utc, otlp_log_record_to_sample_log, status_from_otlp_status, span_kind_from_otlp_kind, otlp_instrumentation_scope_to_sample"]}
{"id": "C121", "title": "Downloads of a process: each file comes from its own release, each release is asked for once, each token belongs to its URL", "statement": "For every session of downloads of one process, whatever the servers, the environment and the helper commands answer over time: a URL that is not a file of a GitHub release is fetched as given; a file of a release is fetched from where the first description received of that very release lists a file of that name, and from nowhere else; a release is asked for until it is first described and never again; every token sent belongs to the most specific rule for the URL the user gave; a helper command gives a token exactly when it succeeds and its first line is not blank, and the token is that line trimmed; a downloaded file is put right inside the temporary directory under the last part of the path of its URL.", "quantifier": "all lists of credential rules, all sequences of downloads, all answers at each moment, all outputs of helper commands, all URLs", "why_tests_cant": "The cache of release descriptions and the cache of tokens live as long as the process: the tests make one or two downloads with one server", "anchors": ["crates/weaver_common/src/vdir.rs: download_to_file, attach_auth, normalize_github_url, parse_github_release_url, find_asset_url, try_from_remote_file", "crates/weaver_common/src/http_auth.rs: run_token_command, HttpAuthResolver::resolve"]}
{"id": "C122", "title": "The rules on findings of a live check do what they say as written, or are refused", "statement": "For every list of filters and level overrides written in the configuration: they are accepted exactly when each of their lists of names is empty or consists of usable patterns, and a refusal names the first bad pattern of its list; when accepted, each finding gets the level of the first override about it (its signal type, its sample names and its ids, where given) and is dropped exactly when some filter about it lists its id, asks for a higher level than the new one, or excludes its sample by name; otherwise it is kept unchanged but for the level.", "quantifier": "all filters, overrides, findings, samples and all pattern languages", "why_tests_cant": "The tests write one rule at a time; order, empty lists and combinations of scopes are not exhausted", "anchors": ["crates/weaver_live_check/src/finding_modifier.rs: compile_globset, FindingModifier::from_rules, FindingModifier::apply", "crates/weaver_config/src/live_check.rs: FindingFilter, FindingLevelOverride", "src/registry/live_check.rs: command"]}
{"id": "C123", "title": "The combined file of the generated modules holds every generated file at its place", "statement": "For every list of files below a directory and every order the sub-modules may be written in: the text of each Rust file marked as generated by Weaver (its comments for the enclosing module made plain comments, its declarations of modules removed) is in the combined file, at the start of the nested modules its place asks for, unless a file visited later stands for the same module or, being no mod.rs or lib.rs, for one around it; other files leave no trace. The check of the user interface warns exactly when it is not built or older than what it is made of, or when the lock file is older than the package.", "quantifier": "all lists of files with their places and texts, all orders of a hash map, all times of change", "why_tests_cant": "One directory is generated in the repository; the order of visiting and of the hash map is up to the platform", "anchors": ["crates/weaver_codegen_test/build.rs: create_single_generated_rs_file, add_modules, Module::generate", "build.rs: is_ui_stale, is_package_lock_stale, check_ui"]}
{"id": "C124", "title": "A template is rendered to the name it asks for, and one text holds what the files would", "statement": "For every template engine, template, configuration and value: a template is rendered exactly when it is there, its own rendering succeeds and every call it makes on the template object sets a name; the file is named as the last call says, else as the configured name is rendered, else as the template file without its `.j2` endings. Generating one text (as for the answers of a server) gives the texts of the files that generation without configured names would write, in the order of template files, configurations and values, or the first of its errors. Sent to a stream, the texts come out each with a line break and no file changes; sent to files, nothing is printed and each file holds the last text made under its name.", "quantifier": "all template engines, jq engines, globs, template files, configurations, values and output directives", "why_tests_cant": "The tests render a few templates; the calls a template may make and the orders of failures are not exhausted", "anchors": ["crates/weaver_forge/src/lib.rs: TemplateObject::call_method, TemplateEngine::generate_to_string, TemplateEngine::render_template, TemplateEngine::evaluate_template"]}
{"id": "C125", "title": "Exported findings come from the service the user names, else from weaver", "statement": "For every environment: the resource Weaver adds to exported findings names the service `weaver` exactly when the user names none (no OTEL_SERVICE_NAME, and no entry `service.name=...` in OTEL_RESOURCE_ATTRIBUTES), never another name, and always has the criticality `low` and the version of the program, each once. The attributes of the generated entities are those that are present, each once, with different texts for different values.", "quantifier": "all values of the two environment variables, all versions, all entities", "why_tests_cant": "The tests set a few values of the variables", "anchors": ["crates/weaver_live_check/src/otlp_logger.rs: WeaverResourceDetector::detect", "crates/weaver_live_check/src/generated/entities.rs: Service::to_resource_attributes, TelemetrySdk::to_resource_attributes"]}
{"id": "C126", "title": "Pages of the attribute registry and Prometheus names in templates follow the id and the arguments", "statement": "For every group id: it has a page and a title exactly when it is `registry.` followed by a namespace (and perhaps more parts); the page is the words of the namespace in small letters with hyphens, the title the words with capitals; groups whose namespaces consist of small letters, digits and single underscores share a page exactly when they share the namespace. For every metric and every list of arguments: the filter for one Prometheus name answers exactly when a known strategy is given and the three fields are strings; the filter for all names exactly when the strategy, if given, is known and the expansion, if given, is a boolean; where both answer, the one name is among the names, and is the only one unless expansion is asked for; a refusal gives the first reason: the strategy, the expansion, then the fields. The filter for the unit gives the word of a known unit and leaves other units as they are.", "quantifier": "all ids, metrics and arguments given once", "why_tests_cant": "The tests use a few ids and a few combinations of arguments", "anchors": ["crates/weaver_forge/src/extensions/otel.rs: attribute_registry_title, attribute_registry_file, prom_names, prom_name, prom_unit, parse_translation_strategy, get_attr"]}
