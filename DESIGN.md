# Formal model of open-telemetry/weaver in Rocq (Coq 8.16.1)

## Layout

- `properties.jsonl` - the English properties.
- `rocq/theories/*Model.v` - the model: total computable Gallina functions, one per
  Rust function, each with a comment citing file and lines in `/repo`. No proofs.
- `rocq/theories/*Spec.v` (where needed) - small independent specifications used in
  statements (predicates, not the model's helpers).
- `rocq/theories/*Proofs.v` - lemmas.
- `rocq/theories/Prop*.v` - only the property theorems, each `exact lemma`, a
  non-vacuity `Example` beside it, and `Print Assumptions`.
- `seeded/LOG.jsonl` - log of deliberate bugs planted in scratch copies of the model.
- `MANIFEST.json` - status per property.

## Modelling conventions

- Strings are byte strings (`Coq.Strings.String.string`, one `ascii` per UTF-8 byte);
  Rust's `str` equality, order, `starts_with`, `len` are byte-wise, so this is exact
  for them. Char-wise operations (`to_lowercase`, `is_alphanumeric`) are modelled on
  ASCII and the restriction is said at the definition.
- `Vec` is `list`; `usize` counts are `nat`; `BTreeMap` is a key-sorted association list;
  `HashMap` is an association list with unique keys and, where the code iterates a
  hash map, the iteration order is a universally quantified permutation.
- `Result`/`Option` stay data; a panic (`expect`, `unreachable!`, index out of range,
  arithmetic underflow) is an explicit error value.
- Loops become structural recursion or recursion on explicit fuel with a distinct
  out-of-fuel result which the theorems exclude.
- A property that is false of the code gets a `..._refuted` theorem with a concrete
  witness, plus the strongest restricted theorem that is true (`..._partial`).

## Plan per property

| id | modelled | proof |
|----|----------|-------|
| C01 | statistics accumulator as `step : stats -> sample -> stats`, all counters | invariant by induction over the sample list relating counters to list-level counts |
| C02 | fail-on gate over the accumulated counters | equivalence with "exists finding with level >= threshold" over the sample list |
| C03 | coverage maps (attributes, metrics, events) | invariant: seen is a subset of tracked; monotone |
| C04 | override list then filter list, glob scopes as an oracle predicate | equational characterisation against a declarative spec |
| C05 | association tree evaluation | nested induction on the tree |
| C06 | template list sorted by length, first prefix match | sortedness + first match gives longest |
| C07 | `check_attributes` | membership equivalences |
| C08, C09 | v1 `diff_attributes`/`diff_signals`, v2 `diff_signals_by_hash` | map reasoning; exact characterisation of the change list |
| C10, C11 | version map, rename maps, `extend` | induction over version list |
| C12, C13 | JSON tree, comparison, stable merge sort | nested induction; permutation + sortedness; refutation for numeric ties |
| C14 | binary64 as a datatype (sign/zero/finite/inf/NaN) with order by value | case analysis, transitivity |
| C15, C16 | `WResult`, diagnostics | algebraic laws |
| C17 | layering functions and override macro | per-field equations |
| C18 | rule sort + first match | as C06 |
| C19 | the regex as an explicit lazy matcher | string reasoning |
| C20 | url split on last slash (URL syntax checker as oracle) | string reasoning |
| C21, C22 | comment/prom filters on ASCII | string induction |
| C23, C24, C25 | otel filters | list induction / finite case analysis |
| C53, C54, C55, C56 | stability tests, namespace and id filters, body field listing, acronyms | case analysis, string induction, induction on body trees |
| C26 | config records and merge functions | algebraic laws |
| C27 | path components, canonicalisation as an oracle | containment |
| C57 | parameter maps of every level | lookup laws |
| C58, C59 | work items of the generator, executed in any order; jq, Jinja and globs as parameters | permutation invariance, inversion of the item list |
| C60 | embedded directory trees | induction on trees |
| C61 | state of the output processor over a sequence of reports | induction on the sequence |
| C28 | line state machine with the directive parser | induction over lines |
| C62 | the directive parsers (nom combinators as functions on strings) and the v2 id lookup | equivalence with a grammar stated on texts, by inversion and construction |
| C63 | update_markdown over an optional file text, dry run flag, the command over a list of files | case analysis; idempotence lemma from C28 |
| C64 | Examples as an untagged enum over JSON values, Examples::validate | readers characterised one by one, then the order of the alternatives; shapes by case analysis |
| C65 | the version 2 records and their translation to groups | a relation per kind of definition; injectivity by separating the groups by kind |
| C66 | FileFormat::detect, removal of the keys, loading with the warnings | case analysis against the fields of the mapping |
| C67 | SemConvSpecV2::validate | membership in the collected errors |
| C68 | the rounds of the extends resolution | the errors of the last round, by induction on rounds |
| C69 | inherit_v2_refinement_fields within the rounds | deep-merge relation on JSON trees; every finished group is built from a settled parent |
| C70 | loader.rs load_definition_repository: directory tree, hidden names, file filter, provenance path, collection of parallel results | induction over the tree; permutation of results |
| C71 | the pass over the names of each group, the local and the dependency entities | invariant over the pass: recorded origins and errors are those of a pure outcome, shown equivalent to the specification |
| C72 | the origins collected during import and handed to groups by id | induction over the loops under distinct ids; refuted without |
| C73 | SearchSpec.v: `last_named`, `longest_template`. | Lookups in the index are the last insertion; the stable sort by length keeps the order among equals, so `find` gives the first of the longest. |
| C74 | OTLP messages as trees, the conversion to samples, the loop up to the stop signal | the samples of each sort correspond in order to what was sent; observed attributes are exactly those held |
| C75 | as C45, with the iteration order of every hash map as a parameter | signals are strictly sorted lists with the same members; refutations by two orders |
| C76 | `convert` (ConvertModel) returns Converted, Failed or Panicked | induction over the groups; conditions stated on the registry |
| C77 | `resolve_entity`, `convert_assoc` | induction over association trees; last entity of a name decides |
| C78 | iteration order and hash as parameters | uniqueness of a sorted permutation; collision as counterexample |
| C79 | the OTLP ingester: messages to samples, and their run through the live check | relational reading of messages; invariant over the current resource |
| C80 | weaver_emit: values, and the calls of the API for spans, metrics and logs | case analysis on types and examples; induction on lists of results |
| C81 | emit, an abstract transport, OTLP ingestion and the live check composed | findings of each advisor on emitted values; lookup of the emitted definition; counterexamples by computation |
| C82 | the version 1 view: filter, lookups, sort | induction on groups; stable sort lemmas |
| C83 | the version 2 view with its recursion over dependencies (fuel), entity lookup | least fixpoint reasoning on fuel, accessibility; induction on the chain for its size |
| C84 | conversion and view composed | from C41 and C83 |
| C85 | PolicyModel: serde of findings (aliases, flattening into three kinds). PolicySpec: last entry under a name, what each kind needs. | Case analysis over the fields; induction over the entries. |
| C86 | PolicyModel: the engine over an interpreter given as a parameter, the stages, the driver of `registry check` and `registry generate`. PolicySpec: what is reported at a stage, which policies are loaded, messages of a command. | Induction over files, documents and directory trees; case analysis over outcomes. |
| C87 | PolicyModel: splitting patterns, wrapping documents, the loop over files. PolicySpec: nested documents, one file offered, all files offered. | Induction over components and files; determinism of the specification gives both directions. |
| C88 | CacheModel: the LRU cache, resolve_schema, load_and_resolve_schema, resolve_loaded, resolve_dependency; fetching, loading and resolving one registry are parameters, the loader of LoadModel is shown to meet what is asked of it | invariants of the cache over histories; induction on the bound of the recursion; induction on the loaded tree |
| C89 | manifest values, dependency entries, kinds, warnings, file choice (ManifestModel) | an independent relation `says`/`refused`, equivalence both ways |
| C90 | the package command with its disk operations, the written manifest, where a relative URI leads (ManifestModel) | case analysis, prefixes of the operations, round trip through C89, counterexamples |
| C91 | StatsModel: the folds of Registry::stats, Catalog::stats and the V2 stats over association lists, expect as None; the command over an abstract load and render | fold invariants over processed prefixes against inductive counting (number, breakdown); injectivity of type labels |
| C92 | SnippetModel: find_group and ResolvedGroup for version 1, lookup_id with the resolved_ functions for version 2, on top of the parser of C62; panics explicit | classification of every lookup against an inductive naming relation; composition with C62 and the view of C83 |
| C93 | the lineage part of ResolveModel (lineage.rs, the lineage updates of the inheritance and reference passes) | invariant over the passes tying each entry to a definition and to the fields written; counterexamples for several bases, prefixes and roles |
| C94 | McpModel: live_check tool over LiveModel, compaction per kind of sample | exact correspondence between parts with findings and objects, by cases; run lemmas of the live check with statistics disabled |
| C95 | OtlpModel.v: the emissions beside every runner of LiveModel.v, the record of a finding, flattening of contexts | induction over the runners: the report is the modifier's image of the emissions; the context's keys are the dotted paths of its scalars |
| C96 | TextModel.v: `try_from`, the text file ingester and the standard input iterator | the line is characterised by `says`, the text by `reads_as`; list induction |
| C97 | the steps of DefModel, ImportModel, ViewModel, StatsModel and ConvertModel one after the other | an invariant through extends, references, imports and compaction (metrics complete, events named, lineage says its base, references denote), then the characterisations of C82, C91 and C76 |
| C98 | src/registry/search.rs: the app state, `process`, `move_index` with its casts in both overflow modes, the loop, the command-line search; the text widget is a parameter | invariant on the selection over any list of events; characterisation of the crash and of the end by induction on the events |
| C99 | `write_markdown_to` and the word wrap, over document trees | induction over trees: a ghost of what is written, equal to the specification on tidy documents; words and line length by invariants of the wrap state |
| C100 | `write_html_to` over document trees | induction over trees: two runs are alike, and the elements of the specification |
| C101 | ServeModel.v: requests (method, path, decoded query pairs, Origin), the router, percent decoding, query parsing, handlers, embedded UI, CORS configuration and header | PropServe.v: for every registry, key and encoding; the query string as a relation to what is asked (ServeSpec.v), tied to C42 and C73 |
| C102 | parse_xpath, the walk over the marked document, byte offsets, build_description with references, build_error_message and better_error, over the errors of the validator | induction on pointers, documents, schemas and variants; refutations by a key of each kind that is not plain |
| C103 | CaseConvention::convert with the word splitting of convert_case, the constants and capitalize_first | induction on texts; the words of a text by a relation on adjacent characters; refutations by names with words of one letter and words that start with a digit |
| C104 | concat_if, flatten, numsort, split_id, to_yaml, print_member_value and the ansi filters | induction on lists and texts against a reader of JSON strings and a terminal that keeps a style; stable sort lemmas; refutations by a quoted scalar and a nested style |
| C105 | collect_paths, schema_versions and the verdict of xtask schema_compat | induction on the number of open references and on the schema; exactness against the places a schema allows; refutations by small schemas |
| C106 | the commands of src/registry and serve on the driver of C86 | case analysis per command over the loading lemmas of C86; refutations by small registries |
| C107 | composition of ImportModel (import from a published registry), stabilisation and ConvertModel | field by field through C40, C32 and C41; refutations for level, attribute groups and span types |
| C108 | The shipped rego policy and jq preprocessor as functions on names (regular expression by derivatives, namespaces by splitting at dots), the advisor that reads and completes their findings | the derivative matcher accepts exactly a grammar of words; the split prefixes are exactly the dotted prefixes in order of length; findings compared as sets with a specification by cases |
| C109 | The functions of defaults/jq/semconv.jq as functions on JSON values (JqModel.v); jq builtins by their documented meaning, the interpreter not modelled | Filters compose to one predicate; stable sorts give lexicographic order; grouping by induction on a sorted list (JqProofs.v, PropJq.v) |
| C110 | The attribute and derive macros for commands as a function from annotated fields to the effect of the generated code, and the eleven commands as data (MacroModel.v) | Fold over the fields with pairwise separate paths; numerals against an inductive specification; the commands by computation (PropMacro.v) |
| C111 | DownModel: selection, checkouts (a disk of origins), the loop over checks, quoting, search path, waiting on two clocks | spec: addresses, an sh reader, expansion, the remotes' trees; iff by induction over the selected repositories |
| C112 | ListenModel: the receiver, its channel, /stop, the coordinator and the main thread as a transition system; the monitor with its clock | spec: observations of a schedule; invariants over all schedules, progress by phases |
| C113 | the tree on disk as a map from names to directories and files; create_dir_all, writing of entries, tar and zip unpacking over VdirModel's paths, the download next to its entries, the sub-folder of a checkout | invariant over the entries processed: the tree holds the last file of each place and the directories on the way; counterexamples for the rest |
| C114 | the choice of the output, the loop over the samples, report and streaming, the answer to the client and the exit code, over a given checker, serializers and templates | induction over the samples in both modes; the checks as a relation; counterexamples for disabled statistics, errors, resources and names |
| C115 | the derived and hand-written serde readers and writers of all samples over JSON values, with entries in order and repeated keys | a table of fields per kind against the readers, case by case; reading after writing by structure; counterexamples for every sample with a finding and for exponential histograms |
| C116 | the table and loop of the workflow fix, the rules of the workspace validation over parsed manifests, the selection and the loop of the history task, the dispatch of tasks | a text replaced at non-overlapping places cut into pieces, and an overlap test that the kernel evaluates on the table; the manifest rules against paths through tables; induction over tags |
| C117 | the derived serialisation and deserialisation of the version 2 resolved schema, field by field, with skipped, defaulted, flattened and untagged parts | a document as a JSON value; lemmas on the entries under a key composed over fields; untagged variants by showing that earlier ones keep failing; induction on nested associations |
| C118 | `diagnostic init`, include_dir's extraction and the embedded file loader over a tree of files | the extraction is shown to be a list of operations on the disk; invariants by induction on the list; the operations are shown to be exactly the templates asked for by induction on nested directories |
| C119 | errors as trees of elementary errors, collections and wrappers; the gathering, the conversion into messages with severities, the deduplicated print and the summary of causes | nested induction on trees; the ordered map is shown to be the recursive report by moving the first entry out of the fold |
| C120 | the fields of received telemetry that no check reads, field by field; ids as bytes, big-endian numbers and padded hexadecimal | padded digits of the big-endian number are shown to be two digits for each byte by induction on the bytes; injectivity by inversion of the text; field by field elsewhere |
| C121 | the helper command, download_to_file with the cache of releases and the cache of tokens threaded through a session, the name of a downloaded file | invariant of the session: the cache knows, for each release, the first answer given so far; the key of a release is injective because its parts have no slash; the tokens of a session are those of a history (C18) |
| C122 | the written rules and their compilation, with the pattern language as a parameter | a compiled rule is about the same findings as the written one; then the result on compiled rules (C04) |
| C123 | the files found, the module tree and its text with any order of the sub-modules; the times of the user interface | what a path holds is kept by later files elsewhere; then induction on the path |
| C124 | the calls of a template on its object, the names and the one text, with the Jinja and jq engines as parameters | the calls by induction; the loop over files as the outcome of the work of C58 |
| C125 | the two variables, the resource and the entities | the entries of a list separated by commas by induction on the text |
| C126 | the two page filters and the two Prometheus filters with their arguments | by the words of C103 and the namespaces of C54; arguments by cases on the lookup |
| C29, C30, C31 | group validation, association walk, compatibility table | case analysis, induction |
| C32-C37 | resolver core: attribute catalog, extends, refs, cleanup, uniqueness | invariants over the passes; refinement to a declarative spec |
| C35 | OrderSpec.v: `read_order` flattens the files; `same_but_lineage` compares published groups; hypotheses `one_definition`, `nothing_hidden`, `entities_open`. | Inheritance: what a group resolves to is a function of the set of groups (relation `res` by levels), every run computes it. References: completeness of C34 plus functionality of `resolved_as`. Compaction: sorted lists with the same elements are equal. Success with dependencies: an invariant of the attributes found so far (each from a registry on offer, none hidden) leaves unresolved references as the only failure, and imports walk the same list for both orders. Refuted by computed registries. |
| C37 | ConflictSpec.v says which definition each dependency gives (`gives`), which versions are compatible, and which of two definitions is `preferred`. | Lookup across dependencies: fold invariant (the running winner is above everything seen). Order independence from the characterisation of the winner. Pairwise precedence by cases. Refuted for whole resolutions by computed registries. |
| C38, C39 | semver choice, dependency loader | max over lists; termination measure |
| C40 | import matching | membership equivalences |
| C41 | v1 to v2 conversion | map/flat-map reasoning |
| C42, C43, C44 | search | firstn/skipn laws, score table, string split |
| C46 | the four built-in advisors | case analysis against `accepts`, `item_deprecated`, ... |
| C47 | `infer_type` | `has_type` equivalence, list induction |
| C48 | main loop | induction over the stream |
| C45 | inference accumulator | invariant over the sample stream |
| C49 | writer and readers of `Deprecated` as JSON | case analysis |
| C52 | the upward search over directory lists | induction on the depth |
| C50, C51 | path components and the tar unpacking loop | list reasoning |

## Not modelled

`COVERAGE.md` lists, file by file, which functions the model cites and which it does not.

Libraries are outside the model: sockets and HTTP, git, gzip and tar decoding, YAML, TOML
and JSON text, the minijinja engine, jaq (jq), regorus (Rego), glob and regular expression
matching, URL parsing, semver parsing, miette's rendering, ratatui and the OTLP wire format.
Where a function calls one of them the result is a universally quantified parameter, except
where its documented meaning is written out (the jq and Rego builtins used by the default
files, the serde readers and writers of the types named in C49, C64-C66, C85, C89 and C115,
the file system effects of C113 and C90).

Not modelled in weaver's own code: tests and test support, the terminal drawing of the search
(only its state is), the generated gRPC stubs and entity types, JSON schema and OpenAPI
generation, log output, the wiring of filters into the template engine, and the build scripts.

## Trusted base

- Coq 8.16.1's kernel (and `coqchk`, which re-checks the compiled files).
- The reading of the Rust source that the model expresses: every definition cites the
  lines it models and says what it leaves out. Nothing is extracted from or run against
  the Rust code.
- The models of library types: strings as bytes, `Vec` as `list`, hash and tree maps as
  association lists, stable sort, IEEE-754 decoding (`Base.v`, `Json.v`, `F64.v`).
- Axioms: none. `Print Assumptions` beside every theorem of `Prop*.v` prints "Closed
  under the global context". `coqchk` also lists the seven constants
  `Coq.ssr.ssrunder.Under_rel.*` of the standard library, which enter because loading
  `Lia`/`ZArith` loads the ssreflect plugin's support file; no theorem depends on them.
- No section-less `Variable`/`Hypothesis`, functor, module type, unsafe flag or plugin is
  used. External components (glob matching, URL parsing, Rego, jq, path canonicalisation)
  appear as universally quantified function arguments.

## Where the code does not meet the English property

Each is a theorem `..._refuted` giving a concrete witness.

| theorem | what happens |
|---------|--------------|
| C02_no_stats_refuted | with `--no-stats` the fail-on gate never fails the run |
| C03_filtered_template_refuted | filtering `template_attribute` findings makes seen templates uncovered |
| C06_namespace_boundary_refuted | a template `a.b` matches `a.bc` (no dot boundary) |
| C05_template_refuted | a required template attribute of an entity is always reported as missing from the resource, although the check of a signal's own attributes knows templates |
| C07_exponential_histogram_refuted | attributes of exponential histogram data points are never checked |
| C12_order_insensitive_refuted | numbers that round to the same double keep their input order |
| C46_empty_enum_refuted | an enum without members accepts every value |
| C10_chain_refuted | rename chains across versions are not followed |
| C10_all_section_refuted | renames in the `all` section are ignored |
| C11_metric_attributes_refuted, C11_all_section_refuted | merging a parent drops its metric-attribute renames and its `all` section for a version both have |
| C11_ambiguous_parent_refuted | a name renamed twice in a version: first wins alone, last wins after a merge |
| C08_published_refuted | an unchanged schema diffed against its own published file reports renames without a note as new |
| C09_printed_summary_refuted | the printed diff summary counts each rename twice and omits uncategorized changes |
| C49_definition_reader_refuted | an unstructured deprecation written by weaver is rejected when read as a definition |
| C15_extend_fatal_refuted | adding errors to a result that is already fatal drops them |
| C18_host_boundary_refuted | a rule for `https://github.com` also sends its token to `https://github.com.evil.example` |
| C18_request_url_refuted | a release asset download sends the token to hosts no rule covers |
| C19_round_trip_refuted | the local folder `a[b]` is read back as folder `a` |
| C19_parts_ignored_refuted | `model[registry]` ignores the sub-folder; `https://user@host/repo.git` is read as repository `https://user` at refspec `host/repo.git` |
| C50_unpack_inside_refuted | a `.tar.gz` entry `root/../../.bashrc` is written outside the target directory |
| C51_nested_sub_folder_refuted | archive sub-folder `a/b` unpacks nothing, without an error |
| C17_invalid_path_refuted | a registry path in `.weaver.toml` that does not parse is ignored and the default registry used |
| C17_malformed_section_refuted | one mistyped value (`fail_on = "warning"`) silently drops the whole command section |
| C20_http_scheme_refuted, C20_name_with_scheme_refuted, C20_version_with_slash_refuted | name and version do not determine an `http:` URL; a name with a scheme or a version with a slash is not read back |
| C21_prefix_empty_refuted, C21_comment_blank_prefix_refuted | with a blank prefix, leading blank lines of a comment are dropped |
| C21_line_limit_refuted | a line limit smaller than indentation and prefix underflows: panic in debug builds, limit ignored in release builds |
| C22_sanitize_legal_refuted | a non-ASCII letter before the first replaced character stays in a Prometheus name |
| C22_suffix_once_refuted, C22_underscore_runs_refuted | `requests_total` becomes `requests_total_total`; `a..b` becomes `a__b` |
| C24_opt_in_text_refuted | sorting attributes fails when one has the valid level `{opt_in: text}` |
| C25_any_refuted | types `any` and `template[any]` satisfy none of the type tests and have no instantiated type |
| C25_double_enum_refuted | an enum of doubles 1.0 and 2.5 is inferred as `string`, one of 1.0 and 2.0 as `int` |
| C25_bool_enum_refuted | an enum of booleans has no type |
| C56_mixed_acronym_refuted | acronyms with punctuation (`.NET`, `CI/CD`) never apply |
| C26_unreadable_file_refuted | a `weaver.yaml` found next to the templates that cannot be read is ignored |
| C26_acronyms_refuted | with acronyms `API`, `Api` in the package, the project file's `api` is not the one used |
| C58_same_name_refuted | two renderings with the same file name: the surviving one depends on thread scheduling |
| C58_single_array_result_refuted | a filter with one result that is an array is applied to the elements of the array |
| C59_inside_output_refuted | file names with `..` and absolute names leave the output directory |
| C60_listing_refuted | a file in a sub-directory of an embedded template directory is listed by its bare name and cannot be loaded |
| C28_unclosed_refuted | everything after a snippet that is not closed is silently removed from the file |
| C28_idempotent_refuted | a generated snippet with an end marker in it grows at each update |
| C62_malformed_refuted | a directive with a typing error is taken as text; the snippet silently stays out of date |
| C62_weaver_prefix_refuted | any comment starting with `weaver`, such as `<!-- weaverbird -->`, is a directive and removes text |
| C62_tags_refuted | only the first of several tags of a directive is used |
| C63_crlf_refuted | a CRLF file passes the dry run although an update rewrites it |
| C63_last_line_refuted | a file without snippets and without final line end fails the dry run |
| C29_span_kind_refuted | a span without a kind, or an attribute referenced twice, is only warned about |
| C29_list_of_maps_refuted | the fields of a `map[]` body are never validated |
| C29_version2_refuted | version 2 files skip group validation: empty `one_of`, examples of the wrong type are accepted silently |
| C64_int_for_double_refuted | `examples: [1, 2]` is rejected for a double attribute |
| C64_empty_refuted | `examples: []` is rejected as being of the wrong type for string attributes |
| C64_old_form_refuted | the older form of array examples is an error for bodies and templates although the code says it is allowed |
| C65_file_names_refuted | `a.x/f.yaml` and `a.y/f.yaml` give their attribute definitions the same group id |
| C65_ids_refuted | an attribute group `metric.m` and a metric `m` get the same group id |
| C66_numeric_version_refuted | `version: 2` without quotes is ignored and the file read as version 1 |
| C66_unknown_format_refuted | an unknown file_format is accepted beside `version: "1"` |
| C32_no_unreferenced_entry_refuted | an attribute referenced only by internal groups stays in the catalog of the resolved schema |
| C33_prefix_flag_refuted | `prefix: true` on a reference is ignored when the attribute is inherited as a definition |
| C68_refinement_kind_refuted | a metric refinement of a span group is accepted; the InvalidRefinement error is never reported |
| C38_any_order_refuted | incompatible versions met while resolving are ignored in silence; the first dependency listed decides which version is used for upgrades |
| C38_same_version_refuted | http and https spellings of one version replace each other depending on the order of dependencies |
| C39_cache_refuted | a published dependency found in the cache does not have its own dependencies checked for version conflicts, so loading succeeds with a warm cache and fails with a cold one |
| C70_hidden_root_refuted | a registry given as '.', '..', './' or any path whose last name starts with a dot is read as empty, without a word |
| C70_manifest_path_refuted | a registry given as the path of a definition manifest not called manifest.yaml panics on a slice beyond the end of the path |
| C70_trailing_slash_refuted | a git or archive sub-folder written with a trailing slash makes every reported path lose its first character |
| C40_unmatched_refuted | When two dependencies hold the same definition under different ids, only the first copy stays, and a pattern naming the other id is reported as unmatched although it names a definition. |
| C40_unmatched_order_refuted | Which patterns are reported as unmatched depends on the order of the dependencies. |
| C40_refinement_refuted | Refinements published by a dependency cannot be imported; the pattern naming one is reported as unmatched. |
| C40_unreported_refuted | A published metric named metric.m, once imported, also answers to m, so a pattern m that matches no definition is not reported. |
| C72_imported_refuted | A published metric and event of one name exchange their association origins on import: the metric receives those of the event, the event none. |
| C72_resolution_refuted | As a consequence resolution fails with an unresolved entity although the published reference says where the entity is. |
| C72_replaced_refuted | A published signal replaced by a newer version of its registry, where its group id differs, loses the origins of its entities: resolution reports an unresolved entity. |
| C34_masked_refuted | A group that extends a group which does not exist, and includes two groups with an attribute in common, is reported for the attribute only; the missing group is not named. |
| C34_refs_masked_refuted | A reference without a definition is not named when two unrelated dependencies offer another referenced attribute: resolution stops at that conflict. |
| C36_imported_groups_refuted | Two imported attribute groups with one id are not reported: groups without lineage are not counted. |
| C36_internal_refuted | Two internal groups of the files with one id are not reported, although other groups include one of them. |
| C36_kinds_refuted | An event and an entity of one name are reported as duplicates although the namespaces are apart by kind. |
| C36_imported_kinds_refuted | A metric and an entity of one name in a published registry are reported as duplicates when both are imported. |
| C37_file_order_refuted | Whether a registry resolves depends on the order of its definitions: with attributes inherited from two incompatible dependencies, a local definition of the attribute settles the conflict if it comes first, and otherwise resolution fails as ambiguous. |
| C37_local_order_refuted | Two definitions other than attribute groups that define one attribute id differently are not reported, and references get whichever comes first. |
| C37_extends_order_refuted | A definition that extends one offered by two dependencies silently takes the first listed dependency's, even if it is an older version of the same registry. |
| C37_one_version_refuted | Two definitions that extend one definition of a dependency without a semantic version (the placeholder `unknown` is one) fail as ambiguous: the dependency conflicts with itself. |
| C40_level_refuted | An imported definition loses its own requirement level when its attribute comes from a registry in use at a newer version (attribute.rs 111-122 replaces the whole attribute). |
| C40_unversioned_refuted | Two definitions of one dependency without a semantic version that share an attribute cannot be imported together. |
| C35_override_refuted | A span that extends a group and overrides an attribute it inherits changes what references elsewhere mean, if its file is read before the file of the definition; nothing is reported. Files are read in parallel. |
| C35_lineage_refuted | The recorded source of a referenced attribute is the defining group or one that merely inherits it, depending on the order the files are read in. |
| C35_shadow_refuted | A definition that extends one of its own registry gets a dependency's definition of the same id instead, if the local one has itself yet to inherit when it is looked up. |
| C44_reach_refuted | An attribute whose key has an empty segment (`a..b`) is counted in its namespaces, but the sub-namespace listed for it (`a.`) is trimmed back to `a`, so that browsing never shows it. |
| C44_duplicates_refuted | Two registry attributes of the same key are counted as one when browsing; search finds both. |
| C73_segment_refuted | The template for an attribute name is chosen by text prefix: `http.headers.size` gets the template `http.header`. |
| C75_hash_order_refuted | Two metrics with the same attribute, once integer and once double: the inferred definition has one type or the other, depending on the iteration order of a hash map, so two runs over the same telemetry differ. |
| C75_arrival_refuted | The type of an inferred definition is that of the first observation alone: an integer followed by a double is defined as int, the reverse as double. |
| C75_type_refuted | An attribute first observed with a value that cannot be shown (bytes or a map) is defined as a string, and keeps integer examples from later observations. |
| C41_missing_attribute_refuted | Converting to v2: a span, event, metric or attribute group silently loses an attribute whose number is not in the catalog, where an entity gives an error |
| C41_key_twice_refuted | Converting to v2: two groups that define the same key differently give a registry that lists the key twice |
| C77_unlisted_origin_refuted | Converting to v2: an association whose recorded origin is not among the dependencies becomes a reference to a local entity that may not exist |
| C78_collision_refuted | Converting to v2: two attributes of one key with the same hash are numbered in the iteration order of a hash set |
| C79_array_element_refuted | OTLP ingestion: a map inside an array attribute is dropped, so the remaining elements decide the type that is checked |
| C79_no_resource_refuted | Live check of OTLP: a signal sent without a resource is judged against the resource of an earlier sender |
| C80_boolean_example_refuted | Emit: the examples of boolean attributes are ignored, true is always sent |
| C81_template_refuted | Emit then live check: the key sent for a template attribute can be that of another attribute, giving a type mismatch |
| C81_enum_refuted | Emit then live check: an enum of booleans is sent as a boolean and rejected as a type mismatch |
| C81_unnamed_refuted | Emit then live check: an unnamed v1 event is sent under its group id and rejected as a missing event |
| C81_dependency_refuted | Emit then live check, version 2: an attribute of a dependency used by a signal of the registry is rejected as missing |
| C83_endless_refuted | Template view: a schema that is in its own tree of dependencies makes the view recurse without end |
| C83_size_refuted | Template view: each dependency is expanded again inside each registry that lists it, so a chain of n registries gives 2^n copies |
| C83_listed_attribute_refuted | Template view: a dangling reference in the list of attributes of a v2 registry is skipped without an error |
| C83_unlisted_dependency_refuted | Template view: an attribute of a dependency outside the list of dependencies is shown as the registry's own |
| C85_reread_refuted | A finding as the program writes it has the type PolicyFinding, which reading does not know, so no written finding can be read back. |
| C86_lost_refuted | Violations found before resolution are not reported when the resolution then fails. |
| C86_level_refuted | A finding at level information makes `registry check` fail as a violation does. |
| C86_unflagged_refuted | For a registry that is already resolved, policies of the stage before resolution are silently not asked unless --v2 is given. |
| C86_malformed_refuted | One finding that cannot be read hides all the other findings of the same evaluation. |
| C86_generated_refuted | `registry generate` writes its files even when policies object and the command fails. |
| C86_unlisted_refuted | A policy directory that cannot be listed is passed over in silence. |
| C87_place_refuted | a.json and a.yaml in the same directory have the same place among the data documents. |
| C88_poisoned_refuted | a request refused because of a mismatching URL leaves what it found in the cache under the other URL, and later requests for that URL get it |
| C88_warnings_refuted | non-fatal errors are reported with the first request for a URL only |
| C88_dependency_warnings_refuted | non-fatal errors of resolving a dependency are never reported |
| C88_cycle_refuted | two schema URL overrides whose registries depend on one another's URLs make resolution recurse without end |
| C88_evicted_refuted | a registry with 32 dependencies is resolved, and then its first dependency has been evicted from the cache and cannot be requested if it has only a local path |
| C88_override_refuted | an override whose registry has another URL is refused when requested, and silently used as a dependency |
| C89_name_ignored_refuted | a dependency that gives both a name and a schema URL is identified by the URL alone; a contradicting name is silently ignored |
| C90_bare_manifest_refuted | a package opened as `manifest.yaml` from its own directory is looked for at `/resolved.yaml`, the root of the file system |
| C90_git_root_refuted | a package with a relative URI at the root of a git repository is looked for at `/resolved.yaml` outside the clone |
| C90_unreadable_uri_refuted | a publication whose URI cannot be parsed is silently loaded as if it were a definition registry |
| C90_directory_refuted | packaging with an unversioned dependency is refused after the output directory has been created |
| C90_overwrite_refuted | interrupting a run over an older package leaves the old manifest beside a truncated new schema |
| C90_full_disk_refuted | the last buffered write is not checked, so on a full disk packaging reports success with a truncated file |
| C91_attribute_groups_refuted | The V2 statistics count attribute groups but always report none of them as stable, deprecated or having a note. |
| C91_warnings_refuted | `registry stats` returns no warnings, whatever warnings loading the registry gave. |
| C92_unnameable_refuted | A metric whose name starts with a digit (or holds any character outside letters, digits, `.`, `_`, `-`) cannot be shown by any snippet of a version 2 registry. |
| C92_provenance_refuted | The context of a version 2 snippet drops the provenance of the signal and of its attributes, which templates get otherwise. |
| C92_parameters_refuted | `omit_requirement_level`, `full` and `metric_table` are accepted in directives of version 2 registries and change nothing. |
| C93_locally_refuted | A field that an extended group set on a reference is listed as `locally_overridden_fields` of the extending group, which does not mention the attribute. |
| C93_two_bases_refuted | With two bases defining the same attribute the definition of the second counts, but the fields of the first are listed as inherited from the second. |
| C93_unmentioned_role_refuted | The role and the annotations of an inherited attribute that the group does not mention are missing from `inherited_fields`. |
| C93_stale_entry_refuted | A group that inherits a reference with a prefix keeps a lineage entry under the name without the prefix, which none of its attributes has. |
| C94_complete_refuted | the compact answer of the MCP live_check tool is empty for a log whose event is not in the registry, and leaves out data points and links |
| C94_count_refuted | one span with two events that have findings counts as two samples with findings |
| C94_as_command_refuted | sent a resource and a metric of that resource, the MCP tool reports the resource's attribute missing; the command does not |
| C95_emitted_refuted | Findings are emitted as OTLP log records before the finding modifier runs: a filtered finding is still exported, and an overridden one with its old level. |
| C95_context_refuted | A finding context that is a plain string, or a scalar under an empty key, is missing from the log record; {"a":{"b":..}} and {"a.b":..} come under the same key. |
| C96_stdin_refuted | Live check on text from standard input stops at the first blank line: a file that fails with exit code 1 passes when piped in. |
| C97_counts_refuted | a version 2 metric refinement whose base id is that of an attribute group is reported by no check; computing the statistics and converting the registry then panic on the missing metric name |
| C97_convert_refuted | a version 1 event with a prefix and no name passes every check, and the registry cannot be converted to version 2 |
| C98_no_crash_refuted | interactive search: typing a word that matches nothing and pressing Down twice panics in a build with overflow checks (`result_count - 1`) |
| C98_selected_refuted | in a release build the same keys leave a selection index although nothing is listed |
| C98_once_refuted | `registry search` on the command line prints a name as often as the catalog holds it, so a refined attribute is printed several times |
| C99_limit_refuted | a wrapped line can be one longer than the line length: the space before its last word is not counted |
| C99_words_refuted | wrapping splits a word from the punctuation after a link or code span |
| C99_numbers_refuted | a numbered list inside a numbered list continues the outer numbers, and the outer list starts again at 1 |
| C99_nested_refuted | a nested list is indented twice, four columns beyond the text of its item, where Markdown reads no list |
| C99_break_refuted | a hard line break joins the words around it |
| C99_labels_refuted | two links with one label and two targets give two definitions of the label |
| C99_label_refuted | with a line length, a link with emphasis in its label gets a definition for another label |
| C99_heading_refuted | a heading with emphasis or a link in it is wrapped over several lines |
| C99_quote_refuted | in a quote the mark is written before every text, in the middle of the line |
| C99_first_word_refuted | a first word longer than the line length leaves an empty line before it |
| C99_indent_refuted | after a nested list the rest of the outer item is not indented |
| C100_escape_refuted | texts and link targets are written to HTML without escaping |
| C101_slash_refuted | the server trims slashes from the start of every key, so an object whose key begins with a slash cannot be fetched |
| C101_unknown_refuted | a path below /api/v1 that does not exist is answered 200 with the start page of the user interface |
| C101_star_refuted | `--cors-origins " *"` or a star in a list of origins ends the server with a panic |
| C102_root_refuted | An error about the whole document (an unknown top level member, a missing one) has no location, because the empty pointer is refused. |
| C102_number_refuted | Below a key that looks like a number (an example or a member named 404) nothing is located: the component is taken for an index. |
| C102_slash_refuted | A key with a slash is not found, because the escapes of JSON pointers are not undone. |
| C102_empty_refuted | An error under an empty key is shown at the whole mapping. |
| C102_tilde_refuted | An error under a key with a tilde can be shown at the value of another key. |
| C103_pascal_refuted | pascal_case is not idempotent: a.b gives AB and AB gives Ab, so applying the filter to its own result changes names with words of one letter. |
| C103_run_together_refuted | a.1b and a1b have the same name in Pascal and camel case: generated identifiers may clash. |
| C103_separator_refuted | a.b and a_b have the same name in every case convention: generated identifiers may clash. |
| C104_yaml_refuted | toyaml replaces the quotes of single-quoted YAML scalars by \u0027, an escape YAML knows only between double quotes: the text 'true' is written as a plain scalar that stands for another text. |
| C104_ansi_refuted | ansi filters end with a reset of all styles: in a bold text with a red part, what follows the red part is not bold. |
| C105_off_refuted | the schema compatibility check has no schema to check: it passes whatever was removed. |
| C105_version_refuted | a schema without a version, or with a lower major version than the released one, may lose properties and still passes the compatibility check. |
| C105_recursive_refuted | the compatibility check follows a definition once only: what is removed below a recursive use is not reported. |
| C105_sibling_refuted | the compatibility check does not look at what stands beside a $ref. |
| C105_dot_refuted | the compatibility check takes the property a.b for the property b of a. |
| C106_servers_refuted | the MCP server starts on a registry with errors, says nothing about them and exits with 0; the HTTP server logs them and exits with 0. |
| C106_diff_refuted | registry diff drops everything reported on opening the two registries, even in future mode, where it makes the other commands fail. |
| C106_warnings_refuted | stats, diff and mcp drop the warnings of loading a registry. |
| C106_output_refuted | resolve, emit, search and live-check do their work on a registry with errors; only the exit code tells. |
| C106_masked_refuted | update-markdown drops the messages of loading when a file fails, and search does when there is no terminal. |
| C107_level_refuted | a signal imported from a published registry loses its requirement level (recommended / opt_in) |
| C107_group_refuted | a public attribute group imported from a published registry gets no visibility, so the importing registry does not publish it |
| C107_span_type_refuted | a published span type that begins with 'span.' loses that prefix when it is imported and published again |
| C108_template_refuted | a badly formed attribute name is not reported when it merely begins with the name of a template attribute |
| C108_namespace_refuted | a new attribute in a namespace that only template attributes of the registry are in is not reported as extending it |
| C109_ignore_refuted | `ignore_code_generation_annotations: false` switches the annotation filter off, as true does: only the presence of the option is tested |
| C109_entity_attributes_refuted | the stability, deprecation and annotation options are not applied to the identity and description attributes of version 2 entities, although documented for nested attributes |
| C109_namespace_refuted | an attribute without a dot is in the root namespace `other` in version 1 and in one of its own name in version 2 |
| C109_annotation_refuted | one attribute whose `code_generation` annotation is not a mapping makes every selection of the registry fail |
| C110_help_refuted | an annotated default that is not of the type of its setting (port "70000") is accepted: the help shows it, the command uses 0 |
| C110_twice_refuted | two flags may name the same setting; the one declared later silently decides |
| C111_shared_refuted | Two configured repositories whose addresses share the last two segments use one checkout, whose remote is set only once: the checks of the second run on the tree of the first, and pass. |
| C111_slash_refuted | A branch with a '/' cannot be asked for: url@feature/x is reported as an unknown repository. |
| C111_quoted_refuted | A check that writes {weaver} within double quotes gets the single quotes as part of the word. |
| C111_fallback_refuted | With WEAVER_BIN naming a file not called weaver, a check that calls weaver runs a released one from the search path. |
| C111_relative_refuted | With a relative WEAVER_BIN the search path entry is relative to the checkout, and a released weaver is run. |
| C111_timeout_refuted | A check that ends just before its deadline, between the look at the process and the look at the clock, is reported as timed out. |
| C112_behind_refuted | An export that gets into the channel behind a stop is answered with success and never checked. |
| C112_slow_refuted | With --output http, if the rest of the check takes more than 60 s the request to stop is answered 504 and its slot stays taken: the report is then sent to nobody and not printed, and the command succeeds. |
| C112_left_refuted | With --output http, a client that disconnects while waiting for the report leaves the command waiting for ever: no signal ends it, only another POST to /stop. |
| C112_twice_refuted | A second POST to /stop makes the first be answered 500 "Report generation failed" although the report is made. |
| C112_unformatted_refuted | When the report cannot be made, the answer 500 written for that case is never given: the slot is shared, so the channel is not dropped, and the process ends without an answer. |
| C112_early_refuted | A POST to /stop that arrives between the start of the receiver and set_expect_report is answered without the report, which is printed. |
| C112_unanswered_refuted | Without --output http the process may end before the answer to /stop is sent. |
| C112_unbound_refuted | When the admin port cannot be bound the live check ends at once with success, having checked nothing; the error is dropped. |
| C112_inactivity_refuted | The receiver announced to stop after N seconds of inactivity may run for nearly 2N. |
| C113_top_refuted | an archive with a file that is in no folder cannot be used at all, whatever sub-folder is asked for: the file is written onto the target directory |
| C113_missing_refuted | a sub-folder that is not in the archive gives an empty directory instead of the error a git repository gives |
| C113_merged_refuted | the files of several top folders are put into one directory, the later ones over the earlier ones |
| C113_leftover_refuted | a downloaded archive is saved in the directory it is unpacked into and stays there as a file of the registry |
| C113_query_refuted | a url whose query ends in `.zip` is taken for an archive, downloaded, and refused because its path has no such ending |
| C114_lost_refuted | a check that fails loses all samples checked before it in report mode; streaming has written them |
| C114_disabled_refuted | with --no-stats a streamed check ends with a line for the disabled statistics, a report has none |
| C114_stale_refuted | with --no-stats, JSON lines and no samples the file of an earlier run stays in the output directory |
| C114_gate_refuted | with --no-stats the exit code is 0 whatever the findings (a warning is logged) |
| C114_own_resource_refuted | a signal that comes with its own resource is checked without it unless a resource sample came before |
| C114_format_refuted | names of formats are compared without case only with the built-in ones: a user's template `json` overrides `json` and not `JSON`, and `ANSI` is an error |
| C115_report_refuted | the samples of a report are refused as input as soon as one of them, other than an attribute, has a finding: findings are written with `type: PolicyFinding`, which their reader rejects |
| C115_exponential_refuted | data points of an exponential histogram in JSON are always read as those of a plain histogram; scale, buckets and zero count are lost |
| C115_null_refuted | `attributes: null` and the like make the whole document unreadable, although the field may be left out |
| C115_extra_refuted | an unknown key in a finding of a span, log, metric or resource makes the document unreadable; in a finding of a data point it is skipped |
| C115_guess_refuted | a histogram point with a `value` is read as a number; one with an infinite bound is read back as an exponential histogram |
| C116_validate_refuted | a crate whose Cargo.toml cannot be parsed is printed on stdout and then counts as compliant |
| C116_fix_pinned_refuted | one installation already fixed lets the task pass over another that is still piped to a shell, such as one for a newer version of dist |
| C116_history_vacuous_refuted | a start version above all tags makes the history task pass without a single check |
| C116_history_skipped_refuted | tags with anything but letters before the version, such as release-1.30.0, are never checked |
| C116_unknown_refuted | `cargo xtask` with a misspelled task prints the help and exits with 0 |
| C117_read_back_refuted | a member of an enumeration deprecated with a text is published as `reason: unspecified`, which the reader of members refuses: the whole published schema cannot be loaded |
| C117_format_refuted | the `file_format` of a resolved schema is read as any text and never compared with resolved/2.0 |
| C118_unknown_refuted | `weaver diagnostic init` with an unknown target writes nothing and reports success with exit code 0 |
| C118_customised_refuted | running `weaver diagnostic init` again silently replaces templates the user has changed |
| C118_override_refuted | a local directory with one file for a diagnostic format hides all the other templates of that format |
| C119_hidden_refuted | several errors of one definition file reach the resolver as one collection inside a wrapper and are reported as a single diagnostic |
| C119_hidden_program_refuted | the program turns any collection of errors of the resolver into one diagnostic, whatever its number of errors |
| C119_warning_refuted | a collection of warnings that is wrapped has no severity and makes the command fail |
| C119_similar_refuted | of several templates failing with the same message only the first one is named |
| C120_body_refuted | the body of a received log is reported in Rust's debug notation: a body `started` becomes `StringValue("started")` |
| C120_number_refuted | a point whose value is NaN or infinite is reported with a null value, like one without value |
| C120_kind_refuted | a span received without a kind is reported as internal |
| C121_slash_refuted | the files of a GitHub release whose tag contains a slash (`rel/1.0`) cannot be fetched: the tag is cut at its first slash and another release is asked for |
| C121_query_refuted | the address of a file of a GitHub release with a query (`…/m.yaml?download=1`) cannot be fetched: the query is taken as part of the file name |
| C121_fresh_refuted | a process that has seen the description of a release never asks again: a file added or replaced later is not found |
| C121_blank_line_refuted | a helper command that prints a blank line before its token gives no token |
| C122_empty_ids_refuted | a level override with `ids = []` never applies, while `sample_names = []` restricts nothing |
| C123_beside_refuted | `a.rs` visited after `a/b.rs` replaces the module `a` with its sub-modules, so `b` is lost |
| C123_doc_refuted | `//!!` becomes `//!` when files are combined, which is still an inner doc comment |
| C123_warns_refuted | a `dist` directory without index.html makes the build script fail, although the check only means to warn |
| C124_default_names_refuted | the default name drops the directory of the template: `java/Attributes.md.j2` and `go/Attributes.md.j2` both write `Attributes.md` |
| C124_no_name_refuted | a template named `.j2` gets the empty name, so the output directory itself is written to |
| C124_same_success_refuted | a `file_name` that cannot be rendered fails the generation of files while the same templates render to one text |
| C125_space_refuted | `OTEL_RESOURCE_ATTRIBUTES="a=b, service.name=mine"` is not recognised as naming the service, so `weaver` is added |
| C125_empty_refuted | an empty `OTEL_SERVICE_NAME` counts as set, so the default name `weaver` is left out |
| C73_two_answers_refuted | Of two templates with the same key, asking for the key gives the last one and asking for a name gives the first. |
| C126_apart_refuted | the groups `registry.user_agent` and `registry.userAgent` get the same page, so the later one replaces the earlier |
| C126_misspelt_refuted | arguments of the Prometheus filters that they do not know are ignored: with `translation_stategy=...` the names of all strategies are given |
| C126_unit_in_name_refuted | for the unit `By/s` the unit filter gives `By/s`, the name filter the suffix `bytes_per_second` |
