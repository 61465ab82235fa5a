# Which functions of the code the model covers

Generated from the citations in the comments of the model. A function counts as modelled
when a comment of a model or specification file cites lines of it. File names that occur
in several crates are told apart by their path only where the comment gives one, so a
citation may be counted for namesakes as well. Test modules and the generated gRPC stubs
are left out. A number in brackets is the line of the function.

| file | modelled in | functions modelled | functions not modelled |
|------|-------------|--------------------|------------------------|
| build.rs | - | 0 | main (7), timestamp (35), is_package_lock_stale (41), is_ui_stale (51), check_ui (73) |
| crates/weaver_checker/src/finding.rs | JinModel.v, LiveModel.v, PolicyModel.v | 5 | fmt (181), id (203) |
| crates/weaver_checker/src/lib.rs | GatherModel.v, LiveModel.v, PolicyModel.v, ServeModel.v | 18 | policy_package_count (488) |
| crates/weaver_codegen_test/build.rs | BuildModel.v | 4 | print_logs (219), process_error (230) |
| crates/weaver_common/src/diagnostic.rs | GatherModel.v, ResultModel.v | 2 | enable_future_mode (19), disable_future_mode (25), is_future_mode_enabled (30), from (80), is_warning (129), new (137), empty (143), extend (149), extend_from_vec (155), log (160), len (168), into_inner (174), from_errors (179), from_error (186), is_empty (206), capture_diag_msgs_into (226), combine_diag_msgs_with (236) |
| crates/weaver_common/src/error.rs | GatherModel.v, PolicyModel.v | 1 | format_errors (44) |
| crates/weaver_common/src/http_auth.rs | FetchModel.v, VdirModel.v | 5 | empty (89) |
| crates/weaver_common/src/ordered_float.rs | F64.v | 3 | deref (25), deref_mut (32), fmt (38), fmt (44), partial_cmp (64), from (103), from (110), schema_name (116), schema_id (120), json_schema (124), inline_schema (131) |
| crates/weaver_common/src/result.rs | ResultModel.v | 11 | capture_non_fatal_errors (33), inspect (156) |
| crates/weaver_common/src/test.rs | - | 0 | drop (38), new (44), port (69), url (73), from (84), port (91), relative_path_to_url (97), check_auth (102), from (125), port (138), base_url (144), relative_path_to_url (150), mock_github_handler (184), count_requests (230), start (242), base_url (260), request_count (266) |
| crates/weaver_common/src/vdir.rs | ArchiveModel.v, FetchModel.v, VdirModel.v | 20 | enable_git_credentials (102), is_git_credentials_enabled (108), is_commit_sha (293), try_from (424), try_from (439), from (447), try_new (607), checkout_sha (783), path (1103), vdir_path_str (1109), create_tmp_repo (1129) |
| crates/weaver_config/src/auth.rs | - | 0 | from (42), build_resolver (53) |
| crates/weaver_config/src/effective.rs | ConfigModel.v | 7 | - |
| crates/weaver_config/src/lib.rs | ConfigModel.v, ServeModel.v | 4 | - |
| crates/weaver_config/src/live_check.rs | CommandModel.v, ListenModel.v, LiveModel.v, MacroModel.v, ReportModel.v, RulesModel.v | 5 | as_finding_threshold (37) |
| crates/weaver_config/src/overrides.rs | - | 0 | config_only_fields (67), excluded_args (78), field_mappings (85), apply_registry_overrides (90) |
| crates/weaver_diff/src/lib.rs | DiffModel.v, ServeModel.v | 4 | diff_output (20), diff_dir (43), canonicalize_json_string (136) |
| crates/weaver_emit/src/attributes.rs | EmitModel.v | 1 | get_attribute_name_value (16), get_attribute_name_value_v2 (27) |
| crates/weaver_emit/src/lib.rs | EmitModel.v, ServeModel.v | 2 | from (63), init_tracer_provider (70), init_stdout_tracer_provider (86), init_meter_provider (99), init_stdout_meter_provider (118), init_logger_provider (134) |
| crates/weaver_emit/src/logs.rs | EmitModel.v | 3 | - |
| crates/weaver_emit/src/metrics.rs | EmitModel.v | 3 | - |
| crates/weaver_emit/src/spans.rs | EmitModel.v | 3 | - |
| crates/weaver_forge/src/config.rs | CaseModel.v, CodeModel.v, ForgeModel.v | 11 | from_key_value_pairs (125), from (163), default_filter (222), matches (233), default (328), default_bool (335), fmt (384), default (394), try_from_loader (527), template_matcher (602) |
| crates/weaver_forge/src/debug.rs | GatherModel.v | 2 | - |
| crates/weaver_forge/src/error.rs | GatherModel.v | 2 | fmt (46), format_details (56), compound (325), from (346), jinja_err_convert (354) |
| crates/weaver_forge/src/extensions/ansi.rs | HelperModel.v | 37 | - |
| crates/weaver_forge/src/extensions/case.rs | CaseModel.v | 2 | add_filters (10), case_converter (32), lower_case (47), upper_case (52), title_case (57), camel_case (62), pascal_case (67), snake_case (72), screaming_snake_case (77), kebab_case (82) |
| crates/weaver_forge/src/extensions/code.rs | CodeModel.v | 5 | add_filters (19) |
| crates/weaver_forge/src/extensions/otel.rs | CaseModel.v, HelperModel.v, OtelModel.v, PageModel.v | 34 | add_filters (22), add_tests (47) |
| crates/weaver_forge/src/extensions/prom.rs | PromModel.v | 8 | - |
| crates/weaver_forge/src/extensions/util.rs | HelperModel.v, OtelModel.v | 6 | add_filters (14), add_functions (27), regex_replace (106) |
| crates/weaver_forge/src/file_loader.rs | ForgeModel.v, InitModel.v | 8 | try_from_path (38), root (181) |
| crates/weaver_forge/src/filter.rs | - | 0 | new (19), apply (26), fmt (36) |
| crates/weaver_forge/src/formats/html.rs | FormatModel.v | 8 | default_inline_code_snippet (34), default_block_code_snippet (38), default (43), new (83), try_new (114) |
| crates/weaver_forge/src/formats/markdown.rs | FormatModel.v, FormatSpec.v | 10 | take_leftover_newlines (93), add_leftover_newlines (100), set_line_prefix (122), skip_line_prefix_on_first_line (127), reset_line_prefix (132) |
| crates/weaver_forge/src/formats/mod.rs | FormatModel.v | 8 | new (100) |
| crates/weaver_forge/src/jq.rs | ForgeModel.v | 3 | semconv_prelude (18), serde_to_val (24), val_to_serde (29), load_errors (195), compile_errors (211), report_io (221), report_lex (229), report_parse (237), report_compile (245) |
| crates/weaver_forge/src/lib.rs | ForgeModel.v, RenderModel.v, ReportModel.v, ServeModel.v | 17 | new (128), fmt (138), get_value (145), enumerate (151), try_into (206), prepare_jq_context (617) |
| crates/weaver_forge/src/output_processor.rs | ForgeModel.v, ReportModel.v | 12 | from_optional_file (47), serialize (87), is_line_oriented (108), from_template_config (241), generate_snippet (264), is_line_oriented (362) |
| crates/weaver_forge/src/registry.rs | LiveModel.v, SnippetModel.v, ViewModel.v | 2 | - |
| crates/weaver_forge/src/v2/entity.rs | ViewModel.v | 1 | local (67), refs (104) |
| crates/weaver_forge/src/v2/provenance.rs | ViewModel.v | 1 | is_empty (32) |
| crates/weaver_forge/src/v2/registry.rs | LiveModel.v, ViewModel.v | 3 | - |
| crates/weaver_infer/src/lib.rs | InferModel.v, ServeModel.v | 17 | - |
| crates/weaver_live_check/src/advice/deprecated_advisor.rs | LiveAdvisors.v, OtlpModel.v | 3 | - |
| crates/weaver_live_check/src/advice/enum_advisor.rs | LiveAdvisors.v | 1 | - |
| crates/weaver_live_check/src/advice/mod.rs | LiveModel.v, OtlpModel.v | 8 | - |
| crates/weaver_live_check/src/advice/rego_advisor.rs | NamingModel.v, PolicyModel.v | 3 | - |
| crates/weaver_live_check/src/advice/stability_advisor.rs | LiveAdvisors.v, OtlpModel.v | 1 | - |
| crates/weaver_live_check/src/advice/type_advisor.rs | LiveAdvisors.v, LiveModel.v, OtlpModel.v | 20 | from (95), node (239), node (249) |
| crates/weaver_live_check/src/finding_modifier.rs | LiveModel.v, RulesModel.v | 7 | - |
| crates/weaver_live_check/src/generated/attributes.rs | OtlpModel.v | 2 | - |
| crates/weaver_live_check/src/generated/entities.rs | DetectModel.v | 2 | - |
| crates/weaver_live_check/src/generated/events.rs | OtlpModel.v | 1 | - |
| crates/weaver_live_check/src/json_file_ingester.rs | JinModel.v | 1 | new (19) |
| crates/weaver_live_check/src/json_stdin_ingester.rs | JinModel.v | 1 | new (17), default (23) |
| crates/weaver_live_check/src/lib.rs | InferModel.v, JinModel.v, LiveModel.v, OtlpModel.v, PolicyModel.v, ServeModel.v | 23 | - |
| crates/weaver_live_check/src/otlp_logger.rs | DetectModel.v, OtlpModel.v | 8 | build_resource (55), new_grpc (71), new_stdout (90), force_flush (143), shutdown (150) |
| crates/weaver_live_check/src/sample_attribute.rs | JinModel.v, LiveAdvisors.v, LiveModel.v, OtlpModel.v, TextModel.v | 5 | - |
| crates/weaver_live_check/src/sample_instrumentation_scope.rs | JinModel.v, LiveModel.v, OtlpModel.v | 1 | as_sample_ref (38), entity_type (42) |
| crates/weaver_live_check/src/sample_log.rs | JinModel.v, LiveModel.v, OtlpModel.v | 1 | - |
| crates/weaver_live_check/src/sample_metric.rs | JinModel.v, LiveModel.v, OtlpModel.v | 5 | as_sample_ref (64), entity_type (68), as_sample_ref (124), entity_type (128), as_sample_ref (199), entity_type (203), as_sample_ref (244), entity_type (248) |
| crates/weaver_live_check/src/sample_profile.rs | JinModel.v, LiveModel.v, OtlpModel.v | 1 | as_sample_ref (35), entity_type (39) |
| crates/weaver_live_check/src/sample_resource.rs | JinModel.v, LiveModel.v, OtlpModel.v | 1 | as_sample_ref (26), entity_type (30) |
| crates/weaver_live_check/src/sample_span.rs | JinModel.v, LiveModel.v | 2 | as_sample_ref (68), entity_type (72), as_sample_ref (114), entity_type (118), as_sample_ref (150), entity_type (154), run_live_check (160) |
| crates/weaver_live_check/src/stats.rs | CommandModel.v, LiveModel.v | 19 | - |
| crates/weaver_live_check/src/text_file_ingester.rs | TextModel.v | 1 | new (20) |
| crates/weaver_live_check/src/text_stdin_ingester.rs | TextModel.v | 1 | new (16), default (22), ingest (28), new (42) |
| crates/weaver_macros/src/lib.rs | - | 0 | weaver_command (26), derive_weaver_command (53) |
| crates/weaver_macros/src/weaver_command.rs | MacroModel.v | 11 | derive (114), parse_struct_attr (160), parse_fields (212), gen_excluded_args (681), section_to_config_ident (754) |
| crates/weaver_mcp/src/lib.rs | - | 0 | default (51), fmt (67), run (85), run_with_config (101), run_async (111) |
| crates/weaver_mcp/src/service.rs | McpModel.v, SearchModel.v | 7 | new (58), get_info (225), default_limit (257), from (275), from (297), get_attribute (420), get_metric (435), get_span (451), get_event (466), get_entity (481), browse_namespace (544) |
| crates/weaver_otel_schema/src/lib.rs | - | 0 | from (34), try_from_file (59) |
| crates/weaver_resolved_schema/src/catalog.rs | ConvertModel.v, ResolveModel.v, StatsModel.v | 1 | new (62), root_attribute (76), root_attribute_definition (85), count_attributes (94), attributes (99), attribute (105) |
| crates/weaver_resolved_schema/src/error.rs | GatherModel.v | 2 | - |
| crates/weaver_resolved_schema/src/lib.rs | - | 0 | new (92) |
| crates/weaver_resolved_schema/src/lineage.rs | ResolveModel.v, Resolved.v | 20 | is_empty (182), add_attribute_lineage (515), has_attribute (521), provenance (533) |
| crates/weaver_resolved_schema/src/registry.rs | ConvertModel.v, ImportModel.v, LiveModel.v, ResolveModel.v, Resolved.v, StatsModel.v | 9 | import_attributes_from (499) |
| crates/weaver_resolved_schema/src/v2/attribute.rs | OtelModel.v, PubModel.v, ResolveModel.v, Resolved.v | 2 | common (60) |
| crates/weaver_resolved_schema/src/v2/attribute_group.rs | - | 0 | id (58), common (61) |
| crates/weaver_resolved_schema/src/v2/catalog.rs | ConvertModel.v, StatsModel.v | 3 | from (29), attribute_key (99), attribute (105) |
| crates/weaver_resolved_schema/src/v2/entity.rs | ImportModel.v, PubModel.v, Resolved.v | 2 | local (63), id (175), common (178) |
| crates/weaver_resolved_schema/src/v2/event.rs | - | 0 | id (87), common (90) |
| crates/weaver_resolved_schema/src/v2/metric.rs | - | 0 | id (98), common (102) |
| crates/weaver_resolved_schema/src/v2/mod.rs | ConvertModel.v, ImportModel.v, PubModel.v, Resolved.v, SchemaDiffModel.v | 12 | stats (71), diff (81), registry_diff (91), registry_attribute_diff (109), diff_signals (801) |
| crates/weaver_resolved_schema/src/v2/provenance.rs | PubModel.v, Resolved.v | 1 | fmt (47) |
| crates/weaver_resolved_schema/src/v2/refinements.rs | - | 0 | stats (44) |
| crates/weaver_resolved_schema/src/v2/registry.rs | ConvertModel.v, ImportModel.v, LiveModel.v, PubModel.v, ResolveModel.v, Resolved.v, StatsModel.v | 1 | - |
| crates/weaver_resolved_schema/src/v2/span.rs | - | 0 | id (96), common (99) |
| crates/weaver_resolved_schema/src/value.rs | - | 0 | from_f64 (35) |
| crates/weaver_resolver/src/conflict_strategy.rs | - | 0 | resolve_conflict (27) |
| crates/weaver_resolver/src/dependency.rs | ImportModel.v, ResolveModel.v | 11 | lookup_group_summary (107), lookup_entity (115), lookup_group_summary (529), from (535), from (541) |
| crates/weaver_resolver/src/dependency_resolution.rs | ResolveModel.v | 2 | - |
| crates/weaver_resolver/src/error.rs | GatherModel.v | 3 | - |
| crates/weaver_resolver/src/imports.rs | ImportModel.v | 25 | build (221), field (240), import_groups (955), build_globset (1022) |
| crates/weaver_resolver/src/lib.rs | CacheModel.v, LoadModel.v, PolicyModel.v, ResolveModel.v, ServeModel.v | 20 | schema_url_str (54), into_v1 (62), as_v1 (71) |
| crates/weaver_resolver/src/merge.rs | ResolveModel.v | 2 | - |
| crates/weaver_resolver/src/registry.rs | ImportModel.v, LiveModel.v, ResolveModel.v | 19 | resolve_refinement_parent (822) |
| crates/weaver_search/src/lib.rs | SearchModel.v, ServeModel.v | 15 | search_type (391), id (402), brief (413), note (424), is_deprecated (435), stability (446), to_search_result (457) |
| crates/weaver_search/src/types.rs | SearchModel.v, ServeModel.v | 1 | - |
| crates/weaver_semconv/src/any_value.rs | DefModel.v, Resolved.v | 2 | fmt (163), is_required (212), brief (231), note (238) |
| crates/weaver_semconv/src/attribute.rs | DefModel.v, JinModel.v, LiveAdvisors.v, OtelModel.v, PubModel.v, SemTypes.v | 9 | brief (183), note (192), tag (201), fmt (230), is_identifying (261), fmt (371), fmt (470), fmt (497), from (510), from (518), from (526), from (534), fmt (799), from_f64 (811), from_f64s (817) |
| crates/weaver_semconv/src/deprecated.rs | PubModel.v, SchemaDiffModel.v, SemTypes.v | 5 | fmt (234) |
| crates/weaver_semconv/src/entity_association.rs | DefModel.v, SemTypes.v | 1 | - |
| crates/weaver_semconv/src/group.rs | DefModel.v, JinModel.v, PubModel.v, ResolveModel.v, Resolved.v, SemTypes.v | 7 | default (665) |
| crates/weaver_semconv/src/json_schema.rs | LocModel.v | 10 | new_for (34), describe_types (321), raw_yaml (477) |
| crates/weaver_semconv/src/lib.rs | DefModel.v, GatherModel.v, JinModel.v, LoadModel.v, ResolveModel.v, SchemaDiffModel.v, ServeModel.v | 4 | schema_name (640), schema_id (644), json_schema (648), schema (658), name (669), hash (677) |
| crates/weaver_semconv/src/manifest.rs | LoadModel.v, ManifestModel.v | 4 | name (67), version (75), from_schema_url (81), schema_url (366), name (375), version (381), dependencies (387), try_from_registry_manifest (439) |
| crates/weaver_semconv/src/provenance.rs | - | 0 | fmt (30), new (38) |
| crates/weaver_semconv/src/registry.rs | ImportModel.v, LiveModel.v, Resolved.v | 11 | new (49) |
| crates/weaver_semconv/src/registry_repo.rs | CacheModel.v, LoadModel.v, ManifestModel.v | 4 | try_new_dependency (81), try_new (107), try_new_with_auth (116), name (149), version (155), path (161), registry_path_repr (167), schema_url (209), default (215) |
| crates/weaver_semconv/src/schema_url.rs | CacheModel.v, LoadModel.v, ManifestModel.v, PubModel.v, ResolveModel.v, UrlModel.v | 14 | eq (128), try_from (182), try_from (190) |
| crates/weaver_semconv/src/semconv.rs | DefModel.v, LocModel.v | 9 | groups (110), imports (116), validator (240), into_v1 (320), from_file (344) |
| crates/weaver_semconv/src/signal_requirement_level.rs | - | 0 | fmt (27) |
| crates/weaver_semconv/src/stability.rs | ConvertModel.v, ManifestModel.v, PubModel.v, SemTypes.v, ServeModel.v | 1 | fmt (41) |
| crates/weaver_semconv/src/v2/attribute.rs | DefModel.v, PubModel.v | 4 | - |
| crates/weaver_semconv/src/v2/attribute_group.rs | DefModel.v, PubModel.v, Resolved.v | 1 | fmt (145) |
| crates/weaver_semconv/src/v2/entity.rs | DefModel.v, ImportModel.v, PubModel.v | 2 | - |
| crates/weaver_semconv/src/v2/event.rs | DefModel.v, PubModel.v | 2 | - |
| crates/weaver_semconv/src/v2/metric.rs | DefModel.v, PubModel.v | 2 | - |
| crates/weaver_semconv/src/v2/mod.rs | DefModel.v, ImportModel.v, PubModel.v, Resolved.v, SchemaDiffModel.v | 9 | output_schema (159) |
| crates/weaver_semconv/src/v2/signal_id.rs | - | 0 | into_v1 (18), from (24), deref (33), fmt (40), deserialize (47) |
| crates/weaver_semconv/src/v2/span.rs | DefModel.v, PubModel.v | 4 | - |
| crates/weaver_semconv_gen/src/lib.rs | GatherModel.v, MdModel.v, ServeModel.v | 4 | from (243) |
| crates/weaver_semconv_gen/src/parser.rs | MdModel.v | 29 | - |
| crates/weaver_semconv_gen/src/v1.rs | SnippetModel.v | 4 | try_from_registry_repo (26), new (47), try_from_registry_repo (62) |
| crates/weaver_semconv_gen/src/v2.rs | SnippetModel.v | 10 | new (38) |
| crates/weaver_test_support/src/lib.rs | - | 0 | acquire (23), drop (61), reserve_test_port (71) |
| crates/weaver_version/src/lib.rs | SchemaDiffModel.v, ServeModel.v, VersionModel.v | 16 | load_from_file (106), is_empty (295), len (301), get_attribute_name (540), resource_attribute_changes (548), metric_attribute_changes (556), log_attribute_changes (564), span_attribute_changes (572) |
| crates/weaver_version/src/schema_changes.rs | SchemaDiffModel.v | 12 | count_metric_changes (214), count_event_changes (223), count_resource_changes (232), count_span_changes (241), renamed_registry_attributes (250), set_head_manifest (270), set_baseline_manifest (275) |
| crates/weaver_version/src/v2/mod.rs | SchemaDiffModel.v | 2 | default (23) |
| crates/xtask/src/downstream.rs | DownModel.v | 16 | one_line (88), default_dir (129), label (141), kill_check (468), kill_check (481), write_step_summary (512), group_start (538), group_end (547) |
| crates/xtask/src/fix_release_permissions.rs | TasksModel.v | 2 | - |
| crates/xtask/src/history.rs | TasksModel.v | 2 | get_repo (20) |
| crates/xtask/src/main.rs | ConfigModel.v, TasksModel.v | 2 | - |
| crates/xtask/src/schema_compat.rs | CompatModel.v | 5 | fetch_repo (39), latest_release_tag (58), read_file_at_tag (73), generate_current (94) |
| crates/xtask/src/validate.rs | TasksModel.v | 5 | - |
| src/diagnostic/init.rs | InitModel.v | 2 | - |
| src/diagnostic/mod.rs | - | 0 | from (29), diagnostic (52) |
| src/main.rs | CommandModel.v, ConfigModel.v, InitModel.v, ResultModel.v, TasksModel.v | 6 | new (103), main (114) |
| src/registry/check.rs | MacroModel.v, PolicyModel.v | 1 | - |
| src/registry/diff.rs | CommandModel.v, MacroModel.v | 1 | - |
| src/registry/emit.rs | CommandModel.v, MacroModel.v | 1 | - |
| src/registry/generate.rs | ForgeModel.v, MacroModel.v, PolicyModel.v | 3 | resolve_templates_root (169), generate_params (183) |
| src/registry/infer.rs | InferModel.v, MacroModel.v | 3 | - |
| src/registry/json_schema.rs | - | 0 | command (94) |
| src/registry/live_check.rs | CommandModel.v, ListenModel.v, LiveAdvisors.v, LiveModel.v, MacroModel.v, OtlpModel.v, ReportModel.v, RulesModel.v | 4 | from (72) |
| src/registry/mcp.rs | CommandModel.v, MacroModel.v | 1 | - |
| src/registry/mod.rs | CommandModel.v, ConfigModel.v, GatherModel.v | 6 | apply_template_config (381), semconv_registry (396) |
| src/registry/otlp/conversion.rs | InferModel.v, IngestModel.v, TeleModel.v | 18 | - |
| src/registry/otlp/mod.rs | ListenModel.v | 23 | - |
| src/registry/otlp/otlp_ingester.rs | IngestModel.v, ListenModel.v, TeleModel.v | 2 | new (43), ingest_otlp (282), ingest (322) |
| src/registry/package.rs | CommandModel.v, MacroModel.v, ManifestModel.v | 2 | - |
| src/registry/resolve.rs | CommandModel.v | 1 | - |
| src/registry/search.rs | BrowseModel.v, CommandModel.v | 10 | from (63), title (101), result_details_widget (178), footer (257), render (265) |
| src/registry/stats.rs | CommandModel.v, MacroModel.v, StatsModel.v | 1 | - |
| src/registry/update_markdown.rs | CommandModel.v, MacroModel.v, MdModel.v | 1 | from (219) |
| src/serve/handlers.rs | SearchModel.v, ServeModel.v | 8 | health (31), get_registry_stats (92) |
| src/serve/mod.rs | CommandModel.v, MacroModel.v | 1 | command (56) |
| src/serve/server.rs | ServeModel.v | 2 | from (59), from (67), openapi_spec (129) |
| src/serve/types.rs | ServeModel.v | 1 | - |
| src/weaver.rs | CommandModel.v, GatherModel.v, PolicyModel.v | 24 | new (60), resolved_schema (371), diff (450), as_template_context (492), as_template_context (518), from (760) |

In all 921 of 1333 functions.
