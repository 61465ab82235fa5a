-Q theories Verif
theories/Base.v
theories/BaseProofs.v
theories/Json.v
theories/SemTypes.v
theories/LiveModel.v
theories/LiveAdvisors.v
theories/LiveSpec.v
theories/LiveProofs.v
theories/LiveProofs2.v
theories/LiveProofs3.v
theories/PropLive.v
theories/BaseProofs2.v
theories/F64.v
theories/DiffModel.v
theories/DiffSpec.v
theories/DiffProofs.v
theories/PropDiff.v
theories/Semver.v
theories/VersionModel.v
theories/VersionSpec.v
theories/SemverProofs.v
theories/VersionProofs.v
theories/PropVersion.v
theories/Resolved.v
theories/SchemaDiffModel.v
theories/SchemaDiffSpec.v
theories/SchemaDiffProofs.v
theories/PropSchemaDiff.v
theories/ResultModel.v
theories/ResultSpec.v
theories/ResultProofs.v
theories/PropResult.v
theories/VdirModel.v
theories/VdirSpec.v
theories/VdirProofs.v
theories/PropVdir.v
theories/Str.v
theories/StrProofs.v
theories/UrlModel.v
theories/UrlSpec.v
theories/PropUrl.v
theories/ConfigModel.v
theories/ConfigSpec.v
theories/PropConfig.v
theories/CodeModel.v
theories/CodeSpec.v
theories/CodeProofs.v
theories/PropCode.v
theories/PromModel.v
theories/PromSpec.v
theories/PropProm.v
theories/OtelModel.v
theories/OtelSpec.v
theories/PropOtel.v
theories/ForgeModel.v
theories/ForgeSpec.v
theories/PropForge.v
theories/MdModel.v
theories/MdSpec.v
theories/MdProofs.v
theories/PropMd.v
theories/DefModel.v
theories/DefSpec.v
theories/DefProofs.v
theories/DefProofs2.v
theories/DefProofs3.v
theories/PropDef.v
theories/ResolveModel.v
theories/ResolveSpec.v
theories/ResolveProofs.v
theories/PropCatalog.v
theories/ExtProofs.v
theories/PropInherit.v
theories/PropRefine.v
theories/RefProofs.v
theories/PropRefs.v
theories/LoadModel.v
theories/LoadSpec.v
theories/LoadProofs.v
theories/LoadProofs2.v
theories/FileProofs.v
theories/PropLoad.v
theories/ImportModel.v
theories/ImportSpec.v
theories/ImportProofs.v
theories/PropImport.v
theories/AssocProofs.v
theories/PropAssoc.v
theories/PropOrigins.v
theories/UniqueSpec.v
theories/PropUnique.v
theories/ConflictSpec.v
theories/PropConflict.v
theories/OrderSpec.v
theories/OrderProofs.v
theories/PropOrder.v
theories/SearchModel.v
theories/SearchSpec.v
theories/SearchProofs.v
theories/PropSearch.v
theories/InferModel.v
theories/InferSpec.v
theories/InferProofs.v
theories/PropInfer.v
theories/ConvertModel.v
theories/ConvertSpec.v
theories/ConvertProofs.v
theories/PropConvert.v
theories/IngestModel.v
theories/IngestSpec.v
theories/PropIngest.v
theories/EmitModel.v
theories/EmitSpec.v
theories/PropEmit.v
theories/PropRound.v
theories/ViewModel.v
theories/ViewSpec.v
theories/PropView.v
theories/PropViewed.v
theories/PolicyModel.v
theories/PolicySpec.v
theories/PropFinding.v
theories/PropPolicy.v
theories/PropPolicyData.v
theories/CacheModel.v
theories/CacheSpec.v
theories/CacheProofs.v
theories/PropCache.v
theories/ManifestModel.v
theories/ManifestSpec.v
theories/PropManifest.v
theories/PropPackage.v
theories/StatsModel.v
theories/StatsSpec.v
theories/PropStats.v
theories/SnippetModel.v
theories/SnippetSpec.v
theories/PropSnippet.v
theories/LineageSpec.v
theories/LineageProofs.v
theories/PropLineage.v
theories/McpModel.v
theories/McpSpec.v
theories/PropMcp.v
theories/OtlpModel.v
theories/OtlpSpec.v
theories/PropOtlp.v
theories/TextModel.v
theories/TextSpec.v
theories/PropText.v
theories/PipeSpec.v
theories/PipeProofs.v
theories/PropPipe.v
theories/BrowseModel.v
theories/BrowseSpec.v
theories/PropBrowse.v
theories/FormatModel.v
theories/FormatSpec.v
theories/FormatProofs.v
theories/PropFormat.v
theories/ServeModel.v
theories/ServeSpec.v
theories/PropServe.v
theories/LocModel.v
theories/LocSpec.v
theories/PropLoc.v
theories/CaseModel.v
theories/CaseSpec.v
theories/PropCase.v
theories/HelperModel.v
theories/HelperSpec.v
theories/PropHelper.v
theories/CompatModel.v
theories/CompatSpec.v
theories/PropCompat.v
theories/CommandModel.v
theories/CommandSpec.v
theories/PropCommand.v
theories/OrderImport.v
theories/PropOrderDeps.v
theories/PublishSpec.v
theories/PropPublish.v
theories/NamingModel.v
theories/NamingSpec.v
theories/PropNaming.v
theories/JqModel.v
theories/JqSpec.v
theories/JqProofs.v
theories/PropJq.v
theories/MacroModel.v
theories/MacroSpec.v
theories/PropMacro.v
theories/PropOrderSuccess.v
theories/DownModel.v
theories/DownSpec.v
theories/DownProofs.v
theories/PropDown.v
theories/ListenModel.v
theories/ListenSpec.v
theories/ListenProofs.v
theories/PropListen.v
theories/ArchiveModel.v
theories/ArchiveSpec.v
theories/ArchiveProofs.v
theories/PropArchive.v
theories/ReportModel.v
theories/ReportSpec.v
theories/PropReport.v
theories/JinModel.v
theories/JinSpec.v
theories/JinProofs.v
theories/PropJin.v
theories/TasksModel.v
theories/TasksSpec.v
theories/TasksProofs.v
theories/PropTasks.v
theories/PubModel.v
theories/PubSpec.v
theories/PubProofs.v
theories/PubProofs2.v
theories/PubProofs3.v
theories/PubProofs4.v
theories/PropPub.v
theories/PubProofs5.v
theories/PubSpec2.v
theories/PubProofs6.v
theories/PropPub2.v
theories/InitModel.v
theories/InitSpec.v
theories/InitProofs.v
theories/InitProofs2.v
theories/PropInit.v
theories/GatherModel.v
theories/GatherSpec.v
theories/PropGather.v
theories/TeleModel.v
theories/TeleSpec.v
theories/PropTele.v
theories/FetchModel.v
theories/FetchSpec.v
theories/PropFetch.v
theories/RulesModel.v
theories/RulesSpec.v
theories/PropRules.v
theories/BuildModel.v
theories/BuildSpec.v
theories/PropBuild.v
theories/RenderModel.v
theories/RenderSpec.v
theories/PropRender.v
theories/DetectModel.v
theories/DetectSpec.v
theories/PropDetect.v
theories/PageModel.v
theories/PageSpec.v
theories/PropPage.v
