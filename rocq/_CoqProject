-Q theories Verif
theories/GoBase.v
theories/GoBaseFacts.v
theories/XsqlModel.v
theories/XsqlSpec.v
theories/XsqlRunSpec.v
theories/XsqlProofs.v
theories/XsqlPg.v
theories/XsqlRuns.v
theories/XsqlSim.v
theories/XsqlRender.v
theories/XsqlUserSpec.v
theories/XsqlUser.v
theories/XsqlValues.v
theories/XsqlStatic.v
theories/XsqlOrder.v
theories/XsqlClauseSpec.v
theories/XsqlClause.v
theories/XsqlInsert.v
theories/XsqlMore.v
theories/XsqlExact.v
theories/XsqlCache.v
theories/XsqlExec.v
theories/XsqlSub.v
theories/XsqlWorld.v
theories/XsqlFullSpec.v
theories/XsqlFull.v
theories/XsqlExtra.v
theories/XsqlConformance.v
theories/XsqlProps.v
theories/FlakeModel.v
theories/FlakeSpec.v
theories/FlakeProofs.v
theories/FlakeProps.v
theories/FlakeConformance.v
theories/IdModel.v
theories/IdSpec.v
theories/IdProofs.v
theories/IdProps.v
theories/FloatModel.v
theories/FloatSpec.v
theories/FloatProofs.v
theories/FloatProps.v
theories/TypeModel.v
theories/TypeSpec.v
theories/TypeProofs.v
theories/TypeProps.v
theories/TimeModel.v
theories/TimeSpec.v
theories/TimeCal.v
theories/TimeProofs.v
theories/TimeProps.v
theories/ParamModel.v
theories/ParamSpec.v
theories/ParamProofs.v
theories/QueryProofs.v
theories/ParamProps.v
theories/SchemaModel.v
theories/SchemaSpec.v
theories/SchemaProofs.v
theories/SchemaGraph.v
theories/SchemaDeps.v
theories/SchemaMore.v
theories/SchemaProps.v
theories/GenModel.v
theories/GenSpec.v
theories/GenTypes.v
theories/GenProofs.v
theories/GenMore.v
theories/GenProps.v
theories/GenNameSpec.v
theories/GenNameProofs.v
theories/GenNameProps.v
theories/UrlModel.v
theories/UrlSpec.v
theories/UrlProofs.v
theories/UrlProps.v
theories/ProvModel.v
theories/ProvSpec.v
theories/ProvProofs.v
theories/ProvProps.v
theories/JsonModel.v
theories/JsonSpec.v
theories/JsonProofs.v
theories/QuoteProofs.v
theories/JsonProps.v
theories/AnyModel.v
theories/AnySpec.v
theories/AnyProofs.v
theories/AnyProps.v
theories/RootConformance.v
theories/ConcModel.v
theories/ConcProofs.v
theories/ConcProps.v
theories/SchemaTrace.v
theories/SchemaTraceProofs.v
theories/SchemaTraceProps.v
theories/CliModel.v
theories/CliSpec.v
theories/CliProofs.v
theories/CliProps.v
theories/AppModel.v
theories/AppProps.v
theories/SchemaConformance.v
theories/XsqlHandles.v
theories/XsqlHandlesProps.v
theories/TimeZone.v
theories/MiscModel.v
theories/MiscProps.v
theories/XsqlSlices.v
theories/XsqlSlicesProps.v
theories/CatalogModel.v
theories/CatalogSpec.v
theories/CatalogProofs.v
theories/CatalogListing.v
theories/CatalogQueries.v
theories/CatalogMore.v
theories/CatalogProps.v
theories/CliDbSpec.v
theories/CliDbProps.v
theories/CatalogConformance.v
theories/RecordModel.v
theories/JsonGrammar.v
theories/RecordSpec.v
theories/RecordProofs.v
theories/RecordLocal.v
theories/JsonGrammarProofs.v
theories/JsonGrammarFull.v
theories/RecordFill.v
theories/RecordProps.v
theories/JsonGrammarProps.v
theories/TimeGrammar.v
theories/TimeGrammarProofs.v
theories/TimeGrammarProps.v
theories/FloatGrammar.v
theories/FloatGrammarProofs.v
theories/FloatGrammarProps.v
theories/ConnConformance.v
theories/SchemaConc.v
theories/SchemaConcProofs.v
theories/SchemaConcProps.v
theories/PagingProps.v
theories/NameCacheProps.v
theories/NameConcProps.v
