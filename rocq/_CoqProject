-Q theories Verif
theories/Base.v
theories/BaseFacts.v
theories/Codec.v
theories/CodecFacts.v
theories/Stream.v
theories/StreamFacts.v
theories/Node.v
theories/Heap.v
theories/Radix.v
theories/Located.v
theories/NodeFacts.v
theories/NodeFacts2.v
theories/NodeFacts3.v
theories/Value.v
theories/Join.v
theories/SpecJoin.v
theories/JoinFacts.v
theories/PropJoin.v
theories/WildcardMeta.v
theories/MetaFacts.v
theories/Wildcard.v
theories/WildcardFacts.v
theories/WildcardFacts2.v
theories/SpecIndex.v
theories/SpecWildcard.v
theories/WildcardFacts3.v
theories/WildcardFacts4.v
theories/WildcardFacts5.v
theories/WildcardFacts6.v
theories/WildcardFacts7.v
theories/Index.v
theories/IndexFacts.v
theories/PropIndex.v
theories/GoStrings.v
theories/SpecText.v
theories/StringsFacts.v
theories/Utf8Facts.v
theories/Parser.v
theories/Sort.v
theories/SpecOrder.v
theories/OrderFacts.v
theories/ParserFacts.v
theories/PropValue.v
theories/Output.v
theories/Json.v
theories/SpecJson.v
theories/JsonFacts.v
theories/SpecOutput.v
theories/OutputFacts.v
theories/OutputFacts2.v
theories/OutputFacts3.v
theories/OutputFacts4.v
theories/OutputFacts5.v
theories/OutputFacts6.v
theories/WildcardFacts8.v
theories/PropWildcard.v
theories/Http.v
theories/SpecHttp.v
theories/HttpFacts.v
theories/OutputExample.v
theories/PropOutput.v
theories/Regex.v
theories/Route.v
theories/SpecRegex.v
theories/RegexFacts.v
theories/RegexSplit.v
theories/RegexSplitFacts.v
theories/PropRegexSplit.v
theories/SpecRoute.v
theories/RouteFacts.v
theories/RouteFacts2.v
theories/RouteFacts3.v
theories/RouteFacts4.v
theories/RouteFacts5.v
theories/PropRoute.v
theories/Records.v
theories/SpecRecords.v
theories/RecordsFacts.v
theories/PropRecords.v
theories/Util.v
theories/UtilFacts.v
theories/PropUtil.v
theories/Prog.v
theories/ProgFacts.v
theories/Bufio.v
theories/SpecBufio.v
theories/BufioFacts.v
theories/CsvReader.v
theories/SpecCsv.v
theories/CsvFacts.v
theories/CsvFacts2.v
theories/CsvFacts3.v
theories/CsvFacts4.v
theories/PropCsv.v
theories/JsonReader.v
theories/SpecJsonFile.v
theories/JsonReaderFacts.v
theories/JsonReaderFacts2.v
theories/JsonReaderFacts3.v
theories/PropJson.v
theories/Decoder.v
theories/DecoderFacts.v
theories/PropDecoder.v
theories/Handles.v
theories/HandlesFacts.v
theories/PropHandles.v
theories/Config.v
theories/Start.v
theories/SpecConfig.v
theories/ConfigFacts.v
theories/ConfigFacts2.v
theories/ConfigFacts3.v
theories/ConfigFacts4.v
theories/ConfigFacts5.v
theories/ConfigFacts6.v
theories/StartFacts.v
theories/StartFacts2.v
theories/ServeFacts.v
theories/ServeFacts2.v
theories/SpecAccept.v
theories/AcceptFacts.v
theories/PropAccept.v
theories/PropConfig.v
theories/Sql.v
theories/SqlIndex.v
theories/SqlFacts.v
theories/SqlRunFacts.v
theories/SpecSql.v
theories/SqlInvFacts.v
theories/SqlLifeFacts.v
theories/SqlHistoryFacts.v
theories/SqlQueryFacts.v
theories/SqlCreateFacts.v
theories/SqlNameFacts.v
theories/SpecSqlFind.v
theories/SqlFindFacts.v
theories/PropSqlite.v
theories/PropSqlServe.v
theories/SqlPool.v
theories/SpecPool.v
theories/SqlPoolFacts.v
theories/SqlPoolFacts2.v
theories/PropPool.v
theories/XmlStream.v
theories/SpecXml.v
theories/SpecXmlNest.v
theories/SpecXmlValue.v
theories/XmlFacts.v
theories/XmlReadFacts.v
theories/XmlNestFacts.v
theories/XmlValueFacts.v
theories/PropXml.v
theories/Lifecycle.v
theories/SpecLifecycle.v
theories/LifecycleFacts.v
theories/LifecycleFacts2.v
theories/PropLifecycle.v
theories/Expand.v
theories/SpecExpand.v
theories/ExpandFacts.v
theories/PropExpand.v
theories/FloatText.v
theories/SpecFloatText.v
theories/FloatTextFacts.v
theories/FloatTextFacts2.v
theories/PropFloat.v
theories/Progress.v
theories/ProgressFacts.v
theories/PropProgress.v
theories/GoSort.v
theories/GoSortFacts.v
theories/PropSort.v
theories/FloatFormat.v
theories/SpecFloatFormat.v
theories/FloatFormatFacts.v
theories/FloatFormatFacts2.v
theories/FloatFormatFacts3.v
theories/FloatFormatFacts4.v
theories/FloatFormatFacts5.v
theories/FloatFormatFacts6.v
theories/PropFloatFormat.v
theories/JsonDecode.v
theories/SpecJsonDecode.v
theories/JsonDecodeFacts.v
theories/JsonDecodeFacts2.v
theories/JsonDecodeFacts3.v
theories/JsonDecodeFacts4.v
theories/JsonDecodeFacts5.v
theories/JsonDecodeFacts6.v
theories/JsonDecodeFacts7.v
theories/JsonDecodeFacts8.v
theories/PropJsonDecode.v
theories/SpecStorage.v
theories/StorageFacts.v
theories/PropStorage.v
theories/XmlInput.v
theories/XmlInputFacts.v
theories/System.v
theories/SpecSystem.v
theories/SpecRobust.v
theories/SpecStart.v
theories/SystemFacts.v
theories/SystemFacts2.v
theories/SystemSqlFacts.v
theories/SystemSqlFacts2.v
theories/SystemFacts3.v
theories/SystemFacts4.v
theories/SystemStartFacts.v
theories/SystemFacts5.v
theories/SystemSafeFacts.v
theories/SystemExample.v
theories/SystemStartExample.v
theories/SystemSafeExample.v
theories/PropSystemSafe.v
theories/PropSystem.v
theories/PropSystemStart.v
theories/SpecStopped.v
theories/SystemStoppedFacts.v
theories/PropSystemWhole.v
theories/PropSystemStopped.v
theories/Yaml.v
theories/SpecYaml.v
theories/YamlFacts.v
theories/YamlFacts2.v
theories/YamlFacts3.v
theories/YamlFacts4.v
theories/SpecSchema.v
theories/SchemaFacts.v
theories/YamlExamples.v
theories/PropYaml.v
