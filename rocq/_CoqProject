-Q theories Verif
theories/PyBase.v
theories/DictFacts.v
theories/Regex.v
theories/Tree.v
theories/Results.v
theories/SpecTree.v
theories/ResultsFacts.v
theories/ResultsHist.v
theories/PathFacts.v
theories/SpecRecords.v
theories/MachineFacts.v
theories/SpecChoice.v
theories/ChooseFacts.v
theories/MuteFacts.v
theories/FrameFacts.v
theories/RunFacts.v
theories/SpecPath.v
theories/PathDyn.v
theories/EscapeFacts.v
theories/MergeFacts.v
theories/SaveSpec.v
theories/SpecLeaves.v
theories/Conserve.v
theories/DynFlush.v
theories/SpecKeys.v
theories/RenumberFacts.v
theories/NestFacts.v
theories/NullFacts.v
theories/Properties_Save.v
theories/MachineProps.v
theories/SpecJoin.v
theories/JoinFacts.v
theories/Properties_Machine.v
theories/MatchFuncs.v
theories/StrFacts.v
theories/SpecMatch.v
theories/MatchFacts.v
theories/MatchFacts2.v
theories/Properties_Match.v
theories/Parser.v
theories/SpecParser.v
theories/ParserFacts.v
theories/ParserFacts2.v
theories/ParserFacts3.v
theories/Properties_Parser.v
theories/SpecConvert.v
theories/ConvertFacts.v
theories/ChainFacts.v
theories/MacroFacts.v
theories/Properties_Chain.v
theories/GroupFuncs.v
theories/SpecGroup.v
theories/GroupFacts.v
theories/GroupRun.v
theories/GroupPure.v
theories/ItemizeFacts.v
theories/Properties_Group.v
theories/PyEqFacts.v
theories/Session.v
theories/SpecSession.v
theories/SessionFacts.v
theories/SessionHist.v
theories/SessionInputs.v
theories/SessionHeap.v
theories/Properties_Session.v
theories/Workers.v
theories/WorkersFacts.v
theories/WorkersSession.v
theories/SpecWorkers.v
theories/WorkersOrder.v
theories/Properties_Workers.v
theories/Template.v
theories/SpecTemplate.v
theories/TemplateFacts.v
theories/TemplateFacts2.v
theories/TemplateFacts3.v
theories/Properties_Template.v
theories/FormRegex.v
theories/SpecRegex.v
theories/RegexFacts.v
theories/SpecPattern.v
theories/PatternFacts.v
theories/SpecLine.v
theories/SpecForm.v
theories/ReadFacts.v
theories/LitFacts.v
theories/LineFacts.v
theories/LineRegex.v
theories/FindFacts.v
theories/RoundTrip.v
theories/CharFacts.v
theories/Properties_FormRegex.v
theories/Properties_Pattern.v
theories/SpecMerge.v
theories/OverlayFacts.v
theories/TailFacts.v
theories/SpecOpen.v
theories/OpenFacts.v
theories/Outputs.v
theories/SpecOutput.v
theories/OutputFacts.v
theories/Properties_Output.v
theories/Loaders.v
theories/SpecCsv.v
theories/LoaderFacts.v
theories/CsvFacts.v
theories/Properties_Csv.v
theories/Cache.v
theories/SpecCache.v
theories/CacheFacts.v
theories/EnvFacts.v
theories/CacheExact.v
theories/Properties_Cache.v
theories/MatchExact.v
theories/GroupExact.v
theories/WorkersExact.v
theories/ExtendFacts.v
theories/SessionExact.v
theories/DefaultExact.v
theories/Attributes.v
theories/MatchVar.v
theories/Compile.v
theories/FuncTable.v
theories/Xml.v
theories/Files.v
theories/Inputs.v
theories/JsonDump.v
theories/OutputTags.v
theories/Load.v
theories/Run.v
theories/XmlFacts.v
theories/LoadFacts.v
theories/Properties_Load.v
theories/AttrFacts.v
theories/CompileFacts.v
theories/SpecProgram.v
theories/FindLines.v
theories/PlainLine.v
theories/LineRun.v
theories/PlainRun.v
theories/PlainProgram.v
theories/PlainCompile.v
theories/QuietFacts.v
theories/PlainResult.v
theories/NamedTree.v
theories/PlainTop.v
theories/Properties_Program.v
theories/SpecIsolation.v
theories/IsolationFuncs.v
theories/Isolation.v
theories/Properties_Isolation.v
theories/SpecFilters.v
theories/FilterFacts.v
theories/Properties_Filters.v
theories/SpecVars.v
theories/VarsFacts.v
theories/Properties_Vars.v
theories/SpecGroups.v
theories/GroupRefine.v
theories/GroupAttrs.v
theories/Properties_Groups.v
theories/SpecAttr.v
theories/LexFacts.v
theories/LexFacts2.v
theories/GrammarFacts.v
theories/GrammarFacts2.v
theories/ReprFacts.v
theories/Properties_Attributes.v
theories/SpecVariable.v
theories/VariableFacts.v
theories/VariableFacts2.v
theories/VariableFacts3.v
theories/Properties_Variable.v
theories/SpecHeaders.v
theories/HeadersFacts.v
theories/HeadersFacts2.v
theories/HeadersFacts3.v
theories/Properties_Headers.v
theories/SpecMade.v
theories/MadeFacts.v
theories/MadeFacts2.v
theories/MadeFacts3.v
theories/Properties_Made.v
theories/SpecCalls.v
theories/CallFacts.v
theories/CallFacts2.v
theories/CallFacts3.v
theories/Properties_Calls.v
theories/SpecText.v
theories/TextFacts.v
theories/TextFacts2.v
theories/TextFacts3.v
theories/Properties_Text.v
theories/SpecFiles.v
theories/FileFacts.v
theories/JsonFacts.v
theories/PythonFacts.v
theories/Properties_Files.v
theories/SpecInputs.v
theories/InputFacts.v
theories/Properties_Inputs.v
theories/SpecHost.v
theories/HostFacts.v
theories/CommandFacts.v
theories/Properties_Host.v
theories/SpecJson.v
theories/JsonDumpFacts.v
theories/Properties_Json.v
theories/SpecOutputTags.v
theories/OutputTagFacts.v
theories/OutputRunFacts.v
theories/OutputRunFacts2.v
theories/Properties_OutputTags.v
theories/SpecLoaded.v
theories/LoadedFacts.v
theories/LoadedFacts2.v
theories/Properties_Loaded.v
theories/SpecMacro.v
theories/MacroRun.v
theories/Properties_Macro.v
theories/SpecOutcome.v
theories/OutcomeFacts.v
theories/OutcomeFacts2.v
theories/Properties_Outcome.v
theories/SpecGroupOutcome.v
theories/GroupOutcomeFacts.v
theories/GroupOutcomeFacts2.v
theories/GroupOutcomeFacts3.v
theories/Properties_GroupOutcome.v
theories/RunSeen.v
theories/SeenRefine.v
theories/SpecSeen.v
theories/SeenFacts.v
theories/Properties_Seen.v
theories/Ip.v
theories/SpecIp.v
theories/IpFacts.v
theories/IpFacts2.v
theories/Properties_Ip.v
theories/Api.v
theories/SpecApi.v
theories/ApiFacts.v
theories/ApiFacts2.v
theories/ApiFacts3.v
theories/Properties_Api.v
theories/Uptime.v
theories/SpecUptime.v
theories/UptimeFacts.v
theories/UptimeFacts2.v
theories/UptimeFacts3.v
theories/UptimeFacts4.v
theories/Properties_Uptime.v
theories/InputLoad.v
theories/SpecInputLoad.v
theories/InputLoadFacts.v
theories/InputLoadFacts2.v
theories/InputLoadText.v
theories/SpecInputLoadText.v
theories/InputLoadFacts3.v
theories/Properties_InputLoad.v
theories/AddTemplate.v
theories/SpecAddTemplate.v
theories/AddTemplateFacts.v
theories/Properties_AddTemplate.v
theories/Conformance1.v
theories/Conformance2.v
