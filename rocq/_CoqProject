-Q theories Verif
theories/Base.v
theories/Dict.v
theories/RulesDict.v
theories/RulesSpec.v
theories/RulesLookupProofs.v
theories/RulesMergeProofs.v
theories/RulesMergeTotal.v
theories/RulesMergeExact.v
theories/PropRules.v
theories/PyVal.v
theories/Verify.v
theories/VerifySpec.v
theories/VerifyProofs.v
theories/VerifiedLookup.v
theories/PropVerify.v
theories/Expand.v
theories/ExpandSpec.v
theories/ExpandProofs.v
theories/PropExpand.v
theories/Compact.v
theories/CompactSpec.v
theories/CompactProofs.v
theories/PropCompact.v
theories/Codec.v
theories/Sources.v
theories/SourcesSpec.v
theories/SourcesProofs.v
theories/Crash.v
theories/CacheProofs.v
theories/PropSources.v
theories/Util.v
theories/Terminal.v
theories/TerminalProofs.v
theories/PropUtil.v
theories/LoadUrl.v
theories/PropLoadUrl.v
theories/Installer.v
theories/Resolve.v
theories/PropResolve.v
theories/Install.v
theories/InstallSpec.v
theories/InstallProofs.v
theories/PropInstall.v
theories/Paths.v
theories/Config.v
theories/ConfigSpec.v
theories/ConfigTypeProofs.v
theories/ConfigProofs.v
theories/XylemConfig.v
theories/OverrideProofs.v
theories/PropConfig.v
theories/Installers.v
theories/PropInstallers.v
theories/Plugins.v
theories/PropPlugins.v
theories/OsSupport.v
theories/PropOs.v
theories/Context.v
theories/PropContext.v
theories/Order.v
theories/PropPipeline.v
theories/Commands.v
theories/CompactFileProofs.v
theories/PropCommands.v
theories/PropCompactFile.v
theories/PropDoc.v
theories/PropDefault.v
theories/PropEndToEnd.v
theories/Output.v
theories/PropOutput.v
theories/Heap.v
theories/HeapSpec.v
theories/HeapProofs.v
theories/PropHeap.v
theories/HeapExpand.v
theories/HeapExpandSpec.v
theories/HeapExpandProofs.v
theories/PropHeapExpand.v
theories/CommandLine.v
theories/Argv.v
theories/PropCommandLine.v
theories/Directories.v
theories/PropDirectories.v
theories/Concurrent.v
theories/PropConcurrent.v
theories/PropFlags.v
theories/Detectors.v
theories/PropDetectors.v
theories/ConfigReload.v
theories/PropConfigPrint.v
theories/License.v
theories/PropLicense.v
theories/ConfigHeap.v
theories/ConfigHeapProofs.v
theories/PropConfigHeap.v
theories/ConfigDict.v
theories/PropConfigDict.v
theories/PropFull.v
theories/PropDatabase.v
theories/Api.v
theories/PropDisabled.v
theories/PropApi.v
theories/HelpText.v
theories/PropHelp.v
theories/PropBadConfig.v
theories/PropOptions.v
theories/CommandSet.v
theories/PropCommandSet.v
theories/SourcesLog.v
theories/PropSourcesLog.v
theories/Globals.v
theories/PropGlobals.v
theories/PluginsLog.v
theories/PropPluginsLog.v
theories/PropDescriptions.v
theories/PropPrinted.v
theories/PropLicenseMain.v
theories/ContextLog.v
theories/PropContextLog.v
theories/Reports.v
theories/PropReports.v
theories/PropArgv.v
