-Q theories Verif
theories/Base.v
theories/IndexMap.v
theories/Decimal.v
theories/Float.v
theories/Oxide.v
theories/OxideSpec.v
theories/OxideMergeProofs.v
theories/OxideMerge.v
theories/OxideViews.v
theories/FloatR.v
theories/Percent.v
theories/SourceCov.v
theories/SourceCovProofs.v
theories/Hints.v
theories/HintsProofs.v
theories/Ast.v
theories/Visitor.v
theories/VisitorRel.v
theories/VisitorEx.v
theories/Erase.v
theories/Counting.v
theories/CountingRoot.v
theories/Suppress.v
theories/Registered.v
theories/Local.v
theories/Influence.v
theories/Prologue.v
theories/OneEntry.v
theories/Total.v
theories/Sem.v
theories/SemShape.v
theories/SemErase.v
theories/SemVisit.v
theories/SemProps.v
theories/Account.v
theories/Slots.v
theories/Sites.v
theories/AccountVisit.v
theories/Accurate.v
theories/Truths.v
theories/JsHost.v
theories/FixtureRun.v
theories/Fixtures.v
theories/FixtureTests.v
theories/SipHash.v
theories/Json.v
theories/CovJson.v
theories/JsonEscape.v
theories/JsonParse.v
theories/Serde.v
theories/Options.v
theories/DataObject.v
theories/Template.v
theories/Runtime.v
theories/RepoVectors.v
theories/OxideVectors.v
theories/Produced.v
theories/Builder.v
theories/DebugComment.v
theories/Emitted.v
theories/Scripts.v
theories/ReadInitial.v
theories/Interop.v
theories/Project.v
theories/Growth.v
theories/GrowthRuns.v
theories/Ledger.v
theories/Consistent.v
theories/FitReport.v
theories/Keeps.v
theories/Unreached.v
theories/IdleReport.v
theories/Positions.v
theories/Fewer.v
theories/Linear.v
theories/Grammar.v
theories/Nested.v
theories/Threshold.v
theories/Placeholders.v
theories/LogicReport.v
theories/LogicWhole.v
theories/TaggedLogic.v
theories/GrowthLogic.v
theories/LogicModes.v
theories/TruthBound.v
theories/Report.v
theories/EndToEnd.v
theories/Runs.v
theories/Layout.v
theories/LogicOption.v
theories/Namespaces.v
theories/Plugin.v
theories/PluginLog.v
theories/PropsAccurate.v
theories/PropsBuilder.v
theories/PropsConsistent.v
theories/PropsCountingRoot.v
theories/PropsCovJson.v
theories/PropsDataObject.v
theories/PropsDebugComment.v
theories/PropsEmitted.v
theories/PropsEndToEnd.v
theories/PropsErase.v
theories/PropsFewer.v
theories/PropsFitReport.v
theories/PropsFixtureTests.v
theories/PropsGrammar.v
theories/PropsGrowth.v
theories/PropsGrowthLogic.v
theories/PropsGrowthRuns.v
theories/PropsHintsProofs.v
theories/PropsIdleReport.v
theories/PropsInfluence.v
theories/PropsInterop.v
theories/PropsJson.v
theories/PropsJsonEscape.v
theories/PropsJsonParse.v
theories/PropsLayout.v
theories/PropsLinear.v
theories/PropsLocal.v
theories/PropsLogicModes.v
theories/PropsLogicOption.v
theories/PropsLogicReport.v
theories/PropsLogicWhole.v
theories/PropsNamespaces.v
theories/PropsNested.v
theories/PropsOneEntry.v
theories/PropsOptions.v
theories/PropsOxideMerge.v
theories/PropsOxideMergeProofs.v
theories/PropsOxideViews.v
theories/PropsPercent.v
theories/PropsPlaceholders.v
theories/PropsPlugin.v
theories/PropsPluginLog.v
theories/PropsPositions.v
theories/PropsProduced.v
theories/PropsProject.v
theories/PropsPrologue.v
theories/PropsReadInitial.v
theories/PropsRegistered.v
theories/PropsRepoVectors.v
theories/PropsReport.v
theories/PropsRuns.v
theories/PropsRuntime.v
theories/PropsScripts.v
theories/PropsSemProps.v
theories/PropsSerde.v
theories/PropsSipHash.v
theories/PropsSourceCovProofs.v
theories/PropsSuppress.v
theories/PropsTaggedLogic.v
theories/PropsTemplate.v
theories/PropsThreshold.v
theories/PropsTotal.v
theories/PropsTruthBound.v
theories/PropsTruths.v
theories/PropsUnreached.v
