-Q theories Verif
theories/Text.v
theories/Rope.v
theories/Chumsky.v
theories/Tokenizer.v
theories/Parser.v
theories/Numbers.v
theories/Index.v
theories/SemTok.v
theories/Diag.v
theories/Rename.v
theories/Cfg.v
theories/Backtrace.v
theories/Server.v
theories/Dispatch.v
theories/SpecText.v
theories/SpecBacktrace.v
theories/SpecNumbers.v
theories/SpecSemTok.v
theories/PText.v
theories/PRope.v
theories/PBacktrace.v
theories/PNumbers.v
theories/PSemTok.v
theories/SpecBytes.v
theories/PBytes.v
theories/PCursor.v
theories/PropertiesText.v
theories/PropertiesBacktrace.v
theories/PropertiesNumbers.v
theories/SpecLex.v
theories/PChumsky.v
theories/PLex.v
theories/PLexSpec.v
theories/PTokens.v
theories/PLexProps.v
theories/PSemDoc.v
theories/PropertiesLex.v
theories/PropertiesSemTok.v
theories/SpecParse.v
theories/PGram.v
theories/SpecSimilar.v
theories/SpecValues.v
theories/PNatural.v
theories/PParse.v
theories/PSound.v
theories/PParseProps.v
theories/PComplete.v
theories/PLocal.v
theories/SpecExact.v
theories/PExact.v
theories/ExamplesExact.v
theories/PropertiesExact.v
theories/PropertiesParse.v
theories/SpecIndex.v
theories/PIndex.v
theories/PIndexDoc.v
theories/PIndexText.v
theories/ExamplesIndex.v
theories/PropertiesIndex.v
theories/SpecDiag.v
theories/PDiag.v
theories/PErrors.v
theories/PDiagDoc.v
theories/ExamplesDiag.v
theories/PropertiesDiag.v
theories/SpecCfg.v
theories/PCfg.v
theories/PHints.v
theories/PView.v
theories/SpecView.v
theories/PExt.v
theories/PFold.v
theories/PFoldText.v
theories/PNav.v
theories/ExamplesCfg.v
theories/PropertiesCfg.v
theories/SpecRename.v
theories/SpecPatch.v
theories/PRename.v
theories/PLabel.v
theories/PRelex.v
theories/SpecRebind.v
theories/PRetree.v
theories/PRebind.v
theories/PUndo.v
theories/SpecLayout.v
theories/PLayout.v
theories/PAlike.v
theories/SpecLines.v
theories/PLines.v
theories/PLinesExact.v
theories/PIdle.v
theories/ExamplesTests.v
theories/ExamplesUndo.v
theories/PropertiesUndo.v
theories/ExamplesRebind.v
theories/PropertiesRebind.v
theories/SpecServer.v
theories/PServer.v
theories/SpecRequest.v
theories/PRequest.v
theories/ExamplesView.v
theories/PropertiesView.v
theories/ExamplesRename.v
theories/PropertiesRename.v
theories/ExamplesPatch.v
theories/ExamplesLabel.v
theories/PropertiesPatch.v
theories/ExamplesLayout.v
theories/ExamplesLines.v
theories/PropertiesLayout.v
theories/PropertiesLines.v
theories/ExamplesServer.v
theories/PropertiesServer.v
theories/PropertiesRequest.v
theories/SpecRefusal.v
theories/PRefusal.v
theories/PropertiesRefusal.v
theories/SpecFault.v
theories/PPlace.v
theories/PFurther.v
theories/PHopeless.v
theories/ExamplesFault.v
theories/PropertiesFault.v
theories/SpecDot.v
theories/PDot.v
theories/ExamplesDot.v
theories/PropertiesDot.v
theories/SpecLexFault.v
theories/PLexFault.v
theories/PLexPlaces.v
theories/PLexFirst.v
theories/ExamplesLexFault.v
theories/PropertiesLexFault.v
theories/SpecSum.v
theories/PSum.v
theories/PSumIndex.v
theories/SpecAbove.v
theories/PRuns.v
theories/PAbove.v
theories/PSumDoc.v
theories/PAboveDoc.v
theories/PSumNav.v
theories/PSumOrder.v
theories/ExamplesSum.v
theories/PropertiesSum.v
theories/SpecCoherent.v
theories/PCoherent.v
theories/ExamplesCoherent.v
theories/PropertiesCoherent.v
theories/SpecForeign.v
theories/PForeign.v
theories/ExamplesForeign.v
theories/PropertiesForeign.v
theories/SpecViable.v
theories/PViable.v
theories/PViableDoc.v
theories/PClean.v
theories/ExamplesClean.v
theories/PropertiesClean.v
theories/PKeep.v
theories/ExamplesKeep.v
theories/PropertiesKeep.v
theories/SpecSumView.v
theories/PSumView.v
theories/ExamplesSumView.v
theories/PropertiesSumView.v
theories/SpecEdit.v
theories/PEdit.v
theories/ExamplesEdit.v
theories/PropertiesEdit.v
theories/SpecComment.v
theories/PComment.v
theories/ExamplesComment.v
theories/PropertiesComment.v
theories/SpecSeed.v
theories/PSeed.v
theories/ExamplesSeed.v
theories/PropertiesSeed.v
theories/SpecRoom.v
theories/PRoom.v
theories/ExamplesRoom.v
theories/PropertiesRoom.v
theories/SpecFix.v
theories/PFix.v
theories/ExamplesFix.v
theories/PropertiesFix.v
theories/SpecHelp.v
theories/PHelp.v
theories/PHelpDoc.v
theories/ExamplesHelp.v
theories/PropertiesHelp.v
theories/PForeignView.v
theories/PropertiesForeignView.v
theories/SpecSteps.v
theories/PSteps.v
theories/ExamplesSteps.v
theories/PropertiesSteps.v
theories/ExamplesAbove.v
theories/PropertiesAbove.v
theories/SpecSalvage.v
theories/PSalvage.v
theories/ExamplesSalvage.v
theories/PropertiesSalvage.v
theories/SpecStuck.v
theories/PStuck.v
theories/ExamplesStuck.v
theories/PropertiesStuck.v
theories/Options.v
theories/SpecOptions.v
theories/POptions.v
theories/ExamplesOptions.v
theories/PropertiesOptions.v
theories/SpecAfter.v
theories/PAfter.v
theories/PAfterView.v
theories/ExamplesAfter.v
theories/PropertiesAfter.v
theories/SpecAfterShift.v
theories/PAfterShift.v
theories/ExamplesAfterShift.v
theories/PropertiesAfterShift.v
theories/SpecAfterHints.v
theories/PAfterHints.v
theories/ExamplesAfterHints.v
theories/PropertiesAfterHints.v
theories/Session.v
theories/SpecSession.v
theories/PSession.v
theories/ExamplesSession.v
theories/PropertiesSession.v
theories/SpecReformat.v
theories/PReformat.v
theories/PReformatDoc.v
theories/ExamplesReformat.v
theories/PropertiesReformat.v
theories/SpecMove.v
theories/PMove.v
theories/PMoveHints.v
theories/ExamplesMove.v
theories/PropertiesMove.v
theories/SpecWritten.v
theories/PWritten.v
theories/ExamplesWritten.v
theories/PropertiesWritten.v
theories/SpecValued.v
theories/PValues.v
theories/ExamplesValues.v
theories/PropertiesValues.v
theories/PReformatAsk.v
theories/PropertiesReformatAsk.v
theories/SpecNames.v
theories/PNames.v
theories/ExamplesNames.v
theories/PropertiesNames.v
theories/SpecDelete.v
theories/PDelete.v
theories/ExamplesDelete.v
theories/PropertiesDelete.v
theories/SpecPaste.v
theories/PPaste.v
theories/ExamplesPaste.v
theories/PropertiesPaste.v
theories/SpecMoveAsk.v
theories/PMoveAsk.v
theories/ExamplesMoveAsk.v
theories/PropertiesMoveAsk.v
theories/SpecRenumber.v
theories/PRenumber.v
theories/ExamplesRenumber.v
theories/PropertiesRenumber.v
theories/SpecAnywhere.v
theories/PAnywhere.v
theories/ExamplesAnywhere.v
theories/PropertiesAnywhere.v
theories/SpecActionWords.v
theories/PActionWords.v
theories/ExamplesActionWords.v
theories/PropertiesActionWords.v
