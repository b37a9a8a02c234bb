-Q theories Verif
theories/ModelBase.v
theories/ModelEncode.v
theories/ModelFloat.v
theories/ModelValue.v
theories/ModelColumn.v
theories/ModelKey.v
theories/SpecEncode.v
theories/SpecValue.v
theories/LemmasBase.v
theories/LemmasEncode.v
theories/LemmasFloat.v
theories/LemmasKey.v
theories/LemmasValue.v
theories/PropEncode.v
theories/PropKey.v
theories/PropValue.v
theories/ModelIdent.v
theories/SpecIdent.v
theories/LemmasIdent.v
theories/PropIdent.v
theories/ModelStore.v
theories/LemmasTree.v
theories/LemmasStore.v
theories/SpecStore.v
theories/LemmasWorld.v
theories/LemmasHistory.v
theories/LemmasSerial.v
theories/LemmasRows.v
theories/LemmasGob.v
theories/LemmasDemo.v
theories/PropStore.v
theories/SpecTable.v
theories/LemmasTable.v
theories/LemmasContents.v
theories/LemmasTableFacts.v
theories/LemmasTableCalls.v
theories/LemmasTableTypes.v
theories/LemmasDemoTable.v
theories/LemmasTableRefuted.v
theories/PropTable.v
theories/ModelRune.v
theories/ModelTyped.v
theories/SpecTyped.v
theories/SpecBusy.v
theories/LemmasTyped.v
theories/LemmasExec.v
theories/LemmasSelect.v
theories/LemmasTypedTable.v
theories/LemmasBusy.v
theories/LemmasDemoTyped.v
theories/PropTyped.v
theories/ModelEngine.v
theories/SpecEngine.v
theories/LemmasCatalogue.v
theories/LemmasSystemTables.v
theories/LemmasEngineOps.v
theories/LemmasEngineCalls.v
theories/LemmasEngineInit.v
theories/LemmasEngine.v
theories/LemmasMachine.v
theories/LemmasDemoEngine.v
theories/PropEngine.v
theories/ModelSql.v
theories/ModelSession.v
theories/SpecSession.v
theories/LemmasSession.v
theories/LemmasSessions.v
theories/PropSession.v
theories/ModelScanner.v
theories/SpecScanner.v
theories/LemmasScanner.v
theories/LemmasScanText.v
theories/LemmasScanWords.v
theories/LemmasScanTokens.v
theories/LemmasScan.v
theories/LemmasScanAll.v
theories/LemmasScanProps.v
theories/LemmasDemoScan.v
theories/PropScanner.v
theories/ModelParser.v
theories/SpecParser.v
theories/SpecExpr.v
theories/SpecGrammar.v
theories/SpecTokens.v
theories/SpecCreate.v
theories/LemmasAdjust.v
theories/LemmasCreate.v
theories/LemmasRegroup.v
theories/LemmasListRun.v
theories/LemmasGrammar.v
theories/LemmasGrammarExpr.v
theories/LemmasGrammarStmt.v
theories/LemmasGrammarDeref.v
theories/LemmasParserWp.v
theories/LemmasParserSafe.v
theories/LemmasParserEnds.v
theories/LemmasRecover.v
theories/LemmasFuel.v
theories/LemmasParserRun.v
theories/LemmasParser.v
theories/LemmasParserProps.v
theories/LemmasDemoParser.v
theories/PropParser.v
theories/LemmasGrammarLink.v
theories/SpecRecover.v
theories/LemmasResume.v
theories/LemmasDemoGrammar.v
theories/LemmasDemoRecover.v
theories/PropGrammar.v
theories/PropRecover.v
theories/ModelPrint.v
theories/SpecPrint.v
theories/LemmasPieces.v
theories/LemmasPrint.v
theories/LemmasQuote.v
theories/LemmasDemoPrint.v
theories/PropPrint.v
theories/LemmasPrintStmt.v
theories/LemmasDemoPrintStmt.v
theories/PropPrintStmt.v
theories/SpecPosition.v
theories/LemmasPosition.v
theories/LemmasDemoPosition.v
theories/PropPosition.v
theories/SpecAccepts.v
theories/LemmasSound.v
theories/LemmasSoundNames.v
theories/LemmasSoundExpr.v
theories/LemmasSoundDeref.v
theories/LemmasSoundStmt.v
theories/LemmasSoundWords.v
theories/LemmasSoundLink.v
theories/LemmasSoundParseExpr.v
theories/LemmasSoundGrammar.v
theories/LemmasDemoSound.v
theories/LemmasExact.v
theories/LemmasExactExpr.v
theories/LemmasExactStmt.v
theories/LemmasExactBytes.v
theories/LemmasUnique.v
theories/LemmasExactLink.v
theories/LemmasDemoExact.v
theories/PropSound.v
theories/ModelMain.v
theories/SpecMain.v
theories/LemmasMain.v
theories/LemmasDemoMain.v
theories/PropMain.v
theories/ModelTestutil.v
theories/SpecTestutil.v
theories/SpecTestColumns.v
theories/LemmasTestRows.v
theories/LemmasTestParse.v
theories/LemmasTestColumns.v
theories/LemmasDemoTestutil.v
theories/PropTestRows.v
theories/PropTestParse.v
theories/PropTestColumns.v
theories/ModelColumnText.v
theories/ModelStorageTest.v
theories/CheckBase.v
theories/CheckTypes.v
theories/CheckTestutil.v
theories/CheckScanner.v
theories/CheckParser.v
theories/CheckSql.v
theories/CheckStorage.v
theories/CheckEngine.v
theories/CheckTyped.v
theories/SpecColumnText.v
theories/LemmasColumnText.v
theories/LemmasDemoColumnText.v
theories/PropColumnText.v
theories/SpecDriver.v
theories/LemmasDriver.v
theories/LemmasDemoDriver.v
theories/PropDriver.v
theories/SpecCopy.v
theories/LemmasCopy.v
theories/LemmasDemoCopy.v
theories/PropCopy.v
theories/SpecCast.v
theories/LemmasCast.v
theories/PropCast.v
theories/SpecInfo.v
theories/LemmasInfo.v
theories/LemmasDemoInfo.v
theories/PropInfo.v
theories/SpecBreaks.v
theories/LemmasBreaks.v
theories/LemmasDemoBreaks.v
theories/PropBreaks.v
theories/SpecRead.v
theories/LemmasRead.v
theories/LemmasDemoRead.v
theories/PropRead.v
theories/ModelErrorText.v
theories/SpecPlace.v
theories/LemmasPlace.v
theories/LemmasPlaceRange.v
theories/LemmasDemoPlace.v
theories/PropPlace.v
theories/ModelReader.v
theories/SpecReader.v
theories/LemmasReader.v
theories/LemmasDemoReader.v
theories/PropReader.v
theories/SpecAny.v
theories/LemmasAny.v
theories/LemmasDemoAny.v
theories/PropAny.v
theories/ModelParserReader.v
theories/SpecFails.v
theories/LemmasCopyOnly.v
theories/LemmasFails.v
theories/LemmasFailsParse.v
theories/LemmasFailsTold.v
theories/LemmasFailsSession.v
theories/LemmasDemoFails.v
theories/PropFails.v
theories/ModelIdentRace.v
theories/SpecIdentRace.v
theories/LemmasIdentRace.v
theories/LemmasDemoIdentRace.v
theories/PropIdentRace.v
theories/ModelStoreRace.v
theories/SpecStoreRace.v
theories/LemmasStoreRace.v
theories/LemmasStoreLinear.v
theories/LemmasStoreGoes.v
theories/LemmasDemoStoreRace.v
theories/PropStoreRace.v
theories/ModelGot.v
theories/SpecGot.v
theories/LemmasGot.v
theories/LemmasGotRange.v
theories/LemmasDemoGot.v
theories/PropGot.v
