-Q theories Verif
theories/Str.v
theories/Num.v
theories/Xml.v
theories/XmlText.v
theories/Reader.v
theories/Schema.v
theories/De.v
theories/Ser.v
theories/Conform.v
theories/Checked.v
theories/Conform2.v
theories/Conform3.v
theories/RunFacts.v
theories/SpecReader.v
theories/ReaderProofs.v
theories/SpecNum.v
theories/NumProofs.v
theories/SpecTree.v
theories/TreeFacts.v
theories/TreeProofs.v
theories/SpecText.v
theories/TextProofs.v
theories/SpecValue.v
theories/ValueProofs.v
theories/SpecStruct.v
theories/StructProofs.v
theories/StructReads.v
theories/AttrReads.v
theories/SpecTyped.v
theories/TypedProofs.v
theories/SpecSafe.v
theories/SafeProofs.v
theories/SpecTerm.v
theories/TermProofs.v
theories/TermReads.v
theories/WordProofs.v
theories/WordReads.v
theories/TextReads.v
theories/SpecSer.v
theories/EqualProofs.v
theories/SpecEnc.v
theories/EncProofs.v
theories/SerProofs.v
theories/SpecWithin.v
theories/WithinProofs.v
theories/SpecRound.v
theories/SpecRoundFlat.v
theories/RoundNames.v
theories/RoundTexts.v
theories/RoundCore.v
theories/RoundFields.v
theories/RoundProofs.v
theories/RoundReads.v
theories/RoundCheck.v
theories/SpecOut.v
theories/OutProofs.v
theories/OutTexts.v
theories/OutBones.v
theories/FuelProofs.v
theories/RoundText.v
theories/IndentProofs.v
theories/SpecSource.v
theories/SourceProofs.v
theories/PropertiesSource.v
theories/CleanProofs.v
theories/SpecStable.v
theories/StableProofs.v
theories/OutCheck.v
theories/MatchProofs.v
theories/PropertiesRound.v
theories/PropertiesReader.v
theories/PropertiesNum.v
theories/PropertiesStruct.v
theories/PropertiesStruct2.v
theories/PropertiesSafe.v
theories/PropertiesSer.v
theories/PropertiesSer2.v
theories/FitsCheck.v
theories/PropertiesStruct3.v
theories/SpecEnum.v
theories/EnumProofs.v
theories/SpecFlat.v
theories/FlatProofs.v
theories/PropertiesFlat.v
theories/SpecInsert.v
theories/InsertProofs.v
theories/AlikeTrees.v
theories/SpecRewrite.v
theories/RewriteProofs.v
theories/RoundFlatCtx.v
theories/RoundFlatFields.v
theories/RoundFlatElem.v
theories/RoundFlatEnum.v
theories/RoundFlatOwn.v
theories/RoundFlatStruct.v
theories/RoundFlatRecord.v
theories/RoundFlatProofs.v
theories/RoundFlatCheck.v
theories/PropertiesRoundFlat.v
theories/AlikeEvents.v
theories/PropertiesInsert.v
theories/SpecComplete.v
theories/CompleteProofs.v
theories/PropertiesComplete.v
theories/SpecCut.v
theories/CutProofs.v
theories/PropertiesCut.v
theories/LocalProofs.v
theories/PropertiesLocal.v
theories/SpecEvolve.v
theories/EvolveProofs.v
theories/PropertiesEvolve.v
theories/SpecAlike.v
theories/AlikeProofs.v
theories/PropertiesAlike.v
theories/InjProofs.v
theories/PropertiesInj.v
theories/Macro.v
theories/SpecMacro.v
theories/MacroProofs.v
theories/PropertiesMacro.v
theories/StableCheck.v
theories/PropertiesStable.v
theories/SpecContent.v
theories/ContentProofs.v
theories/PropertiesContent.v
theories/SpecCause.v
theories/CauseProofs.v
theories/PropertiesCause.v
theories/SpecXml.v
theories/SpecLine.v
theories/GrammarProofs.v
theories/DenoteProofs.v
theories/SpecWritten.v
theories/WrittenProofs.v
theories/PropertiesXml.v
theories/SpecMove.v
theories/MoveProofs.v
theories/PropertiesMove.v
theories/SpecInline.v
theories/InlineProofs.v
theories/PropertiesInline.v
theories/SpecSpread.v
theories/RowProofs.v
theories/SpreadProofs.v
theories/SpreadCheck.v
theories/PropertiesSpread.v
theories/Battery.v
theories/SpecNames.v
theories/NamesProofs.v
theories/PropertiesNames.v
theories/PropertiesRefine.v
theories/SpecDeclared.v
theories/DeclaredProofs.v
theories/PropertiesDeclared.v
theories/SpecTrim.v
theories/TrimProofs.v
theories/TrimWritten.v
theories/PropertiesTrim.v
theories/SpecQuiet.v
theories/QuietProofs.v
theories/PropertiesQuiet.v
theories/SpecSpared.v
theories/SparedProofs.v
theories/SparedCheck.v
theories/PropertiesSpared.v
theories/SpecHalt.v
theories/HaltProofs.v
theories/HaltCheck.v
theories/HaltText.v
theories/HaltRest.v
theories/HaltWitness.v
theories/PropertiesHalt.v
theories/Options.v
theories/SpecOptions.v
theories/OptionsProofs.v
theories/PropertiesOptions.v
theories/SpecPrint.v
theories/PrintProofs.v
theories/PropertiesPrint.v
theories/SpecOwn.v
theories/OwnProofs.v
theories/OwnWrite.v
theories/OwnCases.v
theories/PropertiesOwn.v
theories/SpecStd.v
theories/StdProofs.v
theories/PropertiesStd.v
theories/SpecUtf8.v
theories/Utf8Proofs.v
theories/Utf8Text.v
theories/Utf8De.v
theories/Utf8Ser.v
theories/PropertiesUtf8.v
theories/Bytes.v
theories/SpecBytes.v
theories/BytesProofs.v
theories/PropertiesBytes.v
theories/SpecFull.v
theories/FullProofs.v
theories/PropertiesFull.v
theories/SpecReuse.v
theories/ReuseProofs.v
theories/PropertiesReuse.v
theories/SpecCoherent.v
theories/CoherentProofs.v
theories/PropertiesCoherent.v
theories/SpecTurn.v
theories/TurnProofs.v
theories/TurnText.v
theories/PropertiesTurn.v
theories/SpecLog.v
theories/LogProofs.v
theories/DeclProofs.v
theories/PropertiesLog.v
theories/PropertiesProlog.v
theories/Client.v
theories/SpecClient.v
theories/ClientProofs.v
theories/PropertiesClient.v
