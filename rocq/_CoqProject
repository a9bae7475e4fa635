-Q theories Verif
theories/Base.v
theories/Utf8.v
theories/GoStrings.v
theories/Strtok.v
theories/Folder.v
theories/Unfolder.v
theories/Tokeniser.v
theories/GoTime.v
theories/Types.v
theories/Params.v
theories/ParamTable.v
theories/PropTable.v
theories/Props.v
theories/SecTable.v
theories/Sections.v
theories/Codec.v
theories/Lib.v
theories/Utf8Proofs.v
theories/SpecLines.v
theories/FolderProofs.v
theories/EncodeProofs.v
theories/Sample.v
theories/PropertiesFold.v
theories/UnfolderProofs.v
theories/SpecContent.v
theories/TokeniserProofs.v
theories/NumProofs.v
theories/DecodeProofs.v
theories/PropertiesUnfold.v
theories/SpecText.v
theories/TextProofs.v
theories/SpecDuration.v
theories/DurationProofs.v
theories/BinaryProofs.v
theories/SpecTime.v
theories/TimeProofs.v
theories/ValueProofs.v
theories/PropertiesLines.v
theories/PropertiesValues.v
theories/DateProofs.v
theories/SpecRecur.v
theories/RecurProofs.v
theories/PropertiesTime.v
theories/SpecTree.v
theories/TreeProofs.v
theories/ExactProofs.v
theories/SpecPanic.v
theories/TotalProofs.v
theories/SpecRules.v
theories/ShapeProofs.v
theories/RulesProofs.v
theories/SpecEdits.v
theories/AddProofs.v
theories/CaseProofs.v
theories/PrefixProofs.v
theories/SampleTree.v
theories/PropertiesDecode.v
theories/SpecParams.v
theories/ParamProofs.v
theories/SpecProps.v
theories/PropProofs.v
theories/HangProofs.v
theories/GroupProofs.v
theories/SampleProps.v
theories/PropertiesProps.v
theories/SpecCal.v
theories/CalProofs.v
theories/RoundProofs.v
theories/EncodableProofs.v
theories/SampleCal.v
theories/PropertiesCal.v
theories/SpecValid.v
theories/ValidProofs.v
theories/PropertiesValid.v
theories/SpecRfc.v
theories/SpecOut.v
theories/OutProofs.v
theories/DecodedProofs.v
theories/SampleOut.v
theories/PropertiesOut.v
theories/SpecLine.v
theories/LineProofs.v
theories/SpecComp.v
theories/CompProofs.v
theories/RfcProofs.v
theories/SampleRfc.v
theories/PropertiesRfc.v
theories/SpecKeep.v
theories/KeepProofs.v
theories/SampleKeep.v
theories/PropertiesKeep.v
theories/SpecLang.v
theories/SpecRule.v
theories/LangProofs.v
theories/LangTimeProofs.v
theories/LangDurProofs.v
theories/LangRuleProofs.v
theories/LangRfcProofs.v
theories/SampleLang.v
theories/PropertiesLang.v
theories/SpecWrite.v
theories/WriteProofs.v
theories/WriteOneProofs.v
theories/WriteRfcProofs.v
theories/SampleWrite.v
theories/PropertiesWrite.v
theories/SpecWritten.v
theories/WrittenProofs.v
theories/WrittenDecodedProofs.v
theories/SampleWritten.v
theories/PropertiesWritten.v
theories/StartProofs.v
theories/SpecReaders.v
theories/ReadersProofs.v
theories/SampleReaders.v
theories/PropertiesReaders.v
theories/OnDemand.v
theories/DemandProofs.v
theories/SpecDemand.v
theories/DemandEndProofs.v
theories/DemandPastProofs.v
theories/DemandReadProofs.v
theories/SampleDemand.v
theories/PropertiesDemand.v
theories/SpecBadLine.v
theories/BadLineProofs.v
theories/SpecFail.v
theories/FailProofs.v
theories/FailTextProofs.v
theories/FailMoreProofs.v
theories/SpecTrunc.v
theories/TruncProofs.v
theories/SpecErrors.v
theories/ErrorsProofs.v
theories/SampleFail.v
theories/PropertiesFail.v
theories/SpecCuts.v
theories/SpecStick.v
theories/CutsProofs.v
theories/StickProofs.v
theories/DemandErrProofs.v
theories/DemandStickProofs.v
theories/SampleStick.v
theories/PropertiesStick.v
theories/SampleCuts.v
theories/PropertiesCuts.v
theories/SpecOrder.v
theories/OrderProofs.v
theories/SpecAlone.v
theories/AloneProofs.v
theories/LastModProofs.v
theories/SampleOrder.v
theories/PropertiesOrder.v
theories/LabelTable.v
theories/Messages.v
theories/SpecMessage.v
theories/MessageProofs.v
theories/MessageLineProofs.v
theories/MessageSecProofs.v
theories/MessageValidProofs.v
theories/MessagePathProofs.v
theories/SampleMessage.v
theories/PropertiesMessage.v
theories/SpecSource.v
theories/SourceProofs.v
theories/SampleSource.v
theories/PropertiesSource.v
theories/SpecMachine.v
theories/MachineProofs.v
theories/SampleMachine.v
theories/PropertiesMachine.v
theories/SpecSize.v
theories/SizeProofs.v
theories/SampleSize.v
theories/PropertiesSize.v
theories/SpecMerge.v
theories/MergeProofs.v
theories/SampleMerge.v
theories/PropertiesMerge.v
theories/SpecFull.v
theories/FullProofs.v
theories/SampleFull.v
theories/PropertiesFull.v
theories/RuneTok.v
theories/SpecRune.v
theories/RuneProofs.v
theories/PropertiesRune.v
theories/Stack.v
theories/SpecStack.v
theories/StackProofs.v
theories/SampleStack.v
theories/PropertiesStack.v
theories/SpecUtf.v
theories/UtfProofs.v
theories/UtfReadProofs.v
theories/SampleUtf.v
theories/PropertiesUtf.v
theories/SpecNormal.v
theories/NormalProofs.v
theories/SampleNormal.v
theories/PropertiesNormal.v
theories/Pointers.v
theories/SpecPointers.v
theories/PointersProofs.v
theories/SamplePointers.v
theories/PropertiesPointers.v
theories/SpecPlace.v
theories/PlaceProofs.v
theories/SamplePlace.v
theories/PropertiesPlace.v
theories/SpecInsert.v
theories/InsertProofs.v
theories/SampleInsert.v
theories/PropertiesInsert.v
theories/SpecSpell.v
theories/SpellProofs.v
theories/SampleSpell.v
theories/PropertiesSpell.v
theories/SpecAnywhere.v
theories/AnywhereProofs.v
theories/SampleAnywhere.v
theories/PropertiesAnywhere.v
theories/ShortWrites.v
theories/SpecShortWrites.v
theories/ShortWritesProofs.v
theories/SampleShortWrites.v
theories/PropertiesShortWrites.v
theories/BoxProofs.v
theories/SampleBox.v
theories/PropertiesBox.v
theories/GenFiles.v
theories/Generator.v
theories/SpecGen.v
theories/GenProofs.v
theories/GenPropProofs.v
theories/SampleGen.v
theories/PropertiesGen.v
theories/SpecUnreadable.v
theories/FatalProofs.v
theories/UnreadableProofs.v
theories/SampleUnreadable.v
theories/PropertiesUnreadable.v
theories/AnyReader.v
theories/SpecAnyReader.v
theories/AnyReaderProofs.v
theories/AnyDecodeProofs.v
theories/AnyTextProofs.v
theories/SampleAnyReader.v
theories/PropertiesAnyReader.v
theories/Work.v
theories/SpecWork.v
theories/WorkProofs.v
theories/SampleWork.v
theories/PropertiesWork.v
theories/SpecCalls.v
theories/CallProofs.v
theories/SampleCalls.v
theories/PropertiesCalls.v
theories/SpecFolded.v
theories/FoldedProofs.v
theories/SpecGrow.v
theories/GrowProofs.v
theories/WordProofs.v
theories/SampleGrow.v
theories/PropertiesGrow.v
theories/SpecMoments.v
theories/MomentProofs.v
theories/SampleMoments.v
theories/PropertiesMoments.v
theories/SpecLetters.v
theories/LetterProofs.v
theories/SampleLetters.v
theories/PropertiesLetters.v
theories/SpecMedia.v
theories/MediaProofs.v
theories/SampleMedia.v
theories/PropertiesMedia.v
theories/SpecClock.v
theories/ClockProofs.v
theories/SampleClock.v
theories/PropertiesClock.v
theories/SpecRevise.v
theories/ReviseProofs.v
theories/SampleRevise.v
theories/PropertiesRevise.v
theories/SpecAbroad.v
theories/AbroadProofs.v
theories/SampleAbroad.v
theories/PropertiesAbroad.v
theories/SpecBuilt.v
theories/BuiltProofs.v
theories/SampleBuilt.v
theories/PropertiesBuilt.v
theories/SpecRetimed.v
theories/RetimedProofs.v
theories/SampleRetimed.v
theories/PropertiesRetimed.v
theories/SpecAgain.v
theories/AgainProofs.v
theories/PropertiesAgain.v
theories/SpecLined.v
theories/LinedProofs.v
theories/ZonedProofs.v
theories/SampleLined.v
theories/PropertiesLined.v
theories/BackProofs.v
theories/PropertiesBack.v
theories/UnreadProofs.v
theories/PropertiesUnread.v
theories/SpecReadAs.v
theories/ReadAsProofs.v
theories/ReadAllProofs.v
theories/SampleReadAll.v
theories/PropertiesReadAll.v
theories/RepoEnv.v
theories/RepoTypes.v
theories/RepoTexts.v
theories/RepoInputs.v
theories/RepoTests.v
