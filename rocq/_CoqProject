-Q theories Verif
theories/Base.v
theories/TextModel.v
theories/NumModel.v
theories/MapModel.v
theories/ParserModel.v
theories/Str.v
theories/SpecMap.v
theories/SpecUtf8.v
theories/TextProofs.v
theories/MapProofs.v
theories/OrderProofs.v
theories/PropMap.v
theories/SpecNum.v
theories/SpecGrammar.v
theories/StrtodProofs.v
theories/RoundProofs.v
theories/LexProofs.v
theories/SpecMeaning.v
theories/ParserProofs.v
theories/RootProofs.v
theories/UniqueProofs.v
theories/AccessModel.v
theories/SpecTokens.v
theories/TokenProofs.v
theories/SpecRfc.v
theories/RfcProofs.v
theories/FormatProofs.v
theories/WriterModel.v
theories/SpecWrite.v
theories/WriterProofs.v
theories/PropParse.v
theories/PropRfc.v
theories/PropWrite.v
theories/SpecText.v
theories/StringModel.v
theories/StringProofs.v
theories/SpecReport.v
theories/ReportModel.v
theories/ReportProofs.v
theories/DynModel.v
theories/DynProofs.v
theories/PropText.v
theories/PropString.v
theories/SchemaModel.v
theories/SpecSchema.v
theories/SchemaProofs.v
theories/StoreProofs.v
theories/PropSchema.v
theories/FileModel.v
theories/FileProofs.v
theories/HistoryModel.v
theories/SpecHistory.v
theories/HistoryProofs.v
theories/PropFile.v
theories/PropHistory.v
theories/HeapModel.v
theories/HeapProofs.v
theories/HeapOps.v
theories/HeapRemove.v
theories/HeapInsert.v
theories/HeapWorld.v
theories/SpecHeap.v
theories/HeapHistory.v
theories/PropHeap.v
theories/PortableModel.v
theories/SpecPortable.v
theories/PortableProofs.v
theories/PortableValue.v
theories/PropPortable.v
theories/WideModel.v
theories/SpecWide.v
theories/WideProofs.v
theories/PropWide.v
theories/ArrayModel.v
theories/SpecArray.v
theories/ArrayProofs.v
theories/ArrayWorld.v
theories/PropArray.v
theories/OwnModel.v
theories/SpecOwn.v
theories/OwnProofs.v
theories/OwnParse.v
theories/PropOwn.v
theories/ToolsModel.v
theories/SpecTools.v
theories/ToolsProofs.v
theories/NumberedProofs.v
theories/ToolTokens.v
theories/PropTools.v
theories/BasicModel.v
theories/SpecBasic.v
theories/BasicProofs.v
theories/PropBasic.v
theories/FloatTextModel.v
theories/SpecFloatText.v
theories/FloatTextProofs.v
theories/FloatNumber.v
theories/FloatResult.v
theories/PropFloatText.v
theories/ArrayFailModel.v
theories/SpecArrayFail.v
theories/ArrayFailProofs.v
theories/PropArrayFail.v
theories/SpecBuild.v
theories/BuildModel.v
theories/BuildProofs.v
theories/BuildPort.v
theories/PropBuild.v
theories/NarrowModel.v
theories/SpecNarrow.v
theories/NarrowProofs.v
theories/NarrowWrite.v
theories/PropNarrow.v
theories/SpecMath.v
theories/MathModel.v
theories/MathRound.v
theories/MathFast.v
theories/MathFloor.v
theories/MathLog.v
theories/MathDecade.v
theories/MathScale.v
theories/MathExp.v
theories/PropMath.v
theories/PropScale.v
theories/SpecReach.v
theories/NarrowReach.v
theories/PropReach.v
theories/SpecAbort.v
theories/AbortProofs.v
theories/PropAbort.v
theories/WideStrModel.v
theories/PropWideStr.v
theories/SpecKey.v
theories/KeyModel.v
theories/KeyProofs.v
theories/PropKey.v
theories/OwnSerialModel.v
theories/SpecOwnSerial.v
theories/OwnSerialProofs.v
theories/PropOwnSerial.v
theories/StrFailModel.v
theories/SpecStrFail.v
theories/StrFailProofs.v
theories/PropStrFail.v
theories/StackModel.v
theories/SpecStack.v
theories/StackProofs.v
theories/PropStack.v
theories/DeserFailModel.v
theories/SpecDeserFail.v
theories/DeserFailProofs.v
theories/PropDeserFail.v
theories/WriteFailModel.v
theories/SpecCrash.v
theories/WriteFailProofs.v
theories/PropCrash.v
theories/SpecSize.v
theories/SizeProofs.v
theories/PropSize.v
theories/WinFileModel.v
theories/PropWinFile.v
theories/SpecEscape.v
theories/PropEscape.v
theories/UintModel.v
theories/PropUint.v
theories/SpecInitial.v
theories/PropInitial.v
theories/TrigModel.v
theories/SpecTrig.v
theories/TrigProofs.v
theories/PropTrig.v
theories/ClampModel.v
theories/PropClamp.v
theories/SqrtModel.v
theories/SqrtProofs.v
theories/PropSqrt.v
theories/PowModel.v
theories/PropPow.v
theories/Conform.v
