-Q theories Verif
theories/Base.v
theories/BitReader.v
theories/Exec.v
theories/Local.v
theories/TsModel.v
theories/SpecTs.v
theories/SpecIO.v
theories/TsProofs.v
theories/TsLocal.v
theories/TsRobust.v
theories/TsReaders.v
theories/TsDefects.v
theories/PropertiesTs.v
theories/Mono.v
theories/Conc.v
theories/ConcProofs.v
theories/PropertiesTsConc.v
theories/PesModel.v
theories/SpecPes.v
theories/PesProofs.v
theories/PesRaw.v
theories/PesLocal.v
theories/After.v
theories/PesReaders.v
theories/PropertiesPes.v
theories/PsModel.v
theories/SpecPs.v
theories/PsProofs.v
theories/PsReaders.v
theories/PsConc.v
theories/PsConcWf.v
theories/PsLocal.v
theories/PropertiesPs.v
theories/VidModel.v
theories/SpecVid.v
theories/VidProofs.v
theories/VidStream.v
theories/VidExt.v
theories/VidLocal.v
theories/PropertiesVidHeaders.v
theories/Huffman.v
theories/VlcTables.v
theories/SpecVlc.v
theories/BlockModel.v
theories/VlcProofs.v
theories/SpecBlock.v
theories/BlockProofs.v
theories/DequantProofs.v
theories/IdctProofs.v
theories/PropertiesBlock.v
theories/MbModel.v
theories/SpecMotion.v
theories/MotionProofs.v
theories/FrameProofs.v
theories/MbProofs.v
theories/PropertiesMotion.v
theories/SpecNext.v
theories/NextProofs.v
theories/SpecPicture.v
theories/CanvasProofs.v
theories/MacroblockProofs.v
theories/MbRunProofs.v
theories/MbStepProofs.v
theories/MbWholeProofs.v
theories/SliceProofs.v
theories/ExampleStream.v
theories/SpecStore.v
theories/StoreProofs.v
theories/PatternProofs.v
theories/ShapeProofs.v
theories/LongProofs.v
theories/PropertiesNext.v
theories/SpecIdct.v
theories/IdctReal.v
theories/IdctRange.v
theories/PropertiesIdct.v
theories/SpecPipe.v
theories/PipeProofs.v
theories/PropertiesPipe.v
theories/SpecEnd.v
theories/EndProofs.v
theories/EndProofs2.v
theories/CountProofs.v
theories/PropertiesEnd.v
theories/CutProofs.v
theories/PropertiesCut.v
theories/PropertiesPsPipe.v
theories/PropertiesResume.v
theories/PropertiesRefuse.v
theories/PropertiesTall.v
theories/PropertiesJoin.v
theories/FormatProofs.v
theories/PropertiesFormat.v
theories/PanicProofs.v
theories/PropertiesPanic.v
theories/StrModel.v
theories/PropertiesStr.v
theories/HeapModel.v
theories/HeapProofs.v
theories/PropertiesShare.v
theories/Conformance.v
theories/SpecDrift.v
theories/DriftProofs.v
theories/PropertiesDrift.v
theories/ChainModel.v
theories/PropertiesChain.v
theories/SpecSyntax.v
theories/SyntaxProofs.v
theories/PropertiesSyntax.v
theories/SpecAccept.v
theories/AcceptProofs.v
theories/SpecAcceptTs.v
theories/AcceptTs.v
theories/PropertiesAccept.v
theories/TsExact.v
theories/SpecExact.v
theories/PropertiesExact.v
theories/SpecExactPes.v
theories/PesExact.v
theories/PropertiesExactPes.v
theories/PropertiesExactPs.v
theories/SpecFaults.v
theories/FaultProofs.v
theories/PropertiesFaults.v
theories/UnitFaults.v
theories/PropertiesUnitFaults.v
theories/SpecPanic.v
theories/CauseProofs.v
theories/PropertiesCause.v
theories/SpecRules.v
theories/RulesProofs.v
theories/ContextProofs.v
theories/ClearProofs.v
theories/PropertiesRight.v
theories/SpecShow.v
theories/ShowProofs.v
theories/PropertiesShow.v
theories/SpecError.v
theories/ErrorProofs.v
theories/PropertiesError.v
theories/SpecFail.v
theories/FailProofs.v
theories/PropertiesFail.v
theories/SpecPackTape.v
theories/PackTapeProofs.v
theories/PropertiesPackTape.v
theories/SpecUnitTape.v
theories/UnitTapeProofs.v
theories/PropertiesUnitTape.v
theories/SpecUnsupported.v
theories/UnsupportedProofs.v
theories/PropertiesUnsupported.v
theories/SpecWindow.v
theories/WindowProofs.v
theories/PropertiesWindow.v
theories/SpecLeft.v
theories/LeftProofs.v
theories/LeftPesProofs.v
theories/PropertiesLeft.v
theories/SpecCertain.v
theories/ForwardProofs.v
theories/PropertiesCertain.v
theories/SpecDecoder.v
theories/DecoderProofs.v
theories/PropertiesDecoder.v
theories/SpecReject.v
theories/RejectProofs.v
theories/PropertiesReject.v
theories/SpecStray.v
theories/StrayProofs.v
theories/StrayStream.v
theories/StrayClear.v
theories/PropertiesStray.v
theories/SampleProofs.v
theories/PropertiesSamples.v
theories/SpecSpill.v
theories/SpillProofs.v
theories/SpillStream.v
theories/PropertiesSpill.v
theories/SpecAround.v
theories/AroundProofs.v
theories/PropertiesAround.v
theories/PropertiesFieldOrder.v
theories/SpecLoss.v
theories/LossProofs.v
theories/PropertiesLoss.v
theories/PropertiesMatrix.v
theories/SpecGap.v
theories/GapProofs.v
theories/PropertiesGap.v
theories/PropertiesCodes.v
theories/SpecSplice.v
theories/PropertiesSplice.v
theories/SpecOpenCut.v
theories/PropertiesOpenCut.v
theories/PropertiesReceivers.v
theories/SpecEdit.v
theories/PropertiesEdit.v
theories/SpecCore.v
theories/PropertiesCore.v
theories/SpecOrder.v
theories/OrderProofs.v
theories/PropertiesOrder.v
theories/SpecRemux.v
theories/PropertiesRemux.v
theories/SpecBare.v
theories/PropertiesBare.v
theories/SpecBareUnits.v
theories/PropertiesBareUnits.v
theories/PropertiesRecut.v
theories/PropertiesAgree.v
theories/PropertiesAgreePs.v
theories/PropertiesAgreeUnits.v
theories/PropertiesRemuxDemux.v
theories/PropertiesBareDemux.v
