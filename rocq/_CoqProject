-Q theories Verif
theories/Base.v
theories/Lib.v
theories/ModelName.v
theories/SpecName.v
theories/ProofUnpack.v
theories/ProofCopy.v
theories/ProofNameOps.v
theories/ProofNameStr.v
theories/ProofStrName.v
theories/ProofNameMore.v
theories/PropName.v
theories/ModelDescr.v
theories/ModelParse.v
theories/SpecMessage.v
theories/ProofRdata.v
theories/ProofRdata2.v
theories/SpecParsed.v
theories/ProofGroup.v
theories/ProofMessage.v
theories/SpecEncode.v
theories/ProofMono.v
theories/ProofEncode.v
theories/SpecGroup.v
theories/ProofGroup2.v
theories/PropParse.v
theories/ModelRRset.v
theories/SpecRRset.v
theories/ProofRRset.v
theories/ProofDowncase.v
theories/PropRRset.v
theories/Libc.v
theories/ModelFormat.v
theories/SpecFormat.v
theories/ProofFormat.v
theories/ProofInet.v
theories/ProofInet6.v
theories/ProofB64.v
theories/ProofB32.v
theories/ModelTables.v
theories/SpecTables.v
theories/ProofTables.v
theories/PropFormat.v
theories/ModelToStr.v
theories/ModelFromStr.v
theories/SpecText.v
theories/ProofPrint.v
theories/ProofPrint2.v
theories/ProofField.v
theories/ProofVisible.v
theories/ProofRdataText.v
theories/ProofFromStr.v
theories/ProofBitmap.v
theories/ProofSvc.v
theories/ProofRoundTrip.v
theories/ProofRoundTrip2.v
theories/PropText.v
theories/ProofSafe.v
theories/SpecMsgText.v
theories/ProofSafe2.v
theories/ProofOptions.v
theories/ProofMsgText.v
theories/PropSafe.v
theories/ProofFromSafe.v
theories/PropRead.v
theories/ModelVector.v
theories/SpecVector.v
theories/ProofVector.v
theories/PropVector.v
theories/ModelFile.v
theories/SpecFile.v
theories/ProofFile.v
theories/PropFile.v
theories/ModelHeap.v
theories/SpecHeap.v
theories/ProofHeap.v
theories/ProofHeap2.v
theories/ProofHeap3.v
theories/PropHeap.v
theories/ModelHeap2.v
theories/ProofHeap4.v
theories/ProofHeap5.v
theories/ProofHeap6.v
theories/ProofHeap7.v
theories/SpecSane.v
theories/ProofSane.v
theories/ProofHeap8.v
theories/SpecHeap2.v
theories/ProofHeap9.v
theories/PropHeap2.v
theories/PropSane.v
theories/SpecWritten.v
theories/ProofWritten.v
theories/ProofWritten2.v
theories/PropWritten.v
theories/PropCompose.v
theories/ModelQueue.v
theories/SpecQueue.v
theories/ProofQueue.v
theories/ProofQueue2.v
theories/ProofQueue3.v
theories/ProofQueue4.v
theories/PropQueue.v
theories/ModelQueueMutex.v
theories/SpecQueueMutex.v
theories/ProofQueueMutex.v
theories/ProofQueueMutex2.v
theories/PropQueueMutex.v
theories/ModelLibmyHeap.v
theories/SpecLibmyHeap.v
theories/ProofLibmyHeap.v
theories/PropLibmyHeap.v
theories/ModelVarint.v
theories/SpecVarint.v
theories/ProofVarint.v
theories/PropVarint.v
theories/ModelLibmyIp.v
theories/SpecLibmyIp.v
theories/ProofLibmyIp.v
theories/PropLibmyIp.v
theories/ModelLibmyText.v
theories/SpecLibmyText.v
theories/ProofLibmyText.v
theories/PropLibmyText.v
theories/ModelLibmyIo.v
theories/PropLibmyIo.v
theories/ModelLibmyCrcTables.v
theories/ModelLibmyCrc.v
theories/SpecLibmyCrc.v
theories/ProofLibmyCrc.v
theories/ProofLibmyCrc2.v
theories/PropLibmyCrc.v
theories/ModelRace.v
theories/SpecRace.v
theories/ProofRace.v
theories/PropRace.v
theories/SpecStrName.v
theories/ProofStrName2.v
theories/PropStrName.v
theories/SpecRead.v
theories/ProofRead1.v
theories/ProofRead2.v
theories/ProofRead3.v
theories/ProofReadSvc.v
theories/ProofRead4.v
theories/ProofRead5.v
theories/PropReadText.v
theories/SpecLoose.v
theories/ProofLoose1.v
theories/ProofLoose2.v
theories/SpecFault.v
theories/ProofFault.v
theories/PropLoose.v
theories/SpecReadFault.v
theories/ProofReadFault.v
theories/PropReadFault.v
theories/SpecDeliver.v
theories/ProofDeliver.v
theories/PropDeliver.v
theories/SpecFile2.v
theories/ProofFile2.v
theories/PropFile2.v
theories/SpecReject.v
theories/ProofReject.v
theories/PropReject.v
theories/ProofBack.v
theories/ProofBack2.v
theories/PropBack.v
theories/SpecPrint.v
theories/ProofShow1.v
theories/ProofShow2.v
theories/ProofShow3.v
theories/ProofShow4.v
theories/PropPrint.v
theories/SpecPrintMsg.v
theories/ProofShow5.v
theories/PropPrintMsg.v
theories/SpecRawName.v
theories/ProofRawName.v
theories/PropRawName.v
theories/PropRawText.v
theories/SpecFold.v
theories/ProofFold.v
theories/PropFold.v
theories/ModelExamples.v
theories/SpecExamples.v
theories/PropExamples.v
theories/PropExamples2.v
theories/PropExamples3.v
theories/ProofMono2.v
theories/ProofBound.v
theories/PropReach.v
theories/ModelFileset.v
theories/SpecFileset.v
theories/ProofFileset.v
theories/PropFileset.v
theories/ModelList.v
theories/SpecList.v
theories/ProofList.v
theories/PropList.v
theories/ModelLookup3.v
theories/SpecLookup3.v
theories/ProofLookup3.v
theories/PropLookup3.v
theories/ModelSpool.v
theories/SpecSpool.v
theories/PropSpool.v
theories/PropThreadnum.v
theories/ModelGetenv.v
theories/SpecGetenv.v
theories/PropGetenv.v
theories/ModelZonefile.v
theories/SpecZonefile.v
theories/PropZonefile.v
theories/ModelSplay.v
theories/SpecSplay.v
theories/PropSplay.v
theories/ModelRb.v
theories/SpecRb.v
theories/PropRb.v
theories/SpecMsgProg.v
theories/PropMsgProg.v
theories/SpecWord.v
theories/ProofWord.v
theories/PropWord.v
theories/ModelOom.v
theories/SpecOom.v
theories/ProofOom.v
theories/PropOom.v
theories/ModelOom2.v
theories/ProofOom2.v
theories/PropOom2.v
theories/ModelRate.v
theories/SpecRate.v
theories/PropRate.v
theories/ModelArgv.v
theories/SpecArgv.v
theories/PropArgv.v
theories/ModelArgvSize.v
theories/SpecArgvSize.v
theories/PropArgvSize.v
theories/ModelArgvBase.v
theories/PropArgvBase.v
theories/ModelArgvUsize.v
theories/PropArgvUsize.v
theories/SpecArgvOr.v
theories/ModelArgvOr.v
theories/PropArgvOr.v
theories/SpecArgvXor.v
theories/ModelArgvXor.v
theories/PropArgvXor.v
theories/ModelArgvFile.v
theories/PropArgvFile.v
