-Q theories Verif
theories/Base.v
theories/ListFacts.v
theories/HashModel.v
theories/HashProofs.v
theories/SpecHash.v
theories/HashTrace.v
theories/PropsHash.v
theories/ElfModel.v
theories/SpecElf.v
theories/ElfProofs.v
theories/PropsElf.v
theories/ToolModel.v
theories/CoreModel.v
theories/SpecCore.v
theories/SpecRun.v
theories/SpecSync.v
theories/ToolProofs.v
theories/CoreMaps.v
theories/CoreRel.v
theories/CoreLib.v
theories/CoreStep.v
theories/CoreWrap.v
theories/CoreLoop.v
theories/CoreMain.v
theories/CoreEnv.v
theories/CoreSpec.v
theories/CoreFacts.v
theories/CoreHist.v
theories/CoreApi.v
theories/CoreApi2.v
theories/CoreSync.v
theories/CoreSync2.v
theories/CoreSync3.v
theories/CoreWrapAround.v
theories/PropsSync.v
theories/CoreDl.v
theories/CoreApi3.v
theories/PropsCore.v
theories/Demo.v
theories/PropsCoreEx.v
theories/PropsSyncEx.v
theories/LibListModel.v
theories/SpecReg.v
theories/LibListProofs.v
theories/CoreMicro.v
theories/CoreMicro2.v
theories/CoreReg.v
theories/CoreProt.v
theories/PropsReg.v
theories/PropsStall.v
theories/PropsShare.v
theories/CoreRewrap.v
theories/CoreTogether.v
theories/CoreStall.v
theories/CoreShare.v
theories/PropsCore2.v
theories/LibcModel.v
theories/SpecLibc.v
theories/LibcProofs.v
theories/LibcProofs2.v
theories/LibcProofs3.v
theories/LibcProofs4.v
theories/PropsLibc.v
theories/PropsLibc2.v
theories/AuxvModel.v
theories/SpecAuxv.v
theories/AuxvProofs.v
theories/AuxvProofs2.v
theories/PropsAuxv.v
theories/PropsAuxv2.v
theories/AllocModel.v
theories/SpecAlloc.v
theories/AllocProofs.v
theories/AllocProofs2.v
theories/PropsAlloc.v
theories/PropsAlloc2.v
theories/FailModel.v
theories/SpecFail.v
theories/FailProofs.v
theories/FailProofs2.v
theories/FailProofs3.v
theories/FailProofs4.v
theories/PropsFail.v
theories/SpecWrit.v
theories/CoreWrit.v
theories/CoreWrit2.v
theories/PropsWrit.v
theories/PropsLayer.v
theories/LibListLaw.v
theories/PropsRec.v
theories/TraceModel.v
theories/SpecTrace.v
theories/TraceErase.v
theories/TraceProofs.v
theories/TraceWrap.v
theories/TraceMain.v
theories/PropsTrace.v
theories/PropsNames.v
theories/RefModel.v
theories/SpecRef.v
theories/RefProofs.v
theories/RefLaw.v
theories/PropsRef.v
theories/SpecE2E.v
theories/PropsE2E.v
theories/ThreadModel.v
theories/ThreadProofs.v
theories/PropsThread.v
theories/RefCount.v
theories/PropsRefCount.v
theories/MsgModel.v
theories/SpecMsg.v
theories/MsgProofs.v
theories/PropsMsg.v
theories/ArrModel.v
theories/SpecArr.v
theories/ArrProofs.v
theories/ArrProofs2.v
theories/PropsArr.v
theories/PropsFail2.v
theories/SpecOnly.v
theories/CoreIdle.v
theories/OnlyProofs.v
theories/PropsIdle.v
theories/SpecGroup.v
theories/CommuteProofs.v
theories/PropsGroup.v
theories/SpecRename.v
theories/RenameProofs.v
theories/PropsRename.v
theories/SpecMemory.v
theories/MemoryProofs.v
theories/PropsMemory.v
theories/TestsCore.v
theories/TestsLibc.v
theories/FilterRef.v
theories/SpecFilterRef.v
theories/PropsFilterRef.v
theories/HashMoments.v
theories/SpecMoments.v
theories/MomentProofs.v
theories/PropsMoments.v
theories/RaceCores.v
theories/SpecTools.v
theories/ToolsProofs.v
theories/PropsTools.v
theories/OverlapModel.v
theories/SpecOverlap.v
theories/OverlapProofs.v
theories/OverlapProofs2.v
theories/OverlapProofs3.v
theories/PropsOverlap.v
theories/MixModel.v
theories/SpecMix.v
theories/MixProofs.v
theories/MixProofs2.v
theories/PropsMix.v
theories/SpecMove.v
theories/MoveProofs.v
theories/PropsMove.v
theories/SpecCost.v
theories/CostProofs.v
theories/CostTable.v
theories/PropsCost.v
theories/RaceModel.v
theories/SpecRace.v
theories/RaceProofs.v
theories/PropsRace.v
theories/WalkModel.v
theories/WalkProofs.v
theories/PropsWalk.v
theories/DuelModel.v
theories/DuelProofs.v
theories/PropsDuel.v
theories/TugModel.v
theories/TugProofs.v
theories/PropsTug.v
theories/ReapModel.v
theories/ReapProofs.v
theories/PropsReap.v
theories/SeekModel.v
theories/SeekProofs.v
theories/PropsSeek.v
theories/StaleModel.v
theories/StaleProofs.v
theories/PropsStale.v
theories/TwinModel.v
theories/TwinProofs.v
theories/PropsTwin.v
theories/PropsSerial.v
