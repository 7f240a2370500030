-Q theories Verif
theories/GoBase.v
theories/FloatModel.v
theories/HeapModel.v
theories/MMHeapModel.v
theories/SetModel.v
theories/ProgModel.v
theories/StateModel.v
theories/WalModel.v
theories/HnswModel.v
theories/StoreModel.v
theories/CollModel.v
theories/CallModel.v
theories/LinModel.v
theories/DBModel.v
theories/DiskAnnModel.v
theories/DiskTopModel.v
theories/ProofBase.v
theories/CodecProofs.v
theories/CodecSpec.v
theories/LogProofs.v
theories/FloatProofs.v
theories/PropCodec.v
theories/PropFloat.v
theories/HeapProofs.v
theories/MMHeapProofs.v
theories/PropHeap.v
theories/PropMMHeap.v
theories/PropSet.v
theories/WpProofs.v
theories/HnswProofs.v
theories/IndexProofs.v
theories/StepProofs.v
theories/SeqLog.v
theories/IndexHist.v
theories/StoreProofs.v
theories/CallProofs.v
theories/HistProofs.v
theories/PropIndex.v
theories/PropPar.v
theories/PropMix.v
theories/SimProofs.v
theories/WalProofs.v
theories/HistRun.v
theories/StoreView.v
theories/PropStore.v
theories/PropColl.v
theories/RestoreProofs.v
theories/ParLog.v
theories/ParHist.v
theories/AlignProofs.v
theories/CollWf.v
theories/BatchProofs.v
theories/PropRestore.v
theories/PropBatch.v
theories/LinProofs.v
theories/LinCrash.v
theories/LinTrace.v
theories/LinRun.v
theories/PropLin.v
theories/ExactProofs.v
theories/PropExact.v
theories/LinkProofs.v
theories/PropLink.v
theories/LocalProofs.v
theories/PropLocal.v
theories/DBProofs.v
theories/PropDB.v
theories/DBCrashModel.v
theories/DBCrashProofs.v
theories/PropDBCrash.v
theories/DiskAnnProofs.v
theories/DiskAnnCodec.v
theories/PropDiskAnn.v
theories/DiskTopProofs.v
theories/PropDiskTop.v
theories/PropDiskSnap.v
theories/PropDiskFind.v
theories/FloatReal.v
theories/DistReal.v
theories/PropAccuracy.v
theories/LevelModel.v
theories/LevelReal.v
theories/PropLevel.v
theories/EmbedModel.v
theories/PropEmbed.v
theories/MetaProofs.v
theories/PropMeta.v
theories/LogGrowth.v
theories/PropGrowth.v
theories/AsmModel.v
theories/AsmProofs.v
theories/AsmReal.v
theories/AsmExact.v
theories/PropAsm.v
theories/PathModel.v
theories/PropPath.v
theories/EarlyModel.v
theories/EarlyProofs.v
theories/EarlyRun.v
theories/EarlyTrace.v
theories/EarlyClose.v
theories/PropEarly.v
theories/PropClosed.v
theories/DBConModel.v
theories/DBConSpec.v
theories/DBConProofs.v
theories/DBConTrace.v
theories/DBConAtomic.v
theories/DBConRun.v
theories/PropDBCon.v
theories/LinSafe.v
theories/PropSafe.v
theories/DBConSafe.v
theories/PropDBSafe.v
theories/PtrModel.v
theories/PtrProofs.v
theories/PropPtr.v
theories/IdxProofs.v
theories/PropIdx.v
theories/PropCfg.v
theories/CounterModel.v
theories/PropCounter.v
theories/HandleModel.v
theories/PropHandle.v
theories/LogModel.v
theories/PropLog.v
theories/AliasModel.v
theories/PropAlias.v
