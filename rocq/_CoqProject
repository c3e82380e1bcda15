-Q theories Verif
theories/Base/Go.v
theories/Base/Num.v
theories/Model/Clustering.v
theories/Model/Par.v
theories/Model/Euclid.v
theories/Model/Cosinus.v
theories/Spec/ClusterSpec.v
theories/Spec/ParSpec.v
theories/Spec/SpaceSpec.v
theories/Spec/NearestSpec.v
theories/Proofs/GoLemmas.v
theories/Proofs/NumLaws.v
theories/Proofs/NearestProofs.v
theories/Proofs/ReduceProofs.v
theories/Proofs/ParProofs.v
theories/Proofs/ParReduceProofs.v
theories/Proofs/AssignMain.v
theories/Props/AssignProps.v
theories/Spec/RealSpec.v
theories/Proofs/RealLemmas.v
theories/Proofs/ReduceMain.v
theories/Proofs/EuclidProofs.v
theories/Proofs/EuclidFloat.v
theories/Proofs/CosinusProofs.v
theories/Proofs/SpaceMain.v
theories/Props/ReduceProps.v
theories/Props/SpaceProps.v
theories/Model/Buffer.v
theories/Spec/BufferSpec.v
theories/Proofs/BufferProofs.v
theories/Model/Kmeans.v
theories/Spec/KmeansSpec.v
theories/Spec/FloatSpec.v
theories/Proofs/KmeansProofs.v
theories/Model/KmeansInit.v
theories/Spec/InitSpec.v
theories/Proofs/InitProofs.v
theories/Props/KmeansProps.v
theories/Props/InitProps.v
theories/Props/BufferProps.v
theories/Model/Status.v
theories/Model/Finish.v
theories/Model/Conf.v
theories/Spec/ConfSpec.v
theories/Proofs/ConfProofs.v
theories/Props/ConfProps.v
theories/Model/Streaming.v
theories/Spec/StreamingSpec.v
theories/Proofs/StreamingProofs.v
theories/Model/Heap.v
theories/Spec/HeapSpec.v
theories/Proofs/HeapProofs.v
theories/Props/StreamingProps.v
theories/Model/Dtw.v
theories/Spec/DtwSpec.v
theories/Proofs/DtwProofs.v
theories/Proofs/DtwNum.v
theories/Proofs/DtwInterp.v
theories/Proofs/DtwMain.v
theories/Props/DtwProps.v
theories/Model/Mcmc.v
theories/Model/MultivT.v
theories/Model/LateDistrib.v
theories/Spec/McmcSpec.v
theories/Spec/MultivTSpec.v
theories/Spec/LateSpec.v
theories/Proofs/McmcProofs.v
theories/Proofs/McmcMain.v
theories/Proofs/McmcDirac.v
theories/Proofs/McmcCases.v
theories/Proofs/MultivTProofs.v
theories/Proofs/LateProofs.v
theories/Props/McmcProps.v
theories/Model/CtrlLang.v
theories/Model/CtrlCode.v
theories/Spec/CtrlSpec.v
theories/Proofs/CtrlCheck.v
theories/Proofs/CtrlSound.v
theories/Proofs/CtrlMain.v
theories/Proofs/CtrlTraces.v
theories/Proofs/CtrlNotif.v
theories/Props/CtrlProps.v
theories/Spec/CtrlIterSpec.v
theories/Proofs/CtrlIter.v
theories/Props/CtrlIterProps.v
theories/Model/CtrlSeq.v
theories/Spec/CtrlSeqSpec.v
theories/Proofs/CtrlSeqProofs.v
theories/Proofs/CtrlSeqMain.v
theories/Proofs/CtrlSeqEx.v
theories/Proofs/CtrlSeqTimer.v
theories/Props/CtrlSeqProps.v
theories/Proofs/Represent.v
theories/Proofs/FloatMean.v
theories/Proofs/FloatKmeans.v
theories/Proofs/Converge.v
theories/Proofs/FloatDist.v
theories/Proofs/FloatLoss.v
theories/Props/FloatProps.v
theories/Props/ConvergeProps.v
theories/Model/System.v
theories/Model/SystemMcmc.v
theories/Model/DtwSpace.v
theories/Spec/SystemSpec.v
theories/Proofs/SystemProofs.v
theories/Proofs/SystemBatch.v
theories/Proofs/SystemKmeans.v
theories/Proofs/SystemKmeansBatch.v
theories/Proofs/SystemStreaming.v
theories/Proofs/SystemMain.v
theories/Proofs/SystemRebatch.v
theories/Props/SystemProps.v
theories/Proofs/SystemMcmc.v
theories/Proofs/SystemMcmcMain.v
theories/Proofs/DtwBounded.v
theories/Proofs/DtwSystem.v
theories/Props/SystemMcmcProps.v
theories/Props/DtwSpaceProps.v
theories/Model/Copy.v
theories/Proofs/CopyProofs.v
theories/Props/CopyProps.v
theories/Proofs/FiguresProofs.v
theories/Props/FiguresProps.v
theories/Model/Pace.v
theories/Spec/PaceSpec.v
theories/Proofs/PaceProofs.v
theories/Props/PaceProps.v
theories/Spec/SimSpec.v
theories/Proofs/SimLang.v
theories/Proofs/SimWorld.v
theories/Proofs/SimRun.v
theories/Proofs/SimSeq.v
theories/Proofs/SimCall.v
theories/Proofs/SimMain.v
theories/Proofs/SimSystem.v
theories/Props/SimProps.v
theories/Spec/ExploreSpec.v
theories/Proofs/Explore.v
theories/Proofs/ExploreRun.v
theories/Proofs/ExploreEq.v
theories/Proofs/ExploreSound.v
theories/Proofs/ExploreUse.v
theories/Proofs/ExploreRead.v
theories/Proofs/ExploreEndless.v
theories/Proofs/ExploreOnce.v
theories/Proofs/ExploreCalm.v
theories/Proofs/ExploreTraces.v
theories/Proofs/ExploreMain.v
theories/Props/ExploreProps.v
theories/Model/HeapVec.v
theories/Spec/OwnSpec.v
theories/Proofs/HeapVecProofs.v
theories/Proofs/OwnProofs.v
theories/Props/OwnProps.v
theories/Model/CopyMcmc.v
theories/Spec/CopySpec.v
theories/Proofs/CopyMcmcProofs.v
theories/Props/CopyMcmcProps.v
theories/Model/HeapBuffer.v
theories/Spec/HeapBufferSpec.v
theories/Proofs/HeapBufferProofs.v
theories/Props/HeapBufferProps.v
theories/Model/HeapPar.v
theories/Proofs/HeapParProofs.v
theories/Props/HeapParProps.v
theories/Model/HeapMcmc.v
theories/Spec/HeapMcmcSpec.v
theories/Proofs/HeapMcmcProofs.v
theories/Props/HeapMcmcProps.v
theories/Spec/FloatDtwSpec.v
theories/Proofs/FloatDtw.v
theories/Props/FloatDtwProps.v
theories/Spec/FloatTotalSpec.v
theories/Proofs/FloatTotal.v
theories/Props/FloatTotalProps.v
theories/Spec/FloatCosSpec.v
theories/Proofs/FloatCos.v
theories/Props/FloatCosProps.v
theories/Model/Checked.v
theories/Spec/CheckedSpec.v
theories/Proofs/CheckedProofs.v
theories/Props/CheckedProps.v
theories/Model/RaceBuffer.v
theories/Spec/RaceBufferSpec.v
theories/Proofs/RaceBufferProofs.v
theories/Props/RaceBufferProps.v
theories/Proofs/FloatCycle.v
theories/Spec/RestSpec.v
theories/Proofs/FloatRest.v
theories/Props/CycleProps.v
theories/Spec/GoMathSpec.v
theories/Proofs/McmcStuck.v
theories/Proofs/StuckCases.v
theories/Props/StuckProps.v
theories/Model/InitPanic.v
theories/Spec/InitPanicSpec.v
theories/Proofs/InitPanicProofs.v
theories/Props/InitPanicProps.v
theories/Model/FigMap.v
theories/Spec/FigMapSpec.v
theories/Proofs/FigMapProofs.v
theories/Props/FigMapProps.v
theories/Model/Generators.v
theories/Spec/GeneratorsSpec.v
theories/Proofs/GeneratorsProofs.v
theories/Proofs/GeneratorsWitness.v
theories/Props/GeneratorsProps.v
theories/Model/GenStreaming.v
theories/Proofs/GenStreamingProofs.v
theories/Props/GenStreamingProps.v
