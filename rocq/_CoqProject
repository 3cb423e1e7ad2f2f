-Q theories Verif
theories/Base.v
theories/Utf8.v
theories/ModelBencode.v
theories/ModelMessages.v
theories/ModelTorrent.v
theories/ModelWriter.v
theories/ModelTracker.v
theories/ModelStream.v
theories/ModelPeer.v
theories/ModelActors.v
theories/ModelCache.v
theories/ModelMain.v
theories/ModelSha1.v
theories/SpecBencode.v
theories/ProofBase.v
theories/ProofBencode.v
theories/ProofBencode2.v
theories/PropBencode.v
theories/SpecTorrent.v
theories/ProofTorrent.v
theories/PropTorrent.v
theories/SpecMessages.v
theories/ProofMessages.v
theories/PropMessages.v
theories/SpecTracker.v
theories/ProofTracker.v
theories/PropTracker.v
theories/SpecWriter.v
theories/ProofWriter.v
theories/PropWriter.v
theories/SpecPieces.v
theories/ProofPieces.v
theories/PropPieces.v
theories/SpecStream.v
theories/ProofStream.v
theories/PropStream.v
theories/SpecPeer.v
theories/ProofPeer.v
theories/PropPeer.v
theories/SpecSystem.v
theories/ProofSystem.v
theories/PropSystem.v
theories/SpecSession.v
theories/ProofSession.v
theories/PropSession.v
theories/SpecCache.v
theories/ProofCache.v
theories/ProofCache2.v
theories/PropCache.v
theories/SpecSha1.v
theories/ProofSha1.v
theories/PropSha1.v
theories/SpecLookup.v
theories/ProofLookup.v
theories/PropLookup.v
theories/SpecMain.v
theories/ProofMain.v
theories/PropMain.v
theories/SpecOutput.v
theories/ProofOutput.v
theories/PropOutput.v
theories/SpecWhole.v
theories/ProofWhole.v
theories/PropWhole.v
theories/SpecText.v
theories/ProofText.v
theories/PropText.v
theories/SpecDisk.v
theories/ProofDisk.v
theories/PropDisk.v
theories/SpecExact.v
theories/ProofExact.v
theories/PropExact.v
theories/SpecGrammar.v
theories/ProofGrammar.v
theories/PropGrammar.v
theories/SpecWrites.v
theories/ProofWrites.v
theories/PropWrites.v
theories/SpecForever.v
theories/ProofForever.v
theories/PropForever.v
theories/SpecAsk.v
theories/ProofAsk.v
theories/PropAsk.v
theories/SpecVerdict.v
theories/ProofVerdict.v
theories/ProofHear.v
theories/ProofTold.v
theories/ProofExactly.v
theories/PropVerdict.v
theories/ModelDepth.v
theories/SpecDepth.v
theories/ProofDepth.v
theories/PropDepth.v
theories/ModelClock.v
theories/SpecClock.v
theories/ProofClock.v
theories/ProofTime.v
theories/ProofQuiet.v
theories/ProofBusy.v
theories/ProofLasts.v
theories/PropClock.v
theories/SpecNear.v
theories/ProofNear.v
theories/ProofSuffices.v
theories/PropNear.v
theories/SpecAlike.v
theories/ProofAlike.v
theories/PropAlike.v
theories/ModelMemory.v
theories/SpecMemory.v
theories/ProofMemory.v
theories/PropMemory.v
theories/SpecPlant.v
theories/ProofPlant.v
theories/PropPlant.v
theories/ModelLog.v
theories/SpecLog.v
theories/ProofLog.v
theories/PropLog.v
theories/ModelThreads.v
theories/SpecThreads.v
theories/ProofThreads.v
theories/PropThreads.v
theories/ModelProbe.v
theories/SpecProbe.v
theories/ProofProbe.v
theories/PropProbe.v
theories/SpecGap.v
theories/ProofGap.v
theories/PropGap.v
theories/SpecResume.v
theories/ProofResume.v
theories/PropResume.v
theories/SpecBacklog.v
theories/ProofBacklog.v
theories/PropBacklog.v
theories/ModelLive.v
theories/SpecLive.v
theories/ProofLive.v
theories/ProofServe.v
theories/ProofAnswers.v
theories/PropLive.v
theories/SpecSeeds.v
theories/ProofSeeds.v
theories/PropSeeds.v
theories/RepoTests.v
theories/SpecLink.v
theories/ProofLink.v
theories/ProofBegin.v
theories/PropLink.v
theories/SpecPace.v
theories/ProofPace.v
theories/PropPace.v
theories/ModelTimed.v
theories/SpecTimed.v
theories/ProofTimed.v
theories/ProofFar.v
theories/PropTimed.v
theories/ModelFull.v
theories/SpecFull.v
theories/ProofFull.v
theories/PropFull.v
theories/ModelFullMain.v
theories/SpecFullMain.v
theories/ProofFullMain.v
theories/PropFullMain.v
theories/SpecSpeed.v
theories/ProofSpeed.v
theories/PropSpeed.v
