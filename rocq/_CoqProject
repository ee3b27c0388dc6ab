-Q theories Verif
theories/RosTime.v
theories/Scalar.v
theories/LinearMath.v
theories/Cache.v
theories/BufferCore.v
theories/Instances.v
theories/SpecCache.v
theories/CacheProofs.v
theories/CacheQueries.v
theories/CacheTheorems.v
theories/RealSlerp.v
theories/CacheReal.v
theories/PropsCache.v
theories/SpecCore.v
theories/CoreInv.v
theories/Naturality.v
theories/CoreSet.v
theories/WalkSpec.v
theories/LctSpec.v
theories/Bridge.v
theories/WalkMain.v
theories/Sim.v
theories/Forget.v
theories/LookupBase.v
theories/LookupTheorems.v
theories/LookupTree.v
theories/LookupFail.v
theories/History.v
theories/Answers.v
theories/CoreTheorems.v
theories/Malformed.v
theories/NoRange.v
theories/ExampleBuffers.v
theories/PropsCore.v
theories/PropsLookup.v
theories/RealQuat.v
theories/SpecReal.v
theories/RealMatrix.v
theories/LookupPose.v
theories/LookupFixed.v
theories/ExampleReal.v
theories/PropsReal.v
theories/RealEuler.v
theories/RealAxis.v
theories/PropsLinear.v
theories/ChainPath.v
theories/PropsChain.v
theories/Requests.v
theories/SpecRequests.v
theories/RequestProofs.v
theories/RequestHistory.v
theories/PropsRequests.v
theories/Interleaving.v
theories/PropsInterleaving.v
theories/MessageFilter.v
theories/SpecFilter.v
theories/FilterProofs.v
theories/FilterCalm.v
theories/PropsFilter.v
theories/Introspection.v
theories/SpecIntro.v
theories/IntroProofs.v
theories/PropsIntro.v
theories/GeomMsgs.v
theories/SpecGeom.v
theories/GeomProofs.v
theories/GeomReal.v
theories/PropsGeom.v
theories/TfTopics.v
theories/SpecTopics.v
theories/TopicProofs.v
theories/PropsTopics.v
theories/TfBuffer.v
theories/SpecWait.v
theories/WaitProofs.v
theories/PropsWait.v
theories/TfAction.v
theories/SpecAction.v
theories/ActionProofs.v
theories/PropsAction.v
theories/ForeignGeom.v
theories/SpecForeign.v
theories/ForeignProofs.v
theories/PropsForeign.v
theories/SensorMsgs.v
theories/SpecCloud.v
theories/CloudProofs.v
theories/PropsCloud.v
theories/BufferInterface.v
theories/SpecInterface.v
theories/InterfaceProofs.v
theories/PropsInterface.v
theories/SpecLocks.v
theories/Locks.v
theories/LockProofs.v
theories/LockRuns.v
theories/LockExec.v
theories/PropsLocks.v
theories/LinearExtra.v
theories/SpecExtra.v
theories/RealExtra.v
theories/PropsExtra.v
theories/SpecRound.v
theories/FloatErr.v
theories/RoundNorm.v
theories/RoundOps.v
theories/RoundChain.v
theories/RoundLookup.v
theories/ExampleRound.v
theories/PropsRounding.v
theories/SpecInterp.v
theories/SlerpWeights.v
theories/FloatMore.v
theories/RoundSlerp.v
theories/RoundInterp.v
theories/RoundAccept.v
theories/RoundHistory.v
theories/RoundIdeal.v
theories/PropsInterp.v
theories/PyTime.v
theories/PyTimeProofs.v
theories/PyCore.v
theories/SpecPy.v
theories/PyCoreProofs.v
theories/PropsPy.v
theories/PyBuffer.v
theories/SpecPyWait.v
theories/PyWaitProofs.v
theories/PropsPyWait.v
theories/PyListener.v
theories/SpecPyTopics.v
theories/PyListenerProofs.v
theories/PropsPyTopics.v
theories/PyInterface.v
theories/SpecPyInterface.v
theories/PyInterfaceProofs.v
theories/PropsPyInterface.v
theories/PyClient.v
theories/SpecPyClient.v
theories/PropsPyClient.v
theories/LookupDirect.v
theories/StaticPublisher.v
theories/SpecStaticPublisher.v
theories/StaticPublisherProofs.v
theories/PropsStaticPublisher.v
theories/SpecAngles.v
theories/RoundRPY.v
theories/PropsAngles.v
theories/Echo.v
theories/SpecEcho.v
theories/EchoProofs.v
theories/PropsEcho.v
theories/ViewFrames.v
theories/SpecViewFrames.v
theories/ViewFramesProofs.v
theories/PropsViewFrames.v
theories/Diagonalize.v
theories/SpecDiag.v
theories/DiagStep.v
theories/DiagProofs.v
theories/PropsDiag.v
theories/SpecErrors.v
theories/ErrorProofs.v
theories/PropsErrors.v
theories/FilterThreads.v
theories/SpecFilterThreads.v
theories/FilterThreadProofs.v
theories/FilterThreadReady.v
theories/FilterThreadProgress.v
theories/FilterThreadAlone.v
theories/PropsFilterThreads.v
theories/SpecPast.v
theories/PastProofs.v
theories/PastCore.v
theories/PastWalk.v
theories/PastAnswers.v
theories/PropsPast.v
theories/CoreThreads.v
theories/SpecCoreThreads.v
theories/CoreThreadProofs.v
theories/CoreThreadMain.v
theories/PropsCoreThreads.v
theories/SpecApply.v
theories/RoundApply.v
theories/RoundPoint.v
theories/PropsApply.v
theories/ManyFilters.v
theories/SpecManyFilters.v
theories/ManyProofs.v
theories/ManyHistory.v
theories/PropsManyFilters.v
theories/RoundPose.v
theories/SpecPose.v
theories/RoundCarry.v
theories/RoundThrough.v
theories/PropsPose.v
theories/ReEntrant.v
theories/SpecReEntrant.v
theories/ReEntrantProofs.v
theories/PropsReEntrant.v
theories/Network.v
theories/SpecNetwork.v
theories/NetworkProofs.v
theories/PropsNetwork.v
theories/Listeners.v
theories/SpecListeners.v
theories/ListenersProofs.v
theories/PropsListeners.v
theories/SpecMotion.v
theories/MotionProofs.v
theories/PropsMotion.v
theories/SpecMemory.v
theories/MemoryProofs.v
theories/PropsMemory.v
theories/PyRefs.v
theories/SpecRefs.v
theories/RefsProofs.v
theories/RefsMain.v
theories/RefsConvert.v
theories/PropsRefs.v
theories/RoundWrench.v
theories/RoundCov.v
theories/PropsWrench.v
theories/Single.v
theories/SpecSingle.v
theories/SingleErr.v
theories/SingleOps.v
theories/RoundCloud.v
theories/PropsSingle.v
theories/SpecRemote.v
theories/PropsRemote.v
theories/SpecFilterNet.v
theories/PropsFilterNet.v
theories/ServerMain.v
theories/PropsServerMain.v
theories/LinearMore.v
theories/LinearMoreProofs.v
theories/SpecMore.v
theories/SerialProofs.v
theories/Atan2Fast.v
theories/PropsLinearMore.v
theories/Utils.v
theories/PropsUtils.v
theories/CoreLive.v
theories/FramesService.v
theories/SpecFramesService.v
theories/FramesServiceProofs.v
theories/PropsFramesService.v
theories/PropsClampDoubles.v
