-Q theories Verif
theories/PyVal.v
theories/PyLib.v
theories/SortedDequeM.v
theories/PyValFacts.v
theories/Spec.v
theories/SpecDeque.v
theories/BisectFacts.v
theories/ListFacts.v
theories/Families.v
theories/DequeFacts.v
theories/DequeSearch.v
theories/PropsDeque.v
theories/SortedCollM.v
theories/PropsColl.v
theories/BufferReaderM.v
theories/SpecReader.v
theories/ReaderFacts.v
theories/ReaderLoops.v
theories/PropsReader.v
theories/PropsIter.v
theories/PropsPartials.v
theories/BufferSysM.v
theories/SpecLog.v
theories/LogFacts.v
theories/LogReads.v
theories/LogKeepUp.v
theories/PropsLog.v
theories/RWLockM.v
theories/SpecLock.v
theories/LockFacts.v
theories/LockProps.v
theories/LockLive.v
theories/PropsLock.v
theories/PropsStarve.v
theories/StreamBufferM.v
theories/SpecStream.v
theories/StreamFacts.v
theories/StreamLife.v
theories/StreamInv.v
theories/StreamOrderly.v
theories/StreamView.v
theories/StreamReads.v
theories/PropsStreamRead.v
theories/StreamMore.v
theories/PropsStream.v
theories/StreamSourceM.v
theories/StreamWithM.v
theories/SourceRaceM.v
theories/SpecSource.v
theories/PropsSource.v
theories/PropsWith.v
theories/PropsRace.v
theories/StreamSuffix.v
theories/StreamAttach.v
theories/PropsSession.v
theories/PropsSame.v
theories/PropsConsume.v
theories/NextRaceM.v
theories/PropsNextRace.v
theories/PropsLate.v
theories/AttachRaceM.v
theories/PropsAttach.v
theories/PropsOpenRace.v
theories/SourcesM.v
theories/SpecSources.v
theories/SourcesFacts.v
theories/PropsSources.v
theories/SourceIterM.v
theories/PropsSourceIter.v
theories/UtilM.v
theories/SpecUtil.v
theories/PropsUtil.v
theories/ReaderClassM.v
theories/SpecReaderClass.v
theories/PropsReaderClass.v
theories/PropsPartials2.v
theories/ReaderStepsM.v
theories/SpecLin.v
theories/LinFacts.v
theories/LinShape.v
theories/LinSim.v
theories/LinStep.v
theories/LinRun.v
theories/LinSerial.v
theories/PropsLin.v
theories/PropsConc.v
theories/StreamClientM.v
theories/PropsJoin.v
theories/PropsStreamLoop.v
theories/LockInterruptM.v
theories/PropsInterrupt.v
theories/DequeObjM.v
theories/PropsPickle.v
theories/ReaderAttrM.v
theories/PropsAttr.v
theories/TimedM.v
theories/PropsTimed.v
theories/AutoDropM.v
theories/PropsAutoDrop.v
theories/PropsDropIn.v
theories/StreamFaultM.v
theories/PropsFault.v
theories/StreamFineM.v
theories/SpecFine.v
theories/FineOut.v
theories/FineSim.v
theories/FineRun.v
theories/FineHang.v
theories/PropsFine.v
theories/FineLive.v
theories/FineExit.v
theories/PropsExit.v
theories/LinLive.v
theories/PropsLinLive.v
theories/CallbackM.v
theories/PropsCallback.v
theories/ChainM.v
theories/PropsChain.v
theories/WanderM.v
theories/PropsWander.v
theories/SleepM.v
theories/PropsSleep.v
