-Q theories Verif
theories/Base.v
theories/BaseFacts.v
theories/Alloc.v
theories/AllocFacts.v
theories/Arena.v
theories/BlinkAlloc.v
theories/ArenaFacts.v
theories/ArenaInv.v
theories/ArenaOps.v
theories/BlinkFacts.v
theories/History.v
theories/HistoryFacts.v
theories/Setup.v
theories/SetupFacts.v
theories/SetupOps.v
theories/SetupOps2.v
theories/SetupOps3.v
theories/SetupProps.v
theories/Concrete.v
theories/Tower.v
theories/Steady.v
theories/SteadyBound.v
theories/AllocProps.v
theories/Properties_Alloc.v
theories/Growth.v
theories/Properties_Growth.v
theories/Conc.v
theories/ConcFacts.v
theories/ConcSteps.v
theories/ConcProps.v
theories/ConcKeep.v
theories/ConcDrain.v
theories/ConcDemo.v
theories/ConcAsk.v
theories/ConcFull.v
theories/ConcAskRun.v
theories/Properties_Conc.v
theories/Properties_ConcAsk.v
theories/Race.v
theories/RaceFacts.v
theories/RaceSteps.v
theories/RaceFoot.v
theories/RaceGrow.v
theories/RaceDemo.v
theories/Properties_Race.v
theories/Cache.v
theories/CacheFacts.v
theories/CacheProps.v
theories/CacheDemo.v
theories/CacheSlots.v
theories/CacheSlotsDemo.v
theories/CacheLive.v
theories/Properties_Cache.v
theories/CacheRace.v
theories/CacheRaceDemo.v
theories/Properties_CacheRace.v
theories/Blink.v
theories/BlinkInv.v
theories/BlinkReset.v
theories/BlinkOps.v
theories/BlinkIter.v
theories/BlinkMain.v
theories/BlinkEnv.v
theories/BlinkLog.v
theories/BlinkYield.v
theories/BlinkProps.v
theories/BlinkFate.v
theories/BlinkUnwind.v
theories/BlinkEntry.v
theories/BlinkDemo.v
theories/BlinkDrop.v
theories/Properties_Blink.v
theories/UnwindDemo.v
theories/Properties_Unwind.v
theories/Drain.v
theories/DrainBlink.v
theories/ZstTwice.v
theories/Properties_Drain.v
theories/Frame.v
theories/Global.v
theories/GlobalFacts.v
theories/GlobalProps.v
theories/GlobalDemo.v
theories/Properties_Global.v
theories/Proxy.v
theories/ProxyFacts.v
theories/ProxyProps.v
theories/ProxyDemo.v
theories/ProxyWarm.v
theories/ProxyWarmDemo.v
theories/ProxyVec.v
theories/ProxyVecDemo.v
theories/Properties_Proxy.v
theories/Send.v
theories/Properties_Send.v
theories/ConcShape.v
theories/Shared.v
theories/SharedFacts.v
theories/SharedProps.v
theories/Properties_Shared.v
theories/GConc.v
theories/GConcFacts.v
theories/GConcProps.v
theories/GConcLive.v
theories/Properties_GConc.v
theories/PConc.v
theories/PConcAsk.v
theories/PConcFacts.v
theories/PConcProps.v
theories/PConcDemo.v
theories/PConcMax.v
theories/Properties_PConc.v
theories/RepoTests.v
theories/Among.v
theories/AmongFacts.v
theories/Crowd.v
theories/CrowdFacts.v
theories/AmongDemo.v
theories/Properties_Among.v
theories/GLocal.v
theories/GLocalFacts.v
theories/GLocalProps.v
theories/GLocalDemo.v
theories/Properties_GLocal.v
theories/Threaded.v
theories/ThreadedFacts.v
theories/ThreadedExact.v
theories/ThreadedCall.v
theories/ThreadedOwn.v
theories/ThreadedContract.v
theories/ThreadedDemo.v
theories/Properties_Threaded.v
theories/ThreadProxy.v
theories/ThreadProxyFacts.v
theories/ThreadProxyDemo.v
theories/Properties_ThreadProxy.v
theories/Wraps.v
theories/WrapsFacts.v
theories/WrapsProps.v
theories/WrapsDemo.v
theories/Properties_Wraps.v
theories/Tasks.v
theories/TasksFacts.v
theories/TasksWarm.v
theories/TasksProps.v
theories/TasksDemo.v
theories/Properties_Tasks.v
theories/Paper.v
theories/PaperFacts.v
theories/PaperDemo.v
theories/Properties_Paper.v
theories/PaperMem.v
theories/PaperMemFacts.v
theories/PaperMemDemo.v
theories/Properties_PaperMem.v
theories/Stray.v
theories/StrayFacts.v
theories/StrayUse.v
theories/StrayConc.v
theories/StrayThread.v
theories/StrayDemo.v
theories/Properties_Stray.v
theories/Param.v
theories/BlinkParam.v
theories/Asks.v
theories/AsksFacts.v
theories/AsksCollect.v
theories/AsksMain.v
theories/AsksDemo.v
theories/Properties_Asks.v
theories/Dirty.v
theories/DirtyFacts.v
theories/DirtyProps.v
theories/DirtyDemo.v
theories/Properties_Dirty.v
theories/Dtor.v
theories/DtorFacts.v
theories/DtorProps.v
theories/DtorDemo.v
theories/Properties_Dtor.v
theories/Diary.v
theories/DiaryFacts.v
theories/DiaryMain.v
theories/DiaryDemo.v
theories/Properties_Diary.v
theories/ProxyPaper.v
theories/ProxyPaperUse.v
theories/ProxyPaperBooks.v
theories/ProxyPaperFacts.v
theories/ProxyPaperDemo.v
theories/Properties_ProxyPaper.v
theories/Layered.v
theories/LayeredFacts.v
theories/LayeredDemo.v
theories/Properties_Layered.v
theories/GlobalPaper.v
theories/GlobalPaperFacts.v
theories/GlobalPaperDemo.v
theories/Properties_GlobalPaper.v
theories/ConcPaper.v
theories/ConcPaperFacts.v
theories/ConcPaperDemo.v
theories/ConcPaperAll.v
theories/Properties_ConcPaper.v
theories/SharedPaper.v
theories/SharedPaperFacts.v
theories/SharedPaperAll.v
theories/SharedPaperDemo.v
theories/Properties_SharedPaper.v
theories/GConcPaper.v
theories/GConcPaperFacts.v
theories/GConcPaperAll.v
theories/GConcPaperDemo.v
theories/Properties_GConcPaper.v
theories/PConcPaper.v
theories/PConcPaperFacts.v
theories/PConcPaperAll.v
theories/PConcPaperDemo.v
theories/Properties_PConcPaper.v
theories/GLocalPaper.v
theories/GLocalPaperFacts.v
theories/GLocalPaperDemo.v
theories/Properties_GLocalPaper.v
theories/StrayGlobal.v
theories/StrayGlobalDemo.v
theories/Properties_StrayGlobal.v
theories/StrayShared.v
theories/StrayPConc.v
theories/StraySharedDemo.v
theories/Properties_StrayShared.v
theories/Initial.v
theories/InitialFacts.v
theories/InitialDemo.v
theories/Properties_Initial.v
theories/ConcInitial.v
theories/ConcInitialDemo.v
theories/Properties_ConcInitial.v
theories/ConcGrowth.v
theories/ConcStampede.v
theories/ConcGrowthDemo.v
theories/Properties_ConcGrowth.v
