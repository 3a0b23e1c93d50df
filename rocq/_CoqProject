-Q theories Verif
theories/Base.v
theories/Util.v
theories/Middleware.v
theories/Limits.v
theories/Hedge.v
theories/ContractSpec.v
theories/StackSpec.v
theories/Safe.v
theories/SafeUtil.v
theories/SafeMore.v
theories/StackProof.v
theories/Demo.v
theories/StackRefute.v
theories/C01_Contract.v
theories/DriveSpec.v
theories/TranspProof.v
theories/C03_Transparent.v
theories/Layers.v
theories/LayersProof.v
theories/C04_Layers.v
theories/Track.v
theories/SimpleSpec.v
theories/RunInv.v
theories/SimpleProof.v
theories/C05_Simple.v
theories/RetrySpec.v
theories/RetryProof.v
theories/C09_Retry.v
theories/RouteSpec.v
theories/RouteProof.v
theories/C25_Route.v
theories/RateSpec.v
theories/RateProof.v
theories/C37_Rate.v
theories/ConcSpec.v
theories/ConcProof.v
theories/C34_Conc.v
theories/HistoSpec.v
theories/HistoProof.v
theories/HedgeSpec.v
theories/HedgeProof.v
theories/C20_Hedge.v
theories/ReadyCache.v
theories/CacheSpec.v
theories/CacheProof.v
theories/CacheHist.v
theories/CacheCons.v
theories/CacheTop.v
theories/C46_Cache.v
theories/RngSpec.v
theories/RngProof.v
theories/BalanceSpec.v
theories/BalanceProof.v
theories/BalanceTop.v
theories/BalanceMain.v
theories/C50_Balance.v
theories/Buffer.v
theories/BufferSpec.v
theories/BufferBase.v
theories/BufferMoves.v
theories/BufferInv1.v
theories/BufferInv2.v
theories/BufferInv3.v
theories/BufferInv4.v
theories/BufferInv5.v
theories/BufferInv6.v
theories/BufferInv7.v
theories/BufferTop.v
theories/C40_Buffer.v
theories/Tps.v
theories/TpsSpec.v
theories/TpsProof.v
theories/TpsTop.v
theories/TpsRace.v
theories/TpsRun.v
theories/TpsAlone.v
theories/C12_Tps.v
theories/Float.v
theories/FloatProof.v
theories/TpsNew.v
theories/TpsNewSpec.v
theories/TpsNewProof.v
theories/Backoff.v
theories/BackoffSpec.v
theories/BackoffProof.v
theories/BackoffTop.v
theories/C14_TpsNew.v
theories/C16_Backoff.v
theories/CallAll.v
theories/CallAllSpec.v
theories/CallAllQueue.v
theories/CallAllProof.v
theories/CallAllTop.v
theories/CallAllLive.v
theories/C29_CallAll.v
theories/SpawnReady.v
theories/SpawnSpec.v
theories/SpawnProof.v
theories/SpawnLive.v
theories/C28_Spawn.v
theories/SpawnRefute.v
theories/Load.v
theories/LoadSpec.v
theories/LoadProof.v
theories/LoadTop.v
theories/EwmaReal.v
theories/EwmaSpec.v
theories/EwmaProof.v
theories/EwmaTop.v
theories/EwmaClock.v
theories/LoadDemo.v
theories/C53_Load.v
theories/Mock.v
theories/MockSpec.v
theories/MockProof.v
theories/MockStep.v
theories/MockTop.v
theories/MockWake.v
theories/C56_Mock.v
theories/Make.v
theories/MakeSpec.v
theories/MakeProof.v
theories/C57_Make.v
theories/ClosureSpec.v
theories/ClosureProof.v
theories/C03_Closures.v
theories/SelectProof.v
theories/MisuseSpec.v
theories/MisuseProof.v
theories/C60_Misuse.v
theories/WakeSpec.v
theories/WakeProof.v
theories/C61_Wake.v
theories/ShedConcSpec.v
theories/ShedConcProof.v
theories/C62_ShedConc.v
theories/TpsLong.v
theories/StormSpec.v
theories/StormProof.v
theories/C63_Storm.v
theories/SafeCache.v
theories/SafeRest.v
theories/TranspMore.v
theories/MeterSpec.v
theories/MeterProof.v
theories/MeterMore.v
theories/MeterCache.v
theories/MeterTop.v
theories/C64_Amplify.v
theories/FlightSpec.v
theories/FlightProof.v
theories/FlightTop.v
theories/C65_Flight.v
theories/LiveSpec.v
theories/LiveProof.v
theories/LiveMore.v
theories/LiveHedge.v
theories/LiveTop.v
theories/C66_Live.v
theories/UnwindSpec.v
theories/UnwindProof.v
theories/C67_Unwind.v
theories/Builder.v
theories/BuilderSpec.v
theories/BuilderProof.v
theories/C68_Builder.v
theories/LiveCache.v
theories/KeepSpec.v
theories/KeepProof.v
theories/KeepMore.v
theories/KeepTop.v
theories/C69_Keep.v
theories/Arcs.v
theories/LeastSpec.v
theories/LeastProof.v
theories/LeastTop.v
theories/LeastPick.v
theories/C70_Least.v
theories/BehindSpec.v
theories/BehindProof.v
theories/C71_Behind.v
theories/HoldSpec.v
theories/HoldProof.v
theories/HoldTop.v
theories/C72_Hold.v
theories/RoomSpec.v
theories/RoomProof.v
theories/C73_Room.v
theories/BackoffFresh.v
theories/EwmaExact.v
theories/WakeCache.v
theories/RingSpec.v
theories/RingProof.v
theories/RingLoop.v
theories/RingTop.v
theories/RingBal.v
theories/RingBal2.v
theories/C74_Ring.v
theories/RefineSpec.v
theories/RefineProof.v
theories/RefineBal.v
theories/StallSpec.v
theories/StallProof.v
theories/C75_Stall.v
theories/QueueSpec.v
theories/QueueProof.v
theories/C76_Queue.v
theories/RateClock.v
theories/RateClockProof.v
theories/C77_Clock.v
theories/BufSvcSpec.v
theories/BufSvcBase.v
theories/BufSvc.v
theories/BufSvcProof.v
theories/C78_BufSvc.v
theories/ShedBufSpec.v
theories/ShedBufProof.v
theories/C79_ShedBuf.v
theories/ShareSpec.v
theories/ShareProof.v
theories/C80_Share.v
theories/MockEnd.v
theories/SwiftSpec.v
theories/SwiftProof.v
theories/SwiftMore.v
theories/SwiftTop.v
theories/C81_Swift.v
theories/GateSpec.v
theories/GateProof.v
theories/C82_Gate.v
theories/WreckSpec.v
theories/WreckProof.v
theories/C83_Wreck.v
theories/RouteMore.v
theories/CacheDirect.v
theories/PermitSpec.v
theories/PermitProof.v
theories/C84_Permit.v
theories/StowSpec.v
theories/StowProof.v
theories/C85_Stow.v
theories/GatherSpec.v
theories/GatherProof.v
theories/C86_Gather.v
theories/ShedRateSpec.v
theories/ShedRateProof.v
theories/C87_ShedRate.v
theories/WakeSpawn.v
theories/SpawnWakeSpec.v
theories/SpawnWakeProof.v
theories/SpawnWakeRefine.v
theories/C88_SpawnWake.v
theories/WakeAll.v
theories/AllWakeSpec.v
theories/AllWakeProof.v
theories/AllWakeRefine.v
theories/AllWakeLive.v
theories/C89_AllWake.v
theories/EwmaFadeSpec.v
theories/EwmaFade.v
theories/EwmaFadeTop.v
theories/EwmaFadeMain.v
theories/C90_Fade.v
theories/Apart.v
theories/SteerBufSpec.v
theories/SteerBufProof.v
theories/C91_HeadOfLine.v
theories/DocCode.v
theories/SafeDoc.v
theories/DocSpec.v
theories/DocProof.v
theories/C92_Docs.v
theories/Attempts.v
theories/AttemptsSpec.v
theories/AttemptsProof.v
theories/C93_Attempts.v
theories/Patient.v
theories/PatientSpec.v
theories/PatientProof.v
theories/C94_Patient.v
theories/AlgebraSpec.v
theories/AlgebraProof.v
theories/AlgebraLaws.v
theories/AlgebraCong.v
theories/C95_Algebra.v
theories/AlgebraMore.v
theories/InOrderSpec.v
theories/InOrderProof.v
theories/C96_InOrder.v
theories/AlgebraFut.v
