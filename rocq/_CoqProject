-Q theories Verif
theories/Types.v
theories/Cache.v
theories/Build.v
theories/System.v
theories/InvalidateFacts.v
theories/Prims.v
theories/Invariant.v
theories/MutFacts.v
theories/InvStep.v
theories/Spec.v
theories/ObsFacts.v
theories/OpFacts.v
theories/BuildFacts.v
theories/MutOps.v
theories/StepFacts.v
theories/HistFacts.v
theories/Demo.v
theories/Facts1.v
theories/Props1.v
theories/GcFacts.v
theories/OrderFacts.v
theories/LogFacts.v
theories/Facts2.v
theories/Facts3.v
theories/Props2.v
theories/CohFacts.v
theories/DepFacts.v
theories/RankFacts.v
theories/Props3.v
theories/EvalSpec.v
theories/EvalFacts.v
theories/EvalTotal.v
theories/Props4.v
theories/Machine.v
theories/CodeSpec.v
theories/CodeFacts.v
theories/PlayFacts.v
theories/Props5.v
theories/Utils.v
theories/UtilFacts.v
theories/Props6.v
theories/Rc.v
theories/RcFacts.v
theories/Props7.v
theories/Doc.v
theories/DotSpec.v
theories/DocFacts.v
theories/Props8.v
theories/MoreFacts.v
theories/AfterFacts.v
theories/LeafFacts.v
theories/CycleFacts.v
theories/Props9.v
theories/Interrupt.v
theories/RoughSpec.v
theories/InterruptFacts.v
theories/RoughFacts.v
theories/Props10.v
theories/BombFacts.v
theories/Props11.v
theories/Reference.v
theories/RefFacts.v
theories/RefBuild.v
theories/RefCalls.v
theories/RefLaws.v
theories/Props12.v
theories/Props13.v
theories/Several.v
theories/SeveralFacts.v
theories/Props14.v
theories/Threads.v
theories/ThreadSpec.v
theories/ThreadFacts.v
theories/Props15.v
theories/Watched.v
theories/WatchFacts.v
theories/Props16.v
theories/Owner.v
theories/OwnerFacts.v
theories/Props17.v
theories/MinSpec.v
theories/MinFacts.v
theories/Props18.v
theories/TransFacts.v
theories/TransTotal.v
theories/Props19.v
theories/Storm.v
theories/StormFacts.v
theories/StormStep.v
theories/Props20.v
theories/Conformance.v
theories/DocFail.v
theories/Props21.v
theories/FootSpec.v
theories/FootFacts.v
theories/Props22.v
theories/BinSpec.v
theories/BinFacts.v
theories/Props23.v
theories/Nested.v
theories/NestSpec.v
theories/NestFacts.v
theories/Props24.v
theories/Owned.v
theories/OwnedFacts.v
theories/OwnedCalls.v
theories/OwnedTotal.v
theories/Props25.v
theories/Work.v
theories/WorkFacts.v
theories/Props26.v
theories/Shared.v
theories/SharedFacts.v
theories/SharedBuild.v
theories/SharedCalls.v
theories/Props27.v
theories/Memory.v
theories/MemFacts.v
theories/MemRuns.v
theories/Props28.v
theories/MinOrder.v
theories/Props29.v
theories/EditSpec.v
theories/EditFacts.v
theories/Props30.v
theories/IncFacts.v
theories/Props31.v
theories/WorldSpec.v
theories/WorldFacts.v
theories/Props32.v
theories/MakeSpec.v
theories/MakeFacts.v
theories/Props33.v
theories/ColdFacts.v
theories/Props34.v
theories/AdaptSpec.v
theories/AdaptFacts.v
theories/Props35.v
theories/FrameSpec.v
theories/FrameFacts.v
theories/Props36.v
theories/PlaceSpec.v
theories/PlaceFacts.v
theories/Props37.v
theories/SameSpec.v
theories/SameFacts.v
theories/Props38.v
