-Q theories Verif
theories/Base.v
theories/IdModel.v
theories/IdSpec.v
theories/IdProofs.v
theories/SpanModel.v
theories/SpanProofs.v
theories/PropIds.v
theories/BinaryModel.v
theories/BinarySpec.v
theories/BinaryProofs.v
theories/PropBinary.v
theories/EncoderModel.v
theories/EncoderSpec.v
theories/EncoderProofs.v
theories/PropKafka.v
theories/LruModel.v
theories/LruSpec.v
theories/LruProofs.v
theories/CacheProofs.v
theories/PropCache.v
theories/JsonModel.v
theories/CodecModel.v
theories/JsonSpec.v
theories/JsonPure.v
theories/JsonProofs.v
theories/JsonSim.v
theories/JsonFacts.v
theories/JsonFuel.v
theories/JsonSafe.v
theories/DocSpec.v
theories/JsonText.v
theories/DocSem.v
theories/DocProofs.v
theories/DocProofs1.v
theories/ParseSpec.v
theories/PoolProofs.v
theories/DocTheorems.v
theories/LooseProofs.v
theories/PropJson.v
theories/PropDocs.v
theories/JaegerModel.v
theories/JaegerSpec.v
theories/JaegerProofs.v
theories/PropJaeger.v
theories/TreeModel.v
theories/TreeSpec.v
theories/TreeProofs.v
theories/CorrectProofs.v
theories/RootProofs.v
theories/PropTree.v
theories/PropCorrect.v
theories/FinishModel.v
theories/FinishSpec.v
theories/FinishProofs.v
theories/FinishRun.v
theories/FinishTheorems.v
theories/FinishWitness.v
theories/PropFinish.v
theories/ForwardModel.v
theories/ForwardSpec.v
theories/ForwardProofs.v
theories/RingModel.v
theories/RingSpec.v
theories/RingProofs.v
theories/PropForward.v
theories/DatadogModel.v
theories/DatadogSpec.v
theories/DatadogProofs.v
theories/DatadogTheorems.v
theories/DatadogDelay.v
theories/PropDatadog.v
theories/HandlerModel.v
theories/HandlerSpec.v
theories/HandlerProofs.v
theories/LooseSpec.v
theories/LooseTheorems.v
theories/PropLoose.v
theories/PropHandlers.v
theories/JsonBound.v
theories/AcceptSpec.v
theories/AcceptProofs.v
theories/PropAccept.v
theories/PipelineModel.v
theories/PipelineSpec.v
theories/PipelineProofs.v
theories/PipelineTheorems.v
theories/PropPipeline.v
theories/HandlerRange.v
theories/SystemModel.v
theories/SystemSpec.v
theories/SystemProofs.v
theories/SystemTheorems.v
theories/SystemOrigin.v
theories/PropSystem.v
theories/MetricsModel.v
theories/MetricsSpec.v
theories/MetricsProofs.v
theories/MetricsTheorems.v
theories/PropMetrics.v
theories/DebugModel.v
theories/DebugSpec.v
theories/DebugProofs.v
theories/DebugOrder.v
theories/PropDebug.v
theories/ReplaySpec.v
theories/ReplayProofs.v
theories/PropReplay.v
theories/ConsumeModel.v
theories/ConsumeSpec.v
theories/ConsumeProofs.v
theories/PropConsume.v
theories/ClusterModel.v
theories/ClusterSpec.v
theories/ClusterProofs.v
theories/ClusterRuns.v
theories/ClusterBlock.v
theories/OversizeWitness.v
theories/ClusterCatch.v
theories/ClusterCommit.v
theories/PropCluster.v
theories/JoinSpec.v
theories/JoinProofs.v
theories/PropJoin.v
theories/WholeSpec.v
theories/WholeProofs.v
theories/StallWitness.v
theories/OverloadWitness.v
theories/PropWhole.v
theories/TagHeapModel.v
theories/TagHeapSpec.v
theories/TagHeapProofs.v
theories/PropTagHeap.v
theories/ConnectSpec.v
theories/ConnectProofs.v
theories/PropConnect.v
theories/GaugeModel.v
theories/GaugeSpec.v
theories/GaugeProofs.v
theories/PropGauge.v
theories/ReadModel.v
theories/ReadSpec.v
theories/ReadProofs.v
theories/PropRead.v
theories/ExactSpec.v
theories/ExactProofs.v
theories/PropExact.v
theories/CountModel.v
theories/CountSpec.v
theories/CountProofs.v
theories/PropCount.v
theories/Conformance.v
theories/StdJsonModel.v
theories/StdJsonSpec.v
theories/StdJsonProofs.v
theories/StdTextProofs.v
theories/StdDocProofs.v
theories/StdSafeProofs.v
theories/StdHttpProofs.v
theories/StdWitness.v
theories/PropJaegerBody.v
theories/TimeModel.v
theories/TimeSpec.v
theories/TimeProofs.v
theories/TimeLooseSpec.v
theories/TimeLoose.v
theories/PropTime.v
theories/SpanJsonModel.v
theories/SpanJsonSpec.v
theories/SpanTextProofs.v
theories/SpanJsonProofs.v
theories/PropSpanJson.v
theories/LiteralModel.v
theories/LiteralSpec.v
theories/LiteralProofs.v
theories/PropLiteral.v
theories/LookModel.v
theories/LookSpec.v
theories/LookProofs.v
theories/PropLook.v
theories/HangSpec.v
theories/HangProofs.v
theories/HangBack.v
theories/HangHttp.v
theories/PropHang.v
theories/SizeSpec.v
theories/SizeProofs.v
theories/AllocModel.v
theories/AllocSpec.v
theories/AllocProofs.v
theories/SizeHttp.v
theories/SizeJaeger.v
theories/PropSize.v
theories/RaceSpec.v
theories/RaceProofs.v
theories/RaceModel.v
theories/RaceTheorems.v
theories/RaceSteps.v
theories/RaceAll.v
theories/RacePoolSpec.v
theories/RacePool.v
theories/PropRace.v
theories/ContentSpec.v
theories/ContentProofs.v
theories/PropContent.v
theories/AccountSpec.v
theories/AccountProofs.v
theories/PropAccount.v
theories/OrderSpec.v
theories/OrderProofs.v
theories/OrderRun.v
theories/OrderWitness.v
theories/PropOrder.v
theories/SliceModel.v
theories/SliceSpec.v
theories/SliceProofs.v
theories/SliceRun.v
theories/PropSlice.v
theories/StackModel.v
theories/StackSpec.v
theories/StackProofs.v
theories/PropStack.v
theories/MaskSpec.v
theories/MaskProofs.v
theories/MaskWitness.v
theories/PropMask.v
theories/FormatSpec.v
theories/FormatProofs.v
theories/FormatHttp.v
theories/FormatWitness.v
theories/PropFormat.v
theories/DecideSpec.v
theories/DecideProofs.v
theories/PropDecide.v
theories/WorkModel.v
theories/WorkSpec.v
theories/WorkProofs.v
theories/PropWork.v
theories/IsolateSpec.v
theories/IsolateProofs.v
theories/IsolateWitness.v
theories/IsolateSystem.v
theories/PropIsolate.v
theories/EagerProofs.v
theories/EagerHang.v
theories/EagerTheorems.v
theories/EagerStack.v
theories/PropEager.v
theories/TextModel.v
theories/TextErase.v
theories/TextPure.v
theories/TextSim.v
theories/TextSpec.v
theories/TextCauses.v
theories/TextTheorems.v
theories/TextHandler.v
theories/TextEager.v
theories/PropText.v
theories/CostModel.v
theories/CostErase.v
theories/CostProofs.v
theories/PropCost.v
theories/HeaderModel.v
theories/HeaderSpec.v
theories/HeaderProofs.v
theories/PropHeader.v
theories/SwapSpec.v
theories/SwapProofs.v
theories/SwapJaeger.v
theories/SwapWitness.v
theories/PropSwap.v
theories/ShiftSpec.v
theories/ShiftProofs.v
theories/ShiftWitness.v
theories/PropShift.v
theories/RenameSpec.v
theories/RenameProofs.v
theories/RenameRun.v
theories/RenameWitness.v
theories/PropRename.v
theories/LayerSpec.v
theories/LayerProofs.v
theories/LayerWitness.v
theories/PropLayer.v
theories/SaidSpec.v
theories/SaidProofs.v
theories/SaidWitness.v
theories/PropSaid.v
theories/PileSpec.v
theories/PileProofs.v
theories/PileWitness.v
theories/PropPile.v
theories/AskedSpec.v
theories/AskedProofs.v
theories/AskedWitness.v
theories/PropAsked.v
theories/UnseenSpec.v
theories/UnseenProofs.v
theories/UnseenWitness.v
theories/PropUnseen.v
theories/ClockSpec.v
theories/ClockProofs.v
theories/ClockWitness.v
theories/PropClock.v
theories/HostsSpec.v
theories/HostsProofs.v
theories/HostsWitness.v
theories/PropHosts.v
theories/ShapeSpec.v
theories/ShapeProofs.v
theories/ShapeWitness.v
theories/PropShape.v
theories/AliasSpec.v
theories/AliasProofs.v
theories/AliasWitness.v
theories/PropAlias.v
theories/EpochSpec.v
theories/EpochProofs.v
theories/EpochWitness.v
theories/PropEpoch.v
theories/LossSpec.v
theories/LossProofs.v
theories/LossWitness.v
theories/PropLoss.v
theories/AgreeSpec.v
theories/AgreeProofs.v
theories/AgreeWitness.v
theories/PropAgree.v
theories/LateSpec.v
theories/LateProofs.v
theories/LateWitness.v
theories/PropLate.v
