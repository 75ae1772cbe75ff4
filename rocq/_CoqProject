-Q theories Verif
theories/BaseModel.v
theories/HandlerModel.v
theories/AggregateModel.v
theories/IntegrationModel.v
theories/ProcessModel.v
theories/ProjectionModel.v
theories/EngineModel.v
theories/EngineFacts.v
theories/Sim.v
theories/ProgSim.v
theories/StoreSim.v
theories/TraceSpec.v
theories/EnvProof.v
theories/HistSim.v
theories/AggSpec.v
theories/AggProof.v
theories/ProcSpec.v
theories/ProcProof.v
theories/ProcHist.v
theories/OpSpec.v
theories/OpProof.v
theories/OpFacts.v
theories/CancelProof.v
theories/ProcLemmas.v
theories/ProjSpec.v
theories/ProjLemmas.v
theories/ProjCalls.v
theories/ResetLemmas.v
theories/TermSpec.v
theories/TermLemmas.v
theories/EngineSpec.v
theories/EngineLemmas.v
theories/Demo.v
theories/PropsEnvelope.v
theories/PropsAggregate.v
theories/ProcDemo.v
theories/PropsProcess.v
theories/EngDemo.v
theories/PropsEngine.v
theories/SpinDemo.v
theories/RecDemo.v
theories/PropsProjection.v
theories/InflectModel.v
theories/InflectSpec.v
theories/InflectLemmas.v
theories/PropsInflect.v
theories/LocationModel.v
theories/LocationSpec.v
theories/LocationLemmas.v
theories/PropsLocation.v
theories/LoggerModel.v
theories/LoggerSpec.v
theories/LoggerLemmas.v
theories/PropsLogger.v
theories/RunModel.v
theories/RunSpec.v
theories/RunLemmas.v
theories/PropsRun.v
theories/SatisfyModel.v
theories/SatisfySpec.v
theories/SatisfyLemmas.v
theories/PropsSatisfy.v
theories/ReportModel.v
theories/ReportSpec.v
theories/ReportLemmas.v
theories/PropsReport.v
theories/ExpectModel.v
theories/ExpectSpec.v
theories/ExpectLemmas.v
theories/ExpectProof.v
theories/ExpectReport.v
theories/PropsExpect.v
theories/TestModel.v
theories/TestSpec.v
theories/TestScan.v
theories/TestLemmas.v
theories/TestProof.v
theories/TestTimeProof.v
theories/PropsTest.v
theories/PropsTestTime.v
theories/TestScopeProof.v
theories/PropsTestScope.v
theories/PanicSpec.v
theories/PanicProof.v
theories/PropsPanic.v
theories/ConcModel.v
theories/ConcSpec.v
theories/ConcLemmas.v
theories/ConcDemo.v
theories/BufferModel.v
theories/BufferSpec.v
theories/BufferLemmas.v
theories/BufferDemo.v
theories/PropsConc.v
theories/DeliverySpec.v
theories/World.v
theories/DeliveryLemmas.v
theories/DeliveryProof.v
theories/PropsDelivery.v
theories/ExecModel.v
theories/ExecSpec.v
theories/ExecLemmas.v
theories/ExecDemo.v
theories/PropsExec.v
theories/DiffModel.v
theories/DiffSpec.v
theories/DiffLemmas.v
theories/PropsDiff.v
theories/SatConcModel.v
theories/SatConcSpec.v
theories/SatConcLemmas.v
theories/SatConcDone.v
theories/SatConcActs.v
theories/SatConcDemo.v
theories/SatConcAlone.v
theories/PropsSatConc.v
theories/PredProtoModel.v
theories/PredProtoSpec.v
theories/PredProtoLemmas.v
theories/PredProtoReport.v
theories/PredProtoProof.v
theories/PredProtoFacts.v
theories/PredProtoBuiltin.v
theories/PropsPredProto.v
theories/ObsModel.v
theories/ObsSpec.v
theories/ObsPlain.v
theories/ObsHoare.v
theories/ObsOps.v
theories/ObsAgg.v
theories/ObsProc.v
theories/ObsIds.v
theories/ObsPanics.v
theories/ObsLemmas.v
theories/ObsDemo.v
theories/PropsObs.v
theories/ObsClock.v
theories/ActModel.v
theories/ActSpec.v
theories/ActRefine.v
theories/ActScan.v
theories/ActExec.v
theories/ActProof.v
theories/PropsAct.v
theories/FrontModel.v
theories/FrontSpec.v
theories/FrontProof.v
theories/PropsFront.v
theories/MemModel.v
theories/MemLemmas.v
theories/MemScope.v
theories/MemRefine.v
theories/MemEngine.v
theories/MemSpec.v
theories/MemProof.v
theories/PropsMem.v
theories/OptModel.v
theories/OptSpec.v
theories/OptProof.v
theories/PropsOpt.v
theories/LogModel.v
theories/LogSpec.v
theories/LogProof.v
theories/PropsLog.v
theories/VerbatimSpec.v
theories/VerbatimLemmas.v
theories/PropsVerbatim.v
theories/VerbatimReport.v
theories/ConformBase.v
theories/ConformTable.v
theories/PanicTextModel.v
theories/PanicTextSpec.v
theories/PanicTextProof.v
theories/PropsPanicText.v
theories/HeadSpec.v
theories/HeadProof.v
theories/PropsHead.v
theories/StorySpec.v
theories/StoryProof.v
theories/PropsStory.v
theories/NoteModel.v
theories/NoteProof.v
theories/ActNotes.v
theories/NoteSpec.v
theories/NonNote.v
theories/PropsNote.v
theories/NewModel.v
theories/NewSpec.v
theories/NewProof.v
theories/PropsNew.v
theories/WriterModel.v
theories/WriterSpec.v
theories/WriterProof.v
theories/PropsWriter.v
theories/NumSpec.v
theories/NumProof.v
theories/PropsWords.v
theories/ResetSpec.v
theories/ResetProof.v
theories/PropsReset.v
theories/SatConcFinite.v
theories/MeddleSpec.v
theories/MeddleProof.v
theories/PropsMeddle.v
theories/ConformEngine.v
theories/ConformTest.v
theories/ConformMisc.v
theories/ShareModel.v
theories/ShareSpec.v
theories/ShareProof.v
theories/PropsShare.v
theories/DisableSpec.v
theories/DisableProof.v
theories/PropsDisable.v
theories/WallSpec.v
theories/WallProof.v
theories/PropsWall.v
theories/LookSpec.v
theories/LookProof.v
theories/PropsLook.v
theories/ShufSpec.v
theories/ShufProof.v
theories/PropsShuf.v
theories/PassSpec.v
theories/PassProof.v
theories/PropsPass.v
theories/IsoSpec.v
theories/IsoProof.v
theories/PropsIso.v
theories/IdleSpec.v
theories/IdleProof.v
theories/LaterProof.v
theories/PropsIdle.v
theories/IdleTestProof.v
theories/PropsIdleTest.v
