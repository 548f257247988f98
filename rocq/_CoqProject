-Q theories Verif
theories/Model/GoInt.v
theories/Model/GoFloat.v
theories/Model/GoBase.v
theories/Model/Stats.v
theories/Model/Uniform.v
theories/Model/ExpDecay.v
theories/Spec/OrderStats.v
theories/Proofs/IntFacts.v
theories/Proofs/FloatFacts.v
theories/Proofs/SortFacts.v
theories/Proofs/StatsInt.v
theories/Proofs/ExtFacts.v
theories/Proofs/StatsFloat.v
theories/Proofs/StatsPercentile.v
theories/Props/StatsProps.v
theories/Spec/Reservoir.v
theories/Proofs/ListFacts.v
theories/Proofs/UniformProofs.v
theories/Spec/Uniformity.v
theories/Proofs/UniformityProofs.v
theories/Props/UniformProps.v
theories/Proofs/HeapOrder.v
theories/Proofs/ExpDecayHeap.v
theories/Spec/DecaySpec.v
theories/Proofs/ExpDecayProofs.v
theories/Props/ExpDecayProps.v
theories/Model/Conc.v
theories/Model/CounterGauge.v
theories/Spec/Linearizability.v
theories/Spec/Traces.v
theories/Proofs/LinProofs.v
theories/Spec/Objects.v
theories/Proofs/CounterProofs.v
theories/Props/CounterProps.v
theories/Model/Ewma.v
theories/Spec/EwmaSpec.v
theories/Proofs/EwmaSeq.v
theories/Proofs/PcProofs.v
theories/Proofs/EwmaConc.v
theories/Props/EwmaProps.v
theories/Model/Meter.v
theories/Proofs/MeterPc.v
theories/Spec/MeterSpec.v
theories/Proofs/LogFacts.v
theories/Proofs/MeterInv.v
theories/Proofs/MeterRun.v
theories/Proofs/MeterPub.v
theories/Proofs/MeterApart.v
theories/Proofs/MeterEwma.v
theories/Proofs/MeterFinal.v
theories/Props/MeterProps.v
theories/Model/World.v
theories/Model/Runtime.v
theories/Proofs/WorldBase.v
theories/Proofs/WorldOps.v
theories/Proofs/WorldCalls.v
theories/Proofs/WorldStep.v
theories/Spec/ApiSpec.v
theories/Proofs/WorldReads.v
theories/Proofs/WorldSnap.v
theories/Proofs/NilProofs.v
theories/Proofs/WorldFrame.v
theories/Spec/RegistrySpec.v
theories/Spec/TimerSpec.v
theories/Spec/HealthSpec.v
theories/Proofs/RegistryProofs.v
theories/Proofs/RegistryStep.v
theories/Props/SnapshotProps.v
theories/Proofs/RegistryNew.v
theories/Proofs/MeterFrame.v
theories/Proofs/AliveProofs.v
theories/Proofs/HealthProofs.v
theories/Props/RegistryProps.v
theories/Proofs/TimerPrivate.v
theories/Proofs/TimerHistory.v
theories/Props/TimerProps.v
theories/Model/TimeCall.v
theories/Props/TimeProps.v
theories/Proofs/PcLin.v
theories/Model/TimerConc.v
theories/Props/TimerConcProps.v
theories/Spec/TimerStopSpec.v
theories/Props/TimerStopProps.v
theories/Model/RegistryConc.v
theories/Spec/RegistryConcSpec.v
theories/Proofs/LockDisc.v
theories/Proofs/RegistryCert.v
theories/Proofs/RegistryOps.v
theories/Proofs/RegistryMain.v
theories/Proofs/LinSegments.v
theories/Props/RegistryConcProps.v
theories/Spec/GetAllSpec.v
theories/Proofs/GetAllProofs.v
theories/Props/StopProps.v
theories/Props/HistProps.v
theories/Props/HealthProps.v
theories/Props/GetAllProps.v
theories/Proofs/RuntimeProofs.v
theories/Spec/RuntimeSpec.v
theories/Proofs/ProcProofs.v
theories/Proofs/ProcHistory.v
theories/Proofs/ProcCapture.v
theories/Props/RuntimeProps.v
theories/Props/RuntimePauseProps.v
theories/Props/RuntimeRegProps.v
theories/Props/RuntimeExamples.v
theories/Model/Fmt.v
theories/Model/Duration.v
theories/Model/Report.v
theories/Spec/TextSpec.v
theories/Proofs/TextProofs.v
theories/Spec/ReportSpec.v
theories/Proofs/ReportProofs.v
theories/Proofs/LineProofs.v
theories/Props/ReportProps.v
theories/Spec/WriteSpec.v
theories/Proofs/WriteProofs.v
theories/Props/WriteProps.v
theories/Spec/LogSpec.v
theories/Spec/DurationSpec.v
theories/Proofs/LogProofs.v
theories/Proofs/HealthFree.v
theories/Props/LogProps.v
theories/Proofs/DurationProofs.v
theories/Props/DurationProps.v
theories/Spec/ReadOnlySpec.v
theories/Proofs/ReadOnlyProofs.v
theories/Proofs/ReportProgProofs.v
theories/Props/ReadOnlyProps.v
theories/Model/Send.v
theories/Spec/SendSpec.v
theories/Proofs/SendProofs.v
theories/Props/SendProps.v
theories/Model/Expvar.v
theories/Spec/ExpvarSpec.v
theories/Proofs/ExpvarProofs.v
theories/Props/ExpvarProps.v
theories/Model/Json.v
theories/Spec/JsonSpec.v
theories/Proofs/JsonProofs.v
theories/Props/JsonProps.v
theories/Model/ExpPrint.v
theories/Spec/JsonText.v
theories/Spec/ExpPrintSpec.v
theories/Proofs/JsonTextProofs.v
theories/Proofs/ExpPrintProofs.v
theories/Props/ExpPrintProps.v
theories/Model/JsonQuote.v
theories/Spec/JsonReadSpec.v
theories/Proofs/JsonReadProofs.v
theories/Props/JsonReadProps.v
theories/Model/Librato.v
theories/Spec/LibratoSpec.v
theories/Proofs/LibratoProofs.v
theories/Props/LibratoProps.v
theories/Model/SortRace.v
theories/Proofs/SortRaceProofs.v
theories/Props/SortRaceProps.v
theories/Model/Mutex.v
theories/Model/SampleConc.v
theories/Spec/MutexSpec.v
theories/Spec/SampleSpec.v
theories/Proofs/MutexProofs.v
theories/Proofs/SampleConcProofs.v
theories/Props/SampleConcProps.v
theories/Model/ExpvarConc.v
theories/Spec/ExpvarConcSpec.v
theories/Proofs/ExpvarConcProofs.v
theories/Proofs/ExpvarLostProofs.v
theories/Props/ExpvarConcProps.v
theories/Model/LibratoPost.v
theories/Spec/LibratoPostSpec.v
theories/Proofs/LibratoPostProofs.v
theories/Props/LibratoPostProps.v
theories/Model/Loops.v
theories/Spec/HistorySpec.v
theories/Proofs/HistoryProofs.v
theories/Proofs/LoopProofs.v
theories/Props/LoopProps.v
theories/Props/LoopExamples.v
theories/Model/Compose.v
theories/Model/Process.v
theories/Spec/ComposeSpec.v
theories/Spec/ProcessSpec.v
theories/Proofs/ComposeProofs.v
theories/Proofs/WorldArrays.v
theories/Proofs/ProcessProofs.v
theories/Props/ComposeProps.v
theories/Spec/MeterHistorySpec.v
theories/Proofs/Origin.v
theories/Proofs/MeterFrame2.v
theories/Proofs/MeterHistory.v
theories/Props/MeterHistoryProps.v
theories/Props/EwmaResponseProps.v
theories/Props/MeanRateProps.v
theories/Spec/ContentSpec.v
theories/Proofs/Calm.v
theories/Proofs/Content.v
theories/Proofs/SampleContent.v
theories/Props/SampleHistoryProps.v
theories/Props/ValueHistoryProps.v
theories/Model/Live.v
theories/Spec/LiveSpec.v
theories/Spec/LiveLinesSpec.v
theories/Proofs/LiveProofs.v
theories/Props/LiveProps.v
theories/Props/LiveLinesProps.v
theories/Model/LiveJson.v
theories/Spec/LiveJsonSpec.v
theories/Props/LiveJsonProps.v
theories/Model/LiveLibrato.v
theories/Spec/LiveLibratoSpec.v
theories/Props/LiveLibratoProps.v
theories/Model/LiveExp.v
theories/Spec/LiveExpSpec.v
theories/Proofs/LiveExpProofs.v
theories/Props/LiveExpProps.v
theories/Model/RuntimeConc.v
theories/Spec/RuntimeConcSpec.v
theories/Proofs/RuntimeConcProofs.v
theories/Props/RuntimeConcProps.v
theories/Proofs/LinSearch.v
theories/Proofs/EwmaLin.v
theories/Props/EwmaLinProps.v
theories/Model/HealthConc.v
theories/Spec/HealthConcSpec.v
theories/Proofs/HealthConcProofs.v
theories/Props/HealthConcProps.v
theories/Spec/VarianceSpec.v
theories/Proofs/VarianceProofs.v
theories/Props/VarianceProps.v
theories/Model/OnceConc.v
theories/Spec/OnceConcSpec.v
theories/Proofs/OnceConcProofs.v
theories/Props/OnceConcProps.v
theories/Props/LiveAloneProps.v
theories/Props/LiveLibratoAloneProps.v
