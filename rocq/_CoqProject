-Q theories Verif
theories/ActiveProofs.v
theories/ActiveProps.v
theories/ActiveSpec.v
theories/AgreeProofs.v
theories/AgreeProps.v
theories/AgreeSpec.v
theories/AuthModel.v
theories/AuthProofs.v
theories/AuthProps.v
theories/AuthSpec.v
theories/Base.v
theories/CallModel.v
theories/CallProofs.v
theories/CallProps.v
theories/CallSpec.v
theories/CancelRunEnd.v
theories/CancelRunLive.v
theories/CancelRunModel.v
theories/CancelRunOutcome.v
theories/CancelRunProofs.v
theories/CancelRunProps.v
theories/CancelRunSpec.v
theories/CaptureModel.v
theories/CaptureProofs.v
theories/CaptureProps.v
theories/CaptureSpec.v
theories/CliModel.v
theories/CliMoreProps.v
theories/CliProofs.v
theories/CliProps.v
theories/CliSpec.v
theories/CodecModel.v
theories/CodecProofs.v
theories/CodecProps.v
theories/CodecSpec.v
theories/ConnModel.v
theories/ConnProofs.v
theories/ConnProps.v
theories/ConnSpec.v
theories/FetchAttempts.v
theories/FetchModel.v
theories/FetchProofs.v
theories/FetchProps.v
theories/FetchSpec.v
theories/FlattenModel.v
theories/FlattenProps.v
theories/GivenProofs.v
theories/GivenProps.v
theories/GivenSpec.v
theories/HealthModel.v
theories/HealthProofs.v
theories/HealthProps.v
theories/HealthSpec.v
theories/InstanceModel.v
theories/InstanceProofs.v
theories/InstanceProps.v
theories/InstanceSpec.v
theories/JobQueueLemmas.v
theories/JobQueueModel.v
theories/JobQueueProofs.v
theories/JobQueueProps.v
theories/JobQueueSpec.v
theories/JsonCut.v
theories/JsonModel.v
theories/JsonProofs.v
theories/JsonlModel.v
theories/JsonlProofs.v
theories/JunitFileModel.v
theories/JunitFileProofs.v
theories/JunitFileProps.v
theories/JunitFileSpec.v
theories/KeysModel.v
theories/KeysProofs.v
theories/KeysSpec.v
theories/LifeModel.v
theories/LifeProofs.v
theories/LifeProps.v
theories/LifeSpec.v
theories/LinesProps.v
theories/LocksModel.v
theories/LocksProofs.v
theories/LocksProps.v
theories/LocksSpec.v
theories/LoginModel.v
theories/LoginProofs.v
theories/LoginProps.v
theories/LoginSpec.v
theories/ManifestCodecModel.v
theories/ManifestCodecProofs.v
theories/ManifestCodecProps.v
theories/ManifestCodecSpec.v
theories/ManifestFsModel.v
theories/ManifestFsProofs.v
theories/ManifestFsSpec.v
theories/ManifestViewModel.v
theories/ManifestViewProofs.v
theories/NativeCause.v
theories/NativeModel.v
theories/NativeProofs.v
theories/NativeProps.v
theories/NativeSpec.v
theories/OffloadModel.v
theories/OffloadSpec.v
theories/OutcomeModel.v
theories/OutcomeProofs.v
theories/OutcomeProps.v
theories/OutcomeSpec.v
theories/OutputModel.v
theories/OutputProofs.v
theories/OutputProps.v
theories/OutputSpec.v
theories/PersistProps.v
theories/PersisterModel.v
theories/PersisterProofs.v
theories/PersisterProps.v
theories/PersisterSpec.v
theories/PoolModel.v
theories/PoolProofs.v
theories/PoolProps.v
theories/PoolSpec.v
theories/ProtocolModel.v
theories/ProtocolProofs.v
theories/ProtocolProps.v
theories/ProtocolSpec.v
theories/ReportModel.v
theories/ReportProofs.v
theories/ReportProps.v
theories/ReportSpec.v
theories/ReportersModel.v
theories/ReportersProofs.v
theories/ReportersProps.v
theories/ReportersSpec.v
theories/RestartModel.v
theories/RestartMoreProps.v
theories/RestartOnceProps.v
theories/RestartProofs.v
theories/RestartProps.v
theories/RestartSpec.v
theories/ResultsFsModel.v
theories/ResultsFsProofs.v
theories/ResultsFsSpec.v
theories/RetriedEnd.v
theories/RetriedFlat.v
theories/RetriedModel.v
theories/RetriedProofs.v
theories/RetriedProps.v
theories/RetriedSpec.v
theories/RetriedSystem.v
theories/RunAnswers.v
theories/RunCount.v
theories/RunInv.v
theories/RunLemmas.v
theories/RunLift.v
theories/RunModel.v
theories/RunMoreProps.v
theories/RunNext.v
theories/RunOnce.v
theories/RunParts.v
theories/RunProofs.v
theories/RunProps.v
theories/RunSpec.v
theories/RunStateModel.v
theories/RunStateProofs.v
theories/RunStateSpec.v
theories/RunTimers.v
theories/RunnerFeed.v
theories/RunnerLive.v
theories/RunnerModel.v
theories/RunnerProofs.v
theories/RunnerProps.v
theories/RunnerSpec.v
theories/RwxFileModel.v
theories/RwxFileProofs.v
theories/RwxFileProps.v
theories/RwxFileSpec.v
theories/RwxModel.v
theories/RwxMoreProps.v
theories/RwxProofs.v
theories/RwxProps.v
theories/RwxSpec.v
theories/ServerLemmas.v
theories/ServerModel.v
theories/ServerProofs.v
theories/ServerProps.v
theories/ServerSpec.v
theories/SetupModel.v
theories/SetupProofs.v
theories/SetupProps.v
theories/SetupSpec.v
theories/SpellProofs.v
theories/SpellProps.v
theories/SpellSpec.v
theories/StartModel.v
theories/StartProofs.v
theories/StartProps.v
theories/StartSpec.v
theories/StatusModel.v
theories/StoreProps.v
theories/SummaryModel.v
theories/SummaryMoreProps.v
theories/SummaryProofs.v
theories/SummaryProps.v
theories/SummarySpec.v
theories/SystemEnd.v
theories/SystemLive.v
theories/SystemModel.v
theories/SystemOrder.v
theories/SystemProofs.v
theories/SystemProps.v
theories/SystemSpec.v
theories/TellModel.v
theories/TellProofs.v
theories/TellProps.v
theories/TellSpec.v
theories/TermModel.v
theories/TermMoreProps.v
theories/TermProofs.v
theories/TermProps.v
theories/TermSpec.v
theories/TimedModel.v
theories/TimedProofs.v
theories/TimedProps.v
theories/TimedSpec.v
theories/UtilModel.v
theories/UtilProofs.v
theories/UtilProps.v
theories/UtilSpec.v
theories/WireModel.v
theories/WireProofs.v
theories/WireProps.v
theories/WireSpec.v
theories/WireTimeModel.v
theories/WireTimeProps.v
theories/WordsProps.v
theories/WorkerModel.v
theories/WorkerMoreProps.v
theories/WorkerProofs.v
theories/WorkerProps.v
theories/WorkerSetModel.v
theories/WorkerSetProofs.v
theories/WorkerSetProps.v
theories/WorkerSetSpec.v
theories/WorkerSpec.v
theories/WorkerWhyProps.v
