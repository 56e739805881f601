-Q theories Verif

theories/Base/Assoc.v
theories/Base/Float.v
theories/Base/GoBase.v
theories/Base/GoLemmas.v
theories/Base/GoSort.v
theories/Model/Aggregator.v
theories/Model/Annoy.v
theories/Model/Answers.v
theories/Model/CallTree.v
theories/Model/Cluster.v
theories/Model/Codec.v
theories/Model/ConfigFlow.v
theories/Model/Cosine.v
theories/Model/Data.v
theories/Model/Dataset.v
theories/Model/DatasetAll.v
theories/Model/Flood.v
theories/Model/Flow.v
theories/Model/Gossip.v
theories/Model/Http.v
theories/Model/Index.v
theories/Model/IndexSwap.v
theories/Model/Insert.v
theories/Model/Json.v
theories/Model/Lossy.v
theories/Model/Node.v
theories/Model/Path.v
theories/Model/Periodic.v
theories/Model/Pool.v
theories/Model/QueryCache.v
theories/Model/Report.v
theories/Model/Requests.v
theories/Model/RunLock.v
theories/Model/ScanChan.v
theories/Model/ScanConc.v
theories/Model/Search.v
theories/Model/SearchConc.v
theories/Model/SearchStream.v
theories/Model/Serve.v
theories/Model/Services.v
theories/Model/Settings.v
theories/Model/Setup.v
theories/Model/SharedConfig.v
theories/Model/SourceCache.v
theories/Model/Spread.v
theories/Model/Store.v
theories/Model/StoreConc.v
theories/Model/Sync.v
theories/Model/TempFiles.v
theories/Model/Vector.v
theories/Proof/AggP.v
theories/Proof/AgreeP.v
theories/Proof/AngleP.v
theories/Proof/AnnoyP.v
theories/Proof/AnswerP.v
theories/Proof/CallTreeP.v
theories/Proof/CallTreeQ.v
theories/Proof/ClusterP.v
theories/Proof/CodecP.v
theories/Proof/CodecQ.v
theories/Proof/CodecTop.v
theories/Proof/ConfigP.v
theories/Proof/CosineP.v
theories/Proof/CosineQ.v
theories/Proof/DatasetAllP.v
theories/Proof/DatasetP.v
theories/Proof/DotP.v
theories/Proof/ErrorP.v
theories/Proof/ErrorQ.v
theories/Proof/ExactP.v
theories/Proof/ExactQ.v
theories/Proof/ExactR.v
theories/Proof/FloatLibP.v
theories/Proof/FloatP.v
theories/Proof/FloodP.v
theories/Proof/FlowP.v
theories/Proof/GoneP.v
theories/Proof/GossipP.v
theories/Proof/GrammarP.v
theories/Proof/GroupP.v
theories/Proof/HandP.v
theories/Proof/IndexP.v
theories/Proof/IndexSwapP.v
theories/Proof/InsertClusterP.v
theories/Proof/InsertP.v
theories/Proof/IsolationP.v
theories/Proof/JsonP.v
theories/Proof/JsonX.v
theories/Proof/LifetimeP.v
theories/Proof/LossP.v
theories/Proof/MeanP.v
theories/Proof/MergeP.v
theories/Proof/MeshP.v
theories/Proof/MonoP.v
theories/Proof/MonoQ.v
theories/Proof/NearP.v
theories/Proof/NineTenthsP.v
theories/Proof/NodeP.v
theories/Proof/PathP.v
theories/Proof/PoolP.v
theories/Proof/ProvenanceP.v
theories/Proof/QueryCacheP.v
theories/Proof/QuotaP.v
theories/Proof/RegistryP.v
theories/Proof/ReplicaP.v
theories/Proof/RequestP.v
theories/Proof/RoundP.v
theories/Proof/SaversP.v
theories/Proof/SearchP.v
theories/Proof/SearchStreamP.v
theories/Proof/SearchW.v
theories/Proof/SelfP.v
theories/Proof/SelfQ.v
theories/Proof/SetupP.v
theories/Proof/SharedConfigP.v
theories/Proof/SizeP.v
theories/Proof/SpreadP.v
theories/Proof/SpreadQ.v
theories/Proof/StoreConcP.v
theories/Proof/StoreP.v
theories/Proof/StoreQ.v
theories/Proof/SyncB.v
theories/Proof/SyncP.v
theories/Proof/SyncQ.v
theories/Proof/SyncR.v
theories/Proof/SyncStat.v
theories/Proof/TopKP.v
theories/Proof/TouchP.v
theories/Proof/TruncP.v
theories/Proof/VectorP.v
theories/Props/AccuracyProps.v
theories/Props/AcrossProps.v
theories/Props/AgreeProps.v
theories/Props/AngleProps.v
theories/Props/AnnoyProps.v
theories/Props/AnswerOrderProps.v
theories/Props/AnswerProps.v
theories/Props/ArcProps.v
theories/Props/ArrivalProps.v
theories/Props/AverageProps.v
theories/Props/BearProps.v
theories/Props/BigProps.v
theories/Props/BusyIndexProps.v
theories/Props/BusySearchProps.v
theories/Props/BusyStatProps.v
theories/Props/CatchUpProps.v
theories/Props/ChatterProps.v
theories/Props/CloseProps.v
theories/Props/CodecProps.v
theories/Props/ConfigProps.v
theories/Props/CopiesProps.v
theories/Props/CosineProps.v
theories/Props/CrashProps.v
theories/Props/DatasetProps.v
theories/Props/DecodeProps.v
theories/Props/DeletedProps.v
theories/Props/DeliverProps.v
theories/Props/DirectionProps.v
theories/Props/EnoughProps.v
theories/Props/EntriesProps.v
theories/Props/ExactProps.v
theories/Props/FixedProps.v
theories/Props/FlowProps.v
theories/Props/FolderProps.v
theories/Props/ForwardProps.v
theories/Props/FoundProps.v
theories/Props/GoneProps.v
theories/Props/GossipProps.v
theories/Props/GroupTreeProps.v
theories/Props/GroupedProps.v
theories/Props/HandProps.v
theories/Props/HangProps.v
theories/Props/HttpProps.v
theories/Props/IndexCrashProps.v
theories/Props/IndexProps.v
theories/Props/IndexSwapProps.v
theories/Props/InsertProps.v
theories/Props/IsolationProps.v
theories/Props/JoinProps.v
theories/Props/LeakProps.v
theories/Props/LevelProps.v
theories/Props/LifetimeProps.v
theories/Props/LinearProps.v
theories/Props/LongerProps.v
theories/Props/LossProps.v
theories/Props/LostProps.v
theories/Props/MeanProps.v
theories/Props/MemoryProps.v
theories/Props/MergeProps.v
theories/Props/MeshProps.v
theories/Props/MetaProps.v
theories/Props/MomentProps.v
theories/Props/MovingProps.v
theories/Props/NearestProps.v
theories/Props/NodeCrashProps.v
theories/Props/NodeProps.v
theories/Props/OriginProps.v
theories/Props/PeerCrashProps.v
theories/Props/PeriodicProps.v
theories/Props/PoolProps.v
theories/Props/QueryProps.v
theories/Props/RankProps.v
theories/Props/ReachProps.v
theories/Props/ReadWriteProps.v
theories/Props/RenewProps.v
theories/Props/ReplicaProps.v
theories/Props/ReportProps.v
theories/Props/RequestProps.v
theories/Props/RetentionProps.v
theories/Props/RetryProps.v
theories/Props/ScanChanProps.v
theories/Props/ScanProps.v
theories/Props/SearchProps.v
theories/Props/SeenProps.v
theories/Props/SeriesProps.v
theories/Props/ServeProps.v
theories/Props/ServicesProps.v
theories/Props/SettingsProps.v
theories/Props/SettleProps.v
theories/Props/SetupProps.v
theories/Props/SharedConfigProps.v
theories/Props/SnapshotProps.v
theories/Props/SourceCacheProps.v
theories/Props/StoreConcProps.v
theories/Props/StoreProps.v
theories/Props/SureProps.v
theories/Props/SyncProps.v
theories/Props/TempFilesProps.v
theories/Props/TimesProps.v
theories/Props/TogetherProps.v
theories/Props/TrafficProps.v
theories/Props/WinnerProps.v
theories/Spec/AccuracySpec.v
theories/Spec/AgreeSpec.v
theories/Spec/AnnoySpec.v
theories/Spec/AnswerOrderSpec.v
theories/Spec/AnswerSpec.v
theories/Spec/ArcSpec.v
theories/Spec/BigSpec.v
theories/Spec/CacheSpec.v
theories/Spec/ChatterSpec.v
theories/Spec/ClusterSpec.v
theories/Spec/ConfigSpec.v
theories/Spec/DecodeSpec.v
theories/Spec/DeletedSpec.v
theories/Spec/FixedSpec.v
theories/Spec/FlowSpec.v
theories/Spec/FolderSpec.v
theories/Spec/GoneSpec.v
theories/Spec/GossipSpec.v
theories/Spec/GroupSpec.v
theories/Spec/HandSpec.v
theories/Spec/HousekeepingSpec.v
theories/Spec/HttpSpec.v
theories/Spec/IndexSpec.v
theories/Spec/InsertSpec.v
theories/Spec/IsolationSpec.v
theories/Spec/JsonSpec.v
theories/Spec/LifetimeSpec.v
theories/Spec/LinearSpec.v
theories/Spec/LongerSpec.v
theories/Spec/LossSpec.v
theories/Spec/MemorySpec.v
theories/Spec/MergeSpec.v
theories/Spec/MeshSpec.v
theories/Spec/MetaSpec.v
theories/Spec/NearestSpec.v
theories/Spec/NodeSpec.v
theories/Spec/OriginSpec.v
theories/Spec/PoolSpec.v
theories/Spec/ProvenanceSpec.v
theories/Spec/ReachSpec.v
theories/Spec/RegistrySpec.v
theories/Spec/RenewSpec.v
theories/Spec/ReplicaSpec.v
theories/Spec/RequestSpec.v
theories/Spec/RetrySpec.v
theories/Spec/SeenSpec.v
theories/Spec/SeriesSpec.v
theories/Spec/ServeSpec.v
theories/Spec/SettingsSpec.v
theories/Spec/SettleSpec.v
theories/Spec/SetupSpec.v
theories/Spec/SizeSpec.v
theories/Spec/SnapshotSpec.v
theories/Spec/StoreConcSpec.v
theories/Spec/StoreSpec.v
theories/Spec/SureSpec.v
theories/Spec/SyncSpec.v
theories/Spec/Text.v
theories/Spec/TimesSpec.v
theories/Spec/TopK.v
theories/Spec/TrafficSpec.v
theories/Spec/TreeSpec.v
theories/Spec/VectorSpec.v
theories/Spec/Wire.v
