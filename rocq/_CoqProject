-Q theories Verif
theories/Base.v
theories/IdModel.v
theories/IdSpec.v
theories/IdProofs.v
theories/IdGenModel.v
theories/IdGenSpec.v
theories/IdGenProofs.v
theories/IdProps.v
theories/MemModel.v
theories/MemSpec.v
theories/MemProofs.v
theories/MemProofs2.v
theories/MemProofs3.v
theories/MemProofs4.v
theories/MemProps.v
theories/LinkProofs.v
theories/LinkProps.v
theories/MemWeak.v
theories/PersistModel.v
theories/PersistProofs.v
theories/PersistEveryModel.v
theories/PersistEveryProofs.v
theories/PersistProps.v
theories/LimitModel.v
theories/LimitSpec.v
theories/LimitProofs.v
theories/LimitProps.v
theories/RecentModel.v
theories/RecentSpec.v
theories/RecentProofs.v
theories/RecentProps.v
theories/MultiModel.v
theories/MultiProofs.v
theories/MultiProps.v
theories/ChunkModel.v
theories/ChunkSpec.v
theories/ChunkProofs.v
theories/ChunkProps.v
theories/WireModel.v
theories/WireSpec.v
theories/WireProofs.v
theories/RemoteModel.v
theories/RemoteProofs.v
theories/WireProps.v
theories/StrOrder.v
theories/TimeModel.v
theories/TimeProofs.v
theories/FloatModel.v
theories/NumModel.v
theories/ReflModel.v
theories/ReflSpec.v
theories/ReflProofs.v
theories/ReflProofs2.v
theories/ReflProofs3.v
theories/EventModel.v
theories/EventSpec.v
theories/EventProofs.v
theories/EventProps.v
theories/RecorderModel.v
theories/RecorderSpec.v
theories/RecorderProps.v
theories/TraceModel.v
theories/TraceSpec.v
theories/TraceProps.v
theories/IdJsonModel.v
theories/IdJsonSpec.v
theories/IdJsonProofs.v
theories/IdJsonProps.v
theories/HttpModel.v
theories/HttpSpec.v
theories/HttpProofs.v
theories/HttpProps.v
theories/TransportModel.v
theories/TransportSpec.v
theories/TransportProps.v
theories/ProfModel.v
theories/ProfSpec.v
theories/ProfProofs.v
theories/FloatProofs.v
theories/ProfProps.v
theories/VisModel.v
theories/VisSpec.v
theories/VisProofs.v
theories/VisProps.v
theories/UploadModel.v
theories/UploadProofs.v
theories/UploadProps.v
theories/PageModel.v
theories/PageSpec.v
theories/PageProps.v
theories/Base64Model.v
theories/Base64Proofs.v
theories/AuthModel.v
theories/AuthProps.v
theories/SplitModel.v
theories/SplitProps.v
theories/OtModel.v
theories/OtSpec.v
theories/OtProps.v
theories/PyModel.v
theories/PySpec.v
theories/PyProps.v
theories/WebModel.v
theories/WebSpec.v
theories/WebProofs.v
theories/WebProps.v
theories/ServeModel.v
theories/ServeProps.v
theories/SampleModel.v
theories/SampleProps.v
theories/DisplayModel.v
theories/DisplayProps.v
theories/JsonModel.v
theories/JsonSpec.v
theories/JsonProofs.v
theories/TraceJsonModel.v
theories/TraceJsonProofs.v
theories/TraceJsonProps.v
theories/EndSpec.v
theories/EndProofs.v
theories/EndProps.v
theories/NumSpec.v
theories/NumProofs.v
theories/NumProps.v
theories/AliasModel.v
theories/AliasSpec.v
theories/AliasProofs.v
theories/AliasMulti.v
theories/AliasProps.v
theories/ListenModel.v
theories/ListenSpec.v
theories/ListenProofs.v
theories/ListenProps.v
theories/ChainModel.v
theories/ChainSpec.v
theories/ChainProps.v
theories/ChunkLiveSpec.v
theories/ChunkLiveProofs.v
theories/ChunkLiveProps.v
theories/FieldsModel.v
theories/FieldsProps.v
theories/HttpAnnSpec.v
theories/HttpAnnProps.v
theories/TreeStringModel.v
theories/TreeStringSpec.v
theories/TreeStringProps.v
theories/AnnStringModel.v
theories/AnnStringProps.v
theories/HttpReadProps.v
theories/RecConcModel.v
theories/RecConcSpec.v
theories/RecConcProps.v
theories/SkewSpec.v
theories/SkewProps.v
theories/CacheModel.v
theories/CacheSpec.v
theories/CacheProps.v
theories/WireExtSpec.v
theories/WireExtProps.v
theories/OtSampleModel.v
theories/OtSampleSpec.v
theories/OtSampleProps.v
theories/CalSpec.v
theories/CalProps.v
theories/JsonGramSpec.v
theories/JsonGramProofs.v
theories/JsonGramProofs2.v
theories/UploadTextProps.v
theories/RouteModel.v
theories/RouteSpec.v
theories/RouteProps.v
theories/FlatSpec.v
theories/FlatProofs.v
theories/FlatProps.v
theories/HrefModel.v
theories/HrefSpec.v
theories/HrefProps.v
theories/PickProps.v
theories/MenuModel.v
theories/MenuSpec.v
theories/MenuProofs.v
theories/MenuProps.v
theories/EscModel.v
theories/HtmlSpec.v
theories/EscProps.v
theories/SortModel.v
theories/SortSpec.v
theories/SortProofs.v
theories/SortProps.v
theories/ExportModel.v
theories/ExportProps.v
theories/ModeModel.v
theories/ModeProps.v
theories/DashModel.v
theories/DashProps.v
theories/BoxModel.v
theories/BoxProps.v
theories/NumTextSpec.v
theories/NumTextProps.v
theories/VisTextProps.v
theories/LibEventSpec.v
theories/LibEventProps.v
theories/UploadConcModel.v
theories/UploadConcSpec.v
theories/UploadConcProps.v
theories/DocSpec.v
theories/DocProps.v
theories/WalkModel.v
theories/WalkSpec.v
theories/WalkProofs.v
theories/WalkProps.v
theories/ToldSpec.v
theories/ToldProps.v
theories/LimitFailProps.v
theories/RecentFailModel.v
theories/RecentFailProps.v
theories/DemoModel.v
theories/DemoProps.v
theories/RecentDelModel.v
theories/RecentDelProps.v
theories/LockModel.v
theories/LockSpec.v
theories/LockProofs.v
theories/LockProps.v
theories/SniffModel.v
theories/SniffProps.v
theories/TableModel.v
theories/TableSpec.v
theories/TableProps.v
theories/FailSpec.v
theories/FailProofs.v
theories/FailProps.v
theories/ChartModel.v
theories/ChartProps.v
theories/WrapModel.v
theories/WrapProps.v
theories/GobSpec.v
theories/GobProofs.v
theories/RestartModel.v
theories/RestartSpec.v
theories/RestartProofs.v
theories/RestartProps.v
theories/StackModel.v
theories/StackSpec.v
theories/StackProofs.v
theories/StackProps.v
theories/OtTreeSpec.v
theories/OtTreeProps.v
theories/WebappModel.v
theories/WebappProps.v
theories/MountModel.v
theories/MountSpec.v
theories/MountProps.v
theories/PtrProps.v
theories/LossSpec.v
theories/LossProofs.v
theories/LossProps.v
theories/LossRecentProps.v
theories/LossTreeProps.v
theories/LossEntryProps.v
theories/LossRecentTreeProps.v
