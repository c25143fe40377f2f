-Q theories Verif
theories/Base.v
theories/JsonIntModel.v
theories/DecimalSpec.v
theories/DecimalProofs.v
theories/JsonIntProofs.v
theories/JsonIntProps.v
theories/JsonStrModel.v
theories/JsonStrSpec.v
theories/JsonStrProofs.v
theories/JsonStrProps.v
theories/JsonFloatModel.v
theories/JsonFloatProofs.v
theories/JsonFloatProps.v
theories/JsonSpec.v
theories/JsonCompModel.v
theories/JsonCompSpec.v
theories/JsonCompProofs.v
theories/JsonCompProps.v
theories/ParseModel.v
theories/ParseSpec.v
theories/ParseProofs.v
theories/ParseReadProofs.v
theories/ParseExprProofs.v
theories/ParseSeqProofs.v
theories/ParseProps.v
theories/MsgfmtModel.v
theories/MsgfmtSpec.v
theories/MsgfmtBytesProofs.v
theories/MsgfmtProofs.v
theories/MsgfmtTopProofs.v
theories/MsgfmtProps.v
theories/CloserModel.v
theories/CloserSpec.v
theories/CloserProps.v
theories/GlsModel.v
theories/GlsSpec.v
theories/GlsProofs.v
theories/GlsProps.v
theories/ConcModel.v
theories/ConcSpec.v
theories/ConcProofs.v
theories/ConcProps.v
theories/AsyncModel.v
theories/AsyncSpec.v
theories/AsyncProofs.v
theories/AsyncProps.v
theories/PoolModel.v
theories/PoolSpec.v
theories/PoolProofs.v
theories/PoolProps.v
theories/StatsModel.v
theories/StatsSpec.v
theories/StatsProofs.v
theories/StatsProps.v
theories/StatsFloatProps.v
theories/StatsMemModel.v
theories/StatsMemSpec.v
theories/StatsMemProofs.v
theories/StatsMemProps.v
theories/CountlogModel.v
theories/CountlogSpec.v
theories/CountlogProofs.v
theories/CountlogProps.v
theories/JsonLexProofs.v
theories/OutputModel.v
theories/OutputSpec.v
theories/OutputProofs.v
theories/OutputProgProofs.v
theories/OutputProps.v
theories/DiffModel.v
theories/DiffSpec.v
theories/DiffProofs.v
theories/DiffBlockProofs.v
theories/DiffStepProofs.v
theories/DiffCodeProofs.v
theories/DiffGroupProofs.v
theories/DiffTextProofs.v
theories/DiffWriteProofs.v
theories/DiffProps.v
theories/DiffRatioModel.v
theories/DiffRatioSpec.v
theories/DiffRatioProofs.v
theories/DiffRatioProps.v
theories/RotationModel.v
theories/RotationSpec.v
theories/RotationProofs.v
theories/RotationProps.v
theories/LumberModel.v
theories/LumberSpec.v
theories/LumberProofs.v
theories/LumberProps.v
theories/MillModel.v
theories/MillSpec.v
theories/MillProofs.v
theories/MillProps.v
theories/SliceModel.v
theories/SliceSpec.v
theories/SliceProofs.v
theories/SliceProps.v
theories/WitchModel.v
theories/WitchSpec.v
theories/WitchProofs.v
theories/WitchProps.v
theories/ReportModel.v
theories/ReportSpec.v
theories/ReportProps.v
theories/AssertModel.v
theories/AssertSpec.v
theories/AssertProofs.v
theories/MustProofs.v
theories/AssertProps.v
theories/MemModel.v
theories/MemSpec.v
theories/MemProofs.v
theories/MemProps.v
theories/ReflModel.v
theories/ReflSpec.v
theories/ReflProofs.v
theories/ReflProps.v
theories/RMapModel.v
theories/RMapSpec.v
theories/RMapProofs.v
theories/RMapProps.v
theories/CheckModel.v
theories/CheckSpec.v
theories/CheckProofs.v
theories/CheckProps.v
theories/TestifyModel.v
theories/TestifySpec.v
theories/TestifyProofs.v
theories/TestifyNumProofs.v
theories/TestifyProps.v
theories/TestifyNumProps.v
theories/TestifyMoreModel.v
theories/TestifyMoreSpec.v
theories/TestifyMoreProofs.v
theories/TestifyMoreProps.v
theories/SpewModel.v
theories/SpewSpec.v
theories/SpewProofs.v
theories/SpewProofs2.v
theories/SpewProofs3.v
theories/SpewProofs4.v
theories/SpewProps.v
theories/SpewFormatSpec.v
theories/SpewFormatProofs.v
theories/SpewFormatProofs2.v
theories/SpewFormatProps.v
theories/EqDiffModel.v
theories/EqDiffProps.v
theories/BypassModel.v
theories/BypassSpec.v
theories/BypassProps.v
theories/RTypeModel.v
theories/RTypeSpec.v
theories/RTypeProps.v
theories/RMethModel.v
theories/RMethProps.v
theories/DumpModel.v
theories/DumpSpec.v
theories/DumpProofs.v
theories/DumpProofs2.v
theories/DumpProps.v
theories/DumpShowSpec.v
theories/DumpShowProofs.v
theories/DumpShowProps.v
theories/SpewPrintModel.v
theories/SpewPrintSpec.v
theories/SpewPrintProofs.v
theories/SpewPrintProps.v
theories/RNilModel.v
theories/RNilProps.v
theories/ViewerModel.v
theories/ViewerSpec.v
theories/ViewerProofs.v
theories/ViewerProps.v
theories/NameIndexModel.v
theories/NameIndexSpec.v
theories/NameIndexProofs.v
theories/NameIndexProps.v
theories/HelperModel.v
theories/HelperSpec.v
theories/HelperProps.v
theories/ForwardModel.v
theories/ForwardProps.v
theories/OnceSpec.v
theories/OnceProps.v
theories/HandlersModel.v
theories/HandlersSpec.v
theories/HandlersProps.v
theories/TimeNameModel.v
theories/TimeNameSpec.v
theories/TimeNameProofs.v
theories/TimeNameProps.v
theories/BackupTimeModel.v
theories/BackupTimeProofs.v
theories/BackupTimeSpec.v
theories/BackupTimeProps.v
theories/KindSpec.v
theories/KindProps.v
theories/RFieldModel.v
theories/RFieldSpec.v
theories/RFieldProofs.v
theories/RFieldProps.v
theories/PipeModel.v
theories/PipeSpec.v
theories/PipeProofs.v
theories/PipeProps.v
theories/RPipeModel.v
theories/RPipeSpec.v
theories/RPipeProofs.v
theories/RPipeProps.v
theories/LogConcModel.v
theories/LogConcSpec.v
theories/LogConcProofs.v
theories/LogConcProps.v
theories/JsonConcModel.v
theories/JsonConcSpec.v
theories/JsonConcProofs.v
theories/JsonConcProps.v
theories/JsonExtModel.v
theories/JsonExtSpec.v
theories/JsonExtProofs.v
theories/JsonExtProps.v
theories/MsgConcModel.v
theories/MsgConcSpec.v
theories/MsgConcProofs.v
theories/MsgConcProps.v
theories/ExecHookModel.v
theories/ExecHookSpec.v
theories/ExecHookProofs.v
theories/ExecHookProps.v
