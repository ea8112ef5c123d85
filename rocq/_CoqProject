-Q theories Verif
theories/Base.v
theories/BaseProofs.v
theories/SeriesModel.v
theories/SeriesSpec.v
theories/SeriesProofs.v
theories/SeriesProps.v
theories/TagSetModel.v
theories/TagSetSpec.v
theories/TagSetProofs.v
theories/TagSetProps.v
theories/Fval.v
theories/SpecBase.v
theories/CounterModel.v
theories/CounterSpec.v
theories/CounterProofs.v
theories/CounterProps.v
theories/MeterModel.v
theories/MeterSpec.v
theories/MeterProofs.v
theories/MeterProps.v
theories/DistModel.v
theories/DistSpec.v
theories/DistProofs.v
theories/DistProps.v
theories/RngModel.v
theories/RngSpec.v
theories/RngProofs.v
theories/RngProps.v
theories/Conc.v
theories/ClockModel.v
theories/ClockProofs.v
theories/ClockProps.v
theories/ScopeModel.v
theories/ScopeSpec.v
theories/ScopeProofs.v
theories/ScopeProps.v
theories/FuncStatsModel.v
theories/FuncStatsSpec.v
theories/FuncStatsProofs.v
theories/FuncStatsProps.v
theories/SpanModel.v
theories/SpanSpec.v
theories/SpanProofs.v
theories/SpanProps.v
theories/CtxModel.v
theories/CtxSpec.v
theories/CtxProofs.v
theories/CtxProps.v
theories/ObserverModel.v
theories/ObserverSpec.v
theories/ObserverProofs.v
theories/ObserverProps.v
theories/CollectModel.v
theories/CollectSpec.v
theories/CollectProofs.v
theories/CollectorProofs.v
theories/CollectProps.v
theories/TransformModel.v
theories/TransformSpec.v
theories/TransformProofs.v
theories/TransformProps.v
theories/Strings.v
theories/StructModel.v
theories/StructSpec.v
theories/StructProofs.v
theories/StructProps.v
theories/ValModel.v
theories/ValSpec.v
theories/ValProofs.v
theories/ValProps.v
theories/CallersModel.v
theories/CallersSpec.v
theories/CallersProofs.v
theories/CallersProps.v
theories/SnapModel.v
theories/SnapSpec.v
theories/SnapProofs.v
theories/ErrNamesModel.v
theories/ErrNamesSpec.v
theories/ErrNamesProofs.v
theories/SnapProps.v
theories/HttpModel.v
theories/HttpSpec.v
theories/HttpProofs.v
theories/HttpProps.v
theories/PresentModel.v
theories/PresentSpec.v
theories/PresentProofs.v
theories/PresentProps.v
theories/RouteModel.v
theories/RouteSpec.v
theories/RouteProofs.v
theories/RouteProps.v
theories/KeepAliveModel.v
theories/KeepAliveSpec.v
theories/KeepAliveProofs.v
theories/KeepAliveProps.v
theories/LayoutModel.v
theories/LayoutSpec.v
theories/LayoutProofs.v
theories/LayoutTimeProofs.v
theories/LayoutProps.v
theories/EnvModel.v
theories/EnvSpec.v
theories/EnvProofs.v
theories/EnvProps.v
theories/QueryModel.v
theories/QuerySpec.v
theories/QueryReal.v
theories/QueryProofs.v
theories/QueryProps.v
theories/PeriodSpec.v
theories/PeriodProofs.v
theories/PeriodProps.v
theories/JumpModel.v
theories/JumpSpec.v
theories/JumpProofs.v
theories/JumpProps.v
theories/WatchModel.v
theories/WatchSpec.v
theories/WatchProofs.v
theories/WatchProofs2.v
theories/WatchProps.v
theories/SvgModel.v
theories/SvgSpec.v
theories/SvgProofs.v
theories/SvgNumProofs.v
theories/SvgDocProofs.v
theories/SvgValProofs.v
theories/SvgProps.v
theories/TraceQueryModel.v
theories/TraceQuerySpec.v
theories/TraceQueryProofs.v
theories/TraceQueryProofs2.v
theories/TraceQueryProps.v
theories/ArgsModel.v
theories/ArgsSpec.v
theories/ArgsProofs.v
theories/ArgsProps.v
theories/JsonModel.v
theories/JsonSpec.v
theories/JsonProofs.v
theories/JsonProofs2.v
theories/JsonProofs3.v
theories/JsonProofs4.v
theories/JsonProps.v
theories/ReportModel.v
theories/ReportSpec.v
theories/ReportProofs.v
theories/ReportProofs2.v
theories/ReportProofs3.v
theories/ReportProofs4.v
theories/ReportProps.v
theories/SampleSpec.v
theories/SampleProofs.v
theories/SampleProps.v
theories/FloatTextModel.v
theories/FloatTextSpec.v
theories/FloatTextProofs.v
theories/FloatTextProofs2.v
theories/FloatTextProofs3.v
theories/FloatTextProps.v
theories/TickerModel.v
theories/TickerSpec.v
theories/TickerProofs.v
theories/TickerProofs2.v
theories/TickerProofs3.v
theories/TickerProofs4.v
theories/TickerProps.v
theories/AvgSpec.v
theories/AvgModel.v
theories/AvgProofs.v
theories/AvgProofs2.v
theories/AvgProofs3.v
theories/AvgProofs4.v
theories/AvgProps.v
theories/CasModel.v
theories/CasSpec.v
theories/CasProofs.v
theories/CasUse.v
theories/CasProofs2.v
theories/CasProps.v
theories/RaceModel.v
theories/RaceSpec.v
theories/RaceCheck.v
theories/RaceProofs.v
theories/RaceProofs2.v
theories/RaceProofs3.v
theories/RaceProofs4.v
theories/RaceProofs5.v
theories/RaceProofs6.v
theories/RaceCode.v
theories/RaceTable.v
theories/RaceRun.v
theories/RaceProps.v
theories/LockSpec.v
theories/LockCheck.v
theories/LockTable.v
theories/LockProofs.v
theories/LockProps.v
theories/NumModel.v
theories/NumSpec.v
theories/NumProofs.v
theories/NumProps.v
theories/LineModel.v
theories/LineSpec.v
theories/LineProofs.v
theories/LineProofs2.v
theories/LineProps.v
theories/SvgOrderModel.v
theories/SvgOrderProps.v
theories/TimeModel.v
theories/TimeSpec.v
theories/TimeProofs.v
theories/TimeProps.v
theories/ProgressSpec.v
theories/ProgressProofs.v
theories/ProgressProps.v
theories/PsModel.v
theories/PsSpec.v
theories/PsProofs.v
theories/PsProps.v
theories/FuncPageModel.v
theories/FuncPageSpec.v
theories/FuncPageProofs.v
theories/FuncPageProps.v
theories/TaskModel.v
theories/TaskSpec.v
theories/TaskProofs.v
theories/TaskProps.v
theories/TaskPageProps.v
theories/RusageModel.v
theories/RusageSpec.v
theories/RusageProps.v
theories/AvgNanProps.v
theories/TaskSettle.v
theories/TaskSettleProps.v
