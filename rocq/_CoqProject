-Q theories Verif
theories/Lib/F64.v
theories/Lib/F64Facts.v
theories/Lib/F64Ord.v
theories/Lib/PyStr.v
theories/Lib/PyStrFacts.v
theories/Lib/Regex.v
theories/Lib/RegexFacts.v
theories/Lib/ReplaceFacts.v
theories/Lib/SearchFacts.v
theories/Lib/Stamp.v
theories/Lib/TotalOrder.v
theories/Model/Accessor.v
theories/Model/Added.v
theories/Model/AllFreqs.v
theories/Model/Attrs.v
theories/Model/Bare.v
theories/Model/Bars.v
theories/Model/Base.v
theories/Model/BenchPlot.v
theories/Model/Builtin.v
theories/Model/Cache.v
theories/Model/Callbacks.v
theories/Model/Classes.v
theories/Model/Colours.v
theories/Model/Compare.v
theories/Model/Constraint.v
theories/Model/ConstraintReport.v
theories/Model/Correlate.v
theories/Model/Csv.v
theories/Model/CsvCache.v
theories/Model/Dups.v
theories/Model/EventBars.v
theories/Model/EventInfo.v
theories/Model/EventPlot.v
theories/Model/EventView.v
theories/Model/Events.v
theories/Model/Export.v
theories/Model/Figures.v
theories/Model/Files.v
theories/Model/Governor.v
theories/Model/Grammar.v
theories/Model/ILine.v
theories/Model/ILineGen.v
theories/Model/Init.v
theories/Model/Layout.v
theories/Model/Legend.v
theories/Model/Line.v
theories/Model/LineReport.v
theories/Model/Loads.v
theories/Model/Memory.v
theories/Model/Page.v
theories/Model/PlotReport.v
theories/Model/PlotTrace.v
theories/Model/Populate.v
theories/Model/Power.v
theories/Model/Publish.v
theories/Model/PublishFile.v
theories/Model/Registry.v
theories/Model/Replay.v
theories/Model/Report.v
theories/Model/Residency.v
theories/Model/Results.v
theories/Model/Signals.v
theories/Model/Solve.v
theories/Model/Stats.v
theories/Model/Summary.v
theories/Model/Sync.v
theories/Model/SysPlot.v
theories/Model/SysReport.v
theories/Model/Sysfs.v
theories/Model/Systrace.v
theories/Model/Tasks.v
theories/Model/Temperature.v
theories/Model/Topology.v
theories/Model/Triggers.v
theories/Model/Window.v
theories/Proofs/AccessorO.v
theories/Proofs/AccessorP.v
theories/Proofs/AccessorQ.v
theories/Proofs/AccessorR.v
theories/Proofs/AccessorS.v
theories/Proofs/AddedP.v
theories/Proofs/AlignP.v
theories/Proofs/AllFreqsP.v
theories/Proofs/ArraysP.v
theories/Proofs/AttrsP.v
theories/Proofs/BareP.v
theories/Proofs/BareQ.v
theories/Proofs/BarsP.v
theories/Proofs/BenchPlotP.v
theories/Proofs/BodyP.v
theories/Proofs/CacheP.v
theories/Proofs/CacheQ.v
theories/Proofs/CachedClassesEx.v
theories/Proofs/CachedClassesP.v
theories/Proofs/CachedEx.v
theories/Proofs/CachedP.v
theories/Proofs/CallbacksP.v
theories/Proofs/ClassesP.v
theories/Proofs/ClassesQ.v
theories/Proofs/ClassesR.v
theories/Proofs/ColoursP.v
theories/Proofs/CompareP.v
theories/Proofs/ConstraintP.v
theories/Proofs/ConstraintReportP.v
theories/Proofs/CorrelateP.v
theories/Proofs/CsvCacheP.v
theories/Proofs/CsvP.v
theories/Proofs/DupsF.v
theories/Proofs/DupsP.v
theories/Proofs/EmptyP.v
theories/Proofs/EventBarsP.v
theories/Proofs/EventInfoP.v
theories/Proofs/EventPlotP.v
theories/Proofs/EventViewP.v
theories/Proofs/EventsP.v
theories/Proofs/EventsQ.v
theories/Proofs/ExportP.v
theories/Proofs/FiguresP.v
theories/Proofs/FilesP.v
theories/Proofs/FrameP.v
theories/Proofs/GovernorP.v
theories/Proofs/GrammarP.v
theories/Proofs/GrammarT.v
theories/Proofs/ILineGenP.v
theories/Proofs/ILineP.v
theories/Proofs/InitP.v
theories/Proofs/LayoutP.v
theories/Proofs/LegendP.v
theories/Proofs/LegendQ.v
theories/Proofs/LineP.v
theories/Proofs/LineReadP.v
theories/Proofs/LineReportP.v
theories/Proofs/LineTotalP.v
theories/Proofs/LineTracesP.v
theories/Proofs/LoadP.v
theories/Proofs/LoadsP.v
theories/Proofs/ManagerP.v
theories/Proofs/MaskP.v
theories/Proofs/MemoryP.v
theories/Proofs/MissingP.v
theories/Proofs/NamesP.v
theories/Proofs/PageP.v
theories/Proofs/PageQ.v
theories/Proofs/PayloadP.v
theories/Proofs/PivotP.v
theories/Proofs/PlotReportP.v
theories/Proofs/PlotTraceP.v
theories/Proofs/PopulateP.v
theories/Proofs/PowerP.v
theories/Proofs/PrintedP.v
theories/Proofs/PublishFileP.v
theories/Proofs/PublishP.v
theories/Proofs/PublishQ.v
theories/Proofs/ReadableP.v
theories/Proofs/ReadableQ.v
theories/Proofs/RegistryP.v
theories/Proofs/ReplayP.v
theories/Proofs/ReportP.v
theories/Proofs/ResidencyP.v
theories/Proofs/ResultsP.v
theories/Proofs/ScanP.v
theories/Proofs/SignalsP.v
theories/Proofs/SolveP.v
theories/Proofs/SolveQ.v
theories/Proofs/StatsErrP.v
theories/Proofs/StatsP.v
theories/Proofs/SummaryP.v
theories/Proofs/SyncP.v
theories/Proofs/SysPlotP.v
theories/Proofs/SysReportP.v
theories/Proofs/SysfsP.v
theories/Proofs/SystraceP.v
theories/Proofs/TasksP.v
theories/Proofs/TemperatureP.v
theories/Proofs/TermP.v
theories/Proofs/TopologyP.v
theories/Proofs/TraceWinP.v
theories/Proofs/TriggersP.v
theories/Proofs/WindowP.v
theories/Proofs/WordsP.v
theories/Proofs/WrittenP.v
theories/Proofs/WrittenQ.v
theories/Props/P_Accessor.v
theories/Props/P_Added.v
theories/Props/P_AllFreqs.v
theories/Props/P_Attrs.v
theories/Props/P_Bare.v
theories/Props/P_Bars.v
theories/Props/P_Base.v
theories/Props/P_BenchPlot.v
theories/Props/P_Cache.v
theories/Props/P_Cached.v
theories/Props/P_CachedClasses.v
theories/Props/P_Callbacks.v
theories/Props/P_Classes.v
theories/Props/P_Colours.v
theories/Props/P_Compare.v
theories/Props/P_Constraint.v
theories/Props/P_ConstraintReport.v
theories/Props/P_Correlate.v
theories/Props/P_Csv.v
theories/Props/P_Dups.v
theories/Props/P_EventBars.v
theories/Props/P_EventInfo.v
theories/Props/P_EventPlot.v
theories/Props/P_EventView.v
theories/Props/P_Events.v
theories/Props/P_Export.v
theories/Props/P_Figures.v
theories/Props/P_Files.v
theories/Props/P_Governor.v
theories/Props/P_Grammar.v
theories/Props/P_ILine.v
theories/Props/P_ILineGen.v
theories/Props/P_Init.v
theories/Props/P_Layout.v
theories/Props/P_Legend.v
theories/Props/P_Line.v
theories/Props/P_LineReport.v
theories/Props/P_LineTraces.v
theories/Props/P_Loads.v
theories/Props/P_Memory.v
theories/Props/P_Missing.v
theories/Props/P_Page.v
theories/Props/P_PlotReport.v
theories/Props/P_PlotTrace.v
theories/Props/P_Power.v
theories/Props/P_Publish.v
theories/Props/P_PublishFile.v
theories/Props/P_Readable.v
theories/Props/P_Replay.v
theories/Props/P_Report.v
theories/Props/P_Residency.v
theories/Props/P_Results.v
theories/Props/P_Select.v
theories/Props/P_Signals.v
theories/Props/P_Solve.v
theories/Props/P_Stats.v
theories/Props/P_Summary.v
theories/Props/P_Sync.v
theories/Props/P_SysPlot.v
theories/Props/P_SysReport.v
theories/Props/P_Sysfs.v
theories/Props/P_Systrace.v
theories/Props/P_Tasks.v
theories/Props/P_Temperature.v
theories/Props/P_Trace.v
theories/Props/P_Triggers.v
theories/Props/P_Window.v
theories/Props/P_Written.v
theories/Spec/Accessor.v
theories/Spec/Added.v
theories/Spec/AllFreqs.v
theories/Spec/Arrays.v
theories/Spec/Attrs.v
theories/Spec/Bare.v
theories/Spec/Bars.v
theories/Spec/BenchPlot.v
theories/Spec/Cached.v
theories/Spec/CachedClasses.v
theories/Spec/Classes.v
theories/Spec/Colours.v
theories/Spec/Compare.v
theories/Spec/Constraint.v
theories/Spec/ConstraintReport.v
theories/Spec/Correlate.v
theories/Spec/Empties.v
theories/Spec/EventBars.v
theories/Spec/EventInfo.v
theories/Spec/EventPlot.v
theories/Spec/EventView.v
theories/Spec/Events.v
theories/Spec/Export.v
theories/Spec/Figures.v
theories/Spec/Files.v
theories/Spec/Governor.v
theories/Spec/Grammar.v
theories/Spec/Groups.v
theories/Spec/History.v
theories/Spec/ILine.v
theories/Spec/ILineGen.v
theories/Spec/Init.v
theories/Spec/Interval.v
theories/Spec/Layout.v
theories/Spec/Legend.v
theories/Spec/LineReport.v
theories/Spec/LineTraces.v
theories/Spec/Lines.v
theories/Spec/Loads.v
theories/Spec/Marks.v
theories/Spec/Memory.v
theories/Spec/Missing.v
theories/Spec/Names.v
theories/Spec/Page.v
theories/Spec/Parts.v
theories/Spec/Payload.v
theories/Spec/PlotReport.v
theories/Spec/PlotTrace.v
theories/Spec/Power.v
theories/Spec/Publish.v
theories/Spec/PublishFile.v
theories/Spec/Readable.v
theories/Spec/Replay.v
theories/Spec/Report.v
theories/Spec/Residency.v
theories/Spec/Results.v
theories/Spec/Select.v
theories/Spec/Signals.v
theories/Spec/Solve.v
theories/Spec/Stats.v
theories/Spec/Summary.v
theories/Spec/Sync.v
theories/Spec/SysReport.v
theories/Spec/Sysfs.v
theories/Spec/Tables.v
theories/Spec/Tasks.v
theories/Spec/Temperature.v
theories/Spec/Topology.v
theories/Spec/Trace.v
theories/Spec/Triggers.v
theories/Spec/Words.v
theories/Spec/Written.v
