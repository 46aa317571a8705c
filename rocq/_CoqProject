-Q theories Verif
theories/Base.v
theories/Num.v
theories/Env.v
theories/Bisect.v
theories/Stats.v
theories/Glob.v
theories/Metrics.v
theories/Gen.v
theories/Processor.v
theories/Configurable.v
theories/StrFacts.v
theories/LineSpec.v
theories/LineFacts.v
theories/FloatFacts.v
theories/ProcFacts.v
theories/ProcSpec.v
theories/ReceiveFacts.v
theories/ReceiveFacts2.v
theories/NumFacts.v
theories/GenFacts.v
theories/ReceiveFacts3.v
theories/Demo.v
theories/PlugFacts.v
theories/Props_Receive.v
theories/Sched.v
theories/FlushInv.v
theories/FlushOk.v
theories/SchedFacts.v
theories/FlushRun.v
theories/FlushStages.v
theories/FlushComp.v
theories/FlushFail.v
theories/TimerFacts.v
theories/XQFacts.v
theories/B64.v
theories/TimerXQ.v
theories/StepFacts.v
theories/HistFacts.v
theories/FlushSpec.v
theories/FlushParts.v
theories/Disturb.v
theories/FlushXQ.v
theories/SeriesFacts.v
theories/MeterFacts.v
theories/FlushDerived.v
theories/FlushXQ2.v
theories/Props_Flush.v
theories/Hashing.v
theories/BisectFacts.v
theories/HashFacts.v
theories/RingDerived.v
theories/Props_Ring.v
theories/SampleFacts.v
theories/EwmaFacts.v
theories/VarianceFacts.v
theories/PercFacts.v
theories/BinFacts.v
theories/StatsDerived.v
theories/RealNum.v
theories/DecayFacts.v
theories/UniformFacts.v
theories/Props_Stats.v
theories/OrderFacts.v
theories/DistinctFacts.v
theories/DistinctMore.v
theories/GlobFacts.v
theories/SliConfig.v
theories/SliFacts.v
theories/Props_Plugins.v
theories/CSched.v
theories/ConfFacts.v
theories/ConfFlush.v
theories/TimerHist.v
theories/ConfInv.v
theories/ConfXQ.v
theories/ConfDerived.v
theories/LogFacts.v
theories/Props_Conf.v
theories/Client.v
theories/ClientFacts.v
theories/ClientThreads.v
theories/Props_Client.v
theories/Router.v
theories/RouterSpec.v
theories/RouterFacts.v
theories/RouterProps.v
theories/Server.v
theories/ServerSpec.v
theories/FrameFacts.v
theories/ServerFacts.v
theories/Props_Router.v
theories/Props_Server.v
theories/ClientMetrics.v
theories/ClientMetricsSpec.v
theories/ClientMetricsFacts.v
theories/ClientMetricsFun.v
theories/ClientServer.v
theories/ClientTotals.v
theories/CounterFacts.v
theories/Plain.v
theories/Decimal.v
theories/Props_Metrics.v
theories/Process.v
theories/ProcessSpec.v
theories/ProcessFacts.v
theories/Props_Process.v
theories/Report.v
theories/ReportSpec.v
theories/ReportFacts.v
theories/Props_Report.v
theories/Slow.v
theories/SlowFacts.v
theories/SlowProps.v
theories/SlowMore.v
theories/Props_Slow.v
theories/Service.v
theories/ServiceSpec.v
theories/ServiceFacts.v
theories/SendFacts.v
theories/StatusFacts.v
theories/Props_Service.v
theories/BatchFacts.v
theories/PlainFacts.v
theories/Http.v
theories/HttpFacts.v
theories/Props_More.v
theories/Daemon.v
theories/DaemonFacts.v
theories/DaemonDone.v
theories/Props_Daemon.v
theories/MetricSpec.v
theories/MetricFacts.v
theories/MetricRun.v
theories/MetricDaemon.v
theories/MetricProps.v
theories/DaemonSim.v
theories/EntireRules.v
theories/Props_Rules.v
theories/Links.v
theories/LinkFacts.v
theories/Props_Links.v
theories/FrameLong.v
theories/Own.v
theories/OwnSpec.v
theories/OwnFacts.v
theories/CDaemon.v
theories/OwnFacts2.v
theories/OwnFacts3.v
theories/Props_Own.v
theories/Assembly.v
theories/AssemblySpec.v
theories/AssemblyFacts.v
theories/Entire.v
theories/Props_Assembly.v
theories/BlockFacts.v
theories/WholeFacts.v
theories/DoubleFacts.v
theories/DoubleDaemon.v
theories/Props_Double.v
theories/Psutil.v
theories/PsutilFacts.v
theories/Props_Psutil.v
theories/Cluster.v
theories/ClusterFacts.v
theories/Props_Cluster.v
theories/SysRun.v
theories/SliSched.v
theories/Plugins.v
theories/SliRules.v
theories/SliDaemon.v
theories/Props_Sli.v
theories/Props_Whole.v
theories/Props_Values.v
theories/Json.v
theories/JsonSpec.v
theories/JsonFacts.v
theories/JsonDump.v
theories/JsonDump2.v
theories/JsonProps.v
theories/Props_Json.v
theories/Ini.v
theories/IniSpec.v
theories/IniFacts.v
theories/IniRead.v
theories/IniBad.v
theories/IniWrite.v
theories/WordSpec.v
theories/WordFacts.v
theories/Props_Ini.v
theories/Relay.v
theories/RelaySpec.v
theories/RelayFacts.v
theories/RelayTcp.v
theories/RelayTier.v
theories/Props_Relay.v
theories/Props_Words.v
theories/RelayStream.v
theories/Props_Stream.v
theories/TimerSched.v
theories/TimerDaemon.v
theories/Trim64.v
theories/TimerDouble.v
theories/Props_Timers.v
theories/App.v
theories/AppFacts.v
theories/Props_App.v
theories/MeterSched.v
theories/MeterDaemon.v
theories/Props_Meters.v
theories/Provenance.v
theories/ProvDaemon.v
theories/Props_Provenance.v
theories/DistinctSched.v
theories/DistinctDaemon.v
theories/Props_DistinctSched.v
theories/FlushSched.v
theories/FlushEnds.v
theories/Props_FlushSched.v
theories/DaemonFlush.v
theories/Props_DaemonFlush.v
