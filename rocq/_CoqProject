-Q theories Verif

theories/Base.v
theories/BaseFacts.v
theories/SetSpec.v
theories/SetFacts.v
theories/IndexModel.v
theories/IndexSpec.v
theories/IndexProofs.v
theories/IndexProps.v
theories/MLModel.v
theories/MLSpec.v
theories/MLProofs.v
theories/MLProofs2.v
theories/MLProofs3.v
theories/MLProps.v
theories/MLProps2.v
theories/StateModel.v
theories/StateSpec.v
theories/StateProofs.v
theories/StateProofs2.v
theories/StateProofs3.v
theories/StateProps.v
theories/Dict.v
theories/OracleModel.v
theories/OracleSpec.v
theories/OracleProofs.v
theories/OracleProofs2.v
theories/VoteProofs.v
theories/OracleProps.v
theories/RepoModel.v
theories/RepoSpec.v
theories/RepoProofs.v
theories/RepoProofs2.v
theories/RepoProps.v
theories/SplitModel.v
theories/SplitSpec.v
theories/SplitProofs.v
theories/SplitProofs2.v
theories/SplitProofs3.v
theories/SplitProps.v
theories/MiscModel.v
theories/MiscSpec.v
theories/MiscProofs.v
theories/MiscProps.v
theories/MetricModel.v
theories/MetricSpec.v
theories/MetricProofs.v
theories/MetricProofs2.v
theories/MetricProofs3.v
theories/MetricProofs4.v
theories/MetricProofs5.v
theories/MetricProofs6.v
theories/MetricProofs7.v
theories/MetricProps.v
theories/ThreadModel.v
theories/ThreadProofs.v
theories/ThreadProps.v
theories/CostModel.v
theories/CostSpec.v
theories/CostProofs.v
theories/CostProofs2.v
theories/CostProofs3.v
theories/CostProps.v
theories/QueryModel.v
theories/QuerySpec.v
theories/QueryProofs.v
theories/QueryProofs2.v
theories/QueryProofs3.v
theories/QueryProofs4.v
theories/QueryNumpy.v
theories/QueryProofs5.v
theories/QueryProps.v
theories/QueryProps2.v
theories/QueryProps3.v
theories/MLQueryModel.v
theories/MLQuerySpec.v
theories/MLQueryProofs.v
theories/MLQueryProofs2.v
theories/MLQueryProofs3.v
theories/MLQueryProofs4.v
theories/MLQueryProps.v
theories/FeatureModel.v
theories/FeatureSpec.v
theories/FeatureProofs.v
theories/FeatureProofs2.v
theories/FeatureProofs3.v
theories/FeatureProofs4.v
theories/FeatureProps.v
theories/AnalyserModel.v
theories/AnalyserSpec.v
theories/AnalyserProofs.v
theories/AnalyserProofs2.v
theories/AnalyserProofs3.v
theories/AnalyserProofs4.v
theories/AnalyserProps.v
theories/AnalyserProps2.v
theories/ToolModel.v
theories/ToolSpec.v
theories/ToolProofs.v
theories/ToolProofs2.v
theories/ToolProofs3.v
theories/ToolProofs4.v
theories/ToolProofs5.v
theories/ToolProps.v
theories/ToolProps2.v
theories/ToolProps3.v
theories/PerfModel.v
theories/PerfProps.v
theories/ExpModel.v
theories/ExpSpec.v
theories/ExpProofs.v
theories/ExpProofs2.v
theories/ExpProps.v
theories/ExpConf.v
theories/ExpConfProps.v
theories/BatchModel.v
theories/BatchSpec.v
theories/BatchSums.v
theories/BatchProofs.v
theories/BatchProofs2.v
theories/BatchProofs3.v
theories/BatchProofs4.v
theories/BatchProps.v
theories/BatchProps2.v
theories/NoisyModel.v
theories/NoisySpec.v
theories/NoisyProofs.v
theories/NoisyProps.v
theories/NoisyProofs2.v
theories/NoisyProps2.v
theories/AuroModel.v
theories/AuroSpec.v
theories/AuroProofs.v
theories/AuroProps.v
theories/QuireModel.v
theories/QuireSpec.v
theories/QuireProofs.v
theories/QuireProofs2.v
theories/QuireProps.v
theories/LalModel.v
theories/LalSpec.v
theories/LalProps.v
theories/GraphModel.v
theories/GraphSpec.v
theories/GraphProps.v
theories/AreaModel.v
theories/AreaSpec.v
theories/AreaProofs.v
theories/AreaProps.v
theories/KernelModel.v
theories/KernelSpec.v
theories/KernelProofs.v
theories/KernelProps.v
theories/KernelReal.v
theories/KernelProps2.v
theories/PoolModel.v
theories/PoolSpec.v
theories/PoolProofs.v
theories/PoolProps.v
theories/ResumeModel.v
theories/ResumeSpec.v
theories/ResumeProofs.v
theories/ResumeProps.v
theories/TtestModel.v
theories/TtestSpec.v
theories/TtestProofs.v
theories/TtestProps.v
theories/ProgressModel.v
theories/ProgressSpec.v
theories/ProgressProofs.v
theories/ProgressProps.v
theories/RankModel.v
theories/RankSpec.v
theories/RankProofs.v
theories/RankProofs2.v
theories/RankProps.v
theories/HierModel.v
theories/HierSpec.v
theories/HierProofs.v
theories/HierProps.v
theories/BlindModel.v
theories/BlindSpec.v
theories/BlindProofs.v
theories/BlindProofs2.v
theories/BlindProps.v
theories/SelfModel.v
theories/SelfSpec.v
theories/SelfProofs.v
theories/SelfProps.v
theories/MultiLoopModel.v
theories/MultiLoopSpec.v
theories/MultiLoopProofs.v
theories/MultiLoopProofs2.v
theories/MultiLoopProps.v
theories/NoisyLoopModel.v
theories/NoisyLoopSpec.v
theories/NoisyLoopProofs.v
theories/NoisyLoopProofs2.v
theories/NoisyLoopProofs3.v
theories/NoisyLoopProps.v
theories/FeatureLoopModel.v
theories/FeatureLoopSpec.v
theories/FeatureLoopProofs.v
theories/FeatureLoopProofs2.v
theories/FeatureLoopProofs3.v
theories/FeatureLoopProofs4.v
theories/FeatureLoopProps.v
theories/CostLoopModel.v
theories/CostLoopSpec.v
theories/CostLoopProofs.v
theories/CostLoopProofs2.v
theories/CostLoopProofs3.v
theories/CostLoopProps.v
theories/RecordModel.v
theories/RecordProps.v
theories/AuroLoopModel.v
theories/AuroLoopSpec.v
theories/AuroLoopProofs.v
theories/AuroLoopProofs2.v
theories/AuroLoopProps.v
theories/SaveModel.v
theories/SaveSpec.v
theories/SaveProofs.v
theories/SaveProps.v
theories/LabelLoopModel.v
theories/LabelLoopSpec.v
theories/LabelLoopProofs.v
theories/LabelLoopProps.v
theories/CompareModel.v
theories/CompareSpec.v
theories/CompareProofs.v
theories/CompareProps.v
theories/GivenModel.v
theories/GivenSpec.v
theories/GivenProps.v
theories/AceModel.v
theories/AceSpec.v
theories/AceProps.v
theories/HalcModel.v
theories/HalcSpec.v
theories/HalcProps.v
theories/BinaryModel.v
theories/BinarySpec.v
theories/BinaryProps.v
theories/TableModel.v
theories/TableSpec.v
theories/TableProps.v
theories/StratModel.v
theories/StratSpec.v
theories/StratProps.v
theories/MakeModel.v
theories/MakeSpec.v
theories/MakeProps.v
theories/HistModel.v
theories/HistSpec.v
theories/HistProofs.v
theories/HistProps.v
theories/SignSpec.v
theories/SignProofs.v
theories/SignProps.v
theories/OrderSpec.v
theories/OrderProofs.v
theories/OrderProofs2.v
theories/OrderProps.v
theories/RationalSpec.v
theories/RationalProofs.v
theories/RationalProps.v
theories/PartsSpec.v
theories/PartsProps.v
theories/FoldOrderSpec.v
theories/FoldOrderProps.v
theories/NamesSpec.v
theories/NamesProps.v
theories/DivideSpec.v
theories/DivideProps.v
theories/EntriesSpec.v
theories/EntriesProps.v
theories/CausalSpec.v
theories/CausalProps.v
theories/CausalProps2.v
theories/AgreeSpec.v
theories/AgreeProps.v
theories/AgreeProps2.v
theories/AgreeProps3.v
theories/LongerSpec.v
theories/LongerProps.v
theories/RefuseProps.v
theories/SelectProps.v
theories/ProxModel.v
theories/ProxSpec.v
theories/ProxProps.v
theories/AdaptProps.v
theories/FeatureNanProps.v
theories/CoverSpec.v
theories/CoverProps.v
theories/BudgetProps.v
theories/UnitsProps.v
theories/TwoSpec.v
theories/TwoProps.v
theories/VoteProps.v
theories/GaugeSpec.v
theories/GaugeProps.v
theories/DominProps.v
theories/FlatProps.v
theories/PossProps.v
theories/TightProps.v
theories/KnapProps.v
theories/FoldsProps.v
