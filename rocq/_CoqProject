-Q theories Verif
theories/Base.v
theories/LinalgModel.v
theories/LinalgLemmas.v
theories/LinalgLemmas2.v
theories/LinalgProps.v
theories/SortLib.v
theories/MatInv.v
theories/LabLin.v
theories/FrameModel.v
theories/FisherModel.v
theories/FrameLemmas.v
theories/FisherSpec.v
theories/FisherHistory.v
theories/FisherLemmas.v
theories/FisherLemmas2.v
theories/FisherLemmas3.v
theories/FisherLemmas4.v
theories/RealInst.v
theories/FisherLemmas5.v
theories/FisherProps.v
theories/FisherEqProps.v
theories/StrLib.v
theories/KeyModel.v
theories/KeySpec.v
theories/KeyLemmas.v
theories/KeyProps.v
theories/ParamModel.v
theories/EvalModel.v
theories/EvalSpec.v
theories/EllLemmas.v
theories/CovLemmas.v
theories/CovLemmas2.v
theories/DerivLemmas.v
theories/FishEval.v
theories/FishEval2.v
theories/FishEval3.v
theories/Wick.v
theories/FishEval4.v
theories/EvalProps.v
theories/UnionProps.v
theories/FsModel.v
theories/FisherFileModel.v
theories/FisherFileSpec.v
theories/FileLemmas.v
theories/FileLemmas2.v
theories/FileProps.v
theories/HeapModel.v
theories/ResultsModel.v
theories/ResultsSpec.v
theories/HeapLemmas.v
theories/ResultsLemmas.v
theories/ResultsLemmas2.v
theories/ResultsLemmas3.v
theories/ResultsProps.v
theories/ResultsLemmas4.v
theories/ResultsProps2.v
theories/OrdLib.v
theories/ParamFileModel.v
theories/StemModel.v
theories/NameModel.v
theories/ParamLemmas.v
theories/ParamLemmas2.v
theories/StemLemmas.v
theories/StemLemmas2.v
theories/NameLemmas.v
theories/StemLemmas3.v
theories/ParamProps.v
theories/StemProps.v
theories/NumModel.v
theories/NumLemmas.v
theories/NumLemmas2.v
theories/NumProps.v
theories/BiasModel.v
theories/BiasProps.v
theories/EllGridModel.v
theories/EllGridProps.v
theories/ConfigModel.v
theories/ConfigLemmas.v
theories/ConfigProps.v
theories/EditorProps.v
theories/CosmoModel.v
theories/IniModel.v
theories/CosmoProps.v
theories/IniProps.v
theories/ClModel.v
theories/ClProps.v
theories/PipeModel.v
theories/PipeLemmas.v
theories/PipeLemmas2.v
theories/PipeLemmas3.v
theories/PipeProps.v
theories/PipeProps2.v
theories/BatchModel.v
theories/WaitProps.v
theories/BatchProps.v
theories/TexModel.v
theories/TexProps.v
theories/TableModel.v
theories/TableProps.v
theories/H5Model.v
theories/H5Lemmas.v
theories/H5Lemmas2.v
theories/H5Lemmas3.v
theories/H5Props.v
theories/H5Props2.v
theories/H5Props3.v
theories/H5Props4.v
theories/H5Props5.v
theories/H5Props6.v
theories/DeltaModel.v
theories/DeltaSpec.v
theories/DeltaLemmas.v
theories/DeltaLemmas2.v
theories/DeltaLemmas3.v
theories/DeltaLemmas4.v
theories/DeltaProps.v
theories/DeltaProps2.v
theories/DeltaProps3.v
theories/DensModel.v
theories/DensSpec.v
theories/DensLemmas.v
theories/DensProps.v
theories/DensProps2.v
theories/DensProps3.v
theories/DensProps4.v
theories/ParamProps2.v
theories/WsModel.v
theories/WsLemmas.v
theories/WsProps.v
theories/LinkModel.v
theories/LinkLemmas.v
theories/PrepModel.v
theories/PrepProps.v
theories/PrepProps2.v
theories/ConfigProps2.v
theories/SpectraModel.v
theories/SpectraLemmas.v
theories/SpectraProps.v
theories/SpectraProps2.v
theories/StageModel.v
theories/StageProps.v
theories/WeightModel.v
theories/ClProps2.v
theories/BatchProps2.v
theories/CosmoFileModel.v
theories/CosmoFileLemmas.v
theories/CosmoFileProps.v
theories/CosmoFileProps2.v
theories/ErfLib.v
theories/EllipseModel.v
theories/EllipseLemmas.v
theories/EllipseProps.v
theories/RunModel.v
theories/RunLemmas.v
theories/RunLemmas2.v
theories/RunProps.v
theories/RunProps2.v
theories/OutModel.v
theories/OutLemmas.v
theories/OutLemmas2.v
theories/OutLemmas3.v
theories/OutLemmas4.v
theories/OutProps.v
theories/OutProps2.v
theories/OutProps3.v
theories/IstModel.v
theories/IstProps.v
theories/IstProps2.v
theories/IstProps3.v
theories/IstProps4.v
theories/RunProps3.v
theories/CollModel.v
theories/CollLemmas.v
theories/CollProps.v
theories/CollProps2.v
theories/SelectModel.v
theories/SelectProps.v
theories/GatherModel.v
theories/GatherProps.v
theories/GatherProps2.v
theories/FlexModel.v
theories/FlexProps.v
theories/TimeModel.v
theories/TimeProps.v
theories/ReportModel.v
theories/ReportProps.v
theories/DerModel.v
theories/DerProps.v
theories/UsageModel.v
theories/UsageProps.v
theories/InputModel.v
theories/InputProps.v
theories/CompareModel.v
theories/CompareProps.v
theories/JobModel.v
theories/JobProps.v
theories/SubmitModel.v
theories/SubmitProps.v
theories/RerunModel.v
theories/RerunProps.v
theories/ProdBiasModel.v
theories/ProdBiasProps.v
theories/GuiModel.v
theories/GuiProps.v
theories/ResTabModel.v
theories/ResTabProps.v
theories/RetroModel.v
theories/RetroProps.v
theories/ScamModel.v
theories/ScamProps.v
theories/IstCheckModel.v
theories/IstCheckProps.v
theories/UnitModel.v
theories/UnitProps.v
theories/CfgTreeModel.v
theories/CfgTreeProps.v
