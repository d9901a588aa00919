-Q theories Verif
theories/Base.v
theories/DataModel.v
theories/DataSpec.v
theories/DataProof.v
theories/CombineProof.v
theories/CombineProps.v
theories/OpsModel.v
theories/OpsSpec.v
theories/OpsProof.v
theories/OpsProps.v
theories/BinModel.v
theories/BinSpec.v
theories/BinProof.v
theories/BinProps.v
theories/AnalysisModel.v
theories/AnalysisProof.v
theories/BalanceModel.v
theories/AnalysisProps.v
theories/ScansModel.v
theories/ScansProps.v
theories/EnergyModel.v
theories/EnergyProps.v
theories/LinAlg.v
theories/LatticeModel.v
theories/LatticeProof.v
theories/LatticeProps.v
theories/LatticeTypeModel.v
theories/LatticeTypeProps.v
theories/SymData.v
theories/SymModel.v
theories/SymProof.v
theories/SymGroup.v
theories/SymProps.v
theories/SymStrProps.v
theories/SymMetricProps.v
theories/AtomData.v
theories/StructModel.v
theories/StructProps.v
theories/StructMoreProps.v
theories/MaterialProps.v
theories/MagProps.v
theories/NumBounds.v
theories/ToolsModel.v
theories/ToolsProps.v
theories/MatModel.v
theories/Gauss.v
theories/MatProps.v
theories/EllipseProps.v
theories/WidthProps.v
theories/KinModel.v
theories/KinProps.v
theories/FuncModel.v
theories/FuncProps.v
theories/PeakProps.v
theories/PlaneProps.v
theories/OscProps.v
theories/FitModel.v
theories/FitProps.v
theories/SysModel.v
theories/SysProps.v
theories/MatInv.v
theories/TasModel.v
theories/TasProof.v
theories/TasMirror.v
theories/TasWide.v
theories/TasCase.v
theories/TasProps.v
theories/TasVar.v
theories/TasRaysProps.v
theories/TasMoreProps.v
theories/TasMosProps.v
theories/HistModel.v
theories/HistProof.v
theories/HistProps.v
theories/StateProps.v
theories/CacheProps.v
theories/ParamModel.v
theories/ParamProps.v
theories/CompModel.v
theories/CompProps.v
theories/ChopProps.v
theories/TofModel.v
theories/TofProps.v
theories/TofCovProps.v
theories/TofDefProps.v
theories/TofGeoProps.v
theories/TofParProps.v
theories/TofRmsProps.v
theories/TextModel.v
theories/TextProof.v
theories/InstrFileModel.v
theories/InstrFileProof.v
theories/InstrFileProps.v
theories/DataFileModel.v
theories/DataFileProof.v
theories/DataFileProps.v
theories/DetectModel.v
theories/DetectProps.v
theories/ParCfgModel.v
theories/ParCfgProps.v
theories/TazModel.v
theories/TazProps.v
theories/H5InstrModel.v
theories/H5InstrProps.v
theories/LoadersModel.v
theories/LoadersProps.v
theories/GridModel.v
theories/GridProps.v
theories/ConvModel.v
theories/Quad.v
theories/ConvProps.v
theories/AngleModel.v
theories/AngleProps.v
theories/Quad3.v
theories/SmaModel.v
theories/VoigtBern.v
theories/VoigtProps.v
theories/SmaProps.v
theories/SpurionModel.v
theories/SpurionProps.v
theories/VoigtDisk.v
theories/VoigtCert.v
theories/VoigtAcc.v
theories/VoigtInt.v
theories/VoigtRay.v
theories/VoigtAccProps.v
theories/SmaWideProps.v
theories/PcolorModel.v
theories/PcolorProps.v
theories/PlotModel.v
theories/PlotProps.v
theories/InstrPlotModel.v
theories/InstrPlotProps.v
theories/DescribeModel.v
theories/DescribeProps.v
theories/FitTableModel.v
theories/FitTableProps.v
theories/DataEqModel.v
theories/DataEqProps.v
theories/ShareModel.v
theories/ShareProps.v
theories/SliceModel.v
theories/SliceProps.v
theories/InstEqModel.v
theories/InstEqProps.v
theories/SettingsModel.v
theories/SettingsProps.v
theories/GuiModel.v
theories/GuiProps.v
theories/PartsModel.v
theories/PartsProps.v
theories/PlotFitModel.v
theories/PlotFitProps.v
theories/RouteModel.v
theories/RouteProps.v
theories/ScansShareModel.v
theories/ScansShareProps.v
theories/H5DataModel.v
theories/H5DataProps.v
theories/PrintModel.v
theories/PrintProps.v
theories/MagCellModel.v
theories/MagCellProps.v
theories/EnergyFloatModel.v
theories/EnergyFloatProps.v
theories/BinFloatModel.v
theories/BinFloatProps.v
theories/CombFloatModel.v
theories/CombFloatProps.v
theories/SymFloatModel.v
theories/SymFloatProps.v
theories/PointsFloatModel.v
theories/PointsFloatProps.v
theories/PosFloatModel.v
theories/PosFloatProps.v
theories/EnergyTextModel.v
theories/EnergyTextProps.v
theories/NxsModel.v
theories/NxsProps.v
theories/RingModel.v
theories/RingProps.v
theories/NormFloatModel.v
theories/NormFloatProps.v
theories/SubFloatModel.v
theories/SubFloatProps.v
theories/ColCombModel.v
theories/ColCombProps.v
theories/BgFloatModel.v
theories/BgFloatProps.v
theories/IntFloatModel.v
theories/IntFloatProps.v
theories/PosnFloatProps.v
theories/WidthFloatModel.v
theories/WidthFloatProps.v
theories/ScatterModel.v
theories/ScatterProps.v
theories/PosnCloseProps.v
theories/WidthCloseProps.v
theories/PosnAccProps.v
theories/WidthAccProps.v
theories/TasMonProps.v
