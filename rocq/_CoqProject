-Q theories Verif
theories/Lib.v
theories/MatrixModel.v
theories/MatrixSpec.v
theories/MatrixProofs.v
theories/MatrixProps.v
theories/TensorModel.v
theories/TensorSpec.v
theories/TensorProofs.v
theories/TensorProps.v
theories/ElementModel.v
theories/ElementSpec.v
theories/ElementProps.v
theories/QuadratureModel.v
theories/QuadratureSpec.v
theories/QuadratureProps.v
theories/GradientModel.v
theories/GradientSpec.v
theories/GradientProofs.v
theories/GradientProps.v
theories/MeshModel.v
theories/MeshSpec.v
theories/MeshProps.v
theories/ScalerModel.v
theories/ScalerSpec.v
theories/ScalerProps.v
theories/LossModel.v
theories/LossSpec.v
theories/LossProps.v
theories/ForwardModel.v
theories/ForwardSpec.v
theories/ForwardProofs.v
theories/ForwardProps.v
theories/ElasticModel.v
theories/ElasticSpec.v
theories/ElasticProofs.v
theories/ElasticProps.v
theories/HardeningModel.v
theories/HardeningSpec.v
theories/HardeningProps.v
theories/VonMisesModel.v
theories/VonMisesSpec.v
theories/VonMisesProofs.v
theories/VonMisesProps.v
theories/VonMisesTangent.v
theories/VmapModel.v
theories/VmapSpec.v
theories/VmapProps.v
theories/PyDict.v
theories/ParamModel.v
theories/ParamSpec.v
theories/ParamProps.v
theories/ParamSyncProofs.v
theories/ParamSyncProps.v
theories/TrainModel.v
theories/TrainSpec.v
theories/EarlyStopProps.v
theories/TrainProps.v
theories/ConvergenceProps.v
theories/PyStr.v
theories/StateFileModel.v
theories/StateFileSpec.v
theories/StateFileProofs.v
theories/StateFileProps.v
theories/StateStoreModel.v
theories/StateStoreSpec.v
theories/StateStoreProofs.v
theories/StateStoreProps.v
theories/DictConvModel.v
theories/DictConvSpec.v
theories/DictConvProps.v
theories/NamesModel.v
theories/NamesProps.v
theories/HybridModel.v
theories/HybridSpec.v
theories/HybridProps.v
theories/DatasetModel.v
theories/DatasetSpec.v
theories/DatasetProps.v
theories/PruningModel.v
theories/PruningProps.v
theories/StrainPathModel.v
theories/StrainPathProps.v
theories/DenoiseModel.v
theories/DenoiseProps.v
theories/RcModel.v
theories/RcProps.v
theories/GruModel.v
theories/GruProps.v
theories/RegularMeshModel.v
theories/RegularMeshProps.v
theories/RemoveElementsProps.v
theories/LouModel.v
theories/LouProps.v
theories/LouUpdateModel.v
theories/LouUpdateProofs.v
theories/LouUpdateProps.v
theories/DruckerModel.v
theories/DruckerSpec.v
theories/DruckerProofs.v
theories/DruckerProps.v
theories/DruckerTangent.v
theories/MixedModel.v
theories/MixedSpec.v
theories/MixedProofs.v
theories/MixedProps.v
theories/MixedTangent.v
theories/FeaturesModel.v
theories/FeaturesSpec.v
theories/FeaturesProps.v
theories/LayerProps.v
theories/LowPassModel.v
theories/LowPassProps.v
theories/MetricsModel.v
theories/MetricsProps.v
theories/BatchFitModel.v
theories/BatchFitProps.v
theories/ModelFileModel.v
theories/ModelFileProps.v
theories/PredictModel.v
theories/PredictProps.v
theories/DeformModel.v
theories/DeformProps.v
theories/DeformLoopProps.v
theories/TransferModel.v
theories/TransferProps.v
theories/NoiseModel.v
theories/NoiseProps.v
theories/ResponseModel.v
theories/ResponseProps.v
theories/ResponseSetProps.v
theories/VDruckerModel.v
theories/VDruckerProps.v
theories/VDruckerAgree.v
theories/VDruckerTangent.v
theories/VDruckerCases.v
theories/TextLines.v
theories/SpecimenModel.v
theories/SpecimenProps.v
theories/LinksFileModel.v
theories/LinksFileProps.v
theories/HistoryModel.v
theories/HistoryProps.v
theories/LinksLoadModel.v
theories/LinksLoadProps.v
theories/LinksResultsModel.v
theories/LinksResultsProps.v
theories/VForwardModel.v
theories/VForwardProps.v
theories/VForwardNormProps.v
theories/VBarProps.v
theories/MeanMetricsModel.v
theories/MeanMetricsProps.v
theories/MeanFileProps.v
theories/PredArraysModel.v
theories/PredArraysProps.v
theories/LocalPathsModel.v
theories/LocalPathsProps.v
theories/FinderDataModel.v
theories/FinderDataProps.v
theories/FinderParamsModel.v
theories/FinderParamsProps.v
theories/VLouModel.v
theories/VLouProps.v
theories/InpLinksModel.v
theories/InpLinksProps.v
theories/UniaxialModel.v
theories/UniaxialProps.v
theories/LinksMatModel.v
theories/LinksMatProps.v
theories/YieldPlotModel.v
theories/YieldPlotProps.v
theories/ReactSetsModel.v
theories/ReactSetsProps.v
theories/FinderTrainModel.v
theories/FinderTrainProps.v
theories/PatchOptModel.v
theories/PatchOptProps.v
theories/ParamTreeModel.v
theories/ParamTreeProps.v
theories/TfactModel.v
theories/TfactProps.v
theories/ThermoParModel.v
theories/ThermoParProps.v
theories/MatDataModel.v
theories/MatDataProps.v
theories/UniStressModel.v
theories/UniStressProps.v
theories/KfoldModel.v
theories/KfoldProps.v
theories/UqModel.v
theories/UqProps.v
theories/PatchDataModel.v
theories/PatchDataProps.v
theories/ForceDispModel.v
theories/ForceDispProps.v
theories/FileFindModel.v
theories/FileFindProps.v
theories/ResumeModel.v
theories/ResumeProps.v
theories/ConvPlotModel.v
theories/ConvPlotProps.v
theories/HydraPlotModel.v
theories/HydraPlotProps.v
theories/HybBuildModel.v
theories/HybBuildProps.v
theories/FeatOptModel.v
theories/FeatOptProps.v
theories/CaseDirsModel.v
theories/CaseDirsProps.v
theories/DenoiseCsvModel.v
theories/DenoiseCsvProps.v
theories/LawTableModel.v
theories/LawTableProps.v
theories/ConvDataModel.v
theories/ConvDataProps.v
theories/CompareModel.v
theories/CompareProps.v
theories/CsvPathsModel.v
theories/CsvPathsProps.v
theories/NoisyConvModel.v
theories/NoisyConvProps.v
theories/LmuRunModel.v
theories/LmuRunProps.v
theories/PatchPolyModel.v
theories/PatchPolyProps.v
theories/ShapeCheckModel.v
theories/ShapeCheckProps.v
theories/PrunePreviewModel.v
theories/PrunePreviewProps.v
theories/PruneLossModel.v
theories/PruneLossProps.v
theories/PruneTableModel.v
theories/PruneTableProps.v
theories/StressSpaceModel.v
theories/StressSpaceProps.v
theories/TrainPlotModel.v
theories/TrainPlotProps.v
theories/HybScalerModel.v
theories/HybScalerProps.v
theories/HistFigModel.v
theories/HistFigProps.v
theories/EqPathModel.v
theories/EqPathProps.v
theories/PlotBaseModel.v
theories/PlotBaseProps.v
theories/BarModel.v
theories/BarProps.v
theories/BndEdgeModel.v
theories/BndEdgeProps.v
theories/PruneDirsModel.v
theories/PruneDirsProps.v
theories/ScatterModel.v
theories/ScatterProps.v
theories/ConvFigModel.v
theories/ConvFigProps.v
theories/ProcMetricsModel.v
theories/ProcMetricsProps.v
theories/DataPlotModel.v
theories/DataPlotProps.v
theories/NormFigModel.v
theories/NormFigProps.v
