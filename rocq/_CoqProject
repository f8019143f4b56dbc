-Q theories Verif
theories/AppModel.v
theories/AppProps.v
theories/BarModel.v
theories/BarProps.v
theories/BarrierModel.v
theories/BarrierProofs.v
theories/Base.v
theories/CalendarModel.v
theories/CalendarProps.v
theories/CellModel.v
theories/CellProofs.v
theories/CellProps.v
theories/CircleModel.v
theories/CircleProofs.v
theories/CircleProps.v
theories/CoefModel.v
theories/CoefProps.v
theories/CollectModel.v
theories/CollectProps.v
theories/CurveModel.v
theories/CurveProps.v
theories/DbModel.v
theories/DbProofs.v
theories/DbProps.v
theories/DensityModel.v
theories/DensityProofs.v
theories/DensityProps.v
theories/DerivTac.v
theories/Detail10Props.v
theories/Detail11Props.v
theories/Detail2Props.v
theories/Detail3Props.v
theories/Detail4Props.v
theories/Detail5Props.v
theories/Detail6Props.v
theories/Detail7Props.v
theories/Detail8Props.v
theories/Detail9Props.v
theories/DetailProps.v
theories/DomainModel.v
theories/DomainProps.v
theories/DownloadModel.v
theories/DownloadProps.v
theories/EkmanProps.v
theories/EnsModel.v
theories/EnsProps.v
theories/EulerProofs.v
theories/EvalModel.v
theories/EvalProofs.v
theories/EvalsModel.v
theories/EvalsProps.v
theories/EvdModel.v
theories/EvdProps.v
theories/ExtentModel.v
theories/ExtentProps.v
theories/ExtraProps.v
theories/ExtremesModel.v
theories/ExtremesProofs.v
theories/ExtremesProps.v
theories/ExtremesSpec.v
theories/FitModel.v
theories/FitProofs.v
theories/FitProofs2.v
theories/FitProps.v
theories/FitRModel.v
theories/FitRProofs.v
theories/FlowExtra.v
theories/FlowModel.v
theories/FlowProps.v
theories/GateModel.v
theories/GateProofs.v
theories/GateProps.v
theories/GenModel.v
theories/GenProofs.v
theories/GenProofs2.v
theories/GenProofs3.v
theories/GenProps.v
theories/GenProps2.v
theories/GeomModel.v
theories/GeomProofs.v
theories/GeomProofs2.v
theories/GeomProofs3.v
theories/GeomProps.v
theories/GradProps.v
theories/GridFileModel.v
theories/GridFileProofs.v
theories/GridFileProps.v
theories/HazardProps.v
theories/HumidModel.v
theories/HumidProofs.v
theories/HumidProps.v
theories/IniModel.v
theories/IniProps.v
theories/InterpModel.v
theories/InterpProofs.v
theories/InterpProofs2.v
theories/InterpProps.v
theories/KdeModel.v
theories/KdeProps.v
theories/LmomModel.v
theories/LmomProofs.v
theories/LmomProofs2.v
theories/LnProofs.v
theories/LoadModel.v
theories/LoadProofs.v
theories/LoadProofs2.v
theories/LoadProofs3.v
theories/LoadProps.v
theories/LogModel.v
theories/LogProps.v
theories/LowresModel.v
theories/LowresProps.v
theories/MWModel.v
theories/MWProofs.v
theories/MWSyncModel.v
theories/MWSyncProofs.v
theories/MapModel.v
theories/MapProps.v
theories/MeshModel.v
theories/MeshProofs.v
theories/MoreProps.v
theories/MslpModel.v
theories/MslpProps.v
theories/MultModel.v
theories/MultProofs.v
theories/MultProps.v
theories/MultThreadProofs.v
theories/NamesModel.v
theories/NamesProofs.v
theories/NamesProps.v
theories/NcModel.v
theories/NcProps.v
theories/NctxtModel.v
theories/NctxtProps.v
theories/NewtonProofs.v
theories/NumModel.v
theories/NumProofs.v
theories/NumProps.v
theories/PathModel.v
theories/PathProps.v
theories/PlaceModel.v
theories/PlaceProps.v
theories/ProcModel.v
theories/ProcProps.v
theories/PstatModel.v
theories/PstatProps.v
theories/RasterModel.v
theories/RasterProofs.v
theories/RasterProps.v
theories/RegModel.v
theories/ResumeModel.v
theories/ResumeProofs.v
theories/ResumeProps.v
theories/RiskModel.v
theories/RiskProps.v
theories/S3Model.v
theories/S3Props.v
theories/SampModel.v
theories/SampProofs.v
theories/SampProps.v
theories/ScaleModel.v
theories/ScaleProps.v
theories/SeriesModel.v
theories/SeriesProofs.v
theories/SeriesProps.v
theories/ShapeModel.v
theories/ShapeProofs.v
theories/ShapeProps.v
theories/SizeModel.v
theories/SizeProps.v
theories/SkewProofs.v
theories/SmoothModel.v
theories/SmoothProofs.v
theories/SmoothProps.v
theories/SphereModel.v
theories/SphereProofs.v
theories/SphereProofs2.v
theories/SphereProofs3.v
theories/SphereProps.v
theories/SplitModel.v
theories/SplitProofs.v
theories/SplitProps.v
theories/StationModel.v
theories/StationProofs.v
theories/StationProps.v
theories/StatxModel.v
theories/StatxProps.v
theories/StepProps.v
theories/StoreModel.v
theories/StoreProps.v
theories/TextModel.v
theories/TextProps.v
theories/TileModel.v
theories/TileProofs.v
theories/TileSpec.v
theories/TmapModel.v
theories/TmapProps.v
theories/UtilModel.v
theories/UtilProofs.v
theories/UtilProofs2.v
theories/UtilProps.v
theories/UtmModel.v
theories/UtmProps.v
theories/VmaxModel.v
theories/VmaxProps.v
theories/VortModel.v
theories/VortProps.v
theories/WindModel.v
theories/WindProofs.v
theories/WindProofs2.v
theories/WindProofs3.v
theories/WindProofs4.v
theories/WindProofs5.v
theories/WindProofs6.v
theories/WindProofs7.v
theories/WindProps.v
theories/WriterModel.v
theories/WriterProps.v
