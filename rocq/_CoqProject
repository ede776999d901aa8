-Q theories Verif
theories/Base.v
theories/BaseLemmas.v
theories/IndexVecModel.v
theories/IndexVecSpec.v
theories/IndexVecLemmas.v
theories/IndexVecProps.v
theories/MeshModel.v
theories/HalfEdgeModel.v
theories/MeshSpec.v
theories/MeshLemmas.v
theories/MeshProps.v
theories/HalfEdgeSpec.v
theories/HalfEdgeLemmas.v
theories/HalfEdgeLemmas2.v
theories/HalfEdgeProps.v
theories/Num.v
theories/NumLemmas.v
theories/BBoxModel.v
theories/GeomSpec.v
theories/BBoxLemmas.v
theories/BBoxProps.v
theories/SortSpec.v
theories/SortLemmas.v
theories/PermTac.v
theories/KdModel.v
theories/KdSpec.v
theories/KdLemmas.v
theories/KdProps.v
theories/OcModel.v
theories/OcSpec.v
theories/OcLemmas.v
theories/OcProps.v
theories/FloatLemmas.v
theories/LineModel.v
theories/AabbModel.v
theories/AabbSpec.v
theories/AabbLemmas.v
theories/AabbProps.v
theories/FilterModel.v
theories/FilterSpec.v
theories/FilterLemmas.v
theories/FilterProps.v
theories/VecModel.v
theories/VecSpec.v
theories/VecLemmas.v
theories/MeshAlgoModel.v
theories/MeshAlgoSpec.v
theories/MeshAlgoLemmas.v
theories/UnifySpec.v
theories/UnifyLemmas.v
theories/UnifyRLemmas.v
theories/MeshAlgoProps.v
theories/MatrixModel.v
theories/MatrixSpec.v
theories/MatrixLemmas.v
theories/MatrixProps.v
theories/FloatSpec.v
theories/FloatBridge.v
theories/WrapModel.v
theories/WrapLemmas.v
theories/WrapProps.v
theories/ShapeModel.v
theories/ShapeSpec.v
theories/ShapeLemmas.v
theories/ShapeProps.v
theories/CloudModel.v
theories/CloudSpec.v
theories/CloudLemmas.v
theories/CloudProps.v
theories/HullModel.v
theories/HullSpec.v
theories/HullLemmas.v
theories/CompressLemmas.v
theories/HullProps.v
theories/ShapeMoreProps.v
theories/IoModel.v
theories/IoSpec.v
theories/IoLemmas.v
theories/IoProps.v
theories/ByteModel.v
theories/ByteSpec.v
theories/ByteLemmas.v
theories/ByteProps.v
theories/StlModel.v
theories/StlSpec.v
theories/StlLemmas.v
theories/StlProps.v
theories/PlyModel.v
theories/PlySpec.v
theories/PlyLemmas.v
theories/PlySaveLemmas.v
theories/PlyTotalLemmas.v
theories/PlyProps.v
theories/ScanModel.v
theories/ScanSpec.v
theories/ScanLemmas.v
theories/ObjOffLemmas.v
theories/GcodeLemmas.v
theories/ScanProps.v
theories/ScanTotalProps.v
theories/ScannerModel.v
theories/ScannerSpec.v
theories/ScannerLemmas.v
theories/ScannerProps.v
theories/LasLemmas.v
theories/LasProps.v
theories/NeighbourModel.v
theories/NeighbourSpec.v
theories/NeighbourLemmas.v
theories/NeighbourProps.v
theories/ClusterModel.v
theories/ClusterSpec.v
theories/ClusterLemmas.v
theories/ClusterLemmas2.v
theories/ClusterLemmas3.v
theories/ClusterProps.v
theories/InterpModel.v
theories/InterpSpec.v
theories/InterpLemmas.v
theories/InterpProps.v
theories/FCloudModel.v
theories/FCloudSpec.v
theories/FCloudLemmas.v
theories/FCloudProps.v
theories/CollideModel.v
theories/CollideSpec.v
theories/CollideLemmas.v
theories/CollideProps.v
theories/AngleModel.v
theories/AngleSpec.v
theories/AngleLemmas.v
theories/AngleProps.v
theories/NormalModel.v
theories/NormalSpec.v
theories/NormalLemmas.v
theories/NormalProps.v
theories/EditModel.v
theories/EditSpec.v
theories/EditLemmas.v
theories/EditProps.v
theories/EditMoreProps.v
theories/PointTextModel.v
theories/PointTextSpec.v
theories/PointTextLemmas.v
theories/PointTextProps.v
theories/RotBoxSpec.v
theories/RotBoxProps.v
theories/VecMoreProps.v
theories/NdModel.v
theories/NdSpec.v
theories/NdProps.v
theories/CutSpec.v
theories/CutLemmas.v
theories/CutLemmas2.v
theories/CutLemmas3.v
theories/CutLemmas4.v
theories/CutLemmas5.v
theories/CutProps.v
theories/ReaderModel.v
theories/ReaderSpec.v
theories/ReaderLemmas.v
theories/ReaderLemmas2.v
theories/ReaderLemmas3.v
theories/ReaderLemmas4.v
theories/ReaderProps.v
theories/RootLemmas.v
theories/DistSpec.v
theories/DistLemmas.v
theories/DistLemmas2.v
theories/DistLemmas3.v
theories/KdF64Lemmas.v
theories/DistProps.v
theories/KdF64Props.v
theories/DeriveModel.v
theories/DeriveSpec.v
theories/DeriveLemmas.v
theories/DeriveLemmas2.v
theories/DeriveProps.v
theories/IterModel.v
theories/IterSpec.v
theories/IterProps.v
theories/WriterModel.v
theories/WriterSpec.v
theories/WriterLemmas.v
theories/WriterProps.v
theories/UnitSpec.v
theories/UnitLemmas.v
theories/UnitProps.v
theories/GeoSpec.v
theories/GeoLemmas.v
theories/GeoProps.v
theories/TypedVecModel.v
theories/TypedVecSpec.v
theories/TypedVecProps.v
theories/PathModel.v
theories/PathSpec.v
theories/PathLemmas.v
theories/PathProps.v
theories/BoxDistSpec.v
theories/BoxDistLemmas.v
theories/BoxDistProps.v
theories/ErrTextModel.v
theories/ErrTextProps.v
theories/MeanSpec.v
theories/MeanLemmas.v
theories/MeanProps.v
theories/GridSpec.v
theories/GridLemmas.v
theories/GridHullLemmas.v
theories/GridHullProps.v
theories/GridKdLemmas.v
theories/GridKdProps.v
theories/SatF64Spec.v
theories/SatF64Lemmas.v
theories/SatF64Props.v
theories/GridBoxSpec.v
theories/GridBoxLemmas.v
theories/GridBoxProps.v
theories/MatF64Spec.v
theories/MatF64Lemmas.v
theories/MatF64Props.v
theories/ClearSpec.v
theories/ClearLemmas.v
theories/ClearProps.v
theories/PartsModel.v
theories/PartsSpec.v
theories/PartsLemmas.v
theories/PartsProps.v
theories/BadMeshSpec.v
theories/BadMeshLemmas.v
theories/BadMeshProps.v
theories/IterLoadProps.v
theories/MidSpec.v
theories/MidLemmas.v
theories/MidProps.v
theories/StlFlatLemmas.v
theories/PlaceModel.v
theories/PlaceSpec.v
theories/PlaceLemmas.v
theories/PlaceProps.v
theories/ShowModel.v
theories/ShowSpec.v
theories/ShowLemmas.v
theories/ShowProps.v
theories/RayGridSpec.v
theories/RayGridLemmas.v
theories/RayGridProps.v
theories/AxisRaySpec.v
theories/AxisRayLemmas.v
theories/AxisRayProps.v
theories/ConvSpec.v
theories/ConvLemmas.v
theories/ConvProps.v
theories/ConvertedModel.v
theories/ConvertedSpec.v
theories/ConvertedLemmas.v
theories/ConvertedProps.v
theories/StlAnyProps.v
theories/SortNanProps.v
theories/UsableSpec.v
theories/UsableProps.v
theories/HealTwiceProps.v
theories/ClosedSpec.v
theories/ClosedProps.v
theories/SolidSpec.v
theories/SolidProps.v
theories/EdgeCountSpec.v
theories/EdgeCountProps.v
