-Q theories Verif
theories/PySlice.v
theories/FwdSliceModel.v
theories/NdIndex.v
theories/FwdSliceProofs.v
theories/FwdSliceNd.v
theories/FwdSliceProps.v
theories/ChunkModel.v
theories/ChunkProofs.v
theories/ChunkProps.v
theories/JrrleModel.v
theories/JrrleProofs.v
theories/JrrleProps.v
theories/Dict.v
theories/BucketModel.v
theories/BucketProofs.v
theories/BucketProps.v
theories/TreeModel.v
theories/TreeProofs.v
theories/TreeProps.v
theories/SelModel.v
theories/SelProofs.v
theories/SelProps.v
theories/TemporalModel.v
theories/TemporalProps.v
theories/NdSelModel.v
theories/NdSelSpec.v
theories/NdSelProofs.v
theories/NdSelProps.v
theories/OdModel.v
theories/OdSpec.v
theories/OdProofs.v
theories/OdProps.v
theories/FutModel.v
theories/FutProofs.v
theories/FutCallbacks.v
theories/FutLive.v
theories/FutWait.v
theories/FutWaitInv.v
theories/FutTrace.v
theories/FutProps.v
theories/ParMapModel.v
theories/ParMapProps.v
theories/StreamModel.v
theories/StreamSpec.v
theories/StreamProofs.v
theories/StreamProps.v
theories/StreamPar.v
theories/ClusterModel.v
theories/ClusterProofs.v
theories/ClusterProps.v
theories/InterpModel.v
theories/InterpSpec.v
theories/InterpProofs.v
theories/AmrProofs.v
theories/InterpProps.v
theories/AmrProps.v
theories/JsonModel.v
theories/JsonSpec.v
theories/JsonProofs.v
theories/JsonProps.v
theories/EvalModel.v
theories/EvalSpec.v
theories/EvalProofs.v
theories/EvalProps.v
theories/TimeModel.v
theories/TimeSpec.v
theories/TimeProofs.v
theories/TimeProps.v
theories/LinesModel.v
theories/LinesSpec.v
theories/LinesProofs.v
theories/LinesProps.v
theories/GlobModel.v
theories/GlobProps.v
theories/AmrRedModel.v
theories/AmrRedProps.v
theories/FldModel.v
theories/FldProofs.v
theories/LayoutProps.v
theories/TransProps.v
theories/LazyProps.v
theories/ExtendModel.v
theories/ExtendProps.v
theories/PointsModel.v
theories/PointsProps.v
theories/CrdModel.v
theories/CrdProps.v
theories/CrdSliceProps.v
theories/DerivModel.v
theories/DerivProps.v
theories/LineIntModel.v
theories/LineIntProps.v
theories/R3.v
theories/RotModel.v
theories/RotProofs.v
theories/EulerProps.v
theories/RotProps.v
theories/AxisProps.v
theories/CotrModel.v
theories/CotrProps.v
theories/SeedModel.v
theories/SeedProps.v
theories/SeedMeshProps.v
theories/IntegModel.v
theories/IntegSpec.v
theories/IntegOrder.v
theories/IntegProofs.v
theories/IntegProps.v
theories/IntegAcc.v
theories/QuantModel.v
theories/QuantProps.v
theories/NullModel.v
theories/NullProps.v
theories/NullClassProps.v
theories/EcfcModel.v
theories/EcfcProps.v
theories/SepModel.v
theories/SepBitorProps.v
theories/SepBisectProps.v
theories/MinvarModel.v
theories/MinvarProps.v
theories/MapPtsModel.v
theories/MapPtsProps.v
theories/MapFieldModel.v
theories/MapFieldProps.v
theories/GreatModel.v
theories/GreatProps.v
theories/DipModel.v
theories/DipProps.v
theories/DipMapProps.v
theories/ArithModel.v
theories/ArithProps.v
theories/ReduceProps.v
theories/TrapzModel.v
theories/TrapzProps.v
theories/TrapzIntProps.v
theories/MaskModel.v
theories/MaskProps.v
theories/SaveModel.v
theories/SaveProps.v
theories/VecModel.v
theories/VecProps.v
theories/FilesModel.v
theories/FilesProofs.v
theories/FilesProps.v
theories/AmrSliceModel.v
theories/AmrSliceProps.v
theories/VpicModel.v
theories/VpicProps.v
theories/XdmfModel.v
theories/XdmfProps.v
theories/AthenaModel.v
theories/AthenaProps.v
theories/PsiModel.v
theories/PsiProps.v
theories/SetSliceModel.v
theories/SetSliceProps.v
theories/FluidModel.v
theories/FluidProps.v
theories/ViewModel.v
theories/ViewProps.v
theories/MpauseModel.v
theories/MpauseProps.v
theories/FrameModel.v
theories/FrameProps.v
theories/GgcmModel.v
theories/GgcmProps.v
theories/ConvModel.v
theories/ConvProps.v
theories/ResampleModel.v
theories/ResampleProps.v
theories/GkeyllModel.v
theories/GkeyllProps.v
theories/TabModel.v
theories/TabProps.v
theories/PathModel.v
theories/PathProps.v
theories/ClockModel.v
theories/ClockProps.v
theories/SelTextModel.v
theories/SelTextProps.v
theories/IntSliceModel.v
theories/IntSliceProps.v
theories/IsoModel.v
theories/IsoProps.v
theories/MakeModel.v
theories/MakeProps.v
theories/FortbinModel.v
theories/FortbinProps.v
theories/LogModel.v
theories/LogProps.v
theories/DetectModel.v
theories/DetectProps.v
theories/PrepModel.v
theories/PrepProps.v
theories/Plot2dModel.v
theories/Plot2dProps.v
theories/AmrOpModel.v
theories/AmrOpProps.v
theories/HexModel.v
theories/HexProps.v
theories/PrepColModel.v
theories/PrepColProps.v
theories/SecModel.v
theories/SecProps.v
theories/MultiModel.v
theories/MultiProps.v
