-Q theories Verif
theories/StackModel.v
theories/GraphSpec.v
theories/GraphModel.v
theories/CompilerModel.v
theories/CompilerSpec.v
theories/GraphProofs.v
theories/StackProofs.v
theories/CompilerProofs.v
theories/CompilerProofs2.v
theories/CompilerProofs3.v
theories/PropsCompiler.v
theories/IntimeModel.v
theories/IntimeProofs.v
theories/ConstFoldModel.v
theories/PipelineModel.v
theories/ConstFoldProofs.v
theories/ConstFoldProofs2.v
theories/PropsConstFold.v
theories/WorkbenchModel.v
theories/WorkbenchSpec.v
theories/WorkbenchProofs.v
theories/WorkbenchProofs2.v
theories/PropsWorkbench.v
theories/ShapeModel.v
theories/ShapeSpec.v
theories/ShapeProofs.v
theories/TensorModel.v
theories/TensorSpec.v
theories/TensorProofs.v
theories/PropsTensor.v
theories/SerialModel.v
theories/SerialSpec.v
theories/SerialProofs.v
theories/ModuleModel.v
theories/ModuleSpec.v
theories/ModuleProofs.v
theories/ModuleProofs2.v
theories/PropsSerial.v
theories/RwLockModel.v
theories/RwLockProofs.v
theories/PoolModel.v
theories/PoolSpec.v
theories/PoolProofs.v
theories/PoolProofs2.v
theories/ThreadLifeModel.v
theories/ThreadLifeProofs.v
theories/BinsModel.v
theories/BinsSpec.v
theories/BinsProofs.v
theories/SyncModel.v
theories/SyncSpec.v
theories/SyncProofs.v
theories/PropsConcurrency.v
theories/AesModel.v
theories/AesSpec.v
theories/AesProofs.v
theories/AesProofs2.v
theories/AesStreamModel.v
theories/AesStreamSpec.v
theories/AesStreamProofs.v
theories/AesStreamProofs2.v
theories/PropsAes.v
theories/SyncProofs2.v
theories/VatModel.v
theories/VatSpec.v
theories/VatProofs.v
theories/VatProofs2.v
theories/MemoryModel.v
theories/MemorySpec.v
theories/MemsetModel.v
theories/MemoryProofs.v
theories/PropsMemory.v
theories/ScanModel.v
theories/ScanSpec.v
theories/ScanProofs.v
theories/PropsScan.v
theories/OtlModel.v
theories/OtlSpec.v
theories/OtlProofs.v
theories/TextModel.v
theories/TextSpec.v
theories/TextProofs.v
theories/ArgModel.v
theories/ArgSpec.v
theories/ArgProofs.v
theories/CtxModel.v
theories/CtxSpec.v
theories/CtxProofs.v
theories/PropsUtils.v
theories/KernelBase.v
theories/KernelSpec.v
theories/KernelProofs.v
theories/ConcatModel.v
theories/ConcatSpec.v
theories/ConcatProofs.v
theories/ChunkProofs.v
theories/PropsConcat.v
theories/TransposeModel.v
theories/TransposeSpec.v
theories/TransposeProofs.v
theories/PropsTranspose.v
theories/SliceModel.v
theories/SliceSpec.v
theories/CoordProofs.v
theories/SliceProofs.v
theories/PropsSlice.v
theories/TileModel.v
theories/TileSpec.v
theories/TileProofs.v
theories/PropsTile.v
theories/GatherModel.v
theories/GatherSpec.v
theories/GatherProofs.v
theories/PropsGather.v
theories/GatherNdModel.v
theories/GatherNdSpec.v
theories/GatherNdProofs.v
theories/PropsGatherNd.v
theories/PadModel.v
theories/PadSpec.v
theories/PadProofs.v
theories/PropsPad.v
theories/LoopModel.v
theories/LoopProofs.v
theories/BatchModel.v
theories/BatchSpec.v
theories/BatchProofs.v
theories/PropsBatch.v
theories/EltwiseModel.v
theories/EltwiseSpec.v
theories/EltwiseProofs.v
theories/EltwiseKernelProofs.v
theories/EltwiseMainProofs.v
theories/PropsEltwise.v
theories/NmsModel.v
theories/NmsSpec.v
theories/NmsProofs.v
theories/PropsNms.v
theories/AxisModel.v
theories/AxisSpec.v
theories/AxisProofs.v
theories/AxisScanProofs.v
theories/AxisSumProofs.v
theories/PropsAxis.v
theories/HalfModel.v
theories/HalfSpec.v
theories/HalfProofs.v
theories/HalfValueProofs.v
theories/HalfOrderProofs.v
theories/PropsHalf.v
theories/SinkModel.v
theories/SinkSpec.v
theories/PropsSink.v
theories/AesModeProofs.v
theories/InferModel.v
theories/InferSpec.v
theories/InferProofs.v
theories/PropsInfer.v
theories/TransModel.v
theories/TransSpec.v
theories/TransRulesModel.v
theories/TransProofs.v
theories/TransProofs2.v
theories/TransProofs3.v
theories/TransKindProofs.v
theories/PropsTrans.v
theories/GemmModel.v
theories/GemmSpec.v
theories/GemmProofs.v
theories/GemmPlainProofs.v
theories/PropsGemm.v
theories/ConvModel.v
theories/ConvSpec.v
theories/ConvProofs.v
theories/PropsConv.v
theories/GemmOpModel.v
theories/GemmOpSpec.v
theories/GemmOpProofs.v
theories/PropsGemmOp.v
theories/PoolingModel.v
theories/PoolingSpec.v
theories/PoolingProofs.v
theories/PropsPooling.v
theories/InputParamModel.v
theories/PropsInputParam.v
theories/DeconvModel.v
theories/DeconvSpec.v
theories/DeconvProofs.v
theories/PropsDeconv.v
theories/DepthwiseModel.v
theories/DepthwiseSpec.v
theories/DepthwiseProofs.v
theories/PropsDepthwise.v
theories/NewShapeModel.v
theories/NewShapeSpec.v
theories/NewShapeProofs.v
theories/PropsNewShape.v
theories/ShuffleModel.v
theories/ShuffleSpec.v
theories/ShuffleProofs.v
theories/PropsShuffle.v
theories/WhereModel.v
theories/WhereSpec.v
theories/WhereProofs.v
theories/PropsWhere.v
theories/WinogradModel.v
theories/WinogradAlgebra.v
theories/WinogradProofs.v
theories/PropsWinograd.v
theories/ActivationModel.v
theories/ActivationSpec.v
theories/ActivationProofs.v
theories/PropsActivation.v
theories/NormModel.v
theories/NormSpec.v
theories/NormProofs.v
theories/PropsNorm.v
theories/OperatorModel.v
theories/OperatorSpec.v
theories/PropsOperator.v
theories/CastModel.v
theories/CastSpec.v
theories/CastProofs.v
theories/PropsCast.v
theories/PropsText2.v
theories/SliceOpModel.v
theories/PropsSliceOp.v
theories/TopkModel.v
theories/TopkSpec.v
theories/PropsTopk.v
theories/ResizeModel.v
theories/ResizeSpec.v
theories/ResizeProofs.v
theories/PropsResize.v
theories/FilterModel.v
theories/FilterSpec.v
theories/FilterProofs.v
theories/PropsFilter.v
theories/ColourModel.v
theories/ColourSpec.v
theories/PropsColour.v
theories/PrewhitenModel.v
theories/PropsPrewhiten.v
theories/AffineModel.v
theories/AffineSpec.v
theories/AffineProofs.v
theories/PropsAffine.v
theories/ZooModel.v
theories/ZooSpec.v
theories/PropsZoo.v
theories/PropsDivided.v
theories/ApiModel.v
theories/ApiSpec.v
theories/PropsApi.v
theories/LogModel.v
theories/PropsLog.v
theories/LinkModel.v
theories/PropsLink.v
theories/RegistryModel.v
theories/PropsRegistry.v
theories/HardModel.v
theories/HardSpec.v
theories/PropsHard.v
theories/PropsSliceMask.v
theories/PropsLeftovers.v
theories/PropsSharing.v
theories/PriorBoxModel.v
theories/PriorBoxSpec.v
theories/PropsPriorBox.v
theories/QuantizeModel.v
theories/QuantizeSpec.v
theories/PropsQuantize.v
theories/PatchModel.v
theories/PatchSpec.v
theories/PropsPatch.v
theories/PropsConstant.v
theories/ConstantModel.v
theories/PaddingModel.v
theories/PaddingSpec.v
theories/PropsPadding.v
theories/SmartModel.v
theories/SmartSpec.v
theories/PropsSmart.v
theories/ProgramModel.v
theories/ProgramSpec.v
theories/PropsProgram.v
theories/YoloModel.v
theories/YoloSpec.v
theories/PropsYolo.v
theories/PosterModel.v
theories/PosterSpec.v
theories/PosterProofs.v
theories/PropsPoster.v
theories/GraphInferModel.v
theories/GraphInferSpec.v
theories/PropsGraphInfer.v
theories/SplitterModel.v
theories/SplitterSpec.v
theories/PropsSplitter.v
theories/LstmModel.v
theories/LstmSpec.v
theories/PropsLstm.v
theories/DeviceCtxModel.v
theories/DeviceCtxSpec.v
theories/PropsDeviceCtx.v
theories/RuntimeCtxModel.v
theories/RuntimeCtxSpec.v
theories/PropsRuntimeCtx.v
theories/DetectModel.v
theories/DetectSpec.v
theories/DetectProofs.v
theories/PropsDetect.v
theories/ProposalModel.v
theories/ProposalSortProofs.v
theories/ProposalSpec.v
theories/ProposalProofs.v
theories/PropsProposal.v
theories/RoiAlignModel.v
theories/RoiAlignSpec.v
theories/RoiAlignProofs.v
theories/PropsRoiAlign.v
theories/DcnModel.v
theories/DcnSpec.v
theories/DcnProofs.v
theories/PropsDcn.v
theories/DynamicSpec.v
theories/DynamicModel.v
theories/PropsDynamic.v
theories/QuantConvModel.v
theories/QuantConvSpec.v
theories/QuantConvProofs.v
theories/PropsQuantConv.v
theories/ConvZipModel.v
theories/PropsConvZip.v
theories/RandomModel.v
theories/PropsRandom.v
theories/GemmPackModel.v
theories/PropsGemmPack.v
theories/BnFoldModel.v
theories/PropsBnFold.v
theories/Sample2dModel.v
theories/PropsSample2d.v
theories/SymbolModel.v
theories/SymbolSpec.v
theories/PropsSymbol.v
theories/MemStreamModel.v
theories/MemStreamSpec.v
theories/PropsMemStream.v
theories/ProfilerModel.v
theories/PropsProfiler.v
theories/PropsFp16.v
theories/SwitchModel.v
theories/PropsSwitch.v
