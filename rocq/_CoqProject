-Q theories Verif
theories/Base.v
theories/PixelBuffer.v
theories/Geometry.v
theories/BaseLemmas.v
theories/BufferSpec.v
theories/PixelBufferProofs.v
theories/GeometryProofs.v
theories/Reachable.v
theories/EnumProofs.v
theories/BufferThm.v
theories/P_Buffer.v
theories/ComposeProofs.v
theories/GeometryThm.v
theories/P_Geometry.v
theories/F32.v
theories/Color.v
theories/F32Lemmas.v
theories/ColorSpec.v
theories/ColorProofs.v
theories/ColorThm.v
theories/P_Color.v
theories/Resample.v
theories/Blend.v
theories/BlendProofs.v
theories/BlendThm.v
theories/P_Blend.v
theories/ResampleProofs.v
theories/Resample2Proofs.v
theories/ResampleThm.v
theories/P_Resample.v
theories/Kernel.v
theories/KernelSpec.v
theories/KernelProofs.v
theories/Kernel2Proofs.v
theories/GaussProofs.v
theories/Gauss2Proofs.v
theories/FilterProofs.v
theories/Filter2Proofs.v
theories/Filter3Proofs.v
theories/DrawingProofs.v
theories/KernelThm.v
theories/P_Kernel.v
theories/Ops.v
theories/OpsSpec.v
theories/OpsProofs.v
theories/EqualizeProofs.v
theories/HistogramProofs.v
theories/BalanceProofs.v
theories/NoiseProofs.v
theories/TemperatureProofs.v
theories/OpsThm.v
theories/P_Ops.v
theories/Codec.v
theories/CodecSpec.v
theories/PathProofs.v
theories/QuantProofs.v
theories/LayoutProofs.v
theories/DecodeProofs.v
theories/FileProofs.v
theories/RoundTripProofs.v
theories/CodecMoreProofs.v
theories/CodecThm.v
theories/P_Codec.v
theories/Image.v
theories/Names.v
theories/Commands.v
theories/CommandsSpec.v
theories/CommandsProofs.v
theories/CommandsThm.v
theories/P_Commands.v
theories/Cli.v
theories/CliSpec.v
theories/CliProofs.v
theories/CliThm.v
theories/P_Cli.v
theories/ImageSpec.v
theories/ImageProofs.v
theories/PctProofs.v
theories/ImageThm.v
theories/P_Image.v
theories/Numpy.v
theories/NumpySpec.v
theories/NumpyProofs.v
theories/NumpyThm.v
theories/P_Numpy.v
theories/MeaningSpec.v
theories/Approx.v
theories/OpMeaningProofs.v
theories/IdealPowf.v
theories/OpMeaningThm.v
theories/P_OpMeaning.v
theories/HslMeaning.v
theories/HsvMeaning.v
theories/HslOps.v
theories/HueThm.v
theories/P_Hue.v
theories/SrgbMeaning.v
theories/SrgbSamples.v
theories/SrgbThm.v
theories/P_Srgb.v
theories/Text.v
theories/TextSpec.v
theories/TextProofs.v
theories/TextThm.v
theories/P_Text.v
theories/ConvSpec.v
theories/LinearConv.v
theories/YuvMeaning.v
theories/LabCurve.v
theories/LabMeaning.v
theories/LchMeaning.v
theories/IdealLibm.v
theories/ConvProofs.v
theories/ConvThm.v
theories/P_Conv.v
theories/EnhanceSpec.v
theories/F64Lemmas.v
theories/Enhance.v
theories/Saturate.v
theories/Saturate2.v
theories/EnhanceThm.v
theories/P_Enhance.v
theories/TempSpec.v
theories/TempProofs.v
theories/KelvinProofs.v
theories/TempOpt.v
theories/IdealTanh.v
theories/TempThm.v
theories/P_Temp.v
theories/BlendSpec.v
theories/BlendMeaning.v
theories/BlendColor.v
theories/BlendMeanThm.v
theories/P_BlendMean.v
theories/ResampleSpec.v
theories/InterpProofs.v
theories/ResampleMeaning.v
theories/ResampleMeanThm.v
theories/P_ResampleMean.v
theories/RotateMeaning.v
theories/RotateMeanThm.v
theories/P_RotateMean.v
theories/LanczosSpec.v
theories/LanczosMeaning.v
theories/LanczosAuto.v
theories/LanczosThm.v
theories/P_Lanczos.v
theories/TintSpec.v
theories/TintProofs.v
theories/TintThm.v
theories/P_Tint.v
theories/GaussSpec.v
theories/GaussMeaning.v
theories/GaussMeaning2.v
theories/GaussMeanThm.v
theories/P_GaussMean.v
theories/StretchSpec.v
theories/StretchProofs.v
theories/StretchThm.v
theories/P_Stretch.v
theories/SoftProofs.v
theories/SoftThm.v
theories/P_Soft.v
theories/PyImage.v
theories/PySpec.v
theories/PyProofs.v
theories/PyThm.v
theories/P_Py.v
theories/DrawSpec.v
theories/VibProofs.v
theories/Drawing2Proofs.v
theories/PlainProofs.v
theories/DrawMeanThm.v
theories/P_DrawMean.v
theories/NoiseSpec.v
theories/MeansProofs.v
theories/MeansThm.v
theories/P_Means.v
theories/PyMoreThm.v
theories/P_PyMore.v
theories/WebPConfig.v
theories/WebPConfigThm.v
theories/P_WebPConfig.v
theories/RecipeSpec.v
theories/RecipeProofs.v
theories/RecipeThm.v
theories/P_Recipe.v
theories/ReopenSpec.v
theories/ReopenProofs.v
theories/ReopenThm.v
theories/P_Reopen.v
theories/ResaveSpec.v
theories/ResaveHints.v
theories/PowProofs.v
theories/ResaveProofs.v
theories/ResaveThm.v
theories/P_Resave.v
theories/GifSpec.v
theories/GifThm.v
theories/P_Gif.v
theories/EndSpec.v
theories/EndProofs.v
theories/EndThm.v
theories/P_End.v
theories/PaletteSpec.v
theories/PaletteProofs.v
theories/PaletteThm.v
theories/P_Palette.v
theories/PyObjects.v
theories/PyObjSpec.v
theories/PyObjProofs.v
theories/PyObjThm.v
theories/P_PyObj.v
theories/StepsSpec.v
theories/StepsProofs.v
theories/StepsThm.v
theories/P_Steps.v
theories/SobelProofs.v
theories/SobelThm.v
theories/P_Sobel.v
theories/OrderFloat.v
theories/OrderSpec.v
theories/OrderProofs.v
theories/OrderThm.v
theories/P_Order.v
theories/TileSpec.v
theories/TileProofs.v
theories/TileThm.v
theories/P_Tile.v
theories/CastSpec.v
theories/CastProofs.v
theories/CastThm.v
theories/P_Cast.v
theories/PickSpec.v
theories/PickProofs.v
theories/PickThm.v
theories/P_Pick.v
theories/PyColor.v
theories/ScriptSpec.v
theories/ScriptProofs.v
theories/ScriptThm.v
theories/P_Script.v
theories/BuildSpec.v
theories/BuildProofs.v
theories/OrdinaryProofs.v
theories/BuildThm.v
theories/P_Build.v
theories/DirectionSpec.v
theories/DirectionProofs.v
theories/DirectionThm.v
theories/P_Direction.v
theories/MethodSpec.v
theories/MethodProofs.v
theories/MethodThm.v
theories/P_Method.v
theories/AdjustSpec.v
theories/AdjustProofs.v
theories/AdjustThm.v
theories/P_Adjust.v
theories/GreySpec.v
theories/GreyProofs.v
theories/GreyThm.v
theories/P_Grey.v
theories/LineSpec.v
theories/LineProofs.v
theories/LineThm.v
theories/P_Line.v
theories/LayerSpec.v
theories/LayerProofs.v
theories/LayerThm.v
theories/P_Layer.v
theories/ActsSpec.v
theories/ActsProofs.v
theories/ActsThm.v
theories/P_Acts.v
theories/OverSpec.v
theories/OverProofs.v
theories/OverThm.v
theories/P_Over.v
theories/LevelOrderProofs.v
theories/LevelOrderThm.v
theories/P_LevelOrder.v
theories/BlurOrderProofs.v
theories/BlurOrderThm.v
theories/P_BlurOrder.v
theories/ResizeOrderProofs.v
theories/ResizeOrderThm.v
theories/P_ResizeOrder.v
theories/MoveOrderProofs.v
theories/MoveOrderThm.v
theories/P_MoveOrder.v
theories/ScriptErrorProofs.v
theories/ScriptErrorThm.v
theories/P_ScriptError.v
