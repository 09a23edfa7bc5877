-Q theories Verif
theories/Model/Arch.v
theories/Model/Base.v
theories/Model/BitManip.v
theories/Model/Bytes.v
theories/Model/Cast.v
theories/Model/Cmp.v
theories/Model/ExFannkuch.v
theories/Model/ExGeometry.v
theories/Model/ExImage.v
theories/Model/ExIntersect.v
theories/Model/ExMandelbrot.v
theories/Model/ExMandelbrotOut.v
theories/Model/ExMatrix.v
theories/Model/ExNbody.v
theories/Model/ExOcclusion.v
theories/Model/ExOptions.v
theories/Model/ExRandom.v
theories/Model/ExRandomCell.v
theories/Model/ExSpectral.v
theories/Model/ExStencil.v
theories/Model/ExSum.v
theories/Model/ExTriangle.v
theories/Model/Float.v
theories/Model/FloatConsts.v
theories/Model/FloatLane.v
theories/Model/Fmt.v
theories/Model/FmtFlags.v
theories/Model/FmtSink.v
theories/Model/Hash.v
theories/Model/Llvm.v
theories/Model/MaskReduce.v
theories/Model/Math.v
theories/Model/MathTables.v
theories/Model/Minimal.v
theories/Model/Ops.v
theories/Model/Ptr.v
theories/Model/Reduce.v
theories/Model/ScalarMask.v
theories/Model/Shuffle.v
theories/Model/ShuffleDyn.v
theories/Model/Slice.v
theories/Model/SwapBytes.v
theories/Model/Tables.v
theories/Model/Vendor.v
theories/Spec/Accuracy.v
theories/Spec/Conv.v
theories/Spec/Cycles.v
theories/Spec/Examples.v
theories/Spec/Fields.v
theories/Spec/FloatLimits.v
theories/Spec/Floats.v
theories/Spec/Formulas.v
theories/Spec/Gravity.v
theories/Spec/Handles.v
theories/Spec/Horizontal.v
theories/Spec/Linear.v
theories/Spec/MathSpec.v
theories/Spec/Matrices.v
theories/Spec/Memory.v
theories/Spec/Netpbm.v
theories/Spec/Numerals.v
theories/Spec/Obtain.v
theories/Spec/Occlusion.v
theories/Spec/Orbits.v
theories/Spec/Permutations.v
theories/Spec/Picture.v
theories/Spec/Pricing.v
theories/Spec/Rays.v
theories/Spec/Sinks.v
theories/Spec/Spec.v
theories/Spec/Stencil.v
theories/Spec/Tausworthe.v
theories/Spec/Text.v
theories/Spec/VendorSpec.v
theories/Proofs/Accuracy2P.v
theories/Proofs/Accuracy3P.v
theories/Proofs/AccuracyP.v
theories/Proofs/AssignFP.v
theories/Proofs/AssignP.v
theories/Proofs/BitManipP.v
theories/Proofs/BytesP.v
theories/Proofs/CastP.v
theories/Proofs/CmpP.v
theories/Proofs/ConstBoundsP.v
theories/Proofs/CyclesP.v
theories/Proofs/ExBasisP.v
theories/Proofs/ExFannkuchP.v
theories/Proofs/ExFannkuchScalarP.v
theories/Proofs/ExHemisphereP.v
theories/Proofs/ExImageP.v
theories/Proofs/ExImageTopP.v
theories/Proofs/ExIntersectDebugP.v
theories/Proofs/ExIntersectGroundP.v
theories/Proofs/ExIntersectMainP.v
theories/Proofs/ExIntersectP.v
theories/Proofs/ExIntersectTopP.v
theories/Proofs/ExMandelbrotOutP.v
theories/Proofs/ExMandelbrotP.v
theories/Proofs/ExMatrixP.v
theories/Proofs/ExNbodyDataP.v
theories/Proofs/ExNbodyExactP.v
theories/Proofs/ExNbodyP.v
theories/Proofs/ExNbodySimdP.v
theories/Proofs/ExNbodyVectorP.v
theories/Proofs/ExOcclusionP.v
theories/Proofs/ExOcclusionPacketP.v
theories/Proofs/ExOptionsDriverP.v
theories/Proofs/ExOptionsKernelP.v
theories/Proofs/ExOptionsP.v
theories/Proofs/ExOptionsTopP.v
theories/Proofs/ExPacketP.v
theories/Proofs/ExRandomCellP.v
theories/Proofs/ExRandomMainP.v
theories/Proofs/ExRandomP.v
theories/Proofs/ExRandomSeedP.v
theories/Proofs/ExSceneP.v
theories/Proofs/ExSceneTopP.v
theories/Proofs/ExSpectralP.v
theories/Proofs/ExStencilDataP.v
theories/Proofs/ExStencilMainP.v
theories/Proofs/ExStencilP.v
theories/Proofs/ExStencilSimdP.v
theories/Proofs/ExSumP.v
theories/Proofs/ExTiledMainP.v
theories/Proofs/ExTiledP.v
theories/Proofs/ExTiledTopP.v
theories/Proofs/ExTriangleP.v
theories/Proofs/ExactP.v
theories/Proofs/ExtraP.v
theories/Proofs/FloatApi2P.v
theories/Proofs/FloatApiP.v
theories/Proofs/FloatCastP.v
theories/Proofs/FloatConstsP.v
theories/Proofs/FloatLimitsP.v
theories/Proofs/FloatOpsP.v
theories/Proofs/FloatP.v
theories/Proofs/FloatVecP.v
theories/Proofs/FmtFlagsP.v
theories/Proofs/FmtP.v
theories/Proofs/FmtSinkP.v
theories/Proofs/FormulaP.v
theories/Proofs/GatherP.v
theories/Proofs/HashP.v
theories/Proofs/LawsP.v
theories/Proofs/Lib.v
theories/Proofs/MaskReduceP.v
theories/Proofs/MathApiP.v
theories/Proofs/MathLlvmP.v
theories/Proofs/MathP.v
theories/Proofs/MinimalP.v
theories/Proofs/NumeralP.v
theories/Proofs/ObtainP.v
theories/Proofs/OpsP.v
theories/Proofs/OpsP2.v
theories/Proofs/PermP.v
theories/Proofs/PolyP.v
theories/Proofs/PtrP.v
theories/Proofs/ReduceP.v
theories/Proofs/RotateP.v
theories/Proofs/ShuffleDynP.v
theories/Proofs/ShuffleP.v
theories/Proofs/SliceP.v
theories/Proofs/SwapBytesP.v
theories/Proofs/VendorP.v
theories/Props/P01_Lanes.v
theories/Props/P02_Arith.v
theories/Props/P03_Cmp.v
theories/Props/P04_Slice.v
theories/Props/P05_Horizontal.v
theories/Props/P06_Bits.v
theories/Props/P07_Shuffle.v
theories/Props/P08_Conv.v
theories/Props/P09_Masks.v
theories/Props/P10_ShuffleDyn.v
theories/Props/P11_Ptr.v
theories/Props/P12_Traits.v
theories/Props/P13_Fmt.v
theories/Props/P14_Float.v
theories/Props/P15_Math.v
theories/Props/P16_Vendor.v
theories/Props/P17_Consts.v
theories/Props/P18_Examples.v
theories/Props/P19_Mandelbrot.v
theories/Props/P20_Spectral.v
theories/Props/P21_Matrix.v
theories/Props/P22_Fannkuch.v
theories/Props/P23_Stencil.v
theories/Props/P24_Random.v
theories/Props/P25_Intersect.v
theories/Props/P26_Occlusion.v
theories/Props/P27_Picture.v
theories/Props/P28_Tiled.v
theories/Props/P29_Options.v
theories/Props/P30_Nbody.v
theories/Props/P31_Bitmap.v
theories/Props/P32_Accuracy.v
theories/Props/P33_Sinks.v
theories/Props/P34_Options.v
theories/Props/P35_Relative.v
theories/Props/P36_Cycles.v
theories/Props/P37_Handles.v
theories/Props/Tac.v
theories/Props/Targets.v
