-Q theories Verif
theories/Base/Bits.v
theories/Base/Cpp.v
theories/Base/Arch.v
theories/Base/Isa.v
theories/Base/Shuf.v
theories/Base/X86.v
theories/Base/Neon.v
theories/Base/Ppc.v
theories/Base/Msa.v
theories/Base/IsaShuf.v
theories/Spec/Lanewise.v
theories/Base/Vec.v
theories/Spec/Shuffles.v
theories/Base/ShufLift.v
theories/Model/Null.v
theories/Model/MakeConst.v
theories/Model/Mask.v
theories/Model/Bitwise.v
theories/Spec/Masks.v
theories/Model/Arith.v
theories/Model/BitApi.v
theories/Proof/CppLemmas.v
theories/Proof/MakeConstP.v
theories/Proof/BitwiseP.v
theories/Proof/MaskP.v
theories/Proof/ArithP.v
theories/Thm/T_Arith.v
theories/Thm/T_Bitwise.v
theories/Proof/Sel.v
theories/Proof/SelIsa.v
theories/Proof/SelTac.v
theories/Model/Move.v
theories/Proof/MoveP.v
theories/Model/Bytes.v
theories/Proof/BytesP.v
theories/Model/NeonShuf.v
theories/Proof/NeonShufP.v
theories/Model/Permute.v
theories/Proof/PermuteP.v
theories/Model/Shuf4x2.v
theories/Proof/Shuf4x2P.v
theories/Model/Shuf2x2.v
theories/Proof/Shuf2x2P.v
theories/Model/Unzip.v
theories/Proof/UnzipP.v
theories/Model/ShufApi.v
theories/Thm/T_Shuffle.v
theories/Model/ShufApi2.v
theories/Thm/T_Shuffle2.v
theories/Thm/T_ZipUnzip.v
theories/Model/SetSplat.v
theories/Proof/SetSplatP.v
theories/Thm/T_Const.v
theories/Model/Shift.v
theories/Proof/ShiftP.v
theories/Thm/T_Shift.v
theories/Model/Blend.v
theories/Proof/BlendP.v
theories/Thm/T_Blend.v
theories/Model/Cmp.v
theories/Proof/CmpP.v
theories/Thm/T_Cmp.v
theories/Spec/Floats.v
theories/Model/Floats.v
theories/Proof/FloatsP.v
theories/Proof/FloatsP2.v
theories/Proof/FloatsP3.v
theories/Thm/T_Floats.v
theories/Model/ZBytes.v
theories/Spec/ByteShuf.v
theories/Proof/ZBytesP.v
theories/Thm/T_Bytes.v
theories/Model/MinMax.v
theories/Proof/MinMaxP.v
theories/Thm/T_MinMax.v
theories/Spec/Sorted.v
theories/Model/Bitonic.v
theories/Proof/ZeroOne.v
theories/Proof/BitonicP.v
theories/Thm/T_Bitonic.v
theories/Spec/Isa.v
theories/Model/Preproc.v
theories/Thm/T_Preproc.v
theories/Spec/Dispatch.v
theories/Model/Dispatch.v
theories/Thm/T_Dispatch.v
theories/Spec/Cpu.v
theories/Model/Cpuid.v
theories/Thm/T_Cpuid.v
theories/Model/Alloc.v
theories/Thm/T_Alloc.v
theories/Spec/Text.v
theories/Model/CpuInfo.v
theories/Thm/T_CpuInfo.v
theories/Spec/Types.v
theories/Model/Expr.v
theories/Thm/T_Expr.v
theories/Spec/Typed.v
theories/Model/Convert.v
theories/Proof/ConvertP.v
theories/Proof/ConvertP2.v
theories/Proof/ConvertP3.v
theories/Proof/ConvertP4.v
theories/Proof/SplitP.v
theories/Model/ConvApi.v
theories/Thm/T_Convert.v
theories/Model/Cast.v
theories/Proof/CastP.v
theories/Model/Mul.v
theories/Proof/MulP.v
theories/Proof/MulP2.v
theories/Proof/MulP3.v
theories/Proof/MulP4.v
theories/Proof/MulP5.v
theories/Thm/T_Mul.v
theories/Thm/T_Cast.v
theories/Spec/Program.v
theories/Model/Program.v
theories/Thm/T_Program.v
theories/Spec/Mem.v
theories/Base/Memory.v
theories/Model/LoadStore.v
theories/Proof/LoadStoreP.v
theories/Proof/LoadStoreP2.v
theories/Proof/LoadStoreP3.v
theories/Proof/LoadStoreP4.v
theories/Thm/T_Memory.v
theories/Model/Transpose.v
theories/Proof/TransposeP.v
theories/Spec/Transpose.v
theories/Thm/T_Transpose.v
theories/Spec/Packed.v
theories/Model/Packed.v
theories/Proof/PackedP.v
theories/Proof/PackedP2.v
theories/Proof/PackedP3.v
theories/Thm/T_Packed.v
theories/Spec/Elements.v
theories/Model/Extract.v
theories/Proof/ExtractP.v
theories/Proof/ExtractP2.v
theories/Thm/T_Elements.v
theories/Model/LoadSplat.v
theories/Thm/T_LoadSplat.v
theories/Model/Shuf64.v
theories/Model/Narrow.v
theories/Proof/Shuf64P.v
theories/Proof/NarrowP.v
theories/Proof/NarrowP2.v
theories/Thm/T_Narrow.v
theories/Spec/Counting.v
theories/Model/Popcnt.v
theories/Proof/PopcntP.v
theories/Proof/PopcntP2.v
theories/Proof/PopcntP3.v
theories/Thm/T_Popcnt.v
theories/Spec/Reduce.v
theories/Model/Reduce.v
theories/Model/ReduceAdd.v
theories/Proof/ReduceP.v
theories/Proof/ReduceP2.v
theories/Proof/ReduceP3.v
theories/Proof/ReduceP4.v
theories/Proof/ReduceP5.v
theories/Proof/ReduceP6.v
theories/Proof/ReduceP7.v
theories/Thm/T_Reduce.v
theories/Model/ReducePop.v
theories/Proof/ReducePopP.v
theories/Thm/T_ReducePop.v
theories/Model/ReduceMul.v
theories/Proof/ReduceMulP.v
theories/Proof/ReduceMulP2.v
theories/Proof/ReduceMulP3.v
theories/Proof/ReduceMulP4.v
theories/Thm/T_ReduceMul.v
theories/Spec/BitTest.v
theories/Model/BitTest.v
theories/Proof/BitTestP.v
theories/Proof/BitTestP2.v
theories/Proof/BitTestP3.v
theories/Proof/BitTestP4.v
theories/Proof/BitTestP5.v
theories/Proof/BitTestP6.v
theories/Proof/BitTestP7.v
theories/Thm/T_BitTest.v
theories/Model/ShiftV.v
theories/Proof/ShiftVP.v
theories/Proof/ShiftVP2.v
theories/Proof/ShiftVP3.v
theories/Proof/ShiftVP4.v
theories/Proof/ShiftVP5.v
theories/Proof/ShiftVP6.v
theories/Thm/T_ShiftV.v
theories/Model/Abs.v
theories/Proof/AbsP.v
theories/Thm/T_Abs.v
theories/Spec/Scalar.v
theories/Thm/T_Scalar.v
theories/Model/Perm64.v
theories/Proof/Perm64P.v
theories/Thm/T_Perm64.v
theories/Spec/FloatOrd.v
theories/Model/FMinMax.v
theories/Proof/FMinMaxP.v
theories/Thm/T_FMinMax.v
theories/Spec/FloatArith.v
theories/Model/FArith.v
theories/Proof/FloatRoundP.v
theories/Proof/FArithP.v
theories/Thm/T_FArith.v
theories/Spec/FloatConv.v
theories/Model/FConv.v
theories/Proof/FConvP.v
theories/Proof/FConvP2.v
theories/Proof/FConvP3.v
theories/Proof/FConvP4.v
theories/Thm/T_FConv.v
theories/Model/FRound.v
theories/Proof/FRoundP.v
theories/Proof/FRoundP2.v
theories/Proof/FRoundP3.v
theories/Proof/FRoundP4.v
theories/Thm/T_FRound.v
theories/Spec/FloatReduce.v
theories/Model/FReduce.v
theories/Proof/FReduceP.v
theories/Proof/FReduceP2.v
theories/Thm/T_FReduce.v
theories/Spec/DivP.v
theories/Model/DivP.v
theories/Proof/DivPP.v
theories/Thm/T_DivP.v
theories/Spec/FloatConv64.v
theories/Model/FConv64.v
theories/Proof/FConv64P.v
theories/Proof/FConv64P2.v
theories/Proof/FConv64P3.v
theories/Proof/FConv64P4.v
theories/Proof/FConv64P5.v
theories/Thm/T_FConv64.v
theories/Spec/FloatConvI64.v
theories/Model/FConvI64.v
theories/Proof/FConvI64P.v
theories/Proof/FConvI64P2.v
theories/Thm/T_FConvI64.v
theories/Model/FConvS.v
theories/Thm/T_FConvS.v
theories/Model/Log2.v
theories/Proof/Log2P.v
theories/Thm/T_Log2.v
theories/Proof/Log2R.v
theories/Proof/Log2AccP.v
theories/Thm/T_Log2Acc.v
theories/Spec/FProgram.v
theories/Model/FProgram.v
theories/Thm/T_FProgram.v
theories/Spec/FUnits.v
theories/Proof/NewtonP.v
theories/Thm/T_FUnits.v
theories/Model/MakeFloat.v
theories/Thm/T_MakeFloat.v
theories/Spec/SProgram.v
theories/Model/SProgram.v
theories/Thm/T_SProgram.v
theories/Spec/RProgram.v
theories/Model/RProgram.v
theories/Thm/T_RProgram.v
theories/Spec/Kernel.v
theories/Model/Kernel.v
theories/Thm/T_Kernel.v
