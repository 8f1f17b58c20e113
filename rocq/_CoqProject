-Q theories Verif
theories/Base.v
theories/Simd.v
theories/Cart.v
theories/OrderData.v
theories/RecurData.v
theories/Mdir.v
theories/Tables.v
theories/Recur.v
theories/QList.v
theories/HRRStep.v
theories/HRRAlgo.v
theories/HRROrder.v
theories/GenHRR.v
theories/GenHRRSpec.v
theories/HRRExec.v
theories/HRRExample.v
theories/VRRStep.v
theories/VRRAlgo.v
theories/VRROrder.v
theories/VRRExample.v
theories/GenVRR.v
theories/GenVRRSpec.v
theories/VRRExec.v
theories/VRRExecSpec.v
theories/VRRExecExample.v
theories/Offsets.v
theories/Contract.v
theories/Starts.v
theories/Kernel.v
theories/KernelSpec.v
theories/Layout.v
theories/Sort.v
theories/PairData.v
theories/Cat.v
theories/Heap.v
theories/Ssss.v
theories/Work.v
theories/Permute.v
theories/Driver.v
theories/DriverList.v
theories/Deriv.v
theories/DerivSpec.v
theories/DerivExample.v
theories/Boys.v
theories/BoysProof.v
theories/BoysSeries.v
theories/BoysData.v
theories/BoysCheck.v
theories/BoysTable.v
theories/BoysFacts.v
theories/BoysAccuracy.v
theories/BoysLong.v
theories/OneE.v
theories/OneEProof.v
theories/OneESpec.v
theories/OneEInt.v
theories/Potential.v
theories/PotentialProof.v
theories/PotentialSpec.v
theories/PotentialInt.v
theories/OneEExample.v
theories/Naming.v
theories/CmdLine.v
theories/CmdLineProof.v
theories/InitData.v
theories/Dispatch.v
theories/OSFamily.v
theories/EndToEnd.v
theories/EndToEndProof.v
theories/EndToEndExample.v
theories/Create.v
theories/OrdRing.v
theories/Screen.v
theories/ScreenProof.v
theories/ScreenExample.v
theories/Constants.v
theories/ConstantsProof.v
theories/Normalize.v
theories/NormalizeProof.v
theories/RealScreen.v
theories/BoysReal.v
theories/BoysRealLong.v
theories/BoysRealSplit.v
theories/NormPos.v
theories/RealLine.v
theories/RealCharge.v
theories/OSSplit.v
theories/RealRepulsive.v
theories/RealScreened.v
theories/DerivKernel.v
theories/DerivKernelProof.v
theories/DerivKernelExample.v
theories/OSMoves.v
theories/RealDeriv.v
theories/RealDerivKernel.v
theories/RealUnique.v
theories/SeqConv.v
theories/Reference.v
theories/Moments.v
theories/Expect.v
theories/ReferenceProof.v
theories/RefLoops.v
theories/RefBuffer.v
theories/RefBufferProof.v
theories/RefTests.v
theories/ValeevF.v
theories/Packed.v
theories/MolFile.v
theories/MolFileProof.v
theories/ScreenTest.v
theories/ScreenTestProof.v
theories/Fortran.v
theories/FortranProof.v
theories/GaussInt.v
theories/BoysGrid.v
theories/BoysGridProof.v
theories/BoysScripts.v
theories/BoysScriptsProof.v
theories/Align.v
theories/AlignProof.v
theories/BuildSel.v
theories/Vector.v
theories/IntRange.v
theories/IntRangeProof.v
theories/Threads.v
theories/TypeOrder.v
theories/PointCharge.v
theories/RealOneE.v
theories/Programs.v
theories/RealGram.v
theories/RoundSum.v
theories/RoundHRR.v
theories/RoundBoys.v
theories/RoundBoysAcc.v
theories/RoundSplit.v
theories/RoundLong.v
theories/Prop_Cart.v
theories/Prop_HRR.v
theories/Prop_VRR.v
theories/Prop_GenVRR.v
theories/Prop_VRRExec.v
theories/Prop_Kernel.v
theories/Prop_Shell.v
theories/Prop_Ssss.v
theories/Prop_Work.v
theories/Prop_Permute.v
theories/Prop_Driver.v
theories/Prop_Deriv.v
theories/Prop_Boys.v
theories/Prop_OneE.v
theories/Prop_Naming.v
theories/Prop_CmdLine.v
theories/Prop_Dispatch.v
theories/Prop_OSFamily.v
theories/Prop_EndToEnd.v
theories/Prop_Create.v
theories/Prop_Screen.v
theories/Prop_Reals.v
theories/Prop_RealScreen.v
theories/Prop_DerivKernel.v
theories/Prop_RealDeriv.v
theories/Prop_RealUnique.v
theories/Prop_Reference.v
theories/Prop_RefLoops.v
theories/Prop_ValeevF.v
theories/Prop_Packed.v
theories/Prop_MolFile.v
theories/Prop_ScreenTest.v
theories/Prop_Fortran.v
theories/Prop_BoysGrid.v
theories/Prop_BoysScripts.v
theories/Prop_Align.v
theories/Prop_BuildSel.v
theories/Prop_Vector.v
theories/Prop_IntRange.v
theories/Prop_Threads.v
theories/Prop_TypeOrder.v
theories/Prop_PointCharge.v
theories/Prop_RealOneE.v
theories/Prop_Programs.v
theories/Prop_RealGram.v
theories/Prop_RoundSum.v
theories/Prop_RoundHRR.v
theories/Prop_RoundBoys.v
theories/Prop_RoundSplit.v
theories/Prop_RoundLong.v
