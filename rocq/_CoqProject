-Q theories Verif

theories/Base.v
theories/Spec.v
theories/Lib.v
theories/M_Tables.v
theories/M_Broadword.v
theories/P_Broadword.v
theories/P_Broadword2.v
theories/P_Broadword3.v
theories/Prop_Broadword.v
theories/M_BitVector.v
theories/S_BitVector.v
theories/P_BvLib.v
theories/P_Builder.v
theories/P_BvGen.v
theories/P_BitVector.v
theories/P_BvRank.v
theories/P_BvEnum.v
theories/P_BvProps.v
theories/Prop_BitVector.v
theories/M_RsBitVector.v
theories/P_RsBuild.v
theories/P_RsGen.v
theories/P_RsQuery.v
theories/Prop_RsBitVector.v
theories/M_Darray.v
theories/S_Darray.v
theories/P_Darray.v
theories/Prop_Darray.v
theories/M_EliasFano.v
theories/S_EliasFano.v
theories/P_EliasFano.v
theories/P_EliasFano2.v
theories/Prop_EliasFano.v
theories/M_Gamma.v
theories/S_Gamma.v
theories/P_Gamma.v
theories/Prop_Gamma.v
theories/M_Util.v
theories/S_Util.v
theories/P_Util.v
theories/Prop_Util.v
theories/P_Space.v
theories/Prop_Space.v
theories/M_Bp.v
theories/S_Bp.v
theories/P_BpWord.v
theories/P_BpBuild.v
theories/P_BpSearch.v
theories/P_BpSpec.v
theories/P_BpLimits.v
theories/Prop_Bp.v
theories/P_BpRmq.v
theories/Prop_BpRmq.v
theories/M_Cartesian.v
theories/S_Cartesian.v
theories/P_Cartesian.v
theories/Prop_Cartesian.v
theories/M_Topk.v
theories/S_Topk.v
theories/P_Topk.v
theories/Prop_Topk.v
theories/M_Mapper.v
theories/S_Mapper.v
theories/P_Mapper.v
theories/Prop_Mapper.v
theories/M_MVec.v
theories/S_MVec.v
theories/P_MVec.v
theories/Prop_MVec.v
theories/P_Typed.v
theories/Prop_Typed.v
theories/P_Space2.v
theories/Prop_Space2.v
theories/M_Swap.v
theories/S_Swap.v
theories/P_Swap.v
theories/Prop_Swap.v
theories/M_Alias.v
theories/P_Alias.v
theories/P_Alias2.v
theories/M_Reuse.v
theories/S_Reuse.v
theories/P_Reuse.v
theories/P_Reuse2.v
theories/Prop_Reuse.v
theories/Prop_Alias.v
theories/M_Enum.v
theories/P_Enum.v
theories/Prop_Enum.v
theories/S_Limits.v
theories/P_Limits.v
theories/Prop_Limits.v
theories/S_Safety.v
theories/P_Safety.v
theories/P_Reject.v
theories/Prop_Safety.v
theories/S_Format.v
theories/P_Format.v
theories/Prop_Format.v
theories/M_Dump.v
theories/S_Dump.v
theories/P_Dump.v
theories/S_Report.v
theories/P_Report.v
theories/Prop_Dump.v
theories/S_Lines.v
theories/P_Lines.v
theories/Prop_Lines.v
theories/S_Align.v
theories/P_Align.v
theories/P_Align2.v
theories/Prop_Align.v
theories/S_Reserve.v
theories/P_Reserve.v
theories/P_Reserve2.v
theories/Prop_Reserve.v
theories/S_Stale.v
theories/P_Stale.v
theories/Prop_Stale.v
theories/M_Tests.v
theories/S_Tests.v
theories/P_Tests1.v
theories/P_Tests2.v
theories/P_Tests3.v
theories/P_Tests4.v
theories/P_Tests5.v
theories/P_Oracle.v
theories/Prop_Tests.v
theories/P_Oracle2.v
theories/P_Oracle3.v
theories/Prop_Oracle.v
theories/M_TestMapper.v
theories/P_TestMapper.v
theories/Prop_TestMapper.v
theories/M_Gen.v
theories/P_Gen.v
theories/P_Gen2.v
theories/Prop_Gen.v
theories/M_Steps.v
theories/P_Steps.v
theories/Prop_Steps.v
theories/M_LineIter.v
theories/P_LineIter.v
theories/Prop_LineIter.v
theories/M_Perftest.v
theories/S_Perftest.v
theories/P_Perftest.v
theories/P_Perftest2.v
theories/Prop_Perftest.v
theories/S_Ends.v
theories/P_Ends.v
theories/P_Ends2.v
theories/Prop_Ends.v
theories/M_Stream.v
theories/S_Stream.v
theories/P_Stream.v
theories/Prop_Stream.v
theories/S_Repro.v
theories/P_Repro.v
theories/Prop_Repro.v
theories/S_Vbyte.v
theories/P_Vbyte.v
theories/Prop_Vbyte.v
theories/M_Throw.v
theories/S_Throw.v
theories/P_Throw.v
theories/Prop_Throw.v
theories/M_TopkCost.v
theories/P_TopkCost.v
theories/Prop_TopkCost.v
theories/M_BThrow.v
theories/S_BThrow.v
theories/P_BThrow.v
theories/Prop_BThrow.v
theories/S_Presize.v
theories/P_Presize.v
theories/Prop_Presize.v
theories/M_Endian.v
theories/P_Endian.v
theories/Prop_Endian.v
theories/M_Wrap.v
theories/S_Wrap.v
theories/P_Wrap.v
theories/Prop_Wrap.v
theories/S_Tree.v
theories/P_Tree.v
theories/Prop_Tree.v
theories/M_AutoFile.v
theories/S_AutoFile.v
theories/P_AutoFile.v
theories/Prop_AutoFile.v
theories/S_AnyFile.v
theories/P_AnyFile.v
theories/Prop_AnyFile.v
theories/P_TwoReaders.v
theories/Prop_TwoReaders.v
theories/M_CtSteps.v
theories/P_CtSteps.v
theories/Prop_CtSteps.v
theories/M_Width.v
theories/S_Width.v
theories/P_Width.v
theories/Prop_Width.v
theories/M_EfSteps.v
theories/S_EfSteps.v
theories/P_EfSteps.v
theories/Prop_EfSteps.v
theories/M_BvSteps.v
theories/S_BvSteps.v
theories/P_BvSteps.v
theories/Prop_BvSteps.v
theories/S_Nd.v
theories/M_Nd.v
theories/M_NdBp.v
theories/P_Nd.v
theories/P_NdBp.v
theories/M_NdRest.v
theories/P_NdRest.v
theories/Prop_Nd.v
theories/S_NdOut.v
theories/P_NdOut.v
theories/P_NdRank.v
theories/Prop_NdOut.v
theories/S_Default.v
theories/P_Default.v
theories/Prop_Default.v
theories/M_BpInit.v
theories/P_BpInit.v
theories/Prop_BpInit.v
theories/M_Lazy.v
theories/P_Lazy.v
theories/Prop_Lazy.v
theories/S_Ident.v
theories/P_Ident.v
theories/Prop_Ident.v
theories/S_Unmatched.v
theories/P_Unmatched.v
theories/P_UnmatchedNd.v
theories/Prop_Unmatched.v
theories/S_AnyOrder.v
theories/P_AnyOrder.v
theories/Prop_AnyOrder.v
theories/P_Agree.v
theories/Prop_Agree.v
theories/M_SeSteps.v
theories/S_SeSteps.v
theories/P_SeSteps.v
theories/Prop_SeSteps.v
theories/M_Archive.v
theories/S_Archive.v
theories/P_Archive.v
theories/Prop_Archive.v
theories/M_GenBits.v
theories/P_GenAll.v
theories/Prop_GenAll.v
theories/M_Ranges.v
theories/S_Ranges.v
theories/P_Ranges.v
theories/Prop_Ranges.v
theories/P_Vic.v
theories/Prop_Vic.v
theories/M_GammaSteps.v
theories/S_GammaSteps.v
theories/P_GammaSteps.v
theories/Prop_GammaSteps.v
theories/S_FileSize.v
theories/P_FileSize.v
theories/Prop_FileSize.v
theories/M_EnumSwap.v
theories/S_EnumSwap.v
theories/P_EnumSwap.v
theories/Prop_EnumSwap.v
theories/S_Optimal.v
theories/P_Optimal.v
theories/Prop_Optimal.v
theories/M_Config.v
theories/P_Config.v
theories/Prop_Config.v
theories/P_Lanes.v
theories/Prop_Lanes.v
theories/P_Exact.v
theories/Prop_Exact.v
theories/S_Moves.v
theories/M_Moves.v
theories/P_Moves.v
theories/P_Moves2.v
theories/Prop_Moves.v
theories/P_Vectors.v
theories/Prop_Vectors.v
theories/S_GenDepth.v
theories/M_GenDepth.v
theories/P_GenDepth.v
theories/Prop_GenDepth.v
theories/S_MVecDead.v
theories/P_MVecDead.v
theories/Prop_MVecDead.v
theories/S_Hints.v
theories/P_Hints.v
theories/Prop_Hints.v
theories/S_Local.v
theories/P_Local.v
theories/Prop_Local.v
theories/P_LocalSel.v
theories/Prop_LocalSel.v
theories/P_LocalEf.v
theories/Prop_LocalEf.v
theories/P_Tables.v
theories/Prop_Tables.v
