-Q theories Verif
theories/Base.v
theories/Huffman.v
theories/HuffQueue.v
theories/HuffCode.v
theories/HuffRound.v
theories/HuffStream.v
theories/HuffProps.v
theories/BitPack.v
theories/Stream.v
theories/Arith.v
theories/Mesh2D.v
theories/Derive2D.v
theories/Codec2D.v
theories/Sync2D.v
theories/Stream2D.v
theories/Trace2D.v
theories/Exact.v
theories/Cells2D.v
theories/Geo2D.v
theories/Preserve2D.v
theories/Type2D.v
theories/Total2D.v
theories/IEEE.v
theories/IEEELaws.v
theories/IEEEQuant.v
theories/IEEE2D.v
theories/IEEEAbs2D.v
theories/IEEERel2D.v
theories/TotalAny.v
theories/IEEETotal2D.v
theories/LibmModel.v
theories/Fit2D.v
theories/Api2D.v
theories/Witness2D.v
theories/Examples2D.v
theories/Refute2D.v
theories/Scan.v
theories/Relax2D.v
theories/RelaxSync2D.v
theories/RelaxCells2D.v
theories/RelaxAny2D.v
theories/RelaxIEEE2D.v
theories/RelaxErr2D.v
theories/RelaxApi2D.v
theories/RelaxRefute2D.v
theories/Log2D.v
theories/LogSync2D.v
theories/LogCells2D.v
theories/LogErr2D.v
theories/LogLibm.v
theories/LogApi2D.v
theories/LogRefute2D.v
theories/LogTotal2D.v
theories/Mesh3D.v
theories/Derive3D.v
theories/Abs3D.v
theories/Sync3D.v
theories/Cells3D.v
theories/Geo3D.v
theories/Preserve3D.v
theories/Total3D.v
theories/Lossless3D.v
theories/IEEE3D.v
theories/Log3D.v
theories/LogSync3D.v
theories/LogErr3D.v
theories/LogCells3D.v
theories/LogTotal3D.v
theories/LogApi3D.v
theories/LogRefute3D.v
theories/Uns3D.v
theories/UnsSync.v
theories/UnsErr.v
theories/UnsCells.v
theories/UnsApi.v
theories/UnsRefute.v
theories/Sz3.v
theories/Sz3Order.v
theories/Sz3Sync.v
theories/Sz3Err.v
theories/Sz3Cells.v
theories/Sz3Api.v
theories/Sz3Refute.v
theories/Api3D.v
theories/Refute3D.v
theories/Geo3DRel.v
theories/Offline2D.v
theories/OfflineSound2D.v
theories/OfflineField2D.v
theories/OfflineRefute2D.v
theories/LinQuant.v
theories/Block.v
theories/BlockSync.v
theories/BlockTile.v
theories/BlockBytes.v
theories/BlockIEEE.v
theories/BlockApi.v
theories/BlockTotal.v
theories/BlockRefute.v
theories/Sample3D.v
theories/Plan.v
theories/PlanApi.v
theories/OfflineCodec2D.v
theories/OfflineApi2D.v
theories/OfflineWitness2D.v
theories/OffLog2D.v
theories/OffLogApi2D.v
theories/OffLogWitness2D.v
theories/Pwr2D.v
theories/PwrErr2D.v
theories/PwrApi2D.v
theories/PwrWitness2D.v
theories/Off3D.v
theories/OffSound3D.v
theories/OffField3D.v
theories/OffCells3D.v
theories/Acbrt.v
theories/OffIEEE3D.v
theories/OffApi3D.v
theories/OffWitness3D.v
theories/Prop_Entropy.v
theories/Prop_2D.v
theories/Prop_Relax2D.v
theories/Prop_Log2D.v
theories/Prop_Log3D.v
theories/Prop_Uns3D.v
theories/Prop_Sz3.v
theories/Bil2D.v
theories/BilSync2D.v
theories/BilErr2D.v
theories/BilExact.v
theories/BilTotal2D.v
theories/BilApi2D.v
theories/BilRefute2D.v
theories/Prop_Bil2D.v
theories/Prop_3D.v
theories/Prop_Block.v
theories/Prop_Plan.v
theories/Prop_Type2D.v
theories/Prop_Offline2D.v
theories/Prop_OfflineCodec2D.v
theories/Prop_OffLog2D.v
theories/Prop_Off3D.v
theories/Prop_Pwr2D.v
theories/IEEEKeep2D.v
theories/Sz3Keep.v
theories/KeepApi2D.v
theories/KeepRefute2D.v
theories/Prop_Keep2D.v
theories/Block3Eb.v
theories/Block3EbRefute.v
theories/Prop_Block3Eb.v
theories/Lossless.v
theories/LosslessApi.v
theories/Prop_Lossless.v
theories/Verify.v
theories/VerifyApi.v
theories/Prop_Verify.v
theories/VerifyStats.v
theories/VerifyStatsApi.v
theories/Prop_Stats.v
theories/VerifyCorr.v
theories/VerifyCorrRange.v
theories/VerifyCorrApi.v
theories/Prop_Correlation.v
theories/CpTool.v
theories/CpToolProps.v
theories/CpToolApi.v
theories/CpToolCodec.v
theories/CpToolSem.v
theories/CpToolEx.v
theories/Prop_CpTool.v
theories/EbTool.v
theories/EbToolApi.v
theories/EbToolEx.v
theories/Prop_EbTool.v
theories/Programs.v
theories/ProgramsApi.v
theories/ProgramsWitness.v
theories/Prop_Programs.v
theories/Prop_CpEntry.v
