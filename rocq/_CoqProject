-Q theories Verif

theories/Base.v
theories/BaseFacts.v
theories/Algebra.v
theories/UtilModel.v
theories/UtilProof.v
theories/Props_Util.v
theories/DoidModel.v
theories/DoidSpec.v
theories/DoidProof.v
theories/Props_Doid.v
theories/Csr.v
theories/CheckModel.v
theories/CsrFacts.v
theories/CheckSpec.v
theories/CheckProof.v
theories/IndicesProof.v
theories/Props_Check.v
theories/Csr2CscModel.v
theories/CountSort.v
theories/Csr2CscProof.v
theories/Props_CscCoo.v
theories/Vec.v
theories/MvModel.v
theories/MvSpec.v
theories/MvFacts.v
theories/MvProof.v
theories/MvSymProof.v
theories/MvVecProof.v
theories/MvKtProof.v
theories/MvPubProof.v
theories/CsrmvModel.v
theories/CsrmvProof.v
theories/SortModel.v
theories/SortSpec.v
theories/SortProof.v
theories/FillProof.v
theories/HandleModel.v
theories/HandleSpec.v
theories/OptProof.v
theories/MvHandleProof.v
theories/SortInst.v
theories/Decide.v
theories/Props_Opt.v
theories/BetaProof.v
theories/MvEqProof.v
theories/Props_Mv.v
theories/DispatchModel.v
theories/DispatchProof.v
theories/DispatchSpec.v
theories/Props_Dispatch.v
theories/L1Model.v
theories/L1Spec.v
theories/L1Proof.v
theories/Props_L1.v
theories/DescrModel.v
theories/DescrSpec.v
theories/DescrProof.v
theories/Props_Descr.v
theories/Writes.v
theories/DenseModel.v
theories/DenseSpec.v
theories/DenseProof.v
theories/Props_Dense.v
theories/EllModel.v
theories/EllSpec.v
theories/EllProof.v
theories/Props_Ell.v
theories/DiaModel.v
theories/DiaSpec.v
theories/DiaProof.v
theories/Props_Dia.v
theories/TrsvModel.v
theories/TrsvSpec.v
theories/TrsvProof.v
theories/TrsvKernProof.v
theories/TrsvHandleProof.v
theories/HandleFacts.v
theories/Props_Trsv.v
theories/CsrsvModel.v
theories/CsrsvProof.v
theories/Props_Csrsv.v
theories/FmtMvModel.v
theories/FmtMvSpec.v
theories/FmtMvProof.v
theories/FmtHybProof.v
theories/DiaMvProof.v
theories/Props_FmtMv.v
theories/Buckets.v
theories/ExpandModel.v
theories/ExpandProof.v
theories/ExpandSpec.v
theories/TransformProof.v
theories/Props_Expand.v
theories/RowProg.v
theories/AddModel.v
theories/AddProof.v
theories/AddSpec.v
theories/Props_Add.v
theories/Csr2mModel.v
theories/Csr2mProof.v
theories/Csr2mSpec.v
theories/Csr2mHandleProof.v
theories/Props_Csr2m.v
theories/Sp2mdModel.v
theories/WinFacts.v
theories/Sp2mdSpec.v
theories/Sp2mdProof.v
theories/Props_Sp2md.v
theories/Tiles.v
theories/CsrmmModel.v
theories/CsrmmKernProof.v
theories/CsrmmSymProof.v
theories/CsrmmSpec.v
theories/CsrmmProof.v
theories/Props_Csrmm.v
theories/IluModel.v
theories/IluSpec.v
theories/IluProof.v
theories/IluHandleProof.v
theories/Props_Ilu.v
theories/SorModel.v
theories/SorSpec.v
theories/SorProof.v
theories/Props_Sor.v
theories/SymgsModel.v
theories/SymgsSpec.v
theories/SymgsProof.v
theories/Props_Symgs.v
theories/ValueModel.v
theories/ValueSpec.v
theories/ValueProof.v
theories/ValueHistProof.v
theories/Props_Value.v
theories/PermTac.v
theories/MemModel.v
theories/MemSpec.v
theories/MemProof.v
theories/MemHistProof.v
theories/ExportModel.v
theories/ExportProof.v
theories/HintModel.v
theories/HintSpec.v
theories/HintProof.v
theories/Props_Mem.v
theories/BsrModel.v
theories/BsrSpec.v
theories/BsrProof.v
theories/BsrPubProof.v
theories/ConvertModel.v
theories/ConvertSpec.v
theories/ConvertProof.v
theories/Props_Bsr.v
theories/RegModel.v
theories/RegSpec.v
theories/RegProof.v
theories/Props_Option.v
theories/CgModel.v
theories/CgSpec.v
theories/CgProof.v
theories/CgConj.v
theories/CgLink.v
theories/CgLoop.v
theories/CgSolveModel.v
theories/CgSolve.v
theories/Props_Cg.v
theories/ConcModel.v
theories/ConcProof.v
theories/Props_Conc.v
theories/Br4Spec.v
theories/Br4Model.v
theories/Br4Proof.v
theories/Props_Br4.v
theories/Float64.v
theories/ParModel.v
theories/ParSpec.v
theories/ParProof.v
theories/Props_Par.v
theories/TcsrModel.v
theories/TcsrSpec.v
theories/TcsrProof.v
theories/Props_Tcsr.v
theories/TrsmModel.v
theories/TrsmSpec.v
theories/TrsmProof.v
theories/Props_Trsm.v
theories/DotmvModel.v
theories/Props_Dotmv.v
theories/BsrmvModel.v
theories/BsrmvSpec.v
theories/BsrmvProof.v
theories/Props_Bsrmv.v
theories/OftModel.v
theories/SyrkdModel.v
theories/OftProof.v
theories/SyrkdSpec.v
theories/SyrkdProof.v
theories/Props_Syrkd.v
theories/SyprdModel.v
theories/SyprdSpec.v
theories/SyprdProof.v
theories/Props_Syprd.v
theories/SyrkModel.v
theories/AtbProof.v
theories/EstProof.v
theories/SyrkSpec.v
theories/SyrkProof.v
theories/Props_Syrk.v
theories/SyprModel.v
theories/SymabProof.v
theories/SyprSpec.v
theories/SyprProof.v
theories/SyprStages.v
theories/Props_Sypr.v
theories/BlkModel.v
theories/BlkPure.v
theories/BlkConv.v
theories/BlkGroups.v
theories/BlkMv.v
theories/BlkSpec.v
theories/BlkProof.v
theories/Props_Blk.v
theories/GmresModel.v
theories/GmresSpec.v
theories/GmresAlg.v
theories/GmresLoops.v
theories/GmresCycle.v
theories/GmresProof.v
theories/GmresRun.v
theories/GmresReal.v
theories/Props_Gmres.v
theories/GmresSolveModel.v
theories/GmresSolveSpec.v
theories/GmresSolve.v
theories/Props_GmresSolve.v
theories/BsrHandleModel.v
theories/BsrHandle.v
theories/Props_BsrHandle.v
theories/OptMvModel.v
theories/OptMv.v
theories/Props_OptMv.v
theories/HintMvSpec.v
theories/HintMvProof.v
theories/HintMvMain.v
theories/Props_HintMv.v
theories/HintSolveProof.v
theories/HintSymgsProof.v
theories/Props_HintSolve.v
theories/HistSpec.v
theories/Props_History.v
theories/UniqueProof.v
theories/Props_Unique.v
theories/ConcMvModel.v
theories/ConcMvProof.v
theories/Props_ConcMv.v
theories/GmresInitModel.v
theories/Props_GmresInit.v
