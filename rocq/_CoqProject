-Q theories Verif
theories/CBase.v
theories/HashModel.v
theories/HashInv.v
theories/HashOps.v
theories/HashSpec.v
theories/HashCorrect.v
theories/PropsHash.v
theories/MeshModel.v
theories/AdjaModel.v
theories/AdjaProofs.v
theories/PropsAdja.v
theories/Chain.v
theories/PoolModel.v
theories/PoolSpec.v
theories/PoolProofs.v
theories/PoolTet.v
theories/PropsPool.v
theories/PackModel.v
theories/PackPlan.v
theories/PackPts.v
theories/PackTet.v
theories/PackMain.v
theories/PropsPack.v
theories/SortModel.v
theories/PropsSort.v
theories/KerModel.v
theories/PropsKer.v
theories/SplitModel.v
theories/SplitProofs.v
theories/SplitConf.v
theories/SplitVol.v
theories/PropsSplit.v
theories/ApiModel.v
theories/ApiSpec.v
theories/ApiProofs.v
theories/PropsApi.v
theories/IsoModel.v
theories/PropsIso.v
theories/SubModel.v
theories/PropsSub.v
theories/SubModel2.v
theories/PropsSub2.v
theories/BdryModel.v
theories/BdryProofs.v
theories/PropsBdry.v
theories/RnbModel.v
theories/RnbProofs.v
theories/PropsRnb.v
theories/MatModel.v
theories/PropsMat.v
theories/PropsMat2.v
theories/MemModel.v
theories/PropsMem.v
theories/OctModel.v
theories/OctProofs.v
theories/PropsOct.v
theories/PropsOct2.v
theories/ParamModel.v
theories/NameModel.v
theories/PropsName.v
theories/FracModel.v
theories/PropsFrac.v
theories/ScaleModel.v
theories/ScaleProofs.v
theories/PropsScale.v
theories/RmcModel.v
theories/RmcProofs.v
theories/PropsRmc.v
theories/GradModel.v
theories/GradProofs.v
theories/PropsGrad.v
theories/PropsParam.v
theories/Op2Model.v
theories/Op2Spec.v
theories/Op2Proofs.v
theories/Op2Split.v
theories/Op2Split2.v
theories/Op2Check.v
theories/PropsOp2.v
theories/Op2Col.v
theories/Op2Ball.v
theories/Op2Del.v
theories/Op2Run.v
theories/Op2Chk.v
theories/PropsCol.v
theories/Tet3Model.v
theories/Tet3Spec.v
theories/Walk.v
theories/Tet3Proofs.v
theories/Tet3Ball.v
theories/Tet3Shell.v
theories/Tet3Turn.v
theories/Tet3Coquil.v
theories/Tet3Tag.v
theories/Tet3Pool.v
theories/Tet3Col.v
theories/Tet3Out.v
theories/Tet3Run.v
theories/Tet3Check.v
theories/PropsTet3.v
theories/Swap3Model.v
theories/Rewire.v
theories/Swap3Out.v
theories/Swap3Core.v
theories/Swap3Run.v
theories/Swap3Marks.v
theories/Swap3Main.v
theories/PropsSwap3.v
theories/IoModel.v
theories/IoScan.v
theories/IoLoad.v
theories/IoBody.v
theories/IoSave.v
theories/IoTrip.v
theories/IoSame.v
theories/PropsIo.v
theories/SolModel.v
theories/SolProofs.v
theories/PropsSol.v
theories/SurfModel.v
theories/SurfProofs.v
theories/SurfLoop.v
theories/PropsSurf.v
theories/TriHash.v
theories/TriHashProofs.v
theories/TriHashDup.v
theories/PropsTriHash.v
theories/SolApi.v
theories/SolApiProofs.v
theories/PropsSolApi.v
theories/Tria2.v
theories/Tria2Hash.v
theories/Tria2Edges.v
theories/PropsTria2.v
theories/Pack2.v
theories/Pack2Proofs.v
theories/Pack2Tris.v
theories/PropsPack2.v
theories/Setadj2.v
theories/Setadj2Proofs.v
theories/Setadj2Loop.v
theories/PropsSetadj2.v
theories/Quad2.v
theories/Quad2Hash.v
theories/PropsQuad2.v
theories/QuadTria2.v
theories/PropsQuadTria2.v
theories/QuadPack2.v
theories/PropsQuadPack2.v
theories/QuadFreeze2.v
theories/PropsQuadFreeze2.v
theories/SaveQuad2.v
theories/PropsSaveQuad2.v
theories/PackQuad2.v
theories/PropsPackQuad2.v
theories/SaveQuad3.v
theories/PropsSaveQuad3.v
theories/PakTri.v
theories/PropsPakTri.v
theories/EdgesS.v
theories/PropsEdgesS.v
theories/PackTriS.v
theories/PropsPackTriS.v
