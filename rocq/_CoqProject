-Q theories Verif
theories/Base.v
theories/BaseProofs.v
theories/Vec.v
theories/VecSpec.v
theories/VecProofs.v
theories/VecProofs2.v
theories/Sort.v
theories/SortProofs.v
theories/Hist.v
theories/Pres.v
theories/HistProofs.v
theories/Mat.v
theories/Frame.v
theories/MatSpec.v
theories/MatProofs.v
theories/MatProofs2.v
theories/MatProofs3.v
theories/MatProofs4.v
theories/MatProofs5.v
theories/MatProofs6.v
theories/DetCode.v
theories/DetMC.v
theories/DetProofs.v
theories/PropVec.v
theories/PropMat.v
theories/PropAlg.v
theories/PropDet.v
theories/Inst.v
theories/PropFloat.v
theories/ExVec.v
theories/ExMat.v
theories/RErf.v
theories/RInst.v
theories/RField.v
theories/PropReal.v
theories/PropRot.v
theories/ExDet.v
theories/Stat.v
theories/StatProofs.v
theories/PropStat.v
theories/PropMean.v
theories/PropMode.v
theories/Act.v
theories/ActProofs.v
theories/LibmR.v
theories/PropAct.v
theories/ActProofs2.v
theories/PropAct2.v
theories/PropMean2.v
theories/Cost.v
theories/CostProofs.v
theories/CostSpec.v
theories/CostMath.v
theories/PropCost.v
theories/PropCost2.v
theories/Sym.v
theories/Svm.v
theories/PropSvm.v
theories/LinAlg.v
theories/LinAlgProofs.v
theories/LinAlgProofs2.v
theories/RSum.v
theories/CholMath.v
theories/DetKer.v
theories/LsqMath.v
theories/GsProofs.v
theories/GsMath.v
theories/PropLin.v
theories/ExLin.v
theories/Util.v
theories/UtilProofs.v
theories/PropUtil.v
theories/Glm.v
theories/GlmProofs.v
theories/GlmProofs2.v
theories/GlmProofs3.v
theories/GdMath.v
theories/GlmSpec.v
theories/GlmMath.v
theories/GlmMath3.v
theories/PropGlm.v
theories/PropGlm2.v
theories/PropGlm3.v
theories/GlmProofs4.v
theories/GlmProofs5.v
theories/GlmProofs6.v
theories/GlmSpec2.v
theories/PropGlm4.v
theories/PropGlm5.v
theories/ExBuild.v
theories/ExNum.v
theories/ExGlm.v
theories/Knn.v
theories/KnnProofs.v
theories/PropKnn.v
theories/ExMl.v
theories/Kmeans.v
theories/KmeansProofs.v
theories/PropKmeans.v
theories/KmeansProofs2.v
theories/PropKmeans2.v
theories/PropGlm6.v
theories/Ten.v
theories/TenSpec.v
theories/TenProofs.v
theories/TenProofs2.v
theories/TenProofs3.v
theories/TenProofs4.v
theories/TenProofs5.v
theories/TenProofs6.v
theories/TenProofs7.v
theories/PropTen.v
theories/PropTen2.v
theories/PropTen3.v
theories/ExTen.v
theories/Mlp.v
theories/MlpProofs.v
theories/MlpProofs2.v
theories/MlpProofs3.v
theories/MlpProofs4.v
theories/MlpProofs5.v
theories/MlpProofs6.v
theories/MlpSpec.v
theories/MlpMath.v
theories/PropMlp.v
theories/PropMlp2.v
theories/ExMlp.v
theories/Layer.v
theories/LayerSpec.v
theories/LayerProofs.v
theories/PropLayer.v
theories/Ann.v
theories/AnnSpec.v
theories/AnnProofs.v
theories/PropAnn.v
theories/PropAnn2.v
theories/PropAnn3.v
theories/ExAnn.v
theories/Outlier.v
theories/PropOutlier.v
theories/Gnb.v
theories/GnbProofs.v
theories/PropGnb.v
theories/ExNb.v
theories/Lnk.v
theories/LnkProofs.v
theories/LnkProofs2.v
theories/LnkProofs3.v
theories/LnkSpec.v
theories/LnkMath.v
theories/PropLnk.v
theories/PropLnk2.v
theories/ExLnk.v
theories/PropAct3.v
theories/Num.v
theories/NumSpec.v
theories/NumProofs.v
theories/PropNum.v
theories/PropNum2.v
theories/PropNum3.v
theories/ExNum2.v
theories/PropNum4.v
theories/Svc.v
theories/SvcProofs.v
theories/SvcProofs2.v
theories/SvcSpec.v
theories/SvcMath.v
theories/PropSvc.v
theories/PropSvc2.v
theories/ExSvc.v
theories/Data.v
theories/DataProofs.v
theories/DataProofs2.v
theories/PropData.v
theories/PropData2.v
theories/ExData.v
theories/Dct.v
theories/DctProofs.v
theories/PropDct.v
theories/ExDct.v
theories/Conv.v
theories/ConvProofs.v
theories/PropConv.v
theories/ExConv.v
theories/Harris.v
theories/HarrisProofs.v
theories/PropHarris.v
theories/ExHarris.v
theories/Conv3.v
theories/Conv3Proofs.v
theories/Conv3Proofs2.v
theories/PropConv3.v
theories/ExConv3.v
theories/PropConv4.v
theories/ExConv4.v
