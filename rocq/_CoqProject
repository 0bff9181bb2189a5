-Q theories Verif
theories/Prelude.v
theories/ComputeCache.v
theories/ComputeCacheProofs.v
theories/CacheSpec.v
theories/CacheMain.v
theories/Arena.v
theories/Trees.v
theories/ArenaProofs.v
theories/Bdd.v
theories/BddProofs.v
theories/SpecBdd.v
theories/BddMain.v
theories/SpecBss.v
theories/BssAlg.v
theories/BssCount.v
theories/BssSize.v
theories/BssGates.v
theories/BssProb.v
theories/BssMeas.v
theories/BssReach.v
theories/BssMgr.v
theories/SpecBssMgr.v
theories/Keeps.v
theories/BssMgrProofs.v
theories/BssMgrMain.v
theories/PropsCache.v
theories/PropsBdd.v
theories/PropsBss.v
theories/PropsBssMgr.v
theories/ArenaMore.v
theories/Zdd.v
theories/ZddTrees.v
theories/ZddProofs.v
theories/SpecZdd.v
theories/ZddMain.v
theories/PropsZdd.v
theories/MinsolTrees.v
theories/MinsolProofs.v
theories/ZddAlg.v
theories/ZddConv.v
theories/ZddCount.v
theories/SpecMinsol.v
theories/MinsolMain.v
theories/PropsMinsol.v
theories/Mdd.v
theories/MtMdd.v
theories/MtMdd2.v
theories/NaryProofs.v
theories/MddProofs.v
theories/MtProofs.v
theories/MmProofs.v
theories/SpecMdd.v
theories/MddMain.v
theories/MmMain.v
theories/PropsMdd.v
theories/Zmdd.v
theories/ZmddTrees.v
theories/ZmddProofs.v
theories/SpecZmdd.v
theories/ZmddMain.v
theories/PropsZmdd.v
theories/ZmddAlg.v
theories/SpecZmddAlg.v
theories/ZmddAlgProofs.v
theories/PropsZmddAlg.v
theories/MddMinsol.v
theories/MssTrees.v
theories/MssSol.v
theories/MddMinsolProofs.v
theories/MssConv.v
theories/MssMgr.v
theories/SpecMss.v
theories/MssMgrProofs.v
theories/MssMgrVar.v
theories/MssRpn.v
theories/MssConvProofs.v
theories/MssSolMain.v
theories/MssSolMgr.v
theories/MssFam.v
theories/MssExtract.v
theories/PropsMss.v
theories/PropsMssSol.v
theories/MssAlg.v
theories/MssAlgProofs.v
theories/MssProb.v
theories/MssMeas.v
theories/SpecMssAlg.v
theories/MssAlgMain.v
theories/PropsMssAlg.v
theories/ZddMgr.v
theories/SpecZddMgr.v
theories/ZddMgrProofs.v
theories/BssJoint.v
theories/ZddMgrMain.v
theories/PropsZddMgr.v
theories/SpecEnclose.v
theories/Enclose.v
theories/EncloseMain.v
theories/PropsEnclose.v
theories/Dot.v
theories/SpecDot.v
theories/DotProofs.v
theories/DotText.v
theories/DotMain.v
theories/DotMss.v
theories/PropsDot.v
theories/Iter.v
theories/SpecIter.v
theories/IterProofs.v
theories/IterBss.v
theories/IterZdd.v
theories/PropsIter.v
theories/MIter.v
theories/SpecMIter.v
theories/MIterProofs.v
theories/PropsMIter.v
theories/BssLook.v
theories/SpecBssLook.v
theories/BssLookProofs.v
theories/BssLookMain.v
theories/PropsBssLook.v
theories/MssLook.v
theories/SpecMssLook.v
theories/MssLookProofs.v
theories/PropsMssLook.v
theories/ZddLook.v
theories/SpecZddLook.v
theories/ZddLookProofs.v
theories/PropsZddLook.v
theories/Cover.v
theories/PropsCover.v
theories/SpecCover.v
theories/MCover.v
theories/PropsMCover.v
theories/SpecCollect.v
theories/Collect.v
theories/PropsCollect.v
theories/SpecMCollect.v
theories/MCollect.v
theories/PropsMCollect.v
theories/Count64.v
theories/Count64Proofs.v
theories/PropsCount64.v
theories/MCount64.v
theories/MCount64Proofs.v
theories/PropsMCount64.v
theories/Subdd.v
theories/SpecSize.v
theories/SizeBound.v
theories/SizeKofn.v
theories/SizeMain.v
theories/PropsSize.v
theories/SpecMSize.v
theories/MSize.v
theories/PropsMSize.v
theories/Tidy.v
theories/BddTidy.v
theories/ZddTidy.v
theories/MddTidy.v
theories/MmTidy.v
theories/SpecTidy.v
theories/TidyMain.v
theories/TidyMain2.v
theories/TidyMain3.v
theories/PropsTidy.v
theories/Work.v
theories/WorkProofs.v
theories/PropsWork.v
theories/PropsWorkM.v
theories/SpecIte.v
theories/IteProofs.v
theories/IteProofsM.v
theories/PropsIte.v
theories/SpecExact.v
theories/StripTrees.v
theories/BddExact.v
theories/BddExactMain.v
theories/PropsExact.v
theories/NExact.v
theories/MddExact.v
theories/SpecExactM.v
theories/MddExactMain.v
theories/MmExact.v
theories/MmExactMain.v
theories/PropsExactM.v
theories/Float64.v
theories/Float64Proofs.v
theories/SpecFloat64.v
theories/FloatMain.v
theories/FloatMMain.v
theories/PropsFloat.v
theories/FloatMeas.v
theories/FloatMMeas.v
theories/PropsFloatMeas.v
theories/EvMdd.v
theories/SpecEv.v
theories/EvProofs.v
theories/PropsEv.v
theories/Apply.v
theories/ApplyCache.v
theories/ApplyProofs.v
theories/ApplyMain.v
theories/PropsApply.v
theories/ZddApply.v
theories/ZddApplyProofs.v
theories/ZddApplyMain.v
theories/PropsZddApply.v
theories/Mixed.v
theories/PropsMixed.v
theories/SpecLaws.v
theories/Laws.v
theories/LawsMain.v
theories/PropsLaws.v
theories/SpecMLaws.v
theories/MLaws.v
theories/MLawsMain.v
theories/PropsMLaws.v
theories/ConformBss.v
theories/ConformMss.v
theories/Iso.v
theories/SpecTrans.v
theories/Trans.v
theories/PropsTrans.v
theories/Borrow.v
theories/SpecBorrow.v
theories/BorrowProofs.v
theories/PropsBorrow.v
theories/SpecDepth.v
theories/Depth.v
theories/PropsDepth.v
theories/IsoM.v
theories/IsoN.v
theories/SpecTransM.v
theories/TransM.v
theories/PropsTransM.v
theories/Bdd32.v
theories/SpecBdd32.v
theories/Bdd32Proofs.v
theories/Bdd32Main.v
theories/Bdd32Limit.v
theories/PropsBdd32.v
theories/SpecLog32.v
theories/Two32.v
theories/Zdd32.v
theories/Zdd32Proofs.v
theories/Mdd32.v
theories/Mdd32Proofs.v
theories/Mt32.v
theories/Mt32Proofs.v
theories/PropsOther32.v
theories/Two32M.v
theories/Mm32.v
theories/Mm32Proofs.v
theories/PropsMm32.v
theories/PanicM.v
theories/PanicMProofs.v
theories/PropsPanicM.v
theories/PanicB.v
theories/PanicBProofs.v
theories/PropsPanicB.v
theories/Life.v
theories/SpecLife.v
theories/LifeProofs.v
theories/PropsLife.v
theories/LifeM.v
theories/SpecLifeM.v
theories/LifeMProofs.v
theories/PropsLifeM.v
theories/ZddDet.v
theories/SpecTransZ.v
theories/TransZ.v
theories/PropsTransZ.v
theories/MinsolDet.v
theories/SpecTransS.v
theories/TransS.v
theories/PropsTransS.v
theories/LifeZ.v
theories/SpecLifeZ.v
theories/LifeZProofs.v
theories/PropsLifeZ.v
theories/PoolConv.v
theories/SpecPool.v
theories/PoolProofs.v
theories/PropsPool.v
theories/MssPool.v
theories/SpecMssPool.v
theories/MssPoolProofs.v
theories/PropsMssPool.v
theories/SpecForeign.v
theories/ForeignProofs.v
theories/PropsForeign.v
