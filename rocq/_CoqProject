-Q theories Verif
theories/Num.v
theories/Py.v
theories/MAlloc.v
theories/SAlloc.v
theories/RBase.v
theories/PyLemmas.v
theories/PAlloc.v
theories/PAlloc2.v
theories/PAlloc3.v
theories/PAlloc4.v
theories/QRBase.v
theories/PAllocQ.v
theories/PAllocW.v
theories/PropertiesAlloc.v
theories/ExamplesAlloc.v
theories/SLin.v
theories/MBase.v
theories/SBase.v
theories/PBase.v
theories/PropertiesBase.v
theories/ExamplesBase.v
theories/Sums.v
theories/MConvex.v
theories/MEF.v
theories/SConvex.v
theories/PConvex.v
theories/Mat.v
theories/PEF.v
theories/PEF2.v
theories/PEF3.v
theories/PEF4.v
theories/PEFW.v
theories/PropertiesEF.v
theories/ExamplesEF.v
theories/MDown.v
theories/SDown.v
theories/PRisk.v
theories/PDown.v
theories/PDown2.v
theories/PDown3.v
theories/PDown4.v
theories/PDown5.v
theories/PDown6.v
theories/PDownW.v
theories/PropertiesDown.v
theories/MFrame.v
theories/MHRP.v
theories/SHRP.v
theories/SHRP3.v
theories/PHRP.v
theories/PHRP2.v
theories/PHRP3.v
theories/PFrame.v
theories/PHRP4.v
theories/PropertiesHRP.v
theories/ExamplesHRP.v
theories/ExamplesDown.v
theories/MCopy.v
theories/SCopy.v
theories/PCopy.v
theories/PCopyW.v
theories/PropertiesCopy.v
theories/ExamplesCopy.v
theories/MReturns.v
theories/SReturns.v
theories/PReturns.v
theories/PReturns2.v
theories/PReturns3.v
theories/PropertiesReturns.v
theories/ExamplesReturns.v
theories/MRisk.v
theories/SRisk.v
theories/PCov1.v
theories/PCov2.v
theories/PCov3.v
theories/PCov4.v
theories/SObj.v
theories/PObj.v
theories/SPlot.v
theories/MPlot.v
theories/PPlot.v
theories/PropertiesObj.v
theories/ExamplesObj.v
theories/MCLA.v
theories/SCLA.v
theories/PCLA1.v
theories/PCLA2.v
theories/PCLA3.v
theories/PCLA4.v
theories/PCLA5.v
theories/PCLAF.v
theories/PCLA6.v
theories/PCLA7.v
theories/PCLA8.v
theories/PCLA9.v
theories/PCLAQ.v
theories/PCLAW.v
theories/PCLAI.v
theories/PropertiesCLA.v
theories/ExamplesCLA.v
theories/MBL.v
theories/SBL.v
theories/PropertiesCov.v
theories/ExamplesCov.v
theories/PBL1.v
theories/PBL2.v
theories/PBL3.v
theories/PBL4.v
theories/PBL5.v
theories/PBL6.v
theories/PBL7.v
theories/PBL8.v
theories/PBL9.v
theories/PBLW.v
theories/PBL10.v
theories/PBL11.v
theories/PropertiesBL.v
theories/ExamplesBL.v
theories/PEF5.v
theories/PEF6.v
theories/PropertiesFound.v
theories/ExamplesFound.v
theories/SPerm.v
theories/PPerm.v
theories/PPerm2.v
theories/PPerm3.v
theories/PPerm4.v
theories/PropertiesPerm.v
theories/ExamplesPerm.v
theories/MReport.v
theories/MCalls.v
theories/SCalls.v
theories/PCalls.v
theories/PCalls2.v
theories/PDown7.v
theories/SLabels.v
theories/PLabels.v
theories/SReport.v
theories/PAlloc5.v
theories/PMilp.v
theories/SGold.v
theories/PGold.v
theories/PGold2.v
theories/PGold3.v
theories/PGold4.v
theories/PGold5.v
theories/PPipe.v
theories/PPipe2.v
theories/PReport.v
theories/PropertiesReport.v
theories/PropertiesCalls.v
theories/ExamplesReport.v
theories/ExamplesCalls.v
theories/MPlot2.v
theories/SPlot2.v
theories/PPlot2.v
theories/PPlot2W.v
theories/SFront.v
theories/PFront.v
theories/PropertiesPlot.v
theories/ExamplesPlot.v
theories/SShrink.v
theories/PShrink.v
theories/SHRP2.v
theories/PHRP5.v
theories/PNames.v
theories/PropertiesNames.v
theories/ExamplesNames.v
theories/SPrep.v
theories/PPrep.v
theories/PReach.v
theories/PropertiesPrep.v
theories/ExamplesPrep.v
theories/MPlot3.v
theories/SPlot3.v
theories/PPlot3.v
theories/MRisk2.v
theories/SRisk2.v
theories/PRisk2.v
theories/MKwargs.v
theories/SKwargs.v
theories/PKwargs.v
theories/PReturns4.v
theories/PropertiesDraw.v
theories/PropertiesData.v
theories/ExamplesDraw.v
theories/ExamplesData.v
theories/SExist.v
theories/SPipe.v
theories/PExist.v
theories/PExist2.v
theories/PExist3.v
theories/PExist4.v
theories/PExist5.v
theories/SRate.v
theories/PRate.v
theories/PropertiesExist.v
theories/PropertiesRate.v
theories/PropertiesPipe.v
theories/ExamplesPipe.v
theories/PropertiesGold.v
theories/ExamplesGold.v
theories/ExamplesRate.v
theories/ExamplesExist.v
theories/MArray.v
theories/SArray.v
theories/PArray.v
theories/PArray2.v
theories/PArray3.v
theories/PropertiesArray.v
theories/ExamplesArray.v
theories/SCurve.v
theories/PCurve.v
theories/PCurve2.v
theories/PCurve3.v
theories/PropertiesCurve.v
theories/ExamplesCurve.v
theories/SStatics.v
theories/PStatics.v
theories/PStatics2.v
theories/PropertiesStatics.v
theories/ExamplesStatics.v
theories/SWays.v
theories/PWays1.v
theories/PWays2.v
theories/PWays3.v
theories/PWays4.v
theories/PropertiesWays.v
theories/ExamplesWays.v
theories/MRound.v
theories/SRound.v
theories/PRound1.v
theories/PRound2.v
theories/PRoundW.v
theories/PropertiesRound.v
theories/ExamplesRound.v
theories/SRound2.v
theories/PRound3.v
theories/PRound4.v
theories/PropertiesRound2.v
theories/ExamplesRound2.v
theories/SGaps.v
theories/PGaps1.v
theories/PGaps2.v
theories/PGaps3.v
theories/PGaps4.v
theories/PGapsW.v
theories/PShape.v
theories/PropertiesGaps.v
theories/ExamplesGaps.v
theories/MWarn.v
theories/SWarn.v
theories/PWarn1.v
theories/PWarn2.v
theories/PWarn3.v
theories/PWarn4.v
theories/PWarnW.v
theories/PropertiesWarn.v
theories/ExamplesWarn.v
theories/SViews.v
theories/PViews1.v
theories/PViews2.v
theories/PViews3.v
theories/PViews4.v
theories/PViews5.v
theories/PViewsW.v
theories/PropertiesViews.v
theories/ExamplesViews.v
theories/SNear.v
theories/PNear1.v
theories/PNear2.v
theories/PNear3.v
theories/PNear4.v
theories/PNear5.v
theories/PNear6.v
theories/PNearW.v
theories/PropertiesNear.v
theories/ExamplesNear.v
theories/SConv.v
theories/PWarn5.v
theories/PConv.v
theories/SInit.v
theories/PInit.v
theories/PInit2.v
theories/PropertiesInit.v
theories/ExamplesInit.v
theories/SSharpe.v
theories/PSharpe.v
theories/PSharpeW.v
theories/PropertiesSharpe.v
theories/ExamplesSharpe.v
theories/SOrder.v
theories/POrder.v
theories/POrder2.v
theories/POrder3.v
theories/POrder4.v
theories/PropertiesOrder.v
theories/ExamplesOrder.v
theories/SUnits.v
theories/PUnits.v
theories/PUnits2.v
theories/PUnits3.v
theories/PUnits4.v
theories/PropertiesUnits.v
theories/ExamplesUnits.v
theories/SDays.v
theories/PDays.v
theories/PDays2.v
theories/PDays3.v
theories/PropertiesDays.v
theories/ExamplesDays.v
theories/SDayOrder.v
theories/PDayOrder.v
theories/PDayOrder2.v
theories/PropertiesDayOrder.v
theories/ExamplesDayOrder.v
theories/SErrors.v
theories/PErrors.v
theories/PErrors2.v
theories/PErrors3.v
theories/PropertiesErrors.v
theories/ExamplesErrors.v
theories/SUnique.v
theories/PUnique.v
theories/PUniqueW.v
theories/PropertiesUnique.v
theories/ExamplesUnique.v
theories/SMore.v
theories/PMore.v
theories/PMore2.v
theories/PMoreW.v
theories/PropertiesMore.v
theories/ExamplesMore.v
theories/PDefinite.v
theories/PDefinite2.v
theories/PDefiniteW.v
theories/PropertiesDefinite.v
theories/ExamplesDefinite.v
theories/SToward.v
theories/PToward.v
theories/PToward2.v
theories/PTowardW.v
theories/PropertiesToward.v
theories/ExamplesToward.v
theories/SUnitsC.v
theories/PUnitsC1.v
theories/PUnitsC2.v
theories/PropertiesUnitsC.v
theories/ExamplesUnitsC.v
theories/SShift.v
theories/PShift.v
theories/PShiftW.v
theories/PropertiesShift.v
theories/ExamplesShift.v
theories/SEnds.v
theories/PTail.v
theories/PEnds.v
theories/PropertiesEnds.v
theories/ExamplesEnds.v
theories/SLevel.v
theories/PLevel.v
theories/PLevelW.v
theories/PropertiesLevel.v
theories/ExamplesLevel.v
theories/SClone.v
theories/PClone.v
theories/PClone2.v
theories/PCloneW.v
theories/PropertiesClone.v
theories/ExamplesClone.v
theories/SGrow.v
theories/PGrow.v
theories/PGrow2.v
theories/PGrowW.v
theories/PropertiesGrow.v
theories/ExamplesGrow.v
theories/SWide.v
theories/PWide.v
theories/PWide2.v
theories/PWideW.v
theories/PropertiesWide.v
theories/ExamplesWide.v
theories/SBlend.v
theories/PBlend.v
theories/PropertiesBlend.v
theories/ExamplesBlend.v
theories/SSlack.v
theories/PSlack.v
theories/PropertiesSlack.v
theories/ExamplesSlack.v
