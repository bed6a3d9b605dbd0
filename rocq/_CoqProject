-Q theories Verif
theories/Base.v
theories/Conc.v
theories/ConcFacts.v
theories/Num.v
theories/Spec.v
theories/LoopFacts.v
theories/Tools.v
theories/MUtil.v
theories/MNaive.v
theories/MKernels.v
theories/MRecursive.v
theories/MSchedule.v
theories/SpecSched.v
theories/PNaive.v
theories/PUtil.v
theories/PKernels.v
theories/PRecursive.v
theories/PSchedule.v
theories/PPseudo.v
theories/SpecDet.v
theories/PDet.v
theories/Properties1.v
theories/Examples1.v
theories/Properties2.v
theories/Examples2.v
theories/MIter.v
theories/SpecIter.v
theories/PIter.v
theories/PIter2.v
theories/Properties3.v
theories/Examples3.v
theories/MCeil.v
theories/PCeil.v
theories/Properties4.v
theories/Examples4.v
theories/Tools2.v
theories/MVariants.v
theories/PAlgorithms.v
theories/PLooped.v
theories/PSemi.v
theories/Properties5.v
theories/Examples5.v
theories/MTiled.v
theories/SpecTiled.v
theories/PTiled.v
theories/PTiled2.v
theories/Erase.v
theories/PTiled3.v
theories/PTiled4.v
theories/PTiled5.v
theories/Properties6.v
theories/Examples6.v
theories/PLevels.v
theories/MKTest.v
theories/PKTest.v
theories/PKTest2.v
theories/Properties7.v
theories/Examples7.v
theories/PDet2.v
theories/Properties8.v
theories/Examples8.v
theories/MTile.v
theories/SpecTile.v
theories/PTile.v
theories/PTile2.v
theories/Properties9.v
theories/Examples9.v
theories/MApp.v
theories/SpecApp.v
theories/PProposal.v
theories/PApp.v
theories/PApp2.v
theories/Properties10.v
theories/Examples10.v
theories/MDouble.v
theories/PDouble.v
theories/PPseudo2.v
theories/SpecRound.v
theories/PRound.v
theories/PRound2.v
theories/Properties11.v
theories/Examples11.v
theories/MExcept.v
theories/PExcept.v
theories/MAlign.v
theories/PAlign.v
theories/Properties12.v
theories/Examples12.v
theories/MExp.v
theories/Tools3.v
theories/SpecExp.v
theories/PExp.v
theories/PExpBlocks.v
theories/Properties13.v
theories/Examples13.v
theories/MExp2.v
theories/SpecExp2.v
theories/PExp2.v
theories/PExpIntrin.v
theories/PExpReg.v
theories/PExpAsm.v
theories/Properties14.v
theories/Examples14.v
theories/SpecBench.v
theories/MBench.v
theories/PBench.v
theories/PBench64.v
theories/Properties15.v
theories/Examples15.v
theories/MContract.v
theories/SpecContract.v
theories/PContract.v
theories/SpecCount.v
theories/PContract2.v
theories/PContract3.v
theories/Properties16.v
theories/Examples16.v
theories/SpecExact.v
theories/PExact64.v
theories/Properties17.v
theories/Examples17.v
theories/POne.v
theories/MTests.v
theories/SpecTests.v
theories/PTests1.v
theories/PTests2.v
theories/Properties18.v
theories/Examples18.v
theories/SpecDomain.v
theories/PDomain1.v
theories/PDomain2.v
theories/PDomain3.v
theories/PDomain4.v
theories/Properties19.v
theories/Examples19.v
theories/MWord.v
theories/MWord2.v
theories/MWord3.v
theories/MWordApp.v
theories/SpecWord.v
theories/PWord.v
theories/PWord2.v
theories/PWord3.v
theories/PWord4.v
theories/PWord5.v
theories/PWord6.v
theories/Properties20.v
theories/Examples20.v
theories/PCount.v
theories/MReport.v
theories/SpecReport.v
theories/PReport.v
theories/PReport2.v
theories/Properties21.v
theories/Examples21.v
theories/MTests2.v
theories/SpecLayout.v
theories/PLayout1.v
theories/PLayout2.v
theories/PLayout3.v
theories/MLearn.v
theories/SpecLearn.v
theories/PLearn.v
theories/Properties22.v
theories/Examples22.v
theories/MFast.v
theories/SpecFast.v
theories/PFast.v
theories/PFast2.v
theories/MBenchFast.v
theories/PFast3.v
theories/PFast4.v
theories/PFast5.v
theories/Properties23.v
theories/Examples23.v
theories/MPrint.v
theories/SpecPrint.v
theories/PPrint.v
theories/PPrint2.v
theories/MTranscript.v
theories/SpecTranscript.v
theories/PTranscript.v
theories/PPrint3.v
theories/PTranscript2.v
theories/PTranscript3.v
theories/PTranscript4.v
theories/PTranscript5.v
theories/PTranscript6.v
theories/PTranscript7.v
theories/Properties24.v
theories/Examples24.v
theories/MBalance.v
theories/SpecBalance.v
theories/PBalance.v
theories/PBalance2.v
theories/Properties25.v
theories/Examples25.v
theories/SpecScale.v
theories/PScale.v
theories/PScale2.v
theories/PScale3.v
theories/Properties26.v
theories/Examples26.v
theories/MCmdline.v
theories/SpecCmdline.v
theories/PCmdline.v
theories/PCmdline2.v
theories/PCmdline3.v
theories/PCmdline4.v
theories/PCmdline5.v
theories/Properties27.v
theories/Examples27.v
theories/MVerbose.v
theories/SpecVerbose.v
theories/PVerbose.v
theories/PVerbose2.v
theories/PVerbose3.v
theories/Properties28.v
theories/Examples28.v
theories/MComponents.v
theories/SpecComponents.v
theories/PComponents.v
theories/Properties29.v
theories/Examples29.v
theories/MRandom.v
theories/SpecRandom.v
theories/PRandom.v
theories/PRandom2.v
theories/PRandom3.v
theories/Properties30.v
theories/Examples30.v
theories/SpecCmdline2.v
theories/PCmdline6.v
theories/Properties31.v
theories/Examples31.v
theories/SpecSpecial.v
theories/PSpecial.v
theories/PSpecial2.v
theories/Properties32.v
theories/Examples32.v
theories/SpecTests3.v
theories/PTests3.v
theories/Properties33.v
theories/Examples33.v
theories/PScale4.v
theories/SpecCmdline3.v
theories/PCmdline7.v
theories/Properties34.v
theories/Examples34.v
theories/PVerbose4.v
theories/Properties35.v
theories/Examples35.v
theories/SpecLearn2.v
theories/PLearn2.v
theories/PTests4.v
theories/Properties36.v
theories/Examples36.v
