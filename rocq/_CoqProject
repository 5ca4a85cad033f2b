-Q theories Verif
theories/Base.v
theories/Num.v
theories/ModelCommon.v
theories/ModelTree.v
theories/ModelBoost.v
theories/F64.v
theories/XR.v
theories/Decide.v
theories/Lib.v
theories/Spec.v
theories/ProofData.v
theories/ProofSort.v
theories/ProofCsv.v
theories/Prop_Data.v
theories/ProofSplit.v
theories/ProofSplit2.v
theories/SpecTree.v
theories/ProofTree.v
theories/ProofTree2.v
theories/ProofTransform.v
theories/Check.v
theories/ProofTree3.v
theories/ProofSplitF64.v
theories/Prop_Split.v
theories/Prop_Tree.v
theories/SpecExact.v
theories/ProofReal.v
theories/ProofSplitExact.v
theories/ProofSplitExact2.v
theories/ProofWitness.v
theories/Prop_SplitExact.v
theories/SpecScore.v
theories/SpecF64.v
theories/ProofScore.v
theories/ProofBoost.v
theories/ProofScoreF64.v
theories/ProofScore2.v
theories/ProofBoost2.v
theories/Demo.v
theories/Prop_Score.v
theories/Prop_Boost.v
theories/SpecFit.v
theories/ProofTreeExact.v
theories/DemoExact.v
theories/Prop_TreeExact.v
theories/ProofScore3.v
theories/ProofTreeF64.v
theories/Prop_TreeFloat.v
theories/ProofLeaf.v
theories/SpecError.v
theories/SpecClass.v
theories/SpecAffine.v
theories/ProofScoreExact.v
theories/ProofBoostExact.v
theories/ProofClassExact.v
theories/ProofClassRun.v
theories/ProofShift.v
theories/DemoBoostExact.v
theories/Prop_BoostExact.v
theories/ProofRound.v
theories/ProofClassF64.v
theories/Prop_ClassFloat.v
theories/ModelPar.v
theories/SpecPar.v
theories/ProofPar.v
theories/Prop_Par.v
theories/ProofTight.v
theories/ModelPrint.v
theories/ModelMain.v
theories/SpecPrint.v
theories/ProofPrint.v
theories/DemoPrint.v
theories/Prop_Print.v
theories/SpecInt.v
theories/ProofError.v
theories/ProofScan.v
theories/ProofInt.v
theories/ProofInt2.v
theories/ProofInt3.v
theories/ProofInt4.v
theories/ProofInt5.v
theories/ProofInt6.v
theories/DemoInt.v
theories/Prop_SplitInt.v
theories/Prop_TreeInt.v
theories/ConformData.v
theories/Conform.v
theories/ConformWine.v
theories/SpecExtra.v
theories/ProofRedundant.v
theories/ProofSize.v
theories/Prop_Extra.v
theories/SpecOrder.v
theories/ProofOrder.v
theories/ProofOrderExact.v
theories/ProofOrderInt.v
theories/DemoOrder.v
theories/Prop_OrderExact.v
theories/Prop_OrderInt.v
theories/SpecStep.v
theories/ProofStep.v
theories/Prop_Step.v
theories/SpecPanic.v
theories/ProofPanic.v
theories/Prop_Panic.v
theories/ProofBalance.v
theories/Prop_Balance.v
theories/SpecRename.v
theories/ProofRename.v
theories/DemoRename.v
theories/Prop_Rename.v
theories/SpecStage.v
theories/ProofStage.v
theories/DemoStage.v
theories/Prop_Stage.v
theories/SpecGradient.v
theories/ProofGradient.v
theories/DemoGradient.v
theories/Prop_Gradient.v
theories/ProofDescent.v
theories/DemoDescent.v
theories/Prop_Descent.v
theories/SpecColumns.v
theories/ProofColumns.v
theories/DemoColumns.v
theories/Prop_Columns.v
theories/ProofBound.v
theories/DemoBound.v
theories/Prop_Bound.v
theories/SpecCopies.v
theories/ProofCopies.v
theories/DemoCopies.v
theories/Prop_Copies.v
theories/SpecPredict.v
theories/ProofPredict.v
theories/DemoPredict.v
theories/Prop_Rounding.v
theories/ProofMse.v
theories/ProofSoftmax.v
theories/DemoAccuracy.v
theories/DemoClassF64.v
theories/Prop_Accuracy.v
theories/SpecNear.v
theories/ProofNear.v
theories/ProofNear2.v
theories/ProofNear3.v
theories/DemoNear.v
theories/Prop_SplitReal.v
theories/SpecNode.v
theories/ProofNode.v
theories/Prop_NodeReal.v
theories/SpecSaturate.v
theories/ProofLeafFloat.v
theories/ProofSaturate.v
theories/ProofCollapse.v
theories/ProofCollapse2.v
theories/DemoSaturate.v
theories/Prop_Saturate.v
theories/ProofAmgFloat.v
theories/DemoAmg.v
theories/Prop_AmgFloat.v
theories/SpecFitFloat.v
theories/ProofFitFloat.v
theories/DemoFitFloat.v
theories/Prop_FitFloat.v
theories/ProofNearLabel.v
theories/SpecNearFit.v
theories/ProofNearFit.v
theories/DemoNearFit.v
theories/Prop_NearFit.v
theories/ProofDeepFloat.v
theories/DemoDeepFloat.v
theories/Prop_DeepFloat.v
theories/SpecMirror.v
theories/ProofRel.v
theories/ProofMirror.v
theories/ProofMirror2.v
theories/Prop_Mirror.v
theories/SpecInsert.v
theories/ProofNull.v
theories/ProofNull2.v
theories/Prop_Null.v
theories/SpecScale.v
theories/ProofScale.v
theories/ProofScale2.v
theories/DemoScale.v
theories/Prop_Scale.v
theories/ProofAnswers.v
theories/ProofZeroRate.v
theories/DemoAnswers.v
theories/Prop_Answers.v
theories/SpecRotate.v
theories/ProofRotate.v
theories/DemoRotate.v
theories/Prop_Rotate.v
theories/SpecBelow.v
theories/ProofBelow.v
theories/Prop_Below.v
theories/SpecRenameAmg.v
theories/ProofRenameAmg.v
theories/DemoRenameAmg.v
theories/Prop_RenameAmg.v
theories/SpecClear.v
theories/ProofClear.v
theories/ProofClear2.v
theories/ProofClear3.v
theories/ProofClear4.v
theories/ProofClear5.v
theories/DemoClear.v
theories/Prop_Clear.v
theories/SpecNoise.v
theories/ProofNoise.v
theories/DemoNoise.v
theories/Prop_Noise.v
theories/ProofNoise2.v
theories/DemoNoise2.v
theories/Prop_NoiseEnsemble.v
theories/SpecGrown.v
theories/ProofGrown.v
theories/DemoGrown.v
theories/Prop_Grown.v
theories/SpecVote.v
theories/ProofVote.v
theories/Prop_Vote.v
theories/SpecLearn.v
theories/ProofLearn.v
theories/DemoLearn.v
theories/Prop_Learn.v
theories/ProofLearnFloat.v
theories/DemoLearnFloat.v
theories/Prop_LearnFloat.v
theories/ProofBalanceFloat.v
theories/DemoBalanceFloat.v
theories/Prop_BalanceFloat.v
theories/ProofOrderFloat.v
theories/DemoOrderFloat.v
theories/Prop_OrderFloat.v
theories/SpecColumnsBoost.v
theories/ProofColumnsBoost.v
theories/DemoColumnsBoost.v
theories/Prop_ColumnsBoost.v
theories/SpecTransformBoost.v
theories/ProofTransformBoost.v
theories/DemoTransformBoost.v
theories/Prop_TransformBoost.v
theories/SpecLoss.v
theories/ProofLoss.v
theories/DemoLoss.v
theories/Prop_Loss.v
theories/ProofSeparate.v
theories/DemoSeparate.v
theories/Prop_Separate.v
theories/ProofFirst.v
theories/DemoFirst.v
theories/Prop_First.v
theories/ProofRestart.v
theories/ProofBlend.v
theories/DemoRestart.v
theories/Prop_Restart.v
theories/ProofAmgSum.v
theories/Prop_AmgSum.v
theories/ProofStall.v
theories/DemoStall.v
theories/ProofAbsent.v
theories/DemoAbsent.v
theories/DemoAbsentFloat.v
theories/Prop_Absent.v
theories/SpecCalibrate.v
theories/ProofCalibrate.v
theories/Prop_Calibrate.v
theories/ProofLedger.v
theories/Prop_Ledger.v
theories/SpecTwins.v
theories/ProofTwins.v
theories/ProofTwins2.v
theories/ProofTwins3.v
theories/DemoTwins.v
theories/Prop_Twins.v
theories/SpecUnion.v
theories/ProofUnion2.v
theories/ProofUnion.v
theories/Prop_Union.v
theories/SpecQuiet.v
theories/ProofQuiet.v
theories/ProofQuiet2.v
theories/ProofQuiet3.v
theories/DemoQuiet.v
theories/Prop_Quiet.v
