-Q theories Verif
theories/Num.v
theories/Eigen.v
theories/Outcome.v
theories/MathModel.v
theories/Types.v
theories/PoseModel.v
theories/ObstacleModel.v
theories/AgentModel.v
theories/EnvModel.v
theories/ModulationModel.v
theories/SpecEnv.v
theories/EnvRun.v
theories/EnvProofs.v
theories/SpecAgg.v
theories/AggProofs.v
theories/Samples.v
theories/PropEnv.v
theories/AggLoop.v
theories/AggJoin.v
theories/AggMain.v
theories/AggEnv.v
theories/NumX.v
theories/RealTac.v
theories/PoseReal.v
theories/Trig.v
theories/MathProofs.v
theories/SpecGeom.v
theories/PoseProofs.v
theories/Circles.v
theories/AggSamples.v
theories/PropAgg.v
theories/EllProofs.v
theories/EllPlane.v
theories/SpecX.v
theories/XProofs.v
theories/EllCounter.v
theories/SpecAgent.v
theories/AgentProofs.v
theories/GeomSamples.v
theories/AgentReal.v
theories/ModProofs.v
theories/PropAgent.v
theories/PropMod.v
theories/PropMath.v
theories/PropEll.v
theories/PropPose.v
theories/PropPlane.v
theories/PropEnvelope.v
theories/SpecMod.v
theories/WeightProofs.v
theories/ModMatrix.v
theories/PlaneRec.v
theories/PlaneMatrix.v
theories/EllMatrix.v
theories/PropWeights.v
theories/ModScene.v
theories/ModPlane.v
theories/ModCritical.v
theories/ModSpeed.v
theories/ModCounter.v
theories/ModSamples.v
theories/PropImpenetrable.v
theories/SpecDrive.v
theories/DriveProofs.v
theories/FarProofs.v
theories/DriveSamples.v
theories/PropDrive.v
theories/OrderProofs.v
theories/PropOrder.v
theories/SpecFrame.v
theories/FrameProofs.v
theories/FrameCounter.v
theories/FrameSamples.v
theories/PropFrame.v
theories/SpecHull.v
theories/HullProofs.v
theories/HullReal.v
theories/HullLookup.v
theories/HullRays.v
theories/HullSamples.v
theories/HullMain.v
theories/SpecMotion.v
theories/AggNames.v
theories/MotionProofs.v
theories/SpecAggMod.v
theories/AggMod.v
theories/AggModMain.v
theories/AggModSamples.v
theories/PropAggMod.v
theories/PropHull.v
theories/SpecTotal.v
theories/TotalProofs.v
theories/TotalSamples.v
theories/PropTotal.v
theories/StopProofs.v
theories/StopSamples.v
theories/PropStop.v
theories/SpecSpace.v
theories/SpaceProofs.v
theories/SpaceSamples.v
theories/VerticalProofs.v
theories/PropSpace.v
theories/PlanarModProofs.v
theories/PropPlanarMod.v
theories/PlotModel.v
theories/SpecPlot.v
theories/SpecMake.v
theories/AggMake.v
theories/PlotProofs.v
theories/PlotReal.v
theories/PlotSamples.v
theories/PropPlot.v
theories/PropMake.v
theories/LoopMath.v
theories/LoopBand.v
theories/SpecLoop.v
theories/LoopProofs.v
theories/LoopMain.v
theories/LoopSamples.v
theories/PropLoop.v
theories/ProgramModel.v
theories/ProgramProofs.v
theories/UnitTests.v
theories/ProgramSamples.v
theories/PropProgram.v
theories/RepulseProofs.v
theories/RepulseSamples.v
theories/PropRepulse.v
theories/NumB.v
theories/SpecFloat.v
theories/FloatBase.v
theories/FloatWeights.v
theories/FloatMath.v
theories/FloatQuat.v
theories/FloatSamples.v
theories/PropFloat.v
theories/SpecSeveral.v
theories/ModSeveral.v
theories/SeveralSamples.v
theories/PropSeveral.v
theories/SpecField.v
theories/FieldMath.v
theories/FieldProofs.v
theories/FieldSamples.v
theories/PropField.v
theories/StoreModel.v
theories/SpecStore.v
theories/StoreProofs.v
theories/StoreSamples.v
theories/PropStore.v
theories/SpecSeven.v
theories/SevenProofs.v
theories/PropSeven.v
theories/RoundProofs.v
theories/PropRounds.v
theories/PlotPanels.v
theories/PropPanels.v
theories/AggRepulse.v
theories/PropAggRepulse.v
theories/SpecObj.v
theories/ObjProofs.v
theories/ObjSamples.v
theories/PropObj.v
theories/UnitTests2.v
theories/EnvTests.v
theories/PropTests.v
theories/PrintModel.v
theories/SpecText.v
theories/PrintProofs.v
theories/PrintSamples.v
theories/PropPrint.v
theories/SpecAgentAttr.v
theories/AgentAttr.v
theories/PropAgentAttr.v
theories/SpecAcos.v
theories/AcosProofs.v
theories/AcosDouble.v
theories/PropAcos.v
theories/AssignProofs.v
theories/PropAssign.v
theories/MainModel.v
theories/SpecMain.v
theories/MainProofs.v
theories/MainFixed.v
theories/MainScenes.v
theories/MainPictures.v
theories/SpecPyMain.v
theories/PyMains.v
theories/PropPyMain.v
theories/PropMain.v
theories/SpecShow.v
theories/ShowProofs.v
theories/ShowSamples.v
theories/PropShow.v
theories/RenameProofs.v
theories/MarginProofs.v
theories/SpecLayout.v
theories/LayoutProofs.v
theories/SpecUnits.v
theories/UnitProofs.v
theories/UnitSamples.v
theories/PropUnits.v
theories/SpecMirror.v
theories/MirrorProofs.v
theories/MirrorSamples.v
theories/PropMirror.v
theories/DiagModel.v
theories/SpecDiag.v
theories/DiagProofs.v
theories/DiagReal.v
theories/DiagPlane.v
theories/DiagNan.v
theories/DiagSamples.v
theories/PropDiag.v
theories/SpecFlow.v
theories/FlowReal.v
theories/FlowProofs.v
theories/FlowSamples.v
theories/PropFlow.v
theories/SpecJump.v
theories/JumpProofs.v
theories/JumpReal.v
theories/JumpSeveral.v
theories/JumpSamples.v
theories/PropJump.v
theories/SpecKeep.v
theories/KeepProofs.v
theories/PropKeep.v
theories/PyModel.v
theories/SpecPy.v
theories/PyText.v
theories/PyProofs.v
theories/PyStart.v
theories/PySamples.v
theories/PropPy.v
theories/SpecTurn.v
theories/LayoutReal.v
theories/HullBuilt.v
theories/SortModel.v
theories/SpecSort.v
theories/SortProofs.v
theories/SortReal.v
theories/SortSamples.v
theories/PropSort.v
theories/SpecDist.v
theories/FloatDist.v
theories/DistSamples.v
theories/PropDist.v
theories/SpecRound.v
theories/FloatBound.v
theories/FloatDirs.v
theories/FloatNormal.v
theories/RoundSamples.v
theories/PropFloatNormal.v
theories/FloatModul.v
theories/FloatCombine.v
theories/FloatFinite.v
theories/PropFloatFlow.v
theories/FloatFlags.v
theories/FloatQuiet.v
theories/FloatStep.v
theories/FloatLoop.v
theories/StepSamples.v
theories/PropFloatStep.v
theories/SpecTravel.v
theories/FloatWall.v
theories/WallSamples.v
theories/PropFloatWall.v
theories/FloatApproach.v
theories/FloatMoving.v
theories/FloatFree.v
theories/FloatGuard.v
theories/GuardSamples.v
theories/MovingSamples.v
theories/PropFloatMoving.v
theories/PropFloatFree.v
theories/PropFloatGuard.v
