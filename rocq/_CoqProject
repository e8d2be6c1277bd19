-Q theories Verif
theories/Base.v
theories/ModelUtil.v
theories/FresnelData.v
theories/ModelFresnel.v
theories/ModelIntegrate.v
theories/ModelDubins.v
theories/Num.v
theories/SpecPath.v
theories/UtilProofs.v
theories/IntegrateProofs.v
theories/DubinsProofs.v
theories/DubinsPlan.v
theories/DubinsOpt.v
theories/DubinsCases.v
theories/PropDubins.v
theories/ModelRS.v
theories/RSProofs.v
theories/RSPlan.v
theories/RSExist.v
theories/RSSelect.v
theories/SpecRS.v
theories/RSOpt.v
theories/PropRS.v
theories/DistProofs.v
theories/SpecDist.v
theories/SpecDir.v
theories/DirProofs.v
theories/DirCC0pmD.v
theories/DirCCpm0D.v
theories/DirCCpmpmD.v
theories/DirCC00D.v
theories/DirPlan.v
theories/PropDir.v
theories/SpecOpt.v
theories/SpecCusp.v
theories/OptProofs.v
theories/OptTangent.v
theories/OptWord.v
theories/OptTactics.v
theories/CuspWord.v
theories/CuspTactics.v
theories/OptCC00D.v
theories/OptCC0pmD.v
theories/OptCCpm0D.v
theories/OptCCpmpmD.v
theories/OptCC00R.v
theories/CuspCC00R.v
theories/OptHC00R.v
theories/CuspHC00R.v
theories/OptHC0pmR.v
theories/CuspHC0pmR.v
theories/OptHCpm0R.v
theories/CuspHCpm0R.v
theories/OptHCpmpmR.v
theories/CuspHCpmpmR.v
theories/DistPlan.v
theories/PropDist.v
theories/PropDistPlan.v
theories/OptCases.v
theories/CuspCases.v
theories/PropOpt.v
theories/PropCusp.v
theories/FresPoly.v
theories/FresCert.v
theories/SpecFresnel.v
theories/FresAcc.v
theories/FresProofs.v
theories/FresFinal.v
theories/PropFresnel.v
theories/ModelEKF.v
theories/SpecEKF.v
theories/EKFProofs.v
theories/PropEKF.v
theories/SpecCloth.v
theories/ClothProofs.v
theories/JacProofs.v
theories/PropCloth.v
theories/SpecFilter.v
theories/FilterProofs.v
theories/PropFilter.v
theories/ModelCircle.v
theories/SpecTurn.v
theories/PoseAlg.v
theories/ParamProofs.v
theories/TurnProofs.v
theories/MotionProofs.v
theories/TurnBounds.v
theories/TurnCases.v
theories/PropTurn.v
theories/PropUtil.v
theories/PropIntegrate.v
theories/ModelPaths.v
theories/ModelCC00D.v
theories/ModelCC0pmD.v
theories/ModelCCpm0D.v
theories/ModelCCpmpmD.v
theories/ModelCC00R.v
theories/ModelHC00R.v
theories/ModelHC0pmR.v
theories/ModelHCpm0R.v
theories/ModelHCpmpmR.v
theories/LegProofs.v
theories/TangentProofs.v
theories/SpecPlan.v
theories/PlanProofs.v
theories/PlanTactics.v
theories/PlanHybrid.v
theories/PlanFamily.v
theories/PlanEnds.v
theories/FamCC0pmD.v
theories/FamCCpm0D.v
theories/FamCCpmpmD.v
theories/FamCC00R.v
theories/FamHC00R.v
theories/FamHC0pmR.v
theories/FamHCpm0R.v
theories/FamHCpmpmR.v
theories/PlanBounds.v
theories/PlanSelect.v
theories/PlanRadius.v
theories/PlanRefute.v
theories/PlanCC0pmD.v
theories/PlanCCpm0D.v
theories/PlanCCpmpmD.v
theories/PlanCC00R.v
theories/PlanHC00R.v
theories/PlanHC0pmR.v
theories/PlanHCpm0R.v
theories/PlanHCpmpmR.v
theories/CC00DProofs.v
theories/PlanAll.v
theories/PlanCases.v
theories/PropCC.v
theories/PropHC.v
theories/PropPlan.v
theories/SpecSide.v
theories/SideProofs.v
theories/SideCC0pmD.v
theories/SideCCpm0D.v
theories/SideCCpmpmD.v
theories/SideHC0pmR.v
theories/SideHCpm0R.v
theories/SideHCpmpmR.v
theories/PropSide.v
theories/ModelWrap.v
theories/SpecWrap.v
theories/WrapPredict.v
theories/WrapProofs.v
theories/WrapLoop.v
theories/WrapSpace.v
theories/WrapPlan.v
theories/WrapMin.v
theories/WrapCases.v
theories/WrapJunk.v
theories/PropWrap.v
theories/ModelShared.v
theories/SpecShared.v
theories/SharedProofs.v
theories/SharedPlanners.v
theories/SharedRace.v
theories/PropShared.v
theories/ModelHeap.v
theories/ModelOwn.v
theories/ModelOwnCC00D.v
theories/ModelOwnCC0pmD.v
theories/ModelOwnCCpm0D.v
theories/ModelOwnCCpmpmD.v
theories/ModelOwnCC00R.v
theories/ModelOwnHC00R.v
theories/ModelOwnHC0pmR.v
theories/ModelOwnHCpm0R.v
theories/ModelOwnHCpmpmR.v
theories/SpecHeap.v
theories/HeapCheck.v
theories/OwnProofs.v
theories/PropOwn.v
theories/ModelFloat.v
theories/FloatProofs.v
theories/PropFloat.v
theories/SpecLong.v
theories/LongWord.v
theories/LongTactics.v
theories/LongHC00R.v
theories/LongHC0pmR.v
theories/LongHCpm0R.v
theories/LongHCpmpmR.v
theories/LongCC00R.v
theories/LongCases.v
theories/UnitWord.v
theories/UnitCC00D.v
theories/UnitCC0pmD.v
theories/UnitCCpm0D.v
theories/UnitCCpmpmD.v
theories/UnitCC00R.v
theories/UnitHC00R.v
theories/UnitHC0pmR.v
theories/UnitHCpm0R.v
theories/UnitHCpmpmR.v
theories/PropLong.v
theories/UnitCases.v
theories/PropUnit.v
theories/SpecRigid.v
theories/RigidBase.v
theories/RigidTactics.v
theories/RigidTests.v
theories/RigidHCpmpmR.v
theories/RigidHCpm0R.v
theories/RigidHC0pmR.v
theories/RigidCC00R.v
theories/RigidCCpmpmD.v
theories/RigidCCpm0D.v
theories/RigidCC0pmD.v
theories/RigidCC00D.v
theories/RigidHC00R.v
theories/SpecFour.v
theories/FourWord.v
theories/FourCCpmpmD.v
theories/FourCases.v
theories/PropFour.v
theories/MovedHC00R.v
theories/MovedCC00R.v
theories/MovedHC0pmR.v
theories/MovedHCpm0R.v
theories/MovedHCpmpmR.v
theories/MovedCC00D.v
theories/MovedCC0pmD.v
theories/MovedCCpm0D.v
theories/MovedCCpmpmD.v
theories/MovedCases.v
theories/MovedWrap.v
theories/PropRigid.v
theories/SpecSym.v
theories/SymDubins.v
theories/SymRS.v
theories/SymCases.v
theories/PropSym.v
theories/ModelStep.v
theories/StepProofs.v
theories/StepEnd.v
theories/PropStep.v
theories/SpecHead.v
theories/HeadProofs.v
theories/HeadSide.v
theories/PropHead.v
theories/WrapZero.v
theories/RevProofs.v
theories/RevPlan.v
theories/RevWrap.v
theories/PropRev.v
theories/SpecFollow.v
theories/FollowProofs.v
theories/FollowPlan.v
theories/PropFollow.v
theories/ModelInter.v
theories/InterProofs.v
theories/InterCases.v
theories/PropInter.v
theories/StateProofs.v
theories/StatePlan.v
theories/PropState.v
theories/SwapBase.v
theories/SwapTactics.v
theories/SwapHC00R.v
theories/SwapCC00D.v
theories/SwapCC0pmD.v
theories/SwapCCpmpmD.v
theories/SwapCC00R.v
theories/SwapHC0pmR.v
theories/SwapHCpmpmR.v
theories/SwapPlan.v
theories/SwapTables.v
theories/SwapDist.v
theories/SwapWrap.v
theories/SwapCases.v
theories/SwapRefute.v
theories/PropSwap.v
theories/StateFull.v
theories/StateCases.v
theories/ModelArc.v
theories/ArcProofs.v
theories/SpecArc.v
theories/ArcPath.v
theories/ArcEnd.v
theories/PropArc.v
theories/ModelDubins64.v
theories/SpecDubins64.v
theories/Near.v
theories/Dub64Tmp.v
theories/Dub64Words.v
theories/Dub64Plan.v
theories/Dub64End.v
theories/Dub64Final.v
theories/Dub64Asserts.v
theories/Dub64Dist.v
theories/PropDub64.v
theories/ModelAsserts.v
theories/ModelCalls.v
theories/AssertTac.v
theories/AssertCC00D.v
theories/AssertCC0pmD.v
theories/AssertCCpm0D.v
theories/AssertCCpmpmD.v
theories/AssertCC00R.v
theories/AssertHC00R.v
theories/AssertHC0pmR.v
theories/AssertHCpm0R.v
theories/AssertHCpmpmR.v
theories/Calls.v
theories/AssertAll.v
theories/SpecAbout.v
theories/AboutBase.v
theories/AboutPlan.v
theories/AboutHC00R.v
theories/AboutCCpmpmD.v
theories/AboutCCpm0D.v
theories/AboutCC0pmD.v
theories/AboutCC00D.v
theories/AboutCC00R.v
theories/AboutHCpmpmR.v
theories/AboutHCpm0R.v
theories/AboutHC0pmR.v
theories/AboutDist.v
theories/AboutCases.v
theories/PropAbout.v
theories/PropAssert.v
theories/SpecScale.v
theories/ScaleProofs.v
theories/LapProofs.v
theories/PropLap.v
theories/ScaleCases.v
theories/PropScale.v
