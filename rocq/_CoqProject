-Q theories Verif

theories/Arith.v
theories/Vec.v
theories/Core.v
theories/Jacobian.v
theories/DP5.v
theories/Linalg.v
theories/Radau.v
theories/Rodas.v
theories/ArithR.v
theories/ArithF.v
theories/Spec.v
theories/Driver.v
theories/VecFacts.v
theories/DP5Facts.v
theories/DP5Inv.v
theories/LinFacts.v
theories/LinFactsC.v
theories/RadauFacts.v
theories/RadauStep.v
theories/RadauInv.v
theories/RadauTerm.v
theories/RadauSafe.v
theories/RadauHist.v
theories/RadauSim.v
theories/RadauMore.v
theories/RadauKeep.v
theories/RadauJac.v
theories/DP5Det.v
theories/DP5Iter.v
theories/Examples.v
theories/RadauEx.v
theories/DriverEx.v
theories/PropDriver.v
theories/DP5Ex.v
theories/SpecBuf.v
theories/DP5Preset.v
theories/PropDP5.v
theories/PropRadau.v
theories/SpecRK.v
theories/SpecODE.v
theories/RKFacts.v
theories/DP5R.v
theories/DP5Time.v
theories/DP5RK.v
theories/DP5Num.v
theories/DP5Dense.v
theories/DP5Term.v
theories/DP5RForms.v
theories/SpecRadau.v
theories/RadauR.v
theories/RadauTime.v
theories/RadauRForms.v
theories/RadauREx.v
theories/PropRadauR.v
theories/DP5REx.v
theories/PropDP5R.v
theories/SpecLin.v
theories/GaussK.v
theories/LinR.v
theories/LinC.v
theories/LinSpec.v
theories/LinBad.v
theories/LinThm.v
theories/PropLin.v
theories/LinalgBand.v
theories/SpecBand.v
theories/LinBand.v
theories/PropBand.v
theories/FFacts.v
theories/JacFacts.v
theories/PropJac.v
theories/DP5Zero.v
theories/FMono.v
theories/RadauZero.v
theories/PropEnd.v
theories/RadauDense.v
theories/PropDense.v
theories/SpecStage.v
theories/StageConst.v
theories/RadauTail.v
theories/RadauSolve.v
theories/RadauStage.v
theories/RadauErr.v
theories/StageForms.v
theories/StageEx.v
theories/PropStage.v
theories/FOrder.v
theories/SpecF64.v
theories/DP5Nan.v
theories/DP5Mono.v
theories/DP5First.v
theories/RadauEnd.v
theories/F64Ex.v
theories/PropF64.v
theories/SpecF64R.v
theories/FReduce.v
theories/FStrict.v
theories/RadauMono.v
theories/RadauMonoEx.v
theories/PropF64R.v
theories/SpecReach.v
theories/DP5Succ.v
theories/SuccEx.v
theories/PropReach.v
theories/RadauLin.v
theories/RadauLinEx.v
theories/PropRadauLin.v
theories/SpecSub.v
theories/Subspace.v
theories/RadauFwd.v
theories/RadauSub.v
theories/DP5Sub.v
theories/SubEx.v
theories/PropSub.v
theories/Dae.v
theories/SpecDae.v
theories/DaeFacts.v
theories/PropDae.v
theories/DP8.v
theories/SpecDP8.v
theories/TreeZ.v
theories/DP8RK.v
theories/TreeFix.v
theories/DP8Ord.v
theories/SpecDP8Code.v
theories/DP8Cont.v
theories/PropDP8.v
theories/SpecPI.v
theories/DP5Ref.v
theories/PropRef.v
theories/SpecIRK.v
theories/RadauRef.v
theories/RadRefDet.v
theories/RadRefEx.v
theories/PropRadRef.v
theories/RodasConst.v
theories/SpecRos.v
theories/SpecRodas.v
theories/RodasOrd.v
theories/PropRodas.v
theories/DefaultFacts.v
theories/PropDefaults.v
theories/SpecUnits.v
theories/Units.v
theories/UnitsDP5.v
theories/UnitsRad.v
theories/UnitsEx.v
theories/PropUnits.v
theories/SpecConv.v
theories/BigO.v
theories/ConvLocal.v
theories/ConvGlobal.v
theories/ConvDP5.v
theories/ConvEx.v
theories/PropConv.v
theories/RadConvLocal.v
theories/RadConvRun.v
theories/RadConv.v
theories/RadConvEx.v
theories/PropRadConv.v
theories/RadSucc.v
theories/RadSuccMain.v
theories/PropRadSucc.v
theories/SpecMode.v
theories/RadModeC.v
theories/RadMode.v
theories/RadModeMain.v
theories/PropRadMode.v
theories/SpecF64Conv.v
theories/PertRK.v
theories/FErr.v
theories/DP5Round.v
theories/DP5F64Conv.v
theories/DP5F64Step.v
theories/DP5F64Ex.v
theories/PropF64Conv.v
theories/SpecTol.v
theories/TolEx.v
theories/PropTol.v
theories/SpecGrow.v
theories/DP5Mode.v
theories/DP5GrowB.v
theories/DP5Grow.v
theories/DP5GrowEx.v
theories/PropGrow.v
theories/SpecEval.v
theories/DP5TimeF.v
theories/RadauTimeF.v
theories/EvalEx.v
theories/PropEval.v
theories/EmptyF.v
theories/PropEmptyF.v
theories/DP5MaxF.v
theories/DtmaxEx.v
theories/PropDtmax.v
theories/RadauJump.v
theories/RadJumpEx.v
theories/RadJumpF.v
theories/PropRadCb.v
theories/DP5RatioF.v
theories/RatioEx.v
theories/PropRatio.v
theories/RadTolEx.v
theories/PropTolR.v
theories/RadRatioF.v
theories/RadShrinkF.v
theories/RadRatioEx.v
theories/PropRatioR.v
theories/RadMaxF.v
theories/RadMaxEx.v
theories/PropDtmaxR.v
