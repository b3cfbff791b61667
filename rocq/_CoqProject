-Q theories Verif
theories/Base.v
theories/Num.v
theories/XReal.v
theories/B64.v
theories/Config.v
theories/Mesh.v
theories/State.v
theories/NumFlux.v
theories/Time.v
theories/Writer.v
theories/Runner.v
theories/Spec.v
theories/ConfigProofs.v
theories/P_Config.v
theories/MeshProofs.v
theories/P_Mesh.v
theories/BoundaryProofs.v
theories/P_Boundary.v
theories/PhysicsProofs.v
theories/P_Physics.v
theories/SpecFlow.v
theories/FluxProofs.v
theories/UpdateProofs.v
theories/FluxReal.v
theories/FluxThms.v
theories/FluxMore.v
theories/VanLeer.v
theories/P_Flux.v
theories/SpecStep.v
theories/StepProofs.v
theories/StepInv.v
theories/StepEq.v
theories/StepVal.v
theories/Demo.v
theories/P_Step.v
theories/SpecTableau.v
theories/TableauProofs.v
theories/TimeProofs.v
theories/TimeMore.v
theories/AscProofs.v
theories/EulerStep.v
theories/RealRun.v
theories/P_Time.v
theories/SpecEuler.v
theories/EulerThms.v
theories/LinRun.v
theories/P_Euler.v
theories/ConsThms.v
theories/P_Conserve.v
theories/SpecFlat.v
theories/FlatProofs.v
theories/P_Flat.v
theories/SpecRun.v
theories/RunProofs.v
theories/RunTimes.v
theories/P_Run.v
theories/SpecWriter.v
theories/TextProofs.v
theories/TableProofs.v
theories/WriterProofs.v
theories/WriterRun.v
theories/WriterDirs.v
theories/P_Writer.v
theories/SpecInit.v
theories/P_Init.v
theories/SpecPanic.v
theories/PanicProofs.v
theories/P_Panic.v
theories/Loops.v
theories/LoopBase.v
theories/LoopProofs.v
theories/LoopFlux.v
theories/LoopStep.v
theories/LoopRun.v
theories/SpecLoops.v
theories/P_Loops.v
theories/FineWriter.v
theories/SpecFine.v
theories/FineProofs.v
theories/FineHist.v
theories/P_Fine.v
theories/MeshAccept.v
theories/SpecWall.v
theories/WallProofs.v
theories/WallDemo.v
theories/P_Wall.v
theories/MeshB64.v
theories/ScaleBase.v
theories/ScaleState.v
theories/ScaleFlux.v
theories/ScaleRun.v
theories/SpecScale.v
theories/P_Scale.v
theories/Sci.v
theories/SpecSci.v
theories/SciProofs.v
theories/P_Sci.v
theories/P_Finite.v
theories/Json.v
theories/SpecJson.v
theories/JsonProofs.v
theories/JsonConfig.v
theories/P_Json.v
theories/P_Upwind.v
theories/P_Silent.v
theories/P_Shift.v
theories/SpecReach.v
theories/ReachProofs.v
theories/P_Reach.v
theories/SpecMirror.v
theories/MirrorProofs.v
theories/MirrorNum.v
theories/P_Mirror.v
theories/P_Positive.v
theories/PosProofs.v
theories/SpecHealthy.v
theories/HealthProofs.v
theories/P_Healthy.v
theories/KtMirror.v
theories/KtDemo.v
theories/P_KtMirror.v
theories/SpecKtHealthy.v
theories/KtHealth.v
theories/P_KtHealthy.v
theories/SpecTimes64.v
theories/RunTimes64.v
theories/P_Times64.v
theories/P_Progress.v
theories/SpecCarry.v
theories/CarryProofs.v
theories/P_Carry.v
theories/KtCarry.v
theories/P_CarryKt.v
theories/SpecConv.v
theories/ConvB64.v
theories/P_Conv.v
theories/P_Sides.v
theories/CflB64.v
theories/P_CflB64.v
theories/P_Tolerance.v
theories/SpecMass.v
theories/ConsB64.v
theories/WallB64.v
theories/EnergyB64.v
theories/P_Mass64.v
theories/P_Dump.v
theories/StateApi.v
theories/SpecApi.v
theories/P_Api.v
theories/P_CflEdge.v
theories/P_ConfigInf.v
theories/P_SlopeB64.v
theories/P_SlopeRange.v
