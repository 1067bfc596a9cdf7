-Q theories Verif

theories/Base.v
theories/Model/Potentials.v
theories/Model/Interp.v
theories/Model/SlowRoll.v
theories/Proofs/BaseLemmas.v
theories/Spec/PotentialSpec.v
theories/Proofs/PotentialDerivs.v
theories/Proofs/PotentialDerivsAll.v
theories/Proofs/PotentialEps.v
theories/Proofs/PotentialEps2.v
theories/Proofs/InvV.v
theories/Proofs/PotentialEpsAll.v
theories/Spec/SlowRollSpec.v
theories/Proofs/PhiEnd.v
theories/Properties/PotentialProps.v
theories/Proofs/Feature4.v
theories/Proofs/SRN.v
theories/Proofs/InterpLemmas.v
theories/Proofs/N2phi.v
theories/Proofs/SRConv.v
theories/Properties/SlowRollProps.v
theories/Proofs/Ctor.v
theories/Proofs/Efolds.v
theories/Properties/CtorProps.v
theories/Model/Equations.v
theories/Model/Background.v
theories/Spec/BackgroundSpec.v
theories/Proofs/BackgroundT.v
theories/Proofs/BackgroundN.v
theories/Proofs/BackgroundTN.v
theories/Spec/FlowSpec.v
theories/Proofs/Flow.v
theories/Proofs/BackgroundEx.v
theories/Properties/BackgroundProps.v
theories/Model/Float.v
theories/Model/Solution.v
theories/Model/InitCond.v
theories/Model/State.v
theories/Model/Reheating.v
theories/Model/ApproxPower.v
theories/Model/Calibrate.v
theories/Spec/SolutionSpec.v
theories/Proofs/DictLemmas.v
theories/Proofs/SolLemmas.v
theories/Proofs/PostProc.v
theories/Properties/SolutionProps.v
theories/Proofs/FloatLemmas.v
theories/Properties/InitProps.v
theories/Proofs/StateLemmas.v
theories/Spec/CalibSpec.v
theories/Proofs/CalibFrame.v
theories/Proofs/CalibPure.v
theories/Proofs/CalibPure2.v
theories/Proofs/CalibPure3.v
theories/Proofs/CalibRun.v
theories/Proofs/PowerRun.v
theories/Proofs/CalibResult.v
theories/Proofs/CalibTotal.v
theories/Properties/CalibProps.v
theories/Proofs/InterpInverse.v
theories/Properties/CalibProps2.v
theories/Properties/CalibProps3.v
theories/Spec/CalibErrorSpec.v
theories/Proofs/CalibErrors.v
theories/Properties/CalibProps4.v
theories/Properties/CalibProps5.v
theories/Properties/ApproxProps.v
theories/Properties/ApproxProps2.v
theories/Proofs/PowerHist.v
theories/Properties/PowerProps.v
theories/Properties/NsProps.v
theories/Model/Perturbations.v
theories/Spec/PerturbationSpec.v
theories/Proofs/PertT.v
theories/Proofs/PertVac.v
theories/Proofs/PertComb.v
theories/Properties/PertProps.v
theories/Model/Oscode.v
theories/Spec/OscodeSpec.v
theories/Proofs/OscodeWin.v
theories/Proofs/OscodeLoop.v
theories/Properties/OscodeProps.v
theories/Model/BigBang.v
theories/Spec/BigBangSpec.v
theories/Proofs/BigBangLines.v
theories/Properties/BigBangProps.v
theories/Properties/BigBangProps2.v
theories/Model/Cobaya.v
theories/Properties/CobayaProps.v
theories/Model/Version.v
theories/Properties/VersionProps.v
theories/Model/HubbleFlow.v
theories/Proofs/HubbleFlowRes.v
theories/Properties/HubbleFlowProps.v
theories/Model/Shooting.v
theories/Properties/ShootProps.v
theories/Proofs/SolveFields.v
theories/Properties/PipelineProps.v
theories/Proofs/Bracket.v
theories/Properties/BracketProps.v
theories/Properties/ModeProps.v
theories/Properties/BigBangProps3.v
theories/Properties/InitProps2.v
theories/Properties/DynProps.v
theories/Model/Solver.v
theories/Spec/SolverSpec.v
theories/Properties/SolverProps.v
theories/Model/Events.v
theories/Spec/EventSpec.v
theories/Properties/EventProps.v
theories/Proofs/TableRun.v
theories/Properties/TableProps.v
theories/Model/Dense.v
theories/Properties/DenseProps.v
theories/Proofs/Freeze.v
theories/Properties/FreezeProps.v
theories/Properties/VacuumProps.v
theories/Model/SlowRollWrapper.v
theories/Properties/WrapperProps.v
theories/Properties/FlowTableProps.v
theories/Properties/BigBangProps4.v
theories/Spec/ScalingSpec.v
theories/Properties/ScaleProps.v
theories/Properties/ScaleProps2.v
theories/Model/SlowRollSetup.v
theories/Properties/SetupProps.v
theories/Proofs/CalibCompare.v
theories/Properties/OriginProps.v
theories/Properties/HistoryProps.v
theories/Properties/VariableProps.v
theories/Properties/EventOrderProps.v
theories/Spec/MirrorSpec.v
theories/Properties/MirrorProps.v
theories/Model/Rounding.v
theories/Spec/RoundingSpec.v
theories/Properties/RoundingProps.v
theories/Properties/Nonvacuity.v
theories/Proofs/Unique.v
theories/Properties/UniqueProps.v
theories/Model/Release.v
theories/Properties/ReleaseProps.v
theories/Properties/ModeUniqueProps.v
theories/Model/Session.v
theories/Spec/SessionSpec.v
theories/Proofs/SessionPf.v
theories/Properties/SessionProps.v
theories/Spec/SpectrumSpec.v
theories/Properties/SpectrumProps.v
theories/Model/Messages.v
theories/Properties/MessageProps.v
theories/Spec/StabilitySpec.v
theories/Proofs/Stability.v
theories/Properties/StabilityProps.v
theories/Proofs/SlowRollBound.v
theories/Proofs/Roll.v
theories/Properties/SlowRollBoundProps.v
theories/Proofs/Picard.v
theories/Proofs/LipBox.v
theories/Proofs/Exist.v
theories/Properties/ExistenceProps.v
theories/Proofs/RollEnd.v
theories/Properties/InflationEndsProps.v
theories/Properties/EndNonvacuity.v
theories/Proofs/FloatExt.v
theories/Proofs/OpenFlow.v
theories/Properties/OpenRollProps.v
theories/Properties/OpenEndProps.v
theories/Properties/OpenNonvacuity.v
theories/Proofs/LinearODE.v
theories/Properties/ModeExistProps.v
theories/Spec/PositiveSpec.v
theories/Properties/PositiveProps.v
theories/Model/PertIC.v
theories/Properties/DefaultStartProps.v
theories/Properties/CutoffProps.v
theories/Model/ErrorText.v
theories/Properties/ErrorTextProps.v
theories/Proofs/FastRoll.v
theories/Properties/StartEndsProps.v
theories/Properties/StartEndsNonvacuity.v
theories/Proofs/StartCont.v
theories/Proofs/StartMono.v
theories/Properties/StartContProps.v
theories/Spec/ExactRun.v
theories/Proofs/ShootRun.v
theories/Properties/ExactShootProps.v
theories/Properties/ExactShootNonvacuity.v
theories/Spec/ExactRunT.v
theories/Proofs/ShootRunT.v
theories/Properties/ExactShootTimeProps.v
theories/Properties/ExactShootTimeNonvacuity.v
theories/Proofs/RunReports.v
theories/Proofs/RunFallsSR.v
theories/Properties/ExactReportProps.v
theories/Properties/ExactReportNonvacuity.v
theories/Proofs/RunReportsT.v
theories/Properties/ExactReportTimeProps.v
theories/Properties/ExactReportTimeNonvacuity.v
theories/Proofs/TimeSR.v
theories/Properties/SlowRollTimeProps.v
theories/Proofs/PivotExit.v
theories/Properties/PivotExitProps.v
theories/Properties/PivotExitNonvacuity.v
theories/Properties/PivotModesProps.v
theories/Properties/PivotTimeProps.v
theories/Properties/PivotTimeNonvacuity.v
