-Q theories Verif
theories/Num.v
theories/Vec.v
theories/Handlers.v
theories/Material.v
theories/Analysis.v
theories/Truss.v
theories/Equil.v
theories/Solver.v
theories/Run.v
theories/FloatRun.v
theories/NumR.v
theories/SpecMaterial.v
theories/MaterialFacts.v
theories/PropMaterial.v
theories/ListFacts.v
theories/SpecMech.v
theories/EquilFacts.v
theories/SpecMechR.v
theories/MechFacts.v
theories/StiffFacts.v
theories/TangentFacts.v
theories/OrderFacts.v
theories/ExTruss.v
theories/PropMech.v
theories/SpecBuild.v
theories/BuildFacts.v
theories/BuildProps.v
theories/EditFacts.v
theories/PropBuild.v
theories/SpecElem.v
theories/ElemFacts.v
theories/PropElem.v
theories/SpecSolver.v
theories/SolverFacts.v
theories/PathFacts.v
theories/SpecStep.v
theories/StepFacts.v
theories/NumFix.v
theories/ExPath.v
theories/PropSolver.v
theories/SpecState.v
theories/FrameFacts.v
theories/SpecRun.v
theories/RunFacts.v
theories/EvalFacts.v
theories/RecFacts.v
theories/ReachFacts.v
theories/SessionFacts.v
theories/TypeFacts.v
theories/RunProps.v
theories/ExRun.v
theories/PropState.v
theories/SpecRunR.v
theories/ReactFacts.v
theories/PropRun.v
theories/SpecBar.v
theories/BarFacts.v
theories/PropBar.v
theories/Plot.v
theories/SpecPlot.v
theories/PlotFacts.v
theories/SceneFacts.v
theories/MovieFacts.v
theories/PropPlot.v
theories/Logfile.v
theories/SpecLog.v
theories/PropLog.v
theories/PropShow.v
theories/SpecSame.v
theories/SimFacts.v
theories/SameFacts.v
theories/SameRun.v
theories/SameMech.v
theories/PropSame.v
theories/Crash.v
theories/CrashFacts.v
theories/SpecCrash.v
theories/CrashProps.v
theories/CrashBuild.v
theories/CrashRun.v
theories/PropCrash.v
theories/LoadFacts.v
theories/PropLoad.v
theories/SpecEnergy.v
theories/EnergyFacts.v
theories/PropEnergy.v
theories/SpecForm.v
theories/FormFacts.v
theories/PropForm.v
theories/SpecHistory.v
theories/HistoryFacts.v
theories/PropHistory.v
theories/SpecOne.v
theories/OneFacts.v
theories/OneRun.v
theories/TensionFacts.v
theories/PropOne.v
theories/Text.v
theories/SpecText.v
theories/TextFacts.v
theories/TextProps.v
theories/TextCut.v
theories/PropText.v
theories/Double.v
theories/SpecDouble.v
theories/DoubleFacts.v
theories/PropDouble.v
theories/SpecRound.v
theories/RoundFacts.v
theories/Binary64.v
theories/SpecBalance64.v
theories/Balance64Facts.v
theories/PropBalance64.v
theories/SpecNode64.v
theories/Node64Facts.v
theories/PropNode64.v
theories/BitFacts.v
theories/PropBits.v
theories/SpecPlast64.v
theories/Plast64Facts.v
theories/PropPlast64.v
theories/SpecNewton.v
theories/BallFacts.v
theories/JacFacts.v
theories/NearFacts.v
theories/GaussFacts.v
theories/NewtonFacts.v
theories/PropNewton.v
theories/SpecMirror.v
theories/MirrorFacts.v
theories/MirrorEval.v
theories/MirrorPath.v
theories/MirrorGauss.v
theories/MirrorRun.v
theories/PropMirror.v
theories/SpecSplit.v
theories/SimRun.v
theories/SplitFacts.v
theories/SplitRun.v
theories/PropSplit.v
theories/SpecLong.v
theories/LongFacts.v
theories/PropLong.v
theories/SpecLocal.v
theories/LocalFacts.v
theories/PropLocal.v
theories/TolFacts.v
theories/SpecReverse.v
theories/PropReverse.v
theories/SpecNumber.v
theories/PickFacts.v
theories/NumberEval.v
theories/NumberPath.v
theories/NumberRun.v
theories/NumberBuild.v
theories/NumberSolve.v
theories/PropNumber.v
theories/SpecTable.v
theories/TableFacts.v
theories/TablePath.v
theories/TableRun.v
theories/PropTable.v
theories/SpecUnit.v
theories/UnitFacts.v
theories/UnitPath.v
theories/UnitRun.v
theories/PropUnit.v
theories/SmallFacts.v
theories/SpecSmall.v
theories/SmallRun.v
theories/PropSmall.v
theories/SpecLin.v
theories/LinFacts.v
theories/LinRun.v
theories/PropLin.v
theories/TermFacts.v
theories/PropTerm.v
theories/SpecValid.v
theories/TotalFacts.v
theories/PropTotal.v
theories/SpecTrade.v
theories/TradeFacts.v
theories/PropTrade.v
theories/SpecTangent.v
theories/TangentRun.v
theories/PropTangent.v
theories/TextLines.v
theories/NeedRun.v
theories/Default.v
theories/MoveRun.v
theories/PropDefault.v
theories/SpecScript.v
theories/PropScript.v
theories/PropUnknowns.v
theories/PropUnique.v
theories/PropSchedule.v
theories/SpecUnloaded.v
theories/UnloadedRun.v
theories/PropUnloaded.v
theories/SpecSupportLoad.v
theories/SupportLoadRun.v
theories/PropSupportLoad.v
theories/SpecSupportRest.v
theories/PropSupportRest.v
