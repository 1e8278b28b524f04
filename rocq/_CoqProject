-Q theories Verif
theories/Base.v
theories/Arith.v
theories/Codes.v
theories/Utilities.v
theories/Options.v
theories/Stats.v
theories/FileIO.v
theories/Subsolver.v
theories/State.v
theories/LCQProblem.v
theories/Tactics.v
theories/Loops.v
theories/Exact.v
theories/Kernels.v
theories/SpecSparse.v
theories/CscKernels.v
theories/CscBuild.v
theories/CscDense.v
theories/CscMerge.v
theories/SpecMath.v
theories/QSum.v
theories/KernelProps.v
theories/ExamplesKernels.v
theories/KernelProps2.v
theories/Pure.v
theories/Refine.v
theories/SpecLoad.v
theories/LoadLoops.v
theories/LoadDense.v
theories/LoadSparse.v
theories/StartDense.v
theories/StartSparse.v
theories/NoUB.v
theories/Safety.v
theories/PureFacts.v
theories/LoadFacts.v
theories/SpecExact.v
theories/SpecRun.v
theories/SpecTrace.v
theories/PurePace.v
theories/ExactOps.v
theories/ExactDense.v
theories/ExactSparse.v
theories/SpecSolve.v
theories/ExactRun.v
theories/ExactProps.v
theories/ExactProps2.v
theories/ExactSolve.v
theories/ExactPasses.v
theories/NoFuel.v
theories/Frames.v
theories/Control.v
theories/RunControl.v
theories/Examples.v
theories/ExamplesExact.v
theories/ExamplesExact2.v
theories/Spec.v
theories/QPHistory.v
theories/RunStats.v
theories/RunFacts.v
theories/RunProps.v
theories/PenaltyExact.v
theories/ExamplesRun.v
theories/RunTheorems.v
theories/Properties_Run.v
theories/OrderFacts.v
theories/Properties_Kernels.v
theories/Properties_Load.v
theories/Properties_Exact.v
theories/SpecApi.v
theories/ApiFacts.v
theories/ApiFacts2.v
theories/SpecHistory.v
theories/ExamplesRefuted.v
theories/ExamplesHistory.v
theories/RefutedFacts.v
theories/Properties_Refuted.v
theories/ApiProps.v
theories/Properties_Api.v
theories/OptionsGet.v
theories/SpecOptions.v
theories/OptionsFacts.v
theories/OwnOptions.v
theories/SpecOwn.v
theories/OwnFacts.v
theories/Messages.v
theories/Matlab.v
theories/Python.v
theories/Printf.v
theories/SpecInterfaces.v
theories/InterfaceFacts.v
theories/MatlabFacts.v
theories/SpecMatlab.v
theories/MatlabForms.v
theories/InterfaceProps.v
theories/ExamplesInterfaces.v
theories/Properties_Interfaces.v
theories/Properties_Matlab.v
theories/MatlabQP.v
theories/SpecMatlabQP.v
theories/MatlabQPFacts.v
theories/ExamplesMatlabQP.v
theories/Properties_MatlabQP.v
theories/SpecRefused.v
theories/RefusedFacts.v
theories/ExamplesRefused.v
theories/Properties_Refused.v
theories/SpecSwap.v
theories/Swap.v
theories/SwapFacts.v
theories/ExamplesSwap.v
theories/Properties_Swap.v
theories/SpecRenumber.v
theories/Renumber.v
theories/RenumberFacts.v
theories/RenumberSparse.v
theories/ExamplesRenumber.v
theories/Properties_Renumber.v
theories/SpecColumns.v
theories/Columns.v
theories/ColumnsFacts.v
theories/ColumnsSparse.v
theories/ExamplesColumns.v
theories/Properties_Columns.v
theories/SpecDefaults.v
theories/DefaultsFacts.v
theories/ExamplesDefaults.v
theories/Properties_Defaults.v
theories/StatGetters.v
theories/SpecStats.v
theories/StatsFacts.v
theories/ExamplesStats.v
theories/Properties_Stats.v
theories/SpecLimits.v
theories/LimitFacts.v
theories/ExamplesLimits.v
theories/Properties_Limits.v
theories/SpecFirst.v
theories/FirstFacts.v
theories/Properties_First.v
theories/SpecTol.v
theories/TolFacts.v
theories/ExamplesTol.v
theories/Properties_Tol.v
theories/SpecOff.v
theories/OffFacts.v
theories/Properties_Off.v
theories/SpecCount.v
theories/CountFacts.v
theories/Properties_Count.v
theories/SpecSeries.v
theories/SeriesFacts.v
theories/Properties_Series.v
theories/SpecFar.v
theories/FarFacts.v
theories/Properties_Far.v
theories/ExamplesRounding.v
theories/Properties_Rounding.v
theories/SpecSolvers.v
theories/Solvers.v
theories/SolversFacts.v
theories/ExamplesSolvers.v
theories/Properties_Solvers.v
theories/SpecModes.v
theories/Lockstep.v
theories/LockstepFacts.v
theories/ModeFacts.v
theories/ExamplesModes.v
theories/Properties_Modes.v
theories/SpecFiles.v
theories/FileLoadFacts.v
theories/MatlabProps.v
theories/MatlabSafe.v
theories/ExamplesMatlab.v
theories/ExamplesFiles.v
theories/Properties_Files.v
theories/OwnProblem.v
theories/SpecMemory.v
theories/OwnCheck.v
theories/OwnProblemFacts.v
theories/OwnCopy.v
theories/OwnCopyFacts.v
theories/SpecKeep.v
theories/OwnKeepFacts.v
theories/ExamplesMemory.v
theories/Properties_Memory.v
theories/SpecReuse.v
theories/PureShift.v
theories/Reuse.v
theories/ReuseFacts.v
theories/SparseReuse.v
theories/ExamplesReuse.v
theories/Properties_Reuse.v
theories/SpecDim.v
theories/DimFacts.v
theories/ExamplesDim.v
theories/Properties_Dim.v
theories/SpecSchedule.v
theories/Schedule.v
theories/SpecPrint.v
theories/LoadFrames.v
theories/Output.v
theories/ScheduleFacts.v
theories/ExamplesOutput.v
theories/Properties_Schedule.v
theories/Properties_Output.v
theories/SpecLife.v
theories/SpecUse.v
theories/LifeFacts.v
theories/BoxFacts.v
theories/SparseAgain.v
theories/HelperFacts.v
theories/ExamplesLife.v
theories/Properties_Life.v
theories/SpecData.v
theories/DataFacts.v
theories/ExamplesData.v
theories/Properties_Data.v
