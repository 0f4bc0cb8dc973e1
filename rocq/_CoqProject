-Q theories Verif
theories/ActiveSet.v
theories/ActiveSetFacts.v
theories/Backends.v
theories/BackendsFacts.v
theories/BackendsSpec.v
theories/Base.v
theories/BaseFacts.v
theories/BlockDiagonal.v
theories/BlockDiagonalFacts.v
theories/BlockLife.v
theories/BlockLifeFacts.v
theories/BlockLifeSelect.v
theories/BlockLifeSpec.v
theories/BlockMatrix.v
theories/BlockMatrixFacts.v
theories/BlockMatrixSpec.v
theories/BlockProductFacts.v
theories/BoxMinimum.v
theories/Condense.v
theories/CondenseFacts.v
theories/CondenseGroups.v
theories/CondenseLoops.v
theories/CondenseLoops2.v
theories/CondenseOutputFacts.v
theories/CondenseResults.v
theories/CondenseSpec.v
theories/Config.v
theories/ConfigClasses.v
theories/ConfigClassesExact.v
theories/ConfigClassesFacts.v
theories/ConfigClassesMeaning.v
theories/ConfigClassesSpec.v
theories/ConfigDefaults.v
theories/ConfigFacts.v
theories/ConfigMeaningSpec.v
theories/ConfigNumber.v
theories/ConfigNumberFacts.v
theories/ConfigProblem.v
theories/ConfigProblemFacts.v
theories/ConfigProblemSpec.v
theories/ConfigProblemTables.v
theories/ConfigProblemWitness.v
theories/ConfigSpec.v
theories/ConfigTaskSpec.v
theories/ConfigTaskTables.v
theories/ConstraintType.v
theories/Constraints.v
theories/ConstraintsFacts.v
theories/ConstraintsSpec.v
theories/ContainerRefuse.v
theories/CubicFacts.v
theories/CubicPolynomial.v
theories/CubicSpec.v
theories/Eigentools.v
theories/EigentoolsFacts.v
theories/EigentoolsSpec.v
theories/Euler.v
theories/EulerFacts.v
theories/EulerSpec.v
theories/FootParameters.v
theories/FootParametersFacts.v
theories/FootParametersSpec.v
theories/FootTrajectory.v
theories/FootTrajectoryFacts.v
theories/GridFill.v
theories/HierarchyFacts.v
theories/HierarchyLevel.v
theories/HierarchySpec.v
theories/KKT.v
theories/KKTFacts.v
theories/KKTGauss.v
theories/KKTPosedFacts.v
theories/KKTPosedSpec.v
theories/KKTRefuse.v
theories/KKTSpec.v
theories/KronAxisFacts.v
theories/Kronecker.v
theories/KroneckerFacts.v
theories/KroneckerFacts2.v
theories/LeftRight.v
theories/LeftRightFacts.v
theories/LogName.v
theories/LogNameFacts.v
theories/LogNameSpec.v
theories/Logger.v
theories/LoggerFacts.v
theories/LoggerSpec.v
theories/Mat2.v
theories/Mat3.v
theories/Matrix.v
theories/Mixins.v
theories/MixinsFacts.v
theories/MixinsSpec.v
theories/MpcGuess.v
theories/MpcGuessFacts.v
theories/MpcGuessSpec.v
theories/PepperCoupled.v
theories/PepperCoupledCase.v
theories/PepperCoupledFacts.v
theories/PepperCoupledIk.v
theories/PepperCoupledRobot.v
theories/PepperCoupledSpec.v
theories/PepperCoupledTheorems.v
theories/PepperFormFacts.v
theories/PepperIk.v
theories/PepperIkCommandFacts.v
theories/PepperIkExample.v
theories/PepperIkFacts.v
theories/PepperIkLoop.v
theories/PepperIkLoopConverge.v
theories/PepperIkLoopFacts.v
theories/PepperIkLoopRun.v
theories/PepperIkLoopSpec.v
theories/PepperIkLoopWitness.v
theories/PepperIkLoopWitness2.v
theories/PepperIkMotion.v
theories/PepperIkProgram.v
theories/PepperIkProgramExample.v
theories/PepperIkProgramFacts.v
theories/PepperIkProgramFacts2.v
theories/PepperIkProgramFacts3.v
theories/PepperIkProgramMeaning.v
theories/PepperIkProgramRun.v
theories/PepperIkProgramSpec.v
theories/PepperIkRefuse.v
theories/PepperIkScan.v
theories/PepperIkScanExample.v
theories/PepperIkScanFacts.v
theories/PepperIkScanFacts2.v
theories/PepperIkScanRun.v
theories/PepperIkScanSpec.v
theories/PepperIkSpec.v
theories/PepperIkTasks.v
theories/PepperIkTasksExample.v
theories/PepperIkTasksFacts.v
theories/PepperIkTasksSpec.v
theories/PepperIkTasksWitness.v
theories/PepperLoop.v
theories/PepperLoopFacts.v
theories/PepperLoopFacts2.v
theories/PepperLoopFacts3.v
theories/PepperLoopSpec.v
theories/PepperModel.v
theories/PepperMpc.v
theories/PepperMpcFacts.v
theories/PepperMpcFacts2.v
theories/PepperMpcSpec.v
theories/PepperPreview.v
theories/PepperPreviewFacts.v
theories/PepperPreviewSpec.v
theories/PepperProgram.v
theories/PepperProgramFacts.v
theories/PepperProgramFacts2.v
theories/PepperProgramFacts3.v
theories/PepperProgramFacts4.v
theories/PepperProgramFacts5.v
theories/PepperProgramFacts6.v
theories/PepperProgramFacts7.v
theories/PepperProgramFacts8.v
theories/PepperProgramFacts9.v
theories/PepperProgramHot.v
theories/PepperProgramHotSpec.v
theories/PepperProgramSpec.v
theories/PepperProgramUnique.v
theories/PepperRobot.v
theories/PepperRobotSpec.v
theories/PepperTasks.v
theories/PepperTasksFacts.v
theories/PepperTasksFacts2.v
theories/PepperTasksSpec.v
theories/PointMass6z.v
theories/PointMass6zFacts.v
theories/PointMass6zSpec.v
theories/Problem.v
theories/ProblemFacts.v
theories/ProblemFacts2.v
theories/ProblemReset.v
theories/ProblemSpec.v
theories/QP.v
theories/QPFacts.v
theories/QPFacts2.v
theories/QPSpec.v
theories/QpoasesBridge.v
theories/QpoasesBridgeFacts.v
theories/QpoasesBridgeSpec.v
theories/RSum.v
theories/Rbdl.v
theories/RbdlComFacts.v
theories/RbdlExample.v
theories/RbdlFacts.v
theories/RbdlSpec.v
theories/Rotary.v
theories/RotaryFacts.v
theories/RotarySpec.v
theories/RowsFacts.v
theories/RowsSpec.v
theories/SelectRowsFacts.v
theories/SmallMatrix.v
theories/Solution.v
theories/SolutionFacts.v
theories/SolutionSpec.v
theories/Solver.v
theories/SolverFacts.v
theories/SolverLife.v
theories/SolverLifeFacts.v
theories/SolverLifeSpec.v
theories/SolverSpec.v
theories/SpatialTransform.v
theories/SpatialTransformFacts.v
theories/StanceFSM.v
theories/StanceFSMFacts.v
theories/StanceFSMFacts2.v
theories/StanceSpec.v
theories/StanceTimeFacts.v
theories/Task.v
theories/TaskFacts.v
theories/TaskSpec.v
theories/Time.v
theories/TimeFacts.v
theories/TripleIntegrator.v
theories/TripleIntegratorFacts.v
theories/TripleIntegratorSpec.v
theories/ViolationsFacts.v
theories/WalkHeadingFacts.v
theories/WalkLoop.v
theories/WalkLoopFacts.v
theories/WalkLoopFacts10.v
theories/WalkLoopFacts11.v
theories/WalkLoopFacts2.v
theories/WalkLoopFacts3.v
theories/WalkLoopFacts4.v
theories/WalkLoopFacts5.v
theories/WalkLoopFacts6.v
theories/WalkLoopFacts7.v
theories/WalkLoopFacts8.v
theories/WalkLoopFacts9.v
theories/WalkLoopSpec.v
theories/WalkModel.v
theories/WalkModelFacts.v
theories/WalkModelSpec.v
theories/WalkMpc.v
theories/WalkMpcFacts.v
theories/WalkPreview.v
theories/WalkPreviewFacts.v
theories/WalkPreviewFacts2.v
theories/WalkPreviewFacts3.v
theories/WalkPreviewSpec.v
theories/WalkProfiles.v
theories/WalkProfilesFacts.v
theories/WalkProfilesFacts2.v
theories/WalkProfilesSpec.v
theories/WalkProgram.v
theories/WalkProgramFacts.v
theories/WalkProgramFacts2.v
theories/WalkProgramFacts3.v
theories/WalkProgramFacts4.v
theories/WalkProgramFacts5.v
theories/WalkProgramFacts6.v
theories/WalkProgramFacts7.v
theories/WalkProgramFacts8.v
theories/WalkProgramHot.v
theories/WalkProgramHot2.v
theories/WalkProgramHotSpec.v
theories/WalkProgramSpec.v
theories/WalkProgramUnique.v
theories/WalkStepsFacts.v
theories/WalkTasks.v
theories/WalkTasksFacts.v
theories/WalkTasksFacts2.v
theories/WalkTasksSpec.v
theories/WalkVelocityFacts.v
theories/Prop_ActiveSet.v
theories/Prop_Block.v
theories/Prop_BlockLife.v
theories/Prop_Bridges.v
theories/Prop_Condense.v
theories/Prop_Config.v
theories/Prop_ConfigClasses.v
theories/Prop_ConfigProblem.v
theories/Prop_Constraints.v
theories/Prop_Cubic.v
theories/Prop_Dynamics.v
theories/Prop_Eigentools.v
theories/Prop_Feet.v
theories/Prop_Hierarchy.v
theories/Prop_KKT.v
theories/Prop_LeftRight.v
theories/Prop_Logger.v
theories/Prop_Mixins.v
theories/Prop_Pepper.v
theories/Prop_PepperCoupled.v
theories/Prop_PepperHot.v
theories/Prop_PepperIk.v
theories/Prop_PepperIkCommand.v
theories/Prop_PepperIkLoop.v
theories/Prop_PepperIkProgram.v
theories/Prop_PepperIkScan.v
theories/Prop_PepperIkTasks.v
theories/Prop_PepperLoop.v
theories/Prop_PepperMpc.v
theories/Prop_PepperProgram.v
theories/Prop_PepperTasks.v
theories/Prop_Problem.v
theories/Prop_QP.v
theories/Prop_Rbdl.v
theories/Prop_Rotary.v
theories/Prop_Solution.v
theories/Prop_Solver.v
theories/Prop_SolverLife.v
theories/Prop_Stance.v
theories/Prop_Task.v
theories/Prop_Time.v
theories/Prop_Violations.v
theories/Prop_WalkHot.v
theories/Prop_WalkLoop.v
theories/Prop_WalkModel.v
theories/Prop_WalkPreview.v
theories/Prop_WalkProfiles.v
theories/Prop_WalkProgram.v
theories/Prop_WalkTasks.v
theories/Prop_WalkVelocity.v
