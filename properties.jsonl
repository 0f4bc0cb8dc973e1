{"id": "C01", "title": "Location bounds check is overflow-safe", "statement": "Location::checkLength(max) returns true exactly when the half-open segment [offset, offset+length) lies inside a container of max elements, even when offset+length overflows std::size_t.", "quantifier": "all offsets, lengths and maxima representable in std::size_t (64 bit)", "why_tests_cant": "2^192 combinations; the interesting ones are at the wrap-around boundary", "anchors": ["core/include/humoto/utility.h: Location::checkLength, Location::end"]}
{"id": "C02", "title": "Active set segment copy: round trip and frame", "statement": "Copying an active set into a segment of a larger one and extracting the same segment gives back the copied set, entries outside the segment are untouched, the size never changes, and a segment that does not fit is rejected. copyTo does not check that the source length equals the segment length.", "quantifier": "all active sets, all segments, all source sets", "why_tests_cant": "holds for every size/offset combination; a test picks a few", "anchors": ["core/include/humoto/active_set.h: ActiveSetConstraints::copyTo, copyFrom, initialize"]}
{"id": "C03", "title": "Active set shift", "statement": "shift(k, type) moves entry i+k to position i, fills the last k entries with type, keeps the size, and is rejected exactly when k >= size; shifting by a then by b equals shifting by a+b.", "quantifier": "all active sets, all shift amounts, all fill types", "why_tests_cant": "unbounded sizes and shifts", "anchors": ["core/include/humoto/active_set.h: ActiveSetConstraints::shift"]}
{"id": "C04", "title": "Active set determination agrees with the bounds", "statement": "For two-sided, lower, upper and equality constraints the activation type computed from the current solution is EQUALITY only when bounds coincide, LOWER_BOUND/UPPER_BOUND only when the product is at or beyond that bound, INACTIVE exactly when it is strictly inside, and UNDEFINED exactly when lb > ub.", "quantifier": "all bounds and all solutions", "why_tests_cant": "continuum of values, boundary cases of comparisons", "anchors": ["core/include/humoto/constraints_mixins.h: ActiveSetDetermination* mixins"]}
{"id": "C05", "title": "Constraint violations are signed distances to the feasible interval", "statement": "The violation computed for a constraint is zero if and only if the constraint is satisfied; otherwise its sign tells which bound is violated and its magnitude is the exact distance to that bound.", "quantifier": "all constraint kinds (L, U, LU, B, B0), all bounds, all solutions", "why_tests_cant": "continuum of values; must hold for each branch combination", "anchors": ["core/include/humoto/violations.h: ViolationsConstraints::set", "core/include/humoto/constraints_mixins.h: Violations* mixins"]}
{"id": "C06", "title": "Solution structure lays parts out disjointly and completely", "statement": "After any sequence of addSolutionPart calls with distinct identifiers, the parts are contiguous, pairwise disjoint, inside [0, getNumberOfVariables()), cover it, and keep the requested lengths; an unknown identifier yields the empty location. Re-adding an existing identifier keeps the old location but still enlarges the variable count (leaving variables that belong to no part).", "quantifier": "all sequences of part additions", "why_tests_cant": "history property over arbitrary sequences", "anchors": ["core/include/humoto/solution.h: SolutionStructure::addSolutionPart, getSolutionPartLocation, getNumberOfVariables"]}
{"id": "C07", "title": "Warm start keeps matching solution parts", "statement": "Initialising a solution from a structure and an old solution copies exactly those parts that have the same identifier and length in both, puts zero everywhere else, and has the size demanded by the new structure.", "quantifier": "all new structures, all old solutions (any structure, any data)", "why_tests_cant": "ranges over pairs of structures and histories", "anchors": ["core/include/humoto/solution.h: Solution::initialize"]}
{"id": "C08", "title": "Hierarchy level partition", "statement": "After forming a level, task locations are pairwise disjoint, cover exactly all constraint rows of the level, each has the size of its task, and all general constraints precede all simple constraints; each task keeps its own location irrespective of the order of pushes.", "quantifier": "all sequences of pushed tasks with any types and sizes", "why_tests_cant": "unbounded number of tasks and orders", "anchors": ["core/include/humoto/hierarchy_level.h: pushTask, form, getNumberOfConstraints"]}
{"id": "C09", "title": "Active set distribution to tasks is lossless", "statement": "Distributing a level active set to its tasks and collecting the tasks' active sets back gives the same level active set; collecting guesses writes every task's guess exactly in its own rows.", "quantifier": "all levels, all active sets of the right size", "why_tests_cant": "unbounded number of tasks", "anchors": ["core/include/humoto/hierarchy_level.h: processActiveSet, determineActiveSet, guessActiveSet"]}
{"id": "C10", "title": "Equality/inequality (AB, AL) form is equivalent to the task constraints", "statement": "A point satisfies the equality system A x = b and the one-sided system A x >= lb assembled for a level if and only if it satisfies every constraint of every task of the level.", "quantifier": "all levels built from any mix of supported constraint types, all points", "why_tests_cant": "equivalence over all points and all mixes", "anchors": ["core/include/humoto/hierarchy_level.h: getEqualityConstraints, getInequalityConstraints", "core/include/humoto/constraints_base.h: Copy*To* mixins", "core/include/humoto/constraints_mixins.h: copyBodyTo, copyBoundsTo"]}
{"id": "C11", "title": "Bounds + two-sided (ILU, ALU) form is equivalent to the task constraints", "statement": "A point satisfies the simple bounds and the general two-sided constraints assembled for a level if and only if it satisfies every constraint of every task of the level (missing bounds are represented by -/+1e20).", "quantifier": "all levels built from any mix of supported constraint types, all points with constraint values within the infinity bound", "why_tests_cant": "equivalence over all points and all mixes", "anchors": ["core/include/humoto/hierarchy_level.h: getGeneralConstraints, getSimpleConstraints", "core/include/humoto/constraints_base.h: CopyAnyToALUMixin, CopySimpleToILUMixin"]}
{"id": "C12", "title": "Per-variable solution bounds are the intersection of all simple bounds", "statement": "The vectors of lower and upper bounds handed to a QP solver contain for each variable the tightest of all simple bounds on it (and -/+infinity if there is none); bounds are rejected exactly when some variable has an empty interval.", "quantifier": "all collections of (index, lb, ub) triples, repeated indices included", "why_tests_cant": "arbitrary multiplicity and order of bounds", "anchors": ["core/include/humoto/constraints_base.h: ContainerILU::initializeSolutionBounds"]}
{"id": "C13", "title": "QP objective equals the sum of squared task residuals", "statement": "For the Hessian H and gradient g formed for an all-equality level, 1/2 x'Hx + g'x differs from 1/2 * sum over tasks |A_t x - b_t|^2 by a constant independent of x; H is symmetric when the full matrix is requested.", "quantifier": "all levels of equality tasks of every kind (AB, AB0, ASB, GIB, IB0, ...), all x", "why_tests_cant": "identity of functions over all x and all task mixes", "anchors": ["core/include/humoto/qp_problem.h: QPObjective::initializeObjective", "core/include/humoto/hierarchy_level.h: getObjective", "core/include/humoto/constraints.h: getATAandATb, addATAandATb"]}
{"id": "C14", "title": "QP problem extracted from a hierarchy depends on that hierarchy only", "statement": "getQPProblem on a one-level hierarchy yields an unconstrained problem and on a two-level hierarchy yields the constraints of level 0 with the objective of level 1, irrespective of what the QP object contained before. With bounds on single variables the problem is refused exactly if these bounds have no common point within the infinity of the library.", "quantifier": "all previous contents of the reused QP object, all hierarchies", "why_tests_cant": "history dependence: needs a particular sequence of calls", "anchors": ["core/include/humoto/hierarchy.h: OptimizationProblem::getQPProblem", "core/include/humoto/qp_problem.h"]}
{"id": "C15", "title": "Solver failure is never silent", "statement": "With crash_on_any_failure set, solve() returns normally only if the status is OK and throws otherwise; without it, it returns with the status that the solver reported; the protocol steps are executed in the order check inputs, initialise, guess, solve, check, read active set.", "quantifier": "all solver outcomes and parameter settings", "why_tests_cant": "combination of flags, statuses and call sequence", "anchors": ["core/include/humoto/solver.h: Solver::solve, checkResults, SolverGuess*Mixin"]}
{"id": "C16", "title": "KKT solver returns the constrained minimiser", "statement": "The solution of the equality constrained QP satisfies the constraints and makes the gradient of the objective a combination of constraint rows (and so minimises the objective among feasible points when H is positive semidefinite).", "quantifier": "all sizes, all H, g, A, b for which the factorisations are exact inverses", "why_tests_cant": "algebraic identity over all sizes", "anchors": ["core/include/kktsolver.h: KKTSolver::solve, solveWithElimination, solveDirect"]}
{"id": "C17", "title": "Task gain changes take effect", "statement": "After setGain on a task, the next formed constraints are those of the new gain.", "quantifier": "all gains, all histories of setGain/form calls", "why_tests_cant": "history property", "anchors": ["core/include/humoto/task_generic.h: TaskZeroVariables", "core/include/humoto/task.h: setGain"]}
{"id": "C18", "title": "Millisecond/second conversions round trip in binary64", "statement": "convertSecondToMillisecond(convertMillisecondToSecond(t)) == t in IEEE binary64 arithmetic for every t below 2^50; the floor variant can lose one millisecond.", "quantifier": "all millisecond counts below 2^50", "why_tests_cant": "2^50 inputs; rounding behaviour", "anchors": ["core/include/humoto/time.h: convertMillisecondToSecond, convertSecondToMillisecond, convertSecondToMillisecondFloor"]}
{"id": "C19", "title": "Stance alternation", "statement": "In any execution of the stance state machine every single support is preceded and followed by a double support, and consecutive single supports use opposite feet.", "quantifier": "all parameters accepted by the machine, all shift sequences", "why_tests_cant": "unbounded executions", "anchors": ["core/include/walking/stance_finite_state_machine.h: StanceFiniteStateMachine::shiftStance"]}
{"id": "C20", "title": "Exactly the requested number of steps", "statement": "Starting from a double support with num_steps > 1, the machine goes through exactly num_steps single supports and then stays in the terminal double support forever; the number never depends on how time is sliced into shifts.", "quantifier": "all num_steps, durations and shift sequences", "why_tests_cant": "unbounded executions", "anchors": ["core/include/walking/stance_finite_state_machine.h: StanceFiniteStateMachine, StanceFSMParameters"]}
{"id": "C21", "title": "Time shifts compose", "statement": "Shifting the stance machine by a and then by b milliseconds leaves it in the same stance and remaining duration as shifting by a+b.", "quantifier": "all states, all a, b", "why_tests_cant": "unbounded shifts and states", "anchors": ["core/include/walking/stance_finite_state_machine.h: shiftTime"]}
{"id": "C22", "title": "Stance preview predicts the future and changes nothing", "statement": "previewStances(T) does not modify the machine and lists the stances the machine passes through during the next T milliseconds with their durations.", "quantifier": "all machine states and preview durations", "why_tests_cant": "unbounded executions", "anchors": ["core/include/walking/stance_finite_state_machine.h: previewStances"]}
{"id": "C23", "title": "Time shifting terminates", "statement": "shiftTime terminates for every shift provided stance durations are positive; it never terminates when the terminal double support has zero duration and is reached before the shift is consumed.", "quantifier": "all states and shifts", "why_tests_cant": "non-termination cannot be tested", "anchors": ["core/include/walking/stance_finite_state_machine.h: shiftTime"]}
{"id": "C24", "title": "Rest-to-rest cubic polynomial", "statement": "The cubic polynomial initialised with two positions starts and ends at these positions with zero velocity, is monotone in between, never leaves the interval between them, and its velocity and acceleration are the derivatives of its position.", "quantifier": "all end positions, all t in [0,1]", "why_tests_cant": "continuum", "anchors": ["core/include/rigid_body/cubic_polynomial.h: CubicPolynomial1D::initialize(a,b), getPosition, getVelocity, getAcceleration"]}
{"id": "C25", "title": "Cubic polynomial with velocity boundary conditions", "statement": "The cubic polynomial initialised with start/end positions and velocities attains them.", "quantifier": "all boundary conditions", "why_tests_cant": "continuum; (found to be violated)", "anchors": ["core/include/rigid_body/cubic_polynomial.h: CubicPolynomial1D::initialize(a,adot,b,bdot)"]}
{"id": "C26", "title": "Foot trajectory connects the end states and clears the ground", "statement": "The swing foot trajectory starts at the initial and ends at the final position, reaches the step height exactly half-way, is continuous, and never goes below the lower of the end heights; reported velocities are derivatives of reported positions.", "quantifier": "all end states, heights and t in [0,1]", "why_tests_cant": "continuum", "anchors": ["core/include/walking/foot_trajectory.h: FootTrajectory"]}
{"id": "C27", "title": "Triple integrator: all control parametrisations describe the same dynamics", "statement": "For acceleration, velocity and position control, the discrete matrices equal the jerk-controlled ones under the jerk given by the output matrices (x+ = A x + B u with u the commanded value, jerk = D x + E u), and the commanded quantity is attained at the end of the interval.", "quantifier": "all states, controls and nonzero sampling times", "why_tests_cant": "continuum, algebraic identities", "anchors": ["core/include/rigid_body/triple_integrator.h: TripleIntegrator"]}
{"id": "C28", "title": "Triple integrator: subsampling is exact", "statement": "Evaluating the model at a subsample and continuing for the rest of the interval with the same jerk equals evaluating over the whole interval; subsampling at the full interval gives the sampled model; position, velocity and acceleration are successive derivatives.", "quantifier": "all states, controls, sampling and subsampling times", "why_tests_cant": "continuum", "anchors": ["core/include/rigid_body/triple_integrator.h: getAsAcc, getBsAcc, ..."]}
{"id": "C29", "title": "Linear inverted pendulum: commanded CoP is reached and matches the dynamics", "statement": "With the piecewise linear CoP model, the CoP computed from the predicted state at the end of the interval equals the commanded CoP; at any subsample the CoP is the linear interpolation; the predicted motion satisfies acceleration = omega^2 (position - CoP).", "quantifier": "all states, controls, omega > 0, T > 0, 0 <= Ts <= T", "why_tests_cant": "continuum", "anchors": ["core/include/walking/point_mass_model_6z.h: getA3, getB3, getDdz3, evaluate"]}
{"id": "C30", "title": "CoM state conversions round trip", "statement": "Converting a 3d CoM state to the 6d model state and back preserves the horizontal position, velocity and acceleration and sets the height as requested.", "quantifier": "all states", "why_tests_cant": "continuum", "anchors": ["core/include/walking/point_mass_model_6z.h: convertCoMState"]}
{"id": "C31", "title": "Euler angle matrices are rotations", "statement": "The matrix obtained from Euler angles of each supported convention is orthogonal with determinant +1, and an unsupported convention is rejected.", "quantifier": "all angle triples and conventions", "why_tests_cant": "continuum", "anchors": ["core/include/rigid_body/rotary_state.h: convertEulerAnglesToMatrix"]}
{"id": "C32", "title": "Euler rates map to the angular velocity of the rotation matrix", "statement": "The matrix returned by getEulerRatesToAngularVelocityTransform maps Euler angle rates to the vector w such that dR/dt = skew(w) R along every smooth angle trajectory.", "quantifier": "all angle trajectories", "why_tests_cant": "statement about derivatives", "anchors": ["core/include/rigid_body/rotary_state.h: getEulerRatesToAngularVelocityTransform"]}
{"id": "C33", "title": "Rodrigues integration stays on the rotation group", "statement": "Integrating an angular velocity with the Rodrigues formula keeps an orthogonal matrix orthogonal with the same determinant, for any velocity and time step (also below the tolerance), and integrating along a fixed axis is additive in time.", "quantifier": "all rotation matrices, angular velocities and time steps", "why_tests_cant": "continuum; drift accumulates over arbitrarily many steps", "anchors": ["core/include/rigid_body/rotary_state.h: integrateAngularVelocityRodrigues"]}
{"id": "C34", "title": "Angle-axis rotation error", "statement": "The angle-axis rotation error of a reference obtained by rotating the current orientation about a unit axis by an angle equals sin(angle) times the axis; it is zero for identical orientations.", "quantifier": "all orientations, axes and angles", "why_tests_cant": "continuum", "anchors": ["core/include/rigid_body/rotary_state.h: getRotationErrorAngleAxis"]}
{"id": "C35", "title": "Foot/ADS position conversions are inverse to each other", "statement": "Computing the foot position from the average double support position and back is the identity, for both feet and any orientation; the left and right parameters are mirror images; bounds stay ordered; an undefined foot is rejected.", "quantifier": "all foot parameters, orientations and positions", "why_tests_cant": "continuum", "anchors": ["core/include/walking/robot_foot_parameters.h: RobotFootParameters::finalize, getFootPositionFromADS, getADSPositionFromFoot, getFootPositionBounds"]}
{"id": "C36", "title": "Left/right containers", "statement": "invert is an involution without fixed points and rejects undefined; writing one side of a left/right container never changes the other one and is what a later read of this side returns.", "quantifier": "all operation sequences", "why_tests_cant": "history property", "anchors": ["core/include/humoto/leftright.h: LeftOrRight::invert, LeftRightContainer"]}
{"id": "C37", "title": "Condensing equals simulation", "statement": "For the condensed matrices S and U of a time varying linear system, S x0 + U u equals the stacked states produced by simulating x(k+1) = A_k x(k) + B_k u(k).", "quantifier": "all horizon lengths, all system matrices, initial states and controls", "why_tests_cant": "unbounded horizon", "anchors": ["core/include/humoto/control_problem.h: MPC::condense, condenseTimeInvariant"]}
{"id": "C38", "title": "Condensed outputs equal simulated outputs", "statement": "For the condensed output matrices Ox and Ou, Ox x0 + Ou u equals the stacked outputs y(k) = D_k x(k) + E_k u(k) of the simulated system.", "quantifier": "all horizon lengths, matrices, states and controls; each overload", "why_tests_cant": "unbounded horizon", "anchors": ["core/include/humoto/control_problem.h: MPC::condenseOutput"]}
{"id": "C39", "title": "Block matrix products agree with dense products", "statement": "Products of (diagonal, left lower triangular, generic) block matrices with dense matrices equal the dense products of the represented matrices.", "quantifier": "all block sizes, block counts and contents", "why_tests_cant": "unbounded sizes", "anchors": ["core/include/eigentools/blockmatrix_base.h: multiplyRight, multiplyLeft"]}
{"id": "C40", "title": "Block Kronecker products agree with their definition", "statement": "Evaluating and multiplying a block Kronecker product gives the same result as with the dense matrix whose (i,j) block is kron(block_ij, I).", "quantifier": "all block sizes, counts, identity sizes and contents", "why_tests_cant": "unbounded sizes", "anchors": ["core/include/eigentools/blockmatrix_kronecker.h: evaluate, multiplyRight, multiplyLeft"]}
{"id": "C41", "title": "Row and column removal", "statement": "removeRow/removeColumn remove exactly the requested row/column, keep all others in order, and reject indices out of range.", "quantifier": "all matrices and indices", "why_tests_cant": "boundary indices on all shapes", "anchors": ["core/include/eigentools/eigentools.h: removeRow, removeColumn"]}
{"id": "C42", "title": "Matrix concatenation", "statement": "Concatenating matrices stacks the rows (columns) of all nonempty inputs in order; empty inputs do not influence the result.", "quantifier": "all lists of matrices", "why_tests_cant": "arbitrary lists and positions of empty matrices", "anchors": ["core/include/eigentools/eigentools.h: concatenateMatricesVertically, concatenateMatricesHorizontally"]}
{"id": "C43", "title": "Gram matrices", "statement": "getATA/addATA produce A'A (added to the given block) in the lower triangle, and convertLLTtoSymmetric mirrors it, so that the result is symmetric and equal to A'A.", "quantifier": "all matrices and offsets", "why_tests_cant": "unbounded sizes", "anchors": ["core/include/eigentools/eigentools.h: getATA, addATA, convertLLTtoSymmetric"]}
{"id": "C44", "title": "Row selection", "statement": "selectRows(M, step, first) and the selection matrix operator return rows first, first+step, ... of M and nothing else.", "quantifier": "all matrices, steps and offsets", "why_tests_cant": "unbounded sizes", "anchors": ["core/include/eigentools/eigentools.h: selectRows, SelectionMatrix"]}
{"id": "C45", "title": "Cross product matrices", "statement": "The matrix form of the cross product is antisymmetric, annihilates its vector, and multiplying by it equals taking the cross product column by column (from the left and from the right).", "quantifier": "all vectors and matrices", "why_tests_cant": "continuum", "anchors": ["core/include/eigentools/cross_product.h: CrossProductMatrix"]}
{"id": "C46", "title": "Translation spatial transforms", "statement": "Applying a pure translation spatial transform leaves angular parts unchanged, composition adds translations, and the opposite translation is the inverse.", "quantifier": "all translations and spatial vectors", "why_tests_cant": "continuum", "anchors": ["bridges/rbdl/interface/rbdl/spatial_transform.h: SpatialTransformWithoutRotation"]}
{"id": "C47", "title": "Threaded logger loses nothing that was logged before shutdown", "statement": "For every interleaving of producers, the logging thread and the shutdown request, messages are written in the order of their insertion, each at most once, and every message inserted before the shutdown request has been written when the destructor (or reinitialisation) returns.", "quantifier": "all schedules, all numbers of producers and messages", "why_tests_cant": "schedules cannot be enumerated by tests", "anchors": ["core/include/humoto/logger.h: Logger::pushMessage, processQueue, interrupt"]}
{"id": "C48", "title": "Logger file handling", "statement": "A logger can be (re)initialised with a file; later messages go to the newly given file.", "quantifier": "all sequences of initialisations", "why_tests_cant": "history property (found to be violated)", "anchors": ["core/include/humoto/logger.h: LoggerBase::initialize, clean"]}
{"id": "C49", "title": "Log entry names are unambiguous", "statement": "Entry names built from sequences of nonempty sub-names without '.', '{', '}' and of indices are equal only if the sequences are equal.", "quantifier": "all sequences of sub-names and indices", "why_tests_cant": "unbounded sequences", "anchors": ["core/include/humoto/logger.h: OctaveFormatter::appendEntryName, LogEntryName::add"]}
{"id": "C50", "title": "Configuration round trip", "statement": "Writing the configuration of an object and reading it back into any object of the same class restores all scalar, enum, vector and nested entries; in strict mode a missing entry is an error, in relaxed mode missing entries have their default values.", "quantifier": "all configurable classes (entry lists), all values, all previous states of the target", "why_tests_cant": "unbounded entry trees and values", "anchors": ["core/include/config.h: readNestedConfig, writeNestedConfig", "core/include/config/define_accessors.h", "bridges/config_yaml/interface/config_yaml/{reader,writer}.h"]}
{"id": "C51", "title": "Configuration matrices round trip", "statement": "A matrix written to a configuration file is read back unchanged.", "quantifier": "all matrices", "why_tests_cant": "continuum (found to be violated for non-symmetric matrices)", "anchors": ["bridges/config_yaml/interface/config_yaml/writer.h: writeCompound(matrix)", "bridges/config_yaml/interface/config_yaml/reader.h: readCompound(matrix)", "bridges/config_msgpack/interface/config_msgpack/{reader,writer}.h"]}
{"id": "C52", "title": "Announced number of map entries matches the written entries", "statement": "In the binary format every map announces exactly the number of entries that are written into it, for every nesting of parent and member classes, so that the stream can be decoded.", "quantifier": "all configurable classes", "why_tests_cant": "all nestings", "anchors": ["core/include/config/define_accessors.h: getNumberOfEntries", "bridges/config_msgpack/interface/config_msgpack/writer.h"]}
{"id": "C53", "title": "Reader position is restored", "statement": "After a successful read of a (nested) configuration the reader is at the position where it was before; after a failed one it is not.", "quantifier": "all trees and entry lists", "why_tests_cant": "error paths at every depth", "anchors": ["core/include/config.h: readNestedConfig", "bridges/config_yaml/interface/config_yaml/reader.h: descend, ascend"]}
{"id": "C54", "title": "MPC sampling parameters are consistent", "statement": "The walking MPCParameters are accepted exactly when the sampling times are multiples of the (nonzero) subsampling time, and the derived numbers of subsamples reconstruct them.", "quantifier": "all parameter values", "why_tests_cant": "all combinations", "anchors": ["modules/wpg04/include/wpg04/common.h: MPCParameters::finalize"]}
{"id": "C55", "title": "Walking preview horizon is completely filled", "statement": "A formed walking preview horizon has exactly N intervals, all of them initialised, each referring to an existing non-transitional walk state, and the variable step indices are strictly increasing interval indices at which the walk state changes.", "quantifier": "all stance machine states, durations and horizon lengths", "why_tests_cant": "arbitrary machine states", "anchors": ["modules/wpg04/include/wpg04/preview_horizon.h: PreviewHorizon::form"]}
{"id": "C56", "title": "Support position follows the stance", "statement": "After updateState the support position is that of the supporting foot in single support and the midpoint of the feet in double support, the stance foot never moves except as commanded, and malformed stance sequences are rejected.", "quantifier": "all sequences of state updates", "why_tests_cant": "history property", "anchors": ["modules/wpg04/include/wpg04/model.h: Model::updateState, determineSupportPosition"]}
{"id": "C57", "title": "Motion parameter queue shift conserves time", "statement": "Shifting the queue of motion parameters by t removes exactly t milliseconds from its front (or empties it), keeps the rest in order, and never touches an unlimited motion.", "quantifier": "all queues and shifts", "why_tests_cant": "arbitrary queues", "anchors": ["modules/pepper_mpc/include/pepper_mpc/mpc_mg.h: MPCforMG::shift"]}
{"id": "C58", "title": "Pepper preview horizon covers the motions", "statement": "The preview horizon is formed exactly when the queued motions last at least N sampling periods (or include an unlimited one), and interval i uses the motion that is active at the end of interval i; the single-motion and queue versions agree.", "quantifier": "all queues, N and sampling times", "why_tests_cant": "arbitrary queues", "anchors": ["modules/pepper_mpc/include/pepper_mpc/preview_horizon.h: PreviewHorizon::form"]}
{"id": "C59", "title": "Time instant lookup in the preview horizon", "statement": "The interval index and offset found for a time instant reconstruct this instant, the offset is within the interval, and an instant outside of the horizon is rejected.", "quantifier": "all interval durations and instants", "why_tests_cant": "boundaries of arbitrary horizons", "anchors": ["modules/pepper_mpc/include/pepper_mpc/preview_horizon.h: getIntervalIndexByTimeOffset", "modules/wpg04/include/wpg04/mpc_wpg.h: MPCforWPG::getCoMState"]}
{"id": "C60", "title": "Predicted model state at a time instant", "statement": "The model state returned for a time instant inside interval i is obtained from the state at the beginning of interval i with the control of interval i.", "quantifier": "all horizons and instants", "why_tests_cant": "needs instants beyond the first interval (found to be violated)", "anchors": ["modules/pepper_mpc/include/pepper_mpc/mpc_mg.h: MPCforMG::getModelState"]}
{"id": "C61", "title": "Solution guess is the shifted previous solution", "statement": "The guess for the next MPC iteration is the previous solution shifted by one interval with zeros appended, for every part whose size did not change.", "quantifier": "all previous solutions", "why_tests_cant": "all sizes", "anchors": ["modules/pepper_mpc/include/pepper_mpc/mpc_mg.h: MPCforMG::guessSolution", "modules/wpg04/include/wpg04/mpc_wpg.h: MPCforWPG::guessSolution"]}
{"id": "C62", "title": "Forming a level does not depend on earlier formations", "statement": "Forming a level succeeds exactly when its tasks produce consistent constraints (at least one in total), irrespective of what was formed before; in particular switching active set guessing off after it was used does not make forming fail.", "quantifier": "all histories of pushing, forming and distributing active sets", "why_tests_cant": "history property (found to be violated when guessing is disabled)", "anchors": ["core/include/humoto/task.h: TaskBase::postForm, guessActiveSet", "core/include/humoto/hierarchy_level.h: HierarchyLevel::form"]}
{"id": "C63", "title": "The predefined infeasible task has no feasible point", "statement": "After any history of formations, the constraints of the infeasible task formed for a structure with at least one variable exclude every point.", "quantifier": "all histories of formations, all structures, all points", "why_tests_cant": "history and all points", "anchors": ["core/include/humoto/task_generic.h: TaskInfeasibleInequality"]}
{"id": "C64", "title": "Block diagonal assembly", "statement": "makeBlockDiagonal(M, n) and makeBlockDiagonal(list) place the given blocks along the diagonal in order and zeros elsewhere; applied to a stacked vector each block acts on its own segment only.", "quantifier": "all matrices, counts and lists of matrices (also rectangular and empty ones)", "why_tests_cant": "unbounded sizes and lists", "anchors": ["core/include/eigentools/eigentools.h: makeBlockDiagonal"]}
{"id": "C65", "title": "Forming a walking preview horizon never fails", "statement": "Given any state of the stance machine that is reachable from accepted parameters, forming the preview horizon terminates, and either forms the horizon or returns false (because the walk is over); it does not throw.", "quantifier": "all stance parameters, histories of the stance machine, horizon lengths and sampling times", "why_tests_cant": "history property over arbitrary durations (found to be violated at the end of the walk and off the sampling grid)", "anchors": ["modules/wpg04/include/wpg04/preview_horizon.h: PreviewHorizon::form, previewStates", "core/include/walking/stance_finite_state_machine.h: previewStances"]}
{"id": "C66", "title": "Headings and bounds of the previewed supports", "statement": "In a formed horizon every new single support is turned by exactly one heading increment with respect to the previous one, a double support after a single support keeps its heading, the first support has the heading of the foot on the ground (the mean of both feet in double support), and the bounds on the next foot position and on the CoP are those of the transition (left/right, from double support or from single support).", "quantifier": "all stance machine states, foot headings and heading increments", "why_tests_cant": "arbitrary step sequences", "anchors": ["modules/wpg04/include/wpg04/preview_horizon.h: previewStates, getConstraints"]}
{"id": "C67", "title": "One rotation per variable step", "statement": "For a formed horizon the number of the rotations used for the foot positions equals the number of the variable steps, and step j is expressed in the frame of the support preceding it.", "quantifier": "all stance machine states and parameters for which the horizon is formed", "why_tests_cant": "arbitrary step sequences (found to be violated off the sampling grid)", "anchors": ["modules/wpg04/include/wpg04/mpc_wpg.h: formRotationMatrices"]}
{"id": "C68", "title": "Planned footsteps are realised", "statement": "When a single support ends, the swing foot of the model is put exactly to the planned position and heading at the height of the other foot, the other foot does not move, and the support position becomes the planned one; at all other control steps no foot of the model moves, and the states of the feet of the model never become undefined.", "quantifier": "all walks, control steps, plans and foot states", "why_tests_cant": "history property of the closed loop (found to be violated when a control step jumps over the beginning of the double support)", "anchors": ["modules/wpg04/include/wpg04/mpc_wpg.h: getNextModelState, getFootLandingState", "modules/wpg04/include/wpg04/model.h: Model::updateState", "core/include/walking/stance_finite_state_machine.h: shiftTime, is_tds_started_"]}
{"id": "C69", "title": "Predicted motion of the two masses of Pepper", "statement": "For every preview horizon and every solution vector of the right size, the computed profile of states is the motion of the two point masses from the current model state under the commands of the solution: in every interval the base moves with one constant jerk, which is the one in the jerk profile, to the commanded velocity, the body moves with the commanded jerk; the profile of the CoP is the CoP of these states with the masses and heights of the intervals; the matrices used by the tasks express the accelerations and positions of the base and its position relative to the body in the frame of the base. Solution vectors of other sizes are rejected.", "quantifier": "all horizons (any length, any interval durations), model states and solution vectors", "why_tests_cant": "horizon length and values are unbounded; errors in the stacking only appear for specific rows", "anchors": ["modules/pepper_mpc/include/pepper_mpc/mpc_mg.h: MPCforMG::updateMatrices, parseSolution", "modules/pepper_mpc/include/pepper_mpc/two_point_mass_model.h"]}
{"id": "C70", "title": "Constructors of the Pepper model state", "statement": "A model state constructed from masses, positions, heights or offsets has the base and the body where the arguments say; updating a state replaces the masses, the positions and the yaw and keeps the velocities, accelerations, roll and pitch.", "quantifier": "all arguments", "why_tests_cant": "a swap of arguments of the same type is not noticed by tests with default values (found to be violated)", "anchors": ["modules/pepper_mpc/include/pepper_mpc/model_state.h: ModelState constructors, setParameters, set"]}
{"id": "C71", "title": "Next model state of Pepper", "statement": "The next model state is the first state of the predicted profile with the heights and the heading of the first interval and the masses of the model; its CoP is the first CoP of the profile.", "quantifier": "all horizons, model states and solutions", "why_tests_cant": "needs arbitrary masses and solutions (found to be violated for masses other than the default ones)", "anchors": ["modules/pepper_mpc/include/pepper_mpc/mpc_mg.h: initializeNextModelState, getNextModelState", "modules/pepper_mpc/include/pepper_mpc/model.h: getNextState"]}
{"id": "C72", "title": "CoP of a Pepper model state", "statement": "The CoP of a model state, relative to the base, is the point where the moments of gravity and inertia of both masses balance.", "quantifier": "all states with nonzero total mass", "why_tests_cant": "real-valued inputs", "anchors": ["modules/pepper_mpc/include/pepper_mpc/model.h: Model::getCoP", "modules/pepper_mpc/include/pepper_mpc/two_point_mass_model.h: getDps3, getDpd3"]}
{"id": "C73", "title": "Predicted motion, footsteps and CoP of a walk", "statement": "For every formed preview horizon of a walk and every solution vector of the right size: the profile of the footsteps is the current support displaced by the steps of the solution, one after the other, each in its frame; the CoP of each interval is the CoP variable of the solution, in the frame of the interval, relative to the support at that time (a step counts from the interval at whose beginning it is made); the profile of the states is the motion of the point mass model from the current state with these CoPs; the profile of the CoP rates is their rate of change.", "quantifier": "all horizons (any length, durations, heights), step sequences, rotations, model states and solution vectors, also without variable steps", "why_tests_cant": "horizon length, step sequences and values are unbounded; stacking errors only show in specific rows", "anchors": ["modules/wpg04/include/wpg04/mpc_wpg.h: MPCforWPG::update, formFootPosMatrices, parseSolution"]}
{"id": "C74", "title": "Predicted state of the CoM of a walk at a time instant", "statement": "The CoM state at a time instant within the preview horizon is the state of the predicted motion at that time, with the CoP of the interval which contains it; it starts at the current state, is continuous at the ends of intervals, and the next model state is the state at the subsampling time. Instants behind the horizon are rejected.", "quantifier": "all horizons, solutions and time instants", "why_tests_cant": "arbitrary durations and instants, boundary cases", "anchors": ["modules/wpg04/include/wpg04/mpc_wpg.h: getCoMState, initializeNextModelState"]}
{"id": "C75", "title": "Violations and active sets of a hierarchy are copied and reset entry by entry", "statement": "Copying violations into a segment of a larger object and extracting this segment returns the copied violations and bound differences; other entries are untouched; segments which do not fit or differ in length are rejected; setZero resets all entries or exactly the segment; initialisation from a segment does not depend on the previous contents or on memory contents; the active set of a hierarchy gets one set of the requested size for each level (a too short vector of sizes is undefined behaviour) and setting a level changes this level only.", "quantifier": "all violation objects, locations, memory contents, hierarchies and activation types", "why_tests_cant": "ranges over arbitrary sizes, offsets and contents of uninitialised memory", "anchors": ["core/include/humoto/violations.h: ViolationsConstraints::copyTo, copyFrom, setZero, initialize", "core/include/humoto/active_set.h: ActiveSet::initialize, set"]}
{"id": "C76", "title": "Bounds in the Pepper MPC hold exactly when the predicted motion respects them", "statement": "For every formed preview horizon, model state and vector of variables, forming the tasks bounding the base velocity, base acceleration, CoP position and body position succeeds and gives a consistent constraint object with two rows for each interval; the vector satisfies the constraints if and only if the corresponding quantity predicted by the MPC with this vector is within the bounds of each interval along both axes (for the body: the position of the base relative to the body in the frame of the base).", "quantifier": "All horizons, model states, solution vectors, contents of resized vectors.", "why_tests_cant": "The rows combine condensed matrices, offsets and selections of variables; a wrong sign, row or bound is visible only for particular motions.", "anchors": ["modules/pepper_mpc/include/pepper_mpc/task_baseaccelerationbounds.h: form", "modules/pepper_mpc/include/pepper_mpc/task_basevelocitybounds.h: form", "modules/pepper_mpc/include/pepper_mpc/task_coppositionbounds.h: form", "modules/pepper_mpc/include/pepper_mpc/task_bodypositionbounds.h: form"]}
{"id": "C77", "title": "Objectives of the Pepper MPC are the weighted deviations of the predicted motion", "statement": "For every formed preview horizon, model state and vector of variables, the residuals of the objectives of the Pepper MPC are the gain times: the CoP position (centering), the base jerk and the body jerk (minimization), the difference of the base position or velocity and its reference; and for the position of the body, the offset of the base from the body, so that the objective is fulfilled when they are aligned.", "quantifier": "All horizons, model states, solution vectors and gains.", "why_tests_cant": "A wrong sign of the constant part changes the optimum without any visible failure.", "anchors": ["modules/pepper_mpc/include/pepper_mpc/task_copcentering.h: form", "modules/pepper_mpc/include/pepper_mpc/task_basejerkminimization.h: form", "modules/pepper_mpc/include/pepper_mpc/task_bodyjerkminimization.h", "modules/pepper_mpc/include/pepper_mpc/task_basepositionref.h: form", "modules/pepper_mpc/include/pepper_mpc/task_basevelocityref.h: form", "modules/pepper_mpc/include/pepper_mpc/task_bodypositionref.h: form"]}
{"id": "C78", "title": "Guessed active sets of the bounds tasks are the previous ones moved by one interval", "statement": "After a problem has been solved, the active set guessed for a bounds task of the next one has the number of constraints of the task (so that it is accepted) and gives each interval the status its successor had, and INACTIVE to the last interval; without a previous active set, or when the horizon is not shifted by whole intervals, all constraints are guessed to be inactive. For footsteps, the statuses of the remaining steps are kept when steps are executed or appear, and fixed footsteps are equalities.", "quantifier": "All active sets, horizon lengths, numbers of variable steps.", "why_tests_cant": "A wrong guess is only a performance loss or an assertion in some cycle, when the number of steps happens to change.", "anchors": ["modules/pepper_mpc/include/pepper_mpc/task_baseaccelerationbounds.h: guessActiveSet", "modules/wpg04/include/wpg04/task_copbounds.h: guessActiveSet", "modules/wpg04/include/wpg04/task_footstepbounds.h: guessActiveSet"]}
{"id": "C79", "title": "Bounds derived from a radius keep the motion in the circle", "statement": "A vector whose components respect the bounds computed from a radius (or a maximal velocity or acceleration) is not longer than the radius; the bounds are the largest symmetric ones with this property, and they are non-empty if and only if the radius is not negative.", "quantifier": "All radii and vectors.", "why_tests_cant": "Continuum of vectors, including the corners.", "anchors": ["core/include/humoto/utility.h: getEncircledSquareSide", "modules/pepper_mpc/include/pepper_mpc/common.h"]}
{"id": "C80", "title": "Objectives of the walking MPC are the weighted deviations of the predicted motion", "statement": "For every formed preview horizon, initial state and vector of variables, forming the objectives of the walking MPC gives consistent constraint objects, and their residuals are the gain times: the difference of the predicted CoM velocity at the end of each interval and its reference, the rate of the CoP in each interval, the position of the CoP relative to the support, and, for the terminal objective, the velocity of the capture point at the end of the horizon.", "quantifier": "All horizons, numbers of steps, initial states, solution vectors, gains, references, contents of resized vectors.", "why_tests_cant": "The rows are selected from condensed matrices with strides and offsets; a wrong row or sign changes the optimum without a visible failure.", "anchors": ["modules/wpg04/include/wpg04/task_comvelocity.h: form", "modules/wpg04/include/wpg04/task_copvelocity.h: form", "modules/wpg04/include/wpg04/task_copposition.h", "modules/wpg04/include/wpg04/task_terminalconstraint.h: form"]}
{"id": "C81", "title": "Bounds of the walking MPC hold exactly when the CoP and the footsteps respect them", "statement": "For every preview horizon and vector of variables, the constraints of the CoP bounds hold if and only if the CoP of each interval, relative to its support, is within the bounds of the walk state of the interval; the constraints of the footstep bounds hold if and only if the displacement of each predicted footprint from the preceding one, in the frame of the latter, is within the bounds of the walk state of its interval; if the footsteps are fixed, if and only if each step is the front bound of the state and, laterally, the upper bound in a right support and the lower bound otherwise, and such steps are within the bounds.", "quantifier": "All horizons, numbers of steps, walk states and bounds, solution vectors, previous contents of the index vectors.", "why_tests_cant": "Indices of steps, intervals, states and variables are nested; a mix-up shows only on particular walks.", "anchors": ["modules/wpg04/include/wpg04/task_copbounds.h: form", "modules/wpg04/include/wpg04/task_footstepbounds.h: form", "modules/wpg04/include/wpg04/preview_horizon.h: getCoPBounds, getFootPositionBounds, getWalkState"]}
{"id": "C82", "title": "A whole hierarchy keeps levels apart", "statement": "OptimizationProblem: after reset(n) and pushTask(task, level) every level has exactly the tasks pushed to it, and a push to a missing level is refused. form() succeeds, after any history of resets, pushes, forms and distributed active sets, exactly if there is at least one level and every level can be formed, and throws otherwise. It forms every level from its own tasks; the active sets then have one entry for each constraint of each level. The guess returned by form() has the guess of every task of every level at its place. processActiveSet() gives every task its part and refuses an active set with a wrong number of levels or with a too short level. An active set given to processActiveSet() is the guess returned by the next form() if the tasks are unmodified.", "quantifier": "all numbers of levels, tasks, levels of the tasks, histories, behaviours of the form() functions of tasks, active sets", "why_tests_cant": "the number of levels, tasks and the history of calls are unbounded; tests use a couple of fixed hierarchies", "anchors": ["core/include/humoto/hierarchy.h OptimizationProblem::formHierarchy", "core/include/humoto/hierarchy.h OptimizationProblem::guessActiveSet", "core/include/humoto/hierarchy.h OptimizationProblem::processActiveSet", "core/include/humoto/hierarchy.h OptimizationProblem::reset", "core/include/humoto/hierarchy.h OptimizationProblem::pushTask", "core/include/humoto/hierarchy.h OptimizationProblem::initializeActiveSet"]}
{"id": "C83", "title": "Evaluation of a solution by a whole hierarchy", "statement": "After form(), determineActiveSet(active_set, solution) and computeViolations(violations, solution) succeed for any solution of the right size; the status of every row of every task of every level says how the row is related to its bounds (equality; on or beyond the lower bound; on or beyond the upper bound; strictly inside; inconsistent bounds), also as stored in the task after processActiveSet(). The violation of every row is zero exactly if the row is satisfied, negative exactly if its lower bound is violated, and its magnitude is the distance to the violated bound. All violations are zero exactly if the solution satisfies the constraints of all tasks.", "quantifier": "all hierarchies, tasks of all classes of constraints, solutions, previous contents of memory", "why_tests_cant": "the claim is about all rows of all tasks at all points, and about uninitialised memory", "anchors": ["core/include/humoto/hierarchy.h OptimizationProblem::determineActiveSet", "core/include/humoto/hierarchy.h OptimizationProblem::computeViolations", "core/include/humoto/hierarchy_level.h HierarchyLevel::determineActiveSet", "core/include/humoto/hierarchy_level.h HierarchyLevel::computeViolations", "core/include/humoto/violations.h Violations::initialize", "core/include/humoto/constraints_mixins.h"]}
{"id": "C84", "title": "The active set of qpOASES in terms of tasks", "statement": "With a hierarchy of constraints and an objective, after initialize() of the qpOASES solver: getActiveSet() gives every row of every task of the constraints level the status which the working set of the library has for it (general constraints: its own entry; simple bounds: the bound of the variable is reported active at every row whose bound is the tightest one, and only there) and equality to every row of the objective. If the working set tells the truth about the solution, the active sets stored in the tasks tell the truth: a row reported at a bound has this bound and is on it. No active bound of a bounded variable is lost. setActiveSet() gives the library the statuses of the general constraints and, for every variable, the last status which is not inactive; an undefined status is refused. A reported active set used as a guess gives back the working set. With one level and a new solver all rows are reported as equalities.", "quantifier": "all hierarchies of two levels (or one), classes of constraints without gains on the first level, working sets, active sets, states of the solver object", "why_tests_cant": "the mapping between rows of tasks, rows of the QP and variables depends on numbers, kinds and order of tasks and on multiple bounds of one variable", "anchors": ["bridges/qpOASES/interface/qpoases/solver.h Solver::initialize", "bridges/qpOASES/interface/qpoases/solver.h Solver::getActiveSet", "bridges/qpOASES/interface/qpoases/solver.h Solver::setActiveSet", "core/include/humoto/qp_problem.h QPConstraints_ILU_ALU"]}
{"id": "C85", "title": "QP libraries get the problem of the hierarchy", "statement": "For a hierarchy of constraints and an objective: a point which minimises the QP given to qpOASES, to QuadProg++ or to qpmad (according to the conventions of these libraries: storage order, signs, transposition, triangle of the Hessian, null pointers and empty vectors) satisfies the constraints of the first level and minimises the sum of squared residuals of the second level, plus the regularization factor times the squared norm of the solution, among all points satisfying the constraints (for qpOASES and qpmad: among those whose entries and unbounded rows are below 1e20); and such a point is a minimum of the given QP. With one level and a new solver the QP is the unconstrained minimisation of the level. A negative regularization factor is refused.", "quantifier": "all hierarchies of two levels (or one), classes of constraints, points, regularization factors, previous contents of the QP objects", "why_tests_cant": "minimality quantifies over all points; tests compare solutions of a few problems", "anchors": ["bridges/qpOASES/interface/qpoases/solver.h Solver::solveHierarchy", "bridges/QuadProgpp/interface/quadprogpp/solver.h Solver", "bridges/qpmad/interface/qpmad/solver.h Solver", "core/include/humoto/qp_problem.h QPObjective::regularize", "core/include/humoto/hierarchy.h OptimizationProblem::getQPProblem"]}
{"id": "C86", "title": "Jacobians of tags are derivatives of their poses (RBDL bridge)", "statement": "For every tree of bodies with joints of one or three degrees of freedom or custom joints, every motion of it, and every link (also links fixed to others) and point of a link: after load() and update() the position and the orientation of the tag are those of the point in the world; the translational Jacobian times the velocities of joints is the derivative of the position, the rotational Jacobian gives the angular velocity, the complete Jacobian consists of both; the same for the centre of mass of the robot and of several bodies. The result does not depend on what was loaded and computed before.", "quantifier": "all trees of bodies, joints, motions, instants, links, points, sets of bodies, previous states of the object", "why_tests_cant": "a derivative along all motions for all trees; tests compare with finite differences for a few robots and configurations", "anchors": ["bridges/rbdl/interface/rbdl/model.h Model::getTagJacobian", "bridges/rbdl/interface/rbdl/model.h Model::getTagPosition", "bridges/rbdl/interface/rbdl/model.h Model::getTagOrientation", "bridges/rbdl/interface/rbdl/model.h Model::update", "bridges/rbdl/interface/rbdl/spatial_transform.h SpatialTransformWithoutRotation"]}
{"id": "C87", "title": "Centres of mass and names of links (RBDL bridge)", "statement": "getTagMass() and getTagPosition() give the sum of masses and the mean of the centres of mass, weighted with masses, of all bodies or of the bodies of the tag; for groups of links which together are all the bodies, the centre of mass of the robot is the weighted mean of those of the groups. Tags depend only on the structure of the robot. A name which does not exist is refused, and masses can be asked for every link.", "quantifier": "all trees of bodies, configurations, sets of names, groupings", "why_tests_cant": "quantifies over all robots, groupings and names; an access out of range is not always seen by a test", "anchors": ["bridges/rbdl/interface/rbdl/model.h Model::getCoMTag", "bridges/rbdl/interface/rbdl/model.h Model::getLinkCoMTag", "bridges/rbdl/interface/rbdl/model.h Model::getTagMass", "bridges/rbdl/interface/rbdl/model.h Model::getTagPosition", "bridges/rbdl/interface/rbdl/model.h Model::load"]}
{"id": "C88", "title": "Inverse kinematics of Pepper keeps the joints within their limits", "statement": "For each of the three models of Pepper, every robot with its links and every vector of velocities: the problem's task of bounds is satisfied if and only if all joint angles of the next configuration are within the limits of the joints (independently of the order of joints in the model), and such a configuration is accepted by the check of the state; the check accepts exactly the states whose angles exceed the limits by at most 1e-7. A loaded model is at rest, within the limits; after any number of iterations which satisfy the bounds the state is within the limits. The tasks which fix arms and head are satisfied if and only if these joints do not move; the reference task is satisfied if and only if each joint moves by the given fraction towards its reference. A file of another robot (another number of degrees of freedom) is refused.", "quantifier": "all models, robots, states, solutions, references, gains, numbers of iterations", "why_tests_cant": "ranges over all velocities and histories; the order of joints differs between models, and a test compares one model", "anchors": ["modules/pepper_ik/include/pepper_ik/task_jointsbounds.h TaskJointsBounds::form", "modules/pepper_ik/include/pepper_ik/model.h Model::checkCurrentState", "modules/pepper_ik/include/pepper_ik/model.h Model::loadParameters", "modules/pepper_ik/include/pepper_ik/whole_body_controller.h WholeBodyController::getNextGeneralizedCoordinates", "modules/pepper_ik/include/pepper_ik/model_description.h getJointPositionBounds", "modules/pepper_ik/include/pepper_ik/task_jointsref.h TaskJointsReference::form", "modules/pepper_ik/include/pepper_ik/task_fixarms.h TaskFixArms::form", "modules/pepper_ik/include/pepper_ik/task_fixhead.h TaskFixHead::form"]}
{"id": "C89", "title": "Columns of a Jacobian follow their joints between models of Pepper", "statement": "reorderJointsColumns() accepts every matrix with the number of columns of the first model; the column of each joint is found at the place of this joint in the second model; columns of the root are unset. There and back the columns of joints are restored.", "quantifier": "all pairs of models, matrices with any number of rows, joints", "why_tests_cant": "quantifies over all pairs of orders and matrices", "anchors": ["modules/pepper_ik/include/pepper_ik/model_description.h ModelDescriptionBase::reorderJointsColumns"]}
{"id": "C90", "title": "Tasks of the Pepper inverse kinematics drive what they are named after", "statement": "For every configuration of the robot, every motion through it, every gain and reference: the task of the centre of mass of the base (in the plane for a planar root), of the orientation of the base, of the centre of mass of the body (along the selected axes), of the orientation of a tag and of the pose of a tag is satisfied exactly when the velocity (linear, angular) of this quantity equals the gain times its error; its residual is this difference times the weight. A wrong selection of axes is refused; a tag whose pose is not set is held; a task follows the link it is named after, whatever happened before; the pose with 3 degrees of freedom (about x, about y, along z) leaves the others free.", "quantifier": "all robots, configurations, motions, gains, references, selections of axes, histories of a task", "why_tests_cant": "a derivative along all motions and all configurations; a stale tag shows only after a particular history", "anchors": ["modules/pepper_ik/include/pepper_ik/task_basecom.h", "modules/pepper_ik/include/pepper_ik/task_baseorient.h", "modules/pepper_ik/include/pepper_ik/task_bodycom.h", "modules/pepper_ik/include/pepper_ik/task_tagorient.h", "modules/pepper_ik/include/pepper_ik/task_tagpose.h", "modules/pepper_ik/include/pepper_ik/task_tagpose3dof.h", "modules/pepper_ik/include/pepper_ik/model.h Model::getStateError"]}
{"id": "C91", "title": "Velocities of tags are those requested (Pepper inverse kinematics)", "statement": "For every configuration, motion and velocity of a tag requested in its frame: the task of the angular velocity is satisfied exactly when the tag turns with this velocity, the task of the complete velocity exactly when it also moves with the requested linear velocity. The desired poses computed from velocities are those reached after one interval: a tag which only moves keeps its orientation and is displaced by the velocity times the interval, a tag which only turns keeps its position.", "quantifier": "all robots, configurations, motions, requested velocities", "why_tests_cant": "tests near the origin of the world or without rotation do not show the error", "anchors": ["modules/pepper_ik/include/pepper_ik/task_tagangularvel.h", "modules/pepper_ik/include/pepper_ik/task_tagcompletevel.h", "modules/pepper_ik/include/pepper_ik/whole_body_controller.h WholeBodyController::getTagVelocityInGlobal", "modules/pepper_ik/include/pepper_ik/whole_body_controller.h WholeBodyController::computeTagsDesiredPoseInGlobal"]}
{"id": "C92", "title": "Commands for Pepper bring it from the saved state to the current one within the limits", "statement": "getRobotCommand() needs a saved state; it succeeds exactly when joint positions, joint velocities and wheel velocities are within the limits; it contains the angles of the joints, the velocity of the base, and the speeds of wheels rolling without slip at this velocity, which determine the motion of the base. correct() moves the state with the command for the given time, for planar roots only. A command followed for its whole interval from the saved state gives the current state.", "quantifier": "all states reachable by load, update, save and correct, all configurations, intervals, commands", "why_tests_cant": "an iff over all pairs of states; the error in the yaw is of third order and invisible for small steps", "anchors": ["modules/pepper_ik/include/pepper_ik/model.h Model::getRobotCommand", "modules/pepper_ik/include/pepper_ik/model.h Model::saveCurrentState", "modules/pepper_ik/include/pepper_ik/model.h Model::correct", "modules/pepper_ik/include/pepper_ik/model_description.h getRootMotionToWheelsTransform"]}
{"id": "C93", "title": "Euler angles describe the rotation; set and get of the pose of the root agree", "statement": "For every rotation matrix the Euler angles computed from it give the same matrix back, and conversions between conventions preserve the rotation; positions and orientations of the root which are set are returned by get, as positions and rotations, joints are unchanged, and poses which a planar root cannot have are refused; poses of tags contain the position and the orientation of the tag. The yaw of an upright base is its angle of rotation, up to full turns.", "quantifier": "all rotations, angles, coordinates, links, points", "why_tests_cant": "equality over all rotations including the singular ones; the wrong half of the circle is easily missed", "anchors": ["core/include/rigid_body/rotary_state.h convertMatrixToEulerAngles", "core/include/rigid_body/rotary_state.h convertEulerAngles", "modules/pepper_ik/include/pepper_ik/generalized_coordinates.h GeneralizedCoordinates::setRootOrientation", "modules/pepper_ik/include/pepper_ik/model.h Model::getBaseYaw", "bridges/rbdl/interface/rbdl/model.h Model::getTagPose"]}
{"id": "C94", "title": "A hierarchy written to a configuration file is the hierarchy read from it", "statement": "Any sequence of reset() and pushTask() puts every task on its level and keeps the stored lists of class names and task ids in step with the hierarchy; a task for a level that does not exist is refused. A problem with at least one level is written with the announced number of entries, and reading the file, into whatever problem, restores the levels, the classes, the descriptions and the parameters of all tasks, in order. What is read from any file is what it says. A file with an unknown class name or with lists that do not match is refused, and the problem remains usable.", "quantifier": "all sequences of calls, hierarchies, tables of task classes, parameters, files, previous contents of the problem being read", "why_tests_cant": "a round trip over all hierarchies and files; clashes of descriptions and damage after refused files show only for particular ones", "anchors": ["core/include/humoto/configurable_optimization_problem.h ConfigurableOptimizationProblem", "modules/pepper_ik/include/pepper_ik/configurable_optimization_problem.h", "modules/pepper_mpc/include/pepper_mpc/configurable_optimization_problem.h", "modules/wpg04/include/wpg04/configurable_optimization_problem.h", "core/include/humoto/task.h TaskBase::getConfigSectionID"]}
{"id": "C95", "title": "An object read from a configuration file does not depend on what it was before", "statement": "For every configurable class of the library and its modules: an object that is written to a configuration file and read into any other object of its class makes them equal, including the members which are computed from the entries and are not in the file. If entries, or the whole section, are missing and this is tolerated, the others are those of a newly constructed object, whatever they were before.", "quantifier": "all configurable classes, values of their members, files with other sections, missing entries, previous contents of the object being read", "why_tests_cant": "needs every class, every pair of a stored and a previous object, and every set of missing entries; a test which reads into a new object cannot see a value that is left from before", "anchors": ["core/include/config.h ConfigurableBase, RelaxedConfigurableBase, StrictConfigurableBase", "core/include/config/define_accessors.h", "core/include/humoto/solver.h SolverParametersBase", "core/include/humoto/solution.h Solution", "modules/wpg04/include/wpg04/model_state.h ModelState", "modules/pepper_mpc/include/pepper_mpc/common.h RobotParameters", "modules/pepper_ik/include/pepper_ik/common.h WBCParameters", "core/include/rigid_body/rigid_body_state.h"]}
{"id": "C96", "title": "A block matrix always describes the division of its raw matrix", "statement": "After any sequence of calls the numbers and sizes of blocks reported by a block matrix multiply to the size of its raw matrix; a size of blocks or a matrix that does not divide is refused, and then nothing changes. The blocks (i, j) with indices below these numbers, and only those, can be accessed; each entry of the matrix is in exactly one of them; a write to a block, a row or a column of blocks changes the addressed blocks and no others. The selection of a row in blocks consists of this row of each block, and is divided as the matrix is.", "quantifier": "all template sizes of blocks (static or dynamic), matrices, sequences of calls with any arguments, refused calls included, indices", "why_tests_cant": "an invariant over all histories, sizes and indices; damage after a refused call and uninitialised members depend on the history and the garbage in memory", "anchors": ["core/include/eigentools/blockmatrix_base.h BlockMatrixAccessBase, BlockMatrixSizeSpecificBase", "core/include/eigentools/blockmatrix.h BlockMatrix::selectRowInBlocks", "core/include/eigentools/eigentools.h selectRows"]}
{"id": "C97", "title": "A solver object can be used again and again: each call is decided by its own arguments", "statement": "A hierarchy is accepted by the solver exactly if two levels are allowed, it has one or two levels and the last one consists of equalities; a refused call changes neither the solution nor the solver, except that given parameters stay in force. After any sequence of calls of solve() and setParameters(), failed calls included, the library is called with a new object, the parameters given last, the hierarchy of this call, and the guesses of the solution and of the active set of this call or none; the solution is what the library returned. The library is called if and only if the bounds on single variables have a common point within the infinity of the library and the guess of the active set of the first level leaves nothing undefined, whatever the other constraints are. An exception is thrown if and only if failures are fatal and the status is not success. At most one object of the library exists at a time, and none after the destruction of the solver.", "quantifier": "all sequences of calls and parameters, hierarchies, guesses, answers of the library, failures included", "why_tests_cant": "stale guesses, leaked or doubly freed objects and stale parameters depend on the history of calls, and reads out of buffers depend on the sizes of all arguments", "anchors": ["bridges/qpOASES/interface/qpoases/solver.h Solver::initialize, solveHierarchy, setSolutionGuess, setActiveSet, getActiveSet, reset", "core/include/humoto/solver.h Solver::solve, SolverGuessSolutionMixin, SolverGuessActiveSetMixin, SolverGetActiveSetMixin, QPSolverMixin::checkInputs"]}
{"id": "C98", "title": "The Pepper motion generator in a loop: iterations, motion, bounds over the whole run", "statement": "A loop of updateAndShift(), solution, getNextModelState() (or parseSolution() and getModelState() at a subsampling time) and Model::updateState() never fails for solutions of the structure given by the controller. It makes its n-th iteration exactly if some motion is unlimited or the motions cover the preview horizon after n - 1 shifts. Each iteration moves the base and the body with constant jerks for the time of the iteration; the heading is the initial one plus the angular velocities commanded at the ends of the first intervals times this time; heights stay. If the solution of an iteration satisfies the velocity, acceleration, body or CoP bounds formed in it, the new state respects them (the CoP from the second iteration on, or if the initial masses are the default ones). With a subsampling time Ts < T the acceleration stays within its bounds and the velocity exceeds its bounds at most by (T - Ts) times half of the range of accelerations, over any number of iterations. Calls in any order: a state is returned only if a solution was given since the last update, and getNextModelState(solution) only if none was parsed.", "quantifier": "all parameters, motions and queues, initial states, shifts, subsampling times, solutions, numbers of iterations; all sequences of calls", "why_tests_cant": "drift, accumulated overshoot and stale data appear after a number of iterations that depends on the motions, and bounds must hold in every state of every run", "anchors": ["modules/pepper_mpc/include/pepper_mpc/mpc_mg.h MPCforMG::update, updateAndShift, shift, parseSolution, getNextModelState, getModelState, setParameters", "modules/pepper_mpc/include/pepper_mpc/model.h Model::updateState, getCoP", "modules/pepper_mpc/tests/test_000.cpp main", "modules/pepper_mpc/tests/test_001_body.h"]}
{"id": "C99", "title": "The walking pattern generator in a loop: schedule, CoP, landings and final posture over the whole walk", "statement": "A loop of update(), solution, getNextModelState(), Model::updateState() and shiftTime() never fails if the durations of the stances fit the sampling grid and the solutions have the structure given by the controller. It makes its n-th iteration exactly if the preview horizon after n - 1 samples does not go beyond the end of the walk. The state machine is at time n T and the model is in its stance. The CoM moves as the CoP of the solution commands, at constant height; if the solutions satisfy the bounds on the CoP, the CoP is in the current support at the end of each iteration and moves towards this point on a straight line. Feet do not move except for landings; a foot lands in the end of each single support, turned by the increment of the heading and within the bounds of a step relative to the support foot, or, at the end of the walk, beside it. The landing is announced exactly by getFootLandingState(), and all planned steps of the horizon are within their bounds in the frame of the stance before them. The number of landings is the number of steps (one more if the walk starts in a single support), and at the end both feet have the heading of the first support foot plus one increment per following single support, side by side at the default distance. There are always solutions which satisfy the bounds. Calls in any order: a state is returned only if a solution was given since the last update, and getNextModelState(solution) only if none was parsed. The steps planned in one iteration are those of the iteration before it, one interval earlier.", "quantifier": "all parameters on the sampling grid, initial states, headings and increments, solutions, numbers of iterations; all sequences of calls", "why_tests_cant": "each walk is a long run through stances, previews, solutions and updates of the model; the claims hold in every state of every run, not only in a few tested walks", "anchors": ["modules/wpg04/include/wpg04/mpc_wpg.h MPCforWPG::update, parseSolution, getNextModelState, getFootLandingState, getCoMState", "modules/wpg04/include/wpg04/model.h Model::updateState", "modules/wpg04/include/wpg04/preview_horizon.h PreviewHorizon::form", "core/include/walking/stance_finite_state_machine.h StanceFiniteStateMachine::shiftTime", "modules/wpg04/tests/test_000.cpp main"]}
{"id": "C100", "title": "Inverse kinematics of Pepper in a loop: iterations, stopping, limits of joints, commands", "statement": "In each control interval the loop saves the state, repeats update(), a solution, getNextGeneralizedCoordinates() and updateState() until all components of the solution are below the tolerance, and then asks for a command. It fails if and only if none of the allowed iterations gives such a small step or the command is refused; otherwise it stops after the first small step, and the configuration is the initial one plus all steps. The bounds of joints hold in an iteration exactly if the next configuration is within the limits, and then the model accepts it. If the task of the reference configuration with coefficient k is satisfied, the error is multiplied by (1 - k) in each iteration; for 0 <= k <= 1 and a reference within the limits this task is compatible with the bounds; if nothing else moves and 0 < k < 2, the loop stops close to the reference, given enough iterations. When the loop stops, the errors of tasks on the CoM of the base, its orientation and the CoM of the body are at most the tolerance times the norm of a row of the jacobian. Over any number of intervals: commanded angles are those of the states and respect limits and speeds, the base moves by the sum of commanded velocities, the wheels roll accordingly. A command is available whenever the bounds hold in all iterations and the loop stops. For any sequence of calls a solution gives the next configuration at most once between updates.", "quantifier": "all kinematics of the robot, configurations, motion parameters, parameters of the controller, solutions in all iterations, numbers of iterations and intervals; all sequences of calls of the controller", "why_tests_cant": "a loop of unbounded length in which solutions are arbitrary; tests run one robot with one reference for 100 intervals and look at the printed result", "anchors": ["modules/pepper_ik/include/pepper_ik/whole_body_controller.h WholeBodyController::update, parseSolution, getNextGeneralizedCoordinates", "modules/pepper_ik/include/pepper_ik/common.h WBCParameters", "modules/pepper_ik/include/pepper_ik/model.h Model::saveCurrentState, updateState, getRobotCommand, checkCurrentState", "modules/pepper_ik/tests/test_001.cpp main"]}
{"id": "C101", "title": "The program which walks: controller, hierarchy of tasks and solver together, from the start to the end", "statement": "A program creates a stance machine, a model, a controller, the hierarchy of tasks (bounds of steps and of the CoP above; velocity of the CoM, velocity of the CoP and position of the CoP below), a solution and a solver over an external library, and repeats: update(), form() of the hierarchy, solve(), shiftTime(), getNextModelState(), updateState(), until the horizon cannot be formed. For every library: nothing is undefined, no assertion fails; the program makes exactly the number of iterations given by the durations of stances, or it throws since the library reported a failure and the solver was told to throw. Each posed problem has a minimum, so that with a library which finds minima the program never throws. The motion is one of those of C99. If the solver throws on failures and the library reports a success only for a point which satisfies the constraints, then the CoP is above the support all the time, each step is within the limits, headings turn by the increment, and the feet end side by side. If successes are minima, then in each iteration the solution satisfies the bounds of the whole horizon and the predicted motion minimises the weighted sum of squares of deviations of the velocity of the CoM from its reference, velocities of the CoP and distances of the CoP from the centre of the support, among all solutions which satisfy these bounds. If moreover the weights of the velocity of the CoP and of the position of the CoP are not zero, the walk does not depend on the library at all: with any two libraries, with other uninitialised memory and other parameters of the solver, all states and solutions are the same. The library is called once per iteration, and at most one object of it is alive.", "quantifier": "all stance parameters, initial states, MPC parameters, gains, parameters of the feet, reference velocities, parameters of the solver, libraries (any function from calls to answers in each iteration), contents of new memory, numbers of iterations", "why_tests_cant": "the tests run six walks with one library and compare logs; a failing library, other parameters and other answers cannot be sampled", "anchors": ["modules/wpg04/tests/regression_test_000_body.h HUMOTO_TEST_FIXTURE_NAME, run1", "modules/wpg04/tests/utilities.h setupHierarchy_v0, setupHierarchy_v1, setupHierarchy_v5", "modules/wpg04/include/wpg04/mpc_wpg.h MPCforWPG::update, getNextModelState", "core/include/humoto/hierarchy.h OptimizationProblem::form", "bridges/qpOASES/interface/qpoases/solver.h Solver::initialize, solve", "core/include/humoto/solver.h Solver::solve"]}
{"id": "C102", "title": "Reference velocities of the CoM along the preview horizon", "statement": "In every preview horizon which is formed, each interval has a reference velocity of the CoM: that of the first stance during the initial double support, that of the last stance from the transitional double support before the final stance on, and that of walking in all other intervals. The direction is the heading of the state in which the interval lies, or of the transitional double support which precedes it.", "quantifier": "all states of the stance machine, MPC parameters, headings of the feet, turning increments, intervals", "why_tests_cant": "the test looks at a plot of one walk; the horizon depends on the position in the walk and on the durations", "anchors": ["modules/wpg04/include/wpg04/preview_horizon.h PreviewHorizon::form, previewStates", "modules/wpg04/include/wpg04/common.h WalkParameters"]}
{"id": "C103", "title": "What the walking program tells the solver about the previous iteration", "statement": "If a guess of the solution is asked for, then the library of the solver gets in each iteration the solution of the previous one moved by one interval: the first interval is dropped, the last one is zero, a step which has been made is dropped, a new step is zero; in the first iteration it gets zeros. If a guess of the active set is asked for, then it gets in the same way the statuses of bounds from the working set which it gave back before, provided that this set is processed by the hierarchy, and inactive bounds otherwise; bounds of fixed steps are always guessed to be active. Nothing is guessed if it was not asked for. The walk is the same whatever is used of the previous iteration.", "quantifier": "all walks, parameters of the feet and of the horizon, ways to start the solver, libraries, iterations", "why_tests_cant": "the regression test compares one walk for six ways to start the solver; the guesses pass through the hierarchy, the tasks, the active sets of levels and the bridge, and the number of steps in the horizon changes", "anchors": ["modules/wpg04/tests/regression_test_000_body.h run1 ... run6", "core/include/humoto/hierarchy.h OptimizationProblem", "modules/wpg04/include/wpg04/mpc_wpg.h guessSolution", "modules/wpg04/include/wpg04/task_copbounds.h guessActiveSet", "modules/wpg04/include/wpg04/task_footstepbounds.h guessActiveSet", "bridges/qpOASES/interface/qpoases/solver.h Solver"]}
{"id": "C104", "title": "The program which moves the wheeled robot", "statement": "Whatever the library of the solver answers, the program makes exactly the iterations in which the remaining motions fill the horizon, or it is left by the exception which is thrown when the library reports a failure; bounds on the velocity of the base which contradict each other are refused before the library is called. There is one call of the library per iteration, and one object of the library at most. The solution is a minimum of the weighted sum of squared deviations from the commanded motion, jerks and displacements of the CoP, within the bounds of the robot on the velocity and acceleration of the base, on the CoP and on the position of the body; with a capable library the program goes on if and only if some plan keeps these bounds. The robot keeps its bounds after each iteration which advances it by a whole interval. The result depends neither on the library nor on the way to start it.", "quantifier": "all motions, states and bounds of the robot, parameters of the horizon, gains of the tasks, ways to start the solver and to advance the robot, libraries, iterations", "why_tests_cant": "the regression test and the test programs run a few motions with one library; the claim is about each iteration of each program, through the horizon, the tasks, the hierarchy, the solver and the model", "anchors": ["modules/pepper_mpc/tests/regression_test_000_body.h run", "modules/pepper_mpc/tests/test_001_body.h", "modules/pepper_mpc/tests/utilities.h", "modules/pepper_mpc/include/pepper_mpc/mpc_mg.h MPCforMG", "modules/pepper_mpc/include/pepper_mpc/common.h RobotParameters", "modules/pepper_mpc/include/pepper_mpc/task_basevelocitybounds.h", "bridges/qpOASES/interface/qpoases/solver.h Solver"]}
{"id": "C105", "title": "What the program of the wheeled robot tells the solver about the previous iteration", "statement": "In each iteration the library of the solver is given nothing about the previous iteration which was not asked for. If the solution is guessed, then the first guess is zero, and the guess in each later iteration is the previous solution one interval later: velocities of the base and jerks of the body of the first interval are dropped, those of the last one are zero. If the active set is guessed, then the statuses of the bounds on the velocity of the base and of the constraints on the acceleration, on the CoP and on the body are those of the previous working set of the library one interval later, with inactive constraints in the last interval; all of them are inactive in the first iteration, if the working set is not processed, or if the problem is solved more often than once per interval. Jerks of the body never have active bounds.", "quantifier": "all motions, states and bounds of the robot, parameters of the horizon, gains, choices of guesses, libraries, iterations", "why_tests_cant": "no test looks at the guesses; the claim relates the answer of the library in an iteration to its input in the next one, through the hierarchy, the solver and the tasks", "anchors": ["modules/pepper_mpc/tests/regression_test_000_body.h run", "modules/pepper_mpc/include/pepper_mpc/mpc_mg.h guessSolution", "modules/pepper_mpc/include/pepper_mpc/task_basevelocitybounds.h guessActiveSet", "modules/pepper_mpc/include/pepper_mpc/task_baseaccelerationbounds.h guessActiveSet", "modules/pepper_mpc/include/pepper_mpc/task_coppositionbounds.h guessActiveSet", "modules/pepper_mpc/include/pepper_mpc/task_bodypositionbounds.h guessActiveSet", "core/include/humoto/hierarchy.h guessActiveSet processActiveSet", "bridges/qpOASES/interface/qpoases/solver.h Solver"]}
{"id": "C106", "title": "The program of the inverse kinematics makes the best steps and valid commands", "statement": "The program puts the tasks into a hierarchy of two levels, and in each iteration forms the tasks in the current state, solves the hierarchy with the KKT solver, and moves the model by the solution. If the tasks of the first level do not contradict each other and the two levels determine the velocities, then with LU or QR the solution is found and is the only best one: the robot moves exactly as the tasks of the first level ask (velocities of the centres of mass, rotation of the base, joints), and the sum of the squared weighted errors with respect to the second level is the smallest among all motions which do this. With elimination of constraints the same holds, with the squared velocities multiplied by the regularization factor, and the second level does not have to determine the velocities; but its tasks must constrain variables one by one, otherwise the solver refuses the problem. Iterations stop with the first small step. At this moment the errors of the first level are small too. If there was no small step within the allowed number, the program fails. The command has the joints of the final state, obeys the limits, and moves the base to its final position; after many control intervals the position of the base is the sum of the commanded displacements.", "quantifier": "all robots, states which the program can reach, references, hierarchies of two levels of equality tasks, gains, parameters of the controller, correct factorizations, numbers of iterations and intervals", "why_tests_cant": "the regression test compares one run with a log; optimality among all motions and the invariants of the loop are claims about infinitely many motions and states", "anchors": ["modules/pepper_ik/tests/test_001.cpp main", "modules/pepper_ik/tests/hierarchy.h setupHierarchy_v0", "modules/pepper_ik/tests/hierarchy.h setupHierarchy_v1", "core/include/humoto/hierarchy.h form", "core/include/kktsolver.h Solver", "modules/pepper_ik/include/pepper_ik/whole_body_controller.h WholeBodyController", "modules/pepper_ik/include/pepper_ik/model.h Model"]}
{"id": "C107", "title": "The program which finds reachable positions labels every point rightly", "statement": "For each point of the grid the program makes a new model, hierarchy and solver, and iterates: it forms the tasks, solves the hierarchy of two levels with qpOASES, and moves the model by the solution. An iteration always ends: either the model moves, and if the library gives back what it claims, the velocities do exactly what the equalities of the first level ask, all joints are within their limits after the step, and the errors of the second level are the smallest among all such velocities; or the exception of the solver is caught and the model stays, and then the library has failed or the tasks of the first level contradict each other. Each point gets exactly one flag: iterations exhausted, error, small step, joints outside of the limits, or reached; the last one exactly if the sum of the errors of the base and of the body is below the tolerance, and a point which starts within the limits is never flagged for the limits. No objects of the library are left behind, and the grid fits into the place allotted for the results.", "quantifier": "all robots, states which the program can reach, references, hierarchies with limits of joints and equalities in the first level and equalities in the second one, answers of the library, points and grids", "why_tests_cant": "a run visits a few points with one library; the claims are about all states, all answers of the library, all motions with which a step is compared, and all grids", "anchors": ["modules/pepper_ik/tests/test_003.cpp main", "modules/pepper_ik/config/hierarchies_planar.yaml", "modules/pepper_ik/include/pepper_ik/whole_body_controller.h WholeBodyController", "modules/pepper_ik/include/pepper_ik/model.h Model", "core/include/humoto/hierarchy.h form"]}
{"id": "C108", "title": "The program which plans and executes: plans are optimal, the robot is moved to the planned state, and the next plan starts from where the robot is", "statement": "In every iteration the program moves the robot by the last command for the rest of the control interval, sets the centers of mass, the masses and the heading of the model of the MPC from the robot, plans, and lets the inverse kinematics move the robot to the state planned for the end of the subsampling interval; the last step gives the command. Iterations: the program goes on as long as the motions cover the horizon, ends exactly when they do not, and fails only if the bounds leave no velocity, the library fails with the exception enabled, or the inverse kinematics does not reach the planned state. If the library gives back what it claims, the plan respects all bounds in the whole horizon and no such plan from the state of the robot is better; if the bounds contradict each other, the program throws. The planned state is the motion with the first controls of the plan. The inverse kinematics makes steps, each the best one if the hierarchy is well posed, until the robot is within the tolerance of the planned state or the step is small, at the first such step; otherwise the program throws. Between two plans the base moves by the commanded velocity over the real control interval, joints go where they are commanded, and limits of angles, velocities and wheels hold. The heading used in planning should be that of the robot: it is if the base is turned to the left, it is not if the base is turned to the right.", "quantifier": "all robots, initial states, horizons, motions, bounds, gains, hierarchies of tasks, control intervals, answers of the library and all numbers of iterations", "why_tests_cant": "a run executes one sequence of motions with one library; the claims compare each plan with all other plans, hold after every number of iterations and for every answer of the library", "anchors": ["modules/pepper_ik/tests/test_002.cpp main", "modules/pepper_mpc/include/pepper_mpc/mpc_mg.h MPCforMG", "modules/pepper_ik/include/pepper_ik/whole_body_controller.h WholeBodyController", "modules/pepper_ik/include/pepper_ik/model.h Model"]}
