# Formal model of humoto: design

Technique: Rocq (Coq 8.16.1) theorems about a hand-written functional model of the C++ code in /repo.
Model files live in `rocq/theories`, every definition cites the file and lines it models.

* `X.v`: model (computable Gallina functions), `XSpec.v`: vocabulary of the statements, independent of the model's helpers,
  `XFacts.v`: proofs, `Prop_*.v`: the property theorems `Cxx_…`, each closed by `exact lemma` and followed by
  `Print Assumptions`, with examples showing that concrete cases meet the hypotheses.
* A theorem with the suffix `_partial` proves a part of the property, one with `_refuted` shows that the code, as modelled,
  violates the property (a finding), and the other theorems of this property say what holds.

## Modelling conventions

* Failure outcomes. `Ok v`, `Throw` (HUMOTO_ASSERT in debug mode, HUMOTO_THROW_MSG, std::exception, Eigen assertion)
  and `UB` (unchecked out-of-range access, uninitialised read, dereferenced null) are distinct outcomes.
  HUMOTO_ASSERT / EIGENTOOLS_ASSERT and Eigen assertions are modelled as active (debug build).
* `double` is modelled by the real numbers (Coq standard library `R`), except in Time.v and in selectRows (Eigentools.v), where IEEE
  binary64 (Flocq) is used, and ConfigNumber.v, which uses the generic rounding of Flocq for decimal output.
  NaN, infinities and rounding are otherwise outside of the model; values that the code leaves undefined (NaN) are `None`.
* `std::size_t` is `nat`/`Z` without wrap, except where the property is about wrap (C01, C44).
* Eigen matrices are functions of indices together with their dimensions, equality is equality of dimensions and of all entries in range.
  Uninitialised memory is an explicit arbitrary function (`junk`), so that a theorem holds whatever it contains.
* Loops are structural recursion, folds, or recursion on fuel with a distinguished out-of-fuel result; termination theorems say
  that there is enough fuel.
* Mutation through references is returning the new value. Objects whose contents survive a call (reused QP objects, tasks, levels,
  matrices in resize) are modelled with these contents.
* Virtual functions and template parameters are function arguments (e.g. what a task forms, what a solver library returns); theorems
  quantify over them.


## Properties: model, proof method, result

| id | property | model (rocq/theories) | proof method | status |
|---|---|---|---|---|
| C01 | Location bounds check is overflow-safe | Base.v: size_t arithmetic modulo 2^64 on Z | linear integer arithmetic with explicit wrap | proved |
| C02 | Active set segment copy: round trip and frame | ActiveSet.v: active set = list of activation types, outcome type Ok/Throw/UB | list lemmas | proved |
| C03 | Active set shift | ActiveSet.v | pointwise characterisation (nth) and composition law | proved |
| C04 | Active set determination agrees with the bounds | Mixins.v: determineActiveSet for LU/L/U/B over R | case analysis over comparisons | proved |
| C05 | Constraint violations are signed distances to the feasible interval | Violations.v, Mixins.v | case analysis over comparisons | proved |
| C06 | Solution structure lays parts out disjointly and completely | Solution.v: std::map as association list with insert-if-absent | invariant by induction over the history of additions | proved |
| C07 | Warm start keeps matching solution parts | Solution.v | induction over the parts of the new structure | proved |
| C08 | Hierarchy level partition | HierarchyLevel.v: list of tasks with push_front/push_back and location counters | induction over the task list | proved |
| C09 | Active set distribution to tasks is lossless | HierarchyLevel.v | round trip by induction over tasks | proved |
| C10 | Equality/inequality (AB, AL) form is equivalent to the task constraints | Constraints.v: all type classes; assembled containers as lists of rows | per-type row semantics, induction over tasks | proved |
| C11 | Bounds + two-sided (ILU, ALU) form is equivalent to the task constraints | Constraints.v | as C10 | proved |
| C12 | Per-variable solution bounds are the intersection of all simple bounds | Constraints.v: initializeSolutionBounds as a fold | invariant of the fold: max/min so far | proved |
| C13 | QP objective equals the sum of squared task residuals | QP.v: getATAandATb/addATAandATb folds over tasks | quadratic form identities by induction | proved |
| C14 | QP problem extracted from a hierarchy depends on that hierarchy only | QP.v: QP object with stale contents | theorem for two levels, refutation for one level | partial |
| C15 | Solver failure is never silent | Solver.v: protocol as a trace producing function | case analysis | proved |
| C16 | KKT solver returns the constrained minimiser | KKT.v: matrix functions; the Eigen factorisations are function parameters | matrix algebra; stationary point -> minimiser; for hierarchies with a unique solution (KKTPosedSpec.v: attainable, observable) the KKT matrix and the Schur complement are shown nonsingular / positive definite, so the solver returns the unique minimiser for every factorisation which solves such systems; KKTGauss.v gives one | proved |
| C17 | Task gain changes take effect | Task.v | refutation with a witness history | partial |
| C18 | Millisecond/second conversions round trip in binary64 | Time.v: Flocq binary64 rounding | error analysis | proved |
| C19 | Stance alternation | StanceFSM.v: functional state machine | invariant by induction over transitions | proved |
| C20 | Exactly the requested number of steps | StanceFSM.v | induction over the step counter | partial |
| C21 | Time shifts compose | StanceFSM.v: shiftTime with fuel | induction on fuel | proved |
| C22 | Stance preview predicts the future and changes nothing | StanceFSM.v | induction | partial |
| C23 | Time shifting terminates | StanceFSM.v | measure argument; refutation by induction on fuel | proved |
| C24 | Rest-to-rest cubic polynomial | CubicPolynomial.v over R | real algebra, derivatives | proved |
| C25 | Cubic polynomial with velocity boundary conditions | CubicPolynomial.v | refutation + characterisation of what is attained | partial |
| C26 | Foot trajectory connects the end states and clears the ground | FootTrajectory.v | real algebra; refutation for velocities | partial |
| C27 | Triple integrator: all control parametrisations describe the same dynamics | TripleIntegrator.v | field identities | proved |
| C28 | Triple integrator: subsampling is exact | TripleIntegrator.v | field identities, derivatives | proved |
| C29 | Linear inverted pendulum: commanded CoP is reached and matches the dynamics | PointMass6z.v with cosh/sinh | hyperbolic identities, derivatives | proved |
| C30 | CoM state conversions round trip | PointMass6z.v | computation | proved |
| C31 | Euler angle matrices are rotations | Rotary.v | trigonometric identities | proved |
| C32 | Euler rates map to the angular velocity of the rotation matrix | Rotary.v | derivatives | proved |
| C33 | Rodrigues integration stays on the rotation group | Rotary.v | trigonometric identities, induction over steps | proved |
| C34 | Angle-axis rotation error | Rotary.v | trigonometric identities | proved |
| C35 | Foot/ADS position conversions are inverse to each other | FootParameters.v | real algebra | proved |
| C36 | Left/right containers | LeftRight.v | case analysis, history by induction | proved |
| C37 | Condensing equals simulation | Matrix.v, Condense.v: matrices as functions with dimensions | loop invariant by induction on the horizon | proved |
| C38 | Condensed outputs equal simulated outputs | Condense.v | as C37; refutation for the overload with a bug | partial |
| C39 | Block matrix products agree with dense products | BlockMatrix.v | sum splitting over blocks | partial |
| C40 | Block Kronecker products agree with their definition | Kronecker.v | sum splitting over blocks, row permutation | partial |
| C41 | Row and column removal | Eigentools.v | index arithmetic; refutations of the bounds checks | partial |
| C42 | Matrix concatenation | Eigentools.v | induction; refutation for consecutive empty matrices | partial |
| C43 | Gram matrices | Eigentools.v | index arithmetic | proved |
| C44 | Row selection | Eigentools.v | index arithmetic | partial |
| C45 | Cross product matrices | Rotary.v | real algebra | proved |
| C46 | Translation spatial transforms | SpatialTransform.v | real algebra | proved |
| C47 | Threaded logger loses nothing that was logged before shutdown | Logger.v: interleaving semantics of producers, consumer and shutdown | inductive invariant over all schedules | proved |
| C48 | Logger file handling | Logger.v: stream state machine | refutation with a witness history | partial |
| C49 | Log entry names are unambiguous | LogName.v: names as strings | injectivity by parsing | proved |
| C50 | Configuration round trip | Config.v: trees, entry lists, reader with node stack | induction over entry lists (nested) | partial |
| C51 | Configuration matrices round trip | Config.v, ConfigNumber.v (Flocq) | refutation + characterisation; rounding of decimal output | partial |
| C52 | Announced number of map entries matches the written entries | Config.v: token stream of the binary writer and a decoder | induction over entry lists | proved |
| C53 | Reader position is restored | Config.v | induction; refutation on the error path | proved |
| C54 | MPC sampling parameters are consistent | WalkPreview.v, Time.v | integer arithmetic | proved |
| C55 | Walking preview horizon is completely filled | WalkPreview.v on top of StanceFSM.v | loop invariant over the stances | proved |
| C56 | Support position follows the stance | WalkModel.v | invariant by induction over updates | partial |
| C57 | Motion parameter queue shift conserves time | PepperPreview.v | induction over the queue | proved |
| C58 | Pepper preview horizon covers the motions | PepperPreview.v | induction over the queue with carried remainder | proved |
| C59 | Time instant lookup in the preview horizon | PepperPreview.v | induction over intervals | proved |
| C60 | Predicted model state at a time instant | PepperMpc.v | refutation with a witness, theorem for the first interval | partial |
| C61 | Solution guess is the shifted previous solution | MpcGuess.v, Solution.v | list lemmas | proved |
| C62 | Forming a level does not depend on earlier formations | HierarchyLevel.v (a history of formations) | invariant over histories; refutation with a witness | partial |
| C63 | The predefined infeasible task has no feasible point | Task.v | invariant over histories of formations | proved |
| C64 | Block diagonal assembly | BlockDiagonal.v | induction over the list of blocks, index arithmetic | proved |
| C65 | Forming a walking preview horizon never fails | WalkPreview.v on top of StanceFSM.v | loop invariants on the sampling grid; refutations off the grid | partial |
| C66 | Headings and bounds of the previewed supports | WalkPreview.v | induction over the previewed states | proved |
| C67 | One rotation per variable step | WalkMpc.v | counting steps by induction; refutation with a witness | partial |
| C68 | Planned footsteps are realised | WalkModel.v | induction over control steps; refutation with a witness history | partial |
| C69 | Predicted motion of the two masses of Pepper | PepperMpc.v, PepperModel.v, Condense.v, Kronecker.v | refinement of the matrices to a recursive simulation | proved |
| C70 | Constructors of the Pepper model state | PepperModel.v | computation; refutation for the constructor with heights | partial |
| C71 | Next model state of Pepper | PepperMpc.v | refinement to the simulation; refutation for the masses | partial |
| C72 | CoP of a Pepper model state | PepperModel.v | balance of moments, field identities | proved |
| C73 | Predicted motion, footsteps and CoP of a walk | WalkProfiles.v, WalkMpc.v | refinement of the matrices to a recursive simulation | proved |
| C74 | Predicted state of the CoM of a walk at a time instant | WalkProfiles.v | refinement, search of the interval by induction | proved |
| C75 | Violations and active sets of a hierarchy are copied and reset entry by entry | Mixins.v, ActiveSet.v | list lemmas | proved |
| C76 | Bounds in the Pepper MPC hold exactly when the predicted motion respects them | PepperTasks.v | row semantics of the constraint objects, refinement C69 | proved |
| C77 | Objectives of the Pepper MPC are the weighted deviations of the predicted motion | PepperTasks.v | residuals of the constraint objects, refinement C69; refutation of a sign | partial |
| C78 | Guessed active sets of the bounds tasks are the previous ones moved by one interval | PepperTasks.v, WalkTasks.v, ActiveSet.v | list lemmas; refutations with witness histories | partial |
| C79 | Bounds derived from a radius keep the motion in the circle | PepperTasks.v | real algebra | proved |
| C80 | Objectives of the walking MPC are the weighted deviations of the predicted motion | WalkTasks.v | residuals of the constraint objects, refinement C73 | proved |
| C81 | Bounds of the walking MPC hold exactly when the CoP and the footsteps respect them | WalkTasks.v | row semantics of the constraint objects, refinement C73 | proved |
| C82 | A whole hierarchy keeps levels apart | Problem.v | invariant over histories of resets, pushes, forms and distributed active sets | partial |
| C83 | Evaluation of a solution by a whole hierarchy | Problem.v, Mixins.v | induction over levels and tasks down to the rows | proved |
| C84 | The active set of qpOASES in terms of tasks | QpoasesBridge.v; the working sets of the library are arbitrary arguments | loop invariants, row semantics; refutations for reused and one-level problems | partial |
| C85 | QP libraries get the problem of the hierarchy | Backends.v, QP.v; the conventions of the libraries are in BackendsSpec.v | quadratic form identities, row semantics | proved |
| C86 | Jacobians of tags are derivatives of their poses (RBDL bridge) | Rbdl.v; the model of the RBDL library after its kinematic update is an argument | induction along the tree: twists of bodies, invariant of the loop over joints; derivatives of products | proved |
| C87 | Centres of mass and names of links (RBDL bridge) | Rbdl.v | loop invariants, sums over permutations; refutations for names | partial |
| C88 | Inverse kinematics of Pepper keeps the joints within their limits | PepperIk.v; forward kinematics (RBDL) is a function from coordinates to the model of the library | tables of joints by cases, loops by induction; induction over iterations | proved |
| C89 | Columns of a Jacobian follow their joints between models of Pepper | PepperIk.v | induction over the assignments of columns; numbers of joints are injective | proved |
| C90 | Tasks of the Pepper inverse kinematics drive what they are named after | PepperIkTasks.v; motions are differentiable families of models of the library (RbdlSpec.v) | C86 for the Jacobians, row semantics of the tasks; refutations on a planar robot | partial |
| C91 | Velocities of tags are those requested (Pepper inverse kinematics) | PepperIkTasks.v | C86, fold over the map of velocities; refutations away from the origin | partial |
| C92 | Commands for Pepper bring it from the saved state to the current one within the limits | PepperIkTasks.v | invariant over load, update, save, correct; arithmetic of wheels; refutation by a half turn | partial |
| C93 | Euler angles describe the rotation; set and get of the pose of the root agree | Euler.v, PepperIkTasks.v; MatrixBase::eulerAngles is an argument with its documented contract, met by the algorithm of Eigen 3.3 (EulerFacts.v) | products of rotations, atan2; refutations by a negative yaw | partial |
| C94 | A hierarchy written to a configuration file is the hierarchy read from it | ConfigProblem.v over Config.v: hierarchy, lists of names, tables of task classes of all modules | invariant over calls, induction over levels and tasks with the round trip of C50; refutations on files of one or two tasks | partial |
| C95 | An object read from a configuration file does not depend on what it was before | ConfigClasses.v over Config.v: every configurable class with its entries, defaults, finalize() and the members which are not stored | one generic lemma about reading (from the round trip of C50) with conditions on a class, decided for each class; exact results and refutations for the others | partial |
| C96 | A block matrix always describes the division of its raw matrix | BlockLife.v: template sizes, members (possibly uninitialised), all calls with the state they leave when they throw, access, selection | invariant over histories; exact acceptance; arithmetic of blocks; refutations on 4x4 and 4x6 matrices | partial |
| C97 | A solver object can be used again and again: each call is decided by its own arguments | SolverLife.v over QpoasesBridge.v: the object with its pointers, the objects of the library which exist, all functions solve() with the state they leave when they throw; the library is a function given with each call | invariant over histories (at most one object, owned), composition with C84 and C85 for each call, exact acceptance; refutations for all arguments of wrong sizes and for copies | partial |
| C98 | The Pepper motion generator in a loop: iterations, motion, bounds over the whole run | PepperLoop.v over PepperMpc.v, PepperPreview.v, PepperTasks.v: the controller object with its flag, parameters, horizon, matrices and profiles; one iteration of the loops in tests/test_000.cpp and test_001_body.h, the answers of the solver are arbitrary; all calls of the object in any order | composition of C57, C58, C69, C71, C76 for one iteration; induction over iterations (timeline of the motions, heading, heights, acceleration, velocity overshoot); invariant over sequences of calls; witnesses for the refutations | partial |
| C99 | The walking pattern generator in a loop: schedule, CoP, landings and final posture over the whole walk | WalkLoop.v over StanceFSM.v, WalkPreview.v, WalkProfiles.v, WalkTasks.v, WalkModel.v, FootParameters.v: the controller object with its flag, parameters, horizon, matrices and profiles; one iteration of the loop in tests/test_000.cpp, the answers of the solver are arbitrary; all calls of the object in any order | an invariant of the state of the loop (position on the grid, stance of the model, support, feet, headings which remain), kept by an iteration by composition of C55, C68, C73, C74, C81; potentials for the remaining time, landings and heading; induction over iterations; a solver which always answers; invariant over sequences of calls; witnesses for the refutations | partial |
| C100 | Inverse kinematics of Pepper in a loop: iterations, stopping, limits of joints, commands | PepperIkLoop.v over PepperIk.v, PepperIkTasks.v, Rbdl.v: the parameters, one iteration, the loop of iterations and the control intervals in tests/test_001.cpp, the answers of the solver are arbitrary; all calls of the controller in any order | induction over iterations with composition of C86-C88 for one iteration; geometric convergence of the error for the stop; bounds of rows for the errors at the stop; induction over intervals; invariant of the flag over sequences of calls; a turn of the head as the witness | partial |
| C101 | The program which walks: controller, hierarchy of tasks and solver together, from the start to the end | WalkProgram.v over WalkLoop.v (C99), WalkTasks.v, Problem.v, SolverLife.v (C97), QpoasesBridge.v: run1() ... run6() of modules/wpg04/tests/regression_test_000_body.h with the hierarchies 0, 1 and 5 of tests/utilities.h; the library is any function from calls to answers | invariant of the state of the program (shape of the hierarchy, sizes of constraints, ownership of the object of the library) by induction over iterations; feasibility and a minimum of each problem from the compactness of a box and the quadratic form (BoxMinimum.v); rows of the constraints are translated to the CoP, steps and velocities of the predicted motion; refinement to C99; the minimum is unique since the midpoint of two minima would be better (WalkProgramUnique.v) | partial |
| C102 | Reference velocities of the CoM along the preview horizon | WalkPreview.v (previewStates and form of modules/wpg04/include/wpg04/preview_horizon.h): the velocity of a walk state is represented by the parameter it is copied from, the interval by the index of the state | induction over the loop of form (an interval refers to its state and to the transitional double support before it) and over the list of states | proved |
| C103 | What the walking program tells the solver about the previous iteration | WalkProgram.v with the flags of run1() ... run6(), over MpcGuess.v, WalkTasks.v (guesses of tasks), Problem.v (active sets of the hierarchy), SolverLife.v, QpoasesBridge.v. | invariant of the program extended with what the tasks keep (statuses of the previous horizon, their number, no undefined ones) and with the kept solution; each variable is bounded in one row, so the report of the bridge is the working set; then the moved lists element by element; the same walk from uniqueness of the minimum | proved |
| C104 | The program which moves the wheeled robot | PepperProgram.v: the program of the tests over PepperLoop.v (horizon, model), PepperTasks.v, Problem.v (hierarchy), SolverLife.v and QpoasesBridge.v; specification PepperProgramSpec.v: the plan of a solution in terms of states of the base and of the body, its cost and the bounds it keeps. | invariant of the program (hierarchy formed for the current horizon, tasks with their statuses, one object of the library); the problem of the library is shown to be that of the robot, point by point; minimum by convexity: two minima have the same halfway cost | proved |
| C105 | What the program of the wheeled robot tells the solver about the previous iteration | PepperProgram.v: what the iterations keep (the previous solution, the active sets of the tasks) and give to the solver; SolverLife.v: what the library gets. Vocabulary PepperProgramHotSpec.v (positions of the commands and of the rows by interval, axis and kind). | PepperProgramHot.v: the call of an iteration is the one of the invariant of C104 (PepperProgramFacts3.v, PepperProgramFacts4.v); rows of the first level by task, the bounds of each velocity are in one row, statuses of the report and of the guess composed through the tasks. | proved |
| C106 | The program of the inverse kinematics makes the best steps and valid commands | PepperIkProgram.v: the hierarchy of tests/hierarchy.h, form() of all tasks, the KKT solver, iterations and control intervals of test_001.cpp, over PepperIkLoop.v, PepperIkTasks.v, KKT.v, Problem.v. Vocabulary PepperIkProgramSpec.v | induction over the pushed tasks gives the contents of the levels; the tasks are explained by the velocities of motions (C90), which turns the constraints of the KKT problem and its cost into errors of motions; the unique solution of well posed problems (C16) gives the best step; induction over iterations and intervals for the invariants (reachable model, shape of the problem); PepperIkProgramFacts.v, PepperIkProgramFacts2.v, PepperIkProgramFacts3.v, PepperIkProgramRun.v. Concrete case: PepperIkProgramExample.v | proved |
| C107 | The program which finds reachable positions labels every point rightly | PepperIkScan.v: the program of test_003.cpp as a function of states: the iteration (update, form, solve with the modelled qpOASES solver, step of the model), the loop of iterations with its flags, the points with their new objects, the loops of the grid | the hierarchy is formed as in C106; the call of the solver is described by C97/C104 (what the library gets); constraints and costs are translated into velocities of the robot (C90, C106) and limits (C89); invariant by induction over the program; flags by induction over the iterations | proved |
| C108 | The program which plans and executes: plans are optimal, the robot is moved to the planned state, and the next plan starts from where the robot is | PepperCoupled.v: the program of test_002.cpp as a function of states: feedback of the command, the model of the MPC set from the robot, planning (parts of PepperProgram.v), references, iterations of the inverse kinematics (parts of PepperIkProgram.v), the command | an iteration of the MPC is one of C104 with the state replaced (invariant of C104 is kept by the replacement); what the library gets, optimality and feasibility as in C104; the inverse kinematics by induction over its steps with the invariant of C106; the motion of the robot between two plans from C92, C93 and C106; the heading from C93, with its counterexample | partial |

The theorems of each property and what is missing of the partial ones: MANIFEST.json.

All properties could be expressed in a model. What no model here can show: floating point round-off (except C18, C44, C51), real thread
memory ordering (C47 is proved under sequential consistency; the plain `bool interrupted_` flag is a data race in C++), third-party
solvers, parsers and Eigen itself (assumed to compute what they document).

## Findings

Behaviour of the pinned code, as modelled, that contradicts a stated property (the theorem with the witness is named) or is
otherwise surprising.

* C14_one_level_refuted and C84_reuse_refuted: a QP object or a qpOASES solver reused for a hierarchy with one level keeps the
  constraints of the previous hierarchy.
* C17: TaskZeroVariables ignores a new gain while the variables do not change.
* C18: conversion of 1001 ms to seconds and back gives 1000 ms (truncation).
* C20: an undefined first foot keeps the step counter.
* C25, C26: the cubic polynomial with boundary velocities misses the final position and velocity; vertical velocity and acceleration
  of the foot trajectory lack the chain rule factor, and the height jumps when the apex is above the final height.
* C33: the simple integration of an angular velocity leaves the rotation group.
* C38: condenseOutput with groups of rows ignores E_0.
* C39, C40: products of block matrices with different numbers of block rows and columns and products of a diagonal matrix with a
  Kronecker matrix check sizes in the wrong order.
* C41, C42, C44: removeRow accepts an index one past the end, removeColumn compares with the number of rows; concatenation does not
  check the second of two adjacent empty matrices; selectRows with a first row past the end wraps, step zero divides by zero.
* C48: a second initialisation of a logger with a file always throws, and later messages vanish; messages of an uninitialised threaded
  logger are lost.
* C50, C51, C53: a parent configuration class finalizes the derived one too early; matrices are read back transposed;
  doubles with more than 15 digits are not restored; the reader position is lost after a failed read.
* C54, C55, C65: zero subsampling time divides by zero; forming a walking preview throws if the walk ends within the horizon, off the
  sampling grid and after the end of the walk.
* C56, C68: updateState throws on TDS to TDS and accepts a change of the support without landing; a control step which jumps over the
  beginning of a double support loses the landing.
* C58: a negative duration other than -1 is refused for a single motion but practically endless in a queue.
* C60: the predicted state at an instant uses the first command in every interval.
* C62: a guess kept from an earlier formation makes forming without guessing throw.
* C67: a block outside of the matrix of rotations is written if double supports last longer than one sampling interval.
* C70, C71: the constructor of the Pepper state with heights swaps them; predicted states have default masses.
* C75_levels_overrun: ActiveSet::initialize reads out of range if there are fewer sizes than levels.
* C77_body_position_refuted: wrong sign of the constant part of the body position objective.
* C78: a horizon of one interval makes the guess of active sets throw in the second cycle; wrong sizes of the footstep guess if more
  than one step leaves the horizon.
* C82_stale_sizes_refuted: after reset() the sizes of the old levels are used until form().
* C84_one_level_guess_refuted: the guess of bounds is empty for a problem with one level.
* C87_unknown_name_refuted, C87_fixed_mass_refuted: the RBDL bridge accepts names of links which do not exist and then reads out of
  range; masses of links fixed to others are read out of range.
* C90_other_tag_refuted: tasks of tags keep the tag of their first use; readConfig() with another tag_string_id changes the reference but not
  the Jacobian.
* C90_pose_3dof_refuted: TaskTagPose3Dof multiplies three references by zero but keeps their rows: these motions are forbidden, not free.
* C91_complete_velocity_refuted, C91_desired_poses_refuted: the linear velocity of a tag gets the additional term P x (O w), which belongs to
  a velocity at the origin of the world, while the Jacobian is that of the tag.
* C92_yaw_refuted: the commanded rotation of the base is the sine of the turn. The parameter error_tol of getRobotCommand() is not used.
* C93_base_yaw_refuted, C93_root_yaw_refuted: yaw angles are in [0, pi] (first angle of Eigen's eulerAngles).
* checkStateTransition() and the const overload of getNextGeneralizedCoordinates() of pepper_ik do not compile if they are instantiated.
* C94: reading a hierarchy with an unknown class name dereferences a null pointer (the check follows the use); tasks with equal descriptions
  overwrite each other in the file; after a refused file or a relaxed read without section `pushTask()` writes out of range; the gain of a
  task without section becomes zero in relaxed reading, whatever its constructor sets.
* C95: `kkt::SolverParameters` does not store its method and factor; a `Solution` or an obstacle that is read keeps the structure, status or
  constraints of the object it is read into; `body_bounds` of Pepper come back transposed; `setDefaults()` of the parameters of the KKT,
  QuadProg++, qpmad and qpOASES solvers does not call that of the parent class, so a tolerated missing entry keeps the old value;
  `WBCParameters::setDefaults()` leaves `control_interval_` out of step; a missing `com_state` gives a centre of mass at height 0.
* C96: a refused `set()` or `setBlockSize()` of a block matrix leaves it inconsistent; a block matrix without sizes reads uninitialised
  numbers of blocks; `BlockMatrix::selectRowInBlocks()` passes the number of rows as the number of columns of a block: for dynamic sizes it
  throws, leaves the size open, or divides the result wrongly; the index of the row is not checked.
* C97: the qpOASES solver does not compare sizes: a short guess, a short solution vector or an objective on fewer variables than the
  solution is read or written past its end; a copy of a used solver deletes the object of the library twice (there is no copy
  constructor). Parameters given to `solve()` stay in force for later calls. An accepted last level with an inequality task without rows
  throws later. The KKT solver is not a `QPSolverMixin`: `solve_two_levels_as_qp` and the check of the last level are not honoured.
* C98: in the loop of the Pepper motion generator bounds on the velocity hold at the ends of intervals only, between them the velocity
  can exceed them (by at most T/4 times half of the range of accelerations). After `update()` returned STOPPED the matrices of the
  previous problem are still there and `getNextModelState(solution, model)` returns a state computed with them. `setParameters()`
  between `update()` and `getModelState()` with another length of the horizon makes the latter take the state of the base for the
  state of the body.
* C99: the loop of the walking tests shifts the state machine by the sampling time while `getNextModelState()` moves the CoM by the
  subsampling time: with a shorter subsampling time (accepted by `MPCParameters`) they lose step, no function of the controller
  shifts both. After `update()` returned STOPPED the matrices and the intervals of the previous problem are kept: its solution is parsed
  again and `getCoMState()` answers.
* C100: `TaskJointsBounds` limits angles of joints but not the changes of angles in a control interval: the loop of inverse kinematics
  can stop within all bounds and then `getRobotCommand()` throws because of the speed of a joint. `setDefaults()` of
  `TaskJointsReference` sets `k_position_gain` to zero, its constructor to one: after the former the reference is not followed, the
  task only damps the steps. The overload
  `getNextGeneralizedCoordinates(model)` refers to a member `state_` that the model does not have, it cannot be instantiated. A call
  that throws because of a wrong structure of the solution has already set the flag: a second call is refused until the next update.
* C101: with `crash_on_any_failure_` switched off (solver.h:86-91) neither `solve()` nor the loop of the walking program looks at the
  status of the solution: after a failure of the library the program goes on with the content of the (new, uninitialised) vector of the
  solution, and the CoP may leave the support (`C101_ignored_refuted`). With the default value (`true`) the program throws.
* C104: the velocity of the body of the wheeled robot is not bounded and there is no terminal constraint, so a robot can be within all its
  bounds (velocity and acceleration of the base, CoP, position of the body) and have no plan which keeps them in the next interval. With the
  default parameters this is the case when the body moves 2 m/s faster than the base: the solver fails, its exception leaves the program
  (`C104_stuck_refuted`). The program goes on from rest (`C104_rests`), and whenever the last plan can be prolonged (`C104_continues`).
* C108: the program which plans and executes takes the heading of the base from `getBaseYaw()`, i.e. from `eulerAngles()`, whose first angle is
  in [0, pi]. For a base turned to the right the MPC plans with another heading than that of the robot: velocities, which are commanded in
  the frame of the base, and bounds on the body, which are in this frame too, are rotated wrongly (`C108_heading_refuted`). Nothing in the
  program notices this. `C108_heading` is what holds for a base turned to the left.
* Not theorems: warm starting a solution with itself zeroes it; GI* constraint classes are simple but getSimpleConstraints() throws for
  them; ConstraintsIB cannot be instantiated; CrossProductMatrix times a matrix and the triangular Kronecker matrix times a vector do
  not compile.

## Trusted base

* The kernel of Coq 8.16.1 (checked with coqc; `coqchk` re-checks the compiled files), with no flags that switch off checks, no
  plugins besides those loaded by the standard library (lia, lra, nra, ring, field produce terms checked by the kernel).
* The axioms listed below: only those of the standard library that come with real numbers (`ClassicalDedekindReals.sig_forall_dec`,
  `sig_not_dec`), `functional_extensionality_dep`, and `Classical_Prop.classic` (used by Flocq and by Coquelicot-free analysis of
  the standard library). No axiom, parameter, admitted proof, functor or module type is defined here.
* That the model says what the C++ code does: it is written by hand from the cited lines, nothing is extracted or generated.

### Modelled

* core: `humoto_helpers.h`, `humoto/utility.h` (Location, square side), `time.h`, `leftright.h`, `active_set.h`, `violations.h`,
  `solution.h`, `constraints*.h` (all classes but the GI* accessors, which throw), `task.h`, `task_generic.h`, `hierarchy_level.h`,
  `hierarchy.h`, `qp_problem.h`, `solver.h` (solve protocol), `kktsolver.h`, `control_problem.h`, `logger.h` (threads, file handling, names),
  `config.h` and accessors, `configurable_optimization_problem.h` (with the tables of the modules); eigentools: removal, concatenation, Gram matrices, selection, block diagonal, block matrices, Kronecker
  matrices, cross products; `rigid_body/*`, `walking/*`.
* bridges: the life of the qpOASES solver object (pointers, reuse, exceptions), the readers and writers of `config_yaml` and `config_msgpack` over trees, the QPs and active sets exchanged with qpOASES,
  QuadProg++ and qpmad, `rbdl/spatial_transform.h`, `rbdl/model.h`
  and `rbdl/tag.h` (without the reading of URDF files).
* `modules/pepper_ik`: `model_description.h`, `generalized_coordinates.h`, `model.h`, `whole_body_controller.h` and all tasks; the programs of `tests/test_001.cpp` (KKT solver, C106) and `tests/test_003.cpp` (qpOASES, C107), and the program of `tests/test_002.cpp` which joins `pepper_mpc` and `pepper_ik` (C108), without logs and timers.
* modules: `pepper_mpc` (motion parameters, preview horizon, matrices, tasks, profiles, states, the controller object and the loop around it as in its tests), `wpg04` (parameters, preview horizon,
  model, matrices, tasks, profiles).

### Not modelled

* Third-party code: Eigen, qpOASES, QuadProg++, qpmad, yaml-cpp, msgpack, RBDL. They are arguments of the model (factorisations,
  working sets, return values) or their documented conventions are in a Spec file.
* Output formatting of the logger beyond names, timers (`humoto/time.h` Timer), tests, build scripts, examples.
* Parts not named under "Modelled".


### Code cited by each model file

Extracted from the comments of the definitions (line ranges are those of the pinned commit).

* `ActiveSet.v`: core/include/humoto/active_set.h; active_set.h: 17-37, 43-46, 56-61, 71-76, 117-124, 104-107, 133-141, 150-159, 167-171, 201-206, 180-192, 217-230, 238-256, 278-357, 319-324, 354-364
* `Backends.v`: solver.h: 237-262, 76-82, 103-109; bridges/qpOASES/interface/qpoases/solver.h: 182-262, 237-262; bridges/QuadProgpp/.../solver.h: 76-82, 63-91; bridges/qpmad/.../solver.h: 103-109, 90-121; qp_problem.h: 316-386
* `Base.v`: core/include/humoto_helpers.h: 70-87; humoto_helpers.h: 70-87; constraints_mixins.h: 1061-1096; active_set.h: 56-61, 71-76, 180-192; solution.h: 281-299; core/include/humoto/utility.h: 146-267; utility.h: 146-267, 231-234, 208-212, 181-185, 148-150, 208-234
* `BlockDiagonal.v`: core/include/eigentools/eigentools.h; eigentools.h: 444-448, 421-450, 394-404, 362-407
* `BlockLife.v`: core/include/eigentools/blockmatrix_base.h; blockmatrix.h: 21-50, 192-207, 200-207; blockmatrix_base.h: 71-79, 77, 104-106, 407-414, 168-203, 182-188, 398-401, 81-82, 81, 82, 474-498, 504-529, 427-466, 395-404, 168-173, 185, 200, 197-203, 123-158, 129-132, 136-139, 148-151, 155-158, 238-344, 570-606, 238-247, 570-576, 242-246, 301-305, 573-575, 570-590, 268-277, 297-306, 327-336, 570-586, 260-264, 281-285, 319-323, 340-344, 104-530, 366-369; core/include/eigentools.h: 20; eigentools.h: 758-772
* `BlockMatrix.v`: core/include/eigentools/blockmatrix_base.h; blockmatrix.h; blockmatrix_base.h: 414-421, 515, 527, 504-529, 143-156, 155-158, 167-172, 180-187, 196-202, 569-606, 570-576, 293-302, 322-331, 297-306, 235-278, 238-247, 864-869, 1130-1137, 917-933, 947-963, 1294-1323
* `Condense.v`: core/include/humoto/control_problem.h; control_problem.h: 325-367, 382-419, 432-464, 272-304, 213-248, 133-189
* `Config.v`: core/include/config.h; core/include/config/define_accessors.h; config_yaml/writer.h: 261-267, 39, 169-175; config_msgpack/writer.h: 217-222, 142-145, 64-77, 99-222; config_yaml/reader.h: 282-298, 288, 102-115, 121-124, 141-175, 161, 194-231, 243-269; config_msgpack/reader.h: 319-335, 325, 117-152, 158-161, 178-212, 231-268, 280-306; configurable_optimization_problem.h: 73-74; define_accessors.h: 18-70, 31-35, 97-114, 49-61, 63-69, 12-161; config.h: 25, 26, 284-291, 131-156, 131-182, 314-321; reader.h: 26-33, 55-57, 24-29; writer.h: 36-56, 271-275, 74-77
* `ConfigClasses.v`: define_accessors.h: 12-161, 63-69; config.h: 131-182, 26, 25, 20-30; point_mass_state.h: 22-54, 44-54; robot_foot_parameters.h: 44-53, 176-223, 229-248; rigid_body_state.h: 18-49, 102-127; wpg04/common.h: 114-140, 23-76, 83-186; rotary_state.h: 227-260; obstacle_base.h: 20-45; stance_finite_state_machine.h: 94-126, 155-172; time.h: 22-25; wpg04/model_state.h: 18-80; pepper_mpc/common.h: 26-118, 176-237, 279-350; pepper_mpc/model_state.h: 21-80; pepper_ik/common.h: 25-70, 76-118; generalized_coordinates.h: 24-66; model_description.h; solver.h: 19-43; kktsolver.h: 60-80, 43-80; bridges/.../solver.h; bridges/QuadProgpp/.../solver.h: 20-47; bridges/qpmad/.../solver.h: 20-62; bridges/qpOASES/.../solver.h: 23-112; bridges/qpOASES/interface/qpoases/solver.h: 23-112; solution.h: 178-206
* `ConfigDefaults.v`: stance_finite_state_machine.h: 20-40
* `ConfigNumber.v`: config_yaml/writer.h: 39; bridges/config_yaml/interface/config_yaml/writer.h: 39; reader.h: 161, 288
* `ConfigProblem.v`: core/include/humoto/configurable_optimization_problem.h; task.h: 31, 122-125, 260-263, 297-348, 128-132, 378-429, 465-516; hierarchy.h: 23, 77-80, 91-96; configurable_optimization_problem.h: 73-74, 50-51, 141-168, 93-110; config.h: 273-330, 267-271, 284-291, 314-321, 131-156, 20-30; config_yaml/writer.h: 220-233; config_msgpack/writer.h: 183-188; config_yaml/reader.h: 243-269; config_msgpack/reader.h: 280-306; task_generic.h: 26-67, 124-153, 171-190; wpg04/configurable_optimization_problem.h: 26-56; task_comvelocity.h: 22-45; task_copposition.h: 22-48; task_copvelocity.h: 22-46; task_footstepbounds.h: 22-49; task_copbounds.h: 22-39; task_terminalconstraint.h: 21-45; common.h: 17, 18; pepper_mpc/configurable_optimization_problem.h: 25-71; task_tagpose.h: 62-69; task_tagangularvel.h; task_tagcompletevel.h; task_tagpose3dof.h; pepper_ik/configurable_optimization_problem.h: 27-80
* `ConstraintType.v`: core/include/humoto/constraints_base.h: 19-106; constraints.h; constraints_base.h: 22-45, 48-65, 67-86, 89-105
* `Constraints.v`: core/include/humoto/constraints.h; constraints_base.h: 117-133, 282-314, 175-183, 262-274, 615-626, 648-659, 680-691, 777-788, 743-756, 324-364; constraints_mixins.h: 441, 36, 550-553, 720-723, 866-869, 564-568, 728-732, 873-877, 1010-1014, 814-827, 976-989, 689-701, 530-537, 462-472, 134-145, 226-236, 304-314, 380-384, 771-775; constraints.h: 56-64, 102-109, 146-153, 192-199, 253-257; constants.h: 24; hierarchy_level.h: 346-470, 346-364, 372-390, 398-415, 432-434, 423-440, 450-470
* `CubicPolynomial.v`: core/include/rigid_body/cubic_polynomial.h; cubic_polynomial.h: 21-31, 211-214, 60-66, 78-87, 97-101, 111-115, 125-129, 137-140, 151-165, 176-187, 197-207
* `Eigentools.v`: core/include/eigentools/eigentools.h; eigentools.h: 647-648, 679-680, 647, 679, 635-652, 667-684, 485, 483-490, 484-491, 510-514, 466-518, 532-562, 579-620, 758-772, 769, 778-825, 781-825
* `Euler.v`: core/include/rigid_body/rotary_state.h; rotary_state.h: 41-60, 107-113
* `FootParameters.v`: core/include/walking/robot_foot_parameters.h; robot_foot_parameters.h: 17-27, 60-80, 144-155, 144-168, 176-223, 238-248, 94-98, 110-114, 124-140, 300-310; eigentools.h: 336-346
* `FootTrajectory.v`: core/include/walking/foot_trajectory.h; foot_trajectory.h: 191-196, 27-29, 86, 40-49, 62-71, 107-111, 117-121, 127-138, 144-148, 159-169, 178-188; point_mass_state.h; rotary_state.h
* `HierarchyLevel.v`: core/include/humoto/task.h; hierarchy_level.h: 66-69, 207-233, 23-27, 242, 250-253, 33-40, 188-198, 255-258, 268-271, 301-304, 312-315, 323-326, 334-337, 63-73, 60-102, 52-105, 114-122, 131-139; hierarchy.h; task.h: 20-35, 98-100, 178-180, 191-194, 140-170, 44-49, 82-86, 57-72, 94-99
* `KKT.v`: core/include/kktsolver.h; kktsolver.h: 37-57, 60-71, 182-183, 185-186, 170-205, 137-161, 106-128, 97-101
* `Kronecker.v`: core/include/eigentools/blockmatrix_kronecker.h; eigentools.h: 700-738; blockmatrix_kronecker.h: 28-42, 302-311, 302-310, 509-517, 729-737, 962-970, 61, 367, 53-74, 250-272, 458-480, 677-699, 911-933, 286-290, 494-498, 713-717, 947-951, 113-126, 96-144, 214-241, 602-634, 653-668, 871-902
* `LeftRight.v`: core/include/humoto/leftright.h; leftright.h: 21-27, 37-48, 57-61, 72-86, 72-76, 82-86, 94-115, 57-115
* `LogName.v`: core/include/humoto/logger.h; logger.h: 228-261, 41-49, 75-81, 178-212
* `Logger.v`: core/include/humoto/logger.h; logger.h: 287-318, 287-291, 350, 357-361, 409-415, 423-435, 310-318, 409-435, 879-962, 555-874
* `Mat2.v`: eigentools.h: 66-166; two_point_mass_model.h: 104-130; preview_horizon.h: 202-253
* `Mat3.v`: eigentools.h: 66-166; rotary_state.h: 71-219, 41-60; cross_product.h: 42-58
* `Matrix.v`: eigentools.h: 66-166, 202-319, 400, 445; blockmatrix_base.h: 864-869, 1130-1137; constraints_mixins.h: 799-805, 134-145, 503-507, 814-827; solution.h: 187-190, 214-299; kktsolver.h: 97-128; constraints_base.h: 324-364; point_mass_model_6z.h: 134-163
* `Mixins.v`: core/include/humoto/constraints_mixins.h: 1030-1384; core/include/humoto/violations.h; constraints_mixins.h: 1061-1096, 1120-1131, 1156-1167, 1052-1097, 1111-1133, 1147-1169, 1187-1192, 1234-1381, 1234-1249, 1267-1282, 1300-1315, 1333-1348, 1366-1381; violations.h: 17-23, 106-109, 83-97, 73-98, 34-39, 49-54, 58-63, 116-121, 130-137, 205-210, 202-207, 146-154, 163-172, 185-198
* `MpcGuess.v`: modules/pepper_mpc/include/pepper_mpc/mpc_mg.h; modules/wpg04/include/wpg04/mpc_wpg.h; pepper_mpc/common.h: 17-18, 18; wpg04/common.h: 17-18, 18; mpc_mg.h: 613-647, 636-645, 624-632, 83-85; mpc_wpg.h: 502-544, 510-519, 314-316
* `PepperCoupled.v`: modules/pepper_mpc/tests/utilities.h; core/include/kktsolver.h; common.h: 39-62; mpc_mg.h: 478-523; model.h: 569-609, 624-637, 356-361, 20-50; model_state.h: 172-186
* `PepperIk.v`: model_description.h: 21-41, 462-486, 647-671, 826-850, 462-481, 483-485, 668-670, 847-849, 455, 640, 819, 312-326, 355-373, 497-504, 308-311, 328-342, 308-343, 407-424, 383-425, 252-280, 683-688, 862-869, 290-293, 83-93, 100-157, 165-179, 176-179, 188-241; generalized_coordinates.h: 53-54, 61-64, 118-124; model.h: 126-259, 140-150, 158-196, 206-223, 231-258, 60-75, 78-89, 262-264, 274-296, 717-725, 643-646; constants.h: 18; whole_body_controller.h: 24-31, 245-261, 280-295, 265-268; common.h: 18-20, 20, 83-87; task_jointsbounds.h: 29-55; task_jointsref.h: 73-96, 64-69; task_fixarms.h: 34-55; task_fixhead.h: 34-46
* `PepperIkLoop.v`: pepper_ik/include/pepper_ik/whole_body_controller.h: 218-315; pepper_ik/include/pepper_ik/common.h: 25-77; common.h: 39-52, 55-62, 42-53; whole_body_controller.h: 306-314, 25-31, 247-262, 270-273, 285-299, 221-236
* `PepperIkProgram.v`: modules/pepper_ik/tests/hierarchy.h; core/include/kktsolver.h; task_basecom.h: 60-75, 19, 34; task_bodycom.h: 55-70, 20, 65; task_baseorient.h: 60-75, 19, 34; task_jointsref.h: 61-69, 20, 64; task_jointsbounds.h: 22-26, 20, 23; task_fixarms.h: 26-30, 20, 28; task_fixhead.h: 26-30, 20, 28; hierarchy.h: 17-36, 44-61, 39-54, 106-111; tests/hierarchy.h: 28-34, 26-35; hierarchy_level.h: 207-233; task.h: 178-194; constraints_mixins.h; solution.h: 214-219; solver.h: 150-157; kktsolver.h: 97-128
* `PepperIkScan.v`: common.h: 39-62; hierarchy.h: 39-54, 106-111; solution.h: 214-219; whole_body_controller.h: 247-262; solver.h: 504-507
* `PepperIkTasks.v`: model_description.h: 546-550, 731-735, 913-920, 559-566, 744-751, 929-935, 575-579, 760-764, 944-950, 588-594, 787-793, 959-963; generalized_coordinates.h: 72-109, 72-75, 83-86, 94-97, 105-108; model.h: 317-320, 339-342, 361-364, 328-331, 350-353, 372-375, 383-386, 405-408, 416-419, 427-430, 438-441, 451-454, 464-467, 477-480, 489-493, 502-506, 514-517, 303-309, 20-50, 527-559, 569-609, 624-637, 748-758, 358-370, 380-391; whole_body_controller.h: 32-33, 162-188, 44-58, 80-83, 110-154, 198-222; task_bodycom.h: 130-148, 73-157; task_basecom.h: 79-101, 95-100; task_tagpose.h: 74-101, 62-69, 22-26, 84-87; core/include/humoto/utility.h: 87-92; constants.h; task_baseorient.h: 79-107; utility.h: 48-56; task_tagorient.h: 66-74, 79-109; task_tagangularvel.h: 74-104; task_tagcompletevel.h: 74-104; task_tagpose3dof.h: 76-104; bridges/rbdl/interface/rbdl/model.h
* `PepperLoop.v`: modules/pepper_mpc/include/pepper_mpc/mpc_mg.h; model.h: 277-348, 356-361; preview_horizon.h: 94-97, 86-111, 165-190; test_001_body.h: 87-88, 64-89, 69-89; common.h: 40-48; mpc_mg.h: 379-470, 450-470, 22-23, 334-372, 379-395, 402-406, 418-440, 537-551, 559-570, 581-588, 598-603, 658-668, 679-689, 379-689, 418-470; control_problem.h: 43; humoto_helpers.h: 70-87
* `PepperModel.v`: modules/pepper_mpc/include/pepper_mpc/two_point_mass_model.h; model.h: 113-161, 99-106, 249-269, 181-199; model_state.h: 70-78, 41-62, 41-48, 64-67, 85-88, 98-103, 114-120, 147-160, 172-186; rigid_body_state.h; rotary_state.h; point_mass_state.h: 44-54; two_point_mass_model.h: 104-111, 123-130, 173-211, 216-224, 234-267, 305-360, 305-328, 337-360, 278-292
* `PepperMpc.v`: modules/pepper_mpc/include/pepper_mpc/mpc_mg.h; mpc_mg.h: 80-263, 31-39, 49-72, 537-551, 275-328, 559-570; preview_horizon.h: 274-280; eigentools/blockmatrix.h: 200-207; blockmatrix_kronecker.h: 458-480, 494-498
* `PepperPreview.v`: modules/pepper_mpc/include/pepper_mpc/common.h; preview_horizon.h: 222-225, 51-72, 20-47, 86-111, 179, 210, 180-183, 165-190, 214-250, 202-253, 367-384, 396-413; mpc_mg.h: 487-522, 332, 478-523, 450-470, 419-440; common.h: 176-199, 190, 223-230, 279-352, 360-363; modules/wpg04/include/wpg04/mpc_wpg.h: 563-580
* `PepperProgram.v`: modules/pepper_mpc/tests/regression_test_000_body.h; modules/pepper_mpc/tests/test_001_body.h; modules/pepper_mpc/tests/utilities.h; utilities.h: 26, 27, 28, 29, 31-32, 34, 35, 36, 39-63; task_basevelocitybounds.h: 29-53, 57-85; task_bodypositionbounds.h: 29-51, 55-83; task_coppositionbounds.h: 29-53, 57-85; task_baseaccelerationbounds.h: 29-54, 58-86; task_basepositionref.h: 30-51; task_basevelocityref.h: 30-53; task_basejerkminimization.h: 30-43; task_bodyjerkminimization.h: 22-26; task_copcentering.h: 30-38; common.h: 40-103, 330-363, 176-199; regression_test_000_body.h: 87-103, 101-103, 84-104, 24-80; test_001_body.h: 70-90, 57-95, 21-40, 153, 200, 76, 118, 170, 216, 81, 123, 175, 221, 126, 178, 67-76, 84-90, 126-134, 178-187, 223-231, 64-94, 106-141, 155-191, 203-237, 21-54; hierarchy_level.h: 60-102, 207-233; task_generic.h: 79-117, 116; task.h: 178-194, 140-170; constraints.h: 22-52; hierarchy.h: 39-54, 106-172; control_problem.h: 64-69; solution.h: 214-219; mpc_mg.h: 613-647; solver.h: 155-162
* `PepperRobot.v`: modules/pepper_mpc/include/pepper_mpc/common.h; common.h: 91-103, 55-87, 135-156, 70-73, 83-86, 107-118; preview_horizon.h: 94-97
* `PepperTasks.v`: common.h: 60-63; utility.h: 133-136; preview_horizon.h: 274-342; task_basevelocitybounds.h: 69-83, 29-53, 57-85; task_basevelocityref.h: 30-53; task_baseaccelerationbounds.h: 29-54, 70-84, 58-86; task_coppositionbounds.h: 29-53, 69-83, 57-85; task_bodypositionbounds.h: 29-51, 67-81, 55-83; task_basejerkminimization.h: 30-43; task_basepositionref.h: 30-51; task_bodypositionref.h: 27-38; task_copcentering.h: 30-38; task_bodyjerkminimization.h: 22-26
* `PointMass6z.v`: core/include/walking/point_mass_model_6z.h; core/include/humoto/constants.h; point_mass_model_6z.h: 192-245, 39-53, 59-73, 79-86, 106-109, 117-128, 134-144, 169-177, 192-200, 215-221, 236-245, 260-266, 272-280, 286-298, 304-311, 319-325, 147-163; core/include/rigid_body/point_mass_state.h; point_mass_state.h: 19-54
* `Problem.v`: core/include/humoto/hierarchy.h; hierarchy.h: 23-26, 245, 238-246, 77-80, 280-283, 91-96, 51-52, 39-54, 312-315, 62-70, 106-111, 164-172, 122-129, 142-152, 181-190, 202-211, 221-230; active_set.h: 292-310; violations.h: 249-267, 308-318; constraints_mixins.h: 564-568, 728-732, 873-877, 1010-1014; constraints.h; hierarchy_level.h: 149-158, 169-178
* `QP.v`: core/include/eigentools/eigentools.h: 202-319; humoto/constraints.h; humoto/hierarchy_level.h: 479-496; humoto/qp_problem.h; humoto/hierarchy.h: 329-347; eigentools.h: 211, 244, 268, 297, 206-210, 235-241, 266-269, 290-296, 229-246, 202-213, 260-271, 284-299, 310-319; constraints_mixins.h: 799-805, 945-951, 495-499, 634-637, 789-795, 935-941, 503-507, 641-644, 70-73, 77-80; constraints.h: 203-215, 261-273, 720-726, 214, 203-207, 261-265, 472-481, 538-542, 756-761, 806-810, 1059-1063, 211-215, 269-273, 485-490, 546-550, 765-769, 814-818, 1067-1071; constraints_base.h: 436-447; hierarchy_level.h: 479-496; qp_problem.h: 20-36, 56-90, 168-176, 207-217, 302-305, 225-232, 316-321, 380-386; hierarchy.h: 329-347
* `QpoasesBridge.v`: bridges/qpOASES/interface/qpoases/solver.h; solver.h: 353-393, 411-462, 130-163, 492-505, 166-178, 327-350, 296-394, 411-433, 438-462, 404-463; qp_problem.h: 38-50; constraints_base.h: 128-132
* `Rbdl.v`: bridges/rbdl/interface/rbdl/model.h; tag.h: 26-38, 46-62, 80-98, 51-65, 85-98; SpatialAlgebraOperators.h; Model.h; model.h: 664-745, 719-745, 759-802, 99-135, 646-864, 742-745, 646-657, 37-50, 664-693, 99-120, 128-135, 143-146, 719-731, 851-864, 759-785, 796-802, 158-162, 173-179, 189-195, 205-221, 244-266, 276-279, 289-292, 303-319, 331-334, 344-347, 401-404, 414-417, 427-430, 832-840, 815-841, 475-480, 491-496, 440-464, 506-527
* `Rotary.v`: core/include/rigid_body/rotary_state.h; core/include/eigentools/cross_product.h; rotary_state.h: 19-30, 71-94, 279-282, 116-120, 116-219, 123-131, 142-161, 175-182, 196-219; humoto/utility.h: 61-70; cross_product.h: 42-58, 72-76, 90-94
* `SmallMatrix.v`: triple_integrator.h: 51-100, 116-154, 172-274; point_mass_model_6z.h: 134-163
* `Solution.v`: core/include/humoto/solution.h; solution.h: 37, 122-136, 59-63, 35-39, 72-80, 88-98, 109-112, 175-190, 214-219, 229-242, 294-299, 281-284, 257-269, 251-270
* `Solver.v`: core/include/humoto/solver.h; /solver.h: 14-20; core/include/kktsolver.h; solution.h: 20-26, 193-196; solver.h: 393-452, 27-53, 102, 110, 121, 130, 215, 272, 281, 85-93, 155-162, 173-183, 230-239, 297-308, 319-328, 339-348, 393-406, 418-429, 441-452, 264-275, 120-131, 93-100; qpOASES/solver.h: 264-275; qpmad/solver.h: 120-131; QuadProgpp/solver.h: 93-100; humoto/solver.h: 27-53, 102-130, 215, 272, 281
* `SolverLife.v`: bridges/qpOASES/interface/qpoases/solver.h; core/include/humoto/solver.h; humoto/solver.h: 19-51, 85-452, 142-146, 469-487, 85-93, 155-162, 173-183, 230-239, 297-308, 319-328, 339-348, 393-406, 418-429, 441-452, 85-487; qpoases/solver.h: 20-112, 237-262, 291, 237-291, 135-161, 175, 474-487, 182-291, 494-498, 516-521, 504-507, 134-539, 166-178, 468-471, 404-463, 296-394; humoto/solution.h: 30-54, 193-196; qpoases/solution.h: 21-28; humoto_helpers.h: 70-87
* `SpatialTransform.v`: bridges/rbdl/interface/rbdl/spatial_transform.h; spatial_transform.h: 27-33, 44-56, 95-101, 89-103, 115-126, 138-143, 146-167
* `StanceFSM.v`: core/include/walking/stance_finite_state_machine.h; stance_finite_state_machine.h: 20-40, 46-63, 74-85, 92-117, 159-171, 137-153, 178-187, 232, 278-283, 235-275, 431-511, 316-377, 408-425, 383-388
* `Task.v`: core/include/humoto/task_generic.h; humoto/task.h; task.h: 402, 112, 429-434, 108-112, 124-128, 466-470, 41-46; task_generic.h: 36-38, 60-69, 47-50, 83-91, 79-117, 135, 140-160, 146-153, 162-170, 181-183, 192-198, 208-231
* `Time.v`: core/include/humoto/time.h; time.h: 22-51, 22-25, 35-51, 35-38, 48-51
* `TripleIntegrator.v`: core/include/rigid_body/triple_integrator.h; triple_integrator.h: 51-367, 55-58, 69-72, 82-85, 95-98, 51-100, 120-124, 134-138, 148-152, 116-154, 176-179, 190-193, 203-206, 216-219, 172-221, 240-244, 254-258, 268-272, 236-274, 292-321, 338-367
* `WalkLoop.v`: modules/wpg04/include/wpg04/mpc_wpg.h; model.h: 119-122, 129-133, 142-145, 77; preview_horizon.h: 96-106, 389-391, 317, 471-541, 368-374; mpc_wpg.h: 300-392, 34, 38-46, 35, 49-52, 24-25, 228-256, 233-254, 261-279, 285-288, 400-419, 95-170, 431-439, 450-456, 467-492, 555-605, 261-605, 300-419; common.h: 199-202; humoto_helpers.h: 70-87
* `WalkModel.v`: modules/wpg04/include/wpg04/model.h; model_state.h: 84-95, 38-56, 60-82, 149-166; mpc_wpg.h: 181-225, 95-170; leftright.h: 57-61, 94-115, 72-115; model.h: 74-77, 36-62, 33-70, 154-212; position_.h; preview_horizon.h: 208-212
* `WalkMpc.v`: modules/wpg04/include/wpg04/mpc_wpg.h; mpc_wpg.h: 38-46, 32-53
* `WalkPreview.v`: modules/wpg04/include/wpg04/preview_horizon.h; wpg04/common.h; common.h: 114-140, 92-97, 158-166; preview_horizon.h: 21-66, 471-541, 248-327, 236-328, 243-245, 96-104, 380-460, 446-450, 384-458, 138-155, 354-462
* `WalkProfiles.v`: modules/wpg04/include/wpg04/mpc_wpg.h; preview_horizon.h: 96-106, 389-390, 389, 390; mpc_wpg.h: 67-73, 79-81, 310-380, 32-84, 251-254, 400-419, 400-420, 554-600, 100-110
* `WalkProgram.v`: modules/wpg04/tests/regression_test_000_body.h; modules/wpg04/tests/utilities.h; wpg04/common.h: 41-43, 41-46; preview_horizon.h: 256-311, 319, 388; task.h: 20-35, 108-112, 178-194, 244-255; utilities.h: 29, 30, 26, 28, 27, 33-40, 59-67, 168-175; task_footstepbounds.h: 42-45, 29-45, 50-91, 95-137; task_copbounds.h: 35, 41-67, 71-91; task_comvelocity.h: 42, 48-69; task_copvelocity.h: 42-45, 49-70; task_copposition.h: 43-47; regression_test_000_body.h: 66-288, 66-93, 24-41, 78, 115, 151, 190, 231, 269, 81, 118, 154, 193, 234, 272, 119, 194, 71-77, 82-86, 119-124, 155-160, 194-201, 236-241, 274-279, 68-86, 24-60; qpoases/solver.h: 166-291; hierarchy_level.h: 60-102, 207-233; task_generic.h: 79-117, 116; constraints.h: 22-52; solution.h: 127-133, 214-219, 35-39, 193-196; hierarchy.h: 39-54, 106-172; control_problem.h: 64-69; solver.h: 155-162
* `WalkProgramFacts8.v`: task_comvelocity.h: 31; task_copvelocity.h: 31; task_copposition.h: 32; regression_test_000_body.h: 50-51
* `WalkTasks.v`: preview_horizon.h: 22-52, 207-212, 165-169, 179-184; eigentools.h: 758-772; mpc_wpg.h: 261, 273; task_comvelocity.h: 66-68, 48-69; solution.h: 147-168; task_copvelocity.h: 49-70; task_copposition.h: 43-47; task_terminalconstraint.h: 48-65; task_copbounds.h: 41-67, 71-91; task_footstepbounds.h: 75-88, 50-91, 95-137

### Print Assumptions of each theorem

Every `Prop_*.v` file prints the assumptions of its theorems when it is compiled. Grouped by the listed axioms:

* Closed under the global context (no axioms): C01_checkLength_model_is_machine, C01_checkLength_overflow_safe, C02_copyFrom_outcome, C02_copyTo_frame, C02_copyTo_outcome, C02_copyTo_spills_refuted, C02_copy_round_trip, C02_initialize_from_outcome, C02_set_location, C03_count_active, C03_shift_compose, C03_shift_effect, C03_shift_rejected, C04_active_set_equality, C06_disjoint, C06_inside, C06_layout, C06_number_of_variables, C06_partition, C06_readding, C06_unknown, C08_accepted_iff, C08_numbers, C08_partition, C08_tasks_and_sizes, C09_collect, C09_default_guess, C09_distribute, C09_own_guess, C09_round_trip, C107_index, C15_failure_throws, C15_no_silent_failure, C15_otherwise_returns, C15_protocol, C19_accepted_parameters, C19_alternation, C19_durations_are_configured, C19_executions_follow_sequence, C19_step_bookkeeping, C20_exact_number_of_steps, C20_exact_number_of_steps_from_ss, C20_terminal_is_absorbing, C20_undefined_foot_refuted, C21_shiftTime_deterministic, C21_slicing_is_irrelevant, C21_time_shifts_compose, C22_accepted_states_are_well_formed, C22_preview_predicts, C22_preview_succeeds, C22_preview_zero_refuted, C23_diverges_in_final_double_support, C23_shiftTime_diverges, C23_shiftTime_terminates, C36_history, C36_invert, C36_reads, C36_undefined_rejected, C36_write_read_frame, C40_constructor, C43_symmetric, C47_after_request, C47_in_order, C47_mutual_exclusion, C47_no_undefined_behaviour, C47_nothing_lost, C47_shutdown_can_finish, C47_to_active_output, C47_without_output, C48_no_output, C48_one_file, C48_second_file_fails, C48_second_file_refuted, C49_empty_ignored, C49_separators_ambiguous, C49_unambiguous, C52_decoding_unique, C52_file_decodes, C52_number_of_entries, C52_stream_decodes, C54_accepted_iff, C54_zero_subsampling, C56_set_state, C57_endless, C57_rest, C57_single, C57_single_command, C57_single_duration, C57_time_line, C57_time_line_default, C57_total, C57_valid, C58_receding, C59_inside, C59_outside, C59_sound, C59_walking, C62_accepted_iff, C62_stale_guess_refuted, C62_with_guessing, C70_update, C75_copy_from, C75_copy_to, C75_initialised, C75_initialised_from, C75_level_set, C75_level_set_rejected, C75_levels_initialised, C75_levels_overrun, C75_round_trip, C78_footsteps, C78_footsteps_refuted, C78_pepper_inactive, C78_pepper_one_interval_refuted, C78_pepper_shifted, C78_walk_cop, C78_walk_cop_first, C78_walk_one_interval_refuted, C78_wrong_size, C82_built, C82_form_accepted, C82_form_effect, C82_guess, C82_process, C82_push, C82_reset_sizes, C82_round_trip, C82_stale_sizes_refuted, C87_tags, C89_back, C89_columns, C94_built, C94_written, C95_coordinates_valid, C96_columns, C96_construct, C96_constructed, C96_one_block, C96_rows, C97_accepted, C97_not_formed

* `ClassicalDedekindReals.sig_forall_dec`: C07_self_warm_start_is_zero, C07_short_old_solution_rejected, C07_warm_start, C106_hierarchies, C106_third_hierarchy, C10_other_container_refused, C11_all_constraints_form, C11_other_container_refused, C13_inequalities_rejected, C14_level_count, C14_one_level_keeps_constraints_partial, C17_gain_ignored, C30_through_3d, C30_through_6d, C37_rejects, C39_generic_times_dense, C39_lower1_times_dense, C39_lower_times_dense, C39_sizes_rejected, C39_wide_rejected, C40_diagonal_times_scalar_refuted, C40_evaluate, C40_evaluate_into_block, C40_function, C41_column, C41_column_behind, C41_column_refuted, C41_column_rejected, C41_row, C41_row_behind, C41_row_refuted, C41_row_rejected, C42_horizontal, C42_horizontal_three, C42_vertical, C42_vertical_refuted, C42_vertical_same_width, C46_defined, C46_rejected, C46_selective, C46_sizes, C50_missing_section, C50_msgpack_round_trip, C50_nested_failure, C50_parent_finalize_refuted, C50_relaxed_missing_entries, C50_strict_missing_entry, C50_yaml_stored, C51_kept_iff, C51_matrix_read_back, C51_matrix_read_back_yaml, C51_row_kept, C51_square_transposed, C53_position, C61_pepper, C61_pepper_first, C61_pepper_other_length, C61_walking, C61_walking_first, C61_walking_other_length, C64_list, C64_repeated, C70_parameters, C70_positions, C75_zero, C75_zero_segment, C94_missing_section, C94_msgpack, C94_pepper_ik_entries, C94_read, C94_refused_file_refuted, C94_relaxed_missing_section_refuted, C94_relaxed_missing_task_refuted, C94_renamed_refuted, C94_round_trip, C94_same_description_refuted, C94_undefined, C94_unknown_name_refuted, C94_yaml, C95_obstacle_read, C95_obstacle_refuted, C95_solution_read, C95_solution_refuted, C95_solution_unchanged, C96_blocks, C96_consistent, C96_harmless, C96_known, C96_refused_set_refuted, C96_refused_size_refuted, C96_restored, C96_result, C96_unknown_size_refuted, C96_write_accepted, C96_written

* `ClassicalDedekindReals.sig_forall_dec`, `FunctionalExtensionality.functional_extensionality_dep`: C04_active_set_lower, C04_active_set_two_sided, C04_active_set_upper, C04_meaning_unique, C04_product_is_row_value, C04_rejected, C05_bound_differences, C05_product_is_row_value, C05_violations_equality, C05_violations_equality_zero, C05_violations_lower, C05_violations_two_sided, C05_violations_upper, C100_once, C102_velocity, C104_plan_unique, C106_references, C107_grid, C10_equality_inequality_form, C11_bounds_general_form, C11_gains_throw, C12_same_points, C12_tightest_bounds, C13_objective, C13_objective_lower_triangle, C14_accepted, C14_one_level_refuted, C14_two_levels_AB, C14_two_levels_AB_AL, C14_two_levels_ILU_ALU, C15_bridge_status, C16_direct, C16_elimination, C16_elimination_refuses, C16_hierarchy_direct, C16_hierarchy_direct_returns, C16_hierarchy_elimination, C16_inequality_refused, C16_stationary_is_minimum, C16_unique_minimum, C16_well_posed_direct, C16_well_posed_elimination, C17_selected_variables, C17_stale_gain_refuted, C17_zero_variables_partial, C24_derivatives, C24_end_conditions, C24_inside, C24_monotone, C24_sampling, C24_scale, C25_attained, C25_boundary_velocities_refuted, C25_exact_iff, C26_clearance, C26_continuous, C26_discontinuous, C26_ends, C26_final_position_refuted, C26_foot_state, C26_horizontal, C26_initialised, C26_rejected, C26_states_at_rest, C26_states_initialised, C26_velocity_factor, C26_vertical_velocity_refuted, C26_with_states, C26_with_velocities, C27_commanded_attained, C27_defined, C27_same_dynamics, C28_derivatives, C28_full_subsample, C28_subsample, C28_subsample_and_continue, C29_cop_output, C33_simple_scheme_drift, C33_simple_scheme_velocity, C34_antisymmetric, C34_zero, C35_bounds_ordered, C35_cop_bounds, C35_fixed_positions, C35_mirror, C35_other_foot, C35_rejected, C35_round_trip, C35_step_bounds, C37_block, C37_dense, C37_time_invariant, C38_block, C38_groups_partial, C38_groups_refuted, C38_time_invariant, C39_block_times_diagonal, C39_dense_times_diagonal, C39_diagonal_times_block, C39_diagonal_times_dense, C39_rectangular_refuted, C40_diagonal_times_scalar, C40_scalar_times_diagonal, C40_scalar_times_vector, C40_times_diagonal, C40_times_vector, C43_add, C43_add_offset, C43_get, C43_get_offset, C43_whole, C45_cross_matrix, C45_squared, C46_compose, C46_inverse, C46_velocity, C51_matrix_refuted, C53_after_failure_refuted, C55_formed_horizon, C56_accepted_iff, C56_change_of_support_refuted, C56_foot_history, C56_longer_tds_refuted, C56_one_update, C56_support_position, C59_seconds_inside, C59_seconds_outside, C59_seconds_sound, C60_equal_commands_partial, C60_first_interval_partial, C60_later_interval_refuted, C60_later_interval_wrong, C60_state_partial, C63_infeasible, C64_applied, C65_after_end_always, C65_end_of_walk_always, C65_end_of_walk_refuted, C65_formed_or_false, C65_off_grid_refuted, C65_terminates, C66_bounds, C66_first_heading, C66_headings, C67_out_of_range_refuted, C67_rotations_partial, C69_cop, C69_motion, C69_profiles, C69_tasks, C69_wrong_size, C70_heights_refuted, C71_cop, C71_masses, C71_masses_refuted, C71_next_state_partial, C72_state_cop, C76_base_acceleration, C76_base_velocity, C76_body, C76_cop, C77_base_jerk, C77_base_position, C77_base_velocity, C77_body_jerk, C77_body_position_aligned, C77_body_position_partial, C77_body_position_refuted, C77_cop_centering, C81_cop, C81_fixed_footsteps, C81_fixed_within, C81_footsteps, C83_determine, C83_determined_tasks, C83_violations, C83_zero_iff_satisfied, C84_complete, C84_guess, C84_initialize, C84_one_level, C84_one_level_guess_refuted, C84_reported, C84_reuse_refuted, C84_round_trip, C84_true, C85_negative_factor, C85_one_level, C85_qpmad, C85_qpoases, C85_quadprogpp, C86_com_velocity, C86_links, C86_partial_com_velocity, C86_poses, C86_update, C86_velocity, C87_com, C87_fixed_mass_refuted, C87_groups, C87_partial_com, C87_unknown_name_refuted, C88_bounds, C88_check, C88_default, C88_fix, C88_history, C88_reference, C92_unsaved, C94_core_entries, C94_names, C94_pepper_mpc_entries, C94_tables, C94_walk_entries, C95_constructed_states, C95_feet_derived, C95_kkt_read, C95_kkt_refuted, C95_pepper_mpc_derived, C95_restored, C95_solver_parameters_kept, C95_solver_parameters_refuted, C95_walk_mpc_derived, C95_walk_mpc_valid, C95_walk_mpc_zero, C95_walk_state_height, C95_walk_state_refuted, C95_wbc_derived, C95_wbc_refuted, C95_wbc_stale, C97_copy_refuted, C97_memory, C97_other_size_refuted, C97_outcome, C97_own_call, C97_refused, C97_short_guess_refuted, C97_short_solution_refuted

* `ClassicalDedekindReals.sig_forall_dec`, `ClassicalDedekindReals.sig_not_dec`, `FunctionalExtensionality.functional_extensionality_dep`: C100_compatible, C100_converges, C100_interval, C100_intervals, C100_iterations, C100_limits, C100_reference, C100_speed_refuted, C100_stopped_base_com, C100_stopped_base_orientation, C100_stopped_body_com, C104_bounds, C104_case, C104_continues, C104_contradiction, C104_default_case, C104_determined, C104_discs, C104_feasible, C104_gentle, C104_halts, C104_memory, C104_movable, C104_optimal, C104_refines, C104_rests, C104_starts, C104_stuck_refuted, C104_total, C105_active, C105_case, C105_nothing, C105_solution, C106_case_control, C106_case_solvable, C106_case_step, C106_control, C106_interval, C106_intervals, C106_limits, C106_refuses, C106_second_case, C106_second_hierarchy_refused, C106_starts, C106_step, C106_stopped, C106_third_case, C107_asks, C107_case_outside, C107_case_turn, C107_flags, C107_iteration, C107_limits, C107_points, C107_starts, C108_begins, C108_case, C108_fails, C108_heading, C108_iterations, C108_moves, C108_optimal, C108_planned, C108_succeeds, C108_tracking, C108_tracks, C29_capture_point_velocity, C29_cop_interpolates, C29_cop_rate, C29_cop_reached, C29_height, C29_motion, C29_start, C29_subsample_and_continue, C31_product, C31_rotation, C31_supported, C32_angular_velocity, C32_others_rejected, C33_additive, C33_many_steps, C33_orthogonal, C33_result, C33_velocity, C34_axis_rotation, C34_rotation_error, C56_default_state, C57_update_and_shift, C58_formed, C58_intervals, C58_negative_duration_refuted, C58_single_agrees, C68_aligned_double_support, C68_feet_defined, C68_feet_rest, C68_landing_partial, C68_missed_landing_refuted, C73_computed, C73_cop, C73_cop_rate, C73_footsteps, C73_motion, C73_predicted_cop, C74_ends, C74_inside, C74_next_state, C74_outside, C74_start, C79_corners, C79_largest, C79_nonempty, C79_sound, C80_cop_position, C80_cop_velocity, C80_terminal, C81_footprints, C88_load_refused, C88_loaded, C90_base_com, C90_base_orientation, C90_body_com, C90_body_com_refused, C90_state_error, C90_tag_followed, C90_tag_orientation, C90_tag_pose, C90_tag_pose_unset, C91_angular_velocity, C91_complete_velocity, C91_desired_poses, C92_command, C92_correct, C92_followed, C92_saved, C92_saved_pose, C93_base_yaw, C93_converted, C93_matrix_to_euler, C93_root_orientation, C93_root_position, C93_tag_poses, C95_constructed, C95_filled, C95_reset, C95_robot_derived, C95_robot_parameters_read, C95_robot_parameters_refuted, C95_same_defaults, C95_yaml, C98_between, C98_between_refuted, C98_bounds, C98_guarded, C98_heading, C98_heights, C98_iterations, C98_motion, C98_same_answer, C98_settings_refuted, C98_stopped_refuted, C98_subsampled_acceleration, C98_subsampled_velocity, C99_cop, C99_end, C99_feet, C99_guarded, C99_horizons, C99_iterations, C99_landing, C99_motion, C99_plan, C99_realizable, C99_same_answer, C99_sampled, C99_schedule, C99_steps, C99_stopped_refuted, C99_subsampling_refuted

* `ClassicalDedekindReals.sig_forall_dec`, `ClassicalDedekindReals.sig_not_dec`, `Classical_Prop.classic`, `FunctionalExtensionality.functional_extensionality_dep`: C101_case, C101_complete, C101_cop, C101_determined, C101_end, C101_feet, C101_ignored_case, C101_ignored_refuted, C101_memory, C101_optimal, C101_refines, C101_solvable, C101_total, C103_active, C103_case, C103_nothing, C103_same, C103_solution, C104_same, C108_case_robot, C108_heading_refuted, C18_nearest, C18_round_trip, C18_truncation, C18_truncation_loses_refuted, C44_first_behind_refuted, C44_operator, C44_selected, C44_zero_step_refuted, C50_yaml_decimals, C50_yaml_number_error, C50_yaml_number_refuted, C50_yaml_number_stable, C80_com_velocity, C90_other_tag_refuted, C90_pose_3dof_refuted, C91_complete_velocity_refuted, C91_desired_poses_refuted, C92_wheels, C92_yaw_refuted, C93_base_yaw_refuted, C93_root_yaw_refuted, C96_selected_blocks, C96_selected_dynamic, C96_selected_matrix, C96_selection_of_nothing_refuted, C96_selection_refuted, C96_selection_unchecked_refuted

