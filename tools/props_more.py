p("C76", "An optimization interrupted by an exception can be reopened from its directory",
  "If run_optimization or run_optimization_task writes to a fresh directory and then ends, normally or by an exception raised at any point by the cost function, task, solver, sampler or updater, a session opened on that directory has the same n_samples_per_update and returns, for every completed update, exactly the entries of that update (as loaded from their files), and the completed updates form a prefix of the calls made.",
  "all oracles, all exception points, all numbers of updates, all sequences of asks", "all crash points of unbounded runs", [f"{RO}:run_optimization", f"{ROT}:run_optimization_task", f"{LS}:from_dir"])
# ---------------------------------------------------------------- DMPs, continued
p("C77", "A newly constructed DMP can be executed at once",
  "Right after construction, integrate_start and analytical_solution succeed for all times, start at the initial state given to the constructor, at rest.",
  "all constructor arguments, DMP types and time vectors", "all arguments", [f"{DMP}:__init__", f"{DMP}:integrate_start", f"{DMP}:analytical_solution"])
p("C78", "analytical_solution and the differential equation describe the same system",
  "Every row of states and rates of change returned by analytical_solution satisfies differential_equation (where the closed forms of the subsystems do), and integrate_start returns its first row.",
  "all well-formed DMPs, all time vectors, all rows", "all times and states", [f"{DMP}:analytical_solution", f"{DMP}:differential_equation", f"{DMP}:integrate_start"])
p("C79", "A DMP remains executable through every history of operations",
  "After any sequence of successful set tau / set y_init / set y_attr / train / decouple / set_selected_param_names / set_param_vector / integration calls, analytical_solution succeeds for every time vector and the dimension is unchanged.",
  "all sequences of operations", "unbounded histories", [f"{DMP}:train", f"{DMP}:tau", f"{DMP}:y_attr", f"{DMP}:y_init", f"{DMP}:set_param_vector", f"{DMP}:decouple_parameters"])
p("C80", "Training adopts start, goal and duration of the demonstration",
  "After train(trajectory), tau is the duration, the initial and attractor states are the first and last positions, the dimension, scaling, selection and constants are as before, each function approximator has been trained on its own dimension of the targets, and no others.",
  "all DMPs, all demonstrations, all function approximators", "all demonstrations", [f"{DMP}:train", f"{DMP}:_compute_targets", f"{DMP}:from_traj"])
p("C81", "decouple_parameters does not change behaviour",
  "Giving the spring one damping coefficient per dimension changes neither analytical_solution nor differential_equation.",
  "all DMPs, states and times", "all states", [f"{DMP}:decouple_parameters"])
p("C82", "DMPs with forcing term converge to the goal",
  "For every DMP type whose gating vanishes and bounded function approximator predictions, the position converges to the goal, uniformly over all time vectors with steps in a fixed interval of stable lengths.",
  "all DMPs, all time vectors, all tolerances", "infinite horizons, all time steps", [f"{DMP}:analytical_solution", f"{DMP}:differential_equation"])
p("C83", "Integration and execution have no observable side effects",
  "Although differential_equation writes into the subsystems, the results of any sequence of differential_equation, integrate_start, analytical_solution calls are the same as on fresh copies of the DMP.",
  "all sequences of calls, all states", "unbounded histories", [f"{DMP}:differential_equation", f"{DMP}:integrate_start", f"{DMP}:analytical_solution"])
# ---------------------------------------------------------------- trajectories, continued
p("C84", "A trajectory survives its text file up to the precision of the file",
  "loadtxt(savetxt(trajectory)) gives a trajectory of the same shape whose numbers differ by at most half a unit of the seventh decimal, whose times increase if the original steps exceed 1e-7, and which is stored and loaded again unchanged.",
  "all trajectories with at least two samples, all roundings to seven decimals", "all data", [f"{TR}:savetxt", f"{TR}:loadtxt"])
p("C85", "The time step of a trajectory is the mean difference of its times",
  "The mean time step kept by the trajectory, which differentiation, append and padding use, equals the mean difference of the current times after every sequence of operations.",
  "all sequences of operations", "unbounded histories", [f"{TR}:__init__", f"{TR}:crop", f"{TR}:append", f"{TR}:prepend"])
p("C86", "A batch of inputs is predicted sample by sample",
  "Predicting a matrix of inputs gives, for each row, the value that predicting this row alone gives, whatever the other rows are; vectors of inputs are treated as one-column matrices.",
  "all trained function approximators (WLS, LWR, RBFN, GPR), all batches of any size", "all batches", [f"{WLS}:_predict", f"{LWR}:_predict", f"{RBFN}:_predict", f"{GPR}:_predict"])
# ---------------------------------------------------------------- contextual DMPs, continued
p("C87", "A contextual DMP reproduces its demonstrations",
  "After training, duration, start and attractor of the DMP are the means over the demonstrations; with policy parameter functions that interpolate (such as Gaussian processes), setting the task parameters of a demonstration gives the parameters of a DMP trained on this demonstration alone, and the same rollouts.",
  "all lists of demonstrations, all numbers of parameters and dimensions, all function approximators", "all demonstrations and task parameters", [f"{DCT}:train", f"{DCT}:set_task_params", f"{DCT}:analytical_solution"])
# ---------------------------------------------------------------- trajectories and demo tasks, continued
p("C88", "The range per dimension is the largest difference of positions",
  "get_range_per_dim returns one number per dimension, which is the difference of two positions of the trajectory in this dimension and at least as large as any such difference; an empty trajectory raises ValueError.",
  "all trajectories", "all data", [f"{TR}:get_range_per_dim"])
p("C89", "The arm task evaluates the forward kinematics of the arm",
  "For every joint trajectory, the link positions start at the origin, consecutive joints have the distance of the link length, the direction of each link is the sum of the angles up to it, and the costs are those of the position of the end of the arm; a via-point out of reach always has costs. The link lengths are the given ones, and sum to 1 if none are given.",
  "all numbers of joints, all joint trajectories, link lengths, via-points and weights", "continuum of trajectories, any number of joints",
  ["demos/python/bbo_of_dmps/arm2D/TaskSolverDmpArm2D.py:angles_to_link_positions", "demos/python/bbo_of_dmps/arm2D/TaskViapointArm2D.py:evaluate_rollout"])
p("C90", "The cost of gains lies between zero and its weight",
  "evaluate_rollout of the task with gain schedules returns the sum and three components: the weighted distance to the via-point at its time, the weighted mean absolute acceleration, and a cost of the gains that is 0 if all gains are minimal and at most the weight times the number of dimensions.",
  "all rollouts with gains within the bounds, all weights", "continuum", ["demos/python/bbo_of_dmps/with_schedules/demo_bbo_of_dmps_with_gains.py:evaluate_rollout"])
# ---------------------------------------------------------------- the differential equation of DMPs
p("C91", "The differential equation of a DMP is the documented one, in every state",
  "differential_equation(x) returns xd exactly if: tau*yd = z, tau*zd = (-k(y-goal) - d*z)/mass + prediction*gating*scaling, where the goal is the attractor or the state of the goal system and d the damping coefficient or the state of the damping system, and the rates of goal, phase, gating and damping are those of the subsystems with the goal system moving to the attractor. It is defined in all states, and earlier calls do not change it.",
  "all DMPs with any subsystems and function approximators, all states, any earlier calls", "continuum of states and parameters, unbounded number of dimensions",
  ["dmpbbo/dmps/Dmp.py:differential_equation"])
# ---------------------------------------------------------------- DMPs with schedules, continued
p("C92", "Schedules are the bounded predictions at the phase, and do not disturb the movement",
  "analytical_solution_sched(ts) returns the movement that analytical_solution(ts) returns, and one row of schedules per time: the predictions of the function approximators of the schedules at the phase of that time, limited to the bounds. integrate_start_sched and integrate_step_sched return the states that the calls without schedules return, with the schedules of the phase in that state; states_as_trajectory_sched keeps both.",
  "all DMPs with any number of schedules, all function approximators, times, states, step sizes and bounds", "continuum of times and phases, any number of schedules",
  ["dmpbbo/dmps/DmpWithSchedules.py:analytical_solution_sched", "dmpbbo/dmps/DmpWithSchedules.py:integrate_start_sched", "dmpbbo/dmps/DmpWithSchedules.py:integrate_step_sched", "dmpbbo/dmps/DmpWithSchedules.py:states_as_trajectory_sched"])
p("C93", "Schedules depend on the phase only",
  "Setting start, goal or parameters of the movement, and simulating it, in any order, leaves the schedules at all times as they were; multiplying the duration by c gives at c*t the schedules that were at t.",
  "all histories of such calls, all times, all factors c > 0", "unbounded histories, continuum of times",
  ["dmpbbo/dmps/DmpWithSchedules.py:analytical_solution_sched", "dmpbbo/dmps/Dmp.py:tau"])
p("C94", "Training reproduces the schedules of the demonstration",
  "train(trajectory) trains the movement as without schedules, and each schedule on the phases at the times of the demonstration with the values in its column of misc; if the function approximators fit these, analytical_solution_sched() returns the schedules of the demonstration, limited to the bounds. Schedules can instead be passed as the argument schedules.",
  "all demonstrations, numbers of schedules, function approximators and bounds", "all demonstrations",
  ["dmpbbo/dmps/DmpWithSchedules.py:train", "dmpbbo/dmps/DmpWithSchedules.py:from_traj"])
p("C95", "Numerical integration of a DMP approximates its analytical solution",
  "integrate(ts), by Euler or Runge-Kutta steps, and analytical_solution(ts) both return states for all times ts; the states differ by at most a constant times the largest time step, where the constant depends on the DMP and the final time only. This holds for DMPs of every type, after every history of training and of setting start, goal, duration and parameters, and for DMPs trained on a demonstration with radial basis function networks or locally weighted regression.",
  "all DMPs with Lipschitz continuous function approximators, all times up to T, equally spaced or not, any number of steps, both methods", "continuum of step sizes, any number of steps",
  ["dmpbbo/dynamicalsystems/DynamicalSystem.py:integrate", "dmpbbo/dmps/Dmp.py:differential_equation", "dmpbbo/dmps/Dmp.py:analytical_solution"])
p("C96", "Numerical integration of a dynamical system approximates its analytical solution",
  "For exponential, sigmoid and time systems, Richards systems with whole exponents, and critically damped spring-damper systems which start at rest (or with tau=1): integrate(ts), by Euler or Runge-Kutta steps, and analytical_solution(ts) differ by at most a constant times the largest time step, where the constant depends on the system and the final time only.",
  "all parameters, initial states and attractors, all times up to T, any number of steps, both methods", "continuum of step sizes, any number of steps",
  ["dmpbbo/dynamicalsystems/DynamicalSystem.py:integrate", "dmpbbo/dynamicalsystems/DynamicalSystem.py:integrate_step_runge_kutta", "dmpbbo/dynamicalsystems/DynamicalSystem.py:integrate_step_euler"])
p("C97", "Objects do not depend on later changes of the arrays of the caller",
  "Changing an array in place never changes what a dynamical system, function approximator or DMP returns, if the program leaves alone the arrays which an object keeps (those given to setters, to set_param_vector and train, and the attractor and parameters given to a constructor) or shares (those returned by getters of attributes, and the state returned by integrate_start); all other arrays, e.g. initial states given to constructors, times, states and solutions, may be changed and used again.",
  "all programs: any sequence of creating arrays, changing single numbers in place and calling methods, with any arguments", "unbounded histories of shared memory",
  ["dmpbbo/dynamicalsystems/DynamicalSystem.py:integrate_start", "dmpbbo/dynamicalsystems/DynamicalSystem.py:x_init", "dmpbbo/functionapproximators/FunctionApproximator.py:set_param_vector", "dmpbbo/dmps/Dmp.py:set_param_vector", "dmpbbo/dmps/Dmp.py:train", "dmpbbo/dynamicalsystems/SigmoidSystem.py:SigmoidSystem"])
p("C98", "A whole optimization does not depend on coordinates and units",
  "Expressing the search space in coordinates x' = c*x + v (mean, covariance, bounds, limits on the exploration and cost function accordingly) gives, with the same random numbers, the same optimization in these coordinates: all samples, means and covariances are the transformed ones, all costs and weights are equal. Expressing costs in another unit and with another zero changes nothing else with PI-BB; CEM and CMA-ES only use the order of the costs.",
  "all optimizations with any number of updates and samples, cost functions and tasks with any internal state, distributions with and without bounds, all updaters, c > 0, v; also optimizations that end with an exception", "unbounded histories, continuum of transformations",
  ["dmpbbo/bbo/run_optimization.py:run_optimization", "dmpbbo/bbo_of_dmps/run_optimization_task.py:run_optimization_task", "dmpbbo/bbo/updaters.py:UpdaterCovarAdaptation", "dmpbbo/bbo/DistributionGaussianBounded.py:generate_samples"])
# ---------------------------------------------------------------- trajectories in C++
p("C99", "Trajectories survive being exchanged between Python and C++ as text files",
  "A trajectory saved by Python and read in C++ with the right number of misc variables has the same number of time steps, dimensions and misc variables, and all numbers up to half a unit of the seventh decimal; saved by C++ and read in Python or C++, up to half a unit of the sixth, and saving it again changes nothing more. Both languages read the same numbers from such files. saveToFile returns whether the file was written, and leaves other files and, when false, everything as it was.",
  "all consistent trajectories with any number of time steps, dimensions and misc variables; all contents of the file system", "any size, continuum of values",
  ["src/dmp/Trajectory.cpp:saveToFile", "src/dmp/Trajectory.cpp:readFromFile", "src/eigenutils/eigen_file_io.tpp:loadMatrix", "src/eigenutils/eigen_file_io.tpp:saveMatrix", "dmpbbo/dmps/Trajectory.py:savetxt", "dmpbbo/dmps/Trajectory.py:loadtxt"])
p("C100", "C++ trajectories: generators, append and misc variables",
  "generateMinJerkTrajectory and generatePolynomialTrajectory give the numbers that their Python counterparts give, and fail on the same inputs. append gives all samples of the first trajectory and then those of the second without its first one, with times that increase if they did before, and (with assertions) only if the second starts where the first ends. generatePolynomialTrajectoryThroughViapoint keeps the given times, starts at rest in y_from, is in the via-point at the first time not before the time of the via-point and ends at rest in y_to. set_misc takes one row per time step, or one for all.",
  "all times, positions, via-points and trajectories of any length and dimension, with and without assertions", "continuum of inputs, any length",
  ["src/dmp/Trajectory.cpp:generateMinJerkTrajectory", "src/dmp/Trajectory.cpp:generatePolynomialTrajectory", "src/dmp/Trajectory.cpp:generatePolynomialTrajectoryThroughViapoint", "src/dmp/Trajectory.cpp:append", "src/dmp/Trajectory.cpp:set_misc"])
# ---------------------------------------------------------------- throwing a ball
p("C101", "The simulated ball is thrown as physics says, and alike in Python and C++",
  "The rows returned by run_python_simulation, and those saved by robotExecuteDmp and robotExecuteTrajectory, contain the movement of the hand of every time step, and a ball that is in the hand up to the first time step after 0.6 s, then falls with the velocity the hand had, and stays where it hits the floor. For a DMP read from its JSON representation, hand and ball of C++ are those of Python at every time step.",
  "all movements of the hand (DMPs of the plane with any parameters, trajectories with any number of equidistant samples), durations and heights of the floor", "continuum of movements, unbounded number of time steps",
  ["demos/robot/TaskThrowBall.py:run_python_simulation", "demos/robot/runSimulationThrowBall.cpp:ThrowBallSimulator::integrateStep", "demos/robot/robotExecuteDmp.cpp:main", "demos/robot/robotExecuteTrajectory.cpp:main"])
p("C102", "Costs of throwing a ball",
  "The cost of a throw is the sum of a landing cost, which is the distance of the final ball to the margin around the goal and zero exactly within it, and of an acceleration cost, which is the weighted mean of the squared accelerations of the hand; none is negative. The landing cost depends on position and velocity of the hand at the release only.",
  "all tasks (goals, margins, weights), all rollouts with at least eight columns, all simulated movements", "continuum of inputs, any number of time steps",
  ["demos/robot/TaskThrowBall.py:TaskThrowBall.evaluate_rollout", "demos/robot/TaskThrowBall.py:run_python_simulation"])
# ---------------------------------------------------------------- exploration around a demonstration
p("C103", "Every sample of an exploration reaches the robot as its own movement",
  "A DMP trained from any demonstration by step 1 of the robot demo can be given every parameter vector of the right length; step 3 writes one file per sample, under a name of its own, and the DMP that C++ reads from it moves exactly as the Python DMP with the parameters of that sample, although all files are written from the same object.",
  "all demonstrations, numbers of dimensions and basis functions, any number of samples, all calls in any order", "continuum of demonstrations and samples, unbounded number of files and calls",
  ["demos/robot/step1_train_dmp_from_trajectory_file.py:main", "demos/robot/step3_tune_exploration.py:main", "dmpbbo/dmps/Dmp.py:set_param_vector", "dmpbbo/json_for_cpp.py:savejson_for_cpp"])
# ---------------------------------------------------------------- force field
p("C104", "A rollout in a force field follows the DMP with its gains and responds to the force",
  "perform_rollout of the force field simulator starts in the initial state of the DMP; in each time step the desired movement is that of the DMP alone, and the robot is accelerated by a spring and damper (with the gain schedules, limited to their bounds) towards it and by the force. The response is linear in the strength of the force. With a constant gain the force moves the robot by at most a multiple of strength/gain, the robot stays close to the desired movement, and settles when the DMP rests. The costs of the task are those of this rollout.",
  "all DMPs with gain schedules (and all streams of desired movements), durations, numbers of time steps, strengths and times of the force", "continuum of movements and forces, unbounded number of time steps",
  ["demos/python/bbo_of_dmps/with_schedules/force_field_simulator.py:perform_rollout", "demos/python/bbo_of_dmps/with_schedules/demo_bbo_of_dmps_with_gains.py:TaskSolverDmpWithGainsAndForceField", "dmpbbo/dmps/DmpWithSchedules.py:integrate_step_sched"])
# ---------------------------------------------------------------- setting parameters of subsystems
p("C105", "Setting parameters of the subsystems changes exactly these parameters",
  "set_params_dyn_sys with a dictionary of parameters of the spring, goal and damping systems gives the DMP that would have been constructed with these parameters: they have the new values, all others keep theirs, and the DMP follows the differential equation with the new constants. Unknown names raise an exception. A parameter that was set takes effect.",
  "all DMPs, all dictionaries of settings, all later calls", "continuum of parameter values, any combination and order of settings",
  ["dmpbbo/dmps/Dmp.py:set_params_dyn_sys", "dmpbbo/dynamicalsystems/SigmoidSystem.py:SigmoidSystem._get_ks"])
# ---------------------------------------------------------------- improvement
p("C106", "Updates move the mean to lower costs",
  "The weights of an update give the samples a weighted mean cost that is at most their mean cost (less, for PI-BB with different costs, and at most a multiple of range/eliteness above the best). If the cost is a convex function of the sample, the new mean costs at most that much; if only its level sets are convex, at most as much as the worst sample with a weight. So in run_optimization and run_optimization_task, every evaluation costs at most the mean cost of the samples of the update before, in all updates; the cost functions of the demos are of this kind. With decaying exploration, the mean moves at most K/(1-factor) initial standard deviations in all updates together, if samples are within K standard deviations.",
  "all samples, costs, updaters and weighting methods that prefer low costs, all random generators, any number of updates and dimensions", "continuum of samples and costs, unbounded number of updates, any random numbers",
  ["dmpbbo/bbo/updaters.py:costs_to_weights", "dmpbbo/bbo/updaters.py:update_distribution", "dmpbbo/bbo/run_optimization.py:run_optimization", "dmpbbo/bbo_of_dmps/run_optimization_task.py:run_optimization_task", "demos/python/bbo/demo_bbo.py:DemoCostFunctionDistanceToPoint", "demos/python/bbo/demo_bbo_multiple_cost_components.py:DemoCostFunctionDistanceToPoint"])
p("C107", "Learning a via-point with a DMP is a convex problem",
  "If weights (RBFN), slopes and offsets (LWR) and maybe the goal of a DMP are the parameters, the rollout of TaskSolverDmp for a mix of two parameter vectors is the mix of their rollouts, in positions, velocities and accelerations at all times. So if the time of the via-point is given, every cost component of TaskViapoint and the total cost are convex functions of the parameters, and in run_optimization_task the evaluation of every update costs at most the average cost of the samples of the update before. The optimization succeeds with the updaters that do not adapt covariances, and DMPs trained with demonstrations are of this kind. Without a time for the via-point, or with the goal as parameter and a forcing term scaled with it, costs are not convex and an update may go from two samples without costs to a mean with costs.",
  "all DMPs with trained RBFNs or LWRs, all selections of these parameters, all via-point tasks with a time, all random generators, any number of samples and updates", "continuum of parameters and costs, unbounded number of updates, any random numbers",
  ["dmpbbo/bbo_of_dmps/TaskSolverDmp.py:perform_rollout", "demos/python/bbo_of_dmps/TaskViapoint.py:evaluate_rollout_local", "dmpbbo/bbo_of_dmps/run_optimization_task.py:run_optimization_task", "dmpbbo/dmps/Dmp.py:analytical_solution", "dmpbbo/dmps/Dmp.py:set_param_vector"])
# ---------------------------------------------------------------- linearity of training
p("C108", "Training is linear, so that images of demonstrations give images of movements",
  "For all regressors (weighted least squares, RBFN, LWR, GPR): training with targets that are a linear combination of other targets succeeds if training with those does, and the predictions, for every batch of inputs, are the same combination of the predictions. So if a demonstration is the image of another under an affine map (moved, scaled, mirrored, rotated, with dimensions dropped, repeated or mixed), from_traj succeeds for both, and the movement of its DMP is, in positions, velocities and accelerations at all times, the image of the movement learned from the other. Dimensions that are mixed must have function approximators of the same kind with the same settings.",
  "all training inputs and targets, all linear combinations, all affine maps between any numbers of dimensions, all demonstrations and all times of the rollout", "continuum of targets, maps and demonstrations, unbounded numbers of samples, dimensions and time steps",
  ["dmpbbo/functionapproximators/FunctionApproximatorWLS.py:_train", "dmpbbo/functionapproximators/FunctionApproximatorRBFN.py:_train", "dmpbbo/functionapproximators/FunctionApproximatorLWR.py:_train", "dmpbbo/functionapproximators/FunctionApproximatorGPR.py:_train", "dmpbbo/dmps/Dmp.py:from_traj", "dmpbbo/dmps/Dmp.py:analytical_solution"])
# ---------------------------------------------------------------- errors of forcing terms
p("C109", "Errors of forcing terms show in movements only divided by the square of the damping rate",
  "If the forcing terms of two rollouts of a critically damped DMP differ by at most phi, then at all times positions differ by at most phi/a^2, velocities by 2 phi/(a tau) and accelerations by 4 phi/tau^2 (a is half the damping coefficient), however long the movement is and on every time grid with steps of at most tau/a. So parameters of function approximators that differ by at most e give movements that differ by at most a constant times e; and a DMP trained with a smooth demonstration reproduces it, up to the error of the fit divided by a^2 and a term proportional to the time step. For minimum-jerk demonstrations of distance L and duration D, with steps of at most b, the positions are within (eps + (30 + 6a) L b/D)/a^2 of the demonstration.",
  "all DMPs that are critically damped, all forcing terms, parameters and demonstrations, all durations and time grids with short enough steps", "continuum of parameters and demonstrations, unbounded number of time steps and dimensions",
  ["dmpbbo/dmps/Dmp.py:analytical_solution", "dmpbbo/dmps/Dmp.py:from_traj", "dmpbbo/dmps/Dmp.py:_compute_targets", "dmpbbo/dmps/Dmp.py:set_param_vector", "dmpbbo/dmps/Trajectory.py:from_min_jerk", "dmpbbo/dynamicalsystems/SpringDamperSystem.py:differential_equation"])
# ---------------------------------------------------------------- speed of demonstrations
p("C110", "The speed of a demonstration does not matter",
  "A demonstration that is c times slower (times multiplied by c, velocities divided by c, accelerations by c^2) gives a DMP with c times the tau and exactly the same parameters of the function approximators, and its movement, on any times multiplied by c, has the same positions, with velocities divided by c and accelerations by c^2. (Changing tau afterwards does not do this for sigmoid gating, see C50.) The time at which a demonstration starts does matter, however: tau is its last time, which exceeds its duration by the time of its first sample.",
  "all demonstrations, all factors c > 0, all times of the rollout, all settings of RBFNs and LWRs", "continuum of demonstrations and factors, unbounded numbers of samples, dimensions and time steps",
  ["dmpbbo/dmps/Dmp.py:from_traj", "dmpbbo/dmps/Dmp.py:train", "dmpbbo/dmps/Dmp.py:_compute_targets", "dmpbbo/dmps/Dmp.py:analytical_solution", "dmpbbo/dynamicalsystems/SigmoidSystem.py:for_gating"])
# ---------------------------------------------------------------- bounded distributions
p("C111", "With a bounded distribution, no update tries anything outside the bounds",
  "If run_optimization or run_optimization_task starts with a DistributionGaussianBounded whose mean is inside its bounds, then all means, all samples and all parameters that are tried in cost functions and rollouts are inside the bounds, in all updates, with all updaters and weighting methods, and whether or not the run is ended by an exception; so is the final mean. What a robot or cost function would do outside the bounds does not matter at all. So if the bounds are at most e apart, any two rollouts of the whole optimization of a critically damped DMP (parameters: weights, slopes or offsets) have positions that differ by at most c g e/a^2 at every time. An initial mean outside the bounds is not clipped: it is tried as it is.",
  "all bounds, all random generators, tasks, cost functions, updaters and costs, any number of updates, samples and dimensions, all points at which a call may raise", "any random numbers and user code, unbounded number of updates, continuum of parameters, every point of failure",
  ["dmpbbo/bbo/DistributionGaussianBounded.py:generate_samples", "dmpbbo/bbo/updaters.py:update_distribution", "dmpbbo/bbo/run_optimization.py:run_optimization", "dmpbbo/bbo_of_dmps/run_optimization_task.py:run_optimization_task", "dmpbbo/bbo_of_dmps/TaskSolverDmp.py:perform_rollout"])

# ---------------------------------------------------------------- disturbances
p("C112", "A disturbed movement returns to the undisturbed one",
  "If the position and velocity of a critically damped DMP are changed between two calls of integrate_step or integrate_step_euler, by any amount, then all later steps are as possible as without the change; goal, phase and gating are those without the change; and the differences of position and velocity after k more steps of size dt are given by a closed formula: a geometric decay with ratio 1-u (Euler) or 1-u+u^2/2-u^3/6+u^4/24 (Runge-Kutta), u = a dt/tau, times a linear term. So with steps shorter than 2 tau/a (with the default damping coefficient: a fifth of tau) the disturbance becomes as small as one likes, whatever it was and whatever the forcing term is; with longer Euler steps it may never become smaller. This holds for DMPs of all types without a damping system after every history of calls.",
  "all DMPs, states, disturbances, times of disturbance, step sizes, numbers of steps, forcing terms, histories of calls", "continuum of disturbances and states, unbounded number of steps, all histories",
  ["dmpbbo/dmps/Dmp.py:differential_equation", "dmpbbo/dmps/Dmp.py:integrate_start", "dmpbbo/dynamicalsystems/DynamicalSystem.py:integrate_step", "dmpbbo/dynamicalsystems/DynamicalSystem.py:integrate_step_euler", "dmpbbo/dynamicalsystems/SpringDamperSystem.py:differential_equation"])

# ---------------------------------------------------------------- reaching goals
p("C113", "Step-by-step execution reaches the goal from every state, also when the goal is changed on the way",
  "If integrate_step or integrate_step_euler of a critically damped DMP without damping system is called again and again with steps that are short enough for spring, phase, gating and goal system (explicit bounds), then from every state, whatever its positions, velocities, goals and phase, all steps are possible, and the movement ends up at the goal at rest, for every forcing term that is bounded for bounded phases; RBFNs and LWRs are. If y_attr is set between the steps, as often as one likes and to any goals, every setting and step succeeds and the movement ends up at the last goal. For DMPs of the types of Ijspeert 2002 and Kulvicius 2012 and the countdown type this holds after every history of training, new starts, goals, durations, parameters and executions, with all step sizes below some positive bound, from the state of integrate_start and from every other one with a gating between 0 and 1. DMPs trained with from_traj with RBFNs or LWRs end up at the end of the demonstration in the same way.",
  "all DMPs of these types, histories of calls, states, step sizes below the bound, forcing terms, demonstrations, sequences of goal changes and numbers of steps between them", "continuum of states and goals, limit of an unbounded number of steps, all schedules of goal changes, all histories",
  ["dmpbbo/dmps/Dmp.py:differential_equation", "dmpbbo/dmps/Dmp.py:integrate_start", "dmpbbo/dmps/Dmp.py:y_attr", "dmpbbo/dynamicalsystems/DynamicalSystem.py:integrate_step", "dmpbbo/dynamicalsystems/DynamicalSystem.py:integrate_step_euler", "dmpbbo/dynamicalsystems/SigmoidSystem.py:differential_equation"])

# ---------------------------------------------------------------- dimensions
p("C114", "Each dimension of a DMP moves as if it were alone",
  "The dimensions of a DMP do not influence each other. If a dimension of one DMP and a dimension of another one (of any numbers of dimensions) have the same duration, phase, gating, spring, goal, scaling and predictions, then step-by-step executions from states that agree in these dimensions agree in them after every number of steps with integrate_step and integrate_step_euler, whatever the other dimensions are; in particular a disturbance of one dimension does not show in the others. The same holds if the goal is changed on the way (y_attr), as long as the new goals agree in these dimensions, and for analytical_solution at all times. A new DMP of several dimensions of the types of Ijspeert 2002 and Kulvicius 2012 or the countdown type has in each dimension the analytical solution and the executions of the new DMP of one dimension with that start, goal, damping coefficient and function approximator.",
  "all pairs of DMPs without damping system and with no or an exponential goal system, numbers of dimensions, states, step sizes, numbers of steps, times, predictions", "continuum of states and parameters of the other dimensions, any number of dimensions and steps",
  ["dmpbbo/dmps/Dmp.py:differential_equation", "dmpbbo/dmps/Dmp.py:analytical_solution", "dmpbbo/dmps/Dmp.py:integrate_start", "dmpbbo/dmps/Dmp.py:__init__", "dmpbbo/dynamicalsystems/SpringDamperSystem.py:differential_equation", "dmpbbo/dynamicalsystems/ExponentialSystem.py:differential_equation"])
