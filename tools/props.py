#!/usr/bin/env python3
"""Single source for properties.jsonl (run: python3 tools/props.py)."""
import json, os
P = []
def p(id, title, statement, quantifier, why, anchors):
    P.append(dict(id=id, title=title, statement=statement, quantifier=quantifier,
                  why_tests_cant=why, anchors=anchors))
UP = "dmpbbo/bbo/updaters.py"; LS = "dmpbbo/bbo/LearningSession.py"
DG = "dmpbbo/bbo/DistributionGaussian.py"; DGB = "dmpbbo/bbo/DistributionGaussianBounded.py"
RO = "dmpbbo/bbo/run_optimization.py"; LST = "dmpbbo/bbo_of_dmps/LearningSessionTask.py"
ROT = "dmpbbo/bbo_of_dmps/run_optimization_task.py"; SBS = "dmpbbo/bbo_of_dmps/step_by_step_optimization.py"
TSD = "dmpbbo/bbo_of_dmps/TaskSolverDmp.py"
FA = "dmpbbo/functionapproximators/FunctionApproximator.py"; BF = "dmpbbo/functionapproximators/basis_functions.py"
LWR = "dmpbbo/functionapproximators/FunctionApproximatorLWR.py"; RBFN = "dmpbbo/functionapproximators/FunctionApproximatorRBFN.py"
WLS = "dmpbbo/functionapproximators/FunctionApproximatorWLS.py"; GPR = "dmpbbo/functionapproximators/FunctionApproximatorGPR.py"
DMP = "dmpbbo/dmps/Dmp.py"; DWS = "dmpbbo/dmps/DmpWithSchedules.py"; DCT = "dmpbbo/dmps/DmpContextualTwoStep.py"
TR = "dmpbbo/dmps/Trajectory.py"
DS = "dmpbbo/dynamicalsystems/DynamicalSystem.py"; EX = "dmpbbo/dynamicalsystems/ExponentialSystem.py"
SI = "dmpbbo/dynamicalsystems/SigmoidSystem.py"; RI = "dmpbbo/dynamicalsystems/RichardsSystem.py"
SP = "dmpbbo/dynamicalsystems/SpringDamperSystem.py"; TI = "dmpbbo/dynamicalsystems/TimeSystem.py"

# ---------------------------------------------------------------- weights
p("C01", "Weights form a probability distribution",
  "For every non-empty list of costs, costs_to_weights returns one weight per cost, every weight is >= 0 and the weights sum to 1, for PI-BB and unknown method names with any eliteness, for CEM with any integer eliteness >= 1, and for CMA-ES with any integer eliteness between 1 and the number of costs.",
  "all non-empty cost lists of any length and any real values, all weighting methods, all admissible eliteness values",
  "infinitely many cost vectors and eliteness values; ties and degenerate ranges are measure-zero inputs a sampled test never hits",
  [f"{UP}:costs_to_weights"])
p("C02", "Inadmissible weighting inputs never produce a silent weight vector",
  "costs_to_weights fails exactly in these cases and in no other: PI-BB/unknown on an empty cost list (ValueError); a cost entry with no components (IndexError); CEM with eliteness 0 (ZeroDivisionError); rank methods with a non-integer eliteness (TypeError); CMA-ES with eliteness above the number of costs (IndexError); and the result is non-finite exactly when all raw rank weights are zero.",
  "all cost lists, all methods, all integer or real eliteness values",
  "the failing set is defined by the interaction of length, sign and type of eliteness; tests probe single points",
  [f"{UP}:costs_to_weights"])
p("C03", "A better sample never gets a smaller weight",
  "If sample i has a cost no larger than sample j, PI-BB (eliteness >= 0) gives i a weight at least that of j, with equality for equal costs; for CEM and CMA-ES a strictly smaller cost gives a weight at least as large, whatever order the sorting routine gives to ties.",
  "all cost lists, all index pairs, all admissible eliteness values, all tie orders of argsort",
  "monotonicity over all pairs and all tie-breaking orders is not enumerable",
  [f"{UP}:costs_to_weights"])
p("C04", "PI-BB weights ignore the unit and offset of the cost",
  "Replacing every cost c by a*c+b with a>0 leaves the PI-BB weights unchanged.",
  "all cost lists, all a>0, all b", "real-parameter family of transformations", [f"{UP}:costs_to_weights"])
p("C05", "Rank-based methods select and weight by rank only",
  "CEM gives weight 1/min(mu,n) to exactly min(mu,n) samples, none of which has a larger cost than an unselected one, and 0 to the rest; CMA-ES gives the sample of rank r (r=1..mu) weight (ln(mu+1/2)-ln r)/sum and 0 to the rest; any strictly increasing transformation of the costs leaves these weights unchanged when the costs are pairwise distinct.",
  "all cost lists, all 1<=mu (CMA-ES: mu<=n), all strictly increasing transformations, all tie orders",
  "quantifies over functions and over tie-breaking orders", [f"{UP}:costs_to_weights"])
p("C06", "Only the total cost influences an update",
  "If every sample's cost is a vector of components, only its first entry influences the weights: two cost lists with equal first entries give identical results, and a list of vectors gives the same result as the list of its first entries.",
  "all lists of scalar or vector costs, all methods and eliteness values",
  "arbitrary numbers of components per sample, possibly different per sample", [f"{UP}:costs_to_weights"])
p("C07", "The order in which samples are listed does not matter",
  "Permuting samples and costs together permutes the PI-BB weights identically and leaves the updated distribution of each Updater unchanged; for CEM and CMA-ES this holds whenever all costs are distinct.",
  "all permutations, all sample matrices and cost lists", "n! permutations, all n",
  [f"{UP}:costs_to_weights", f"{UP}:Updater.update_distribution"])
# ---------------------------------------------------------------- updaters
p("C08", "The new mean is a convex combination of the samples",
  "update_distribution of every updater sets the mean to the weighted average of the samples; hence every coordinate lies between the smallest and largest sample value in that coordinate, and any box that contains all samples contains the new mean.",
  "all distributions, sample matrices, cost lists, admissible methods/eliteness, all boxes",
  "continuum of samples", [f"{UP}:UpdaterMean", f"{UP}:UpdaterCovarDecay", f"{UP}:UpdaterCovarAdaptation"])
p("C09", "Mean-only updates never touch the covariance",
  "After any sequence of UpdaterMean updates the covariance matrix (and class and bounds of the distribution) equals the initial one; the distribution passed in is never modified.",
  "all histories of samples/costs of any length", "unbounded histories", [f"{UP}:UpdaterMean.update_distribution"])
p("C10", "Covariance decay is geometric and independent of the costs",
  "After n successful UpdaterCovarDecay updates the covariance equals covar_decay_factor^(2n) times the initial covariance, whatever the samples and costs were.",
  "all n, all histories, all decay factors", "unbounded histories", [f"{UP}:UpdaterCovarDecay.update_distribution"])
p("C11", "Covariance matrix adaptation computes the low-pass filtered weighted scatter",
  "Without diagonal bounds, entry (i,j) of the new covariance is (1-lr)*C_ij + lr*sum_s w_s*(x_si-m_i)*(x_sj-m_j) (off-diagonal scatter dropped when diag_only), and the result is symmetric whenever the current covariance is; learning_rate outside [0,1] is rejected with ValueError; learning_rate 0 keeps the covariance.",
  "all dimensions, samples, costs, learning rates", "all dimensions and real data", [f"{UP}:UpdaterCovarAdaptation"])
p("C12", "Covariance matrix adaptation preserves positive semi-definiteness",
  "If the current covariance is symmetric positive semi-definite then so is the new one, so that the next generate_samples is well defined.",
  "all dimensions, samples, costs, learning rates, diagonal_min/diagonal_max settings",
  "PSD is a statement about all directions; violations need particular correlations", [f"{UP}:UpdaterCovarAdaptation.update_distribution"])
p("C13", "Exploration bounds on the diagonal hold after every update",
  "After each UpdaterCovarAdaptation update of any history, every diagonal entry is <= diagonal_max^2 and >= diagonal_min^2 (when both are given and diagonal_min^2 <= diagonal_max^2), per dimension or scalar.",
  "all histories, dims, bounds", "unbounded histories", [f"{UP}:UpdaterCovarAdaptation.update_distribution"])
p("C14", "Updates commute with translations of the search space",
  "Translating the current mean and all samples by the same vector translates the new mean by that vector and leaves the new covariance and the weights unchanged.",
  "all translations, all updaters", "continuum", [f"{UP}:Updater.update_distribution"])
p("C15", "A distribution with inconsistent mean and covariance is rejected",
  "DistributionGaussian(mean, covar) raises ValueError exactly when the number of mean entries differs from the number of rows of the covariance (scalars count as size 1).",
  "all means and covariances", "all shapes", [f"{DG}:DistributionGaussian.__init__"])
p("C16", "Bounded distributions only produce samples within the bounds",
  "Every coordinate of every sample returned by DistributionGaussianBounded.generate_samples lies in [lower_bound, upper_bound] (when lower<=upper; absent bounds do not restrict), samples already inside are returned unchanged, and the shape is kept.",
  "all raw samples the random generator may return, all scalar/per-dimension/absent bounds",
  "outlier samples are rare events", [f"{DGB}:generate_samples"])
# ---------------------------------------------------------------- learning session
p("C17", "A learning session returns the last told object",
  "In any history of tell and ask calls, interleaved with arbitrary modifications by the caller of objects it passed in or received, ask(name,i_update,i_sample) returns a copy of the object most recently told under the same file basename in this session, as it was at the time of the tell.",
  "all histories of tell/ask/mutate, all names and indices", "unbounded histories with aliasing",
  [f"{LS}:tell", f"{LS}:ask"])
p("C18", "Entries with different coordinates do not overwrite each other",
  "get_base_name is injective on (name, i_update, i_sample) for non-negative integer indices and names that contain no '/' and do not start with a digit; in general distinct coordinates can collide and the collisions are characterised.",
  "all names, update and sample numbers", "zero-padding and name concatenation collide only on special names/numbers", [f"{LS}:get_base_name"])
p("C19", "exists() predicts ask()",
  "exists(name,i_update,i_sample) returns True if and only if ask with the same arguments returns an object.",
  "all session states and coordinates", "all states of cache and directory", [f"{LS}:exists", f"{LS}:ask"])
p("C20", "A session reopened from its directory sees what was told",
  "After any history of tells to a session with a directory, a new session opened with from_dir on that directory returns for each coordinate the last told object (as reloaded from its file) - provided the file type of successive objects under one coordinate does not change.",
  "all histories in which names and string indices contain no '/'", "unbounded histories; stale files of another type shadow newer ones", [f"{LS}:from_dir", f"{LS}:save", f"{LS}:ask"])
p("C21", "Objects returned by ask are isolated from the database",
  "Modifying an object returned by ask never changes what later asks return.",
  "all histories with caller mutations, sessions with and without directory", "aliasing between cache and caller", [f"{LS}:ask"])
p("C22", "The evaluation cost stored by add_eval is the one the learning curve reads",
  "After add_eval(i, sample, cost), ask('cost', i, 'eval') returns cost, exists('cost',i,'eval') holds, and get_eval_costs(i) (once an evaluation for update 0 exists) returns that cost together with i*n_samples_per_update.",
  "all update numbers and costs", "relies on two different spellings of the same basename", [f"{LS}:add_eval", f"{LS}:get_eval_costs"])
p("C23", "get_n_updates counts the performed updates",
  "After k consecutive updates 0..k-1 have been added, get_n_updates returns k.",
  "all k, sessions with and without directory", "off-by-one and lexicographic directory order appear only at particular k", [f"{LS}:get_n_updates"])
p("C24", "The learning curve has one row per update with the right costs",
  "For each update i below get_n_updates the learning curve has row [i*n_samples_per_update, evaluation costs of i] when evaluations were stored, and otherwise [(i+1/2)*n_samples_per_update, mean over the samples' costs of i].",
  "all session contents", "unbounded number of updates", [f"{LS}:get_learning_curve", f"{LS}:get_eval_costs", f"{LS}:get_sample_costs"])
p("C25", "save_all writes everything the session holds in memory",
  "After save_all(directory) on any session, a new session opened on that (initially empty) directory returns for each coordinate told the last told object (as reloaded from its file).",
  "all histories in which names and string indices contain no '/'", "unbounded histories", [f"{LS}:save_all"])
# ---------------------------------------------------------------- optimization loops
p("C26", "run_optimization chains updates and records all of them",
  "For all cost functions, updaters and samplers, run_optimization with n updates stores for each i<n the distribution before the update, exactly n_samples_per_update samples of it, their costs, the weights, the updated distribution and the evaluation of the mean; the distribution of update i+1 is the updated distribution of update i, the first is the initial one.",
  "all cost functions, updaters, random streams, n_updates, n_samples", "higher-order and unbounded", [f"{RO}:run_optimization"])
p("C27", "run_optimization evaluates the cost function exactly n_updates*(n_samples+1) times in a fixed order",
  "The sequence of cost-function calls is: for each update first the mean, then the samples in order; no other calls are made.",
  "all inputs", "call sequences over unbounded loops", [f"{RO}:run_optimization"])
p("C28", "run_optimization_task records every rollout",
  "For all tasks, solvers, updaters: run_optimization_task stores, for each update and each sample, the sample, its cost variables and its cost, plus the evaluation of the mean; the costs given to the updater are those recorded; distributions are chained.",
  "all tasks/solvers/updaters/random streams", "higher-order and unbounded", [f"{ROT}:run_optimization_task"])
p("C29", "Step-by-step optimization performs the same distribution updates as the closed loop",
  "Running prepare_optimization and then update_step 0..n-1, with rollouts performed by the same solver, produces the same sequence of distributions, samples and weights as run_optimization_task with the same random stream.",
  "all tasks/solvers/updaters/random streams and numbers of updates", "equivalence of two loops over unbounded runs", [f"{SBS}:update_step", f"{ROT}:run_optimization_task"])
# ---------------------------------------------------------------- parameter vectors
p("C30", "Function approximator parameters round-trip through a vector",
  "For a trained function approximator and any list of distinct names of its parameters: set_param_vector(v) followed by get_param_vector returns v; set_param_vector(get_param_vector()) changes nothing; the vector length equals get_param_vector_size().",
  "all parameter dictionaries, shapes, selections and vectors", "all shapes and selections", [f"{FA}:get_param_vector", f"{FA}:set_param_vector"])
p("C31", "Setting selected parameters leaves all others and all shapes unchanged",
  "set_param_vector changes only the selected parameters and keeps the shape of each parameter.",
  "all selections and vectors", "frame condition over all dictionaries", [f"{FA}:set_param_vector"])
p("C32", "Wrong-sized vectors and untrained models are rejected without side effects",
  "set_param_vector raises ValueError and changes nothing if the model is untrained or the vector has the wrong length; predict raises ValueError if untrained or if the input dimensionality differs from that used in training.",
  "all states and inputs", "all sizes", [f"{FA}:set_param_vector", f"{FA}:predict"])
p("C33", "DMP parameters (function approximators and goal) round-trip through a vector",
  "For any DMP whose trained function approximators have a selection: get after set returns the vector, set after get changes nothing, and the vector length equals get_param_vector_size; the vector is the concatenation of the function approximators' vectors followed by the goal if selected; setting the goal part changes the attractor state.",
  "all DMP dimensions, selections, vectors", "all dimensionalities", [f"{DMP}:get_param_vector", f"{DMP}:set_param_vector"])
p("C34", "The selected parameters are those of the last selection call",
  "After set_selected_param_names(names) the parameter vector of a DMP covers exactly the names given in that call, whatever was selected before.",
  "all histories of selection calls", "depends on history", [f"{DMP}:set_selected_param_names"])
p("C35", "Parameters of a DMP with schedules round-trip through a vector",
  "For DmpWithSchedules, get_param_vector after set_param_vector(v) returns v, with the DMP part first and the schedules' part last; sizes agree; names prefixed by sched_ go only to the schedules and other names only to the DMP.",
  "all dimensionalities, selections, vectors", "all shapes", [f"{DWS}:get_param_vector", f"{DWS}:set_param_vector", f"{DWS}:set_selected_param_names"])
p("C36", "Schedules respect their bounds",
  "Every schedule value returned by analytical_solution_sched, integrate_start_sched and integrate_step_sched lies in [min_schedules,max_schedules], for scalar or per-dimension bounds.",
  "all predictions, all bounds", "all prediction values", [f"{DWS}:_enforce_schedule_bounds"])
# ---------------------------------------------------------------- dynamical systems
p("C37", "ExponentialSystem: analytical_solution is the exact solution of differential_equation",
  "For all times, initial and attractor states, alphas and non-zero tau: the states start at x_init, the returned rates are the time derivatives of the returned states, and equal differential_equation of the states; for alpha/tau>0 the state converges monotonically to the attractor.",
  "all times and parameters (scalar or per dimension)", "pointwise in continuous time, limits", [f"{EX}:analytical_solution", f"{EX}:differential_equation"])
p("C38", "SigmoidSystem: analytical_solution is the exact solution of differential_equation",
  "Same statement for the sigmoid system with positive initial state; the state equals half the carrying capacity exactly at inflection_ratio*tau, and stays between 0 and the capacity.",
  "all times and parameters", "continuous time", [f"{SI}:analytical_solution", f"{SI}:differential_equation"])
p("C39", "RichardsSystem: analytical_solution is the exact solution of differential_equation",
  "Same statement for the Richards system whenever initial and attractor state differ in every dimension: the state starts at x_init, the returned rates are the derivatives of the states and satisfy the differential equation, and the state converges to the right asymptote.",
  "all times and parameters", "continuous time; the source doubts itself ('This is not correct yet')", [f"{RI}:analytical_solution", f"{RI}:differential_equation"])
p("C40", "SpringDamperSystem: analytical_solution is the exact solution when critically damped",
  "For a critically damped system started at rest: the returned y is the exact solution, yd and z, zd are consistent (z = tau*yd) and satisfy the differential equation; y converges to y_attr without overshooting it.",
  "all times, initial/attractor states, damping coefficients, tau", "continuous time", [f"{SP}:analytical_solution", f"{SP}:differential_equation"])
p("C41", "TimeSystem: the phase is linear, clamped to [0,1] and consistent with its differential equation",
  "analytical_solution for t>=0 returns min(t/tau,1) (or 1-min(t/tau,1) counting down) and rates that equal differential_equation everywhere except at the end point t=tau.",
  "all times and taus", "boundary behaviour", [f"{TI}:analytical_solution", f"{TI}:differential_equation"])
p("C42", "Gating systems satisfy their contract",
  "SigmoidSystem.for_gating(tau, ratio) yields a system whose state is 1 at time 0 and ratio at time tau, decreasing in between, for every tau>0 and ratio in (0,1).",
  "all tau, all ratios in (0,1)", "continuum of parameters", [f"{SI}:for_gating"])
p("C43", "Cached carrying capacities are never stale",
  "In any history of setting tau, x_init, y_init, decoupling parameters, integrating and asking for analytical solutions, a SigmoidSystem behaves as one that recomputes its capacities on each call.",
  "all histories of API calls", "unbounded histories", [f"{SI}:_get_ks", f"{SI}:tau", f"{SI}:x_init", f"{SI}:y_init"])
p("C44", "decouple_parameters does not change behaviour",
  "For each dynamical system, decouple_parameters leaves differential_equation, analytical_solution and integration results unchanged.",
  "all systems, all states and times", "all dims", [f"{EX}:decouple_parameters", f"{SI}:decouple_parameters", f"{SP}:decouple_parameters", f"{RI}:decouple_parameters"])
p("C45", "Numerical integration steps",
  "integrate_step is the classical fourth-order Runge-Kutta step, integrate_step_euler the Euler step; both keep equilibria fixed; for an exponential system the Runge-Kutta step multiplies the distance to the attractor by 1-z+z^2/2-z^3/6+z^4/24 with z=alpha*dt/tau and deviates from the exact solution by at most z^5/120 relative; wrong state sizes are rejected.",
  "all states, step sizes", "continuum", [f"{DS}:integrate_step_runge_kutta", f"{DS}:integrate_step_euler"])
p("C46", "integrate() samples the numerical solution at the given times",
  "integrate(ts) returns as many rows as times, the first row is the initial state with its rate, row i+1 is one step of length ts[i+1]-ts[i] from row i, for both integration methods; numerical Euler integration of a system at rest stays at rest.",
  "all time vectors", "all lengths", [f"{DS}:integrate"])
p("C47", "Initial states can be read back after being set",
  "After setting x_init or y_init of a dynamical system (or y_init of a Dmp) the getter returns the new value and integration starts there; wrong sizes are rejected with ValueError.",
  "all systems, all values", "all dims", [f"{DS}:y_init", f"{DMP}:y_init"])
# ---------------------------------------------------------------- DMP
p("C48", "The DMP state vector is partitioned into its subsystems",
  "For every dimensionality d the index sets for spring (y,z), goal, phase, gating and damping are disjoint and cover exactly 0..dim_x-1.",
  "all d", "all dims", [f"{DMP}:__init__"])
p("C49", "Training targets make the DMP reproduce the demonstration",
  "If the function approximators return the training targets computed from a trajectory, then at each demonstrated state (y, z=tau*yd) the DMP's rate of change yields exactly the demonstrated velocity and acceleration, whenever gating and scaling factors are non-zero.",
  "all trajectories, tau, spring constants, masses, dampings, gatings, scalings", "continuum", [f"{DMP}:_compute_targets", f"{DMP}:analytical_solution"])
p("C50", "Changing tau rescales the movement in time only",
  "For a DMP with movement time tau, setting tau to s*tau and scaling the time vector by s leaves the positions unchanged (and divides velocities by s, accelerations by s^2).",
  "all DMP types, taus, scale factors, time vectors", "relation between two runs for all parameters", [f"{DMP}:tau", f"{DMP}:analytical_solution"])
p("C51", "Setting the attractor state moves the goal",
  "After setting y_attr (directly, or as the goal part of the parameter vector), the goal used in integration and analytical_solution converges to the new attractor, for every DMP type.",
  "all DMP types and attractors", "all types and values", [f"{DMP}:y_attr", f"{DMP}:differential_equation", f"{RI}:RichardsSystem"])
p("C52", "Without forcing term the DMP converges to its goal",
  "With the forcing term suppressed and a constant goal, the (Euler-integrated) position converges to the goal for every initial state, goal, and every sufficiently small time step, and never overshoots when started at rest.",
  "all initial states, goals, step sizes below the stability limit", "limits over unbounded time", [f"{DMP}:analytical_solution", f"{SP}:differential_equation"])
p("C53", "analytical_solution starts at the initial state and integrates consistently",
  "The first position returned is y_init, each next spring state is the Euler step from the previous one, velocities equal z/tau; the states_as_trajectory positions/velocities/accelerations are the spring y, yd, zd/tau.",
  "all DMPs and time vectors", "all lengths", [f"{DMP}:analytical_solution", f"{DMP}:states_as_trajectory"])
p("C54", "Rollouts do not depend on history",
  "TaskSolverDmp.perform_rollout(sample) returns the same trajectory for the same sample whatever rollouts were performed before; it returns floor(T/dt)+1 time steps spanning [0,T] with T = tau*factor; the DMP given to the constructor is not modified.",
  "all histories of rollouts and samples", "unbounded histories", [f"{TSD}:perform_rollout", f"{DMP}:analytical_solution", f"{DMP}:set_param_vector"])
# ---------------------------------------------------------------- trajectory
p("C55", "Trajectories are always shape-consistent",
  "Constructors reject inconsistent shapes, and after any sequence of successful operations (append, prepend, crop, padding, filtering of time, misc assignment) the numbers of rows of times, positions, velocities, accelerations and misc agree and the dimensions are preserved; a failing operation leaves the trajectory as it was.",
  "all histories of operations", "unbounded histories, exception paths", [f"{TR}:Trajectory"])
p("C56", "A trajectory round-trips through its matrix representation",
  "from_matrix(as_matrix(), n_dims_misc) restores times, positions, velocities, accelerations and misc, for all dimensions and numbers of misc variables; as_dataframe has the corresponding columns.",
  "all trajectories", "all shapes", [f"{TR}:as_matrix", f"{TR}:from_matrix", f"{TR}:as_dataframe"])
p("C57", "Concatenation keeps time increasing and data intact",
  "append and prepend keep all data rows of both trajectories in order, lengths add up, and the resulting times are strictly increasing if those of the parts are.",
  "all pairs of trajectories", "all time vectors", [f"{TR}:append", f"{TR}:prepend"])
p("C58", "crop keeps exactly the requested interval",
  "crop(start,end) by index keeps rows start..end-1; crop by times on an increasing time vector keeps exactly the rows with start <= t < end (and reports and changes nothing if the interval lies outside); start>=end raises ValueError.",
  "all trajectories and intervals", "boundary cases", [f"{TR}:crop"])
p("C59", "Padding adds exactly n rows at rest",
  "pad_front(n)/pad_end(n) add n rows with the first/last position and zero velocity and acceleration at distance dt_mean, for every n>=2.",
  "all trajectories, n", "floating-point length of arange", [f"{TR}:pad_front", f"{TR}:pad_end"])
p("C60", "Numerical differentiation is exact for quadratics and keeps the length",
  "For at least three equidistant samples, velocities computed from positions equal the central difference in the interior (exact for quadratics), the end values copy their neighbours, and the length is kept.",
  "all data", "all lengths", [f"{TR}:diffnc", f"{TR}:recompute_derivatives"])
p("C61", "Polynomial trajectories meet their boundary conditions",
  "from_polynomial starts at y_from with velocity yd_from and acceleration ydd_from and ends at y_to with velocity yd_to and acceleration ydd_to; yds and ydds are the derivatives of ys.",
  "all boundary conditions and time vectors", "continuum", [f"{TR}:from_polynomial"])
p("C62", "Minimum-jerk trajectories go from start to goal at rest and monotonically",
  "from_min_jerk on times starting at 0 starts at y_from and ends at y_to with zero velocity and acceleration, stays between both, and yds, ydds are the derivatives of ys.",
  "all start/goal positions and time vectors", "continuum", [f"{TR}:from_min_jerk"])
p("C63", "Via-point trajectories pass through the via-point and reach the goal",
  "from_viapoint_polynomial keeps the number of time steps, reaches the via-point and ends at y_to.",
  "all times, via-points", "continuum", [f"{TR}:from_viapoint_polynomial"])
# ---------------------------------------------------------------- function approximators
p("C64", "Basis function activations are proper kernels",
  "Gaussian activations lie in (0,1], equal 1 at the center; normalized activations are non-negative and sum to 1 for every input, even when all raw activations underflow to 0; one row per sample, one column per basis function.",
  "all inputs, centers, widths, underflow behaviours of exp", "underflow only far away from the data", [f"{BF}:Gaussian._activations"])
p("C65", "Centers enumerate the full grid once",
  "get_centers_and_widths returns prod(n_bfs_per_dim) centers, which are exactly the points of the Cartesian grid of per-dimension equidistant centers between min and max of the inputs, each once, in lexicographic order; a wrong number of entries raises ValueError.",
  "all input dimensionalities and numbers of basis functions", "odometer loop over all dims", [f"{BF}:get_centers_and_widths"])
p("C66", "Neighbouring basis functions intersect at the requested height",
  "For n_bfs>1 and height in (0,1), two neighbouring one-dimensional basis functions both have activation equal to intersection_height halfway between their centers.",
  "all input ranges, n, heights", "continuum", [f"{BF}:get_centers_and_widths"])
p("C67", "Weighted least squares returns the minimiser of the regularized weighted squared error",
  "For all inputs, targets, non-negative weights and regularization >= 0 for which the normal matrix is invertible, the returned slope and offset minimise sum_i w_i (slope.x_i + offset - y_i)^2 + regularization*|beta|^2; noise-free linear data are recovered exactly.",
  "all data sets", "optimality against all alternatives", [f"{WLS}:_train"])
p("C68", "LWR predictions are convex combinations of local linear models",
  "An LWR prediction lies between the smallest and the largest line value at the input; if all local models equal one affine function the prediction equals it; with one basis function LWR is linear least squares.",
  "all models and inputs", "continuum", [f"{LWR}:_predict", f"{LWR}:_get_lines"])
p("C69", "LWR honours its regularization parameter",
  "Training FunctionApproximatorLWR with regularization lambda solves each local regression with regularization lambda.",
  "all lambda and data", "ignored parameter is invisible unless compared", [f"{LWR}:_train", f"{WLS}:__init__"])
p("C70", "RBFN predictions are linear in the weights and least-squares optimal",
  "RBFN predictions are the weighted sum of activations, linear in the weight vector; training yields the weights minimising the regularized squared error of the predictions on the training data.",
  "all data, weights", "optimality", [f"{RBFN}:_predict", f"{RBFN}:_train"])
p("C71", "GPR interpolates its training data",
  "If training succeeds, GPR predictions at the training inputs equal the targets.",
  "all training sets with invertible Gram matrix", "continuum", [f"{GPR}:_train", f"{GPR}:_predict"])
p("C72", "Multi-dimensional inputs with a scalar number of basis functions",
  "LWR and RBFN trained with a scalar n_bfs_per_dim on inputs of dimension D use n^D basis functions and can predict.",
  "all n, D", "dimension mismatch only for D>1", [f"{LWR}:_train", f"{RBFN}:_train", f"{BF}:get_centers_and_widths"])
p("C73", "Contextual DMP parameters are those predicted by the policy parameter functions",
  "After set_task_params(q) parameter i of the DMP equals the prediction of policy parameter function i at q, independent of earlier task parameters.",
  "all histories of task parameters", "unbounded histories", [f"{DCT}:set_task_params", f"{DCT}:integrate_start"])
p("C74", "Via-point task costs are consistent",
  "TaskViapoint.evaluate_rollout returns five non-negative costs (for non-negative weights) of which the first is the sum of the others, and one label per component.",
  "all rollouts and weights", "continuum", ["demos/python/bbo_of_dmps/TaskViapoint.py:evaluate_rollout_local"])
p("C75", "The C++ and Python implementations agree",
  "For the same parameters, the C++ Dmp (goal, phase, gating, spring systems) computes the same differential equation and analytical solution as the Python Dmp for the DMP types both implement.",
  "all states, times, parameters", "integration tests compare only a few trajectories", ["src/dmp/Dmp.cpp", "src/dynamicalsystems", DMP])

exec(open(os.path.join(os.path.dirname(__file__), "props_more.py")).read()) if os.path.exists(os.path.join(os.path.dirname(__file__), "props_more.py")) else None
ids = [x["id"] for x in P]; assert len(set(ids)) == len(ids)
with open(os.path.join(os.path.dirname(__file__), "..", "properties.jsonl"), "w") as f:
    for x in P: f.write(json.dumps(x) + "\n")
print(len(P))
