{"id": "C01", "title": "Weights form a probability distribution", "statement": "For every non-empty list of costs, costs_to_weights returns one weight per cost, every weight is >= 0 and the weights sum to 1, for PI-BB and unknown method names with any eliteness, for CEM with any integer eliteness >= 1, and for CMA-ES with any integer eliteness between 1 and the number of costs.", "quantifier": "all non-empty cost lists of any length and any real values, all weighting methods, all admissible eliteness values", "why_tests_cant": "infinitely many cost vectors and eliteness values; ties and degenerate ranges are measure-zero inputs a sampled test never hits", "anchors": ["dmpbbo/bbo/updaters.py:costs_to_weights"]}
{"id": "C02", "title": "Inadmissible weighting inputs never produce a silent weight vector", "statement": "costs_to_weights fails exactly in these cases and in no other: PI-BB/unknown on an empty cost list (ValueError); a cost entry with no components (IndexError); CEM with eliteness 0 (ZeroDivisionError); rank methods with a non-integer eliteness (TypeError); CMA-ES with eliteness above the number of costs (IndexError); and the result is non-finite exactly when all raw rank weights are zero.", "quantifier": "all cost lists, all methods, all integer or real eliteness values", "why_tests_cant": "the failing set is defined by the interaction of length, sign and type of eliteness; tests probe single points", "anchors": ["dmpbbo/bbo/updaters.py:costs_to_weights"]}
{"id": "C03", "title": "A better sample never gets a smaller weight", "statement": "If sample i has a cost no larger than sample j, PI-BB (eliteness >= 0) gives i a weight at least that of j, with equality for equal costs; for CEM and CMA-ES a strictly smaller cost gives a weight at least as large, whatever order the sorting routine gives to ties.", "quantifier": "all cost lists, all index pairs, all admissible eliteness values, all tie orders of argsort", "why_tests_cant": "monotonicity over all pairs and all tie-breaking orders is not enumerable", "anchors": ["dmpbbo/bbo/updaters.py:costs_to_weights"]}
{"id": "C04", "title": "PI-BB weights ignore the unit and offset of the cost", "statement": "Replacing every cost c by a*c+b with a>0 leaves the PI-BB weights unchanged.", "quantifier": "all cost lists, all a>0, all b", "why_tests_cant": "real-parameter family of transformations", "anchors": ["dmpbbo/bbo/updaters.py:costs_to_weights"]}
{"id": "C05", "title": "Rank-based methods select and weight by rank only", "statement": "CEM gives weight 1/min(mu,n) to exactly min(mu,n) samples, none of which has a larger cost than an unselected one, and 0 to the rest; CMA-ES gives the sample of rank r (r=1..mu) weight (ln(mu+1/2)-ln r)/sum and 0 to the rest; any strictly increasing transformation of the costs leaves these weights unchanged when the costs are pairwise distinct.", "quantifier": "all cost lists, all 1<=mu (CMA-ES: mu<=n), all strictly increasing transformations, all tie orders", "why_tests_cant": "quantifies over functions and over tie-breaking orders", "anchors": ["dmpbbo/bbo/updaters.py:costs_to_weights"]}
{"id": "C06", "title": "Only the total cost influences an update", "statement": "If every sample's cost is a vector of components, only its first entry influences the weights: two cost lists with equal first entries give identical results, and a list of vectors gives the same result as the list of its first entries.", "quantifier": "all lists of scalar or vector costs, all methods and eliteness values", "why_tests_cant": "arbitrary numbers of components per sample, possibly different per sample", "anchors": ["dmpbbo/bbo/updaters.py:costs_to_weights"]}
{"id": "C07", "title": "The order in which samples are listed does not matter", "statement": "Permuting samples and costs together permutes the PI-BB weights identically and leaves the updated distribution of each Updater unchanged; for CEM and CMA-ES this holds whenever all costs are distinct.", "quantifier": "all permutations, all sample matrices and cost lists", "why_tests_cant": "n! permutations, all n", "anchors": ["dmpbbo/bbo/updaters.py:costs_to_weights", "dmpbbo/bbo/updaters.py:Updater.update_distribution"]}
{"id": "C08", "title": "The new mean is a convex combination of the samples", "statement": "update_distribution of every updater sets the mean to the weighted average of the samples; hence every coordinate lies between the smallest and largest sample value in that coordinate, and any box that contains all samples contains the new mean.", "quantifier": "all distributions, sample matrices, cost lists, admissible methods/eliteness, all boxes", "why_tests_cant": "continuum of samples", "anchors": ["dmpbbo/bbo/updaters.py:UpdaterMean", "dmpbbo/bbo/updaters.py:UpdaterCovarDecay", "dmpbbo/bbo/updaters.py:UpdaterCovarAdaptation"]}
{"id": "C09", "title": "Mean-only updates never touch the covariance", "statement": "After any sequence of UpdaterMean updates the covariance matrix (and class and bounds of the distribution) equals the initial one; the distribution passed in is never modified.", "quantifier": "all histories of samples/costs of any length", "why_tests_cant": "unbounded histories", "anchors": ["dmpbbo/bbo/updaters.py:UpdaterMean.update_distribution"]}
{"id": "C10", "title": "Covariance decay is geometric and independent of the costs", "statement": "After n successful UpdaterCovarDecay updates the covariance equals covar_decay_factor^(2n) times the initial covariance, whatever the samples and costs were.", "quantifier": "all n, all histories, all decay factors", "why_tests_cant": "unbounded histories", "anchors": ["dmpbbo/bbo/updaters.py:UpdaterCovarDecay.update_distribution"]}
{"id": "C11", "title": "Covariance matrix adaptation computes the low-pass filtered weighted scatter", "statement": "Without diagonal bounds, entry (i,j) of the new covariance is (1-lr)*C_ij + lr*sum_s w_s*(x_si-m_i)*(x_sj-m_j) (off-diagonal scatter dropped when diag_only), and the result is symmetric whenever the current covariance is; learning_rate outside [0,1] is rejected with ValueError; learning_rate 0 keeps the covariance.", "quantifier": "all dimensions, samples, costs, learning rates", "why_tests_cant": "all dimensions and real data", "anchors": ["dmpbbo/bbo/updaters.py:UpdaterCovarAdaptation"]}
{"id": "C12", "title": "Covariance matrix adaptation preserves positive semi-definiteness", "statement": "If the current covariance is symmetric positive semi-definite then so is the new one, so that the next generate_samples is well defined.", "quantifier": "all dimensions, samples, costs, learning rates, diagonal_min/diagonal_max settings", "why_tests_cant": "PSD is a statement about all directions; violations need particular correlations", "anchors": ["dmpbbo/bbo/updaters.py:UpdaterCovarAdaptation.update_distribution"]}
{"id": "C13", "title": "Exploration bounds on the diagonal hold after every update", "statement": "After each UpdaterCovarAdaptation update of any history, every diagonal entry is <= diagonal_max^2 and >= diagonal_min^2 (when both are given and diagonal_min^2 <= diagonal_max^2), per dimension or scalar.", "quantifier": "all histories, dims, bounds", "why_tests_cant": "unbounded histories", "anchors": ["dmpbbo/bbo/updaters.py:UpdaterCovarAdaptation.update_distribution"]}
{"id": "C14", "title": "Updates commute with translations of the search space", "statement": "Translating the current mean and all samples by the same vector translates the new mean by that vector and leaves the new covariance and the weights unchanged.", "quantifier": "all translations, all updaters", "why_tests_cant": "continuum", "anchors": ["dmpbbo/bbo/updaters.py:Updater.update_distribution"]}
{"id": "C15", "title": "A distribution with inconsistent mean and covariance is rejected", "statement": "DistributionGaussian(mean, covar) raises ValueError exactly when the number of mean entries differs from the number of rows of the covariance (scalars count as size 1).", "quantifier": "all means and covariances", "why_tests_cant": "all shapes", "anchors": ["dmpbbo/bbo/DistributionGaussian.py:DistributionGaussian.__init__"]}
{"id": "C16", "title": "Bounded distributions only produce samples within the bounds", "statement": "Every coordinate of every sample returned by DistributionGaussianBounded.generate_samples lies in [lower_bound, upper_bound] (when lower<=upper; absent bounds do not restrict), samples already inside are returned unchanged, and the shape is kept.", "quantifier": "all raw samples the random generator may return, all scalar/per-dimension/absent bounds", "why_tests_cant": "outlier samples are rare events", "anchors": ["dmpbbo/bbo/DistributionGaussianBounded.py:generate_samples"]}
{"id": "C17", "title": "A learning session returns the last told object", "statement": "In any history of tell and ask calls, interleaved with arbitrary modifications by the caller of objects it passed in or received, ask(name,i_update,i_sample) returns a copy of the object most recently told under the same file basename in this session, as it was at the time of the tell.", "quantifier": "all histories of tell/ask/mutate, all names and indices", "why_tests_cant": "unbounded histories with aliasing", "anchors": ["dmpbbo/bbo/LearningSession.py:tell", "dmpbbo/bbo/LearningSession.py:ask"]}
{"id": "C18", "title": "Entries with different coordinates do not overwrite each other", "statement": "get_base_name is injective on (name, i_update, i_sample) for non-negative integer indices and names that contain no '/' and do not start with a digit; in general distinct coordinates can collide and the collisions are characterised.", "quantifier": "all names, update and sample numbers", "why_tests_cant": "zero-padding and name concatenation collide only on special names/numbers", "anchors": ["dmpbbo/bbo/LearningSession.py:get_base_name"]}
{"id": "C19", "title": "exists() predicts ask()", "statement": "exists(name,i_update,i_sample) returns True if and only if ask with the same arguments returns an object.", "quantifier": "all session states and coordinates", "why_tests_cant": "all states of cache and directory", "anchors": ["dmpbbo/bbo/LearningSession.py:exists", "dmpbbo/bbo/LearningSession.py:ask"]}
{"id": "C20", "title": "A session reopened from its directory sees what was told", "statement": "After any history of tells to a session with a directory, a new session opened with from_dir on that directory returns for each coordinate the last told object (as reloaded from its file) - provided the file type of successive objects under one coordinate does not change.", "quantifier": "all histories in which names and string indices contain no '/'", "why_tests_cant": "unbounded histories; stale files of another type shadow newer ones", "anchors": ["dmpbbo/bbo/LearningSession.py:from_dir", "dmpbbo/bbo/LearningSession.py:save", "dmpbbo/bbo/LearningSession.py:ask"]}
{"id": "C21", "title": "Objects returned by ask are isolated from the database", "statement": "Modifying an object returned by ask never changes what later asks return.", "quantifier": "all histories with caller mutations, sessions with and without directory", "why_tests_cant": "aliasing between cache and caller", "anchors": ["dmpbbo/bbo/LearningSession.py:ask"]}
{"id": "C22", "title": "The evaluation cost stored by add_eval is the one the learning curve reads", "statement": "After add_eval(i, sample, cost), ask('cost', i, 'eval') returns cost, exists('cost',i,'eval') holds, and get_eval_costs(i) (once an evaluation for update 0 exists) returns that cost together with i*n_samples_per_update.", "quantifier": "all update numbers and costs", "why_tests_cant": "relies on two different spellings of the same basename", "anchors": ["dmpbbo/bbo/LearningSession.py:add_eval", "dmpbbo/bbo/LearningSession.py:get_eval_costs"]}
{"id": "C23", "title": "get_n_updates counts the performed updates", "statement": "After k consecutive updates 0..k-1 have been added, get_n_updates returns k.", "quantifier": "all k, sessions with and without directory", "why_tests_cant": "off-by-one and lexicographic directory order appear only at particular k", "anchors": ["dmpbbo/bbo/LearningSession.py:get_n_updates"]}
{"id": "C24", "title": "The learning curve has one row per update with the right costs", "statement": "For each update i below get_n_updates the learning curve has row [i*n_samples_per_update, evaluation costs of i] when evaluations were stored, and otherwise [(i+1/2)*n_samples_per_update, mean over the samples' costs of i].", "quantifier": "all session contents", "why_tests_cant": "unbounded number of updates", "anchors": ["dmpbbo/bbo/LearningSession.py:get_learning_curve", "dmpbbo/bbo/LearningSession.py:get_eval_costs", "dmpbbo/bbo/LearningSession.py:get_sample_costs"]}
{"id": "C25", "title": "save_all writes everything the session holds in memory", "statement": "After save_all(directory) on any session, a new session opened on that (initially empty) directory returns for each coordinate told the last told object (as reloaded from its file).", "quantifier": "all histories in which names and string indices contain no '/'", "why_tests_cant": "unbounded histories", "anchors": ["dmpbbo/bbo/LearningSession.py:save_all"]}
{"id": "C26", "title": "run_optimization chains updates and records all of them", "statement": "For all cost functions, updaters and samplers, run_optimization with n updates stores for each i<n the distribution before the update, exactly n_samples_per_update samples of it, their costs, the weights, the updated distribution and the evaluation of the mean; the distribution of update i+1 is the updated distribution of update i, the first is the initial one.", "quantifier": "all cost functions, updaters, random streams, n_updates, n_samples", "why_tests_cant": "higher-order and unbounded", "anchors": ["dmpbbo/bbo/run_optimization.py:run_optimization"]}
{"id": "C27", "title": "run_optimization evaluates the cost function exactly n_updates*(n_samples+1) times in a fixed order", "statement": "The sequence of cost-function calls is: for each update first the mean, then the samples in order; no other calls are made.", "quantifier": "all inputs", "why_tests_cant": "call sequences over unbounded loops", "anchors": ["dmpbbo/bbo/run_optimization.py:run_optimization"]}
{"id": "C28", "title": "run_optimization_task records every rollout", "statement": "For all tasks, solvers, updaters: run_optimization_task stores, for each update and each sample, the sample, its cost variables and its cost, plus the evaluation of the mean; the costs given to the updater are those recorded; distributions are chained.", "quantifier": "all tasks/solvers/updaters/random streams", "why_tests_cant": "higher-order and unbounded", "anchors": ["dmpbbo/bbo_of_dmps/run_optimization_task.py:run_optimization_task"]}
{"id": "C29", "title": "Step-by-step optimization performs the same distribution updates as the closed loop", "statement": "Running prepare_optimization and then update_step 0..n-1, with rollouts performed by the same solver, produces the same sequence of distributions, samples and weights as run_optimization_task with the same random stream.", "quantifier": "all tasks/solvers/updaters/random streams and numbers of updates", "why_tests_cant": "equivalence of two loops over unbounded runs", "anchors": ["dmpbbo/bbo_of_dmps/step_by_step_optimization.py:update_step", "dmpbbo/bbo_of_dmps/run_optimization_task.py:run_optimization_task"]}
{"id": "C30", "title": "Function approximator parameters round-trip through a vector", "statement": "For a trained function approximator and any list of distinct names of its parameters: set_param_vector(v) followed by get_param_vector returns v; set_param_vector(get_param_vector()) changes nothing; the vector length equals get_param_vector_size().", "quantifier": "all parameter dictionaries, shapes, selections and vectors", "why_tests_cant": "all shapes and selections", "anchors": ["dmpbbo/functionapproximators/FunctionApproximator.py:get_param_vector", "dmpbbo/functionapproximators/FunctionApproximator.py:set_param_vector"]}
{"id": "C31", "title": "Setting selected parameters leaves all others and all shapes unchanged", "statement": "set_param_vector changes only the selected parameters and keeps the shape of each parameter.", "quantifier": "all selections and vectors", "why_tests_cant": "frame condition over all dictionaries", "anchors": ["dmpbbo/functionapproximators/FunctionApproximator.py:set_param_vector"]}
{"id": "C32", "title": "Wrong-sized vectors and untrained models are rejected without side effects", "statement": "set_param_vector raises ValueError and changes nothing if the model is untrained or the vector has the wrong length; predict raises ValueError if untrained or if the input dimensionality differs from that used in training.", "quantifier": "all states and inputs", "why_tests_cant": "all sizes", "anchors": ["dmpbbo/functionapproximators/FunctionApproximator.py:set_param_vector", "dmpbbo/functionapproximators/FunctionApproximator.py:predict"]}
{"id": "C33", "title": "DMP parameters (function approximators and goal) round-trip through a vector", "statement": "For any DMP whose trained function approximators have a selection: get after set returns the vector, set after get changes nothing, and the vector length equals get_param_vector_size; the vector is the concatenation of the function approximators' vectors followed by the goal if selected; setting the goal part changes the attractor state.", "quantifier": "all DMP dimensions, selections, vectors", "why_tests_cant": "all dimensionalities", "anchors": ["dmpbbo/dmps/Dmp.py:get_param_vector", "dmpbbo/dmps/Dmp.py:set_param_vector"]}
{"id": "C34", "title": "The selected parameters are those of the last selection call", "statement": "After set_selected_param_names(names) the parameter vector of a DMP covers exactly the names given in that call, whatever was selected before.", "quantifier": "all histories of selection calls", "why_tests_cant": "depends on history", "anchors": ["dmpbbo/dmps/Dmp.py:set_selected_param_names"]}
{"id": "C35", "title": "Parameters of a DMP with schedules round-trip through a vector", "statement": "For DmpWithSchedules, get_param_vector after set_param_vector(v) returns v, with the DMP part first and the schedules' part last; sizes agree; names prefixed by sched_ go only to the schedules and other names only to the DMP.", "quantifier": "all dimensionalities, selections, vectors", "why_tests_cant": "all shapes", "anchors": ["dmpbbo/dmps/DmpWithSchedules.py:get_param_vector", "dmpbbo/dmps/DmpWithSchedules.py:set_param_vector", "dmpbbo/dmps/DmpWithSchedules.py:set_selected_param_names"]}
{"id": "C36", "title": "Schedules respect their bounds", "statement": "Every schedule value returned by analytical_solution_sched, integrate_start_sched and integrate_step_sched lies in [min_schedules,max_schedules], for scalar or per-dimension bounds.", "quantifier": "all predictions, all bounds", "why_tests_cant": "all prediction values", "anchors": ["dmpbbo/dmps/DmpWithSchedules.py:_enforce_schedule_bounds"]}
{"id": "C37", "title": "ExponentialSystem: analytical_solution is the exact solution of differential_equation", "statement": "For all times, initial and attractor states, alphas and non-zero tau: the states start at x_init, the returned rates are the time derivatives of the returned states, and equal differential_equation of the states; for alpha/tau>0 the state converges monotonically to the attractor.", "quantifier": "all times and parameters (scalar or per dimension)", "why_tests_cant": "pointwise in continuous time, limits", "anchors": ["dmpbbo/dynamicalsystems/ExponentialSystem.py:analytical_solution", "dmpbbo/dynamicalsystems/ExponentialSystem.py:differential_equation"]}
{"id": "C38", "title": "SigmoidSystem: analytical_solution is the exact solution of differential_equation", "statement": "Same statement for the sigmoid system with positive initial state; the state equals half the carrying capacity exactly at inflection_ratio*tau, and stays between 0 and the capacity.", "quantifier": "all times and parameters", "why_tests_cant": "continuous time", "anchors": ["dmpbbo/dynamicalsystems/SigmoidSystem.py:analytical_solution", "dmpbbo/dynamicalsystems/SigmoidSystem.py:differential_equation"]}
{"id": "C39", "title": "RichardsSystem: analytical_solution is the exact solution of differential_equation", "statement": "Same statement for the Richards system whenever initial and attractor state differ in every dimension: the state starts at x_init, the returned rates are the derivatives of the states and satisfy the differential equation, and the state converges to the right asymptote.", "quantifier": "all times and parameters", "why_tests_cant": "continuous time; the source doubts itself ('This is not correct yet')", "anchors": ["dmpbbo/dynamicalsystems/RichardsSystem.py:analytical_solution", "dmpbbo/dynamicalsystems/RichardsSystem.py:differential_equation"]}
{"id": "C40", "title": "SpringDamperSystem: analytical_solution is the exact solution when critically damped", "statement": "For a critically damped system started at rest: the returned y is the exact solution, yd and z, zd are consistent (z = tau*yd) and satisfy the differential equation; y converges to y_attr without overshooting it.", "quantifier": "all times, initial/attractor states, damping coefficients, tau", "why_tests_cant": "continuous time", "anchors": ["dmpbbo/dynamicalsystems/SpringDamperSystem.py:analytical_solution", "dmpbbo/dynamicalsystems/SpringDamperSystem.py:differential_equation"]}
{"id": "C41", "title": "TimeSystem: the phase is linear, clamped to [0,1] and consistent with its differential equation", "statement": "analytical_solution for t>=0 returns min(t/tau,1) (or 1-min(t/tau,1) counting down) and rates that equal differential_equation everywhere except at the end point t=tau.", "quantifier": "all times and taus", "why_tests_cant": "boundary behaviour", "anchors": ["dmpbbo/dynamicalsystems/TimeSystem.py:analytical_solution", "dmpbbo/dynamicalsystems/TimeSystem.py:differential_equation"]}
{"id": "C42", "title": "Gating systems satisfy their contract", "statement": "SigmoidSystem.for_gating(tau, ratio) yields a system whose state is 1 at time 0 and ratio at time tau, decreasing in between, for every tau>0 and ratio in (0,1).", "quantifier": "all tau, all ratios in (0,1)", "why_tests_cant": "continuum of parameters", "anchors": ["dmpbbo/dynamicalsystems/SigmoidSystem.py:for_gating"]}
{"id": "C43", "title": "Cached carrying capacities are never stale", "statement": "In any history of setting tau, x_init, y_init, decoupling parameters, integrating and asking for analytical solutions, a SigmoidSystem behaves as one that recomputes its capacities on each call.", "quantifier": "all histories of API calls", "why_tests_cant": "unbounded histories", "anchors": ["dmpbbo/dynamicalsystems/SigmoidSystem.py:_get_ks", "dmpbbo/dynamicalsystems/SigmoidSystem.py:tau", "dmpbbo/dynamicalsystems/SigmoidSystem.py:x_init", "dmpbbo/dynamicalsystems/SigmoidSystem.py:y_init"]}
{"id": "C44", "title": "decouple_parameters does not change behaviour", "statement": "For each dynamical system, decouple_parameters leaves differential_equation, analytical_solution and integration results unchanged.", "quantifier": "all systems, all states and times", "why_tests_cant": "all dims", "anchors": ["dmpbbo/dynamicalsystems/ExponentialSystem.py:decouple_parameters", "dmpbbo/dynamicalsystems/SigmoidSystem.py:decouple_parameters", "dmpbbo/dynamicalsystems/SpringDamperSystem.py:decouple_parameters", "dmpbbo/dynamicalsystems/RichardsSystem.py:decouple_parameters"]}
{"id": "C45", "title": "Numerical integration steps", "statement": "integrate_step is the classical fourth-order Runge-Kutta step, integrate_step_euler the Euler step; both keep equilibria fixed; for an exponential system the Runge-Kutta step multiplies the distance to the attractor by 1-z+z^2/2-z^3/6+z^4/24 with z=alpha*dt/tau and deviates from the exact solution by at most z^5/120 relative; wrong state sizes are rejected.", "quantifier": "all states, step sizes", "why_tests_cant": "continuum", "anchors": ["dmpbbo/dynamicalsystems/DynamicalSystem.py:integrate_step_runge_kutta", "dmpbbo/dynamicalsystems/DynamicalSystem.py:integrate_step_euler"]}
{"id": "C46", "title": "integrate() samples the numerical solution at the given times", "statement": "integrate(ts) returns as many rows as times, the first row is the initial state with its rate, row i+1 is one step of length ts[i+1]-ts[i] from row i, for both integration methods; numerical Euler integration of a system at rest stays at rest.", "quantifier": "all time vectors", "why_tests_cant": "all lengths", "anchors": ["dmpbbo/dynamicalsystems/DynamicalSystem.py:integrate"]}
{"id": "C47", "title": "Initial states can be read back after being set", "statement": "After setting x_init or y_init of a dynamical system (or y_init of a Dmp) the getter returns the new value and integration starts there; wrong sizes are rejected with ValueError.", "quantifier": "all systems, all values", "why_tests_cant": "all dims", "anchors": ["dmpbbo/dynamicalsystems/DynamicalSystem.py:y_init", "dmpbbo/dmps/Dmp.py:y_init"]}
{"id": "C48", "title": "The DMP state vector is partitioned into its subsystems", "statement": "For every dimensionality d the index sets for spring (y,z), goal, phase, gating and damping are disjoint and cover exactly 0..dim_x-1.", "quantifier": "all d", "why_tests_cant": "all dims", "anchors": ["dmpbbo/dmps/Dmp.py:__init__"]}
{"id": "C49", "title": "Training targets make the DMP reproduce the demonstration", "statement": "If the function approximators return the training targets computed from a trajectory, then at each demonstrated state (y, z=tau*yd) the DMP's rate of change yields exactly the demonstrated velocity and acceleration, whenever gating and scaling factors are non-zero.", "quantifier": "all trajectories, tau, spring constants, masses, dampings, gatings, scalings", "why_tests_cant": "continuum", "anchors": ["dmpbbo/dmps/Dmp.py:_compute_targets", "dmpbbo/dmps/Dmp.py:analytical_solution"]}
{"id": "C50", "title": "Changing tau rescales the movement in time only", "statement": "For a DMP with movement time tau, setting tau to s*tau and scaling the time vector by s leaves the positions unchanged (and divides velocities by s, accelerations by s^2).", "quantifier": "all DMP types, taus, scale factors, time vectors", "why_tests_cant": "relation between two runs for all parameters", "anchors": ["dmpbbo/dmps/Dmp.py:tau", "dmpbbo/dmps/Dmp.py:analytical_solution"]}
{"id": "C51", "title": "Setting the attractor state moves the goal", "statement": "After setting y_attr (directly, or as the goal part of the parameter vector), the goal used in integration and analytical_solution converges to the new attractor, for every DMP type.", "quantifier": "all DMP types and attractors", "why_tests_cant": "all types and values", "anchors": ["dmpbbo/dmps/Dmp.py:y_attr", "dmpbbo/dmps/Dmp.py:differential_equation", "dmpbbo/dynamicalsystems/RichardsSystem.py:RichardsSystem"]}
{"id": "C52", "title": "Without forcing term the DMP converges to its goal", "statement": "With the forcing term suppressed and a constant goal, the (Euler-integrated) position converges to the goal for every initial state, goal, and every sufficiently small time step, and never overshoots when started at rest.", "quantifier": "all initial states, goals, step sizes below the stability limit", "why_tests_cant": "limits over unbounded time", "anchors": ["dmpbbo/dmps/Dmp.py:analytical_solution", "dmpbbo/dynamicalsystems/SpringDamperSystem.py:differential_equation"]}
{"id": "C53", "title": "analytical_solution starts at the initial state and integrates consistently", "statement": "The first position returned is y_init, each next spring state is the Euler step from the previous one, velocities equal z/tau; the states_as_trajectory positions/velocities/accelerations are the spring y, yd, zd/tau.", "quantifier": "all DMPs and time vectors", "why_tests_cant": "all lengths", "anchors": ["dmpbbo/dmps/Dmp.py:analytical_solution", "dmpbbo/dmps/Dmp.py:states_as_trajectory"]}
{"id": "C54", "title": "Rollouts do not depend on history", "statement": "TaskSolverDmp.perform_rollout(sample) returns the same trajectory for the same sample whatever rollouts were performed before; it returns floor(T/dt)+1 time steps spanning [0,T] with T = tau*factor; the DMP given to the constructor is not modified.", "quantifier": "all histories of rollouts and samples", "why_tests_cant": "unbounded histories", "anchors": ["dmpbbo/bbo_of_dmps/TaskSolverDmp.py:perform_rollout", "dmpbbo/dmps/Dmp.py:analytical_solution", "dmpbbo/dmps/Dmp.py:set_param_vector"]}
{"id": "C55", "title": "Trajectories are always shape-consistent", "statement": "Constructors reject inconsistent shapes, and after any sequence of successful operations (append, prepend, crop, padding, filtering of time, misc assignment) the numbers of rows of times, positions, velocities, accelerations and misc agree and the dimensions are preserved; a failing operation leaves the trajectory as it was.", "quantifier": "all histories of operations", "why_tests_cant": "unbounded histories, exception paths", "anchors": ["dmpbbo/dmps/Trajectory.py:Trajectory"]}
{"id": "C56", "title": "A trajectory round-trips through its matrix representation", "statement": "from_matrix(as_matrix(), n_dims_misc) restores times, positions, velocities, accelerations and misc, for all dimensions and numbers of misc variables; as_dataframe has the corresponding columns.", "quantifier": "all trajectories", "why_tests_cant": "all shapes", "anchors": ["dmpbbo/dmps/Trajectory.py:as_matrix", "dmpbbo/dmps/Trajectory.py:from_matrix", "dmpbbo/dmps/Trajectory.py:as_dataframe"]}
{"id": "C57", "title": "Concatenation keeps time increasing and data intact", "statement": "append and prepend keep all data rows of both trajectories in order, lengths add up, and the resulting times are strictly increasing if those of the parts are.", "quantifier": "all pairs of trajectories", "why_tests_cant": "all time vectors", "anchors": ["dmpbbo/dmps/Trajectory.py:append", "dmpbbo/dmps/Trajectory.py:prepend"]}
{"id": "C58", "title": "crop keeps exactly the requested interval", "statement": "crop(start,end) by index keeps rows start..end-1; crop by times on an increasing time vector keeps exactly the rows with start <= t < end (and reports and changes nothing if the interval lies outside); start>=end raises ValueError.", "quantifier": "all trajectories and intervals", "why_tests_cant": "boundary cases", "anchors": ["dmpbbo/dmps/Trajectory.py:crop"]}
{"id": "C59", "title": "Padding adds exactly n rows at rest", "statement": "pad_front(n)/pad_end(n) add n rows with the first/last position and zero velocity and acceleration at distance dt_mean, for every n>=2.", "quantifier": "all trajectories, n", "why_tests_cant": "floating-point length of arange", "anchors": ["dmpbbo/dmps/Trajectory.py:pad_front", "dmpbbo/dmps/Trajectory.py:pad_end"]}
{"id": "C60", "title": "Numerical differentiation is exact for quadratics and keeps the length", "statement": "For at least three equidistant samples, velocities computed from positions equal the central difference in the interior (exact for quadratics), the end values copy their neighbours, and the length is kept.", "quantifier": "all data", "why_tests_cant": "all lengths", "anchors": ["dmpbbo/dmps/Trajectory.py:diffnc", "dmpbbo/dmps/Trajectory.py:recompute_derivatives"]}
{"id": "C61", "title": "Polynomial trajectories meet their boundary conditions", "statement": "from_polynomial starts at y_from with velocity yd_from and acceleration ydd_from and ends at y_to with velocity yd_to and acceleration ydd_to; yds and ydds are the derivatives of ys.", "quantifier": "all boundary conditions and time vectors", "why_tests_cant": "continuum", "anchors": ["dmpbbo/dmps/Trajectory.py:from_polynomial"]}
{"id": "C62", "title": "Minimum-jerk trajectories go from start to goal at rest and monotonically", "statement": "from_min_jerk on times starting at 0 starts at y_from and ends at y_to with zero velocity and acceleration, stays between both, and yds, ydds are the derivatives of ys.", "quantifier": "all start/goal positions and time vectors", "why_tests_cant": "continuum", "anchors": ["dmpbbo/dmps/Trajectory.py:from_min_jerk"]}
{"id": "C63", "title": "Via-point trajectories pass through the via-point and reach the goal", "statement": "from_viapoint_polynomial keeps the number of time steps, reaches the via-point and ends at y_to.", "quantifier": "all times, via-points", "why_tests_cant": "continuum", "anchors": ["dmpbbo/dmps/Trajectory.py:from_viapoint_polynomial"]}
{"id": "C64", "title": "Basis function activations are proper kernels", "statement": "Gaussian activations lie in (0,1], equal 1 at the center; normalized activations are non-negative and sum to 1 for every input, even when all raw activations underflow to 0; one row per sample, one column per basis function.", "quantifier": "all inputs, centers, widths, underflow behaviours of exp", "why_tests_cant": "underflow only far away from the data", "anchors": ["dmpbbo/functionapproximators/basis_functions.py:Gaussian._activations"]}
{"id": "C65", "title": "Centers enumerate the full grid once", "statement": "get_centers_and_widths returns prod(n_bfs_per_dim) centers, which are exactly the points of the Cartesian grid of per-dimension equidistant centers between min and max of the inputs, each once, in lexicographic order; a wrong number of entries raises ValueError.", "quantifier": "all input dimensionalities and numbers of basis functions", "why_tests_cant": "odometer loop over all dims", "anchors": ["dmpbbo/functionapproximators/basis_functions.py:get_centers_and_widths"]}
{"id": "C66", "title": "Neighbouring basis functions intersect at the requested height", "statement": "For n_bfs>1 and height in (0,1), two neighbouring one-dimensional basis functions both have activation equal to intersection_height halfway between their centers.", "quantifier": "all input ranges, n, heights", "why_tests_cant": "continuum", "anchors": ["dmpbbo/functionapproximators/basis_functions.py:get_centers_and_widths"]}
{"id": "C67", "title": "Weighted least squares returns the minimiser of the regularized weighted squared error", "statement": "For all inputs, targets, non-negative weights and regularization >= 0 for which the normal matrix is invertible, the returned slope and offset minimise sum_i w_i (slope.x_i + offset - y_i)^2 + regularization*|beta|^2; noise-free linear data are recovered exactly.", "quantifier": "all data sets", "why_tests_cant": "optimality against all alternatives", "anchors": ["dmpbbo/functionapproximators/FunctionApproximatorWLS.py:_train"]}
{"id": "C68", "title": "LWR predictions are convex combinations of local linear models", "statement": "An LWR prediction lies between the smallest and the largest line value at the input; if all local models equal one affine function the prediction equals it; with one basis function LWR is linear least squares.", "quantifier": "all models and inputs", "why_tests_cant": "continuum", "anchors": ["dmpbbo/functionapproximators/FunctionApproximatorLWR.py:_predict", "dmpbbo/functionapproximators/FunctionApproximatorLWR.py:_get_lines"]}
{"id": "C69", "title": "LWR honours its regularization parameter", "statement": "Training FunctionApproximatorLWR with regularization lambda solves each local regression with regularization lambda.", "quantifier": "all lambda and data", "why_tests_cant": "ignored parameter is invisible unless compared", "anchors": ["dmpbbo/functionapproximators/FunctionApproximatorLWR.py:_train", "dmpbbo/functionapproximators/FunctionApproximatorWLS.py:__init__"]}
{"id": "C70", "title": "RBFN predictions are linear in the weights and least-squares optimal", "statement": "RBFN predictions are the weighted sum of activations, linear in the weight vector; training yields the weights minimising the regularized squared error of the predictions on the training data.", "quantifier": "all data, weights", "why_tests_cant": "optimality", "anchors": ["dmpbbo/functionapproximators/FunctionApproximatorRBFN.py:_predict", "dmpbbo/functionapproximators/FunctionApproximatorRBFN.py:_train"]}
{"id": "C71", "title": "GPR interpolates its training data", "statement": "If training succeeds, GPR predictions at the training inputs equal the targets.", "quantifier": "all training sets with invertible Gram matrix", "why_tests_cant": "continuum", "anchors": ["dmpbbo/functionapproximators/FunctionApproximatorGPR.py:_train", "dmpbbo/functionapproximators/FunctionApproximatorGPR.py:_predict"]}
{"id": "C72", "title": "Multi-dimensional inputs with a scalar number of basis functions", "statement": "LWR and RBFN trained with a scalar n_bfs_per_dim on inputs of dimension D use n^D basis functions and can predict.", "quantifier": "all n, D", "why_tests_cant": "dimension mismatch only for D>1", "anchors": ["dmpbbo/functionapproximators/FunctionApproximatorLWR.py:_train", "dmpbbo/functionapproximators/FunctionApproximatorRBFN.py:_train", "dmpbbo/functionapproximators/basis_functions.py:get_centers_and_widths"]}
{"id": "C73", "title": "Contextual DMP parameters are those predicted by the policy parameter functions", "statement": "After set_task_params(q) parameter i of the DMP equals the prediction of policy parameter function i at q, independent of earlier task parameters.", "quantifier": "all histories of task parameters", "why_tests_cant": "unbounded histories", "anchors": ["dmpbbo/dmps/DmpContextualTwoStep.py:set_task_params", "dmpbbo/dmps/DmpContextualTwoStep.py:integrate_start"]}
{"id": "C74", "title": "Via-point task costs are consistent", "statement": "TaskViapoint.evaluate_rollout returns five non-negative costs (for non-negative weights) of which the first is the sum of the others, and one label per component.", "quantifier": "all rollouts and weights", "why_tests_cant": "continuum", "anchors": ["demos/python/bbo_of_dmps/TaskViapoint.py:evaluate_rollout_local"]}
{"id": "C75", "title": "The C++ and Python implementations agree", "statement": "For the same parameters, the C++ Dmp (goal, phase, gating, spring systems) computes the same differential equation and analytical solution as the Python Dmp for the DMP types both implement.", "quantifier": "all states, times, parameters", "why_tests_cant": "integration tests compare only a few trajectories", "anchors": ["src/dmp/Dmp.cpp", "src/dynamicalsystems", "dmpbbo/dmps/Dmp.py"]}
{"id": "C76", "title": "An optimization interrupted by an exception can be reopened from its directory", "statement": "If run_optimization or run_optimization_task writes to a fresh directory and then ends, normally or by an exception raised at any point by the cost function, task, solver, sampler or updater, a session opened on that directory has the same n_samples_per_update and returns, for every completed update, exactly the entries of that update (as loaded from their files), and the completed updates form a prefix of the calls made.", "quantifier": "all oracles, all exception points, all numbers of updates, all sequences of asks", "why_tests_cant": "all crash points of unbounded runs", "anchors": ["dmpbbo/bbo/run_optimization.py:run_optimization", "dmpbbo/bbo_of_dmps/run_optimization_task.py:run_optimization_task", "dmpbbo/bbo/LearningSession.py:from_dir"]}
{"id": "C77", "title": "A newly constructed DMP can be executed at once", "statement": "Right after construction, integrate_start and analytical_solution succeed for all times, start at the initial state given to the constructor, at rest.", "quantifier": "all constructor arguments, DMP types and time vectors", "why_tests_cant": "all arguments", "anchors": ["dmpbbo/dmps/Dmp.py:__init__", "dmpbbo/dmps/Dmp.py:integrate_start", "dmpbbo/dmps/Dmp.py:analytical_solution"]}
{"id": "C78", "title": "analytical_solution and the differential equation describe the same system", "statement": "Every row of states and rates of change returned by analytical_solution satisfies differential_equation (where the closed forms of the subsystems do), and integrate_start returns its first row.", "quantifier": "all well-formed DMPs, all time vectors, all rows", "why_tests_cant": "all times and states", "anchors": ["dmpbbo/dmps/Dmp.py:analytical_solution", "dmpbbo/dmps/Dmp.py:differential_equation", "dmpbbo/dmps/Dmp.py:integrate_start"]}
{"id": "C79", "title": "A DMP remains executable through every history of operations", "statement": "After any sequence of successful set tau / set y_init / set y_attr / train / decouple / set_selected_param_names / set_param_vector / integration calls, analytical_solution succeeds for every time vector and the dimension is unchanged.", "quantifier": "all sequences of operations", "why_tests_cant": "unbounded histories", "anchors": ["dmpbbo/dmps/Dmp.py:train", "dmpbbo/dmps/Dmp.py:tau", "dmpbbo/dmps/Dmp.py:y_attr", "dmpbbo/dmps/Dmp.py:y_init", "dmpbbo/dmps/Dmp.py:set_param_vector", "dmpbbo/dmps/Dmp.py:decouple_parameters"]}
{"id": "C80", "title": "Training adopts start, goal and duration of the demonstration", "statement": "After train(trajectory), tau is the duration, the initial and attractor states are the first and last positions, the dimension, scaling, selection and constants are as before, each function approximator has been trained on its own dimension of the targets, and no others.", "quantifier": "all DMPs, all demonstrations, all function approximators", "why_tests_cant": "all demonstrations", "anchors": ["dmpbbo/dmps/Dmp.py:train", "dmpbbo/dmps/Dmp.py:_compute_targets", "dmpbbo/dmps/Dmp.py:from_traj"]}
{"id": "C81", "title": "decouple_parameters does not change behaviour", "statement": "Giving the spring one damping coefficient per dimension changes neither analytical_solution nor differential_equation.", "quantifier": "all DMPs, states and times", "why_tests_cant": "all states", "anchors": ["dmpbbo/dmps/Dmp.py:decouple_parameters"]}
{"id": "C82", "title": "DMPs with forcing term converge to the goal", "statement": "For every DMP type whose gating vanishes and bounded function approximator predictions, the position converges to the goal, uniformly over all time vectors with steps in a fixed interval of stable lengths.", "quantifier": "all DMPs, all time vectors, all tolerances", "why_tests_cant": "infinite horizons, all time steps", "anchors": ["dmpbbo/dmps/Dmp.py:analytical_solution", "dmpbbo/dmps/Dmp.py:differential_equation"]}
{"id": "C83", "title": "Integration and execution have no observable side effects", "statement": "Although differential_equation writes into the subsystems, the results of any sequence of differential_equation, integrate_start, analytical_solution calls are the same as on fresh copies of the DMP.", "quantifier": "all sequences of calls, all states", "why_tests_cant": "unbounded histories", "anchors": ["dmpbbo/dmps/Dmp.py:differential_equation", "dmpbbo/dmps/Dmp.py:integrate_start", "dmpbbo/dmps/Dmp.py:analytical_solution"]}
{"id": "C84", "title": "A trajectory survives its text file up to the precision of the file", "statement": "loadtxt(savetxt(trajectory)) gives a trajectory of the same shape whose numbers differ by at most half a unit of the seventh decimal, whose times increase if the original steps exceed 1e-7, and which is stored and loaded again unchanged.", "quantifier": "all trajectories with at least two samples, all roundings to seven decimals", "why_tests_cant": "all data", "anchors": ["dmpbbo/dmps/Trajectory.py:savetxt", "dmpbbo/dmps/Trajectory.py:loadtxt"]}
{"id": "C85", "title": "The time step of a trajectory is the mean difference of its times", "statement": "The mean time step kept by the trajectory, which differentiation, append and padding use, equals the mean difference of the current times after every sequence of operations.", "quantifier": "all sequences of operations", "why_tests_cant": "unbounded histories", "anchors": ["dmpbbo/dmps/Trajectory.py:__init__", "dmpbbo/dmps/Trajectory.py:crop", "dmpbbo/dmps/Trajectory.py:append", "dmpbbo/dmps/Trajectory.py:prepend"]}
{"id": "C86", "title": "A batch of inputs is predicted sample by sample", "statement": "Predicting a matrix of inputs gives, for each row, the value that predicting this row alone gives, whatever the other rows are; vectors of inputs are treated as one-column matrices.", "quantifier": "all trained function approximators (WLS, LWR, RBFN, GPR), all batches of any size", "why_tests_cant": "all batches", "anchors": ["dmpbbo/functionapproximators/FunctionApproximatorWLS.py:_predict", "dmpbbo/functionapproximators/FunctionApproximatorLWR.py:_predict", "dmpbbo/functionapproximators/FunctionApproximatorRBFN.py:_predict", "dmpbbo/functionapproximators/FunctionApproximatorGPR.py:_predict"]}
{"id": "C87", "title": "A contextual DMP reproduces its demonstrations", "statement": "After training, duration, start and attractor of the DMP are the means over the demonstrations; with policy parameter functions that interpolate (such as Gaussian processes), setting the task parameters of a demonstration gives the parameters of a DMP trained on this demonstration alone, and the same rollouts.", "quantifier": "all lists of demonstrations, all numbers of parameters and dimensions, all function approximators", "why_tests_cant": "all demonstrations and task parameters", "anchors": ["dmpbbo/dmps/DmpContextualTwoStep.py:train", "dmpbbo/dmps/DmpContextualTwoStep.py:set_task_params", "dmpbbo/dmps/DmpContextualTwoStep.py:analytical_solution"]}
{"id": "C88", "title": "The range per dimension is the largest difference of positions", "statement": "get_range_per_dim returns one number per dimension, which is the difference of two positions of the trajectory in this dimension and at least as large as any such difference; an empty trajectory raises ValueError.", "quantifier": "all trajectories", "why_tests_cant": "all data", "anchors": ["dmpbbo/dmps/Trajectory.py:get_range_per_dim"]}
{"id": "C89", "title": "The arm task evaluates the forward kinematics of the arm", "statement": "For every joint trajectory, the link positions start at the origin, consecutive joints have the distance of the link length, the direction of each link is the sum of the angles up to it, and the costs are those of the position of the end of the arm; a via-point out of reach always has costs. The link lengths are the given ones, and sum to 1 if none are given.", "quantifier": "all numbers of joints, all joint trajectories, link lengths, via-points and weights", "why_tests_cant": "continuum of trajectories, any number of joints", "anchors": ["demos/python/bbo_of_dmps/arm2D/TaskSolverDmpArm2D.py:angles_to_link_positions", "demos/python/bbo_of_dmps/arm2D/TaskViapointArm2D.py:evaluate_rollout"]}
{"id": "C90", "title": "The cost of gains lies between zero and its weight", "statement": "evaluate_rollout of the task with gain schedules returns the sum and three components: the weighted distance to the via-point at its time, the weighted mean absolute acceleration, and a cost of the gains that is 0 if all gains are minimal and at most the weight times the number of dimensions.", "quantifier": "all rollouts with gains within the bounds, all weights", "why_tests_cant": "continuum", "anchors": ["demos/python/bbo_of_dmps/with_schedules/demo_bbo_of_dmps_with_gains.py:evaluate_rollout"]}
{"id": "C91", "title": "The differential equation of a DMP is the documented one, in every state", "statement": "differential_equation(x) returns xd exactly if: tau*yd = z, tau*zd = (-k(y-goal) - d*z)/mass + prediction*gating*scaling, where the goal is the attractor or the state of the goal system and d the damping coefficient or the state of the damping system, and the rates of goal, phase, gating and damping are those of the subsystems with the goal system moving to the attractor. It is defined in all states, and earlier calls do not change it.", "quantifier": "all DMPs with any subsystems and function approximators, all states, any earlier calls", "why_tests_cant": "continuum of states and parameters, unbounded number of dimensions", "anchors": ["dmpbbo/dmps/Dmp.py:differential_equation"]}
{"id": "C92", "title": "Schedules are the bounded predictions at the phase, and do not disturb the movement", "statement": "analytical_solution_sched(ts) returns the movement that analytical_solution(ts) returns, and one row of schedules per time: the predictions of the function approximators of the schedules at the phase of that time, limited to the bounds. integrate_start_sched and integrate_step_sched return the states that the calls without schedules return, with the schedules of the phase in that state; states_as_trajectory_sched keeps both.", "quantifier": "all DMPs with any number of schedules, all function approximators, times, states, step sizes and bounds", "why_tests_cant": "continuum of times and phases, any number of schedules", "anchors": ["dmpbbo/dmps/DmpWithSchedules.py:analytical_solution_sched", "dmpbbo/dmps/DmpWithSchedules.py:integrate_start_sched", "dmpbbo/dmps/DmpWithSchedules.py:integrate_step_sched", "dmpbbo/dmps/DmpWithSchedules.py:states_as_trajectory_sched"]}
{"id": "C93", "title": "Schedules depend on the phase only", "statement": "Setting start, goal or parameters of the movement, and simulating it, in any order, leaves the schedules at all times as they were; multiplying the duration by c gives at c*t the schedules that were at t.", "quantifier": "all histories of such calls, all times, all factors c > 0", "why_tests_cant": "unbounded histories, continuum of times", "anchors": ["dmpbbo/dmps/DmpWithSchedules.py:analytical_solution_sched", "dmpbbo/dmps/Dmp.py:tau"]}
{"id": "C94", "title": "Training reproduces the schedules of the demonstration", "statement": "train(trajectory) trains the movement as without schedules, and each schedule on the phases at the times of the demonstration with the values in its column of misc; if the function approximators fit these, analytical_solution_sched() returns the schedules of the demonstration, limited to the bounds. Schedules can instead be passed as the argument schedules.", "quantifier": "all demonstrations, numbers of schedules, function approximators and bounds", "why_tests_cant": "all demonstrations", "anchors": ["dmpbbo/dmps/DmpWithSchedules.py:train", "dmpbbo/dmps/DmpWithSchedules.py:from_traj"]}
{"id": "C95", "title": "Numerical integration of a DMP approximates its analytical solution", "statement": "integrate(ts), by Euler or Runge-Kutta steps, and analytical_solution(ts) both return states for all times ts; the states differ by at most a constant times the largest time step, where the constant depends on the DMP and the final time only. This holds for DMPs of every type, after every history of training and of setting start, goal, duration and parameters, and for DMPs trained on a demonstration with radial basis function networks or locally weighted regression.", "quantifier": "all DMPs with Lipschitz continuous function approximators, all times up to T, equally spaced or not, any number of steps, both methods", "why_tests_cant": "continuum of step sizes, any number of steps", "anchors": ["dmpbbo/dynamicalsystems/DynamicalSystem.py:integrate", "dmpbbo/dmps/Dmp.py:differential_equation", "dmpbbo/dmps/Dmp.py:analytical_solution"]}
{"id": "C96", "title": "Numerical integration of a dynamical system approximates its analytical solution", "statement": "For exponential, sigmoid and time systems, Richards systems with whole exponents, and critically damped spring-damper systems which start at rest (or with tau=1): integrate(ts), by Euler or Runge-Kutta steps, and analytical_solution(ts) differ by at most a constant times the largest time step, where the constant depends on the system and the final time only.", "quantifier": "all parameters, initial states and attractors, all times up to T, any number of steps, both methods", "why_tests_cant": "continuum of step sizes, any number of steps", "anchors": ["dmpbbo/dynamicalsystems/DynamicalSystem.py:integrate", "dmpbbo/dynamicalsystems/DynamicalSystem.py:integrate_step_runge_kutta", "dmpbbo/dynamicalsystems/DynamicalSystem.py:integrate_step_euler"]}
{"id": "C97", "title": "Objects do not depend on later changes of the arrays of the caller", "statement": "Changing an array in place never changes what a dynamical system, function approximator or DMP returns, if the program leaves alone the arrays which an object keeps (those given to setters, to set_param_vector and train, and the attractor and parameters given to a constructor) or shares (those returned by getters of attributes, and the state returned by integrate_start); all other arrays, e.g. initial states given to constructors, times, states and solutions, may be changed and used again.", "quantifier": "all programs: any sequence of creating arrays, changing single numbers in place and calling methods, with any arguments", "why_tests_cant": "unbounded histories of shared memory", "anchors": ["dmpbbo/dynamicalsystems/DynamicalSystem.py:integrate_start", "dmpbbo/dynamicalsystems/DynamicalSystem.py:x_init", "dmpbbo/functionapproximators/FunctionApproximator.py:set_param_vector", "dmpbbo/dmps/Dmp.py:set_param_vector", "dmpbbo/dmps/Dmp.py:train", "dmpbbo/dynamicalsystems/SigmoidSystem.py:SigmoidSystem"]}
{"id": "C98", "title": "A whole optimization does not depend on coordinates and units", "statement": "Expressing the search space in coordinates x' = c*x + v (mean, covariance, bounds, limits on the exploration and cost function accordingly) gives, with the same random numbers, the same optimization in these coordinates: all samples, means and covariances are the transformed ones, all costs and weights are equal. Expressing costs in another unit and with another zero changes nothing else with PI-BB; CEM and CMA-ES only use the order of the costs.", "quantifier": "all optimizations with any number of updates and samples, cost functions and tasks with any internal state, distributions with and without bounds, all updaters, c > 0, v; also optimizations that end with an exception", "why_tests_cant": "unbounded histories, continuum of transformations", "anchors": ["dmpbbo/bbo/run_optimization.py:run_optimization", "dmpbbo/bbo_of_dmps/run_optimization_task.py:run_optimization_task", "dmpbbo/bbo/updaters.py:UpdaterCovarAdaptation", "dmpbbo/bbo/DistributionGaussianBounded.py:generate_samples"]}
{"id": "C99", "title": "Trajectories survive being exchanged between Python and C++ as text files", "statement": "A trajectory saved by Python and read in C++ with the right number of misc variables has the same number of time steps, dimensions and misc variables, and all numbers up to half a unit of the seventh decimal; saved by C++ and read in Python or C++, up to half a unit of the sixth, and saving it again changes nothing more. Both languages read the same numbers from such files. saveToFile returns whether the file was written, and leaves other files and, when false, everything as it was.", "quantifier": "all consistent trajectories with any number of time steps, dimensions and misc variables; all contents of the file system", "why_tests_cant": "any size, continuum of values", "anchors": ["src/dmp/Trajectory.cpp:saveToFile", "src/dmp/Trajectory.cpp:readFromFile", "src/eigenutils/eigen_file_io.tpp:loadMatrix", "src/eigenutils/eigen_file_io.tpp:saveMatrix", "dmpbbo/dmps/Trajectory.py:savetxt", "dmpbbo/dmps/Trajectory.py:loadtxt"]}
{"id": "C100", "title": "C++ trajectories: generators, append and misc variables", "statement": "generateMinJerkTrajectory and generatePolynomialTrajectory give the numbers that their Python counterparts give, and fail on the same inputs. append gives all samples of the first trajectory and then those of the second without its first one, with times that increase if they did before, and (with assertions) only if the second starts where the first ends. generatePolynomialTrajectoryThroughViapoint keeps the given times, starts at rest in y_from, is in the via-point at the first time not before the time of the via-point and ends at rest in y_to. set_misc takes one row per time step, or one for all.", "quantifier": "all times, positions, via-points and trajectories of any length and dimension, with and without assertions", "why_tests_cant": "continuum of inputs, any length", "anchors": ["src/dmp/Trajectory.cpp:generateMinJerkTrajectory", "src/dmp/Trajectory.cpp:generatePolynomialTrajectory", "src/dmp/Trajectory.cpp:generatePolynomialTrajectoryThroughViapoint", "src/dmp/Trajectory.cpp:append", "src/dmp/Trajectory.cpp:set_misc"]}
{"id": "C101", "title": "The simulated ball is thrown as physics says, and alike in Python and C++", "statement": "The rows returned by run_python_simulation, and those saved by robotExecuteDmp and robotExecuteTrajectory, contain the movement of the hand of every time step, and a ball that is in the hand up to the first time step after 0.6 s, then falls with the velocity the hand had, and stays where it hits the floor. For a DMP read from its JSON representation, hand and ball of C++ are those of Python at every time step.", "quantifier": "all movements of the hand (DMPs of the plane with any parameters, trajectories with any number of equidistant samples), durations and heights of the floor", "why_tests_cant": "continuum of movements, unbounded number of time steps", "anchors": ["demos/robot/TaskThrowBall.py:run_python_simulation", "demos/robot/runSimulationThrowBall.cpp:ThrowBallSimulator::integrateStep", "demos/robot/robotExecuteDmp.cpp:main", "demos/robot/robotExecuteTrajectory.cpp:main"]}
{"id": "C102", "title": "Costs of throwing a ball", "statement": "The cost of a throw is the sum of a landing cost, which is the distance of the final ball to the margin around the goal and zero exactly within it, and of an acceleration cost, which is the weighted mean of the squared accelerations of the hand; none is negative. The landing cost depends on position and velocity of the hand at the release only.", "quantifier": "all tasks (goals, margins, weights), all rollouts with at least eight columns, all simulated movements", "why_tests_cant": "continuum of inputs, any number of time steps", "anchors": ["demos/robot/TaskThrowBall.py:TaskThrowBall.evaluate_rollout", "demos/robot/TaskThrowBall.py:run_python_simulation"]}
{"id": "C103", "title": "Every sample of an exploration reaches the robot as its own movement", "statement": "A DMP trained from any demonstration by step 1 of the robot demo can be given every parameter vector of the right length; step 3 writes one file per sample, under a name of its own, and the DMP that C++ reads from it moves exactly as the Python DMP with the parameters of that sample, although all files are written from the same object.", "quantifier": "all demonstrations, numbers of dimensions and basis functions, any number of samples, all calls in any order", "why_tests_cant": "continuum of demonstrations and samples, unbounded number of files and calls", "anchors": ["demos/robot/step1_train_dmp_from_trajectory_file.py:main", "demos/robot/step3_tune_exploration.py:main", "dmpbbo/dmps/Dmp.py:set_param_vector", "dmpbbo/json_for_cpp.py:savejson_for_cpp"]}
{"id": "C104", "title": "A rollout in a force field follows the DMP with its gains and responds to the force", "statement": "perform_rollout of the force field simulator starts in the initial state of the DMP; in each time step the desired movement is that of the DMP alone, and the robot is accelerated by a spring and damper (with the gain schedules, limited to their bounds) towards it and by the force. The response is linear in the strength of the force. With a constant gain the force moves the robot by at most a multiple of strength/gain, the robot stays close to the desired movement, and settles when the DMP rests. The costs of the task are those of this rollout.", "quantifier": "all DMPs with gain schedules (and all streams of desired movements), durations, numbers of time steps, strengths and times of the force", "why_tests_cant": "continuum of movements and forces, unbounded number of time steps", "anchors": ["demos/python/bbo_of_dmps/with_schedules/force_field_simulator.py:perform_rollout", "demos/python/bbo_of_dmps/with_schedules/demo_bbo_of_dmps_with_gains.py:TaskSolverDmpWithGainsAndForceField", "dmpbbo/dmps/DmpWithSchedules.py:integrate_step_sched"]}
{"id": "C105", "title": "Setting parameters of the subsystems changes exactly these parameters", "statement": "set_params_dyn_sys with a dictionary of parameters of the spring, goal and damping systems gives the DMP that would have been constructed with these parameters: they have the new values, all others keep theirs, and the DMP follows the differential equation with the new constants. Unknown names raise an exception. A parameter that was set takes effect.", "quantifier": "all DMPs, all dictionaries of settings, all later calls", "why_tests_cant": "continuum of parameter values, any combination and order of settings", "anchors": ["dmpbbo/dmps/Dmp.py:set_params_dyn_sys", "dmpbbo/dynamicalsystems/SigmoidSystem.py:SigmoidSystem._get_ks"]}
{"id": "C106", "title": "Updates move the mean to lower costs", "statement": "The weights of an update give the samples a weighted mean cost that is at most their mean cost (less, for PI-BB with different costs, and at most a multiple of range/eliteness above the best). If the cost is a convex function of the sample, the new mean costs at most that much; if only its level sets are convex, at most as much as the worst sample with a weight. So in run_optimization and run_optimization_task, every evaluation costs at most the mean cost of the samples of the update before, in all updates; the cost functions of the demos are of this kind. With decaying exploration, the mean moves at most K/(1-factor) initial standard deviations in all updates together, if samples are within K standard deviations.", "quantifier": "all samples, costs, updaters and weighting methods that prefer low costs, all random generators, any number of updates and dimensions", "why_tests_cant": "continuum of samples and costs, unbounded number of updates, any random numbers", "anchors": ["dmpbbo/bbo/updaters.py:costs_to_weights", "dmpbbo/bbo/updaters.py:update_distribution", "dmpbbo/bbo/run_optimization.py:run_optimization", "dmpbbo/bbo_of_dmps/run_optimization_task.py:run_optimization_task", "demos/python/bbo/demo_bbo.py:DemoCostFunctionDistanceToPoint", "demos/python/bbo/demo_bbo_multiple_cost_components.py:DemoCostFunctionDistanceToPoint"]}
{"id": "C107", "title": "Learning a via-point with a DMP is a convex problem", "statement": "If weights (RBFN), slopes and offsets (LWR) and maybe the goal of a DMP are the parameters, the rollout of TaskSolverDmp for a mix of two parameter vectors is the mix of their rollouts, in positions, velocities and accelerations at all times. So if the time of the via-point is given, every cost component of TaskViapoint and the total cost are convex functions of the parameters, and in run_optimization_task the evaluation of every update costs at most the average cost of the samples of the update before. The optimization succeeds with the updaters that do not adapt covariances, and DMPs trained with demonstrations are of this kind. Without a time for the via-point, or with the goal as parameter and a forcing term scaled with it, costs are not convex and an update may go from two samples without costs to a mean with costs.", "quantifier": "all DMPs with trained RBFNs or LWRs, all selections of these parameters, all via-point tasks with a time, all random generators, any number of samples and updates", "why_tests_cant": "continuum of parameters and costs, unbounded number of updates, any random numbers", "anchors": ["dmpbbo/bbo_of_dmps/TaskSolverDmp.py:perform_rollout", "demos/python/bbo_of_dmps/TaskViapoint.py:evaluate_rollout_local", "dmpbbo/bbo_of_dmps/run_optimization_task.py:run_optimization_task", "dmpbbo/dmps/Dmp.py:analytical_solution", "dmpbbo/dmps/Dmp.py:set_param_vector"]}
{"id": "C108", "title": "Training is linear, so that images of demonstrations give images of movements", "statement": "For all regressors (weighted least squares, RBFN, LWR, GPR): training with targets that are a linear combination of other targets succeeds if training with those does, and the predictions, for every batch of inputs, are the same combination of the predictions. So if a demonstration is the image of another under an affine map (moved, scaled, mirrored, rotated, with dimensions dropped, repeated or mixed), from_traj succeeds for both, and the movement of its DMP is, in positions, velocities and accelerations at all times, the image of the movement learned from the other. Dimensions that are mixed must have function approximators of the same kind with the same settings.", "quantifier": "all training inputs and targets, all linear combinations, all affine maps between any numbers of dimensions, all demonstrations and all times of the rollout", "why_tests_cant": "continuum of targets, maps and demonstrations, unbounded numbers of samples, dimensions and time steps", "anchors": ["dmpbbo/functionapproximators/FunctionApproximatorWLS.py:_train", "dmpbbo/functionapproximators/FunctionApproximatorRBFN.py:_train", "dmpbbo/functionapproximators/FunctionApproximatorLWR.py:_train", "dmpbbo/functionapproximators/FunctionApproximatorGPR.py:_train", "dmpbbo/dmps/Dmp.py:from_traj", "dmpbbo/dmps/Dmp.py:analytical_solution"]}
{"id": "C109", "title": "Errors of forcing terms show in movements only divided by the square of the damping rate", "statement": "If the forcing terms of two rollouts of a critically damped DMP differ by at most phi, then at all times positions differ by at most phi/a^2, velocities by 2 phi/(a tau) and accelerations by 4 phi/tau^2 (a is half the damping coefficient), however long the movement is and on every time grid with steps of at most tau/a. So parameters of function approximators that differ by at most e give movements that differ by at most a constant times e; and a DMP trained with a smooth demonstration reproduces it, up to the error of the fit divided by a^2 and a term proportional to the time step. For minimum-jerk demonstrations of distance L and duration D, with steps of at most b, the positions are within (eps + (30 + 6a) L b/D)/a^2 of the demonstration.", "quantifier": "all DMPs that are critically damped, all forcing terms, parameters and demonstrations, all durations and time grids with short enough steps", "why_tests_cant": "continuum of parameters and demonstrations, unbounded number of time steps and dimensions", "anchors": ["dmpbbo/dmps/Dmp.py:analytical_solution", "dmpbbo/dmps/Dmp.py:from_traj", "dmpbbo/dmps/Dmp.py:_compute_targets", "dmpbbo/dmps/Dmp.py:set_param_vector", "dmpbbo/dmps/Trajectory.py:from_min_jerk", "dmpbbo/dynamicalsystems/SpringDamperSystem.py:differential_equation"]}
{"id": "C110", "title": "The speed of a demonstration does not matter", "statement": "A demonstration that is c times slower (times multiplied by c, velocities divided by c, accelerations by c^2) gives a DMP with c times the tau and exactly the same parameters of the function approximators, and its movement, on any times multiplied by c, has the same positions, with velocities divided by c and accelerations by c^2. (Changing tau afterwards does not do this for sigmoid gating, see C50.) The time at which a demonstration starts does matter, however: tau is its last time, which exceeds its duration by the time of its first sample.", "quantifier": "all demonstrations, all factors c > 0, all times of the rollout, all settings of RBFNs and LWRs", "why_tests_cant": "continuum of demonstrations and factors, unbounded numbers of samples, dimensions and time steps", "anchors": ["dmpbbo/dmps/Dmp.py:from_traj", "dmpbbo/dmps/Dmp.py:train", "dmpbbo/dmps/Dmp.py:_compute_targets", "dmpbbo/dmps/Dmp.py:analytical_solution", "dmpbbo/dynamicalsystems/SigmoidSystem.py:for_gating"]}
{"id": "C111", "title": "With a bounded distribution, no update tries anything outside the bounds", "statement": "If run_optimization or run_optimization_task starts with a DistributionGaussianBounded whose mean is inside its bounds, then all means, all samples and all parameters that are tried in cost functions and rollouts are inside the bounds, in all updates, with all updaters and weighting methods, and whether or not the run is ended by an exception; so is the final mean. What a robot or cost function would do outside the bounds does not matter at all. So if the bounds are at most e apart, any two rollouts of the whole optimization of a critically damped DMP (parameters: weights, slopes or offsets) have positions that differ by at most c g e/a^2 at every time. An initial mean outside the bounds is not clipped: it is tried as it is.", "quantifier": "all bounds, all random generators, tasks, cost functions, updaters and costs, any number of updates, samples and dimensions, all points at which a call may raise", "why_tests_cant": "any random numbers and user code, unbounded number of updates, continuum of parameters, every point of failure", "anchors": ["dmpbbo/bbo/DistributionGaussianBounded.py:generate_samples", "dmpbbo/bbo/updaters.py:update_distribution", "dmpbbo/bbo/run_optimization.py:run_optimization", "dmpbbo/bbo_of_dmps/run_optimization_task.py:run_optimization_task", "dmpbbo/bbo_of_dmps/TaskSolverDmp.py:perform_rollout"]}
{"id": "C112", "title": "A disturbed movement returns to the undisturbed one", "statement": "If the position and velocity of a critically damped DMP are changed between two calls of integrate_step or integrate_step_euler, by any amount, then all later steps are as possible as without the change; goal, phase and gating are those without the change; and the differences of position and velocity after k more steps of size dt are given by a closed formula: a geometric decay with ratio 1-u (Euler) or 1-u+u^2/2-u^3/6+u^4/24 (Runge-Kutta), u = a dt/tau, times a linear term. So with steps shorter than 2 tau/a (with the default damping coefficient: a fifth of tau) the disturbance becomes as small as one likes, whatever it was and whatever the forcing term is; with longer Euler steps it may never become smaller. This holds for DMPs of all types without a damping system after every history of calls.", "quantifier": "all DMPs, states, disturbances, times of disturbance, step sizes, numbers of steps, forcing terms, histories of calls", "why_tests_cant": "continuum of disturbances and states, unbounded number of steps, all histories", "anchors": ["dmpbbo/dmps/Dmp.py:differential_equation", "dmpbbo/dmps/Dmp.py:integrate_start", "dmpbbo/dynamicalsystems/DynamicalSystem.py:integrate_step", "dmpbbo/dynamicalsystems/DynamicalSystem.py:integrate_step_euler", "dmpbbo/dynamicalsystems/SpringDamperSystem.py:differential_equation"]}
{"id": "C113", "title": "Step-by-step execution reaches the goal from every state, also when the goal is changed on the way", "statement": "If integrate_step or integrate_step_euler of a critically damped DMP without damping system is called again and again with steps that are short enough for spring, phase, gating and goal system (explicit bounds), then from every state, whatever its positions, velocities, goals and phase, all steps are possible, and the movement ends up at the goal at rest, for every forcing term that is bounded for bounded phases; RBFNs and LWRs are. If y_attr is set between the steps, as often as one likes and to any goals, every setting and step succeeds and the movement ends up at the last goal. For DMPs of the types of Ijspeert 2002 and Kulvicius 2012 and the countdown type this holds after every history of training, new starts, goals, durations, parameters and executions, with all step sizes below some positive bound, from the state of integrate_start and from every other one with a gating between 0 and 1. DMPs trained with from_traj with RBFNs or LWRs end up at the end of the demonstration in the same way.", "quantifier": "all DMPs of these types, histories of calls, states, step sizes below the bound, forcing terms, demonstrations, sequences of goal changes and numbers of steps between them", "why_tests_cant": "continuum of states and goals, limit of an unbounded number of steps, all schedules of goal changes, all histories", "anchors": ["dmpbbo/dmps/Dmp.py:differential_equation", "dmpbbo/dmps/Dmp.py:integrate_start", "dmpbbo/dmps/Dmp.py:y_attr", "dmpbbo/dynamicalsystems/DynamicalSystem.py:integrate_step", "dmpbbo/dynamicalsystems/DynamicalSystem.py:integrate_step_euler", "dmpbbo/dynamicalsystems/SigmoidSystem.py:differential_equation"]}
{"id": "C114", "title": "Each dimension of a DMP moves as if it were alone", "statement": "The dimensions of a DMP do not influence each other. If a dimension of one DMP and a dimension of another one (of any numbers of dimensions) have the same duration, phase, gating, spring, goal, scaling and predictions, then step-by-step executions from states that agree in these dimensions agree in them after every number of steps with integrate_step and integrate_step_euler, whatever the other dimensions are; in particular a disturbance of one dimension does not show in the others. The same holds if the goal is changed on the way (y_attr), as long as the new goals agree in these dimensions, and for analytical_solution at all times. A new DMP of several dimensions of the types of Ijspeert 2002 and Kulvicius 2012 or the countdown type has in each dimension the analytical solution and the executions of the new DMP of one dimension with that start, goal, damping coefficient and function approximator.", "quantifier": "all pairs of DMPs without damping system and with no or an exponential goal system, numbers of dimensions, states, step sizes, numbers of steps, times, predictions", "why_tests_cant": "continuum of states and parameters of the other dimensions, any number of dimensions and steps", "anchors": ["dmpbbo/dmps/Dmp.py:differential_equation", "dmpbbo/dmps/Dmp.py:analytical_solution", "dmpbbo/dmps/Dmp.py:integrate_start", "dmpbbo/dmps/Dmp.py:__init__", "dmpbbo/dynamicalsystems/SpringDamperSystem.py:differential_equation", "dmpbbo/dynamicalsystems/ExponentialSystem.py:differential_equation"]}
