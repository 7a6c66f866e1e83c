# Formal model of stulp/dmpbbo in Rocq (Coq 8.16.1)

## 1. What is modelled, and how

* The C++ counterparts of DMPs, dynamical systems and function approximators (`Cpp*.v`, C75) and of
  trajectories and text files (`CppTraj*.v`, C99 and C100), and the ball-throwing task of `demos/robot` in both
  languages (`Throw*.v`, C101 and C102), with steps 1 and 3 of its tutorial (`Explore*.v`, C103).
* The force field simulator and the solver of the demo with gain schedules (`Field*.v`, C104).
* `Dmp.set_params_dyn_sys`, with the changes that remain when it raises (`Tune*.v`, C105).
* The cost functions of the demos in `demos/python/bbo` (`Opt*.v`, C106).
* Optimization of a DMP on the via-point task as a whole, from the models of TaskSolverDmp, TaskViapoint, Dmp, RBFN, LWR and run_optimization_task (`Via*.v`, C107).
* Training of all regressors as a linear map of the targets, and DMPs trained with affine images of demonstrations (`Affine*.v`, C108).
* How errors of forcing terms, of parameters and of the fit show in movements (`Repro*.v`, C109).
* DMPs trained with demonstrations at another speed (`Slow*.v`, C110).
* Optimizations with bounded distributions (`Safe*.v`, C111).
* Executions step by step in which the robot is pushed (`Push*.v`, C112).
* Executions step by step with changes of the goal on the way (`Reach*.v`, C113).
* The dimensions of DMPs side by side (`Dim*.v`, C114).
* The Python package `dmpbbo/` (black-box optimization, learning session, DMPs, dynamical
  systems, function approximators, trajectory). Plotting, printing, file formats
  (jsonpickle / numpy text encodings) and random number generation are not modelled: random
  generators, cost functions, tasks and file codecs appear as arbitrary functions (arguments of
  the model), so theorems hold for each of them.
* `theories/<Area>Model.v` – total, computable Gallina functions, one per Python function, each
  with a comment citing file and lines. Exceptions are values: `res A := Ok a | Err e`.
* `theories/<Area>Proofs.v` – lemmas.
* `theories/<Area>Properties.v` – only the statements `Cnn_…`, proved by `exact`, each with a
  satisfiability `Example` and a `Print Assumptions`.
* `theories/Spec*.v` – small, model-independent vocabulary in which statements are phrased.

### Numbers
Python floats are modelled by the real numbers `R` of the standard library (exact arithmetic;
rounding, overflow and underflow are abstracted, except where a theorem is about them, see
C59/C64). Division by zero and the resulting nan/inf of numpy are NOT totalised away: model
functions return the explicit outcome `Err NonFinite` when numpy would produce nan/inf, and the
Python exception when Python would raise one. `Err Unmodelled` marks inputs outside the modelled
domain (exotic broadcasting); no theorem claims anything about those.

### Mutable objects
Methods that change `self` are state-passing functions on values. `LearningSession.ask` is modelled
with an explicit heap. For dynamical systems, function approximators and DMPs, C97 adds a heap of
numpy arrays on top of these functions (`Alias*.v`): for each method, which array each attribute and
each result refers to afterwards. It proves that the functions on values describe every program that
does not change, in place, arrays which an object keeps or shares, so that the other theorems apply to
such programs; `AliasSpec.v` lists these arrays. Not in this model: SIGMOID goal systems of DMPs, DMPs
with schedules, and `save_training_data`.

### Axioms
Only the axioms of the standard library's classical reals (`ClassicalDedekindReals.sig_forall_dec`,
`ClassicalDedekindReals.sig_not_dec`, `FunctionalExtensionality.functional_extensionality_dep`)
and, where Coquelicot lemmas need it, `Classical_Prop.classic`. Section 4 lists them per theorem.

## 2. Plan per property

| id | model | proof |
|----|-------|-------|
| C01–C07 | `costs_to_weights` with argsort an arbitrary sorting permutation | sums over lists, permutations, monotonicity of exp |
| C08–C14 | the three updaters on `list (list R)` matrices | weighted averages; induction over histories; PSD by quadratic forms; C12 is expected false with `diagonal_max` (counter-example), proved otherwise |
| C15–C16 | constructor check; clipping after an arbitrary sampler | case analysis |
| C17–C25 | `LearningSession` with heap, cache, directory | simulation of an abstract map by induction over histories; key injectivity on strings; C20, C21, C23 expected false in general: refutation plus guarded theorem |
| C76 | the loops with exceptions at any call | invariant relating directory and history |
| C26–C29 | loops over an abstract session with trace of oracle calls | induction on number of updates, simulation |
| C30–C36 | parameter dictionaries with numpy shapes | list splitting lemmas; C34, C36 expected false in general |
| C37–C44 | closed forms and differential equations, scalar or array parameters | Coquelicot `is_derive`, `is_lim`; spec predicate `exact_solution` |
| C45–C47 | generic integration steps on `list R` | algebra; Taylor bound of exp |
| C48–C54 | `Dmp` record of subsystems, function approximators as records | index arithmetic, algebra, simulation between two time scales, spectral argument for convergence |
| C55–C63 | `Trajectory` record with numpy matrices | invariants over operation lists; `is_derive` for polynomials; C61 expected false (wrong coefficient) |
| C84, C85 | text files as matrices of rounded numbers; the stored time step | any rounding to 7 decimals; invariant of uniform sampling over operation lists |
| C64–C72, C86 | basis functions, WLS, LWR, RBFN, GPR; the matrix inverse is Gauss-Jordan elimination in exact arithmetic | quadratic forms; induction over the odometer; exponential sums by Rolle's theorem for solvability |
| C77–C83 | the same `Dmp` model | invariants `sound`/`ready` over operation lists; C77 expected false for scaled types; C82 by a Lyapunov argument uniform in the time vector |
| C73, C87 | contextual DMP with its policy parameter functions as oracles | invariant over histories of calls; copies of a DMP trained on demonstrations differ in their parameters only; the GPR theorem as instance |
| C88 | `get_range_per_dim` | extremal values over lists |
| C74, C89, C90 | the demo tasks on cost variables as array or data frame; forward kinematics of the arm; composition with the DMP rollout | sums and distances; induction over the links; triangle inequality |
| C75 | the JSON document Python saves, the C++ reader, and the C++ objects with all methods of Dmp | both programs as transition systems over histories of calls; an image function from Python to C++ objects that commutes with all calls |
| C91 | the same `Dmp` model | both directions of an equivalence with the documented equations |
| C92–C94 | `DmpWithSchedules` on top of the `Dmp` model; schedules predicted by arbitrary functions, as the forcing term | closed-form phase; composition with C36, C77–C83 and training |
| C95, C96 | `integrate` of `DynamicalSystem`, with the assignments to its subsystems that `Dmp.differential_equation` makes on each call | one-step error of both methods and a discrete Gronwall argument with a bound on all states; the time system, whose rate jumps, by a bound of its own; Gaussians and their quotients are Lipschitz |
| C97 | a heap of arrays under the models of `DynamicalSystem`, `FunctionApproximator` and `Dmp`: sources of attributes and results per call, and programs of new arrays, changes in place and calls | a simulation by induction over programs, once for all classes, from a condition on each call; that condition per class and call |
| C98 | the loops of LoopModel with a generator, arbitrary cost functions and rollouts with state, and the updaters | a simulation of two runs, call by call, by induction over the updates; updates, clipping and sampling commute with the transformation |
| C99 | Trajectory.cpp, eigen_file_io.tpp (loops over lines and words, including failed extractions) and numpy's text tables, with an arbitrary rounding to u decimals | the matrix written is the matrix read, entry by entry; both readers agree on it; a disk as a map for the results of saving |
| C100 | the constructors, generators, append and set_misc of Trajectory.cpp with and without assertions | equality of tables with the Python generators; entries of the appended matrices; the polynomial boundary conditions of C63 |
| C101 | run_python_simulation with its arrays and the view of a row that it writes to, ThrowBallSimulator::integrateStep, both executables; the clocks also in double precision | invariant over the time steps with a closed form of the flight; uniqueness of the ball gives agreement; the DMPs by C75 |
| C102 | evaluate_rollout of TaskThrowBall | sums of squares; composition with C101 |
| C103 | the scripts of steps 1 and 3 with names of files and the one DMP object all samples are set on | setting parameters keeps what C++ needs (types, sizes, finite predictions); names are injective; execution by C75, throws by C101 |
| C104 | perform_rollout with any stream of desired movements, the instance for DmpWithSchedules, the table of the task solver | induction over time steps; superposition; a norm in which two successive deviations contract by sqrt(1-a), a = dt sqrt(gain) |
| C105 | set_params_dyn_sys on the objects of a DMP, returning the changed DMP also when an exception is raised; attributes by name | induction over the dictionary of settings; the constructor unfolded; C91 for the equation; C43 for sigmoid systems |
| C106 | cost functions of demo_bbo.py and demo_bbo_multiple_cost_components.py; the rest is the model of C01-C12 and C26-C28 | Chebyshev's sum inequality for weights and costs; Jensen's inequality by induction over the samples; the trace of the optimization (C26, C28); Cauchy-Schwarz for the norm; a geometric sum |
| C107 | nothing new: the task solver (C72-C74), predictions (C58), loop (C28) and updaters (C106) together | the parameters enter models affinely, predictions are affine in weights, and Euler steps keep this (induction over time); norms and sums of squares are convex; an invariant of the loop (the solver's DMP comes from rollouts only) |
| C108 | nothing new: the regressors (C67-C71), training of DMPs (C49, C80) and rollouts (C53) | closed forms of the trained parameters (an inverse that depends on the inputs only, times the targets); targets and Euler steps commute with affine maps (induction over time); then predictions by linearity |
| C109 | nothing new: rollouts (C53), training (C49), parameters (C107) and minimum-jerk trajectories (C62) | the difference e of positions and the combination u = z + a e of differences form a triangular system of two contractions; bounds by induction over time, then bounds of predictions (activations in [0, 1], normalized ones sum to 1) and of Taylor remainders (mean value theorem) |
| C110 | nothing new: training of DMPs (C49, C80) and rollouts (C53) | closed forms of the subsystems are functions of t/tau (for the sigmoid by uniqueness of its rate); targets are equal, so training gets equal data; Euler steps commute with the scaling of time (induction over time) |
| C111 | nothing new: loops (C17, C18), bounded distributions (C16), updaters, TaskSolverDmp | invariant of the loops over all events, exceptions included: samples are clipped, new means are convex combinations; a relational version of it for user code that differs outside; with C109 for the distance of rollouts |
| C112 | nothing new: differential equation and integration steps of a DMP (C46, C91) | the difference of two states obeys a linear recursion, since the rates of goal, phase, gating and forcing term do not depend on position and velocity (C91); in the basis (position, velocity + a position) it is triangular, so induction on the steps gives the closed formula; k q^k tends to 0 by Bernoulli's inequality; kinds of subsystems are invariant under all calls |
| C113 | nothing new: differential equation and integration steps of a DMP (C46, C91), setter of y_attr | one step contracts gating and the distance of the goal state from y_attr (for the sigmoid: on the interval between 0 and its initial value, for Runge-Kutta by bounds on all four stages); position and velocity obey the triangular recursion of C112 plus a term bounded by these; contractions with fading input fade; a new goal only changes the distances, so induction on the changes; kinds and initial state of the gating are invariant under all calls; phases stay bounded, and weighted sums with activations in [0, 1] are bounded for bounded phases |
| C114 | nothing new: differential equation, integration steps (C46, C91), analytical solution (C53), constructor | the rates of a dimension are a function of its position, velocity, goal, phase and gating (C91), so equality is invariant under every stage of a step; for analytical solutions by induction over the rows; goal changes on the way by induction over the plan (C113's executions); the constructor unfolded for n dimensions and for one |

## 3. Findings (properties that are false of the code)

Every finding is a theorem about the model (`…_refuted`, or the name given); the property's guarded
version is proved beside it with the suffix `_partial` where the property itself fails.

Black-box optimization and sessions
- `DistributionGaussianBounded` does not check or clip its mean: an initial mean outside the bounds is
  rolled out as it is (C111_mean_refuted). After one update the mean is inside.
- `UpdaterCovarAdaptation` with `diagonal_max` and full covariance matrices can give a
  matrix that is not positive semi-definite (C12_psd_refuted).
- Entry names can collide: names that start with a digit, numpy update numbers (C18).
- A session opened with directory `''` says an entry exists that ask cannot find (C19_refuted).
- A stale `.json` shadows a newer `.txt` (C20_refuted). The first ask of an entry loaded from disk
  returns the cached object itself (C21_refuted).
- `get_n_updates` is one less than the number of completed closed-loop updates (C23_refuted), so the
  learning curve misses the last update (C24_closed_loop).

Parameter vectors and schedules
- A selected offset of a least-squares model trained on one-dimensional targets cannot be set
  (C30_refuted). A function approximator without selection adds a spurious 0 to a DMP's vector
  (C33_unselected_refuted). Once selected, the goal is never deselected (C34_refuted).
- Names that merely contain `sched_` are taken for schedules (C35_names_refuted). A lower bound of 0 is
  ignored (C36_refuted).

Dynamical systems
- The closed form of the spring-damper system is wrong for a moving start with tau other than 1
  (C40_moving_start_wrong); `CRITICALLY_DAMPED` is wrong for a mass other than 1 (C40_mass_wrong).
- The Richards system is nan when it starts in its attractor (C39_start_in_attractor_nan).
- The rate of the time system at `t = tau` differs from its differential equation (C41_time_end_point).

Dynamical movement primitives
- With Euler steps longer than 2 tau/a (with the default damping coefficient: a fifth of the duration) a disturbed movement need not return
  to the undisturbed one (C112_long_steps_refuted). No warning is given.
- The constructor does not set the initial state used by the scaling types: such a DMP cannot be
  executed (C77_fresh_sct23_refuted, C77_fresh_scaling_refuted). The getter of `y_init` is stale
  (C47_dmp_getter_refuted).
- Changing tau does not rescale sigmoid gating and damping systems (C50_sigmoid_gating_refuted,
  C50_damping_system_refuted).
- The tau of a trained DMP is the last time of the demonstration and not its duration: too long for demonstrations that
  do not start at 0, such as cropped ones, unless `set_start_time_to_zero` is called (C110_late).
- Without scaling, the goal system ignores a new attractor (C51_no_scaling_refuted). A goal system of
  another dimension breaks the layout of the state (C48_small_goal_refuted).

Trajectories
- A failing `append`, `prepend` or `crop` leaves the trajectory half-changed (C55_failing_append_refuted,
  C55_failing_crop_refuted). `as_dataframe` fails for misc given as a vector (C56_dataframe_refuted).
- `prepend` gives times that do not increase unless the prepended trajectory starts before its time
  step (C57_prepend_refuted). `t.append(t)` works (C57_append_self), but `t.prepend(t)` gives both parts
  the same times (C57_prepend_self_refuted).
- Cropping by times drops the last row if the interval ends after it (C58_times_refuted).
- Padding fails for some numbers of rows because of `np.arange` (C59_arange_refuted), loses misc, and
  one row in front gives nan (C59_one_row_refuted).
- Velocities computed from two samples are wrong (C60_two_samples).
- Polynomials: the end position is off by half the initial acceleration, and velocities and
  accelerations are those of a movement of unit duration (C61_end_refuted, C61_velocity_refuted);
  via-point movements miss the goal accordingly (C63_goal_refuted).
- `dt_mean` is not updated by crop, append and prepend (C85_crop_refuted).

Function approximators
- Too many numbers of basis functions are accepted, and add basis functions of width 0 at the origin
  (C65_too_many_refuted, C65_too_many).
- Several basis functions in a dimension in which all inputs are equal make everything nan
  (C66_constant_inputs, C68_constant_inputs, C70_constant_inputs).
- WLS trained with targets of shape (n,1) cannot predict for inputs of several dimensions
  (C67_column_targets_refuted).
- LWR ignores its regularization parameter (C69_refuted, C69_ignored).
- One number of basis functions for inputs of several dimensions: RBFN and LWR can be trained, but
  every prediction raises (C72_rbfn_refuted, C72_lwr_refuted).

Contextual DMPs
- `integrate_start` raises if the goal is among the predicted parameters of a DMP with several
  dimensions: it passes the parameters as a column (C73_start_refuted). `analytical_solution` works.
- Task parameters of several dimensions passed as a vector are rejected (C73_vector_refuted).
- After training, the DMP starts where the constructor was told to, not at the mean start of the
  demonstrations: the getter `y_init` of a DMP returns the constructor's value (C87_start_refuted).
- `tau` of a contextual DMP is not updated by training, and setting it has no effect (C87_tau_refuted).
- Training without demonstrations raises AttributeError (C87_no_demonstration).

DMPs with schedules
- Schedules cannot be passed to `train` as an argument: `schedules or trajectory.misc` asks for the
  truth value of an array and raises ValueError; a list raises AttributeError; an array with a single
  zero is ignored in favour of misc (C94_argument_refuted).

Demonstration tasks
- With a weight for the goal, the sum of squared accelerations is divided by the number of rows after
  the goal time instead of all rows (C74_acceleration_refuted).
- A via-point time after the end of the rollout is measured at the start (C74_viapoint_time_refuted);
  a goal time after the end, or none, fails (C74_goal_time).
- Via-points with fewer dimensions than the rollout: as array, velocities are taken for accelerations
  (C74_dims_refuted).
- The arm's solver ignores given link lengths and raises without them (C89_given_lengths_refuted,
  C89_default_lengths_refuted).
- The cost of gains subtracts the minimum once instead of once per entry, so that minimal gains have
  costs (C90_minimal_refuted).

C++ counterpart
- DMPs without exponential goal system (type IJSPEERT_2002_MOVEMENT, the types of 2023) and DMPs whose
  `y_init` has not been set (all new ones) are saved for C++, but the C++ program cannot read them
  (C75_no_goal_refuted, C75_new_refuted).
- The spring constant, the mass and the damping system are not read: C++ computes with a critically
  damped spring of mass 1 (C75_spring_refuted, C75_mass_refuted, C75_damping_refuted).
- `set_tau` sets the durations of all subsystems, while Python scales them (C75_tau_refuted).
- The time system assumes that times increase (C75_order_refuted).
- `analyticalSolution` returns a transposed result if the matrix passed has as many rows as the state
  and as many columns as there are times, e.g. a square result that is reused (C75_shape_refuted).
- A sigmoid system keeps its old capacities after `set_y_init` (C75_sigmoid_refuted).
- DMPs constructed in C++ by type have another gating system: the inflection *time* is passed for the
  inflection *ratio*, and the rate is -10 whatever tau is (C75_gating_refuted). Not a theorem: these
  constructors also set `dim()` to the number of dimensions, so that `integrateStart` fails.

Shared arrays
- `integrate_start` returns the array of the initial state itself, and so do the getters `x_init`,
  `y_init`, `y_attr`, `ts_train`: changing it in place changes the object (C97_start_refuted).
- Setters, constructors (attractor and parameters), `set_param_vector` and `train` keep the arrays they
  are given: changing them later changes the object (C97_attractor_refuted, C97_param_vector_refuted,
  C97_dmp_refuted).
- The capacities that a `SigmoidSystem` caches are not updated after such a change, so that results
  depend on which methods were called before (C97_cache_refuted).

Trajectories in C++
- `loadMatrix` pushes the previous number once more for an empty line or for blanks at the end of a line:
  with one empty line at the end of the file (which Python ignores) `readFromFile` silently returns one
  more time step and fewer dimensions (C99_empty_line_refuted). A word such as `nan` (which Python
  writes and reads) is never consumed, and the loop pushes numbers until the memory is exhausted
  (C99_not_a_number).
- `saveToFile(directory, filename)` returns true although the file exists and may not be overwritten, or
  cannot be written (C99_save_dir_refuted).
- Without the number of misc variables, three of them are read as one more dimension, by both languages
  (C99_misc_left_out).
- A trajectory through a via-point with a velocity fails the assertion of `append` if the second part
  takes at least twice as long as the first (C100_moving_viapoint_refuted): the velocity is that of
  normalized time, so the two parts have different velocities at the via-point.
- Python reaches the via-point one time step before C++ and stays there for a step
  (C100_viapoint_differs_refuted); if the via-point is after the end, C++ returns an empty trajectory
  (C100_viapoint_late).

Throwing a ball
- `ydd_ball = ydds[ii, :]` is a view: when the ball is in the air, `ydd_ball[1] = -9.81` overwrites the
  acceleration of the hand in the row of the release (C101_acceleration_refuted), and with it the
  acceleration cost (C102_effort_refuted).
- Python compares 60 * 0.01 with 0.6, C++ the sum of 60 numbers 0.01: in double precision the first is not
  greater, the second is, so C++ releases the ball one time step earlier (C101_release_refuted).
- The floor of ThrowBallSimulator is always at -0.3, whatever the task (C101_floor_refuted).
- With the selection "widths" a sample may contain a width of 0, and the DMP can no longer be evaluated
  (C103_widths_refuted).

Force field
- The controller compares the state of the robot before the time step with the desired state after it: without
  any force the robot runs ahead of the desired movement (C104_ahead, C104_follows_refuted).
- Fewer than two time steps raise IndexError (C104_short).
- The rows of C++ have the time at the end of their step, those of Python at its beginning (cpp_row, py_row
  in ThrowSpec.v).

Setting parameters of subsystems
- In a DMP with a damping system the damping coefficient of the spring can be set but is never used (C105_damping_ignored).
- Settings of "phase_system", "gating_system", "tau" etc. are accepted and silently ignored, although the last loop is
  meant "to check and give feedback" (C105_effect_refuted).
- When an exception is raised, the settings processed before it stay in place (C105_atomic_refuted).
- Setting only the damping coefficient leaves the spring constant, so the DMP is no longer critically damped (C105_critical_refuted).
- Sigmoid systems keep capacities cached for the old parameters (C105_sigmoid_refuted).

Improvement by updates
- Nothing checks the sign of the eliteness: a negative one makes PI-BB prefer high costs (C106_negative_eliteness_refuted).
- The cost of the mean may rise in an update even for convex costs (C106_worse_mean_refuted); it is only bounded by the
  mean cost of the samples. For other costs it may rise above all samples (C106_not_convex_refuted).
- The via-point task without a time is not convex in the weights (C107_untimed_refuted). Learning the goal of a DMP whose forcing
  term is scaled with it can raise the cost from zero for all samples to more for the mean (C107_goal_refuted).

## 4. Trusted base per theorem

Coq 8.16.1's kernel, and the axioms below. Generated by `tools/assumptions.py` from the output of
`Print Assumptions`. All axioms are those of the standard library.

No axioms (51 theorems):
C15_dimension_check, C17_ask_returns_last_told, C17_ask_returns_last_told_any_state, C17_never_told,
C18_collisions, C18_injective, C18_refuted, C19_exists_predicts_ask_partial, C20_reopened_session,
C20_reopening_succeeds, C21_first_ask_partial, C21_later_asks_partial, C22_eval_is_found,
C23_directory_partial, C23_in_memory_partial, C23_nothing_stored, C23_refuted, C25_reopening_succeeds,
C25_save_all, C26_calls_were_made, C26_chained_and_stored, C26_exception, C27_cost_calls,
C28_calls_were_made, C28_exception, C28_rollouts_stored, C31_frame, C32_predict_rejects, C32_set_rejects,
C32_train_fails, C32_train_predict, C33_wrong_size, C34_function_approximators, C34_selection_partial,
C35_names_partial, C36_scalar_refuted, C36_step_refuted, C48_partition, C48_small_goal_refuted, C58_index,
C76_reopen_after_exception, C76_reopen_task_after_exception, C86_vectors, C87_no_demonstration,
C89_default_lengths_refuted, C99_save, C99_save_dir_refuted, C101_release_refuted, C105_effect_refuted,
C105_names, C105_set.

Axioms `ClassicalDedekindReals.sig_forall_dec` (28 theorems):
C19_refuted, C20_refuted, C21_refuted, C23_lexicographic_refuted, C29_step_by_step_any_updater,
C30_get_after_set_partial, C30_refuted, C30_set_after_get_partial, C30_size_partial, C33_get_after_set,
C33_layout, C33_set_after_get, C33_size, C33_unselected_refuted, C34_refuted, C35_get_after_set,
C35_names_refuted, C35_set_after_get, C35_size, C45_euler_step, C47_dmp_wrong_size, C56_dataframe_partial,
C56_entries, C73_failure, C73_parameters, C97_param_vector_refuted, C99_not_a_number, C100_set_misc.

Axioms `ClassicalDedekindReals.sig_forall_dec`, `FunctionalExtensionality.functional_extensionality_dep` (89 theorems):
C11_learning_rate_check, C16_samples_within_bounds, C22_eval_costs, C24_closed_loop, C24_cost_ratio,
C24_learning_curve, C36_bounds_partial, C36_refuted, C41_time_end_point, C41_time_linear_clamped,
C41_time_range, C45_equilibrium_stays, C45_runge_kutta_step, C45_wrong_size, C46_integrate_returns,
C46_integrate_rows, C46_rest_stays, C47_x_init, C47_y_init, C54_times, C55_constructed, C55_constructor,
C55_failing_append_refuted, C55_failing_crop_refuted, C55_failures_partial, C55_histories,
C56_dataframe_refuted, C56_round_trip, C57_append, C57_append_self, C57_prepend_partial, C57_prepend_refuted,
C57_prepend_self_refuted, C57_step_positive, C58_empty_interval, C58_outside, C58_times_partial,
C58_times_refuted, C59_arange_refuted, C59_one_row_refuted, C59_pad_end_partial, C59_pad_front_partial,
C60_central_differences, C60_filter, C60_quadratics, C60_recompute, C60_two_samples, C64_kernels,
C64_vectors, C67_best, C67_column_targets_refuted, C67_exact, C67_success, C68_bounds, C71_one_length,
C74_constructor, C84_close_times, C84_text_files, C85_constructed, C85_crop_refuted, C85_uniform_partial,
C86_wls, C88_empty, C88_range, C89_given_lengths_refuted, C89_lengths_partial, C99_cpp_to_python,
C99_empty_line_refuted, C99_misc_left_out, C99_python_to_cpp, C100_append, C100_append_gap,
C100_append_unchecked, C100_min_jerk, C100_polynomial, C100_viapoint_late, C101_acceleration_refuted,
C101_cpp, C101_floor_refuted, C101_python, C101_trajectory, C102_columns, C102_costs, C102_effort_cpp,
C102_effort_refuted, C102_landing_cpp, C102_landing_python, C103_widths_refuted, C108_wls.

Axioms `ClassicalDedekindReals.sig_forall_dec`, `ClassicalDedekindReals.sig_not_dec`, `FunctionalExtensionality.functional_extensionality_dep` (44 theorems):
C40_mass_wrong, C40_moving_start_wrong, C43_cache_never_stale, C44_exponential_decouple,
C44_sigmoid_decouple, C44_spring_decouple, C64_values, C68_equal_lines, C70_linear, C71_interpolates,
C74_acceleration_partial, C74_acceleration_refuted, C74_dims_refuted, C74_goal_time, C74_radius, C74_sum,
C74_trajectory, C74_unique, C74_viapoint_time_refuted, C75_no_goal_refuted, C75_readable, C75_shape_refuted,
C86_gpr, C87_gpr, C89_costs, C89_links, C89_reach, C89_rigid, C89_unreachable, C90_bounds_partial, C90_costs,
C90_minimal, C90_minimal_refuted, C100_append_seam, C104_ahead, C104_defined, C104_desired,
C104_follows_refuted, C104_short, C104_simulated, C104_superposition, C105_sigmoid_partial, C106_demo_costs,
C108_gpr.

Axioms `ClassicalDedekindReals.sig_forall_dec`, `ClassicalDedekindReals.sig_not_dec`, `Classical_Prop.classic`, `FunctionalExtensionality.functional_extensionality_dep` (236 theorems):
C01_any_result_is_simplex, C01_weights_simplex, C02_failure_table, C03_pibb_monotone, C03_rank_monotone,
C04_pibb_affine, C05_cem_elite, C05_cma_weights, C05_rank_invariance, C06_only_total_cost,
C07_update_permutation, C07_weights_permutation, C08_adaptation_succeeds, C08_mean_in_every_box,
C08_mean_is_weighted_average, C08_update_succeeds, C09_mean_updates_keep_covariance, C09_updates_keep_bounds,
C10_decay_geometric, C11_adaptation_formula, C11_adaptation_symmetric, C11_learning_rate_zero,
C12_psd_history_partial, C12_psd_partial, C12_psd_refuted, C13_diagonal_bounds, C14_translation,
C29_step_by_step, C37_exponential_exact, C38_sigmoid_exact, C39_richards_exact, C39_richards_exact_left,
C39_start_in_attractor_nan, C40_critically_damped_exact, C40_general_exact, C42_gating_contract,
C44_richards_decouple, C45_exponential_global_error, C45_exponential_step, C46_dmp, C46_dmp_returns,
C47_dmp_getter_refuted, C47_dmp_start, C49_rates, C49_reproduces, C50_damping_system_refuted,
C50_sigmoid_gating_refuted, C50_time_scaling_partial, C51_default_types, C51_goal_in_parameter_vector,
C51_goal_moves_partial, C51_no_scaling_refuted, C51_one_goal, C52_converges, C52_no_overshoot,
C53_as_trajectory, C53_rollout, C53_rollout_unique, C54_history_free, C54_rollout, C61_end_refuted,
C61_polynomial_partial, C61_rest_to_rest_partial, C61_unit_duration_partial, C61_velocity_refuted,
C62_min_jerk, C63_goal_refuted, C63_viapoint_partial, C64_range, C65_grid, C65_one_number,
C65_too_few_partial, C65_too_many, C65_too_many_refuted, C65_vectors, C66_constant_inputs, C66_height,
C68_constant_inputs, C68_linear_data, C68_model, C68_one_basis_function, C68_success, C69_ignored,
C69_refuted, C69_zero_partial, C70_constant_inputs, C70_model, C70_success, C70_success_1d, C71_success,
C72_list_partial, C72_lwr_refuted, C72_rbfn_refuted, C73_history, C73_start_parameters, C73_start_partial,
C73_start_refuted, C73_vector_refuted, C74_history, C74_samples, C75_analytical_partial, C75_constructed,
C75_damping_refuted, C75_gating_refuted, C75_history_partial, C75_mass_refuted, C75_new_refuted,
C75_order_refuted, C75_rate_partial, C75_sigmoid_refuted, C75_spring_refuted, C75_tau_refuted, C75_trained,
C75_trained_scaled, C77_fresh_scaling_refuted, C77_fresh_sct23_refuted, C77_usable_at_once_partial,
C78_rows_satisfy_equation, C78_start_is_first_row, C79_histories, C80_training, C80_training_succeeds,
C81_decouple, C82_converges, C82_types, C83_no_side_effects, C86_basis_functions, C87_interpolates,
C87_list_length, C87_means_partial, C87_rollout_partial, C87_start_refuted, C87_tau_refuted, C87_usable,
C91_defined, C91_equation, C91_pure, C92_constructor, C92_schedules, C92_start, C92_step, C92_trajectory,
C93_duration, C93_phase_only, C94_argument_refuted, C94_from_traj, C94_reproduced, C94_succeeds, C94_trained,
C95_converges, C95_trained, C95_types, C96_spring, C96_systems, C97_attractor_refuted, C97_cache_refuted,
C97_dmp_refuted, C97_dmps_partial, C97_regressors_partial, C97_start_refuted, C97_systems_partial,
C98_cost_order, C98_cost_unit, C98_search_space, C100_moving_viapoint_refuted, C100_viapoint,
C100_viapoint_differs_refuted, C101_same_partial, C101_trained_partial, C103_demonstration, C103_samples,
C103_throws_partial, C103_vector, C104_costs, C104_dmp, C104_force_partial, C104_settles_partial,
C104_tracks_partial, C105_atomic_refuted, C105_constructor, C105_critical_refuted, C105_damping_ignored,
C105_equation, C105_sigmoid_refuted, C106_best, C106_convex, C106_demo, C106_elite, C106_evaluations,
C106_level, C106_negative_eliteness_refuted, C106_not_convex_refuted, C106_reach, C106_run, C106_run_task,
C106_strict, C106_weighted, C106_worse_mean_refuted, C107_components, C107_convex, C107_evaluations,
C107_goal_refuted, C107_rollout, C107_run, C107_succeeds, C107_trained, C107_untimed_refuted,
C108_demonstration, C108_lwr, C108_rbfn, C109_demonstration, C109_exploration, C109_forcing, C109_min_jerk,
C109_trained, C110_late, C110_speed, C111_cost_function, C111_mean_refuted, C111_movements, C111_outside,
C111_outside_cost_function, C111_task, C112_forgotten, C112_formula, C112_long_steps_refuted, C112_types,
C113_demonstrations, C113_function_approximators, C113_new_goals, C113_reaches, C113_types, C114_alone,
C114_new_goals, C114_rollouts, C114_steps.
