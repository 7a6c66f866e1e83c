NOTES = {
 "C95": "Exact arithmetic. C95_types and C95_trained are instances of C95_converges for all types of the constructor; C95_trained includes that the trained function approximators are Lipschitz continuous.",
 "C96": "Exact arithmetic.",
 "C64": "For every exponential function that may underflow to 0 (C64_kernels), and the exact values for the real exponential (C64_values).",
 "C66": "In any dimension, for neighbours along one dimension. C66_constant_inputs is a finding.",
 "C68": "Targets given as a vector, or one-dimensional inputs. C68_constant_inputs is a finding.",
 "C70": "With the condition for success; C70_success_1d: without regularization, as many different samples as basis functions.",
 "C71": "Success exactly if the training inputs are distinct (exact arithmetic).",
 "C60": "C60_two_samples is a finding about fewer than three samples.",
 "C84": "C84_close_times shows that the proviso on time steps is needed.",
 "C48": "For goal systems of the DMP's dimension, the only ones the constructor builds; C48_small_goal_refuted is about goal systems given by the user.",
 "C49": "Function approximator predictions and training are arbitrary functions.",
 "C52": "For critically damped springs (the default), also with a damping system for the convergence; no overshoot needs steps that are not too long.",
 "C82": "For critically damped springs (the default), after every history with positive durations; excluded is the type NO_SCALING, whose goal system does not follow its attractor (C51_no_scaling_refuted).",
 "C53": "rollout_spec determines the result (C53_rollout_unique).",
 "C54": "The deep copy made by the constructor is by value: the caller's DMP is not part of the solver's state.",
 "C83": "synced: the spring's attractor is the goal's state, as after construction and training.",
 "C38": "Non-zero initial states; the bounds are for positive ones.",
 "C39": "Also with a left asymptote given by the user; C39_start_in_attractor_nan is a finding.",
 "C40": "C40_moving_start_wrong and C40_mass_wrong are findings about starts and masses outside the property.",
 "C41": "C41_time_end_point: at t=tau the rates do differ.",
 "C43": "In-place modification of the array returned by the x_init getter is outside the model.",
 "C44": "States of the system's size; numpy broadcasting of other sizes is not claimed.",
 "C02": "NonFinite marks results in which numpy puts nan/inf.",
 "C05": "Invariance under increasing transformations is stated for pairwise distinct costs: with ties the weights depend on argsort's tie order.",
 "C09": "Updaters are pure functions in the model (copy.deepcopy), so the argument distribution is unchanged by construction.",
 "C18": "Includes the refutation for names that start with a digit and for numpy update numbers, and the exact list of collisions.",
 "C20": "File codecs are an arbitrary function load; C20_refuted shows that the proviso on file types is needed.",
 "C24": "C24_closed_loop: because of C23_refuted the last update's row is missing after a closed-loop run.",
 "C29": "The world is a random generator and the DMP inside the task solver; executing a DMP and evaluating a rollout are deterministic functions. If the closed loop succeeds, every update of the step-by-step loop stores the same values.",
 "C76": "Exceptions only: a crash of the operating system in the middle of writing a file is not modelled.",
 "C98": "Exact arithmetic. That multivariate_normal commutes with the transformation of mean and covariance is a hypothesis on the generator. CEM and CMA-ES: for successful optimizations without equal costs in an update.",
 "C33": "C33_unselected_refuted shows that the proviso (every trained function approximator has a selection) is needed.",
 "C106": "Proved in full for exact arithmetic. The mean cost of the samples is the sharp reference: the cost of the mean itself may rise (C106_worse_mean_refuted), costs that are not convex may rise above every sample (C106_not_convex_refuted), and a negative eliteness prefers high costs (C106_negative_eliteness_refuted).",
 "C107": "Proved in full for exact arithmetic. C107_untimed_refuted and C107_goal_refuted show that the two provisos (a time for the via-point, no scaling with a learned goal) are needed. C107_succeeds is about updaters without covariance adaptation; for the others C107_run and C107_evaluations assume that the run succeeded.",
 "C108": "Proved in full for exact arithmetic. The theorem about demonstrations is for Kulvicius and countdown DMPs with the default subsystems and without scaling of the forcing term.",
 "C109": "Proved in full for exact arithmetic. The theorems about trained DMPs are for Kulvicius and countdown DMPs with the default subsystems and without scaling of the forcing term; C109_demonstration is for all DMPs.",
 "C110": "Proved in full for exact arithmetic, for Kulvicius and countdown DMPs with the default subsystems and without scaling of the forcing term.",
 "C111": "Proved for all runs, successful or not. An initial mean outside the bounds is tried as it is (C111_mean_refuted); C111_movements is for exact arithmetic, RBFNs and LWRs of the phase and DMPs whose goal is not a parameter.",
 "C112": "Proved exactly, for both methods, every dimension with constant critical damping and any disturbance of position and velocity. Long Euler steps do not forget disturbances (C112_long_steps_refuted). DMPs with a damping system (SCT23 with damping) are not covered by the formula.",
 "C113": "Proved for both methods, every dimension with constant critical damping, no or an exponential goal system, exponential or falling sigmoid gating, an exponential or time phase, and predictions that are bounded for bounded phases (proved for RBFNs and LWRs). C113_types takes the predictor as total; C113_demonstrations is about the actual RBFNs and LWRs for Kulvicius and countdown DMPs without scaling. SCT23 DMPs (Richards gating and goal, damping system) are outside the statement.",
 "C114": "Proved for DMPs without damping system and with no or an exponential goal system, and phase and gating that are defined in all states. C114_alone is for force scaling NO_SCALING; C114_new_goals needs the same force scaling in both DMPs. SCT23 DMPs are outside the statement.",
}
PARTIAL = {
 "C92": "The analytical solution and trajectories are proved for all bounds the code can work with (C36). Single time steps are proved without bounds or for one schedule; several bounded schedules raise (C36).",
 "C65": "The grid is proved in full, and ValueError for too few numbers; too many numbers are accepted (C65_too_many_refuted).",
 "C67": "Proved in full for targets given as a vector; with targets of shape (n,1) and several input dimensions prediction raises (C67_column_targets_refuted).",
 "C69": "False: the parameter is ignored (C69_refuted); true for regularization 0.",
 "C72": "False for n >= 2, D >= 2: training succeeds, prediction raises (C72_rbfn_refuted, C72_lwr_refuted); proved for lists of D numbers (which includes D=1).",
 "C55": "Constructors and histories of successful operations proved in full. That a failing operation changes nothing is false (C55_failing_append_refuted, C55_failing_crop_refuted); proved for calls that fit the trajectory.",
 "C56": "The matrix round trip is proved in full; data frames fail for misc given as a vector (C56_dataframe_refuted) and for empty trajectories.",
 "C57": "Proved for append. For prepend the times increase exactly if the prepended trajectory starts before its mean time step (C57_prepend_partial, C57_prepend_refuted), and not if a trajectory is prepended to itself (C57_prepend_self_refuted).",
 "C58": "By index proved in full. By times, the last row is dropped if end lies after the last time (C58_times_refuted); the rows kept are characterized for every interval.",
 "C59": "Proved over the real numbers. In double precision np.arange may give one time too many, and padding raises (C59_arange_refuted); misc values are lost.",
 "C61": "False: velocities are divided by the duration, and the end depends on the initial acceleration (C61_end_refuted, C61_velocity_refuted). The values at both ends are proved for all arguments, the derivatives in full.",
 "C63": "False if the via-point has an acceleration (C63_goal_refuted); via-point and end values are proved for all arguments.",
 "C85": "False after crop, append and prepend (C85_crop_refuted); proved after construction and for every history of uniformly sampled trajectories.",
 "C47": "Proved for dynamical systems; for a Dmp the start of integration and the rejection of wrong sizes are proved, but the getter does not return the value set (C47_dmp_getter_refuted).",
 "C50": "False for DMP types with sigmoid gating (C50_sigmoid_gating_refuted) or a damping system (C50_damping_system_refuted); proved for every other DMP.",
 "C51": "False for NO_SCALING (C51_no_scaling_refuted): its Richards goal system ignores the new attractor. Proved for every other type.",
 "C77": "False for types that scale with y_init, which the constructor does not set (C77_fresh_sct23_refuted, C77_fresh_scaling_refuted); proved for the others.",
 "C12": "False of the code with diagonal_max and full matrices (C12_psd_refuted); proved for every other setting.",
 "C19": "False for a session with directory '' (C19_refuted); proved for every other directory argument.",
 "C21": "False for the first ask of an entry loaded from the directory (C21_refuted); proved for told entries (C17) and for all later asks.",
 "C23": "False: after k closed-loop updates the result is k-1 (C23_refuted). What get_n_updates does return is proved.",
 "C30": "Proved for selections of array parameters. False (C30_refuted) when the offset of a least-squares model trained on one-dimensional targets is selected: it is a numpy scalar, np.prod(()) is a float and slicing raises TypeError after some parameters have been changed.",
 "C34": "False: once selected, the goal is never deselected (C34_refuted). Proved when the goal is among the names or was not selected before.",
 "C35": "Round trip and sizes proved in full. The names part is false for names that contain sched_ elsewhere than at the start (C35_names_refuted).",
 "C36": "False: a lower bound 0 is ignored (C36_refuted), scalar bounds for several schedules and single time steps with several schedules raise. Proved for bounds given as lists, and for one schedule with non-zero bounds.",
 "C73": "Proved for set_task_params and analytical_solution with any history. integrate_start raises if the goal is selected in several dimensions (C73_start_refuted); task parameters given as a vector are rejected in several dimensions (C73_vector_refuted).",
 "C87": "The start is that of the constructor, not the mean (C87_start_refuted); tau of the contextual DMP itself has no effect (C87_tau_refuted). Parameters are proved in full; rollouts for demonstrations with the same duration, start and end, without amplitude scaling.",
 "C74": "Sum, signs, via-point, goal and regularization proved for all trajectories and for all samples of a DMP. The cost of accelerations depends on the goal time (C74_acceleration_refuted; mean proved without goal costs), via-point times after the end are measured at the start (C74_viapoint_time_refuted), and array and data frame disagree for via-points with fewer dimensions (C74_dims_refuted).",
 "C89": "Kinematics and costs proved in full. Given link lengths are ignored (C89_given_lengths_refuted), and without them the constructor raises (C89_default_lengths_refuted).",
 "C90": "Components and bounds proved; minimal gains still have costs (C90_minimal_refuted).",
 "C75": "Proved for DMPs with exponential goal system, critically damped spring of mass 1, without damping system, for any history of calls; in full for all DMPs of the types KULVICIUS_2012_JOINING and COUNTDOWN_2013 trained on a demonstration with RBFN or LWR. False otherwise: IJSPEERT_2002_MOVEMENT, 2023 types and new DMPs are saved but not read, the spring constant, mass and damping system are lost, times out of order, own durations of subsystems and matrices of a transposed shape give other results (C75_..._refuted). Not modelled: rounding of numbers in JSON; dim() of DMPs constructed in C++.",
 "C94": "Training with the schedules in misc is proved in full. The argument schedules never works (C94_argument_refuted): arrays raise ValueError because of their truth value, lists raise AttributeError.",
 "C97": "Proved for all programs that leave the listed arrays alone, for the dynamical systems, the four regression models and DMPs. Without that condition false (C97_..._refuted). Missing: DMPs with a sigmoid goal system given by the user, DMPs with schedules, save_training_data.",
 "C99": "The exchange is proved in full for files written by either language. False for other files and for saving into directories: an empty line at the end silently changes the dimensions read by C++ (C99_empty_line_refuted), words that are not numbers are never read (C99_not_a_number), and saveToFile(directory, ...) returns true although nothing was written (C99_save_dir_refuted). Not modelled: more misc variables than columns.",
 "C100": "Generators, append and misc variables proved in full. Moving via-points fail an assertion (C100_moving_viapoint_refuted) and otherwise have velocities scaled by the durations; trajectories through via-points differ from those of Python (C100_viapoint_differs_refuted).",
 "C101": "Rows of all three simulations characterized in exact arithmetic, and agreement proved for every DMP that C++ reads. False: in floating point C++ releases the ball one time step earlier than Python (C101_release_refuted); the acceleration at the release is overwritten by gravity in Python (C101_acceleration_refuted); C++ ignores the floor of the task (C101_floor_refuted). Trajectories with other than equidistant samples are modelled but only covered through these theorems for equal time steps.",
 "C102": "Costs of all rollouts, and landing cost of all throws proved. False in Python: the acceleration cost counts gravity instead of the acceleration of the hand at the release (C102_effort_refuted).",
 "C103": "Proved for RBFN function approximators and the parameters weights and goal; exact arithmetic, and throws with the release of C101 in exact arithmetic. False for widths: a sample with a width of zero makes predictions fail (C103_widths_refuted).",
 "C104": "The recurrence, the linear response, the DMP and the costs are proved in full. Bounds are proved for constant gains with time step * sqrt(gain) below 1. Following exactly is false: errors compare the robot with the desired state of the next time step (C104_ahead, C104_follows_refuted).",
 "C105": "Proved for all parameters of spring, exponential and Richards systems, as arrays or numbers; sigmoid systems are covered outside of a DMP, before their first use. False: settings of other systems and attributes are silently ignored (C105_effect_refuted), the damping coefficient has no effect beside a damping system (C105_damping_ignored), exceptions leave changes behind (C105_atomic_refuted), sigmoid systems keep capacities of the old parameters (C105_sigmoid_refuted).",
}
