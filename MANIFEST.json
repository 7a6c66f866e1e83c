{
 "claims": [
  {
   "property": "C01",
   "status": "proved",
   "theorems": [
    "C01_weights_simplex",
    "C01_any_result_is_simplex"
   ],
   "note": ""
  },
  {
   "property": "C02",
   "status": "proved",
   "theorems": [
    "C02_failure_table"
   ],
   "note": "NonFinite marks results in which numpy puts nan/inf."
  },
  {
   "property": "C03",
   "status": "proved",
   "theorems": [
    "C03_pibb_monotone",
    "C03_rank_monotone"
   ],
   "note": ""
  },
  {
   "property": "C04",
   "status": "proved",
   "theorems": [
    "C04_pibb_affine"
   ],
   "note": ""
  },
  {
   "property": "C05",
   "status": "proved",
   "theorems": [
    "C05_cem_elite",
    "C05_cma_weights",
    "C05_rank_invariance"
   ],
   "note": "Invariance under increasing transformations is stated for pairwise distinct costs: with ties the weights depend on argsort's tie order."
  },
  {
   "property": "C06",
   "status": "proved",
   "theorems": [
    "C06_only_total_cost"
   ],
   "note": ""
  },
  {
   "property": "C07",
   "status": "proved",
   "theorems": [
    "C07_weights_permutation",
    "C07_update_permutation"
   ],
   "note": ""
  },
  {
   "property": "C08",
   "status": "proved",
   "theorems": [
    "C08_mean_is_weighted_average",
    "C08_mean_in_every_box",
    "C08_update_succeeds",
    "C08_adaptation_succeeds"
   ],
   "note": ""
  },
  {
   "property": "C09",
   "status": "proved",
   "theorems": [
    "C09_mean_updates_keep_covariance",
    "C09_updates_keep_bounds"
   ],
   "note": "Updaters are pure functions in the model (copy.deepcopy), so the argument distribution is unchanged by construction."
  },
  {
   "property": "C10",
   "status": "proved",
   "theorems": [
    "C10_decay_geometric"
   ],
   "note": ""
  },
  {
   "property": "C11",
   "status": "proved",
   "theorems": [
    "C11_adaptation_formula",
    "C11_adaptation_symmetric",
    "C11_learning_rate_zero",
    "C11_learning_rate_check"
   ],
   "note": ""
  },
  {
   "property": "C12",
   "status": "partial",
   "theorems": [
    "C12_psd_refuted",
    "C12_psd_partial",
    "C12_psd_history_partial"
   ],
   "note": "False of the code with diagonal_max and full matrices (C12_psd_refuted); proved for every other setting."
  },
  {
   "property": "C13",
   "status": "proved",
   "theorems": [
    "C13_diagonal_bounds"
   ],
   "note": ""
  },
  {
   "property": "C14",
   "status": "proved",
   "theorems": [
    "C14_translation"
   ],
   "note": ""
  },
  {
   "property": "C15",
   "status": "proved",
   "theorems": [
    "C15_dimension_check"
   ],
   "note": ""
  },
  {
   "property": "C16",
   "status": "proved",
   "theorems": [
    "C16_samples_within_bounds"
   ],
   "note": ""
  },
  {
   "property": "C17",
   "status": "proved",
   "theorems": [
    "C17_ask_returns_last_told",
    "C17_ask_returns_last_told_any_state",
    "C17_never_told"
   ],
   "note": ""
  },
  {
   "property": "C18",
   "status": "proved",
   "theorems": [
    "C18_injective",
    "C18_collisions",
    "C18_refuted"
   ],
   "note": "Includes the refutation for names that start with a digit and for numpy update numbers, and the exact list of collisions."
  },
  {
   "property": "C19",
   "status": "partial",
   "theorems": [
    "C19_exists_predicts_ask_partial",
    "C19_refuted"
   ],
   "note": "False for a session with directory '' (C19_refuted); proved for every other directory argument."
  },
  {
   "property": "C20",
   "status": "proved",
   "theorems": [
    "C20_reopened_session",
    "C20_reopening_succeeds",
    "C20_refuted"
   ],
   "note": "File codecs are an arbitrary function load; C20_refuted shows that the proviso on file types is needed."
  },
  {
   "property": "C21",
   "status": "partial",
   "theorems": [
    "C21_refuted",
    "C21_first_ask_partial",
    "C21_later_asks_partial"
   ],
   "note": "False for the first ask of an entry loaded from the directory (C21_refuted); proved for told entries (C17) and for all later asks."
  },
  {
   "property": "C22",
   "status": "proved",
   "theorems": [
    "C22_eval_is_found",
    "C22_eval_costs"
   ],
   "note": ""
  },
  {
   "property": "C23",
   "status": "partial",
   "theorems": [
    "C23_refuted",
    "C23_in_memory_partial",
    "C23_directory_partial",
    "C23_nothing_stored",
    "C23_lexicographic_refuted"
   ],
   "note": "False: after k closed-loop updates the result is k-1 (C23_refuted). What get_n_updates does return is proved."
  },
  {
   "property": "C24",
   "status": "proved",
   "theorems": [
    "C24_learning_curve",
    "C24_closed_loop",
    "C24_cost_ratio"
   ],
   "note": "C24_closed_loop: because of C23_refuted the last update's row is missing after a closed-loop run."
  },
  {
   "property": "C25",
   "status": "proved",
   "theorems": [
    "C25_save_all",
    "C25_reopening_succeeds"
   ],
   "note": ""
  },
  {
   "property": "C26",
   "status": "proved",
   "theorems": [
    "C26_chained_and_stored",
    "C26_exception",
    "C26_calls_were_made"
   ],
   "note": ""
  },
  {
   "property": "C27",
   "status": "proved",
   "theorems": [
    "C27_cost_calls"
   ],
   "note": ""
  },
  {
   "property": "C28",
   "status": "proved",
   "theorems": [
    "C28_rollouts_stored",
    "C28_exception",
    "C28_calls_were_made"
   ],
   "note": ""
  },
  {
   "property": "C29",
   "status": "proved",
   "theorems": [
    "C29_step_by_step",
    "C29_step_by_step_any_updater"
   ],
   "note": "The world is a random generator and the DMP inside the task solver; executing a DMP and evaluating a rollout are deterministic functions. If the closed loop succeeds, every update of the step-by-step loop stores the same values."
  },
  {
   "property": "C30",
   "status": "partial",
   "theorems": [
    "C30_get_after_set_partial",
    "C30_set_after_get_partial",
    "C30_size_partial",
    "C30_refuted"
   ],
   "note": "Proved for selections of array parameters. False (C30_refuted) when the offset of a least-squares model trained on one-dimensional targets is selected: it is a numpy scalar, np.prod(()) is a float and slicing raises TypeError after some parameters have been changed."
  },
  {
   "property": "C31",
   "status": "proved",
   "theorems": [
    "C31_frame"
   ],
   "note": ""
  },
  {
   "property": "C32",
   "status": "proved",
   "theorems": [
    "C32_set_rejects",
    "C32_predict_rejects",
    "C32_train_predict",
    "C32_train_fails"
   ],
   "note": ""
  },
  {
   "property": "C33",
   "status": "proved",
   "theorems": [
    "C33_get_after_set",
    "C33_set_after_get",
    "C33_size",
    "C33_layout",
    "C33_wrong_size",
    "C33_unselected_refuted"
   ],
   "note": "C33_unselected_refuted shows that the proviso (every trained function approximator has a selection) is needed."
  },
  {
   "property": "C34",
   "status": "partial",
   "theorems": [
    "C34_selection_partial",
    "C34_refuted",
    "C34_function_approximators"
   ],
   "note": "False: once selected, the goal is never deselected (C34_refuted). Proved when the goal is among the names or was not selected before."
  },
  {
   "property": "C35",
   "status": "partial",
   "theorems": [
    "C35_get_after_set",
    "C35_set_after_get",
    "C35_size",
    "C35_names_partial",
    "C35_names_refuted"
   ],
   "note": "Round trip and sizes proved in full. The names part is false for names that contain sched_ elsewhere than at the start (C35_names_refuted)."
  },
  {
   "property": "C36",
   "status": "partial",
   "theorems": [
    "C36_bounds_partial",
    "C36_refuted",
    "C36_scalar_refuted",
    "C36_step_refuted"
   ],
   "note": "False: a lower bound 0 is ignored (C36_refuted), scalar bounds for several schedules and single time steps with several schedules raise. Proved for bounds given as lists, and for one schedule with non-zero bounds."
  },
  {
   "property": "C37",
   "status": "proved",
   "theorems": [
    "C37_exponential_exact"
   ],
   "note": ""
  },
  {
   "property": "C38",
   "status": "proved",
   "theorems": [
    "C38_sigmoid_exact"
   ],
   "note": "Non-zero initial states; the bounds are for positive ones."
  },
  {
   "property": "C39",
   "status": "proved",
   "theorems": [
    "C39_richards_exact",
    "C39_richards_exact_left",
    "C39_start_in_attractor_nan"
   ],
   "note": "Also with a left asymptote given by the user; C39_start_in_attractor_nan is a finding."
  },
  {
   "property": "C40",
   "status": "proved",
   "theorems": [
    "C40_critically_damped_exact",
    "C40_general_exact",
    "C40_moving_start_wrong",
    "C40_mass_wrong"
   ],
   "note": "C40_moving_start_wrong and C40_mass_wrong are findings about starts and masses outside the property."
  },
  {
   "property": "C41",
   "status": "proved",
   "theorems": [
    "C41_time_linear_clamped",
    "C41_time_range",
    "C41_time_end_point"
   ],
   "note": "C41_time_end_point: at t=tau the rates do differ."
  },
  {
   "property": "C42",
   "status": "proved",
   "theorems": [
    "C42_gating_contract"
   ],
   "note": ""
  },
  {
   "property": "C43",
   "status": "proved",
   "theorems": [
    "C43_cache_never_stale"
   ],
   "note": "In-place modification of the array returned by the x_init getter is outside the model."
  },
  {
   "property": "C44",
   "status": "proved",
   "theorems": [
    "C44_exponential_decouple",
    "C44_sigmoid_decouple",
    "C44_richards_decouple",
    "C44_spring_decouple"
   ],
   "note": "States of the system's size; numpy broadcasting of other sizes is not claimed."
  },
  {
   "property": "C45",
   "status": "proved",
   "theorems": [
    "C45_runge_kutta_step",
    "C45_euler_step",
    "C45_equilibrium_stays",
    "C45_wrong_size",
    "C45_exponential_step",
    "C45_exponential_global_error"
   ],
   "note": ""
  },
  {
   "property": "C46",
   "status": "proved",
   "theorems": [
    "C46_integrate_rows",
    "C46_integrate_returns",
    "C46_rest_stays",
    "C46_dmp",
    "C46_dmp_returns"
   ],
   "note": ""
  },
  {
   "property": "C47",
   "status": "partial",
   "theorems": [
    "C47_dmp_start",
    "C47_dmp_wrong_size",
    "C47_dmp_getter_refuted",
    "C47_y_init",
    "C47_x_init"
   ],
   "note": "Proved for dynamical systems; for a Dmp the start of integration and the rejection of wrong sizes are proved, but the getter does not return the value set (C47_dmp_getter_refuted)."
  },
  {
   "property": "C48",
   "status": "proved",
   "theorems": [
    "C48_partition",
    "C48_small_goal_refuted"
   ],
   "note": "For goal systems of the DMP's dimension, the only ones the constructor builds; C48_small_goal_refuted is about goal systems given by the user."
  },
  {
   "property": "C49",
   "status": "proved",
   "theorems": [
    "C49_rates",
    "C49_reproduces"
   ],
   "note": "Function approximator predictions and training are arbitrary functions."
  },
  {
   "property": "C50",
   "status": "partial",
   "theorems": [
    "C50_time_scaling_partial",
    "C50_sigmoid_gating_refuted",
    "C50_damping_system_refuted"
   ],
   "note": "False for DMP types with sigmoid gating (C50_sigmoid_gating_refuted) or a damping system (C50_damping_system_refuted); proved for every other DMP."
  },
  {
   "property": "C51",
   "status": "partial",
   "theorems": [
    "C51_goal_moves_partial",
    "C51_goal_in_parameter_vector",
    "C51_default_types",
    "C51_no_scaling_refuted",
    "C51_one_goal"
   ],
   "note": "False for NO_SCALING (C51_no_scaling_refuted): its Richards goal system ignores the new attractor. Proved for every other type."
  },
  {
   "property": "C52",
   "status": "proved",
   "theorems": [
    "C52_converges",
    "C52_no_overshoot"
   ],
   "note": "For critically damped springs (the default), also with a damping system for the convergence; no overshoot needs steps that are not too long."
  },
  {
   "property": "C53",
   "status": "proved",
   "theorems": [
    "C53_rollout",
    "C53_rollout_unique",
    "C53_as_trajectory"
   ],
   "note": "rollout_spec determines the result (C53_rollout_unique)."
  },
  {
   "property": "C54",
   "status": "proved",
   "theorems": [
    "C54_history_free",
    "C54_times",
    "C54_rollout"
   ],
   "note": "The deep copy made by the constructor is by value: the caller's DMP is not part of the solver's state."
  },
  {
   "property": "C55",
   "status": "partial",
   "theorems": [
    "C55_constructor",
    "C55_constructed",
    "C55_histories",
    "C55_failures_partial",
    "C55_failing_append_refuted",
    "C55_failing_crop_refuted"
   ],
   "note": "Constructors and histories of successful operations proved in full. That a failing operation changes nothing is false (C55_failing_append_refuted, C55_failing_crop_refuted); proved for calls that fit the trajectory."
  },
  {
   "property": "C56",
   "status": "partial",
   "theorems": [
    "C56_round_trip",
    "C56_entries",
    "C56_dataframe_partial",
    "C56_dataframe_refuted"
   ],
   "note": "The matrix round trip is proved in full; data frames fail for misc given as a vector (C56_dataframe_refuted) and for empty trajectories."
  },
  {
   "property": "C57",
   "status": "partial",
   "theorems": [
    "C57_append",
    "C57_step_positive",
    "C57_prepend_partial",
    "C57_prepend_refuted",
    "C57_append_self",
    "C57_prepend_self_refuted"
   ],
   "note": "Proved for append. For prepend the times increase exactly if the prepended trajectory starts before its mean time step (C57_prepend_partial, C57_prepend_refuted), and not if a trajectory is prepended to itself (C57_prepend_self_refuted)."
  },
  {
   "property": "C58",
   "status": "partial",
   "theorems": [
    "C58_index",
    "C58_times_partial",
    "C58_times_refuted",
    "C58_outside",
    "C58_empty_interval"
   ],
   "note": "By index proved in full. By times, the last row is dropped if end lies after the last time (C58_times_refuted); the rows kept are characterized for every interval."
  },
  {
   "property": "C59",
   "status": "partial",
   "theorems": [
    "C59_pad_end_partial",
    "C59_pad_front_partial",
    "C59_arange_refuted",
    "C59_one_row_refuted"
   ],
   "note": "Proved over the real numbers. In double precision np.arange may give one time too many, and padding raises (C59_arange_refuted); misc values are lost."
  },
  {
   "property": "C60",
   "status": "proved",
   "theorems": [
    "C60_central_differences",
    "C60_quadratics",
    "C60_two_samples",
    "C60_recompute",
    "C60_filter"
   ],
   "note": "C60_two_samples is a finding about fewer than three samples."
  },
  {
   "property": "C61",
   "status": "partial",
   "theorems": [
    "C61_polynomial_partial",
    "C61_unit_duration_partial",
    "C61_rest_to_rest_partial",
    "C61_end_refuted",
    "C61_velocity_refuted"
   ],
   "note": "False: velocities are divided by the duration, and the end depends on the initial acceleration (C61_end_refuted, C61_velocity_refuted). The values at both ends are proved for all arguments, the derivatives in full."
  },
  {
   "property": "C62",
   "status": "proved",
   "theorems": [
    "C62_min_jerk"
   ],
   "note": ""
  },
  {
   "property": "C63",
   "status": "partial",
   "theorems": [
    "C63_viapoint_partial",
    "C63_goal_refuted"
   ],
   "note": "False if the via-point has an acceleration (C63_goal_refuted); via-point and end values are proved for all arguments."
  },
  {
   "property": "C64",
   "status": "proved",
   "theorems": [
    "C64_kernels",
    "C64_values",
    "C64_range",
    "C64_vectors"
   ],
   "note": "For every exponential function that may underflow to 0 (C64_kernels), and the exact values for the real exponential (C64_values)."
  },
  {
   "property": "C65",
   "status": "partial",
   "theorems": [
    "C65_grid",
    "C65_one_number",
    "C65_too_few_partial",
    "C65_too_many",
    "C65_too_many_refuted",
    "C65_vectors"
   ],
   "note": "The grid is proved in full, and ValueError for too few numbers; too many numbers are accepted (C65_too_many_refuted)."
  },
  {
   "property": "C66",
   "status": "proved",
   "theorems": [
    "C66_height",
    "C66_constant_inputs"
   ],
   "note": "In any dimension, for neighbours along one dimension. C66_constant_inputs is a finding."
  },
  {
   "property": "C67",
   "status": "partial",
   "theorems": [
    "C67_best",
    "C67_success",
    "C67_exact",
    "C67_column_targets_refuted"
   ],
   "note": "Proved in full for targets given as a vector; with targets of shape (n,1) and several input dimensions prediction raises (C67_column_targets_refuted)."
  },
  {
   "property": "C68",
   "status": "proved",
   "theorems": [
    "C68_model",
    "C68_success",
    "C68_bounds",
    "C68_equal_lines",
    "C68_linear_data",
    "C68_one_basis_function",
    "C68_constant_inputs"
   ],
   "note": "Targets given as a vector, or one-dimensional inputs. C68_constant_inputs is a finding."
  },
  {
   "property": "C69",
   "status": "partial",
   "theorems": [
    "C69_refuted",
    "C69_zero_partial",
    "C69_ignored"
   ],
   "note": "False: the parameter is ignored (C69_refuted); true for regularization 0."
  },
  {
   "property": "C70",
   "status": "proved",
   "theorems": [
    "C70_model",
    "C70_linear",
    "C70_success",
    "C70_success_1d",
    "C70_constant_inputs"
   ],
   "note": "With the condition for success; C70_success_1d: without regularization, as many different samples as basis functions."
  },
  {
   "property": "C71",
   "status": "proved",
   "theorems": [
    "C71_interpolates",
    "C71_success",
    "C71_one_length"
   ],
   "note": "Success exactly if the training inputs are distinct (exact arithmetic)."
  },
  {
   "property": "C72",
   "status": "partial",
   "theorems": [
    "C72_rbfn_refuted",
    "C72_lwr_refuted",
    "C72_list_partial"
   ],
   "note": "False for n >= 2, D >= 2: training succeeds, prediction raises (C72_rbfn_refuted, C72_lwr_refuted); proved for lists of D numbers (which includes D=1)."
  },
  {
   "property": "C73",
   "status": "partial",
   "theorems": [
    "C73_parameters",
    "C73_failure",
    "C73_start_parameters",
    "C73_history",
    "C73_start_partial",
    "C73_start_refuted",
    "C73_vector_refuted"
   ],
   "note": "Proved for set_task_params and analytical_solution with any history. integrate_start raises if the goal is selected in several dimensions (C73_start_refuted); task parameters given as a vector are rejected in several dimensions (C73_vector_refuted)."
  },
  {
   "property": "C74",
   "status": "partial",
   "theorems": [
    "C74_sum",
    "C74_trajectory",
    "C74_unique",
    "C74_radius",
    "C74_acceleration_partial",
    "C74_acceleration_refuted",
    "C74_viapoint_time_refuted",
    "C74_dims_refuted",
    "C74_goal_time",
    "C74_samples",
    "C74_history",
    "C74_constructor"
   ],
   "note": "Sum, signs, via-point, goal and regularization proved for all trajectories and for all samples of a DMP. The cost of accelerations depends on the goal time (C74_acceleration_refuted; mean proved without goal costs), via-point times after the end are measured at the start (C74_viapoint_time_refuted), and array and data frame disagree for via-points with fewer dimensions (C74_dims_refuted)."
  },
  {
   "property": "C75",
   "status": "partial",
   "theorems": [
    "C75_history_partial",
    "C75_rate_partial",
    "C75_analytical_partial",
    "C75_trained",
    "C75_trained_scaled",
    "C75_constructed",
    "C75_readable",
    "C75_new_refuted",
    "C75_no_goal_refuted",
    "C75_spring_refuted",
    "C75_mass_refuted",
    "C75_damping_refuted",
    "C75_tau_refuted",
    "C75_order_refuted",
    "C75_shape_refuted",
    "C75_sigmoid_refuted",
    "C75_gating_refuted"
   ],
   "note": "Proved for DMPs with exponential goal system, critically damped spring of mass 1, without damping system, for any history of calls; in full for all DMPs of the types KULVICIUS_2012_JOINING and COUNTDOWN_2013 trained on a demonstration with RBFN or LWR. False otherwise: IJSPEERT_2002_MOVEMENT, 2023 types and new DMPs are saved but not read, the spring constant, mass and damping system are lost, times out of order, own durations of subsystems and matrices of a transposed shape give other results (C75_..._refuted). Not modelled: rounding of numbers in JSON; dim() of DMPs constructed in C++."
  },
  {
   "property": "C76",
   "status": "proved",
   "theorems": [
    "C76_reopen_after_exception",
    "C76_reopen_task_after_exception"
   ],
   "note": "Exceptions only: a crash of the operating system in the middle of writing a file is not modelled."
  },
  {
   "property": "C77",
   "status": "partial",
   "theorems": [
    "C77_usable_at_once_partial",
    "C77_fresh_sct23_refuted",
    "C77_fresh_scaling_refuted"
   ],
   "note": "False for types that scale with y_init, which the constructor does not set (C77_fresh_sct23_refuted, C77_fresh_scaling_refuted); proved for the others."
  },
  {
   "property": "C78",
   "status": "proved",
   "theorems": [
    "C78_rows_satisfy_equation",
    "C78_start_is_first_row"
   ],
   "note": ""
  },
  {
   "property": "C79",
   "status": "proved",
   "theorems": [
    "C79_histories"
   ],
   "note": ""
  },
  {
   "property": "C80",
   "status": "proved",
   "theorems": [
    "C80_training",
    "C80_training_succeeds"
   ],
   "note": ""
  },
  {
   "property": "C81",
   "status": "proved",
   "theorems": [
    "C81_decouple"
   ],
   "note": ""
  },
  {
   "property": "C82",
   "status": "proved",
   "theorems": [
    "C82_converges",
    "C82_types"
   ],
   "note": "For critically damped springs (the default), after every history with positive durations; excluded is the type NO_SCALING, whose goal system does not follow its attractor (C51_no_scaling_refuted)."
  },
  {
   "property": "C83",
   "status": "proved",
   "theorems": [
    "C83_no_side_effects"
   ],
   "note": "synced: the spring's attractor is the goal's state, as after construction and training."
  },
  {
   "property": "C84",
   "status": "proved",
   "theorems": [
    "C84_text_files",
    "C84_close_times"
   ],
   "note": "C84_close_times shows that the proviso on time steps is needed."
  },
  {
   "property": "C85",
   "status": "partial",
   "theorems": [
    "C85_constructed",
    "C85_uniform_partial",
    "C85_crop_refuted"
   ],
   "note": "False after crop, append and prepend (C85_crop_refuted); proved after construction and for every history of uniformly sampled trajectories."
  },
  {
   "property": "C86",
   "status": "proved",
   "theorems": [
    "C86_wls",
    "C86_basis_functions",
    "C86_gpr",
    "C86_vectors"
   ],
   "note": ""
  },
  {
   "property": "C87",
   "status": "partial",
   "theorems": [
    "C87_means_partial",
    "C87_start_refuted",
    "C87_tau_refuted",
    "C87_usable",
    "C87_interpolates",
    "C87_gpr",
    "C87_rollout_partial",
    "C87_no_demonstration",
    "C87_list_length"
   ],
   "note": "The start is that of the constructor, not the mean (C87_start_refuted); tau of the contextual DMP itself has no effect (C87_tau_refuted). Parameters are proved in full; rollouts for demonstrations with the same duration, start and end, without amplitude scaling."
  },
  {
   "property": "C88",
   "status": "proved",
   "theorems": [
    "C88_range",
    "C88_empty"
   ],
   "note": ""
  },
  {
   "property": "C89",
   "status": "partial",
   "theorems": [
    "C89_links",
    "C89_rigid",
    "C89_reach",
    "C89_costs",
    "C89_unreachable",
    "C89_lengths_partial",
    "C89_given_lengths_refuted",
    "C89_default_lengths_refuted"
   ],
   "note": "Kinematics and costs proved in full. Given link lengths are ignored (C89_given_lengths_refuted), and without them the constructor raises (C89_default_lengths_refuted)."
  },
  {
   "property": "C90",
   "status": "partial",
   "theorems": [
    "C90_costs",
    "C90_bounds_partial",
    "C90_minimal",
    "C90_minimal_refuted"
   ],
   "note": "Components and bounds proved; minimal gains still have costs (C90_minimal_refuted)."
  },
  {
   "property": "C91",
   "status": "proved",
   "theorems": [
    "C91_equation",
    "C91_defined",
    "C91_pure"
   ],
   "note": ""
  },
  {
   "property": "C92",
   "status": "partial",
   "theorems": [
    "C92_constructor",
    "C92_schedules",
    "C92_start",
    "C92_step",
    "C92_trajectory"
   ],
   "note": "The analytical solution and trajectories are proved for all bounds the code can work with (C36). Single time steps are proved without bounds or for one schedule; several bounded schedules raise (C36)."
  },
  {
   "property": "C93",
   "status": "proved",
   "theorems": [
    "C93_phase_only",
    "C93_duration"
   ],
   "note": ""
  },
  {
   "property": "C94",
   "status": "partial",
   "theorems": [
    "C94_trained",
    "C94_succeeds",
    "C94_reproduced",
    "C94_from_traj",
    "C94_argument_refuted"
   ],
   "note": "Training with the schedules in misc is proved in full. The argument schedules never works (C94_argument_refuted): arrays raise ValueError because of their truth value, lists raise AttributeError."
  },
  {
   "property": "C95",
   "status": "proved",
   "theorems": [
    "C95_converges",
    "C95_types",
    "C95_trained"
   ],
   "note": "Exact arithmetic. C95_types and C95_trained are instances of C95_converges for all types of the constructor; C95_trained includes that the trained function approximators are Lipschitz continuous."
  },
  {
   "property": "C96",
   "status": "proved",
   "theorems": [
    "C96_systems",
    "C96_spring"
   ],
   "note": "Exact arithmetic."
  },
  {
   "property": "C97",
   "status": "partial",
   "theorems": [
    "C97_systems_partial",
    "C97_regressors_partial",
    "C97_dmps_partial",
    "C97_start_refuted",
    "C97_attractor_refuted",
    "C97_cache_refuted",
    "C97_param_vector_refuted",
    "C97_dmp_refuted"
   ],
   "note": "Proved for all programs that leave the listed arrays alone, for the dynamical systems, the four regression models and DMPs. Without that condition false (C97_..._refuted). Missing: DMPs with a sigmoid goal system given by the user, DMPs with schedules, save_training_data."
  },
  {
   "property": "C98",
   "status": "proved",
   "theorems": [
    "C98_search_space",
    "C98_cost_unit",
    "C98_cost_order"
   ],
   "note": "Exact arithmetic. That multivariate_normal commutes with the transformation of mean and covariance is a hypothesis on the generator. CEM and CMA-ES: for successful optimizations without equal costs in an update."
  },
  {
   "property": "C99",
   "status": "partial",
   "theorems": [
    "C99_python_to_cpp",
    "C99_cpp_to_python",
    "C99_misc_left_out",
    "C99_not_a_number",
    "C99_empty_line_refuted",
    "C99_save",
    "C99_save_dir_refuted"
   ],
   "note": "The exchange is proved in full for files written by either language. False for other files and for saving into directories: an empty line at the end silently changes the dimensions read by C++ (C99_empty_line_refuted), words that are not numbers are never read (C99_not_a_number), and saveToFile(directory, ...) returns true although nothing was written (C99_save_dir_refuted). Not modelled: more misc variables than columns."
  },
  {
   "property": "C100",
   "status": "partial",
   "theorems": [
    "C100_min_jerk",
    "C100_polynomial",
    "C100_append",
    "C100_append_unchecked",
    "C100_viapoint",
    "C100_moving_viapoint_refuted",
    "C100_viapoint_differs_refuted",
    "C100_viapoint_late",
    "C100_set_misc",
    "C100_append_gap",
    "C100_append_seam"
   ],
   "note": "Generators, append and misc variables proved in full. Moving via-points fail an assertion (C100_moving_viapoint_refuted) and otherwise have velocities scaled by the durations; trajectories through via-points differ from those of Python (C100_viapoint_differs_refuted)."
  },
  {
   "property": "C101",
   "status": "partial",
   "theorems": [
    "C101_python",
    "C101_cpp",
    "C101_trajectory",
    "C101_same_partial",
    "C101_trained_partial",
    "C101_acceleration_refuted",
    "C101_release_refuted",
    "C101_floor_refuted"
   ],
   "note": "Rows of all three simulations characterized in exact arithmetic, and agreement proved for every DMP that C++ reads. False: in floating point C++ releases the ball one time step earlier than Python (C101_release_refuted); the acceleration at the release is overwritten by gravity in Python (C101_acceleration_refuted); C++ ignores the floor of the task (C101_floor_refuted). Trajectories with other than equidistant samples are modelled but only covered through these theorems for equal time steps."
  },
  {
   "property": "C102",
   "status": "partial",
   "theorems": [
    "C102_costs",
    "C102_columns",
    "C102_landing_python",
    "C102_landing_cpp",
    "C102_effort_cpp",
    "C102_effort_refuted"
   ],
   "note": "Costs of all rollouts, and landing cost of all throws proved. False in Python: the acceleration cost counts gravity instead of the acceleration of the hand at the release (C102_effort_refuted)."
  },
  {
   "property": "C103",
   "status": "partial",
   "theorems": [
    "C103_vector",
    "C103_samples",
    "C103_demonstration",
    "C103_throws_partial",
    "C103_widths_refuted"
   ],
   "note": "Proved for RBFN function approximators and the parameters weights and goal; exact arithmetic, and throws with the release of C101 in exact arithmetic. False for widths: a sample with a width of zero makes predictions fail (C103_widths_refuted)."
  },
  {
   "property": "C104",
   "status": "partial",
   "theorems": [
    "C104_simulated",
    "C104_defined",
    "C104_desired",
    "C104_superposition",
    "C104_force_partial",
    "C104_settles_partial",
    "C104_tracks_partial",
    "C104_ahead",
    "C104_follows_refuted",
    "C104_short",
    "C104_dmp",
    "C104_costs"
   ],
   "note": "The recurrence, the linear response, the DMP and the costs are proved in full. Bounds are proved for constant gains with time step * sqrt(gain) below 1. Following exactly is false: errors compare the robot with the desired state of the next time step (C104_ahead, C104_follows_refuted)."
  },
  {
   "property": "C105",
   "status": "partial",
   "theorems": [
    "C105_set",
    "C105_constructor",
    "C105_equation",
    "C105_names",
    "C105_damping_ignored",
    "C105_sigmoid_partial",
    "C105_sigmoid_refuted",
    "C105_effect_refuted",
    "C105_atomic_refuted",
    "C105_critical_refuted"
   ],
   "note": "Proved for all parameters of spring, exponential and Richards systems, as arrays or numbers; sigmoid systems are covered outside of a DMP, before their first use. False: settings of other systems and attributes are silently ignored (C105_effect_refuted), the damping coefficient has no effect beside a damping system (C105_damping_ignored), exceptions leave changes behind (C105_atomic_refuted), sigmoid systems keep capacities of the old parameters (C105_sigmoid_refuted)."
  },
  {
   "property": "C106",
   "status": "proved",
   "theorems": [
    "C106_weighted",
    "C106_strict",
    "C106_best",
    "C106_negative_eliteness_refuted",
    "C106_convex",
    "C106_level",
    "C106_elite",
    "C106_worse_mean_refuted",
    "C106_not_convex_refuted",
    "C106_run",
    "C106_evaluations",
    "C106_run_task",
    "C106_demo_costs",
    "C106_demo",
    "C106_reach"
   ],
   "note": "Proved in full for exact arithmetic. The mean cost of the samples is the sharp reference: the cost of the mean itself may rise (C106_worse_mean_refuted), costs that are not convex may rise above every sample (C106_not_convex_refuted), and a negative eliteness prefers high costs (C106_negative_eliteness_refuted)."
  },
  {
   "property": "C107",
   "status": "proved",
   "theorems": [
    "C107_rollout",
    "C107_components",
    "C107_convex",
    "C107_trained",
    "C107_untimed_refuted",
    "C107_goal_refuted",
    "C107_run",
    "C107_succeeds",
    "C107_evaluations"
   ],
   "note": "Proved in full for exact arithmetic. C107_untimed_refuted and C107_goal_refuted show that the two provisos (a time for the via-point, no scaling with a learned goal) are needed. C107_succeeds is about updaters without covariance adaptation; for the others C107_run and C107_evaluations assume that the run succeeded."
  },
  {
   "property": "C108",
   "status": "proved",
   "theorems": [
    "C108_wls",
    "C108_rbfn",
    "C108_lwr",
    "C108_gpr",
    "C108_demonstration"
   ],
   "note": "Proved in full for exact arithmetic. The theorem about demonstrations is for Kulvicius and countdown DMPs with the default subsystems and without scaling of the forcing term."
  },
  {
   "property": "C109",
   "status": "proved",
   "theorems": [
    "C109_forcing",
    "C109_exploration",
    "C109_demonstration",
    "C109_trained",
    "C109_min_jerk"
   ],
   "note": "Proved in full for exact arithmetic. The theorems about trained DMPs are for Kulvicius and countdown DMPs with the default subsystems and without scaling of the forcing term; C109_demonstration is for all DMPs."
  },
  {
   "property": "C110",
   "status": "proved",
   "theorems": [
    "C110_speed",
    "C110_late"
   ],
   "note": "Proved in full for exact arithmetic, for Kulvicius and countdown DMPs with the default subsystems and without scaling of the forcing term."
  },
  {
   "property": "C111",
   "status": "proved",
   "theorems": [
    "C111_task",
    "C111_cost_function",
    "C111_outside",
    "C111_outside_cost_function",
    "C111_mean_refuted",
    "C111_movements"
   ],
   "note": "Proved for all runs, successful or not. An initial mean outside the bounds is tried as it is (C111_mean_refuted); C111_movements is for exact arithmetic, RBFNs and LWRs of the phase and DMPs whose goal is not a parameter."
  },
  {
   "property": "C112",
   "status": "proved",
   "theorems": [
    "C112_formula",
    "C112_forgotten",
    "C112_types",
    "C112_long_steps_refuted"
   ],
   "note": "Proved exactly, for both methods, every dimension with constant critical damping and any disturbance of position and velocity. Long Euler steps do not forget disturbances (C112_long_steps_refuted). DMPs with a damping system (SCT23 with damping) are not covered by the formula."
  },
  {
   "property": "C113",
   "status": "proved",
   "theorems": [
    "C113_reaches",
    "C113_new_goals",
    "C113_types",
    "C113_function_approximators",
    "C113_demonstrations"
   ],
   "note": "Proved for both methods, every dimension with constant critical damping, no or an exponential goal system, exponential or falling sigmoid gating, an exponential or time phase, and predictions that are bounded for bounded phases (proved for RBFNs and LWRs). C113_types takes the predictor as total; C113_demonstrations is about the actual RBFNs and LWRs for Kulvicius and countdown DMPs without scaling. SCT23 DMPs (Richards gating and goal, damping system) are outside the statement."
  },
  {
   "property": "C114",
   "status": "proved",
   "theorems": [
    "C114_steps",
    "C114_new_goals",
    "C114_rollouts",
    "C114_alone"
   ],
   "note": "Proved for DMPs without damping system and with no or an exponential goal system, and phase and gating that are defined in all states. C114_alone is for force scaling NO_SCALING; C114_new_goals needs the same force scaling in both DMPs. SCT23 DMPs are outside the statement."
  }
 ]
}