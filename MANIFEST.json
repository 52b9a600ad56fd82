{
 "claims": [
  {
   "property": "C01",
   "status": "proved",
   "theorems": [
    "C01_samples_within_limits",
    "C01_cut_exactly",
    "C01_limit_not_last_refuted"
   ],
   "note": "For every number system with the order laws (reals, IEEE doubles). NaN samples stay NaN. Finding: limits are not enforced when limit_pulse is not last."
  },
  {
   "property": "C02",
   "status": "proved",
   "theorems": [
    "C02_shrink",
    "C02_rounding_refuted"
   ],
   "note": "Exact arithmetic. Finding: in IEEE doubles the shrunk pulse can exceed the limit by rounding."
  },
  {
   "property": "C03",
   "status": "proved",
   "theorems": [
    "C03_pipeline",
    "C03_default",
    "C03_unknown_names"
   ],
   "note": "Any number system."
  },
  {
   "property": "C04",
   "status": "proved",
   "theorems": [
    "C04_boundaries_pinned"
   ],
   "note": "Exact arithmetic (0*x = 0)."
  },
  {
   "property": "C05",
   "status": "proved",
   "theorems": [
    "C05_time_grid",
    "C05_grid_end"
   ],
   "note": "Exact arithmetic; the last point equals the duration in floating point too."
  },
  {
   "property": "C06",
   "status": "proved",
   "theorems": [
    "C06_base_is_sum",
    "C06_overwrite_keeps_last"
   ],
   "note": "Any number system; sums in the order of the super-iterations."
  },
  {
   "property": "C07",
   "status": "proved",
   "theorems": [
    "C07_parameter_limits",
    "C07_inside_unchanged"
   ],
   "note": "Any number system with the order laws. Finding: with lower > upper the value is always upper; NaN is delivered."
  },
  {
   "property": "C08",
   "status": "proved",
   "theorems": [
    "C08_duration_limits",
    "C08_initial_duration",
    "C08_equal_limits_raise"
   ],
   "note": "Exact arithmetic. Finding: equal limits raise ZeroDivisionError."
  },
  {
   "property": "C09",
   "status": "proved",
   "theorems": [
    "C09_index_partition",
    "C09_no_parameters_raise",
    "C09_changing_number_refuted"
   ],
   "note": "Finding: a basis that changes its number of parameters on selection makes entries shared."
  },
  {
   "property": "C10",
   "status": "proved",
   "theorems": [
    "C10_mean_value",
    "C10_sigma_variation",
    "C10_optimised_time_overwrites_entry_0"
   ],
   "note": "Finding: an optimised duration overwrites entry 0."
  },
  {
   "property": "C11",
   "status": "proved",
   "theorems": [
    "C11_pulse_depends_on_own_entries",
    "C11_parameter_depends_on_own_entry",
    "C11_optimised_time_refuted"
   ],
   "note": "Finding: with an optimised duration entry 0 influences every pulse."
  },
  {
   "property": "C12",
   "status": "proved",
   "theorems": [
    "C12_best_controls_survive",
    "C12_shipped_bases",
    "C12_overwrite_refuted",
    "C12_rounding_refuted"
   ],
   "note": "Exact arithmetic. Findings: lost with overwrite_base_pulse; only up to rounding in doubles."
  },
  {
   "property": "C13",
   "status": "proved",
   "theorems": [
    "C13_one_per_bin",
    "C13_increasing"
   ],
   "note": "Exact arithmetic, draws in [0,1)."
  },
  {
   "property": "C14",
   "status": "proved",
   "theorems": [
    "C14_zero_at_start",
    "C14_walsh_zero",
    "C14_linear",
    "C14_chebyshev_domain",
    "C14_sinc_no_zero_division"
   ],
   "note": "Exact arithmetic; elementary functions arbitrary."
  },
  {
   "property": "C15",
   "status": "proved",
   "theorems": [
    "C15_gram_schmidt",
    "C15_simplex",
    "C15_every_draw",
    "C15_within_widths",
    "C15_not_flat",
    "C15_zero_width_refuted",
    "C15_shape"
   ],
   "note": "Real arithmetic (shape: any number system); rounding inside Gram-Schmidt is not modelled. Finding: a zero width gives a flat simplex (_refuted)."
  },
  {
   "property": "C16",
   "status": "proved",
   "theorems": [
    "C16_total_evaluation_budget",
    "C16_gradient_calls_refuted"
   ],
   "note": "Every configuration and environment. Finding: AD gradients call get_FoM outside the budget."
  },
  {
   "property": "C17",
   "status": "proved",
   "theorems": [
    "C17_stopped_run_makes_no_call",
    "C17_flag_cleared_for_good",
    "C17_from_any_state",
    "C17_gradient_calls_refuted"
   ],
   "note": "Every configuration, from every state. Findings: one in-flight evaluation is possible after an asynchronous stop; AD gradients call get_FoM after the stop."
  },
  {
   "property": "C18",
   "status": "proved",
   "theorems": [
    "C18_goal_not_reached_before",
    "C18_goal_is_last",
    "C18_any_configuration"
   ],
   "note": "Any number system with order and sign laws (reals, IEEE doubles)."
  },
  {
   "property": "C19",
   "status": "proved",
   "theorems": [
    "C19_calls_in_time",
    "C19_large_limit_ignored"
   ],
   "note": "Every clock. Finding: limits of 1e10 or more are not enforced."
  },
  {
   "property": "C20",
   "status": "proved",
   "theorems": [
    "C20_best_value",
    "C20_reported_value",
    "C20_reported_once",
    "C20_best_vector"
   ],
   "note": "Any number system with order and sign laws. Best vector for GRAPE/AD; dCRAB in C28."
  },
  {
   "property": "C21",
   "status": "proved",
   "theorems": [
    "C21_saved_exactly_improvements",
    "C21_saved_content",
    "C21_file_on_disk"
   ],
   "note": "Any number system with order and sign laws."
  },
  {
   "property": "C22",
   "status": "proved",
   "theorems": [
    "C22_failure_stops_the_run",
    "C22_no_value_raises",
    "C22_failed_value_reported_refuted"
   ],
   "note": "Finding: the value of a failed evaluation can be reported as the optimum although it is neither listed nor saved."
  },
  {
   "property": "C23",
   "status": "proved",
   "theorems": [
    "C23_log",
    "C23_consecutive_numbers",
    "C23_counter"
   ],
   "note": "Any number system with order and sign laws."
  },
  {
   "property": "C24",
   "status": "proved",
   "theorems": [
    "C24_direction"
   ],
   "note": "Any number system with the sign laws (reals, IEEE doubles); every algorithm, re-evaluation and drift compensation included. The minimiser behind GRAPE/AD is any function of the values it gets."
  },
  {
   "property": "C25",
   "status": "proved",
   "theorems": [
    "C25_seeded_reproducible",
    "C25_gradient_reproducible",
    "C25_nelder_mead_without_randn",
    "C25_seeded_without_rand",
    "C25_direct_search_refuted",
    "C25_unseeded_dcrab_refuted",
    "C25_cmaes_refuted"
   ],
   "note": "Any number system. Finding: seeding has no effect on CMA-ES candidates, nor on direct search."
  },
  {
   "property": "C26",
   "status": "proved",
   "theorems": [
    "C26_super_iterations"
   ],
   "note": "Any number system; every environment."
  },
  {
   "property": "C27",
   "status": "proved",
   "theorems": [
    "C27_no_improvement",
    "C27_overwrite_refuted"
   ],
   "note": "Exact arithmetic (reals; examples on rationals). Finding: false with overwrite_base_pulse."
  },
  {
   "property": "C28",
   "status": "proved",
   "theorems": [
    "C28_best_controls",
    "C28_overwrite_refuted"
   ],
   "note": "Exact arithmetic (reals; examples on rationals). Finding: false with overwrite_base_pulse."
  },
  {
   "property": "C29",
   "status": "proved",
   "theorems": [
    "C29_last_parameters",
    "C29_last_controls",
    "C29_not_best_refuted",
    "C29_interrupted_refuted"
   ],
   "note": "Findings: the reported parameters and controls are the last, not the best ones; after a stop from another thread they may never have been evaluated."
  },
  {
   "property": "C30",
   "status": "proved",
   "theorems": [
    "C30_bare_controls_are_zero"
   ],
   "note": "Finding: get_best_bare_controls returns zeros for every optimisation."
  },
  {
   "property": "C31",
   "status": "proved",
   "theorems": [
    "C31_session",
    "C31_run_ready"
   ],
   "note": "Exact arithmetic (reals; examples on rationals); any distribution function and square root."
  },
  {
   "property": "C32",
   "status": "proved",
   "theorems": [
    "C32_better_on_average",
    "C32_small_threshold_refuted"
   ],
   "note": "Reals. Finding: with a last threshold below 1/2 a worse mean can become the record."
  },
  {
   "property": "C33",
   "status": "proved",
   "theorems": [
    "C33_logged",
    "C33_formula",
    "C33_not_the_mean",
    "C33_mean_refuted"
   ],
   "note": "Exact arithmetic. Finding: the logged average is not the mean of the values."
  },
  {
   "property": "C34",
   "status": "proved",
   "theorems": [
    "C34_after_super_iteration",
    "C34_simplex_shift",
    "C34_simplex_values",
    "C34_stopped_refuted",
    "C34_no_average_refuted"
   ],
   "note": "Exact arithmetic. Findings: a stop during compensation puts 1e10 into the reported best value; num_average = 0 raises."
  },
  {
   "property": "C35",
   "status": "proved",
   "theorems": [
    "C35_direct",
    "C35_direct_no_exception",
    "C35_gradient",
    "C35_reason_refuted",
    "C35_before_first_evaluation_refuted"
   ],
   "note": "Any number system. Findings: the reason can be overwritten; GRAPE and AD raise AttributeError on Ctrl-C; so does a direct search cancelled before its first evaluation."
  },
  {
   "property": "C36",
   "status": "proved",
   "theorems": [
    "C36_normal_end",
    "C36_nothing_recorded",
    "C36_recorded"
   ],
   "note": "Any number system with a preorder; no re-evaluation or drift compensation. Finding: a run without a value below 1e10 ends with AttributeError."
  },
  {
   "property": "C37",
   "status": "proved",
   "theorems": [
    "C37_added_again",
    "C37_best_controls_refuted"
   ],
   "note": "Finding: AD returns controls that are not the best ones."
  },
  {
   "property": "C38",
   "status": "proved",
   "theorems": [
    "C38_shape",
    "C38_sorted",
    "C38_sorted_drift",
    "C38_values",
    "C38_stale_refuted"
   ],
   "note": "Any number system; any argsort that returns a sorting permutation. Finding: Ctrl-C during a shrink leaves a vertex with a stale value."
  },
  {
   "property": "C39",
   "status": "proved",
   "theorems": [
    "C39_best_seen",
    "C39_run",
    "C39_never_worse",
    "C39_discarded_refuted",
    "C39_nan_refuted"
   ],
   "note": "Any number system with a preorder. Findings: after Ctrl-C the best point seen can be lost; NaN on the start simplex is never overcome."
  },
  {
   "property": "C40",
   "status": "proved",
   "theorems": [
    "C40_terminates",
    "C40_calls",
    "C40_exceeded_refuted"
   ],
   "note": "Any number system. Finding: max_eval is exceeded by up to n+2 calls."
  },
  {
   "property": "C41",
   "status": "proved",
   "theorems": [
    "C41_default",
    "C41_start_missed"
   ],
   "note": "Finding: the first vertex of the default simplex is the origin instead of the start point."
  },
  {
   "property": "C42",
   "status": "proved",
   "theorems": [
    "C42_generations",
    "C42_calls",
    "C42_terminates",
    "C42_weights",
    "C42_rates",
    "C42_mean",
    "C42_covariance",
    "C42_definite",
    "C42_not_best_refuted",
    "C42_interrupted_refuted"
   ],
   "note": "Loop: any number system and any sampling and adaptation (oracles). Adaptation (ModelCma.v): exact real arithmetic, arrays as index functions, eigh an arbitrary function. Findings: the best point seen need not be returned, and Ctrl-C before the first generation returns a point that was never evaluated (_refuted)."
  },
  {
   "property": "C43",
   "status": "proved",
   "theorems": [
    "C43_nm",
    "C43_cma",
    "C43_kept",
    "C43_deviation",
    "C43_ctrl_c_lost_refuted"
   ],
   "note": "Finding: Ctrl-C between two tests of check_stopping_criteria sets is_converged, which the next test overwrites (_refuted)."
  },
  {
   "property": "C44",
   "status": "proved",
   "theorems": [
    "C44_first",
    "C44_first_cma",
    "C44_search",
    "C44_run",
    "C44_results_file",
    "C44_global_absent",
    "C44_wrong_refuted"
   ],
   "note": "Findings: a Ctrl-C inside an iteration makes the search return with a reason that does not hold (_refuted); the higher-order reason only reaches the log, not the results file."
  },
  {
   "property": "C45",
   "status": "proved",
   "theorems": [
    "C45_decides",
    "C45_formula",
    "C45_track",
    "C45_track_direct",
    "C45_window",
    "C45_shift",
    "C45_sign",
    "C45_constant",
    "C45_progression"
   ],
   "note": "The slope is modelled by the closed formula of the least-squares line (numpy uses a singular value decomposition); the decision is stated over the reals, and with the formula over any numbers."
  },
  {
   "property": "C46",
   "status": "proved",
   "theorems": [
    "C46_saved",
    "C46_names",
    "C46_kept",
    "C46_reserved",
    "C46_renamed_refuted",
    "C46_reserved_refuted",
    "C46_file_refuted"
   ],
   "note": "Findings: names such as p3,p,p lose a pulse; control names equal to bookkeeping keys are replaced; a control named file makes np.savez raise TypeError (_refuted)."
  },
  {
   "property": "C47",
   "status": "proved",
   "theorems": [
    "C47_preserved",
    "C47_new_folder",
    "C47_one_owner",
    "C47_untouched",
    "C47_refused",
    "C47_accepted",
    "C47_race_refuted"
   ],
   "note": "Any number of processes, steps interleaved arbitrarily. Finding: two optimisers with different names can refuse each other while QuOCS_Results is created (_refuted)."
  },
  {
   "property": "C48",
   "status": "proved",
   "theorems": [
    "C48_fresh",
    "C48_ends",
    "C48_sleeps",
    "C48_outcome",
    "C48_times_out",
    "C48_controls",
    "C48_used",
    "C48_late_refuted",
    "C48_torn_refuted",
    "C48_vanished_refuted",
    "C48_last_sleep_refuted",
    "C48_seconds_refuted",
    "C48_extension_refuted"
   ],
   "note": "The other program is arbitrary: it may write or remove the exchange file between any two steps. Findings (_refuted): late answers of earlier calls are taken, torn reads, FileNotFoundError race, answer in the last sleep ignored, max_time counts half seconds, status -2 and -3 end in TypeError, unknown extensions write no controls."
  },
  {
   "property": "C49",
   "status": "proved",
   "theorems": [
    "C49_attribute",
    "C49_chosen",
    "C49_nothing",
    "C49_unique",
    "C49_escapes",
    "C49_created",
    "C49_given",
    "C49_type_error",
    "C49_search_method",
    "C49_dsm_name_refuted",
    "C49_type_missing_refuted",
    "C49_overridden_refuted"
   ],
   "note": "Findings: a name without class type gives None; a known name overrides explicit module and class; dsm_name always means Nelder-Mead (_refuted)."
  },
  {
   "property": "C50",
   "status": "proved",
   "theorems": [
    "C50_final",
    "C50_missing",
    "C50_store",
    "C50_store_missing",
    "C50_product",
    "C50_unitary",
    "C50_two_parts",
    "C50_AD",
    "C50_AD_missing",
    "C50_AD_store_input",
    "C50_AD_store_refuted"
   ],
   "note": "Exact arithmetic over any numerically closed field; expm is an oracle (Cayley transform exhibited as a function with the property used). Findings: pw_evolution_AD returns its input unchanged because the result of at[i].set is dropped (_refuted); jax clamps indices, so a short drive is accepted silently."
  },
  {
   "property": "C51",
   "status": "proved",
   "theorems": [
    "C51_gradient",
    "C51_overlap",
    "C51_first_order",
    "C51_commuting",
    "C51_missing",
    "C51_other_types",
    "C51_real_states_refuted"
   ],
   "note": "Exact arithmetic; propagators are whatever the user's function returns. The factor 1 - i eps dt B is the GRAPE approximation of changing the amplitude of slice t by eps. Findings: zero gradient for all other system types; real state arrays make the storage arrays real (_refuted)."
  },
  {
   "property": "C52",
   "status": "proved",
   "theorems": [
    "C52_reduced",
    "C52_trace",
    "C52_entries",
    "C52_repeated",
    "C52_all",
    "C52_outside",
    "C52_size",
    "C52_mask",
    "C52_order"
   ],
   "note": "Entries from any additive group. reshape, transpose and trace of jax are modelled by their documented meaning. Finding: tracing over all subsystems fails because the product of an empty array is a float."
  },
  {
   "property": "C53",
   "status": "proved",
   "theorems": [
    "C53_sup_op",
    "C53_commutator",
    "C53_vec",
    "C53_hermitian_refuted"
   ],
   "note": "Finding: for Hermitian matrices with complex entries to_sup_op does not implement the commutator in the row-major vectorisation of to_vec (_refuted)."
  },
  {
   "property": "C54",
   "status": "proved",
   "theorems": [
    "C54_history",
    "C54_grape",
    "C54_plain",
    "C54_stale",
    "C54_mixture",
    "C54_population",
    "C54_real_target",
    "C54_stale_refuted",
    "C54_complex_target_refuted"
   ],
   "note": "expm and sqrtm oracles. Findings: stale cache (_refuted), mixed propagators after a failed call, transposed density matrix wrong for complex target states (_refuted)."
  },
  {
   "property": "C55",
   "status": "proved",
   "theorems": [
    "C55_range",
    "C55_one",
    "C55_scale",
    "C55_not_normalised_refuted",
    "C55_merit",
    "C55_merit_range",
    "C55_parameter_stays",
    "C55_stateless_refuted"
   ],
   "note": "Exact arithmetic, expm an oracle. Findings: the overlap squared is divided by the norms and not by their squares, so it exceeds 1 for non-normalised states (_refuted); get_FoM keeps parameters[0] as detuning for later calls (_refuted)."
  },
  {
   "property": "C56",
   "status": "proved",
   "theorems": [
    "C56_delivery_total",
    "C56_update_total",
    "C56_shipped_bases",
    "C56_scalar_guess_refuted"
   ],
   "note": "Any number system. Finding: scalar guess with shrinking raises."
  },
  {
   "property": "C57",
   "status": "proved",
   "theorems": [
    "C57_step_times_inside"
   ],
   "note": "Exact arithmetic."
  },
  {
   "property": "C58",
   "status": "proved",
   "theorems": [
    "C58_basis",
    "C58_drift",
    "C58_drift_two",
    "C58_control",
    "C58_states",
    "C58_one",
    "C58_two_spins_refuted"
   ],
   "note": "Entries from any commutative ring. Finding: with two qubits the next-nearest coupling degenerates to a single-spin field because the same list entry is set twice."
  },
  {
   "property": "C59",
   "status": "proved",
   "theorems": [
    "C59_problem",
    "C59_numpy",
    "C59_jax",
    "C59_sign",
    "C59_range"
   ],
   "note": "Exact arithmetic; expm only has to be unitary on -i times Hermitian matrices (needed for the range), sqrtm right on pure states. Finding: the jax problem, used with the default direction (minimisation), drives the population of the target to 0."
  },
  {
   "property": "C60",
   "status": "proved",
   "theorems": [
    "C60_ends",
    "C60_search_ends"
   ],
   "note": "Any number system. The number of loop rounds the model grants and the exception it raises when they are used up are both quantified over; from the stated bound on they make no difference. The minimiser of GRAPE and AD is a finite strategy (oracle)."
  },
  {
   "property": "C61",
   "status": "proved",
   "theorems": [
    "C61_law",
    "C61_current",
    "C61_moved",
    "C61_stale_refuted"
   ],
   "note": "Exact real arithmetic; scipy.linalg.eigh is assumed to return orthonormal eigenvectors of the matrix it is given. Finding (_refuted): before the first decomposition candidates are drawn with the start matrix although the covariance has changed; eigeneval is never updated, so afterwards every generation decomposes."
  },
  {
   "property": "C62",
   "status": "proved",
   "theorems": [
    "C62_torn",
    "C62_whole",
    "C62_always_readable_refuted",
    "C62_unstorable_refuted",
    "C62_moment"
   ],
   "note": "Findings (_refuted): the file is overwritten in place, so there is a moment in every dump when no record is readable; json.dumps is called after the file was emptied, so a value it cannot store destroys the record before. Which values a format can store is a parameter."
  },
  {
   "property": "C63",
   "status": "proved",
   "theorems": [
    "C63_file",
    "C63_console",
    "C63_own_log_refuted",
    "C63_debug_refuted"
   ],
   "note": "Findings (_refuted): the logger is shared by all optimisers and its handlers are replaced by each new one; the level INFO of the logger keeps debug messages out of the debug file."
  },
  {
   "property": "C64",
   "status": "proved",
   "theorems": [
    "C64_round_trip",
    "C64_native",
    "C64_error",
    "C64_read",
    "C64_function_refuted",
    "C64_interrupted_refuted",
    "C64_ambiguous_refuted"
   ],
   "note": "Findings (_refuted): `obj is callable` is true of the builtin only, so functions are not converted; `finally: return` swallows KeyboardInterrupt; the error code is ignored by print_optimization_dictionary."
  },
  {
   "property": "C65",
   "status": "proved",
   "theorems": [
    "C65_budget",
    "C65_stopped",
    "C65_best",
    "C65_reported",
    "C65_best_controls",
    "C65_grape_refuted",
    "C65_time_refuted"
   ],
   "note": "Findings (_refuted): GRAPE executed again adds its best update to the base pulse once more; the total time limit is counted from the latest execution."
  },
  {
   "property": "C66",
   "status": "proved",
   "theorems": [
    "C66_defined",
    "C66_symmetric",
    "C66_range",
    "C66_pure",
    "C66_sqrtm",
    "C66_fidelity_AD",
    "C66_program",
    "C66_not_diff",
    "C66_state_to_dm",
    "C66_displace",
    "C66_not_diff_refuted",
    "C66_ising"
   ],
   "note": "Finding (_refuted): fidelity_not_diff_due_to_sqrtm is the root of what fidelity_AD returns."
  },
  {
   "property": "C67",
   "status": "proved",
   "theorems": [
    "C67_realization",
    "C67_short",
    "C67_ensemble",
    "C67_moments",
    "C67_stationary",
    "C67_floor_refuted"
   ],
   "note": "Finding (_refuted): floor(T/dt) is computed from the rounded quotient, so a sample is lost for T=0.3, dt=0.1. Random numbers are oracles described by their first two moments."
  },
  {
   "property": "C68",
   "status": "proved",
   "theorems": [
    "C68_nearest",
    "C68_own_axis",
    "C68_outside",
    "C68_limits",
    "C68_round_trip",
    "C68_empty"
   ],
   "note": "Exact real arithmetic; scipy interp1d is modelled (its searchsorted on the midpoints)."
  },
  {
   "property": "C69",
   "status": "proved",
   "theorems": [
    "C69_function",
    "C69_minimum",
    "C69_one_parameter_refuted",
    "C69_quiet",
    "C69_noise",
    "C69_moments",
    "C69_std_refuted",
    "C69_below_minimum_refuted",
    "C69_construct"
   ],
   "note": "Findings (_refuted): std is not the standard deviation; values below the minimum; constant for one parameter."
  },
  {
   "property": "C70",
   "status": "proved",
   "theorems": [
    "C70_hamiltonian",
    "C70_one_field",
    "C70_merit",
    "C70_lengths",
    "C70_missing",
    "C70_range",
    "C70_frame",
    "C70_noisy_zero_refuted"
   ],
   "note": "Finding (_refuted): with noise the figure of merit can be 0 although the target is missed. The constructor evaluates text of the user (eval); the model starts from the states."
  },
  {
   "property": "C71",
   "status": "proved",
   "theorems": [
    "C71_word",
    "C71_layout",
    "C71_exact",
    "C71_separates",
    "C71_small_refuted",
    "C71_grid_refuted",
    "C71_dropped"
   ],
   "note": "Findings (_refuted): small amplitudes and fine time grids are lost in the file."
  },
  {
   "property": "C72",
   "status": "proved",
   "theorems": [
    "C72_run",
    "C72_own",
    "C72_law",
    "C72_moved",
    "C72_ranked",
    "C72_units",
    "C72_ends"
   ],
   "note": "Exact real arithmetic; eigh is an oracle (its promise is assumed only in _law, and that it finds the same eigenvectors of a multiple only in _units), argsort sorts (in _ranked: and gives the transformed values the same order, as any sort by comparison does). The run model leaves the making of candidates open; here it is the adaptation of C42/C61, so those theorems apply to whole searches. One search inside an optimisation: the function is arbitrary, and the one the optimiser passes is shown to draw no normal numbers."
  },
  {
   "property": "C73",
   "status": "proved",
   "theorems": [
    "C73_vectors",
    "C73_generator",
    "C73_slices",
    "C73_trace",
    "C73_closed",
    "C73_undriven",
    "C73_amplified",
    "C73_merit",
    "C73_physical_refuted",
    "C73_right_side",
    "C73_master",
    "C73_master_refuted",
    "C73_operators",
    "C73_dephasing",
    "C73_chain",
    "C73_chain_merit",
    "C73_each_spin_refuted",
    "C73_two_spins",
    "C73_sample",
    "C73_last_sample",
    "C73_last_unused"
   ],
   "note": "Findings (_refuted): the sign of gamma/2 in the second row of L_const makes one coherence grow (states stop being Hermitian, figure of merit above 1); the formula in LME uses L L^dagger where L^dagger L belongs (harmless for the operator used); one collective jump operator, so spins do not dephase independently. The solver odeint is not modelled."
  },
  {
   "property": "C74",
   "status": "proved",
   "theorems": [
    "C74_fourier",
    "C74_sinc",
    "C74_sinc_nodes",
    "C74_chebyshev",
    "C74_steps",
    "C74_edges",
    "C74_steps_positive",
    "C74_default_edges_refuted",
    "C74_width_refuted",
    "C74_piecewise",
    "C74_walsh_is_fourier"
   ],
   "note": "All ten bases on one statement update_drawn about the API. Findings: default edges of the sigmoid bases jump by more than 9 percent of a height, widths can become 0 outside the window, Walsh is Fourier."
  },
  {
   "property": "C75",
   "status": "proved",
   "theorems": [
    "C75_constructed",
    "C75_determined",
    "C75_folder",
    "C75_again",
    "C75_file",
    "C75_mandatory",
    "C75_documented",
    "C75_path_mode",
    "C75_runs",
    "C75_default_names_refuted",
    "C75_default_values_refuted",
    "C75_comment_refuted",
    "C75_bins_refuted",
    "C75_offset_refuted"
   ],
   "note": "Findings, proved as `_refuted`: no default names of pulses and parameters, default value 1.0 of a parameter (documented 0.1), default budget 10**10 (documented 10e10), extra entries refused in parameters and times, no default bins_number in a piecewise basis, stale default offset in a reused dictionary"
  },
  {
   "property": "C76",
   "status": "proved",
   "theorems": [
    "C76_from_controls",
    "C76_counts",
    "C76_direct_search_with_pulses",
    "C76_amplitudes",
    "C76_parameters",
    "C76_goal",
    "C76_best",
    "C76_total_time",
    "C76_budget",
    "C76_amplitudes_exact",
    "C76_time_grids",
    "C76_limit_not_last_refuted",
    "C76_shrink_rounding_refuted"
   ],
   "note": "Ties the dictionary (C75), the controls (C01-C13) and the run (C16-C20) together: statements about entries of the dictionary and events of the run only. Findings, proved: limit_pulse not last, rounding when shrinking, direct search with pulses is constructed but never evaluates."
  },
  {
   "property": "C77",
   "status": "proved",
   "theorems": [
    "C77_same_controls",
    "C77_arrays_exist",
    "C77_total",
    "C77_equal_bins",
    "C77_shorter_pulse",
    "C77_amplitudes",
    "C77_optimised_duration",
    "C77_best_controls",
    "C77_run",
    "C77_padding_refuted",
    "C77_ising_stands_still",
    "C77_ising_zero"
   ],
   "note": "finding: rows of shorter pulses are padded with zeros, outside their amplitude limits and with a time grid that ends at 0 (C77_padding_refuted, C77_ising_zero); an optimised duration cannot be differentiated (C77_optimised_duration)"
  },
  {
   "property": "C78",
   "status": "proved",
   "theorems": [
    "C78_points",
    "C78_no_duration",
    "C78_delivered",
    "C78_fixed_duration",
    "C78_run",
    "C78_tiny_duration_refuted"
   ],
   "note": "boundary: fails below a spacing of 2^-1022 (C78_tiny_duration_refuted)"
  },
  {
   "property": "C79",
   "status": "proved",
   "theorems": [
    "C79_near_limits",
    "C79_run",
    "C79_negative_duration_refuted"
   ],
   "note": "finding: the limits of an optimised duration are not kept in binary64; with the lower limit 0 a negative duration is handed out (C79_negative_duration_refuted); the excess is bounded (C79_near_limits)"
  },
  {
   "property": "C80",
   "status": "proved",
   "theorems": [
    "C80_near_limits",
    "C80_run",
    "C80_far_above_refuted",
    "C80_overflow_refuted"
   ],
   "note": "positive bound with explicit constant; finding: the excess scales with the samples before shrinking, so limits -1 and 1 can give samples above 2^800; finding: samples near the greatest number give NaN"
  },
  {
   "property": "C81",
   "status": "proved",
   "theorems": [
    "C81_entries",
    "C81_values",
    "C81_agree",
    "C81_dictionary",
    "C81_slice_time",
    "C81_sample",
    "C81_derivative",
    "C81_merit",
    "C81_beyond",
    "C81_scaling_refuted",
    "C81_mismatch_refuted"
   ],
   "note": "Boundary: lengths agree for a single PiecewiseBasis pulse without parameters and slopes are those of the samples only for scaling 1 and inside the limits. Findings: GRAPE accepts dictionaries whose gradient has another number of entries than the vector (C81_mismatch_refuted), and its gradient does not contain the scaling function (C81_scaling_refuted)."
  },
  {
   "property": "C82",
   "status": "proved",
   "theorems": [
    "C82_real",
    "C82_error",
    "C82_derivative",
    "C82_states",
    "C82_commuting",
    "C82_direction",
    "C82_ising",
    "C82_refuted"
   ],
   "note": "Finding: the gradient is a first-order approximation in the slice length (C82_refuted: entry pi where the derivative is 0). Over the complex numbers built from the real numbers of the standard library, expm any function with the defining differential equation (C82_case shows that there is one). Uses the standard axioms of the reals, functional extensionality, excluded middle and the epsilon operator."
  },
  {
   "property": "C83",
   "status": "proved",
   "theorems": [
    "C83_solution",
    "C83_amplitudes",
    "C83_refine",
    "C83_converges",
    "C83_ising",
    "C83_one_qubit_time",
    "C83_one_qubit",
    "C83_duration_refuted"
   ],
   "note": "C83_duration_refuted: the one-qubit problem simulates n slices of length T/(n-1), so the pulse lasts longer than the time the user gave (finding)."
  },
  {
   "property": "C84",
   "status": "proved",
   "theorems": [
    "C84_order",
    "C84_sorting",
    "C84_cma",
    "C84_spread_off",
    "C84_spread_off_real",
    "C84_fatol_refuted"
   ],
   "note": "Finding: f_atol is an absolute tolerance, so the units of the figure of merit decide where a search ends (C84_fatol_refuted); without it only comparisons count (C84_order). C84_sorting, C84_cma, C84_spread_off discharge the hypotheses."
  },
  {
   "property": "C85",
   "status": "proved",
   "theorems": [
    "C85_grid",
    "C85_slope",
    "C85_exact",
    "C85_descent"
   ],
   "note": "End-to-end composition of C81 and C82 for the bundled Ising problem: real numbers and an exact matrix exponential; pure initial state and real pure target. Beyond the limits GRAPE's entry is not the slope (0)."
  },
  {
   "property": "C86",
   "status": "proved",
   "theorems": [
    "C86_coordinates",
    "C86_units_affine",
    "C86_linear_affine",
    "C86_xatol_off",
    "C86_shift",
    "C86_start",
    "C86_search",
    "C86_xatol_refuted"
   ],
   "note": "Over the real numbers; the search is run_nm / run_dsm of the model with an arbitrary monadic function. Finding: xatol is absolute (C86_xatol_refuted)."
  },
  {
   "property": "C87",
   "status": "proved",
   "theorems": [
    "C87_unseen",
    "C87_equation_flat",
    "C87_entry_flat",
    "C87_equations",
    "C87_full",
    "C87_zero_width",
    "C87_adaptive_refuted",
    "C87_run"
   ],
   "note": "Boundary: widths zero keep a parameter fixed, all others never become dependent; fails for is_adaptive with one control parameter. Finding: NelderMead.py:71-77 gives sigma = 1 - 1/dim = 0 for one parameter, so the first shrink collapses the simplex and ends the search (C87_adaptive_refuted)."
  },
  {
   "property": "C88",
   "status": "proved",
   "theorems": [
    "C88_not_finite",
    "C88_step_size",
    "C88_run",
    "C88_delivered",
    "C88_first_generation"
   ],
   "note": "Boundary: widths different from zero. Finding: CMAES.py:114 puts 1/0 = inf into invsqrtC for a width of zero; inf*0 or inf*rounding error makes the evolution path, the step size and with them all candidates infinite or NaN from the second generation on. The numbers depending on the numbers of parameters and candidates only (np.log) are given, with positive damping and chiN as hypotheses; sums are taken from left to right; eigh may return anything or raise."
  }
 ]
}