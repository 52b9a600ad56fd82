# Formal model of QuOCS: design

All proofs are in Rocq (Coq 8.16.1), directory `rocq/theories`, logical root `Verif`.
The model is written function by function from the Python sources in `/repo/src/quocslib`.
Every definition of the model carries a comment with the file and lines it models and any simplification.

## 1. Layers

| file group | content |
|---|---|
| `Num.v` | interface `Num` of the number operations the library uses. Instances: exact reals (`Rnum`), bit-exact IEEE binary64 with infinities and NaN (`F64`, built on Flocq), rationals (`Qcnum`, for examples). Law records: `NumOrder` (order laws that IEEE doubles satisfy too), `NumSign`, `NumExact` (field and order laws, satisfied by reals and rationals) |
| `Py.v` | Python results and exceptions, array helpers (broadcasting, negative indices) |
| `Model*.v` | the model, no proofs |
| `Spec*.v` | small vocabularies independent of the model: what a reader must agree with |
| `Proof*.v` | lemmas |
| `Prop*.v` | the final theorems `Cnn_...`, a concrete `Example` beside them, `Print Assumptions` beneath |
| `Example*.v` | concrete settings and worlds used by the examples and refutations |

A theorem whose name ends in `_refuted` shows, by a witness or for all inputs, that an expectation is false of the code.
The statement of each property in `properties.jsonl` names the exact boundary: where it holds (positive theorems) and where it fails (`_refuted`).

### Numbers
Theorems that only need comparisons are proved for every `Num` with the order laws, so they hold for IEEE doubles including NaN and infinities.
Theorems that need field arithmetic are proved for exact arithmetic and say so; where rounding breaks them a `_refuted` theorem on `F64` shows it (C02, C12).
The quantum part (`ModelQuantum.v`, `ModelIsing.v`) works over any numerically closed field of mathcomp, the partial trace over any additive group, CMA-ES adaptation over the reals.

### Effects
An optimisation run is a state and exception monad over an explicit state (`ModelState.v`): communication object, algorithm object, stopping criteria, controls, trace of observable events.
Everything outside the library is an oracle in the record `world`, universally quantified in every theorem:

* user figure of merit: any answer depending on the whole history, may raise, may lack the value, may return any status code;
* clock readings;
* numpy's global random stream, the seeded stream, normal numbers;
* stop requests of another thread (GUI) and SIGINT at any point where the run reads or overwrites a flag they touch;
* `argsort`: any function; theorems that need it assume that it returns a sorting permutation;
* `scipy.stats.norm.cdf`, the default population size, CMA-ES candidates and adaptation: any function;
* L-BFGS-B: any adaptive sequence of queries;
* gradient computation: may raise at any call.

Outside the run model the oracles are: `expm`, `sqrtm`, `eigh` (arbitrary functions; the few hypotheses used are in the theorem), the elementary functions of the bases, `float()` of a line of the exchange file, the modules installed.
The program on the other side of the exchange file and the other processes on the same file system are arbitrary interleaved actors (C47, C48).
Loops without a static bound carry fuel (`w_fuel`) and raise `w_stuck` when it is used up; both are quantified over. C40, C42 and C60 give the bound from which they make no difference.

## 2. What is modelled

| source | model | not modelled |
|---|---|---|
| `pulses/BasePulse.py`, `pulses/basis/*`, `pulses/superparameter/Uniform.py` | `ModelPulse.v`, `ModelBases.v` | `eval` of user text and loading of guess files (oracles in `ModelConfig.v`) |
| `parameters/*`, `Controls.py` | `ModelControls.v`; jax variants in `ModelJax.v` | which numpy operations inside a pulse accept a traced value |
| `tools/linearalgebra.py` | `ModelLinalg.v` (start simplex), `ModelQuantum.v` (commutator, superoperator) | `ptrace`-like helpers not used by the library |
| `optimizationalgorithms/{Optimization,dCRAB,DirectSearch,GRAPE,AD}Algorithm.py` | `ModelRun.v`, `ModelState.v`; gradient of GRAPE in `ModelQuantum.v` | `Legacy/*`, `AlgorithmTemplate.py`, text of log messages, JAX tracing |
| `gradientfreemethods/{NelderMead,CMAES,DirectSearchMethod}.py`, `stoppingcriteria/*` | `ModelSearch.v`, adaptation of CMA-ES in `ModelCma.v`, put into whole searches in `ModelCmaRun.v`, the same in binary64 in `ModelCma64.v` and `ModelCma64Run.v` (real division by zero is 0 in Coq, so the theorems over `ModelCma.v` say nothing about the code for a width of zero; C88 does) | `GradientFreeTemplate.py`; `eigh` and `polyfit` numerics |
| `communication/AllInOneCommunication.py`, `handleexit/*`, `Optimizer.py` | `ModelRun.v` (data flow), `ModelSession.v` (several executions), `ModelFolder.v` (results folder), `ModelDump.v` (dump) | GUI signals beyond the plotted points |
| `utils/BestDump.py` | `ModelDump.v`, `ModelRun.v` | `other_dumps` |
| `utils/FilesUpdateFom.py` | `ModelFiles.v`, `ModelTxt.v` (characters of the txt variant) | |
| `utils/dynamicimport.py`, `utils/map_dictionary.json` | `ModelImport.v` | |
| `timeevolution/*` | `ModelQuantum.v` | single precision of JAX |
| `tools/partial_trace.py` | `ModelTrace.v` | |
| `Examples/LindbladProblem.py`, `Examples/IsingModelProblem_AD_Lindblad.py` | `ModelLindblad.v`, `ModelSampling.v` | the solver `odeint`, `fidelity_funct` (unused) |
| `optimalcontrolproblems/*`, `utils/jax_utils.py` | `ModelQuantum.v`, `ModelIsing.v`, `ModelTwoFields.v`, `ModelRosen.v` | lists of past values kept for plotting |
| `tools/logger.py` | `ModelLogger.v` | formats and texts of the messages |
| `utils/inputoutput.py` | `ModelJson.v` | json text syntax (values instead of characters), `print` |
| `tools/fidelities.py`, `tools/operations.py` | `ModelFidelity.v` | rounding, tracing by JAX; NaN for roots of negative eigenvalues |
| `noiseprocesses/*` | `ModelNoise.v` | distribution of the random numbers beyond their moments |
| `tools/pulsetools.py` | `ModelResample.v` (`resample_pulse`, with `interp1d` of scipy) | `plot_pulse` |
| the `__init__` of `Optimizer.py`, of the algorithms, search methods, stopping criteria, `Controls.py`, pulses, bases, parameters, times | `ModelConfig.v` | values of undocumented kinds, classes of the user, shared sub-dictionaries (`Outside`) |
| `optimizationalgorithms/GRAPEAlgorithm.py` 94-95, 135-184: size of the gradient, controls, slice length | `ModelGrape.v` | the propagators of the user (entries of the gradient: `ModelQuantum.v`) |
Everywhere: rounding inside numpy reductions (`np.sum`, `dot`) is modelled as left-to-right summation in the chosen number system; printing, matplotlib and log texts are left out.

## 3. Properties and how they are proved

One entry per property: what is modelled, how it is proved, the theorems. The full statements are in `properties.jsonl`; findings are in the notes of `MANIFEST.json`.

* **C01 Delivered pulse samples respect the amplitude limits** (proved). `ModelPulse.v`: pipeline as a fold over the recognised options in the result monad; by cases on the last option, any number system with order laws. `PropControls.v`: C01_samples_within_limits, C01_cut_exactly, C01_limit_not_last_refuted.
* **C02 Shrinking keeps the shape and respects the limits** (proved). `ModelPulse.v`: `_shrink_pulse_2` on reals; bounds, affinity and identity by case analysis; rounding witness on binary64. `PropControls.v`: C02_shrink, C02_rounding_refuted.
* **C03 The shaping pipeline applies exactly the recognised options in the given order** (proved). `ModelPulse.v`: pipeline against an independent fold over the option list, by induction on the options. `PropControls.v`: C03_pipeline, C03_default, C03_unknown_names.
* **C04 Pulse boundaries are pinned where the scaling function vanishes** (proved). `ModelPulse.v`: exact arithmetic, pointwise through every option. `PropControls.v`: C04_boundaries_pinned.
* **C05 Time grid of a pulse** (proved). `ModelPulse.v`: numpy's `linspace` as implemented; end points for every number system, spacing in exact arithmetic. `PropControls.v`: C05_time_grid, C05_grid_end.
* **C06 The base pulse is the sum of all accepted updates** (proved). `ModelPulse.v`, `ModelControls.v`: induction on the list of accepted updates. `PropControls.v`: C06_base_is_sum, C06_overwrite_keeps_last.
* **C07 Scalar parameters respect their limits** (proved). `ModelControls.v`: clamping, order laws only. `PropControls.v`: C07_parameter_limits, C07_inside_unchanged.
* **C08 Optimised durations respect their limits** (proved). `ModelControls.v`: clamping, order laws only. `PropControls.v`: C08_duration_limits, C08_initial_duration, C08_equal_limits_raise.
* **C09 Control indices partition the optimisation vector** (proved). `ModelControls.v`: index assignment by recursion over the configuration; partition by induction. `PropControls.v`: C09_index_partition, C09_no_parameters_raise, C09_changing_number_refuted.
* **C10 Start point and search widths are placed at the right entries** (proved). `ModelControls.v`: placement against the specification of the index sets, induction over the configuration. `PropControls.v`: C10_mean_value, C10_sigma_variation, C10_optimised_time_overwrites_entry_0.
* **C11 Each control depends only on its own entries** (proved). `ModelControls.v`: relational theorem: two vectors that agree on the own entries. `PropControls.v`: C11_pulse_depends_on_own_entries, C11_parameter_depends_on_own_entry, C11_optimised_time_refuted.
* **C12 Best controls survive the end of a super-iteration** (proved). `ModelControls.v`, `ModelBases.v`: from C06 and the zero-update lemma. `PropControls.v`: C12_best_controls_survive, C12_shipped_bases, C12_overwrite_refuted, C12_rounding_refuted.
* **C13 Random super-parameters are one per bin** (proved). `ModelBases.v`: bins in exact arithmetic, any random stream. `PropControls.v`: C13_one_per_bin, C13_increasing.
* **C14 Shipped bases give a zero update at the offset vector and stay in the domain of their functions** (proved). `ModelBases.v`: zero update and domains per basis, exact arithmetic; elementary functions are oracles. `PropControls.v`: C14_zero_at_start, C14_walsh_zero, C14_linear, C14_chebyshev_domain, C14_sinc_no_zero_division.
* **C15 Start simplex** (proved). `ModelLinalg.v`: Gram-Schmidt by induction over columns with an orthonormality invariant; non-degeneracy from it. `PropSimplex.v`: C15_gram_schmidt, C15_simplex, C15_every_draw, C15_within_widths, C15_not_flat, C15_zero_width_refuted, C15_shape.
* **C16 Total evaluation budget** (proved). `ModelRun.v`: counter invariant of every primitive, lifted through the whole run. `PropRun.v`: C16_total_evaluation_budget, C16_gradient_calls_refuted.
* **C17 No evaluation after the optimisation has been stopped** (proved). `ModelRun.v`: invariant `stopped`, lifted through the whole run. `PropRun.v`: C17_stopped_run_makes_no_call, C17_flag_cleared_for_good, C17_from_any_state, C17_gradient_calls_refuted.
* **C18 Reaching the goal ends the evaluations** (proved). `ModelRun.v`: as C17, from the moment an answer attains the goal. `PropRun.v`: C18_goal_not_reached_before, C18_goal_is_last, C18_any_configuration.
* **C19 Total time limit** (proved). `ModelRun.v`: invariant on the elapsed-time events. `PropRun.v`: C19_calls_in_time, C19_large_limit_ignored.
* **C20 The reported optimum is the best evaluation** (proved). `ModelRun.v`: best-value invariant over the history. `PropRun.v`: C20_best_value, C20_reported_value, C20_reported_once, C20_best_vector.
* **C21 The best-controls file holds the best evaluation** (proved). `ModelRun.v`: best-file invariant over the history. `PropRun.v`: C21_saved_exactly_improvements, C21_saved_content, C21_file_on_disk.
* **C22 Failed evaluations** (proved). `ModelRun.v`: case analysis of an answered call and history invariant. `PropRun.v`: C22_failure_stops_the_run, C22_no_value_raises, C22_failed_value_reported_refuted.
* **C23 Evaluation log is faithful** (proved). `ModelRun.v`: history invariant on logged entries. `PropRun.v`: C23_log, C23_consecutive_numbers, C23_counter.
* **C24 Maximising f is minimising -f** (proved). `ModelRun.v`: simulation of the two runs state by state. `PropDual.v`: C24_direction.
* **C25 Seeded runs are reproducible** (proved). `ModelRun.v`: simulation of two runs with the same seed and different global streams. `PropDual.v`: C25_seeded_reproducible, C25_gradient_reproducible, C25_nelder_mead_without_randn, C25_seeded_without_rand, C25_direct_search_refuted, C25_unseeded_dcrab_refuted, C25_cmaes_refuted.
* **C26 Number of super-iterations and stored parameters** (proved). `ModelRun.v`: super-iteration loop invariant. `PropSuper.v`: C26_super_iterations.
* **C27 A super-iteration without improvement changes nothing** (proved). `ModelRun.v`: super-iteration loop invariant, zero update. `PropSuper.v`: C27_no_improvement, C27_overwrite_refuted.
* **C28 get_best_controls after dCRAB** (proved). `ModelRun.v`: invariant connecting base pulse, best vector and history, exact arithmetic. `PropSuper.v`: C28_best_controls, C28_overwrite_refuted.
* **C29 Results of the direct search algorithm** (proved). `ModelRun.v`: history invariant for DirectSearch. `PropDirect.v`: C29_last_parameters, C29_last_controls, C29_not_best_refuted, C29_interrupted_refuted.
* **C30 get_best_bare_controls** (proved). `ModelControls.v`: from C14. `PropControls.v`: C30_bare_controls_are_zero.
* **C31 Re-evaluation of candidates** (proved). `ModelRun.v`: loop over re-evaluation steps, case analysis of one call. `PropReeval.v`: C31_session, C31_run_ready.
* **C32 A re-evaluated record is strictly better on average** (proved). `ModelRun.v`: as C31. `PropReeval.v`: C32_better_on_average, C32_small_threshold_refuted.
* **C33 Logged averages during re-evaluation** (proved). `ModelRun.v`: invariant of the averages. `PropReeval.v`: C33_logged, C33_formula, C33_not_the_mean, C33_mean_refuted.
* **C34 Drift compensation** (proved). `ModelSearch.v`, `ModelRun.v`: case analysis of the drift step, any clock and answers. `PropReeval.v`: C34_after_super_iteration, C34_simplex_shift, C34_simplex_values, C34_stopped_refuted, C34_no_average_refuted.
* **C35 Ctrl-C** (proved). `ModelRun.v`: interference oracle at every poll, invariant `stopped`. `PropGradient.v`: C35_direct, C35_direct_no_exception, C35_gradient, C35_reason_refuted, C35_before_first_evaluation_refuted.
* **C36 Gradient algorithms finish only if something was recorded** (proved). `ModelRun.v`: from the best-vector invariant of the gradient loops. `PropGradient.v`: C36_normal_end, C36_nothing_recorded, C36_recorded.
* **C37 AD super-iterations** (proved). `ModelRun.v`: loop over super-iterations. `PropGradient.v`: C37_added_again, C37_best_controls_refuted.
* **C38 Nelder-Mead keeps a well-formed sorted simplex** (proved). `ModelSearch.v`: Nelder-Mead loop as fuelled recursion, invariant by induction on fuel. `PropSearch.v`: C38_shape, C38_sorted, C38_sorted_drift, C38_values, C38_stale_refuted.
* **C39 Nelder-Mead result is the best value seen** (proved). `ModelSearch.v`: invariant over the values seen. `PropSearch.v`: C39_best_seen, C39_run, C39_never_worse, C39_discarded_refuted, C39_nan_refuted.
* **C40 Nelder-Mead terminates and its overshoot is bounded** (proved). `ModelSearch.v`: counting measure on evaluations; no hypothesis on fuel left. `PropSearch.v`: C40_terminates, C40_calls, C40_exceeded_refuted.
* **C41 Nelder-Mead default simplex** (proved). `ModelSearch.v`: construction of the default simplex. `PropSearch.v`: C41_default, C41_start_missed.
* **C42 CMA-ES** (proved). `ModelSearch.v`, `ModelCma.v`: loop by induction with arbitrary sampling; weights, rates, mean and covariance on reals. `PropCma.v`: C42_generations, C42_calls, C42_terminates, C42_weights, C42_rates, C42_mean, C42_covariance, C42_definite, C42_not_best_refuted, C42_interrupted_refuted.
* **C43 Stopping criteria decide exactly as documented** (proved). `ModelSearch.v`: case analysis against the documented criteria. `PropStop.v`: C43_nm, C43_cma, C43_kept, C43_deviation, C43_ctrl_c_lost_refuted.
* **C44 Reported termination reason** (proved). `ModelSearch.v`, `ModelRun.v`: invariant that the reason is written once, and by which criterion. `PropStop.v`: C44_first, C44_first_cma, C44_search, C44_run, C44_results_file, C44_global_absent, C44_wrong_refuted.
* **C45 Change-based stopping** (proved). `ModelSearch.v`: closed form of the least-squares slope on reals. `PropStop.v`: C45_decides, C45_formula, C45_track, C45_track_direct, C45_window, C45_shift, C45_sign, C45_constant, C45_progression.
* **C46 Saved file contains every control** (proved). `ModelDump.v`: dictionary as association list, induction on the lists of controls. `PropDump.v`: C46_saved, C46_names, C46_kept, C46_reserved, C46_renamed_refuted, C46_reserved_refuted, C46_file_refuted.
* **C47 Results of earlier runs are never overwritten** (proved). `ModelFolder.v`: file system as a map from paths, any number of processes, invariant over every interleaving. `PropFolder.v`: C47_preserved, C47_new_folder, C47_one_owner, C47_untouched, C47_refused, C47_accepted, C47_race_refuted.
* **C48 File-based figure of merit is never stale** (proved). `ModelFiles.v`: transition system of the call and an arbitrary other program; invariant over every interleaving, variant for termination. `PropFiles.v`: C48_fresh, C48_ends, C48_sleeps, C48_outcome, C48_times_out, C48_controls, C48_used, C48_late_refuted, C48_torn_refuted, C48_vanished_refuted, C48_last_sleep_refuted, C48_seconds_refuted, C48_extension_refuted.
* **C49 Dynamic import resolution** (proved). `ModelImport.v`: decision table against an independent list of known names. `PropImport.v`: C49_attribute, C49_chosen, C49_nothing, C49_unique, C49_escapes, C49_created, C49_given, C49_type_error, C49_search_method, C49_dsm_name_refuted, C49_type_missing_refuted, C49_overridden_refuted.
* **C50 Piecewise time evolution** (proved). `ModelQuantum.v`: matrices over a numerically closed field, induction on the slices. `PropQuantum.v`: C50_final, C50_missing, C50_store, C50_store_missing, C50_product, C50_unitary, C50_two_parts, C50_AD, C50_AD_missing, C50_AD_store_input, C50_AD_store_refuted.
* **C51 GRAPE forward and backward propagation agree** (proved). `ModelQuantum.v`: induction on the slices; gradient formula. `PropQuantum.v`: C51_gradient, C51_overlap, C51_first_order, C51_commuting, C51_missing, C51_other_types, C51_real_states_refuted.
* **C52 Partial trace** (proved). `ModelTrace.v`: arrays as functions of index lists, permutations of axes, any additive group. `PropTrace.v`: C52_reduced, C52_trace, C52_entries, C52_repeated, C52_all, C52_outside, C52_size, C52_mask, C52_order.
* **C53 Liouvillian helper** (proved). `ModelQuantum.v`: Kronecker products entry by entry. `PropQuantum.v`: C53_sup_op, C53_commutator, C53_vec, C53_hermitian_refuted.
* **C54 Ising model figure of merit and propagator cache** (proved). `ModelQuantum.v`: induction on the call history. `PropQuantum.v`: C54_history, C54_grape, C54_plain, C54_stale, C54_mixture, C54_population, C54_real_target, C54_stale_refuted, C54_complex_target_refuted.
* **C55 One-qubit fidelity** (proved). `ModelQuantum.v`: Cauchy-Schwarz over the closed field. `PropQuantum.v`: C55_range, C55_one, C55_scale, C55_not_normalised_refuted, C55_merit, C55_merit_range, C55_parameter_stays, C55_stateless_refuted.
* **C56 Delivering and updating never raise on usable configurations** (proved). `ModelControls.v`, `ModelBases.v`: totality of every delivery step. `PropControls.v`: C56_delivery_total, C56_update_total, C56_shipped_bases, C56_scalar_guess_refuted.
* **C57 Sigmoid step times stay inside the pulse** (proved). `ModelBases.v`: exact arithmetic. `PropControls.v`: C57_step_times_inside.
* **C58 Hamiltonians and states of the Ising problem** (proved). `ModelIsing.v`: entry by entry from the binary digits of the indices. `PropIsing.v`: C58_basis, C58_drift, C58_drift_two, C58_control, C58_states, C58_one, C58_two_spins_refuted.
* **C59 The two Ising problems have figures of merit of opposite sign** (proved). `ModelIsing.v`, `ModelQuantum.v`: from C50 and C58. `PropIsing.v`: C59_problem, C59_numpy, C59_jax, C59_sign, C59_range.
* **C60 Every optimisation comes to an end** (proved). `ModelRun.v`, `ModelSearch.v`: measure on the total budget lifted through the run; independence from `w_fuel` and `w_stuck` beyond the bound. `PropEnds.v`: C60_ends, C60_search_ends.
* **C61 CMA-ES draws its candidates from the adapted covariance** (proved). `ModelCma.v`: invariant over generations; the contract of `eigh` (orthonormal eigenvectors) is a hypothesis of the theorem. `PropCmaLaw.v`: C61_law, C61_current, C61_moved, C61_stale_refuted.
* **C62 What is left of the best controls when the process is killed** (proved). `ModelDump.v`, `ModelRun.v`: the states of the file during a dump are listed (opened empty, partial, complete); prefix induction over the trace of the run. Which values a format can store is a parameter. `PropCrash.v`: C62_torn, C62_whole, C62_always_readable_refuted, C62_unstorable_refuted, C62_moment.
* **C63 Which messages reach which log** (proved). `ModelLogger.v`: logger as a list of handlers, induction over the history of creations and messages. Text formatting is left out. `PropLogger.v`: C63_file, C63_console, C63_own_log_refuted, C63_debug_refuted.
* **C64 What a json file gives back** (proved). `ModelJson.v`: nested values, induction on the value; the file states of a dump; text syntax abstracted to json values. `PropJson.v`: C64_round_trip, C64_native, C64_error, C64_read, C64_function_refuted, C64_interrupted_refuted, C64_ambiguous_refuted.
* **C65 Executing an optimiser again** (proved). `ModelSession.v`: run invariants lifted over any list of executions and resumptions. `PropSession.v`: C65_budget, C65_stopped, C65_best, C65_reported, C65_best_controls, C65_grape_refuted, C65_time_refuted.
* **C66 What the fidelity helpers compute** (proved). `ModelFidelity.v`, `ModelQuantum.v`: spectral theorem for Hermitian matrices, uniqueness of positive roots, polar decomposition, comparison of characteristic polynomials. `eigvals`, `eigh`, `sqrtm`, `inv`, `expm` are oracles with the property they are meant to have, shown to exist in every dimension; numbers are exact. `PropFidelity.v`: C66_defined, C66_symmetric, C66_range, C66_pure, C66_sqrtm, C66_fidelity_AD, C66_program, C66_not_diff, C66_state_to_dm, C66_displace, C66_not_diff_refuted, C66_ising.
* **C67 Ornstein-Uhlenbeck noise** (proved). `ModelNoise.v`: closed form of the recursion by induction, then linearity of the expectation; the expectation is any linear positive functional with E 1 = 1, the random numbers any family with the moments of white noise. Numbers are exact except for the counterexample, which is in binary64. `PropNoise.v`: C67_realization, C67_short, C67_ensemble, C67_moments, C67_stationary, C67_floor_refuted.
* **C68 Resampling of pulses** (proved). `ModelResample.v`: induction over the index of the interval; scipy's interp1d for kind nearest is modelled line by line for increasing times. `PropResample.v`: C68_nearest, C68_own_axis, C68_outside, C68_limits, C68_round_trip, C68_empty.
* **C69 Rosenbrock problem** (proved). `ModelRosen.v`: induction over the parameters; integrals by antiderivatives (Coquelicot). Numbers are exact; scipy's rosen is modelled. `PropRosen.v`: C69_function, C69_minimum, C69_one_parameter_refuted, C69_quiet, C69_noise, C69_moments, C69_std_refuted, C69_below_minimum_refuted, C69_construct.
* **C70 One qubit with two fields** (proved). `ModelTwoFields.v`, `ModelQuantum.v`: induction over the samples, 2x2 matrix algebra; exact complex numbers, `expm`, `cos`, `sin` are oracles. `PropTwoFields.v`: C70_hamiltonian, C70_one_field, C70_merit, C70_lengths, C70_missing, C70_range, C70_frame, C70_noisy_zero_refuted.
* **C71 What can be read from the text file with the controls** (proved). `ModelTxt.v`: characters of the file; digits read back by Horner's rule, rounding of binary64 numbers through their mantissa and exponent. That `%f` is correctly rounded is trusted. `PropTxt.v`: C71_word, C71_layout, C71_exact, C71_separates, C71_small_refuted, C71_grid_refuted, C71_dropped.
* **C72 A whole CMA-ES search follows its adaptation** (proved). `ModelCmaRun.v`, `ModelCma.v`, `ModelSearch.v`: the oracle for candidates of the run model is replaced by the adaptation of ModelCma; invariant of the loop (candidate number j is made from the evaluations before it and the next normal numbers), then induction over the candidates of two searches. Exact real arithmetic; eigh and argsort are oracles with the stated laws. `PropCmaRun.v`: C72_run, C72_own, C72_law, C72_moved, C72_ranked, C72_units, C72_ends.
* **C73 Dissipative example problems: generator, conserved quantities, figures of merit and sampling** (proved). `ModelLindblad.v`, `ModelSampling.v`: 2x2 and 4x4 matrix algebra, left eigenvectors carried through the slices by induction; products over the spins as in C58; floor over the real numbers. Exact arithmetic; `expm` is an oracle with the stated laws, the differential equation solver is not modelled: what is proved is about the right hand side it is given. `PropLindblad.v`, `PropSampling.v`: C73_vectors, C73_generator, C73_slices, C73_trace, C73_closed, C73_undriven, C73_amplified, C73_merit, C73_physical_refuted, C73_right_side, C73_master, C73_master_refuted, C73_operators, C73_dephasing, C73_chain, C73_chain_merit, C73_each_spin_refuted, C73_two_spins, C73_sample, C73_last_sample, C73_last_unused.
* **C74 What curves the shipped bases draw** (proved). `ModelBases.v`: per sample: the folds of the model over numpy arrays are rewritten to the sums of SpecCurves.v (a small file with erf as an integral, harmonics, cardinal series, Chebyshev polynomials and smooth steps); the bounds on the error function (limits, tail, slope) are proved from the Gaussian integral, itself proved with G^2 + H = pi/4; the confinement of times and widths is proved from the model of confine_taus and confine_sigmas. `PropCurves.v`: C74_fourier, C74_sinc, C74_sinc_nodes, C74_chebyshev, C74_steps, C74_edges, C74_steps_positive, C74_default_edges_refuted, C74_width_refuted, C74_piecewise, C74_walsh_is_fourier.
* **C75 An optimisation dictionary means what its entries say, and nothing else counts** (proved). `ModelConfig.v`, `SpecConfig.v`: the constructors read the dictionary entry by entry and write defaults into it; each reader is proved equivalent to its part of `says` (SpecConfig.v: paths of keys, kinds of values, defaults), whatever the entries of the other readers; the second construction by frame lemmas (what a reader writes is what it would read); the json file by induction over paths, using C64. Values of undocumented kinds and classes of the user are `Outside`. `PropConfig.v`: C75_constructed, C75_determined, C75_folder, C75_again, C75_file, C75_mandatory, C75_documented, C75_path_mode, C75_runs, C75_default_names_refuted, C75_default_values_refuted, C75_comment_refuted, C75_bins_refuted, C75_offset_refuted.
* **C76 What the entries of the dictionary promise, the whole run keeps** (proved). `ModelConfig.v`, `ModelRun.v`, `ModelControls.v`: invariant of the whole execution (ProofWhole.v): the controls object is reachable from its construction, every event that gives controls out and the controls sent last come from it; carried through every operation of the run by the simulation framework, then combined with C75 (what the entries are) and C01, C02, C05, C07, C08, C16, C18-C20. `PropWhole.v`: C76_from_controls, C76_counts, C76_direct_search_with_pulses, C76_amplitudes, C76_parameters, C76_goal, C76_best, C76_total_time, C76_budget, C76_amplitudes_exact, C76_time_grids, C76_limit_not_last_refuted, C76_shrink_rounding_refuted.
* **C77 Automatic differentiation hands out the same controls, padded with zeros** (proved). `ModelJax.v`, `ModelControls.v`, `ModelIsing.v`: the loop that writes the rows is shown to refine the plain delivery: after each pulse the written rows are the samples followed by zeros (induction over the pulses, ProofJax.v); amplitudes from C01, existence from C56 and C09, runs from C76; the Ising consequence from the model of C58 (expm 0 = 1 is the only thing asked of expm). `PropJax.v`, `PropJaxIsing.v`: C77_same_controls, C77_arrays_exist, C77_total, C77_equal_bins, C77_shorter_pulse, C77_amplitudes, C77_optimised_duration, C77_best_controls, C77_run, C77_padding_refuted, C77_ising_stands_still, C77_ising_zero.
* **C78 In binary64 the time grid of a pulse starts at 0, ends exactly at the duration, is strictly increasing and has every point within a relative error of 2^-51** (proved). `Py.linspace0.v`, `ModelPulse.v`: Flocq: the step is the rounded quotient with relative error at most 2^-53 (normal range), each point a rounded product; strict monotonicity from j(1+u) < (j+1)(1-u) and (d-1)(1+u)^2 < d for d <= 2^51; no overflow because all points stay below the duration; lifted to the controls by the invariants of C05 and to runs by C76. `PropGrid64.v`: C78_points, C78_no_duration, C78_delivered, C78_fixed_duration, C78_run, C78_tiny_duration_refuted.
* **C79 In binary64 an optimised duration can leave its limits, by at most 2^-50 of their magnitude: with the lower limit 0 it can become negative** (proved). `ModelControls.get_time.v`: forward error analysis of the clipped variable and of the way back (five roundings, subnormal quotients included), then monotonicity of rounding; lifted to runs by C76; the witness of the refutation is a run from a dictionary, evaluated in binary64. `PropDuration64.v`: C79_near_limits, C79_run, C79_negative_duration_refuted.
* **C80 Shrinking in binary64 leaves the limits by a part of the greatest sample, not of the limits** (proved). `ModelPulse shrink_list over F64.v`, `ModelControls.v`, `ModelConfig.v`, `ModelRun (SpecGrid64.v`, `ProofShrink64).v`: the two passes as rounded real functions: monotone, the anchor sample exactly fixed, the other end near its limit up to 16 u A + 2 tiny by the error of each rounding (Flocq); the second pass is the mirror image of the first; zero width gives the factor 1; then lifted through C02's description of the delivered pulse without its last limit and C76 to runs; the overshoot and the NaN by a run evaluated in the kernel. `PropShrink64.v`: C80_near_limits, C80_run, C80_far_above_refuted, C80_overflow_refuted.
* **C81 GRAPE: the gradient given to L-BFGS-B next to the vector of control parameters that it varies** (proved). `ModelGrape.v`, `ModelControls.v`, `ModelBases.v`, `ModelConfig.v`: lengths from the index partition of C09 and the length of the mapped list; the dictionary version from what a constructed optimiser says of its entries (C75); the slice length from the equally spaced grid of C05; samples from the shaping pipeline of C03 with the update of PiecewiseBasis (the first entries of the vector); derivatives by showing that the cut sample is linear near the vector; the figure of merit by the chain rule; counterexamples by evaluation in binary64 and by the sample theorem over the reals. `PropGrapeVector.v`: C81_entries, C81_values, C81_agree, C81_dictionary, C81_slice_time, C81_sample, C81_derivative, C81_merit, C81_beyond, C81_scaling_refuted, C81_mismatch_refuted.
* **C82 GRAPE's gradient is the derivative of the overlap up to an error of the order of the squared slice length, exact when drift and control commute** (proved). `ModelQuantum: pw_evolution.v`, `get_gradient.v`, `Ising (SpecGrapeExact).v`: Coq's real numbers as a mathcomp real closed field, so the complex numbers are a numerically closed field of the model; matrix exponential as the solution of V' = A V; the exact change of the overlap is the integral over the slice of the entry with a control moved by the flow (product rule), the moved control differs from the control by at most s |[K,B]| (growth bound in the Frobenius norm, Cauchy-Schwarz); the derivative is the mean of that entry over the slice; existence of the exponential by the spectral theorem, uniqueness by differentiating V^dagger W; density matrices have norm at most 1; half turn by explicit rotation matrices. `PropGrapeExact.v`: C82_real, C82_error, C82_derivative, C82_states, C82_commuting, C82_direction, C82_ising, C82_refuted.
* **C83 The piecewise integrator solves the Schroedinger equation, and how far a sampled pulse is from the continuous one** (proved). `ModelQuantum: pw_final_evolution.v`, `time_evolution.v`, `Ising (SpecSchroedinger).v`: the flow of a constant Hamiltonian from C82 gives existence and, by differentiating the product of one solution with the adjoint of the other, uniqueness slice by slice; two solutions stay apart by at most the integral of the distance of their Hamiltonians (growth bound with unitary invariance of the Frobenius norm), summed over the slices by induction; sample i lies in slice i of length T/n, so the Lipschitz bound applies on each slice; the one-qubit problem as n-1 such slices and one more; the half turn by explicit rotations around x. `PropSchroedinger.v`: C83_solution, C83_amplitudes, C83_refine, C83_converges, C83_ising, C83_one_qubit_time, C83_one_qubit, C83_duration_refuted.
* **C84 A direct search uses the figure of merit only through comparisons** (proved). `ModelSearch.v`, `ModelRun.v`, `ModelCmaRun.v`: relation between the two runs: the second state is the first with internal values, log and events put through f; every function of the run keeps it (induction over rows, rounds, generations and super-iterations), comparisons are equal because all values in the simplex, in the state and in the histories stay in the set on which f is increasing. `C84_fatol_refuted` computes two runs that differ once f_atol is active.. `PropOrder.v`: C84_order, C84_sorting, C84_cma, C84_spread_off, C84_spread_off_real, C84_fatol_refuted.
* **C85 For the Ising problem, the slope of the figure of merit along a control parameter is GRAPE's entry times the scaling function, up to the square of the slice length, inside the limits; beyond them it is zero whatever GRAPE says** (proved). `ModelQuantum.v`, `ModelControls.v`, `ModelBases (SpecGrapeVector.v`, `SpecGrapeExact).v`: C81 (a control parameter moves one sample of the pulse) and C82 (derivative of the figure of merit along one amplitude) composed by the chain rule; the delivered grid does not depend on the vector; the answers of the problem are those of the modelled object, not of a formula. `PropGrapeIsing.v`: C85_grid, C85_slope, C85_exact, C85_descent.
* **C86 Nelder-Mead does not depend on the coordinates: a search in the image of an affine map is the image of the search, except for xatol** (proved). `ModelSearch.v`, `ModelLinalg (SpecCoords).v`: two computations with equal effects and related results (`alike`); every step of the search is a point on a line through two vertices or a mean of vertices, which an affine map keeps (mean by induction over the rows); induction over rows, shrink steps and iterations. `C86_xatol_refuted` computes two runs in rationals.. `PropCoords.v`: C86_coordinates, C86_units_affine, C86_linear_affine, C86_xatol_off, C86_shift, C86_start, C86_search, C86_xatol_refuted.
* **C87 Nelder-Mead searches exactly the plane of its start simplex; adaptive coefficients with one parameter are the exception** (proved). `ModelSearch.v`, `ModelLinalg.v`: flats are sets closed under the points of lines; reflection, expansion, contractions and shrink are such points of the mean of the others and a vertex (as in C86), and the mean of points of a flat is in it, so the search with two functions that agree on the flat is the same computation step by step; conversely a vertex replaced with a coefficient different from zero can be recovered, so an equation of the new vertices is one of the old ones, by induction over the loop heads; start simplex from the orthonormal displacements of C15 (a square matrix with orthonormal columns has orthonormal rows); the exception by evaluation in exact rationals; whole runs: the run with a figure of merit that fails away from the start value of the entry is the same run. `PropFlat.v`, `PropFlatRun.v`: C87_unseen, C87_equation_flat, C87_entry_flat, C87_equations, C87_full, C87_zero_width, C87_adaptive_refuted, C87_run.
* **C88 CMA-ES needs a width different from zero for every control parameter: otherwise all candidates after the first generation are infinite or NaN** (proved). `ModelCma64.v`: binary64 arithmetic of Flocq: a sum, product or quotient with an infinite or NaN operand is infinite or NaN, a norm with such an entry is +infinity or NaN (squares and their sums have no sign); invariant over generations: the evolution path has such an entry and the step size is +infinity or NaN; the entry comes from 1/0 in invsqrtC; whole searches (ModelCma64Run): every evaluated vector is the candidate made from the evaluations before it. `PropCma64.v`, `PropCma64Run.v`: C88_not_finite, C88_step_size, C88_run, C88_delivered, C88_first_generation.

The run theorems use one method: an invariant is shown for every primitive and lifted through the whole run (`ProofSim.v`, `ProofSimRun.v`: `keeps`, `ends`, `frame`, `closed`).
Nothing in the list of properties was found impossible to express. Where a natural stronger claim is false of the code, the `_refuted` theorem shows it.

## 4. Wrong programs
`seeded/LOG.jsonl` records edits of the model made in a scratch copy, one per line: the definition, the edit, the claim it breaks, the theorems that then fail, the theorems tightened because they did not fail.

## 5. Trusted base
* Coq's kernel (8.16.1) and the axioms below.
* The reading of the Python sources recorded in the comments of `Model*.v`, and the oracles of section 1.
* No axiom of our own, no `Admitted`, no kernel check switched off.

`Print Assumptions` lists, for the theorems in the manifest, one of these sets:

**Set 0** (310 theorems): no axioms ("Closed under the global context")

* `PropControls.v`: C01_cut_exactly, C01_samples_within_limits, C03_default, C03_pipeline, C03_unknown_names, C05_grid_end, C06_base_is_sum, C06_overwrite_keeps_last, C07_parameter_limits, C09_index_partition, C09_no_parameters_raise, C10_mean_value, C10_optimised_time_overwrites_entry_0, C10_sigma_variation, C11_parameter_depends_on_own_entry, C11_pulse_depends_on_own_entries, C56_delivery_total, C56_shipped_bases, C56_update_total
* `PropSimplex.v`: C15_shape
* `PropRun.v`: C16_total_evaluation_budget, C17_flag_cleared_for_good, C17_from_any_state, C17_stopped_run_makes_no_call, C18_any_configuration, C18_goal_is_last, C18_goal_not_reached_before, C19_calls_in_time, C19_large_limit_ignored, C20_best_value, C20_best_vector, C20_reported_once, C20_reported_value, C21_file_on_disk, C21_saved_content, C21_saved_exactly_improvements, C22_failure_stops_the_run, C22_no_value_raises, C23_consecutive_numbers, C23_counter, C23_log
* `PropDual.v`: C24_direction, C25_gradient_reproducible, C25_nelder_mead_without_randn, C25_seeded_reproducible, C25_seeded_without_rand
* `PropSuper.v`: C26_super_iterations, C27_no_improvement, C27_overwrite_refuted, C28_best_controls, C28_overwrite_refuted
* `PropDirect.v`: C29_interrupted_refuted, C29_last_controls, C29_last_parameters, C29_not_best_refuted
* `PropReeval.v`: C31_run_ready, C31_session, C32_small_threshold_refuted, C33_logged, C33_mean_refuted, C34_after_super_iteration, C34_no_average_refuted, C34_simplex_shift, C34_simplex_values, C34_stopped_refuted
* `PropGradient.v`: C35_direct, C35_direct_no_exception, C35_gradient, C36_normal_end, C36_nothing_recorded, C36_recorded, C37_added_again, C37_best_controls_refuted
* `PropSearch.v`: C38_shape, C38_sorted, C38_stale_refuted, C38_values, C39_best_seen, C39_discarded_refuted, C39_never_worse, C39_run, C40_calls, C40_exceeded_refuted, C40_terminates, C41_default
* `PropCma.v`: C42_calls, C42_generations, C42_interrupted_refuted, C42_not_best_refuted, C42_terminates
* `PropStop.v`: C43_cma, C43_ctrl_c_lost_refuted, C43_kept, C43_nm, C44_first, C44_first_cma, C44_global_absent, C44_results_file, C44_run, C44_search, C44_wrong_refuted, C45_formula, C45_track, C45_track_direct
* `PropDump.v`: C46_file_refuted, C46_kept, C46_names, C46_renamed_refuted, C46_reserved, C46_reserved_refuted, C46_saved
* `PropFolder.v`: C47_accepted, C47_new_folder, C47_one_owner, C47_preserved, C47_race_refuted, C47_refused, C47_untouched
* `PropFiles.v`: C48_controls, C48_ends, C48_extension_refuted, C48_fresh, C48_last_sleep_refuted, C48_late_refuted, C48_outcome, C48_seconds_refuted, C48_sleeps, C48_times_out, C48_torn_refuted, C48_used, C48_vanished_refuted
* `PropImport.v`: C49_attribute, C49_chosen, C49_created, C49_dsm_name_refuted, C49_escapes, C49_given, C49_nothing, C49_overridden_refuted, C49_search_method, C49_type_error, C49_type_missing_refuted, C49_unique
* `PropQuantum.v`: C50_AD, C50_AD_missing, C50_AD_store_input, C50_AD_store_refuted, C50_final, C50_missing, C50_product, C50_store, C50_store_missing, C50_two_parts, C50_unitary, C51_commuting, C51_first_order, C51_gradient, C51_missing, C51_other_types, C51_overlap, C51_real_states_refuted, C53_commutator, C53_hermitian_refuted, C53_sup_op, C53_vec, C54_complex_target_refuted, C54_grape, C54_history, C54_mixture, C54_plain, C54_population, C54_real_target, C54_stale, C54_stale_refuted, C55_merit, C55_merit_range, C55_not_normalised_refuted, C55_one, C55_parameter_stays, C55_range, C55_scale, C55_stateless_refuted
* `PropTrace.v`: C52_all, C52_entries, C52_mask, C52_order, C52_outside, C52_reduced, C52_repeated, C52_size, C52_trace
* `PropIsing.v`: C58_basis, C58_control, C58_drift, C58_drift_two, C58_one, C58_states, C58_two_spins_refuted, C59_jax, C59_numpy, C59_problem, C59_range, C59_sign
* `PropEnds.v`: C60_ends, C60_search_ends
* `PropCrash.v`: C62_always_readable_refuted, C62_moment, C62_torn, C62_unstorable_refuted, C62_whole
* `PropLogger.v`: C63_console, C63_debug_refuted, C63_file, C63_own_log_refuted
* `PropJson.v`: C64_ambiguous_refuted, C64_error, C64_function_refuted, C64_interrupted_refuted, C64_native, C64_read, C64_round_trip
* `PropSession.v`: C65_best, C65_best_controls, C65_budget, C65_grape_refuted, C65_reported, C65_stopped
* `PropFidelity.v`: C66_defined, C66_displace, C66_fidelity_AD, C66_ising, C66_not_diff, C66_not_diff_refuted, C66_program, C66_pure, C66_range, C66_sqrtm, C66_state_to_dm, C66_symmetric
* `PropTwoFields.v`: C70_frame, C70_hamiltonian, C70_lengths, C70_merit, C70_missing, C70_noisy_zero_refuted, C70_one_field, C70_range
* `PropCmaRun.v`: C72_own
* `PropLindblad.v`: C73_amplified, C73_chain, C73_chain_merit, C73_closed, C73_dephasing, C73_each_spin_refuted, C73_generator, C73_master, C73_master_refuted, C73_merit, C73_operators, C73_physical_refuted, C73_right_side, C73_slices, C73_trace, C73_two_spins, C73_undriven, C73_vectors
* `PropConfig.v`: C75_again, C75_bins_refuted, C75_comment_refuted, C75_constructed, C75_default_names_refuted, C75_default_values_refuted, C75_determined, C75_documented, C75_file, C75_folder, C75_mandatory, C75_offset_refuted, C75_path_mode, C75_runs
* `PropWhole.v`: C76_amplitudes, C76_best, C76_budget, C76_counts, C76_direct_search_with_pulses, C76_from_controls, C76_goal, C76_limit_not_last_refuted, C76_parameters, C76_total_time
* `PropJax.v`: C77_amplitudes, C77_arrays_exist, C77_best_controls, C77_equal_bins, C77_optimised_duration, C77_run, C77_same_controls, C77_shorter_pulse, C77_total
* `PropJaxIsing.v`: C77_ising_stands_still, C77_ising_zero
* `PropGrid64.v`: C78_fixed_duration
* `PropGrapeVector.v`: C81_agree, C81_dictionary, C81_entries, C81_values
* `PropOrder.v`: C84_order, C84_sorting
* `PropCoords.v`: C86_xatol_refuted
* `PropFlat.v`: C87_adaptive_refuted

**Set 1** (8 theorems): `ClassicalDedekindReals.sig_forall_dec`, `FunctionalExtensionality.functional_extensionality_dep`

* `PropStop.v`: C45_window
* `PropSampling.v`: C73_last_sample, C73_last_unused, C73_sample
* `PropCoords.v`: C86_linear_affine, C86_units_affine
* `PropFlat.v`: C87_entry_flat, C87_equation_flat

**Set 2** (70 theorems): `ClassicalDedekindReals.sig_forall_dec`, `ClassicalDedekindReals.sig_not_dec`, `FunctionalExtensionality.functional_extensionality_dep`

* `PropControls.v`: C02_shrink, C04_boundaries_pinned, C05_time_grid, C07_inside_unchanged, C08_duration_limits, C08_equal_limits_raise, C08_initial_duration, C12_best_controls_survive, C12_shipped_bases, C13_increasing, C13_one_per_bin, C14_chebyshev_domain, C14_linear, C14_sinc_no_zero_division, C14_walsh_zero, C14_zero_at_start, C30_bare_controls_are_zero, C57_step_times_inside
* `PropSimplex.v`: C15_every_draw, C15_gram_schmidt, C15_not_flat, C15_simplex, C15_within_widths, C15_zero_width_refuted
* `PropReeval.v`: C33_formula, C33_not_the_mean
* `PropSearch.v`: C38_sorted_drift, C41_start_missed
* `PropStop.v`: C43_deviation, C45_constant, C45_decides, C45_progression, C45_shift, C45_sign
* `PropNoise.v`: C67_realization, C67_short
* `PropResample.v`: C68_empty, C68_limits, C68_nearest, C68_outside, C68_own_axis, C68_round_trip
* `PropRosen.v`: C69_below_minimum_refuted, C69_construct, C69_function, C69_minimum, C69_noise, C69_one_parameter_refuted, C69_quiet
* `PropCurves.v`: C74_sinc_nodes
* `PropWhole.v`: C76_amplitudes_exact, C76_time_grids
* `PropGrapeVector.v`: C81_beyond, C81_derivative, C81_merit, C81_sample, C81_scaling_refuted, C81_slice_time
* `PropOrder.v`: C84_spread_off_real
* `PropGrapeIsing.v`: C85_grid
* `PropCoords.v`: C86_coordinates, C86_search, C86_shift, C86_start, C86_xatol_off
* `PropFlat.v`: C87_equations, C87_full, C87_unseen, C87_zero_width
* `PropFlatRun.v`: C87_run

**Set 3** (79 theorems): `ClassicalDedekindReals.sig_forall_dec`, `ClassicalDedekindReals.sig_not_dec`, `Classical_Prop.classic`, `FunctionalExtensionality.functional_extensionality_dep`

* `PropControls.v`: C01_limit_not_last_refuted, C02_rounding_refuted, C09_changing_number_refuted, C11_optimised_time_refuted, C12_overwrite_refuted, C12_rounding_refuted, C56_scalar_guess_refuted
* `PropRun.v`: C16_gradient_calls_refuted, C17_gradient_calls_refuted, C22_failed_value_reported_refuted
* `PropDual.v`: C25_cmaes_refuted, C25_direct_search_refuted, C25_unseeded_dcrab_refuted
* `PropReeval.v`: C32_better_on_average
* `PropGradient.v`: C35_before_first_evaluation_refuted, C35_reason_refuted
* `PropSearch.v`: C39_nan_refuted
* `PropCma.v`: C42_covariance, C42_definite, C42_mean, C42_rates, C42_weights
* `PropCmaLaw.v`: C61_current, C61_law, C61_moved, C61_stale_refuted
* `PropSession.v`: C65_time_refuted
* `PropNoise.v`: C67_ensemble, C67_floor_refuted, C67_moments, C67_stationary
* `PropRosen.v`: C69_moments, C69_std_refuted
* `PropTxt.v`: C71_dropped, C71_exact, C71_grid_refuted, C71_layout, C71_separates, C71_small_refuted, C71_word
* `PropCmaRun.v`: C72_ends, C72_law, C72_moved, C72_ranked, C72_run, C72_units
* `PropCurves.v`: C74_chebyshev, C74_default_edges_refuted, C74_edges, C74_fourier, C74_piecewise, C74_sinc, C74_steps, C74_steps_positive, C74_walsh_is_fourier, C74_width_refuted
* `PropWhole.v`: C76_shrink_rounding_refuted
* `PropJax.v`: C77_padding_refuted
* `PropGrid64.v`: C78_delivered, C78_no_duration, C78_points, C78_run, C78_tiny_duration_refuted
* `PropDuration64.v`: C79_near_limits, C79_negative_duration_refuted, C79_run
* `PropShrink64.v`: C80_far_above_refuted, C80_near_limits, C80_overflow_refuted, C80_run
* `PropGrapeVector.v`: C81_mismatch_refuted
* `PropOrder.v`: C84_cma, C84_fatol_refuted, C84_spread_off
* `PropCma64Run.v`: C88_delivered, C88_first_generation, C88_run
* `PropCma64.v`: C88_not_finite, C88_step_size

**Set 4** (1 theorems): `ClassicalDedekindReals.sig_forall_dec`, `ClassicalDedekindReals.sig_not_dec`, `Epsilon.epsilon_statement`, `FunctionalExtensionality.functional_extensionality_dep`

* `PropGrapeExact.v`: C82_real

**Set 5** (18 theorems): `ClassicalDedekindReals.sig_forall_dec`, `ClassicalDedekindReals.sig_not_dec`, `Classical_Prop.classic`, `Epsilon.epsilon_statement`, `FunctionalExtensionality.functional_extensionality_dep`

* `PropGrapeExact.v`: C82_commuting, C82_derivative, C82_direction, C82_error, C82_ising, C82_refuted, C82_states
* `PropSchroedinger.v`: C83_amplitudes, C83_converges, C83_duration_refuted, C83_ising, C83_one_qubit, C83_one_qubit_time, C83_refine, C83_solution
* `PropGrapeIsing.v`: C85_descent, C85_exact, C85_slope

