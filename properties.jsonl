{"id": "C01", "title": "Delivered pulse samples respect the amplitude limits", "statement": "With the default shaping options (or any shaping_options list whose last recognised entry is limit_pulse) and clipping, every sample of every pulse passed to get_FoM lies between the smaller and the larger of the configured lower_limit/upper_limit, unless that sample was NaN before limiting; a NaN is delivered as NaN. Samples that were already inside are delivered unchanged. If limit_pulse is not the last option the limits can be exceeded.", "quantifier": "every optimisation vector, initial guess, scaling function, accumulated base pulse, basis (including user supplied), limit pair in either order, bin number; every number including infinities and NaN", "why_tests_cant": "the set of vectors, guesses and histories is infinite and NaN/swapped-limit combinations multiply it", "anchors": ["src/quocslib/pulses/BasePulse.py: BasePulse.__init__, _get_build_pulse, limit_pulse, _get_limited_pulse, get_pulse"]}
{"id": "C02", "title": "Shrinking keeps the shape and respects the limits", "statement": "With shrink_ampl_lim the delivered pulse lies within the limits, is an increasing affine image of the unlimited pulse whenever that pulse is not entirely outside on one side, and is the unlimited pulse itself when it already lies within the limits. This is exact-arithmetic; in IEEE arithmetic the upper limit can be exceeded by rounding.", "quantifier": "every non-empty sample array and every limit pair", "why_tests_cant": "an interpolation over arbitrary arrays with several interacting branches; a finite set of pulses never covers the boundary cases", "anchors": ["src/quocslib/pulses/BasePulse.py: BasePulse._shrink_pulse_2, _get_limited_pulse"]}
{"id": "C03", "title": "The shaping pipeline applies exactly the recognised options in the given order", "statement": "The delivered pulse is the left-to-right composition, starting from the zero pulse, of the recognised shaping options; unrecognised names have no effect; the default list yields limit(scale*(g+base+update)) where g is the initial guess cut off at the amplitude limits.", "quantifier": "every list of option names (any length, repetitions, unknown names)", "why_tests_cant": "the number of option lists is unbounded", "anchors": ["src/quocslib/pulses/BasePulse.py: BasePulse.__init__, _get_build_pulse, add_base_pulse, add_new_update_pulse, add_initial_guess, scale_pulse, limit_pulse"]}
{"id": "C04", "title": "Pulse boundaries are pinned where the scaling function vanishes", "statement": "With the documented option order base, update, scale, guess, limit, at every sample where the scaling function is 0 the delivered sample equals the (limited) initial guess, whatever was optimised before.", "quantifier": "every optimisation vector, base pulse, finite history of super-iterations and every sample index", "why_tests_cant": "requires all histories and vectors", "anchors": ["src/quocslib/pulses/BasePulse.py: scale_pulse, add_initial_guess", "Documentation/Enforcing_Pulse_Boundaries_at_Beginning_and_End.md"]}
{"id": "C05", "title": "Time grid of a pulse", "statement": "The time grid handed to get_FoM has exactly bins_number points, begins at 0, ends exactly at the pulse duration (two or more bins), is equally spaced and non-decreasing for a non-negative duration; the pulse has the same number of samples.", "quantifier": "every bin number and duration", "why_tests_cant": "all sizes", "anchors": ["src/quocslib/pulses/BasePulse.py: _set_time_grid", "src/quocslib/Controls.py: _get_controls_lists"]}
{"id": "C06", "title": "The base pulse is the sum of all accepted updates", "statement": "After any number of super-iterations the base pulse is the sample-wise sum of the shaped updates accepted at each of them; with overwrite_base_pulse it is the last update only.", "quantifier": "every sequence of update vectors and times, any length", "why_tests_cant": "all histories", "anchors": ["src/quocslib/pulses/BasePulse.py: set_base_pulse", "src/quocslib/Controls.py: update_base_controls"]}
{"id": "C07", "title": "Scalar parameters respect their limits", "statement": "Every parameter value handed to get_FoM lies in [lower_limit, upper_limit] when lower_limit<=upper_limit and the proposed entry is not NaN, equals the proposed entry when that is inside, and is remembered as the current value. If the limits are given in the wrong order the upper_limit is always returned, and a NaN is returned as NaN.", "quantifier": "every proposed value, limit pair and earlier history of proposals", "why_tests_cant": "all numbers and histories", "anchors": ["src/quocslib/parameters/BaseParameter.py: set_parameter, get_parameter", "src/quocslib/Controls.py: _get_controls_lists"]}
{"id": "C08", "title": "Optimised durations respect their limits", "statement": "An optimised time starts at its initial value and, after any sequence of updates, lies between its lower and upper limit; a non-optimised time never changes. Equal limits raise ZeroDivisionError.", "quantifier": "every proposal sequence and limit pair with lower<upper and initial value inside", "why_tests_cant": "all histories", "anchors": ["src/quocslib/parameters/TimeParameter.py: TimeParameter.__init__, set_parameter, get_time, get_parameter"]}
{"id": "C09", "title": "Control indices partition the optimisation vector", "statement": "The entries of the optimisation vector assigned to the pulses and parameters are pairwise disjoint, in configuration order, and cover exactly 0..n-1 where n is the total number of control parameters, after construction and after any number of basis selections. A basis that changes its number of control parameters on selection, or a control with none, breaks this.", "quantifier": "every list of pulses and parameters and every number of super-iterations", "why_tests_cant": "all configuration sizes and histories", "anchors": ["src/quocslib/Controls.py: Controls.__init__, select_basis, _update_control_parameter_indexes, get_control_parameters_number", "src/quocslib/pulses/BasePulse.py: set_control_parameters_list"]}
{"id": "C10", "title": "Start point and search widths are placed at the right entries", "statement": "get_mean_value and get_sigma_variation return vectors of length n in which the block of every control holds exactly that control's offsets/current value and scale coefficients/amplitude variation. An optimised time overwrites entry 0, which belongs to the first control.", "quantifier": "every configuration", "why_tests_cant": "all configurations", "anchors": ["src/quocslib/Controls.py: get_mean_value, get_sigma_variation"]}
{"id": "C11", "title": "Each control depends only on its own entries", "statement": "Two optimisation vectors that agree on the entries of one control give the same pulse/parameter for that control. With an optimised time this fails, because the time reads entry 0.", "quantifier": "every pair of vectors and every configuration without optimised times", "why_tests_cant": "relational property over all vector pairs", "anchors": ["src/quocslib/Controls.py: _get_controls_lists, get_controls_lists"]}
{"id": "C12", "title": "Best controls survive the end of a super-iteration", "statement": "For a pulse whose update is zero at its offset vector (true of every shipped basis), with add_base_pulse and add_new_update_pulse next to each other in the option list (as in the default list), without overwrite_base_pulse and without optimised times, in exact arithmetic: after update_base_controls(x) and any re-selection of random basis functions, the controls at the new start point equal the controls that were delivered at x. With overwrite_base_pulse the previous accumulated base is lost; in floating point the equality holds only up to the re-association of the sum.", "quantifier": "every vector, base pulse, configuration and every basis re-selection", "why_tests_cant": "all histories, all vectors", "anchors": ["src/quocslib/Controls.py: update_base_controls, get_controls_lists, get_mean_value", "src/quocslib/optimizationalgorithms/dCRABAlgorithm.py: _update_base_pulses, run"]}
{"id": "C13", "title": "Random super-parameters are one per bin", "statement": "The uniform distribution returns k values, the i-th in [a+i(b-a)/k, a+(i+1)(b-a)/k); hence they are increasing and inside [a,b) when a<b.", "quantifier": "every k, every limit pair and every random draw in [0,1)", "why_tests_cant": "all sizes and draws", "anchors": ["src/quocslib/pulses/superparameter/Uniform.py: get_random_numbers"]}
{"id": "C14", "title": "Shipped bases give a zero update at the offset vector and stay in the domain of their functions", "statement": "Fourier, Sinc, Sigmoid (all variants), Chebyshev, Piecewise and Walsh pulses are identically zero for zero amplitudes whatever the random super-parameters; Fourier, Sinc, Sigmoid and Piecewise are linear in the amplitudes; the argument of arccos in Chebyshev is always in [-1,1] for grid times and Sinc never divides by zero.", "quantifier": "every amplitude vector, super-parameter vector, time grid", "why_tests_cant": "all vectors", "anchors": ["src/quocslib/pulses/basis/Fourier.py", "src/quocslib/pulses/basis/Sinc.py", "src/quocslib/pulses/basis/Sigmoid.py", "src/quocslib/pulses/basis/Chebyshev.py", "src/quocslib/pulses/basis/PiecewiseBasis.py", "src/quocslib/pulses/basis/Walsh.py"]}
{"id": "C15", "title": "Start simplex", "statement": "simplex_creation returns the start point and n further vertices whose displacements, divided by the widths, are orthonormal (rows of an orthogonal matrix obtained by Gram-Schmidt). So no vertex coordinate is further from the start point than the width of its parameter, and with non-zero widths the simplex is not flat. In exact arithmetic this holds for every floating-point draw (the condition on the first random number excludes only an irrational one); a zero width makes the simplex flat, and an empty parameter list raises IndexError.", "quantifier": "every dimension, start point, width vector and draw; Gram-Schmidt for every list of linearly independent vectors", "why_tests_cant": "all dimensions and draws", "anchors": ["src/quocslib/tools/linearalgebra.py: simplex_creation, gram_schmidt"]}
{"id": "C16", "title": "Total evaluation budget", "statement": "In every optimisation run (dCRAB, direct search, GRAPE, AD; Nelder-Mead or CMA-ES; with re-evaluations, drift compensation, user stops, exceptions) get_FoM is called for an evaluation at most max_eval_total times. For dCRAB, direct search and GRAPE these are all calls of get_FoM; the AD algorithm calls it additionally for every gradient (through jax), outside the budget.", "quantifier": "every configuration, figure of merit, clock, random stream and interruption schedule", "why_tests_cant": "all executions", "anchors": ["src/quocslib/optimizationalgorithms/OptimizationAlgorithm.py: _routine_call", "src/quocslib/Optimizer.py: execute"]}
{"id": "C17", "title": "No evaluation after the optimisation has been stopped", "statement": "Once the running flag has been cleared (user, GUI, Ctrl-C in dCRAB/direct search, non-zero status code, evaluation budget, goal or total time) get_FoM is never called again for an evaluation in that run and the flag is never set again, with one exception: if another thread or signal clears the flag between the last check and the call, that one evaluation still takes place. Gradients of the AD algorithm are still computed (calling get_FoM) after the stop.", "quantifier": "every execution and every stop time", "why_tests_cant": "all schedules", "anchors": ["src/quocslib/optimizationalgorithms/OptimizationAlgorithm.py: _routine_call, stop_optimization, handle_user_cancellation", "src/quocslib/communication/AllInOneCommunication.py: get_data, send_FoM_response", "src/quocslib/handleexit/HandleExit.py"]}
{"id": "C18", "title": "Reaching the goal ends the evaluations", "statement": "If FoM_goal is set, no evaluation is started once the best value found is at least as good as the goal, in both directions of optimisation; without re-evaluation and drift compensation the first evaluation reaching the goal is the last one.", "quantifier": "every execution", "why_tests_cant": "all executions", "anchors": ["src/quocslib/optimizationalgorithms/OptimizationAlgorithm.py: __init__, _routine_call"]}
{"id": "C19", "title": "Total time limit", "statement": "If total_time_lim is below the default no evaluation is started after a clock reading of at least the limit has been taken; with a monotone clock every evaluation starts with elapsed time below the limit at its check. A limit of 1e10 or more is not enforced.", "quantifier": "every clock and execution", "why_tests_cant": "all schedules", "anchors": ["src/quocslib/optimizationalgorithms/OptimizationAlgorithm.py: _routine_call"]}
{"id": "C20", "title": "The reported optimum is the best evaluation", "statement": "Without re-evaluation and drift compensation the internal best figure of merit is at every time the minimum of 1e10 and all (direction-adjusted, non-NaN) values returned so far, and the final result reports it with the user's sign; for the gradient algorithms the best vector is that of the first evaluation attaining it (for dCRAB see C28). If the run completes the result is reported exactly once. Values of 1e10 or more never count.", "quantifier": "every execution of every algorithm", "why_tests_cant": "all histories", "anchors": ["src/quocslib/optimizationalgorithms/OptimizationAlgorithm.py: get_is_record", "src/quocslib/optimizationalgorithms/dCRABAlgorithm.py: _get_response_for_client, _get_final_results"]}
{"id": "C21", "title": "The best-controls file holds the best evaluation", "statement": "Without re-evaluation and drift compensation the best-controls file is written exactly for the evaluations with status 0 that are strictly better than everything before, with exactly the controls handed to get_FoM, their FoM in internal sign and the evaluation number; so the file on disk is that of the best successful evaluation.", "quantifier": "every execution", "why_tests_cant": "all histories", "anchors": ["src/quocslib/utils/BestDump.py: dump_controls", "src/quocslib/communication/AllInOneCommunication.py: send_FoM_response, update_controls"]}
{"id": "C22", "title": "Failed evaluations", "statement": "A non-zero status code clears the running flag immediately and no further evaluation takes place; without re-evaluation the failed evaluation is neither listed (C23) nor saved (C21), but its value can become the reported best FoM and best vector. An evaluation without a number (None, as the file interface returns on time-out; missing FoM entry; exception in user code) ends execute with the corresponding exception and nothing is written any more.", "quantifier": "every execution and status code", "why_tests_cant": "all executions", "anchors": ["src/quocslib/communication/AllInOneCommunication.py: get_data, send_FoM_response", "src/quocslib/optimizationalgorithms/dCRABAlgorithm.py: _get_response_for_client"]}
{"id": "C23", "title": "Evaluation log is faithful", "statement": "FoM_list holds, in order, the user-sign value of every successful evaluation and iteration_number_list their evaluation numbers; the two lists always have the same length and the numbers are 1, 2, 3, ...; the evaluation counter is at least the number of get_FoM calls and exceeds it by at most one per run (every configuration).", "quantifier": "every execution of dCRAB/direct search/GRAPE/AD without re-evaluation", "why_tests_cant": "all histories", "anchors": ["src/quocslib/optimizationalgorithms/dCRABAlgorithm.py: _get_response_for_client", "src/quocslib/optimizationalgorithms/DirectSearchAlgorithm.py: _get_response_for_client"]}
{"id": "C24", "title": "Maximising f is minimising -f", "statement": "A run maximising f with goal g evaluates the same controls in the same order, saves the same controls and finishes with the same best vector as a run minimising -f with goal -g, and its reported values are the negatives.", "quantifier": "every configuration, figure of merit and schedule", "why_tests_cant": "relational over all runs", "anchors": ["src/quocslib/communication/AllInOneCommunication.py: __init__, get_data", "src/quocslib/optimizationalgorithms/OptimizationAlgorithm.py: __init__"]}
{"id": "C25", "title": "Seeded runs are reproducible", "statement": "A dCRAB run with a seeded random number generator and Nelder-Mead, and every GRAPE or AD run with given draws of its own generator, does not depend on numpy's global random state; direct search runs, unseeded dCRAB runs and (even seeded) CMA-ES runs do.", "quantifier": "every pair of global random streams, every configuration", "why_tests_cant": "relational over all runs", "anchors": ["src/quocslib/tools/randomgenerator.py", "src/quocslib/optimizationalgorithms/dCRABAlgorithm.py: __init__, _dsm_build", "src/quocslib/optimizationalgorithms/DirectSearchAlgorithm.py: _dsm_build", "src/quocslib/gradientfreemethods/CMAES.py"]}
{"id": "C26", "title": "Number of super-iterations and stored parameters", "statement": "dCRAB starts at most super_iteration_number super-iterations. One parameter vector and one list of super-parameters is stored per completed super-iteration. After a normal end every started super-iteration is complete and both lists are in the final results; an exception leaves at most the last started one incomplete.", "quantifier": "every configuration, environment and execution, also executions ended by an exception", "why_tests_cant": "all executions", "anchors": ["src/quocslib/optimizationalgorithms/dCRABAlgorithm.py: run, _update_base_pulses"]}
{"id": "C27", "title": "A super-iteration without improvement changes nothing", "statement": "If no evaluation of a dCRAB super-iteration is below the best value so far, the base pulses after it equal those before it (exact arithmetic, no re-evaluation, drift compensation or optimised time, pulses whose update vanishes at the mean vector). With overwrite_base_pulse this is false: the base pulse is replaced by zero.", "quantifier": "every super-iteration of every execution", "why_tests_cant": "all histories", "anchors": ["src/quocslib/optimizationalgorithms/dCRABAlgorithm.py: _dsm_build, _update_base_pulses"]}
{"id": "C28", "title": "get_best_controls after dCRAB", "statement": "After a dCRAB run that ended normally, without re-evaluation, drift compensation, overwrite_base_pulse and optimised times, in which some evaluation was below 1e10, get_best_controls returns exactly the controls that were delivered at the evaluation which set the final best figure of merit (exact arithmetic). With overwrite_base_pulse this is false: zero pulses can be returned.", "quantifier": "every execution", "why_tests_cant": "all histories", "anchors": ["src/quocslib/optimizationalgorithms/OptimizationAlgorithm.py: get_best_controls", "src/quocslib/optimizationalgorithms/dCRABAlgorithm.py: run"]}
{"id": "C29", "title": "Results of the direct search algorithm", "statement": "Unless somebody outside stops the run, the 'parameters' entry of the final results of a direct search that ended normally is the vector of the last evaluation, and (exact arithmetic, parameters only) get_best_controls returns the controls of the last evaluation. These need not be the best ones; after an asynchronous stop they may never have been evaluated; without any evaluation AttributeError is raised.", "quantifier": "every execution; existence of runs where they differ from the best", "why_tests_cant": "needs a run-level model to relate final result and history", "anchors": ["src/quocslib/optimizationalgorithms/DirectSearchAlgorithm.py: _get_final_results", "src/quocslib/optimizationalgorithms/OptimizationAlgorithm.py: get_best_controls"]}
{"id": "C30", "title": "get_best_bare_controls", "statement": "get_best_bare_controls returns the update at the current start point only: for every shipped basis it is the zero pulse whatever was optimised, not the accumulated update.", "quantifier": "every state", "why_tests_cant": "all histories", "anchors": ["src/quocslib/optimizationalgorithms/OptimizationAlgorithm.py: get_best_bare_controls", "src/quocslib/Controls.py: get_bare_controls_lists"]}
{"id": "C31", "title": "Re-evaluation of candidates", "statement": "With re-evaluation steps, in a dCRAB or direct search run each candidate is evaluated at most len(steps)+1 times (at most twice for the very first evaluation of the run), always with the same parameters; it is evaluated again exactly as long as its probability of being better is not below the next threshold; the value handed to the search method is the arithmetic mean of the values obtained for it (1e10 for evaluations refused after a stop); it becomes the record, with one file written, iff all tests are passed and the final probability exceeds the last threshold, and otherwise best value, best vector, best sigma and file stay (exact arithmetic).", "quantifier": "every candidate, sequence of values, standard deviations and thresholds, and every distribution function", "why_tests_cant": "all value sequences", "anchors": ["src/quocslib/optimizationalgorithms/dCRABAlgorithm.py: _inner_routine_call, _get_average_FoM_std, _probabnormx1betterx2", "src/quocslib/optimizationalgorithms/DirectSearchAlgorithm.py: _inner_routine_call"]}
{"id": "C32", "title": "A re-evaluated record is strictly better on average", "statement": "If the last threshold is at least 1/2 and the distribution function is at most 1/2 for non-positive arguments, a record is only replaced by a candidate with a strictly smaller mean. With a smaller threshold a worse mean can become the record.", "quantifier": "every state, candidate, value sequence and distribution function with cdf(u) <= 1/2 for u <= 0", "why_tests_cant": "all values", "anchors": ["src/quocslib/optimizationalgorithms/dCRABAlgorithm.py: _inner_routine_call, _probabnormx1betterx2"]}
{"id": "C33", "title": "Logged averages during re-evaluation", "statement": "The value logged for the k-th re-evaluation of a candidate is ((k-1)/k)*mean(first k values) + newest/k. It equals the mean of the k+1 values obtained only if the newest value equals the mean of the earlier ones; in particular the first re-evaluation is logged unaveraged.", "quantifier": "every value sequence", "why_tests_cant": "all values", "anchors": ["src/quocslib/optimizationalgorithms/dCRABAlgorithm.py: _get_average_FoM_std, _get_response_for_client"]}
{"id": "C34", "title": "Drift compensation", "statement": "Compensation after a super-iteration sets the best value to the mean of num_average fresh evaluations of the current start point, if the run is not stopped meanwhile; inside Nelder-Mead it keeps the vertices and shifts all simplex values by the same amount, so order and differences are kept. If a limit or stop hits during the compensation, 1e10 enters the mean and the reported best figure of merit can be about 5e9 although far better values were obtained. num_average = 0 ends the run with ZeroDivisionError.", "quantifier": "every execution with drift compensation", "why_tests_cant": "all schedules", "anchors": ["src/quocslib/optimizationalgorithms/dCRABAlgorithm.py: _update_FoM, _inner_routine_call", "src/quocslib/gradientfreemethods/NelderMead.py: run_dsm"]}
{"id": "C35", "title": "Ctrl-C", "statement": "If Ctrl-C arrives at any point that a dCRAB or direct-search run passes, its handling raises nothing, the run is marked as stopped, one of the four stop reasons is recorded, and if the run ends normally the reason is logged with the results. In GRAPE and AD runs it ends the run with AttributeError, no results are written and the run is not marked as stopped by it. The recorded reason is not always 'User stopped the optimization' (a limit hit right after Ctrl-C overwrites it), and a direct search cancelled before its first evaluation raises AttributeError.", "quantifier": "every configuration, environment and execution, every point of arrival", "why_tests_cant": "all interruption points", "anchors": ["src/quocslib/optimizationalgorithms/OptimizationAlgorithm.py: handle_user_cancellation, begin"]}
{"id": "C36", "title": "Gradient algorithms finish only if something was recorded", "statement": "A GRAPE run, or an AD run with at least one super-iteration, that ends normally has evaluated something below 1e10. If nothing evaluated so far is below 1e10 (1e10, larger values and NaN do not count) when the minimiser returns, the run ends with AttributeError. If something is, the base pulses are updated with the best vector and GRAPE ends normally (usable configuration, minimiser asking for vectors of the right length).", "quantifier": "every minimiser, user function and environment", "why_tests_cant": "all executions", "anchors": ["src/quocslib/optimizationalgorithms/GRAPEAlgorithm.py: run", "src/quocslib/optimizationalgorithms/ADAlgorithm.py: run"]}
{"id": "C37", "title": "AD super-iterations", "statement": "In the AD algorithm a super-iteration that evaluates nothing below the best value so far updates the base pulse with the previously accepted coefficient vector once more (read in the newly drawn basis), so the controls returned afterwards need not be the best ones and need not ever have been evaluated.", "quantifier": "every super-iteration of every execution; existence of a run with wrong best controls", "why_tests_cant": "needs multi super-iteration histories", "anchors": ["src/quocslib/optimizationalgorithms/ADAlgorithm.py: run, inner_run"]}
{"id": "C38", "title": "Nelder-Mead keeps a well-formed sorted simplex", "statement": "At each loop head of the Nelder-Mead search the simplex has n+1 vertices of length n and n+1 values, whatever the function does. The values increase if the function never answers NaN and drift compensation is off, and over the reals also with drift compensation (in binary64 the correction can break the order by rounding). For a function of the point alone, without drift compensation and Ctrl-C, every stored value is the value of its vertex; after Ctrl-C during a shrink a vertex can carry the value of another point.", "quantifier": "every function, start simplex, number of iterations and every argsort that sorts", "why_tests_cant": "all functions", "anchors": ["src/quocslib/gradientfreemethods/NelderMead.py: run_dsm"]}
{"id": "C39", "title": "Nelder-Mead result is the best value seen", "statement": "If nobody presses Ctrl-C, drift compensation is off and no answer was NaN, the value returned by the Nelder-Mead search is the answer of the function at the returned point and no answer during the search was smaller; the best stored value never increases from one iteration to the next. The same holds of the searches inside dCRAB and direct runs that were not stopped. After Ctrl-C in the middle of an iteration the best point seen can be discarded; if the function answers NaN on the start simplex, NaN can be returned although it answered numbers elsewhere.", "quantifier": "every function, start simplex and sorting tie-break", "why_tests_cant": "all functions", "anchors": ["src/quocslib/gradientfreemethods/NelderMead.py: run_dsm"]}
{"id": "C40", "title": "Nelder-Mead terminates and its overshoot is bounded", "statement": "With a finite max_eval the Nelder-Mead search terminates whatever the function answers or raises and whoever interferes, after at most max_eval+2 loop rounds. It makes at least n+1 and at most max(n+1, max_eval-1)+n+2 calls, plus num_average+1 if drift compensation is on, and reports their number exactly. max_eval itself can be exceeded.", "quantifier": "every function, dimension, start simplex and max_eval, also negative", "why_tests_cant": "all functions and sizes", "anchors": ["src/quocslib/gradientfreemethods/NelderMead.py: run_dsm", "src/quocslib/stoppingcriteria/StoppingCriteria.py: check_max_func_evals"]}
{"id": "C41", "title": "Nelder-Mead default simplex", "statement": "When no initial simplex is passed the first call is at the origin and the next n calls are at the start point with one coordinate multiplied by 1.05 (0.00025 if it is zero); over the reals the start point itself is not among them unless it is the origin.", "quantifier": "every start point, function and environment", "why_tests_cant": "all start points", "anchors": ["src/quocslib/gradientfreemethods/NelderMead.py: run_dsm"]}
{"id": "C42", "title": "CMA-ES", "statement": "A CMA-ES search needs a population of at least two. It evaluates the start point first and makes exactly one population of calls per generation; criteria are tested only between generations, so the calls stay below max(1, max_eval) + population and are reported exactly. With a finite max_eval it terminates. It returns a candidate of the last generation with its value, minimal in that generation if none is NaN, but not necessarily the best overall; interrupted before the first generation it returns the zero vector with value 0. The recombination weights are positive, decreasing and sum to one, the learning rates lie in the ranges the formulas need, the new mean lies between the selected candidates, the step size stays positive and the covariance matrix stays symmetric positive semidefinite (definite for non-zero widths and at most (n+2)^2/4 selected candidates).", "quantifier": "every function, sampling sequence, population size, interference; every number of parameters, selected candidates and generations", "why_tests_cant": "all functions", "anchors": ["src/quocslib/gradientfreemethods/CMAES.py: run_dsm", "src/quocslib/stoppingcriteria/CMAESStoppingCriteria.py: check_stopping_criteria"]}
{"id": "C43", "title": "Stopping criteria decide exactly as documented", "statement": "Unless Ctrl-C is pressed during the test, the test of a Nelder-Mead search with at least one parameter converges iff one of these holds: calls >= max_eval, every coordinate of every vertex within xatol of the first vertex, standard deviation of the values <= fatol, elapsed minutes >= time_lim (CMA-ES: the same without the simplex). A search that has converged stays so, with its reason, under every interference. Ctrl-C between the tests is lost: the flag it sets is overwritten.", "quantifier": "every simplex, value list, counter, clock and interference", "why_tests_cant": "all inputs", "anchors": ["src/quocslib/stoppingcriteria/NelderMeadStoppingCriteria.py", "src/quocslib/stoppingcriteria/CMAESStoppingCriteria.py", "src/quocslib/stoppingcriteria/StoppingCriteria.py"]}
{"id": "C44", "title": "Reported termination reason", "statement": "The reason stored by a test is that of the first fulfilled criterion in the order evaluations, simplex, FoM, time. The point, value, number of calls and reason returned by a Nelder-Mead search belong to one loop head, and the reason is that of the first criterion fulfilled there, unless the run was stopped. After Ctrl-C in the middle of an iteration the reason can name a criterion that was never fulfilled. The results file never contains the reason of a global stop (user, budget, goal, run time).", "quantifier": "every function, simplex, clock, interference and run", "why_tests_cant": "all executions", "anchors": ["src/quocslib/stoppingcriteria/NelderMeadStoppingCriteria.py: check_stopping_criteria", "src/quocslib/optimizationalgorithms/OptimizationAlgorithm.py: end"]}
{"id": "C45", "title": "Change-based stopping", "statement": "After each evaluation the cost is appended to the track, which holds exactly the costs of the current super-iteration (direct search: of the run), and the search converges by the change-based criterion iff the last cbs_funct_evals values exist and their least-squares line changes by less than cbs_change over that many steps. The criterion is invariant under adding a constant and changing signs, fires on a constant track iff cbs_change > 0 and on an arithmetic progression of step d iff |d|*n < cbs_change.", "quantifier": "every run, track, window and threshold", "why_tests_cant": "all tracks", "anchors": ["src/quocslib/stoppingcriteria/StoppingCriteria.py: add_to_FoM_track, check_advanced_stopping_criteria, _check_cbs_stopping_crit, reset_curr_FoM_track_for_new_SI"]}
{"id": "C46", "title": "Saved file contains every control", "statement": "When a new record is dumped, every pulse is stored under its name (a name used before gets its position appended), its time grid under time_grid_for_<that key>, every parameter under its name, and the bookkeeping values under their keys; nothing else is stored - provided the format can store the values and the resulting keys are pairwise different, differ from the bookkeeping keys and (npz) from 'file'. If the names themselves are different and differ from the time-grid names, nothing is renamed. Controls that are no record leave the file as it was, and so does a list of names that is too short (IndexError). Names such as p3,p,p lose a pulse, a control named FoM is replaced by the bookkeeping value, and a control named file makes the npz dump raise TypeError.", "quantifier": "every list of names, controls and bookkeeping values, both formats, any earlier file", "why_tests_cant": "all name lists", "anchors": ["src/quocslib/utils/BestDump.py: dump_controls", "src/quocslib/communication/AllInOneCommunication.py: update_controls"]}
{"id": "C47", "title": "Results of earlier runs are never overwritten", "statement": "However many optimisers are created and run in the same directory at the same time, every file and folder that existed before keeps its content; an optimiser that gets as far as its results folder created it itself, no two of them share one, and nobody else writes below it. Alone, an optimiser is refused with FileExistsError and nothing changed if its results folder exists (or QuOCS_Results is a file), and else created, changing nothing but QuOCS_Results and its own folder. Two optimisers with different names started at the same moment can still refuse each other: the test for QuOCS_Results and its creation are two steps.", "quantifier": "every file system, every number of processes, every interleaving of their steps, every job name without path separators", "why_tests_cant": "all states", "anchors": ["src/quocslib/communication/AllInOneCommunication.py: __init__", "src/quocslib/Optimizer.py: __init__"]}
{"id": "C48", "title": "File-based figure of merit is never stale", "statement": "A value returned by FilesUpdateFoM.get_FoM was written by the other program after this call had removed the old file or seen none. The call ends within 2*max(1,ceil(max_time))+5 of its steps, sleeps at most max(1,ceil(max_time)) times half a second, and exactly so often before it times out if nobody answers. It reports a time-out (-2) only after the last of these sleeps, and an unreadable file (-3) only if the file is gone or not a number when it is read. The json file has every pulse, time grid and parameter under its number. Not guaranteed: that the answer is for these controls (a late answer to an earlier call is taken), that the file was complete, that a file written during the last sleep is seen, that no FileNotFoundError is raised when the other program removes the file first. A time-out or an unreadable file (status -2, -3) makes the optimiser raise TypeError instead of stopping in order, because None is multiplied by the sign before the status is looked at. max_time counts half seconds, not seconds.", "quantifier": "every schedule of the other program's writes and removals between the steps of the call, every max_time, extension and initial file", "why_tests_cant": "all interleavings", "anchors": ["src/quocslib/utils/FilesUpdateFom.py: get_FoM, read_FoM_values, put_controls_into_user_path", "src/quocslib/communication/AllInOneCommunication.py: get_data"]}
{"id": "C49", "title": "Dynamic import resolution", "statement": "A class given directly is used. Otherwise a name known for the class type (four algorithms, two search methods, ten bases, one distribution) stands for the module and class of that name and overrides an explicit module and class; an unknown name and a missing name leave the explicit module and class. The class chosen is imported; if nothing is chosen or the import fails the result is None, and the caller then raises TypeError. Only exceptions outside Exception escape. A name without class type gives None even if module and class are given; the direct search ignores the value of dsm_name and takes Nelder-Mead.", "quantifier": "every combination of arguments, every set of installed modules and their behaviour on import; the last clauses for every content of map_dictionary.json", "why_tests_cant": "all dictionaries", "anchors": ["src/quocslib/utils/dynamicimport.py: dynamic_import", "src/quocslib/utils/map_dictionary.json", "src/quocslib/optimizationalgorithms/DirectSearchAlgorithm.py: __init__"]}
{"id": "C50", "title": "Piecewise time evolution", "statement": "If the drive has an amplitude for each control and slice, the final propagator is the time-ordered product of the slice propagators applied to the start matrix, the stored propagators are those of the slices (rest of the store untouched), their product is the final propagator, it is unitary for Hermitian Hamiltonians, real amplitudes and real time step, and evolving in two parts equals evolving at once. With a missing amplitude or a short store numpy raises IndexError; the automatic-differentiation variant silently goes on with the last amplitude. The automatic-differentiation variant that stores propagators returns its input unchanged.", "quantifier": "every dimension, number of controls and slices, drive, store and Hamiltonians; every function expm that maps -i times a Hermitian matrix to a unitary one", "why_tests_cant": "all sizes", "anchors": ["src/quocslib/timeevolution/piecewise_integrator.py: pw_evolution, pw_final_evolution", "src/quocslib/timeevolution/piecewise_integrator_AD.py: pw_evolution_AD, pw_final_evolution_AD"]}
{"id": "C51", "title": "GRAPE forward and backward propagation agree", "statement": "Whatever calls went before, get_gradient stores the states V_t rho0 V_t^dagger and the co-states W_t^dagger target W_t, their overlap is the same at each slice and equals the overlap at the final time, the gradient has n_slices entries, and entry t is minus the first-order change of the overlap when slice t is multiplied by 1 - i eps dt B; it vanishes when control Hamiltonian and state commute. Fewer propagators than slices raise IndexError. System types other than StateTransfer get the zero gradient, and states given as real arrays lose the imaginary parts and with them the gradient.", "quantifier": "every number of slices, dimension, matrices, propagators (unitary or not) and history of calls", "why_tests_cant": "all sizes and matrices", "anchors": ["src/quocslib/optimizationalgorithms/GRAPEAlgorithm.py: get_gradient"]}
{"id": "C52", "title": "Partial trace", "statement": "For a list of different positions, not all of them, the partial trace of a square matrix is the matrix of the other subsystems in their order whose entries sum the state over equal digits of the traced subsystems; the trace is preserved and the order of the positions does not matter. The axis list is a permutation iff the positions are different; repeated positions, positions outside, states of the wrong size and tracing over all subsystems (or none existing) are refused.", "quantifier": "every number and dimensions of subsystems, position list and state", "why_tests_cant": "all sizes", "anchors": ["src/quocslib/tools/partial_trace.py"]}
{"id": "C53", "title": "Liouvillian helper", "statement": "to_sup_op(H) applied to to_vec(rho) is the vectorised rho*H^T - H^dagger*rho; for a Hermitian H this is rho*H - H*rho for all rho iff H is a real matrix, so the helper is wrong for e.g. sigma_y.", "quantifier": "every dimension and all matrices", "why_tests_cant": "all sizes", "anchors": ["src/quocslib/tools/linearalgebra.py: to_sup_op, to_vec, commutator"]}
{"id": "C54", "title": "Ising model figure of merit and propagator cache", "statement": "In every history of calls the figure of merit belongs to the pulse last given to get_propagator since the figure of merit before, and to its own pulse if there was no such call. So GRAPE evaluations (also with refused ones in between) and plain evaluations always get the figure of merit of their own pulse, whereas get_propagator for one pulse followed by get_FoM for another answers for the first, and a get_propagator call failing half way leaves a mixture of two pulses. For pure states the value is the population of the complex conjugate of the target state: right for real target states (such as the bundled one), wrong for others.", "quantifier": "every number of slices, Hamiltonians and call history", "why_tests_cant": "all histories", "anchors": ["src/quocslib/optimalcontrolproblems/IsingModelProblem.py: get_propagator, get_FoM", "src/quocslib/optimizationalgorithms/GRAPEAlgorithm.py: inner_routine_call"]}
{"id": "C55", "title": "One-qubit fidelity", "statement": "The fidelity of normalised states lies in [0,1] and is 1 iff they agree up to a phase; for other states it scales with the product of the norms and can exceed 1. The one-qubit figure of merit is the infidelity of the driven state plus noise and drift, lies in [0,1] and is 0 iff the target is reached (normalised states, real controls, no noise and drift). A detuning passed as parameter stays in force in later calls that pass none.", "quantifier": "all state vectors, drives, parameters, time grids and problem objects", "why_tests_cant": "continuum of states", "anchors": ["src/quocslib/optimalcontrolproblems/OneQubitProblem.py: _get_fidelity, get_FoM"]}
{"id": "C56", "title": "Delivering and updating never raise on usable configurations", "statement": "If the pulses use the shipped bases (Walsh excepted), arrays or functions of the right length as guess and scaling, and durations that exist, then in every reachable state get_controls_lists and update_base_controls succeed for every vector of the right length, with one pulse and one time grid per configured pulse, one sample per bin and one value per configured parameter. A scalar guess together with shrink_ampl_lim raises.", "quantifier": "every configuration, every reachable state, every vector", "why_tests_cant": "all vectors and histories", "anchors": ["src/quocslib/Controls.py: get_controls_lists, update_base_controls", "src/quocslib/pulses/BasePulse.py"]}
{"id": "C57", "title": "Sigmoid step times stay inside the pulse", "statement": "The step times used by the sigmoid bases with optimised times lie in [offset, T - offset] whatever the optimiser proposes, provided offset <= T - offset.", "quantifier": "every proposed vector of times", "why_tests_cant": "continuum of vectors", "anchors": ["src/quocslib/pulses/basis/SigmoidTimeDep.py", "src/quocslib/pulses/basis/SigmoidAllParas.py"]}
{"id": "C58", "title": "Hamiltonians and states of the Ising problem", "statement": "For three or more qubits the drift Hamiltonian of the Ising problems is diagonal in the configuration basis and its entries are the energies -sum J z_j z_(j+1) - sum g z_j z_(j+2) of the closed chain; the control Hamiltonian has entry 1 between configurations that differ in one spin and 0 otherwise; the initial and target states are the projectors on all spins up and all spins down. With two qubits the next-nearest term is a field g(z_0+z_1) instead; with one qubit every constructor raises IndexError.", "quantifier": "every number of qubits, all couplings, every pair of configurations", "why_tests_cant": "tests fix the number of qubits; the statement is about all sizes and all entries of exponentially large matrices", "anchors": ["src/quocslib/optimalcontrolproblems/IsingModelProblem.py: tensor_together, get_static_hamiltonian, get_control_hamiltonian, get_initial_state, get_target_state", "src/quocslib/optimalcontrolproblems/IsingModelADProblem.py"]}
{"id": "C59", "title": "The two Ising problems have figures of merit of opposite sign", "statement": "For two or more qubits and pulses with enough values, the figure of merit of the numpy Ising problem is minus the population of the target state after the pulse (plus with is_maximization), that of the jax problem is always plus the population and lies in [0,1] for real couplings and pulses; so for the same pulse they are opposite unless is_maximization is set.", "quantifier": "every number of qubits, couplings, pulse and time grid", "why_tests_cant": "continuum of pulses", "anchors": ["src/quocslib/optimalcontrolproblems/IsingModelProblem.py: get_FoM", "src/quocslib/optimalcontrolproblems/IsingModelADProblem.py: get_propagator, get_FoM", "src/quocslib/utils/jax_utils.py: fidelity_funct"]}
{"id": "C60", "title": "Every optimisation comes to an end", "statement": "With a finite max_eval or a finite max_eval_total (the defaults are 10^10) every run of dCRAB, DirectSearch, GRAPE or AD comes to an end, whatever the figure of merit answers or raises, whatever the clock shows and whoever stops the run: a direct search makes at most min(max_eval, max_eval_total) + 3 rounds of its loop, and there is at most one search per super-iteration. For GRAPE and AD this assumes that L-BFGS-B itself ends.", "quantifier": "every configuration, figure of merit, clock and interference; all four algorithms", "why_tests_cant": "non-termination cannot be observed by a test, and the claim is about every figure of merit including those that never converge", "anchors": ["src/quocslib/optimizationalgorithms/OptimizationAlgorithm.py: _routine_call", "src/quocslib/gradientfreemethods/NelderMead.py: run_dsm", "src/quocslib/gradientfreemethods/CMAES.py: run_dsm", "src/quocslib/stoppingcriteria/StoppingCriteria.py: check_func_eval", "src/quocslib/optimizationalgorithms/dCRABAlgorithm.py: run"]}
{"id": "C61", "title": "CMA-ES draws its candidates from the adapted covariance", "statement": "With positive initial widths, at most (n+2)^2/4 selected candidates and a correct eigenvalue solver, in exact arithmetic the candidates of a generation are mean + sigma*A*z with A*A^T equal to the covariance matrix when it was last decomposed, and the matrix by which steps are judged (invsqrtC) is the inverse root of that same matrix, so the step to a candidate has the length of the normal numbers it was drawn from. From the first decomposition on the matrix is decomposed in every generation, so it is the current one; before that the candidates belong to the start matrix although the covariance has changed. Moving start point and candidates moves the mean and later candidates and changes nothing else.", "quantifier": "every number of parameters, population, selected candidates, number of generations", "why_tests_cant": "continuum of states, any number of generations", "anchors": ["src/quocslib/gradientfreemethods/CMAES.py: run_dsm (lines 76-198)"]}
{"id": "C62", "title": "What is left of the best controls when the process is killed", "statement": "At every moment of a run without re-evaluation and drift compensation the last completely written best-controls file is that of the best successful evaluation so far, except between an improvement and the end of its dump, when it is that of the best one before. A process killed before or after a dump leaves the old or the new file. Killed during a dump (of which there is at least one moment for every record) it leaves a file that cannot be loaded, and no earlier record. A value that json cannot store (complex pulses) raises TypeError after the old file was emptied; with npz only the entries before the value are left.", "quantifier": "every run, every moment of it, every state of the file in between, every controls and names", "why_tests_cant": "crash points between any two writes cannot be enumerated by tests", "anchors": ["src/quocslib/utils/BestDump.py: dump_controls, dump_dict", "src/quocslib/communication/AllInOneCommunication.py: update_controls, send_FoM_response", "src/quocslib/optimizationalgorithms/OptimizationAlgorithm.py: _routine_call"]}
{"id": "C63", "title": "Which messages reach which log", "statement": "The log file of an optimiser contains exactly the messages above debug level that any optimiser of the program logged from its creation until the next optimiser was created; the debug file, if asked for, contains the same; nothing else is written into its folder by the logger, and without create_logfile there is no log file. The console shows messages above debug level, or only errors, as the optimiser created last asked. So messages of a first optimiser after the creation of a second are in the log of the second and not in its own, and debug messages reach no file.", "quantifier": "every history of creations and messages, all options", "why_tests_cant": "depends on the history of the whole program, not on one call", "anchors": ["src/quocslib/tools/logger.py: create_logger", "src/quocslib/communication/AllInOneCommunication.py: print_logger, __init__"]}
{"id": "C64", "title": "What a json file gives back", "statement": "writejsonfile of a value without functions, unknown objects and unknown keys returns 0 and readjson gives the value back, with tuples and arrays as lists, classes as None and keys as text; a value made of what json has itself comes back unchanged. For any other value it returns 1, the old file is lost and readjson gives None. A missing, incomplete or unreadable file is read as None. Not so: a function in the settings is not stored as None (as documented) but leaves an incomplete file, and printing the settings drops the error code; Ctrl-C while writing is dropped and gives 0 with an incomplete file; of two keys with the same text one entry is lost.", "quantifier": "every nested value, every state of the file before, interruptions", "why_tests_cant": "nested values of any depth; the interruption is a crash point", "anchors": ["src/quocslib/utils/inputoutput.py: readjson, ObjectEncoder, writejsonfile", "src/quocslib/communication/AllInOneCommunication.py: print_optimization_dictionary"]}
{"id": "C65", "title": "Executing an optimiser again", "statement": "max_eval_total is one budget for all executions of an optimiser, however they end and even if the program sets the running flag again in between; an optimiser that has stopped evaluates nothing when it is executed again, until the flag is set. Without re-evaluation and drift compensation the best value reported at the end of an execution is the best of all executions so far, also after executions that raised; and for dCRAB, under the conditions of C28, get_best_controls returns the controls of the best evaluation of all executions if they ended normally. It fails for GRAPE, which adds its best update to the base pulse again at the end of every execution, so that get_best_controls returns a pulse that was never evaluated; and the total time limit is counted anew from each execution.", "quantifier": "every sequence of executions and resumptions, every configuration, figure of merit, clock and interference", "why_tests_cant": "histories of any number of executions, with exceptions at any point", "anchors": ["src/quocslib/Optimizer.py: execute", "src/quocslib/optimizationalgorithms/OptimizationAlgorithm.py: begin, end, _routine_call", "src/quocslib/optimizationalgorithms/GRAPEAlgorithm.py: run", "src/quocslib/optimizationalgorithms/dCRABAlgorithm.py: run"]}
{"id": "C66", "title": "What the fidelity helpers compute", "statement": "Given the square root of a density matrix rho and a density matrix sigma, fidelity_AD returns their Uhlmann fidelity (tr sqrt(sqrt(rho) sigma sqrt(rho)))^2. It is a number between 0 and 1, is 1 exactly if the two matrices are equal, does not change if they are exchanged or turned by the same unitary, and is the population <psi|sigma|psi> if rho is the projector on psi. _sqrtm returns the square root of every positive semidefinite matrix, state_to_dm the projector on the state (a density matrix exactly for states of norm 1), _displace a unitary matrix for every amplitude. The figure of merit of the Ising problem is minus the factor times such a fidelity for mixed states too. Not so: fidelity_not_diff_due_to_sqrtm is not the same function, it returns the root of the fidelity.", "quantifier": "every dimension, every pair of density matrices over every numerically closed field, every eigenvalue, root and exponential routine that computes what it should", "why_tests_cant": "the claims quantify over all matrices of all sizes; a test compares numbers for a few", "anchors": ["src/quocslib/tools/fidelities.py: fidelity_AD, fidelity_not_diff_due_to_sqrtm", "src/quocslib/tools/operations.py: state_to_dm, _sqrtm, _displace", "src/quocslib/optimalcontrolproblems/IsingModelProblem.py: get_FoM, fidelity_funct"]}
{"id": "C67", "title": "Ornstein-Uhlenbeck noise", "statement": "A realization over a total time T with step dt has floor(T/dt) samples; it starts at x0, and for independent standard normal numbers its mean at sample i is x0*exp(-i*dt/tau), the covariance of samples i and i+k is exp(-k*dt/tau) * c*tau/2 * (1-exp(-2*i*dt/tau)), so the variance rises from 0 to the stationary value c*tau/2. The rows of an ensemble are realizations of the same law, and any samples of two different rows are uncorrelated. A total time shorter than one step raises IndexError, a negative one ValueError. Not so in binary64: the quotient is rounded before it is floored, so T=0.3 with dt=0.1 gives 2 samples and not 3.", "quantifier": "every tau, c, x0, dt, T, size of the ensemble and every sequence of random numbers with the first two moments of white noise", "why_tests_cant": "moments quantify over all outcomes of the random numbers and over all lengths; a test sees one sample path", "anchors": ["src/quocslib/noiseprocesses/ornsteinuhlenbeckprocess.py: OrnsteinUhlenbeckProcess.get_noise_realization, get_ensemble_noise_realization", "src/quocslib/noiseprocesses/noiseprocess.py: NoiseProcess"]}
{"id": "C68", "title": "Resampling of pulses", "statement": "resample_pulse gives, for every new time and every pulse, the value of the original pulse at the sample closest in time (the earlier one halfway between two), the first value before the start and the last value after the end. So a pulse resampled on its own time axis is unchanged, a pulse within limits stays within them, and refining the axis by a whole factor and coming back gives the pulse one started with. A pulse without samples raises IndexError.", "quantifier": "every positive step, every number and length of pulses, every new time axis", "why_tests_cant": "the claim quantifies over all axes; a test tries one", "anchors": ["src/quocslib/tools/pulsetools.py: resample_pulse"]}
{"id": "C69", "title": "Rosenbrock problem", "statement": "Without noise the figure of merit is the Rosenbrock function of the parameters with uncertainty 0; it is never negative and, for two parameters or more, 0 exactly if all parameters are 1. With noise it differs from the function by at most noise_factor, its mean is the function, and the reported std is the half width of the interval that holds 68.27% of the values. Not so: std is not the standard deviation, which is smaller for every factor; the recorded value can lie below the minimum; with one parameter the figure of merit is constant; Rosenbrock() without a dictionary raises AttributeError. The constructor writes the defaults it used into the dictionary of the caller.", "quantifier": "every list of parameters, every noise factor and random number in [0,1]", "why_tests_cant": "the claims quantify over all parameters and over the distribution of the noise", "anchors": ["src/quocslib/optimalcontrolproblems/RosenbrockProblem.py: Rosenbrock.__init__, get_FoM"]}
{"id": "C70", "title": "One qubit with two fields", "statement": "The Hamiltonian of OneQubit2Fields is Hermitian for real controls, has entries delta1/2, -delta1/2 on the diagonal and amplitude*(1+delta2)*exp(-+i*phase) beside it, and energies that do not depend on the phase; without the second field it is that of OneQubit with twice the amplitude. The figure of merit is |1 - fidelity(target, driven state) + noise|; without noise it lies in [0,1] and is 0 iff the target is reached. Turning the phase of the drive by a constant angle is the same as turning initial and target state about z. A phase pulse shorter than the amplitude pulse, a missing pulse and a time grid of one point raise IndexError; samples of the phase beyond the amplitudes do nothing. Not so: with noise the figure of merit can be 0, its minimum, although the target is missed (the absolute value folds the noise).", "quantifier": "all amplitudes, phases, time grids, detunings, states, every exponential that maps -i times Hermitian matrices to unitary ones, every cosine and sine on the unit circle", "why_tests_cant": "continuum of controls and states", "anchors": ["src/quocslib/optimalcontrolproblems/OneQubitProblem_2fields.py: hamiltonian_d1_d2_2fields, OneQubit2Fields.get_FoM, _time_evolution"]}
{"id": "C71", "title": "What can be read from the text file with the controls", "statement": "In the txt variant of the file exchange the file has, in this order, one line for each pulse and one for its time grid, and one line for each parameter; the words of a line are decimal numbers, as many as there are samples, each the multiple of 1e-6 nearest to the sample (even one of two equally near). So every number is read with an error of at most 5e-7, exactly if it is a multiple of 1e-6, and samples further apart than 1e-6 stay different. Not so: amplitudes below 5e-7 are read as 0, and a time grid in seconds with nanosecond steps is read as one repeated point. A pulse without time grid is left out.", "quantifier": "all lists of pulses, time grids and parameters of finite binary64 numbers", "why_tests_cant": "rounding errors are stated for every binary64 number, the layout for every number of controls; a test uses round numbers", "anchors": ["src/quocslib/utils/FilesUpdateFom.py: _put_controls_txt"]}
{"id": "C72", "title": "A whole CMA-ES search follows its adaptation", "statement": "In exact arithmetic, the points a CMA-ES search evaluates are exactly these: the start point, then mean + sigma*B*(D*z) with fresh normal numbers z for every candidate, where mean, sigma, B and D start from the start point and the widths (0.3 each if the number of widths is wrong) and change only after whole generations, by the adaptation applied to the candidates in increasing order of their values. With a correct eigenvalue solver, positive widths and at most (n+2)^2/4 selected candidates every candidate is mean + sigma*A*z with A*A^T a covariance matrix of the search, symmetric and positive definite. Two searches with the same normal numbers give corresponding candidates as long as both go on: if the function and the start point are moved; if the function is replaced by an increasing function of it; if all parameters are measured in another unit. A search whose function answers every call ends with a result after at least one generation if nobody presses Ctrl-C. The optimiser's own function draws none of the normal numbers.", "quantifier": "every function, start point, widths, population, normal numbers, number of generations, interference from other threads", "why_tests_cant": "continuum of inputs, unbounded number of generations", "anchors": ["src/quocslib/gradientfreemethods/CMAES.py: run_dsm"]}
{"id": "C73", "title": "Dissipative example problems: generator, conserved quantities, figures of merit and sampling", "statement": "In Examples/LindbladProblem.py the Liouvillian L_const + x L_drive applied to the vector of a density matrix is, for every rate, energy, amplitude and state, the right hand side of the master equation of a qubit with H = [[E, x], [x, 0]] and decay |0><1| at rate gamma, plus the extra term gamma rho_01 |0><1|. Therefore: the trace is kept for every drive; for gamma = 0 the generator is -i[H, .] and Hermitian states stay Hermitian; without drive rho_01 grows with gamma/2 while rho_10 decays with gamma/2, so that for gamma > 0 the final state need not be Hermitian and the figure of merit, started in the target state, rises above 1. There are as many slices as entries of the time grid, each T/n long. For a density matrix the figure of merit is the square root of its fidelity with (|0> - i|1>)/sqrt 2: between 0 and 1, and 1 for that state only. In Examples/IsingModelProblem_AD_Lindblad.py the right hand side given to the solver keeps Hermitian states Hermitian and changes the trace at the rate tr((L'L - LL') rho): it is the master equation for normal jump operators, not for others. With the operator of the chain the coherence of two configurations is damped at gamma/2 times the square of the difference of their magnetisations, so coherences of equal magnetisation are not damped (the spins do not dephase independently). The Hamiltonians are a quarter of the chain energies (with two spins, the default: a field instead of the second coupling) and half a flip per spin; the figure of merit of a density matrix is the root of the population of the last configuration. Sample j of the pulse acts from point j of the grid to the next; the last sample acts at T only.", "quantifier": "all rates, energies, drives, grids, states; every number of spins from two; every matrix exponential with the stated laws", "why_tests_cant": "the example is run with one set of constants; no number of runs shows that a generator is completely positive, that it keeps the trace, or that a sample has no influence", "anchors": ["Examples/LindbladProblem.py: TLSProblem, convert_rho_to_LFS, convert_LFS_to_rho, pw_evolution_final, fidelity_funct_LFS", "Examples/IsingModelProblem_AD_Lindblad.py: IsingModel, get_dephasing_Lindbladian, fom_funct"]}
{"id": "C74", "title": "What curves the shipped bases draw", "statement": "In exact arithmetic, the bare update that Controls.get_bare_controls_lists returns for a pulse is, sample by sample on the equally spaced grid from 0 to T: for Fourier and DummyBasis the sum of sines and cosines with the random super-parameters as oscillations per duration (coefficient 2i for the sine, 2i+1 for the cosine of harmonic i), never larger than the sum of the sizes of the harmonics, and closing on itself when the super-parameters are whole numbers; for Sinc the cardinal series around the random times up to a relative 1e-40, which takes the value of a coefficient at its own node when the other nodes lie whole half periods away; for Chebyshev a sum of cosines of the arc cosine of the time rescaled to almost [-1, 1], which for whole orders without phases is the sum of Chebyshev polynomials; for the four sigmoid bases a sum of smooth steps of the chosen heights, one opening at the offset, one closing all at T minus the offset, whose times lie in [offset, T - offset] and whose widths are at least sigma and at most sigma times the distance from the nearer edge over the offset, so that no sample exceeds the sum of the heights and first and last sample are at most that sum times exp(-(offset/sigma)^2/2)/2, however times and widths are varied; for the piecewise basis the parameters themselves. Equal widths and heights of one sign never draw the other sign. The limits of this: with the default offset = sigma = 0.1 the opening step starts above 9 percent of its height; a random time outside [offset, T - offset] (possible through the limits of the distribution) can be given width 0 by the width-varying bases, a division by zero; and Walsh draws no Walsh functions, inside wide limits and without a guess it draws exactly the Fourier harmonics.", "quantifier": "every history of the controls, every vector, all numbers of super-parameters, bins and pulses, every draw of the random super-parameters", "why_tests_cant": "curves and edge bounds hold for all real parameters and all sizes; a test sees finitely many samples of finitely many parameter sets and cannot separate sinc from its shifted version", "anchors": ["src/quocslib/pulses/basis/Fourier.py: _get_shaped_pulse", "src/quocslib/pulses/basis/Sinc.py: _get_shaped_pulse", "src/quocslib/pulses/basis/Chebyshev.py: _get_shaped_pulse", "src/quocslib/pulses/basis/Sigmoid.py: _get_shaped_pulse", "src/quocslib/pulses/basis/SigmoidTimeDep.py: _get_shaped_pulse", "src/quocslib/pulses/basis/SigmoidSigmas.py: _get_shaped_pulse", "src/quocslib/pulses/basis/SigmoidAllParas.py: _get_shaped_pulse", "src/quocslib/pulses/basis/Walsh.py: _get_shaped_pulse", "src/quocslib/pulses/basis/DummyBasis.py: _get_shaped_pulse", "src/quocslib/pulses/basis/PiecewiseBasis.py: _get_shaped_pulse"]}
{"id": "C75", "title": "An optimisation dictionary means what its entries say, and nothing else counts", "statement": "Constructing an Optimizer from a dictionary succeeds exactly when the results folder is free and the dictionary says something: its algorithm, search method, bases and super-parameter distribution select classes of the library, the mandatory entries are there and every entry has a value of its documented kind; then the optimiser holds exactly what the entries say (algorithm, budgets, direction, goal, search method and stopping criteria, drift compensation, re-evaluation steps, seed, L-BFGS-B options, pulses, parameters, times), with the default of every missing entry as in the specification. A dictionary says at most one thing. Undocumented entries at the top and in `algorithm_settings` and the order of entries do not matter. A results folder is made as soon as the general entries can be read, whatever else is wrong. Constructing again from the dictionary, into which the first constructor wrote its defaults, gives the same optimiser and leaves the dictionary as it is; so does the json file in the results folder, if the keys are text and no functions are in it. Every constructed optimiser can be executed and asks for at most the stated number of evaluations. `path_mode` makes no difference. Against the documentation: a pulse or parameter without a name is a KeyError and not given a default name, a parameter without `initial_value` starts at 1.0 (documented 0.1), `max_eval_total` is 10**10 without entry (documented 10e10), an extra entry is a TypeError in a parameter or time though ignored elsewhere, a piecewise pulse has no default `bins_number`, and after a first construction a changed `sigma` no longer moves the default `offset` of the sigmoid bases. Boundary: values of a kind not documented at their place, classes of the user, and dictionaries sharing sub-dictionaries are outside of the model.", "quantifier": "for every dictionary (any nesting, any entries), every environment (files, working directory, evaluation of texts, jax, importable modules), every number type and every world in which the optimiser runs", "why_tests_cant": "the space of dictionaries is infinite and defaults of one place interact with others; tests construct from a few hand-written files", "anchors": ["src/quocslib/Optimizer.py: __init__", "src/quocslib/optimizationalgorithms/{OptimizationAlgorithm,dCRABAlgorithm,DirectSearchAlgorithm,GRAPEAlgorithm,ADAlgorithm}.py: __init__", "src/quocslib/Controls.py: __init__", "src/quocslib/pulses/BasePulse.py: __init__", "src/quocslib/pulses/basis/*.py: __init__", "src/quocslib/pulses/superparameter/Uniform.py: __init__", "src/quocslib/parameters/{Parameter,TimeParameter}.py: __init__", "src/quocslib/gradientfreemethods/{NelderMead,CMAES}.py: __init__", "src/quocslib/stoppingcriteria/*.py: __init__"]}
{"id": "C76", "title": "What the entries of the dictionary promise, the whole run keeps", "statement": "An optimiser constructed from a dictionary and executed against any user and environment gives controls out in three places: as arguments of the user's figure of merit, as arguments of the user's gradient, and in the file of the best controls. Whatever leaves it there, at any time of the run and however the run ends, is what the controls object makes of one optimisation vector in a state it can come to (C76_from_controls). Hence, in terms of the entries of the dictionary: there are as many pulses and time grids as entries in \"pulses\" and as many parameters as entries in \"parameters\"; every sample of a pulse lies between its \"lower_limit\" and \"upper_limit\" (defaults 0.0 and 1.0) if it does not shrink and limiting comes last in \"shaping_options\" (or these are not given), in exact arithmetic also if it shrinks; every parameter lies between its limits; the time grid of a pulse has \"bins_number\" equally spaced points from 0 to the duration listed last under its \"time_name\", which is the \"initial_value\" or, if optimised, inside its limits. No evaluation follows a value that reaches \"FoM_goal\" in the \"optimization_direction\", or a clock reading at or past \"total_time_lim\", and there are at most \"max_eval_total\" evaluations; the reported figure of merit is one of the returned values and none is better. Exact boundary: with limit_pulse not last a sample outside the limits is evaluated; in binary64 a shrunk sample can exceed its limit by rounding; the direct search can be constructed with pulses but then never calls the figure of merit.", "quantifier": "for all dictionaries that construct an optimiser, all environments, all users, schedules of stop requests, clocks and random numbers, all events of the whole execution; number systems with a total preorder (binary64 included), exact arithmetic where said", "why_tests_cant": "A test sees the controls of a few calls of a few runs. That no call, no gradient and no file of any run, in any super-iteration, after any interruption, leaves what the dictionary allows needs an invariant of the whole execution that ties the dictionary, the controls object and the events together.", "anchors": ["src/quocslib/Optimizer.py: __init__, execute", "src/quocslib/Controls.py: _get_controls_lists, update_base_controls, select_basis", "src/quocslib/optimizationalgorithms/OptimizationAlgorithm.py: _routine_call", "src/quocslib/pulses/BasePulse.py: __init__, get_pulse", "src/quocslib/parameters/Parameter.py: __init__, get_parameter", "src/quocslib/parameters/TimeParameter.py: __init__, get_time", "src/quocslib/utils/BestDump.py: best_controls_dump"]}
{"id": "C77", "title": "Automatic differentiation hands out the same controls, padded with zeros", "statement": "For every controls object and every vector, the two-dimensional arrays that the AD algorithm gives to the figure of merit hold exactly the pulses, time grids and parameters that the other algorithms would get for the same vector, converted to single precision, and the object is left in the same state. Every row has as many places as the longest pulse has bins: row i holds the samples of pulse i in its first bins_number places and zero in the others; with the same number of bins everywhere there is no padding. The arrays can be made whenever every pulse has one sample per bin. It ends at the padding: for a pulse with fewer bins than another one the row ends with zeros whatever the amplitude limits are, and its time grid ends with 0 instead of the final time, so that the shipped Ising problem with a shorter first pulse has the figure of merit 0 for every vector. With an optimised duration the differentiation raises for every vector.", "quantifier": "every configuration, history of the controls object, vector, conversion to single precision, run of the AD algorithm constructed from any dictionary", "why_tests_cant": "A test compares the arrays of one configuration, mostly with one pulse or with equal numbers of bins, where the padding never shows.", "anchors": ["src/quocslib/Controls.py: _get_controls_jax_obj, _get_converted_jax_obj, max_bin_numbers", "src/quocslib/optimizationalgorithms/ADAlgorithm.py: _get_controls, get_gradient", "src/quocslib/optimizationalgorithms/OptimizationAlgorithm.py: get_best_controls", "src/quocslib/optimalcontrolproblems/IsingModelADProblem.py: get_propagator, get_FoM"]}
{"id": "C78", "title": "In binary64 the time grid of a pulse starts at 0, ends exactly at the duration, is strictly increasing and has every point within a relative error of 2^-51", "statement": "Computed in IEEE binary64 as numpy does it, the time grid delivered with a pulse of n samples (2 <= n <= 2^51) and a duration T of at least (n-1) 2^-1022 has n points, the first is 0, the last is T itself bit by bit, all are finite, each is smaller than the next in the machine's own comparison (so no two points coincide and interpolation between them is defined), and point j differs from j T/(n-1) by at most 2^-51 of it. With the duration 0 all points are 0. This holds for the controls in every state that they can come to and, from the optimisation dictionary, for everything a run gives to the user's figure of merit, to the gradient and to the file of the best controls: n is \"bins_number\" and T the \"initial_value\" of the duration named by \"time_name\" if that is not optimised. It ends in the subnormal range: with the duration 6 2^-1074 and eleven points the spacing is rounded up and the last point lies before the one before it.", "quantifier": "every finite duration, number of samples, dictionary, run and moment in the run", "why_tests_cant": "rounding depends on every pair of a duration and a number of points; a test looks at a few of them", "anchors": ["src/quocslib/pulses/BasePulse.py: _get_build_pulse, _set_time_grid", "src/quocslib/Controls.py: get_controls_lists", "src/quocslib/parameters/TimeParameter.py: get_time", "src/quocslib/Optimizer.py: execute"]}
{"id": "C79", "title": "In binary64 an optimised duration can leave its limits, by at most 2^-50 of their magnitude: with the lower limit 0 it can become negative", "statement": "An optimised duration is kept inside its limits through a scaled variable that is clipped, and then computed back. In IEEE binary64 the result T obeys lower - d <= T <= upper + d with d = 2^-50 (|lower| + |upper|) + 2^-1074, or is NaN, for all finite limits lower < upper of magnitude up to 2^1021 with the initial value between them, in every state of the controls and, from the dictionary, for the end of every time grid that a run gives out. The limits themselves are not kept: with the initial value 7 and the limits 0 and 25 a run hands the user a time grid that ends at the negative duration -2^-50.", "quantifier": "every limits, initial value, vector, dictionary, run and moment in the run", "why_tests_cant": "the rounding error appears for particular limits only and has the size of the last place; tests compare durations with a tolerance or use round numbers", "anchors": ["src/quocslib/parameters/TimeParameter.py: __init__, get_time", "src/quocslib/parameters/BaseParameter.py: _check_limits, set_parameter", "src/quocslib/Controls.py: get_controls_lists"]}
{"id": "C80", "title": "Shrinking in binary64 leaves the limits by a part of the greatest sample, not of the limits", "statement": "With shrink_ampl_lim in the arithmetic of the machine, let no sample before shrinking and no limit exceed A in size, A being at most 2^999. Then every sample of the delivered pulse is finite and inside the limits up to 2^-47 A + 2^-1072, and two samples that were in order before are in order after. A pulse that already lies inside its limits is delivered unchanged, bit by bit. This holds for every pulse that a run gives out. The error is in proportion to the samples and not to the limits: with the limits -1 and 1 a run can give the user a pulse whose samples are all above 2^800, the one that was the lowest included. With samples of size 2^1023 the width of the pulse overflows, and finite numbers asked for by the search give NaN.", "quantifier": "every controls object reachable from every configuration, every input vector, every dictionary and run", "why_tests_cant": "the size of the error comes out of four roundings per sample in two passes, the second of which works on the rounded results of the first; a test sees single values, and the overshoot is invisible for amplitudes near the limits", "anchors": ["src/quocslib/pulses/BasePulse.py: _shrink_pulse_2, _get_limited_pulse"]}
{"id": "C81", "title": "GRAPE: the gradient given to L-BFGS-B next to the vector of control parameters that it varies", "statement": "GRAPE gives L-BFGS-B a gradient with one entry per bin of the first pulse, whereas the vector varied by L-BFGS-B has the coefficients of all pulses and the parameters. Entry j is what is computed for slice j from the controls that the same vector delivers and their slice length. For a first pulse of steps (PiecewiseBasis) the two lengths agree exactly when there is no other pulse and no parameter; a dictionary with one PiecewiseBasis pulse with bins_number m and no parameters gives m and m. Other dictionaries are accepted: two steps and a parameter give 2 entries for 3 control parameters, five bins of a Fourier basis and a parameter give 5 for 3. The slice length in the gradient is the duration divided by the number of grid points, which is (1 - 1/n) times the distance of two points of the grid. With the documented shaping options and without shrinking, entry j of the vector changes sample j only: with the slope of the scaling function strictly inside the limits and with slope 0 strictly beyond them, so any figure of merit with derivative m in sample j has the derivative scaling*m or 0 in entry j; vectors that differ only beyond the same limit give the same pulse. GRAPE's gradient is made from the delivered controls alone: with scaling functions 1 and 2 it is the same at the zero vector though the derivatives are 1 and 2.", "quantifier": "every configuration (any pulses, parameters, bases without own redefinition), every state that the controls can come to, every vector, every user function for the propagators; derivatives over the reals", "why_tests_cant": "a minimiser only converges worse with a gradient of another scale; a test of one dictionary with scaling 1 sees nothing", "anchors": ["src/quocslib/optimizationalgorithms/GRAPEAlgorithm.py: __init__, get_gradient, inner_routine_call", "src/quocslib/Controls.py: get_controls_lists, get_control_parameters_number", "src/quocslib/pulses/basis/PiecewiseBasis.py: _get_shaped_pulse", "src/quocslib/pulses/BasePulse.py: get_pulse"]}
{"id": "C82", "title": "GRAPE's gradient is the derivative of the overlap up to an error of the order of the squared slice length, exact when drift and control commute", "statement": "With the propagators of the piecewise integrator and a state transfer, let F(x) be the real part of the overlap of the target with the final state when the amplitude of slice t is x. F has a derivative at the present amplitude, and the entry t of GRAPE's gradient is real and is minus that derivative up to dt^2 |target| |rho0| |[H0,B]| (Frobenius norms, H0 the drift, B the control Hamiltonian, dt the slice length), for density matrices up to dt^2 |[H0,B]|. A change of the amplitude by h changes F by -h entry up to |h| dt^2 |target| |rho0| (|[H0,B]| + 2 |h| |B|^2). If H0 and B commute the entry is exactly minus the derivative. An entry larger than the error bound has the right sign: every sufficiently small step against it increases the overlap. In the bundled Ising problem with a normalised real target state the figure of merit is a differentiable function of each amplitude and its derivative is optimization_factor times the entry up to |optimization_factor| dt^2 |[H0,B]|; the gradient itself does not contain the factor. The entry is not the derivative in general: for one slice that is half a turn around the axis of the drift the entry is pi and the derivative is 0.", "quantifier": "every dimension, hermitian drift and control, amplitudes, number of slices, slice length, initial and target matrices, state of the GRAPE object and slice", "why_tests_cant": "a test compares with finite differences at single points and with a tolerance; that the difference is bounded by the commutator for all Hamiltonians, and what happens for long slices, is not visible", "anchors": ["src/quocslib/optimizationalgorithms/GRAPEAlgorithm.py: get_gradient", "src/quocslib/timeevolution/piecewise_integrator.py: pw_evolution", "src/quocslib/tools/linearalgebra.py: commutator", "src/quocslib/optimalcontrolproblems/IsingModelProblem.py: get_FoM, get_propagator"]}
{"id": "C83", "title": "The piecewise integrator solves the Schroedinger equation, and how far a sampled pulse is from the continuous one", "statement": "Amplitudes and times are real numbers and the matrix exponential is exact. pw_final_evolution returns the value at the time n*dt of the one solution of the Schroedinger equation dU/dt = -i H U whose Hamiltonian is H0 + sum_k a_k[i] B_k on slice i. Other amplitudes b change it by at most |dt| * sum_i sum_k |a_k[i] - b_k[i]| ||B_k|| (Frobenius norm). Cutting each slice into r slices of length dt/r with the same amplitude does not change it. If the amplitudes are the values, at n points equally spaced from 0 to T, of controls f_k with Lipschitz constants L_k, and dt = T/n as in the Ising problem and GRAPE, then it differs from the value at T of every solution of the Schroedinger equation with H0 + sum_k f_k(t) B_k by at most T^2/n * sum_k L_k ||B_k||, and the figure of merit of the Ising problem (pure states, real target) differs from that of the continuous pulse by at most 2 |factor| L T^2/n ||B||. The one-qubit problem takes the distance T/(n-1) of two points as length of each of its n slices: what it returns is the solution for a pulse that lasts T + T/(n-1), not T. The difference from the solution at T is at most T^2/(n-1) L ||sigma_x/2|| + T/(n-1) ||H(T)||, and is not small for few points: a constant pulse of length pi on 2 points, which takes |0> exactly to |1>, has infidelity 1 instead of 0.", "quantifier": "for all dimensions, hermitian drift and control matrices, numbers of controls, numbers of slices, amplitudes, step lengths (also negative ones) and starting matrices; for all Lipschitz controls and every solution of the equation", "why_tests_cant": "A test compares one propagator with one reference computed with the same exponentials; that the sequence of exponentials is the solution of the equation, that there is no other, and that the error of sampling falls like 1/n for every pulse are statements about real functions.", "anchors": ["src/quocslib/timeevolution/piecewise_integrator.py: pw_final_evolution", "src/quocslib/optimalcontrolproblems/IsingModelProblem.py: get_FoM, get_propagator", "src/quocslib/optimalcontrolproblems/OneQubitProblem.py: get_FoM, _time_evolution"]}
{"id": "C84", "title": "A direct search uses the figure of merit only through comparisons", "statement": "For dCRAB and DirectSearch with Nelder-Mead or CMA-ES, without re-evaluation, drift compensation and change-based stop, replace the user's figure of merit by f of it (and the goal by f of the goal), where f is increasing on the values the figure of merit can take and leaves the library's start value 1e10 (-1e10 for a maximisation) in place. If the f_atol criterion decides alike (for example because it is switched off by a negative tolerance), the whole run evaluates the same controls in the same order, raises or ends with the same reason, writes the same files with the values put through f, and returns the same best controls and super-parameters. CMA-ES as coded meets the condition of this theorem because it uses values only to sort a generation. Boundary: with the default absolute tolerance f_atol, dividing a figure of merit by 1e8 ends the search early, with a worse point.", "quantifier": "every increasing change of the figure of merit, all settings without value-averaging options, all worlds (answers, exceptions, interrupts, clocks, random numbers); reals and binary64", "why_tests_cant": "a test runs one pair of objectives; the claim is about all order-preserving changes and whole runs with every kind of interruption", "anchors": ["src/quocslib/optimizationalgorithms/OptimizationAlgorithm.py: _routine_call", "src/quocslib/gradientfreemethods/NelderMead.py: run_dsm", "src/quocslib/gradientfreemethods/CMAES.py: run_dsm", "src/quocslib/stoppingcriteria/NelderMeadStoppingCriteria.py", "src/quocslib/optimizationalgorithms/dCRABAlgorithm.py: run", "src/quocslib/optimizationalgorithms/DirectSearchAlgorithm.py: run"]}
{"id": "C85", "title": "For the Ising problem, the slope of the figure of merit along a control parameter is GRAPE's entry times the scaling function, up to the square of the slice length, inside the limits; beyond them it is zero whatever GRAPE says", "statement": "Take one pulse of steps (piecewise basis, no optimised time, no shrinking) whose number of bins is the number of slices of the bundled Ising problem, with a real pure target state, and let GRAPE compute its gradient at a control vector x, after any earlier calls. Replace entry j of x by t: the time grid stays the same, and the figure of merit that get_FoM of the problem answers for the delivered pulse is a function of t. Inside the amplitude limits its derivative at x_j is s_j * m, where s_j is the sample of the scaling function and m differs from FoM_factor * entry_j by at most |FoM_factor| * dt^2 * ||[H_drift, H_control]||. If drift and control commute the derivative is exactly s_j * factor * entry_j. If the factor and s_j are positive and the entry is larger than dt^2 * ||[H_drift, H_control]||, small steps of the control parameter against the entry lower the figure of merit. If the sample is beyond a limit the derivative is 0, whatever the entry is.", "quantifier": "every control vector, earlier history, scaling function, guess, base pulse, limits, Hermitian drift and control of every dimension, pure initial and real pure target state, every slice and every value of the control parameter", "why_tests_cant": "The statement is about derivatives along every control parameter for all Hamiltonians and pulses; finite differences at some points bound nothing between them.", "anchors": ["src/quocslib/optimizationalgorithms/GRAPEAlgorithm.py: get_gradient, inner_routine_call", "src/quocslib/pulses/BasePulse.py: get_pulse", "src/quocslib/Controls.py: get_controls_lists", "src/quocslib/optimalcontrolproblems/IsingModelProblem.py: get_FoM, get_propagator"]}
{"id": "C86", "title": "Nelder-Mead does not depend on the coordinates: a search in the image of an affine map is the image of the search, except for xatol", "statement": "Let f be an affine map of the searched vectors (other units and another zero for every control parameter, rotations, any linear map with a shift), and let the function be called so that at the point f(x) it does and answers what it did at x. Then Nelder-Mead, plain or adaptive, with or without drift compensation, started from the image of the start simplex, makes the same calls in the same order with the same effects, ends with the same exception or after the same number of iterations and calls with the same reason and value, and its point is the image of the point - provided the criterion xatol tells no simplex from its image. That holds for every shift and every change of signs, and for every affine map if xatol is negative. The start simplex that the algorithms create from mean values and widths moves likewise: mean values put through the units and widths multiplied by them give the image of the simplex (for the same random numbers). Boundary: xatol is an absolute tolerance; with the vector in units of ten million a search that needs six calls ends after four with 'Convergence of the simplex', in exact arithmetic.", "quantifier": "every affine map, dimension at least 1, start point and simplex, function with any effects, settings, stop requests, clock; real arithmetic", "why_tests_cant": "Tests compare single runs in floating point; that no decision of the search depends on the coordinates is a statement about all functions and all affine maps.", "anchors": ["src/quocslib/gradientfreemethods/NelderMead.py: run_dsm", "src/quocslib/stoppingcriteria/StoppingCriteria.py: check_simplex_criterion", "src/quocslib/stoppingcriteria/NelderMeadStoppingCriteria.py: check_stopping_criteria", "src/quocslib/tools/linearalgebra.py: simplex_creation"]}
{"id": "C87", "title": "Nelder-Mead searches exactly the plane of its start simplex; adaptive coefficients with one parameter are the exception", "statement": "In exact arithmetic, Nelder-Mead never evaluates a point outside any plane (or line, or smaller flat) that contains the vertices of its start simplex: two figures of merit that agree on the plane give the same search and result, whatever they are elsewhere, and the result lies in the plane. In particular a control parameter whose width (amplitude variation) is zero keeps its start value throughout: in every direct search (DirectSearchAlgorithm with Nelder-Mead) that ends without an exception, every vector for which the figure of merit was evaluated, re-evaluations included, has the start value there. Conversely the search never loses a direction: at every loop head a linear equation holds at all vertices exactly if it holds at all vertices of the start simplex, so with widths different from zero no non-trivial equation ever holds. The exception is is_adaptive with a single control parameter: its shrink coefficient 1 - 1/dim is zero, so the first shrink makes both vertices equal and the search ends with 'Convergence of the simplex.' though a smaller value is near; with fixed coefficients it goes on and finds it.", "quantifier": "every function (with any effects), every start simplex of the right shape, every flat, every number of iterations, drift compensation on or off, every stop; real arithmetic for the general claims, exact rationals for the exception", "why_tests_cant": "a lost or never explored direction only shows as a worse optimum; a test of one function cannot tell a degenerate simplex from a converged one", "anchors": ["src/quocslib/gradientfreemethods/NelderMead.py: run_dsm", "src/quocslib/tools/linearalgebra.py: simplex_creation", "src/quocslib/gradientfreemethods/DirectSearchMethod.py"]}
{"id": "C88", "title": "CMA-ES needs a width different from zero for every control parameter: otherwise all candidates after the first generation are infinite or NaN", "statement": "In binary64, if the width (amplitude variation) of one control parameter is zero, then after the first generation the step size of CMA-ES is +infinity or NaN, and every entry of every later candidate - of all parameters, not only this one - is infinite or NaN, whatever the figures of merit, random numbers and population are, for as long as no exception ends the search. In a whole search every vector given to the function after the first population of calls is such a vector, and a parameter delivered from it is at one of its limits or NaN. In the first generation the parameter stays at its start value, as long as no width times a normal number overflows. This is due to the zero: in a concrete search the first generation is finite, and with a small width instead of zero the next candidate is finite too. (With Nelder-Mead a width of zero just keeps the parameter at its start value, C87.)", "quantifier": "every start vector, every vector of widths with a zero (of either sign) at some place, every number of parameters and candidates, every history of at least one generation, every eigenvector routine; exp(inf) = inf, exp(nan) = nan, and positive damping and expected norm", "why_tests_cant": "a test with one figure of merit sees an exception or a bad optimum; that no choice of function, seed or population avoids it is a statement about all of them", "anchors": ["src/quocslib/gradientfreemethods/CMAES.py: run_dsm", "src/quocslib/Controls.py: get_sigma_variation, get_controls_lists", "src/quocslib/parameters/BaseParameter.py: _check_limits"]}
