{
 "claims": [
  {
   "property": "C01",
   "status": "proved",
   "theorems": [
    "C01_Dx_adjoint",
    "C01_Dx_formula"
   ],
   "note": "Whole heap-level runs of l1c_Dx and l1c_DxT at exact reals; the formula holds already for m>=1."
  },
  {
   "property": "C02",
   "status": "proved",
   "theorems": [
    "C02_Dy_adjoint",
    "C02_Dy_formula"
   ],
   "note": "Whole heap-level runs at exact reals, also for a single row."
  },
  {
   "property": "C03",
   "status": "proved",
   "theorems": [
    "C03_DxTDx_composition",
    "C03_DyTDy_composition",
    "C03_DyTDy_single_row_refuted"
   ],
   "note": "The n=1 vertical case is refuted for every image with alpha^2*u nonzero."
  },
  {
   "property": "C04",
   "status": "proved",
   "theorems": [
    "C04_tv_total",
    "C04_tv_safe_iff",
    "C04_tv_overflow"
   ],
   "note": "For every arithmetic; exact characterisation of the safe shapes for whole arrays."
  },
  {
   "property": "C05",
   "status": "proved",
   "theorems": [
    "C05_tv_any_order",
    "C05_math_any_order",
    "C05_dlogsum_reduction",
    "C05_bregman_any_order",
    "C05_newton_any_order"
   ],
   "note": "Any order of whole iterations, every arithmetic, for every loop without a reduction; the reduction for every addition tree in exact arithmetic (reals, and reals with infinities and NaN)."
  },
  {
   "property": "C06",
   "status": "proved",
   "theorems": [
    "C06_difference_norms"
   ],
   "note": ""
  },
  {
   "property": "C07",
   "status": "proved",
   "theorems": [
    "C07_vcl_sum",
    "C07_vcl_logsum",
    "C07_vcl_dxMy_pz",
    "C07_dsum"
   ],
   "note": "Arrays of exactly n entries, so an access outside would be undefined behaviour."
  },
  {
   "property": "C08",
   "status": "proved",
   "theorems": [
    "C08_max_vec",
    "C08_max_vec_empty",
    "C08_max_vec_ieee"
   ],
   "note": "For every arithmetic with a sane comparison; instances for reals, extended reals and IEEE binary64."
  },
  {
   "property": "C09",
   "status": "proved",
   "theorems": [
    "C09_init_vec",
    "C09_three_operand",
    "C09_daxpby",
    "C09_abs_vec",
    "C09_frame"
   ],
   "note": "Every arithmetic; exact final state."
  },
  {
   "property": "C10",
   "status": "proved",
   "theorems": [
    "C10_malloc_2D",
    "C10_calloc_2D",
    "C10_free_2D",
    "C10_malloc_free",
    "C10_free_null"
   ],
   "note": "Every Num instance, every allocation-failure pattern; all-or-nothing decided exactly by the grants, and no undefined behaviour."
  },
  {
   "property": "C100",
   "status": "proved",
   "theorems": [
    "C100_order",
    "C100_stable",
    "C100_range",
    "C100_rest_in_range"
   ],
   "note": "Exact arithmetic. The first three are about the documented problem; the last one about an iteration of the code that reproduces its state, not about every returned image."
  },
  {
   "property": "C11",
   "status": "proved",
   "theorems": [
    "C11_shrink_is_prox"
   ],
   "note": "Reals."
  },
  {
   "property": "C12",
   "status": "proved",
   "theorems": [
    "C12_inverse_diagonal",
    "C12_operator"
   ],
   "note": "Reals. C12_operator ties the neighbour-difference form used in the statements to the C functions of TV.c and to breg_hess_eval."
  },
  {
   "property": "C13",
   "status": "proved",
   "theorems": [
    "C13_fixed_points"
   ],
   "note": "Reals."
  },
  {
   "property": "C14",
   "status": "proved",
   "theorems": [
    "C14_contraction"
   ],
   "note": "Reals; also for the sweep loop of the solver."
  },
  {
   "property": "C15",
   "status": "proved",
   "theorems": [
    "C15_allocation_failures"
   ],
   "note": "Every arithmetic and every allocation schedule."
  },
  {
   "property": "C16",
   "status": "proved",
   "theorems": [
    "C16_fixed_state_optimal",
    "C16_without_sweeps_refuted"
   ],
   "note": "Extended reals, max_jac_iter >= 1: the fixed state is the global minimiser, with a quadratic growth bound (so it is the only one). Without sweeps (max_jac_iter <= 0) the statement is false; witness."
  },
  {
   "property": "C17",
   "status": "proved",
   "theorems": [
    "C17_no_iterations",
    "C17_constant_image"
   ],
   "note": "First part for every arithmetic, second over the extended reals."
  },
  {
   "property": "C18",
   "status": "proved",
   "theorems": [
    "C18_multipliers_bounded"
   ],
   "note": "Extended reals, for one iteration from any finite state; an iteration leaves a finite state, so it covers every iteration."
  },
  {
   "property": "C19",
   "status": "proved",
   "theorems": [
    "C19_true_residual"
   ],
   "note": "Proved over the extended reals, including the non-finite iterates CG can produce: for every linear operator and every b <> 0 the returned pair satisfies cgres = |b - A x|/|b|."
  },
  {
   "property": "C20",
   "status": "proved",
   "theorems": [
    "C20_best_visited"
   ],
   "note": "For every arithmetic with an ordered comparison; NaN residuals are covered."
  },
  {
   "property": "C21",
   "status": "proved",
   "theorems": [
    "C21_residual_vanishes",
    "C21_solved",
    "C21_exact_start_runs_on"
   ],
   "note": "Exact arithmetic. The iteration count bound needs tol > 0 and a start that is not already exact; the exact start runs all max_iter iterations."
  },
  {
   "property": "C22",
   "status": "proved",
   "theorems": [
    "C22_precond_initial",
    "C22_precond_refuted"
   ],
   "note": "Negative property: witnesses by IEEE computation in the model, plus the general formula for the value reported at the start."
  },
  {
   "property": "C23",
   "status": "proved",
   "theorems": [
    "C23_zero_rhs"
   ],
   "note": "Extended reals."
  },
  {
   "property": "C24",
   "status": "proved",
   "theorems": [
    "C24_linesearch_xu",
    "C24_linesearch"
   ],
   "note": "Every arithmetic and every objective (any function of the evaluation number and the point, free to write other memory)."
  },
  {
   "property": "C25",
   "status": "proved",
   "theorems": [
    "C25_linesearch_xu",
    "C25_linesearch"
   ],
   "note": "Every arithmetic; also gives termination without undefined behaviour, at most 32 evaluations, and x left untouched on failure."
  },
  {
   "property": "C26",
   "status": "proved",
   "theorems": [
    "C26_xu_alias_safe",
    "C26_plain_alias_always_fails",
    "C26_plain_alias_refuted"
   ],
   "note": "The two-vector search is safe with an objective that stores its value in fx0; the plain search is not: it always fails along descent directions in exact arithmetic, and a binary64 witness shows it accepting an increase."
  },
  {
   "property": "C27",
   "status": "proved",
   "theorems": [
    "C27_infeasible_start",
    "C27_exact"
   ],
   "note": "First for every arithmetic (the computed test decides), second over the extended reals: rejected exactly when |Ax-b| > eps."
  },
  {
   "property": "C28",
   "status": "proved",
   "theorems": [
    "C28_finite_value",
    "C28_stage"
   ],
   "note": "Extended reals: a finite objective value implies strict feasibility; a whole stage (any number of Newton steps) keeps it."
  },
  {
   "property": "C29",
   "status": "proved",
   "theorems": [
    "C29_stays_feasible"
   ],
   "note": "Extended reals, any options, any CG and line-search outcome; strict stays strict and closed stays closed."
  },
  {
   "property": "C30",
   "status": "proved",
   "theorems": [
    "C30_objective",
    "C30_gradient"
   ],
   "note": "The evaluated objective is the barrier (extended reals); the vector in gradf is its gradient (reals, derivative along every direction)."
  },
  {
   "property": "C31",
   "status": "proved",
   "theorems": [
    "C31_newton_system"
   ],
   "note": "Reals: the reduced operator is symmetric positive definite, CG works on it, and a solution gives the Newton direction of the full system."
  },
  {
   "property": "C32",
   "status": "proved",
   "theorems": [
    "C32_max_step"
   ],
   "note": "Extended reals."
  },
  {
   "property": "C33",
   "status": "proved",
   "theorems": [
    "C33_initial_pair",
    "C33_zero_start_objective"
   ],
   "note": "Extended reals."
  },
  {
   "property": "C34",
   "status": "proved",
   "theorems": [
    "C34_stage_count",
    "C34_next_tau",
    "C34_stage_tau",
    "C34_gap_at_exit"
   ],
   "note": "The gap guaranteed by the last stage is always above lbtol and at most mu*lbtol; an exact centre of the last stage is mu*lbtol-optimal."
  },
  {
   "property": "C35",
   "status": "proved",
   "theorems": [
    "C35_counting"
   ],
   "note": "Every arithmetic; steps are counted by the calls of Aty."
  },
  {
   "property": "C36",
   "status": "proved",
   "theorems": [
    "C36_status",
    "C36_stale_du"
   ],
   "note": "Every arithmetic; binary64 example of a failing CG solve."
  },
  {
   "property": "C37",
   "status": "proved",
   "theorems": [
    "C37_first_request_refused",
    "C37_later_request_refused",
    "C37_released"
   ],
   "note": "Every arithmetic and every allocation schedule; a refused first request is undefined behaviour."
  },
  {
   "property": "C38",
   "status": "proved",
   "theorems": [
    "C38_in_bounds",
    "C38_too_many_measurements"
   ],
   "note": "Every arithmetic."
  },
  {
   "property": "C39",
   "status": "proved",
   "theorems": [
    "C39_projection"
   ],
   "note": "Extended reals with finite data: the run ends with the strong minimiser of the prox objective over the feasible set."
  },
  {
   "property": "C40",
   "status": "proved",
   "theorems": [
    "C40_feasible"
   ],
   "note": "Extended reals; every run that returns 0, any number of stages and iterations."
  },
  {
   "property": "C41",
   "status": "proved",
   "theorems": [
    "C41_evaluation"
   ],
   "note": "Value is the extremal characterisation, gradient along every direction, gap 0..p*mu/2."
  },
  {
   "property": "C42",
   "status": "proved",
   "theorems": [
    "C42_continuation_ends"
   ],
   "note": "Extended reals."
  },
  {
   "property": "C43",
   "status": "proved",
   "theorems": [
    "C43_initial_smoothing",
    "C43_more_rows_refuted"
   ],
   "note": "Proved when p<=m; refuted with a concrete transform when p>m."
  },
  {
   "property": "C44",
   "status": "proved",
   "theorems": [
    "C44_mean_of_last_ten",
    "C44_first_iteration",
    "C44_stopping_test"
   ],
   "note": "Extended reals; every push sequence, and its use in the stopping test."
  },
  {
   "property": "C45",
   "status": "proved",
   "theorems": [
    "C45_size_mismatch",
    "C45_out_of_memory",
    "C45_incomplete_transform_leaks",
    "C45_queue_refused",
    "C45_success_releases"
   ],
   "note": "Every arithmetic and every allocation schedule; the leak and the dereferenced queue are theorems."
  },
  {
   "property": "C46",
   "status": "proved",
   "theorems": [
    "dct1_orthonormal"
   ],
   "note": "Exact arithmetic; FFTW's REDFT01/REDFT10 as documented (S_Dct.dft1). `started` is any successful set-up that chose the 1D transform; `always` quantifies over every history of correct calls."
  },
  {
   "property": "C47",
   "status": "proved",
   "theorems": [
    "dct2_orthonormal"
   ],
   "note": "Exact arithmetic, every mrow and mcol >= 2."
  },
  {
   "property": "C48",
   "status": "proved",
   "theorems": [
    "dct_measurement_operators",
    "dct_repeated_index_refuted",
    "dct_adjoint_dirty_planner_refuted"
   ],
   "note": "Ax(Aty y)=y for distinct indices; adjointness needs the planner to leave zeros in the scatter array (fftw_malloc'd memory is not cleared in the 1D case and FFTW_PATIENT planning overwrites it). Both conditions are shown necessary."
  },
  {
   "property": "C49",
   "status": "proved",
   "theorems": [
    "dct_AtAx_is_Aty_after_Ax"
   ],
   "note": "In every arithmetic, also floating point, for 1D and 2D."
  },
  {
   "property": "C50",
   "status": "proved",
   "theorems": [
    "dct_calls_history_independent",
    "dct_calls_history_independent_R",
    "dct_Rty_old_contents_refuted",
    "tv_analysis_history_independent",
    "tv_synthesis_history_independent"
   ],
   "note": "In every arithmetic for all functions but Rty, whose value depends on the old contents of the result array through 0*x: nothing in exact arithmetic, but NaN stays NaN in doubles (refuted)."
  },
  {
   "property": "C51",
   "status": "proved",
   "theorems": [
    "dct_destroy_releases",
    "dct_setup_destroy_balanced",
    "dct_destroy_twice_undefined",
    "dct1_failed_setup_clean",
    "dct1_failed_setup_again_undefined",
    "dct2_failed_setup_leaks",
    "dct_second_setup_leaks",
    "dct1_retry_refuted",
    "dct2_failed_setup_refuted",
    "tv_destroy_releases",
    "tv_setup_destroy_balanced"
   ],
   "note": "Every allocation schedule. Balance after success; clean failure of the first 1D set-up; the failures of the rest as theorems and witnesses."
  },
  {
   "property": "C52",
   "status": "proved",
   "theorems": [
    "dct_setup_rejects_sizes",
    "dct_setup_overflow_undefined",
    "dct_setup_null_undefined",
    "dct_setup_decides",
    "dct_repeated_index_refuted"
   ],
   "note": "Decision table over all integers. The last theorem also shows that n > mrow*mcol is accepted."
  },
  {
   "property": "C53",
   "status": "proved",
   "theorems": [
    "dct_second_setup_takes_over",
    "dct_two_transforms_refuted",
    "tv_second_setup_takes_over"
   ],
   "note": "Same kind (both 1D or both 2D); the two kinds have separate static variables."
  },
  {
   "property": "C54",
   "status": "proved",
   "theorems": [
    "matrix_operators_adjoint",
    "matrix_calls_history_independent",
    "matrix_setup_rejects",
    "matrix_setup_decides",
    "matrix_destroy_releases",
    "matrix_setup_destroy_balanced",
    "matrix_second_setup_takes_over"
   ],
   "note": "Adjoint and linear over the reals, AtAx = Aty after Ax in any arithmetic. cblas_dgemv is modelled by the loops of the reference BLAS; int overflow inside BLAS is not modelled."
  },
  {
   "property": "C55",
   "status": "proved",
   "theorems": [
    "tv_dictionary",
    "tv_synthesis_dictionary"
   ],
   "note": "Exact arithmetic; dictionary and transpose written out in S_TVtApi (dict, dictT); adjointness for every combination of scales, the norm bound with the field norm_W in analysis mode, after every history of calls."
  },
  {
   "property": "C56",
   "status": "proved",
   "theorems": [
    "tv_AtAx_never_set",
    "tv_AtAx_refuted",
    "tv_setup_decides",
    "tv_setup_overflow_undefined",
    "tv_setup_no_work_array",
    "tv_rejected_call_drops_differences",
    "tv_rejected_call_refuted"
   ],
   "note": "Decision table over all arguments, with what a rejected call leaves in the static variables; the damage to a live transform is a theorem for every live transform and rejected calls with scales <= 0 and the same image size, and a concrete witness."
  },
  {
   "property": "C57",
   "status": "proved",
   "theorems": [
    "dct_Mx_argument",
    "dct_Mx_argument_unchanged_R",
    "dct_Mx_changes_argument_refuted"
   ],
   "note": "Any arithmetic; unchanged in exact arithmetic; in doubles 7*sqrt2/sqrt2 <> 7."
  },
  {
   "property": "C58",
   "status": "proved",
   "theorems": [
    "l1qc_dct_rejects_sizes",
    "l1qc_dct_rejects_index",
    "l1qc_dct_overflow_undefined",
    "l1qc_dct_setup_out_of_memory",
    "l1qc_dct_outcome",
    "l1qc_dct_error_keeps_output",
    "l1qc_dct_status",
    "l1qc_dct_releases",
    "l1qc_dct_1d_setup_releases",
    "l1qc_dct_1d_again_undefined",
    "l1qc_dct_2d_setup_leaks",
    "l1qc_dct_u_refused_undefined",
    "l1qc_dct_returns",
    "l1qc_dct_leak_refuted"
   ],
   "note": "Every arithmetic and every allocation schedule. The release of all memory holds once the set-up succeeded, and for a first failed 1D set-up; it is refuted for a failed 2D set-up, and a failed later 1D set-up is undefined."
  },
  {
   "property": "C59",
   "status": "proved",
   "theorems": [
    "check_input_size_accepts_all",
    "check_input_size_refuted"
   ],
   "note": "In IEEE binary64 (Flocq): 0 for every int; 511*511 is a witness that the documented check does not happen."
  },
  {
   "property": "C60",
   "status": "proved",
   "theorems": [
    "indices_converted",
    "integer_doubles_converted",
    "mex_bad_index",
    "fractional_index_accepted",
    "index_without_int_undefined",
    "index_INT_MIN_undefined"
   ],
   "note": "The conversion is exact and reports bad values of int size without leak. Values without an int value, and INT_MIN, are undefined behaviour instead of an error; fractions are cut off silently."
  },
  {
   "property": "C61",
   "status": "proved",
   "theorems": [
    "load_no_file",
    "load_reads_file",
    "load_empty_file",
    "load_out_of_memory",
    "load_INT_MAX_undefined",
    "load_long_file_cut",
    "load_ignores_parse_errors",
    "load_reports_parse_error_refuted"
   ],
   "note": "For every file system and every parser: every way a load can go. The property as one would like it (errors reported) is refuted with a witness."
  },
  {
   "property": "C62",
   "status": "proved",
   "theorems": [
    "replace_returns_previous",
    "replace_and_restore"
   ],
   "note": "For every sequence of installed functions."
  },
  {
   "property": "C63",
   "status": "proved",
   "theorems": [
    "C21_exact_start_runs_on"
   ],
   "note": "Extended reals."
  },
  {
   "property": "C64",
   "status": "proved",
   "theorems": [
    "C64_zero_start"
   ],
   "note": "Extended reals."
  },
  {
   "property": "C65",
   "status": "proved",
   "theorems": [
    "C65_queue_not_aligned"
   ],
   "note": "Every arithmetic."
  },
  {
   "property": "C66",
   "status": "proved",
   "theorems": [
    "C66_zero_start"
   ],
   "note": "Extended reals."
  },
  {
   "property": "C67",
   "status": "proved",
   "theorems": [
    "C67_zero_norm"
   ],
   "note": "Extended reals."
  },
  {
   "property": "C68",
   "status": "proved",
   "theorems": [
    "C68_stages",
    "C68_rate",
    "C68_stages_tv",
    "C68_rate_tv",
    "C68_near_optimal_tv"
   ],
   "note": "Extended reals, exact arithmetic. The bound is against a feasible minimiser of the smoothed objective; when W is bounded below (the library's is) such a minimiser exists and the bound needs no knowledge of it. The constants are those of the iterates the code returns (xk, not yk)."
  },
  {
   "property": "C69",
   "status": "proved",
   "theorems": [
    "tv_synthesis_Aty_undefined",
    "demoT_Aty_refuted",
    "tv_synthesis_dictionary"
   ],
   "note": "Any arithmetic, after any history of Mty, Wz, Wtx, Rx, Rty."
  },
  {
   "property": "C70",
   "status": "proved",
   "theorems": [
    "tv_synthesis_Wtx_truncates",
    "tv_synthesis_W_identity_refuted"
   ],
   "note": "Any arithmetic in which v*sqrt2/sqrt2=v (only for the 1D base transform); witness 3x3."
  },
  {
   "property": "C71",
   "status": "proved",
   "theorems": [
    "C71_accesses_faithful",
    "C71_math_parallel",
    "C71_tv_parallel",
    "C71_newton_parallel"
   ],
   "note": "Every distribution of iterations over threads and every interleaving of single loads and stores (sequentially consistent memory; a program without data races has only such executions in C). Private variables are taken as private: the private clauses were checked by reading. The Newton loops assume their arrays do not overlap, as they are separate allocations."
  },
  {
   "property": "C72",
   "status": "proved",
   "theorems": [
    "l1qc_dct_reproduces_measurements",
    "l1qc_dct_negative_eps",
    "l1qc_dct_zero_measurements_undefined"
   ],
   "note": "Extended reals; the transforms are exact on finite data. Composition of the set-up, the DCT operators and the whole solver."
  },
  {
   "property": "C73",
   "status": "proved",
   "theorems": [
    "mex_outcome",
    "mex_reproduces_measurements",
    "mex_out_of_memory",
    "mex_bad_index",
    "mex_solver_failure_uninitialised",
    "mex_negative_eps_uninitialised",
    "mex_reports_solver_error_refuted",
    "mex_ignores_dct_mode"
   ],
   "note": "The false part is refuted with a witness (negative epsilon)."
  },
  {
   "property": "C74",
   "status": "proved",
   "theorems": [
    "breg_mex_outcome",
    "breg_mex_no_iterations",
    "breg_mex_out_of_memory",
    "breg_mex_neighbours_wrong",
    "breg_mex_neighbours_square",
    "breg_mex_shape_refuted",
    "breg_mex_leak_refuted",
    "breg_mex_silent_refuted"
   ],
   "note": "Every arithmetic and allocation schedule; each false part is a theorem for all inputs of its kind and has a concrete witness."
  },
  {
   "property": "C75",
   "status": "proved",
   "theorems": [
    "extract_double_result",
    "extract_int_result",
    "extract_double_array_result",
    "extract_double_array_numbers",
    "extract_int_array_result",
    "extract_array_accepts_anything",
    "valueint_b64",
    "extract_array_reports_items_refuted",
    "extract_int_array_refused_refuted"
   ],
   "note": "All trees, names, allocation schedules; the false parts have concrete witnesses. The cJSON tree is a value; its own memory is not modelled."
  },
  {
   "property": "C76",
   "status": "proved",
   "theorems": [
    "nesta_tv_outcome"
   ],
   "note": "Extended reals with exact DFTs on finite data. Needs measurements that are not all zero when at least one stage is asked for (the zero case is C66). Each of the four outcomes is exhibited on a 3 x 3 image."
  },
  {
   "property": "C77",
   "status": "proved",
   "theorems": [
    "nesta_mex_returns",
    "nesta_mex_bad_index",
    "nesta_mex_weights_message",
    "nesta_mex_index_memory",
    "nesta_mex_out_of_memory_leaks",
    "nesta_mex_solver_failure_undefined",
    "nesta_mex_queue_undefined"
   ],
   "note": "The failures are theorems for every arithmetic and allocation schedule of their kind; the result theorem is for the extended reals. Every case is exhibited on a 3 x 3 image. mxCreateDoubleMatrix is taken to succeed."
  },
  {
   "property": "C78",
   "status": "proved",
   "theorems": [
    "py_l1qc_bad_arguments",
    "py_l1qc_bad_mode",
    "py_l1qc_rejects",
    "py_l1qc_bad_index",
    "py_l1qc_keywords",
    "py_l1qc_outcome",
    "py_l1qc_result_never_released",
    "py_l1qc_reproduces_measurements",
    "py_l1qc_negative_eps",
    "py_l1qc_zero_measurements_undefined",
    "py_l1qc_releases_result_refuted"
   ],
   "note": "Python and numpy by their documentation; parsed arguments are the input. Outcomes and leaks for every arithmetic and allocation schedule; the result theorem is for the extended reals."
  },
  {
   "property": "C79",
   "status": "proved",
   "theorems": [
    "py_breg_bad_arguments",
    "py_breg_rejects",
    "py_breg_outcome",
    "py_breg_result_never_released",
    "py_breg_error_keeps_memory_refuted",
    "py_breg_releases_result_refuted"
   ],
   "note": "Every arithmetic and allocation schedule; the outcome theorem says which refused request leads where. The leaks have concrete witnesses."
  },
  {
   "property": "C80",
   "status": "proved",
   "theorems": [
    "py_nesta_bad_arguments",
    "py_nesta_bad_mode",
    "py_nesta_rejects",
    "py_nesta_no_memory",
    "py_nesta_transforms_reject",
    "py_nesta_coefficients_overflow",
    "py_nesta_no_work_array",
    "py_nesta_synthesis_weights",
    "py_nesta_synthesis_undefined",
    "py_nesta_solver_memory",
    "py_nesta_result_never_released",
    "py_nesta_outcome",
    "py_nesta_failure_raises_refuted",
    "py_nesta_releases_memory_refuted"
   ],
   "note": "Everything but the result theorem holds in every arithmetic; the result theorem is for the extended reals and, as C76, needs measurements that are not all zero when a stage is asked for. A set-up of the transforms that fails after its first request is not covered here."
  },
  {
   "property": "C81",
   "status": "proved",
   "theorems": [
    "C81_cg_rate"
   ],
   "note": "Extended reals, exact arithmetic; also gives the true residual and the number of iterations. The proof compares CG with Nesterov's iteration in the same Krylov spaces."
  },
  {
   "property": "C82",
   "status": "proved",
   "theorems": [
    "C82_run"
   ],
   "note": "Extended reals, exact arithmetic; operators that compute a matrix, its transpose and their product; all memory granted. The rules of a run are in S_NewtRun.v and do not mention the code."
  },
  {
   "property": "C83",
   "status": "proved",
   "theorems": [
    "C83_certificate",
    "C83_result",
    "C83_small_decrement"
   ],
   "note": "Exact arithmetic. The bound needs delta < 1: newton_tol is compared with the decrement of the unscaled objective, so for large tau a small decrement in the sense of the code no longer gives it. Runs that end by the one-norm rule, a failed search or the limit are covered by C83_result as soon as their last accepted step has delta < 1."
  },
  {
   "property": "C84",
   "status": "proved",
   "theorems": [
    "dct_fields",
    "nesta_dct_outcome",
    "C84_near_optimal"
   ],
   "note": "dct_fields holds in every arithmetic; the others are for the extended reals with FFTW computing its documented transforms exactly. The planner hypothesis is needed for Aty to be the adjoint of Ax (dct_adjoint_dirty_planner_refuted, C48)."
  },
  {
   "property": "C85",
   "status": "proved",
   "theorems": [
    "C85_any_bracketing",
    "C85_dsum",
    "C85_vcl_sum",
    "C85_dnorm1",
    "C85_ddot",
    "C85_dnrm2",
    "C85_dnrm2_err",
    "C85_daxpby_z",
    "C85_daxpy_z",
    "C85_dlogsum",
    "C85_relative_sum_refuted"
   ],
   "note": "Flocq's binary64; BLAS functions in the reference order of additions (C85_any_bracketing covers other orders of plain sums), no fused multiply-add. The log theorem assumes the stated accuracy of log at the arguments it is called with."
  },
  {
   "property": "C86",
   "status": "proved",
   "theorems": [
    "C86_log_lanes",
    "C86_constants",
    "C86_vcl_logsum",
    "C86_order_refuted"
   ],
   "note": "Flocq's binary64 and bit patterns with a single NaN. The approximation error of the rational function is bounded with the Interval tactic, so the standard library's axioms for primitive integers and floats are used. libm's log on the last n mod 4 elements is a parameter with an accuracy hypothesis."
  },
  {
   "property": "C87",
   "status": "proved",
   "theorems": [
    "example_outcome",
    "example_calls_solver",
    "example_indices_refused_undefined",
    "example_solver_failure_unreported",
    "example_no_file",
    "example_no_json",
    "example_short_b_undefined",
    "example_never_overflows",
    "example_recovers",
    "example_status_reports_solver_refuted"
   ],
   "note": "The first eight but example_never_overflows hold in every arithmetic; example_recovers and example_never_overflows are for the extended reals with FFTW computing its documented transforms exactly. atoi, the file system and the JSON parser are arbitrary functions; the memory of the cJSON tree is not modelled. That status 0 means the image was recovered is refuted: the result of l1qc_dct is ignored (l1qc_dct_c.c:79)."
  },
  {
   "property": "C88",
   "status": "proved",
   "theorems": [
    "l1qc_options_built",
    "l1qc_options_unknown",
    "nesta_options_built",
    "nesta_options_unknown",
    "l1qc_called_with_options",
    "nesta_called_with_options",
    "l1qc_dct_mode_refuted",
    "l1_tol_default_refuted",
    "nesta_documented_mode_refuted"
   ],
   "note": "Octave's inputParser by its documentation (no partial matching of names; arguments are name-value pairs, the memory of literals is always granted). l1_tol_default_refuted is for the extended reals, the rest holds in every arithmetic."
  },
  {
   "property": "C89",
   "status": "proved",
   "theorems": [
    "C89_differences",
    "C89_second_differences",
    "C89_adjoint",
    "C89_shrink",
    "C89_multipliers",
    "C89_multiplier_bound_refuted"
   ],
   "note": "IEEE binary64 by Flocq, round to nearest, no fused multiply-add. The second-difference bound is relative to the largest pixel. The multiplier theorem is about one iteration from any state; it assumes that the computed 1/lambda is finite and not negative. That |b| <= 1/lambda holds without rounding terms is refuted."
  },
  {
   "property": "C90",
   "status": "proved",
   "theorems": [
    "C90_gauss_seidel_accuracy",
    "C90_inverse_diagonal"
   ],
   "note": "IEEE binary64 by Flocq, round to nearest, no fused multiply-add. About the sweeps with a given right-hand side; the range of mu and lambda excludes subnormal intermediate coefficients."
  },
  {
   "property": "C91",
   "status": "proved",
   "theorems": [
    "C91_u_step_accuracy"
   ],
   "note": "IEEE binary64 by Flocq, round to nearest, no fused multiply-add (cblas_daxpy is modelled as one product and one sum per entry). The statement is about the u-step of one iteration from any split variables."
  },
  {
   "property": "C92",
   "status": "proved",
   "theorems": [
    "C92_thin_images_refuted",
    "C92_column_difference_refuted",
    "C92_row_sweep_refuted"
   ],
   "note": "Safety for thin images is refuted, for all such calls, not only a witness. Every arithmetic. uk is assumed to be an array of exactly n*m doubles."
  },
  {
   "property": "C93",
   "status": "proved",
   "theorems": [
    "C93_iterates_bounded"
   ],
   "note": "Extended reals: exact arithmetic. The constants are not sharp. The bound is on the mean squared distance; with max_jac_iter <= 0 the image is returned unchanged."
  },
  {
   "property": "C94",
   "status": "proved",
   "theorems": [
    "C94_sweep_descends"
   ],
   "note": "Exact real arithmetic. The right-hand side is stated pixel by pixel (rhs_at); that breg_anis_rhs computes it is part of C91 (in binary64) and of the exact run used for C93."
  },
  {
   "property": "C95",
   "status": "proved",
   "theorems": [
    "C95_small_change_near_optimal"
   ],
   "note": "Extended reals: exact arithmetic. The constants are not sharp. The code itself tests only the change of u, so the hypothesis on d and b is not implied by the stop test."
  },
  {
   "property": "C96",
   "status": "proved",
   "theorems": [
    "C96_tolerance_bounds_excess_refuted"
   ],
   "note": "Refutation, for all mu and tol, in exact arithmetic (extended reals). max_jac_iter = 1, images of 2 x 2 pixels."
  },
  {
   "property": "C97",
   "status": "proved",
   "theorems": [
    "C97_units",
    "C97_brightness"
   ],
   "note": "Extended reals: exact arithmetic. The brightness relation needs tol <= 0, because the stop test is relative to the norm of the image (see C96)."
  },
  {
   "property": "C98",
   "status": "proved",
   "theorems": [
    "C98_optimum_keeps_mean",
    "C98_mean_kept_refuted"
   ],
   "note": "Exact arithmetic. The first theorem is about the documented problem, the second (refutation) about the code with max_jac_iter = 1."
  },
  {
   "property": "C99",
   "status": "proved",
   "theorems": [
    "C99_Ax",
    "C99_Aty",
    "C99_AtAx"
   ],
   "note": "binary64 (Flocq), dgemv in the order of the reference BLAS (i.e. without fused multiply-add or vector lanes). Bounds are relative to the products of absolute values, not to the result."
  }
 ]
}