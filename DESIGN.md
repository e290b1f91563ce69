# Formal model of rabraker/L1c in Rocq/Coq 8.16.1

## Architecture

* `Num.v` - a class `Num` of double arithmetic (constants, + - * /, sqrt, log, exp, fabs, comparisons, isnan, ceil, cast to int).
  The model is written once, for an arbitrary `Num`, and used at
  * `RN`: exact reals;
  * `ER`: exact reals extended with +Inf, -Inf and NaN (IEEE rules for special values, no rounding, no overflow, one unsigned zero that behaves like +0);
  * `FN`: Coq primitive binary64 floats (executable; real IEEE rounding), used for witnesses and for tests;
  * `BN` (`NumB.v`): Flocq's binary64, IEEE rounding as a mathematical object, used where a theorem is about rounding.
  Statements that hold for every `Num` hold for IEEE doubles bit for bit.
* `Mem.v` - C memory and control: blocks of double / int / pointer cells that may be uninitialised, pointers as block+offset,
  an allocator driven by an arbitrary failure schedule, a state monad whose outcome is `Ok` or `Ub reason`
  (out of bounds, use after free, double or invalid free, uninitialised read, NULL dereference, signed overflow,
  misaligned `__builtin_assume_aligned`, bad function pointer, double-to-int overflow). C `int` is `Z` with an overflow check.
* `M_*.v` - the model, function by function, each definition citing file and lines. No proofs in these files.
* `S_*.v` - small independent specifications (dot products, difference operators, DCT formulas, ...).
* `P_*.v` - run lemmas (heap function = pure function) and their consequences.
* `L_*.v` - mathematics that does not mention the code (sums, norms, cosine sums, minimisers, extended reals).
* `E_*.v` - longer concrete runs used as examples.
* `T_*.v` - the property theorems, each followed by `Print Assumptions` and by examples that meet its hypotheses. Most proofs
  are an application of a `P_` lemma; the theorems about MATLAB and Python compose several.

Each C function goes through the same steps: heap model, pure function over `Num`, a run lemma "the heap function ends `Ok` with
exactly this state" for every `Num`, then mathematics at `RN` or `ER`.

## Plan per property

* **C01** Horizontal difference operators are exact adjoints. l1c_Dx/l1c_DxT on the heap (loops, row pointers). Run lemma to a pure list function, then summation by parts over R, lifted to the extended reals.
* **C02** Vertical difference operators are exact adjoints. Same for l1c_Dy/l1c_DyT.
* **C03** Second-difference operators equal the composition of their factors. Pointwise comparison of the pure functions; `_refuted` witness for n=1.
* **C04** Difference operators are memory safe and touch only the output. Run lemmas return Ok with exactly the output segment replaced, for every Num instance; m=1 runs to the Ub outcome (`_refuted`).
* **C05** Parallel loops give one result for every thread schedule. Loop bodies are separate definitions; iterating them over any permutation of the index range gives the same final state. The OpenMP memory model itself is not modelled: iterations are atomic, justified by disjoint footprints, also proved.
* **C06** Scaled differences never amplify by more than twice the scale. (a-b)^2<=2a^2+2b^2 summed over rows/columns.
* **C07** Vectorised reductions cover every element exactly once. Four-lane loop plus tail modelled with N&~3 as Z.land; sums compared over R by permutation of summands.
* **C08** Vector maximum is an attained upper bound. Loop fold; at the extended reals.
* **C09** Elementwise kernels compute exactly their formula and nothing else changes. Run lemmas with exact final state for every Num.
* **C10** Two-dimensional allocation is all or nothing. Allocator with an arbitrary failure schedule; induction over rows.
* **C11** Shrinkage is the proximal operator of the scaled absolute value. Case analysis at R.
* **C12** The stored Hessian diagonal is the reciprocal diagonal of the denoising operator. Nine-case stencil modelled loop by loop, compared with the operator built from the TV model.
* **C13** Relaxation sweeps have exactly the right fixed points. Fixed point of the in-place sweep, pointwise; uniqueness by C14.
* **C14** Every relaxation sweep contracts the error. Sup-norm induction along the sweep order.
* **C15** TV denoising releases everything it allocates whichever allocation fails. Whole function in the heap monad; every failure schedule.
* **C16** A state the TV denoiser no longer changes is the global optimum. Convex optimality: subgradient inequality from the shrinkage relations and the normal equation.
* **C17** TV denoiser degenerate runs. Run of the pure iteration from a constant image.
* **C18** Bregman multipliers stay bounded. Invariant of the pure iteration.
* **C19** CG reports the residual of the x it returns. Loop invariant r=b-Ax at the extended reals.
* **C20** CG never returns a worse point than it was given. Loop invariant for any Num.
* **C21** CG solves a positive-definite system in at most N steps. Orthogonality/conjugacy invariants, N+1 orthogonal vectors in R^N.
* **C22** Preconditioned CG does not report the residual of its result. Concrete 1x1/2x2 witness evaluated in the model.
* **C23** CG leaves a zero right-hand side unsolved. Loop invariant at the extended reals: the best residual is never finite.
* **C24** Line search success means sufficient decrease at the first acceptable step. Loop invariant for any Num and any objective.
* **C25** Line search failure leaves the point unchanged. Same.
* **C26** The plain line search is wrong when the objective caches its value in fx0. Objective with state aliasing the fx0 cell; witness.
* **C27** An infeasible start is rejected and nothing is changed. Run of the heap model.
* **C28** Accepted Newton points stay strictly feasible. Extended reals: log of a negative number is NaN, of 0 is -Inf.
* **C29** The l1qc solver returns a feasible point when started at one. Invariant through the Newton and barrier loops for arbitrary CG results.
* **C30** Barrier gradient is the gradient of the barrier objective. Derivative in every direction (stdlib derivable_pt_lim).
* **C31** Block elimination solves the full Newton system. Algebra over R.
* **C32** The maximum step keeps both constraints strictly satisfied. Quadratic root and ratio bounds over R.
* **C33** Initialisation makes a strictly feasible pair exactly when x is not zero. Extended reals.
* **C34** The number of barrier stages guarantees the duality gap only up to a factor mu. log/ceil inequality over R; witness for the excess.
* **C35** Newton iteration accounting. Counter in the model.
* **C36** CG failure is not reported by the l1qc solver. Status of every run.
* **C37** The l1qc solver releases everything whichever allocation fails. Heap model with an uninitialised struct as Ub; witness schedule.
* **C38** The l1qc solver needs at most as many measurements as unknowns. Sizes in the heap model.
* **C39** NESTA's projection step is the exact constrained minimiser. KKT argument over R.
* **C40** NESTA returns a feasible point. Invariant over all iterations.
* **C41** NESTA's objective is the Huber smoothing of the l1 norm with its true gradient. Coordinatewise maximisation and derivative.
* **C42** NESTA's continuation ends exactly at the requested smoothing and tolerance. Powers over R.
* **C43** NESTA's initial smoothing is 0.9 times the sup-norm of W^T A^T b. Theorem for p<=m, witness for p>m.
* **C44** NESTA's running mean is the mean of the last ten values. Ring buffer invariant.
* **C45** NESTA resource handling under allocation failure and bad arguments. Heap model; witness schedules.
* **C46** One-dimensional DCT transform is orthonormal. Cosine sums over R; FFTW kinds given by their documented formulas.
* **C47** Two-dimensional DCT transform is orthonormal. Separable use of C46.
* **C48** Subsampled DCT measurement operators are adjoint with orthonormal rows, if the indices are distinct. NoDup masks; witness for duplicates.
* **C49** AtAx is Aty after Ax. Run lemmas.
* **C50** Transform results do not depend on the calls made before. Invariant on the static buffers over operation lists.
* **C51** Transform set-up and destroy are balanced under allocation failure. State machine with failure schedule; witnesses.
* **C52** DCT set-up rejects exactly the invalid argument combinations. Decision table over Z.
* **C53** Two live DCT transforms interfere. Witness history.
* **C54** Explicit-matrix operators are adjoint and consistent. Row-major matrix model.
* **C55** The overcomplete dictionary is adjoint and within its stated norm. From C02/C06/C46.
* **C56** DCT-TV set-up: what is set and what a failed call leaves behind. Struct with uninitialised fields; witness history.
* **C57** Applying Mx does not change its input. Exact proof at R; IEEE witness with Coq primitive floats.
* **C58** l1qc_dct writes its output only on success and masks the cause of set-up failure. Heap model of l1qc_dct on top of the solver model.
* **C59** Input-size check of the MEX interface never rejects. Z arithmetic: the double quotient by 8 is exact.
* **C60** MATLAB indices are converted exactly. List model of the conversion.
* **C61** JSON loading reports success when parsing failed. Parser as oracle.
* **C62** Replacing the print function returns the previous one. State machine.
* **C63** CG started at the exact solution does not stop. The residual 0 gives 0/0 in the first step; NaN invariant at the extended reals.
* **C64** A zero start with automatic stage count is undefined behaviour. ceil of a non-finite number cast to int.
* **C65** NESTA requires malloc to return aligned memory. `__builtin_assume_aligned` on the fifo and the caller's arrays.
* **C66** NESTA returns no finite number when the starting coefficients vanish. Smoothing starts at 0, division 0/0; NaN invariant.
* **C67** NESTA returns no finite number when norm_W is zero. Same, through the Lipschitz constant.
* **C68** Stages and rate of NESTA. Every stage is a run of Nesterov's method with geometric smoothing and tolerance; estimate-sequence proof of the O(1/k^2) rate at the extended reals on finite data; existence of a minimiser by compactness (`L_Min.v`) when W is bounded below, which the library's TV dictionary is.
* **C69** A^T of the synthesis DCT-TV transform reads uninitialised memory. Every history of the other operators keeps the cells uninitialised.
* **C70** W of the synthesis DCT-TV transform. Exact value of the run; witness that it is not the identity.
* **C71** No data race. `M_Par.v`: threads as sequences of single loads and stores, arbitrary distribution and interleaving; disjoint footprints give race freedom and the sequential result.
* **C72** l1qc_dct recovers an image that reproduces the measurements. Composition of set-up, DCT operators and solver at the extended reals.
* **C73, C74, C77** The MEX gateways. `mexFunction` over a model of `mxArray`, options struct and MATLAB's error exit; outcome theorems for every argument list, then the meaning of the result.
* **C75** JSON helpers. The parsed tree as a value; what each helper hands back and allocates.
* **C76** NESTA on the library's own DCT-TV transforms. Hypotheses of C39-C44 and C68 discharged for the real set-up.
* **C84** NESTA on the library's plain DCT transforms. The same, with W the identity and A = sampling after the inverse DCT.
* **C85** Rounding errors of the vector kernels, on Flocq's binary64: error bounds and absence of overflow for sums in any bracketing, the vectorised sum, norms, dot products, elementwise kernels and the sum of logarithms (S_Round.v, T_Round.v). BLAS calls are modelled in the reference order without fused multiply-add.
* **C86** The logarithm of the vector class library: relative error 2^-49 on all normal numbers, the special values, independence of the lanes, and the resulting bound for vcl_logsum (M_VclLog.v, T_VclLog.v; approximation error in L_LogApprox.v by interval arithmetic). The sum depends on the order if a product is subnormal (C86_order_refuted).
* **C87** The example program: what its exit status means, what it releases, where it is undefined, and that it recovers an image
  (M_Example.v, T_Example.v).
* **C88** The MATLAB option builders: the struct that is built completes a correct call of the MEX function, with the last value given or
  the default of each option; which documented options do not work (M_MatOpts.v, T_MatOpts.v).
* **C89** The TV operators, the shrinkage and one Bregman iteration on Flocq's binary64: forward error, absence of overflow, adjointness up to
  rounding, and the subgradient relation between multiplier and shrunk difference, exact below the threshold (L_RoundTV.v, T_RoundTV.v).
  `soft` and `clip` (L_RoundTV.v) are the textbook functions; no fused multiply-add.
* **C90** The Gauss-Seidel sweeps on Flocq's binary64: no overflow, geometric convergence to a level proportional to the condition number
  of the system, accuracy of the inverse diagonal (L_RoundGS.v, T_RoundGS.v). The system is stated by `solves` of S_Img.v, as in C13.
* **C91** The whole u-step on Flocq's binary64: breg_anis_rhs and the sweeps (T_RoundUStep.v). The exact right-hand side is written out per
  pixel by `rhs_at` there.
* **C92** Images of one row or one column: the C function reads out of bounds (T_Thin.v); with C15 this settles all sizes from 1 x 1.
* **C93** The iterates of the TV denoiser stay in a fixed ball around the given image, for all numbers of iterations and sweeps (L_BregBound.v: energy of the sweeps; T_BregBound.v). Exact arithmetic.
* **C94** A Gauss-Seidel sweep lowers the objective of the u-step by an exactly known amount (T_BregDescent.v). Exact arithmetic.
* **C95** An iteration of the TV denoiser that changes u, d and b little ends near the optimum, with explicit constants (T_BregNear.v). Exact arithmetic. The code's stop test looks at u only, so it does not establish the hypothesis.
* **C96** The stop test of the TV denoiser says nothing about the distance to the optimum: for all mu and tol there is an image on which it stops after two iterations with an objective at least 1/mu too large (T_BregTol.v). Exact arithmetic.
* **C97** The TV denoiser commutes with scaling of the image (mu scaled inversely), with its negation and, with the stop test off, with adding a constant (T_BregScale.v). Exact arithmetic.
* **C98** The minimiser of the TV problem has the mean of the given image; the image returned by the denoiser need not, for any tolerance (T_BregMean.v). Exact arithmetic.
* **C99** The explicit-matrix operators of src/matrix_transforms.c at binary64 (T_RoundMat.v): componentwise error bounds for `Ax`, `Aty` and `AtAx`, with underflow terms and no-overflow conditions. `cblas_dgemv` adds in the order of the reference BLAS; another order of the same additions is not covered here.
* **C100** Order, stability in the maximum norm and range of the minimisers of the TV problem, and the range of a state at rest of the denoiser (T_BregCmp.v). Exact arithmetic; not claimed for the image the denoiser returns before it is at rest.
* **C81** Convergence rate of CG. Iterate k minimises the energy over the Krylov space; Nesterov's iteration stays in the same spaces and contracts.
* **C82, C83** A call of `l1c_l1qc_newton` at the extended reals as a run of the log-barrier method (`S_NewtRun.v` states the rules without the code), and a duality-gap certificate for its result.
* **C78, C79, C80** The Python functions. Reference counts of numpy objects as blocks with owners, parsed arguments as input; outcome, leaks, result in terms of the keywords.

## Trusted base

* Coq's kernel (and `coqchk`). Standard-library axioms only, and Flocq/Coquelicot/std++ as libraries without axioms of their own.
* The reading of /repo: nothing ties the model to the code except the citations. The code was not built or run.
* The stated behaviour of what the code calls and the model replaces, listed below under "Assumed behaviour of callees".

### What Print Assumptions lists

`Print Assumptions` stands under the theorems in the `T_*.v` files. Over all theorems named in MANIFEST.json the answers are:

* **0**: "Closed under the global context".
* **R**: axioms under Coq's real numbers, all or some of: `ClassicalDedekindReals.sig_forall_dec`, `ClassicalDedekindReals.sig_not_dec`,
  `Classical_Prop.classic`, `FunctionalExtensionality.functional_extensionality_dep`.
* **F**: Coq's primitive numbers only: the `PrimFloat` and `PrimInt63` operations, and for `C08` also `FloatAxioms.eqb_spec`, `ltb_spec`.
* **I**: the axioms of R and the specifications of Coq's primitive numbers (`PrimInt63`, `PrimFloat` operations; `Uint63.*_spec`, `FloatAxioms.*_spec` and
  the like), which the `interval` tactic computes with. All of them are the standard library's.

Per theorem (theorems not named in the other columns are of kind 0):

| property | R | F | I |
|---|---|---|---|
| C01 | all | - | - |
| C02 | all | - | - |
| C03 | all | - | - |
| C04 | - | - | - |
| C05 | - | - | - |
| C06 | all | - | - |
| C07 | all | - | - |
| C08 | - | `C08_max_vec_ieee` | - |
| C09 | - | - | - |
| C10 | - | - | - |
| C11 | all | - | - |
| C12 | all | - | - |
| C13 | all | - | - |
| C14 | all | - | - |
| C15 | - | - | - |
| C16 | all | - | - |
| C17 | `C17_constant_image` | - | - |
| C18 | all | - | - |
| C19 | all | - | - |
| C20 | - | - | - |
| C21 | all | - | - |
| C22 | - | `C22_precond_refuted` | - |
| C23 | all | - | - |
| C24 | - | - | - |
| C25 | - | - | - |
| C26 | `C26_xu_alias_safe`, `C26_plain_alias_always_fails` | `C26_plain_alias_refuted` | - |
| C27 | `C27_exact` | - | - |
| C28 | all | - | - |
| C29 | all | - | - |
| C30 | all | - | - |
| C31 | all | - | - |
| C32 | all | - | - |
| C33 | all | - | - |
| C34 | `C34_stage_count`, `C34_gap_at_exit` | - | - |
| C35 | - | - | - |
| C36 | - | - | - |
| C37 | - | - | - |
| C38 | - | - | - |
| C39 | all | - | - |
| C40 | all | - | - |
| C41 | all | - | - |
| C42 | all | - | - |
| C43 | all | - | - |
| C44 | all | - | - |
| C45 | - | - | - |
| C46 | all | - | - |
| C47 | all | - | - |
| C48 | all | - | - |
| C49 | - | - | - |
| C50 | `dct_calls_history_independent_R` | `dct_Rty_old_contents_refuted` | - |
| C51 | `dct1_retry_refuted`, `dct2_failed_setup_refuted` | - | - |
| C52 | `dct_repeated_index_refuted` | - | - |
| C53 | `dct_two_transforms_refuted` | - | - |
| C54 | `matrix_operators_adjoint` | - | - |
| C55 | all | - | - |
| C56 | `tv_rejected_call_drops_differences`, `tv_rejected_call_refuted` | - | - |
| C57 | `dct_Mx_argument_unchanged_R` | `dct_Mx_changes_argument_refuted` | - |
| C58 | `l1qc_dct_leak_refuted` | - | - |
| C59 | all | - | - |
| C60 | `integer_doubles_converted`, `fractional_index_accepted` | - | - |
| C61 | - | - | - |
| C62 | - | - | - |
| C63 | all | - | - |
| C64 | all | - | - |
| C65 | - | - | - |
| C66 | all | - | - |
| C67 | all | - | - |
| C68 | all | - | - |
| C69 | `demoT_Aty_refuted`, `tv_synthesis_dictionary` | - | - |
| C70 | `tv_synthesis_W_identity_refuted` | - | - |
| C71 | - | - | - |
| C72 | all | - | - |
| C73 | `mex_reproduces_measurements`, `mex_negative_eps_uninitialised`, `mex_reports_solver_error_refuted` | - | - |
| C74 | `breg_mex_shape_refuted`, `breg_mex_leak_refuted`, `breg_mex_silent_refuted` | - | - |
| C75 | `valueint_b64` | - | - |
| C76 | all | - | - |
| C77 | `nesta_mex_returns`, `nesta_mex_queue_undefined` | - | - |
| C78 | `py_l1qc_reproduces_measurements`, `py_l1qc_negative_eps`, `py_l1qc_zero_measurements_undefined`, `py_l1qc_releases_result_refuted` | - | - |
| C79 | - | - | - |
| C80 | `py_nesta_outcome`, `py_nesta_failure_raises_refuted`, `py_nesta_releases_memory_refuted` | - | - |
| C81 | all | - | - |
| C82 | all | - | - |
| C83 | all | - | - |
| C84 | `nesta_dct_outcome`, `C84_near_optimal` | - | - |
| C85 | all | - | - |
| C86 | `C86_constants`, `C86_order_refuted` | - | `C86_log_lanes`, `C86_vcl_logsum` |
| C87 | `example_never_overflows`, `example_recovers`, `example_status_reports_solver_refuted` | - | - |
| C88 | `l1_tol_default_refuted` | - | - |
| C89 | all | - | - |
| C90 | all | - | - |
| C91 | all | - | - |
| C92 | - | - | - |
| C93 | all | - | - |
| C94 | all | - | - |
| C95 | all | - | - |
| C96 | all | - | - |
| C97 | all | - | - |
| C98 | all | - | - |
| C99 | all | - | - |
| C100 | all | - | - |

## Modelled

| source | model | what is left out |
|---|---|---|
| src/TV.c | M_TV.v | nothing |
| src/l1c_math.c, include/l1c_math.h | M_Math.v | `restrict` and alignment are checked, not used for optimisation |
| src/vcl/vcl_math.cpp | M_Math.v (four lanes, horizontal add as in vectorf256.h) | the logarithm of a lane is the `log` of `Num` there; M_VclLog.v has the library's own logarithm (vectormath_exp.h:625-849: bit manipulations, rational function, special cases) on binary64, with any choice of fused multiply-adds; NaN payloads are not modelled |
| src/l1c_memory.c | M_Memory.v | posix_memalign and _mm_malloc are both "grant or NULL" |
| src/bregman.c | M_Bregman.v | time stamps, messages |
| src/cgsolve.c | M_CG.v | the table printed when verbose |
| src/linesearch.c | M_LineSearch.v | messages |
| src/l1qc_newton.c, include/l1qc_newton.h | M_Newton.v | messages, time stamps |
| src/nesta.c, include/nesta.h | M_Nesta.v | messages |
| src/dct1.c, src/dct2.c, src/dct_transforms.c | M_Dct1.v, M_Dct2.v, M_Dct.v over M_FFTW.v | FFTW (below) |
| src/dct_tv_transforms.c | M_TVt.v | FFTW (below) |
| src/matrix_transforms.c | M_Matrix.v | cblas_dgemv (below) |
| src/l1qc_dct.c | M_L1qcDct.v | time measurement, messages |
| interfaces/mex/l1qc_dct_opts.m, nesta_opts.m | M_MatOpts.v | partial matching of names; arguments that are not name-value pairs |
| examples/c/l1qc_dct_c.c | M_Example.v | messages, the memory of the cJSON tree |
| src/json_utils.c | M_Json.v | print_vec_*; characters are cells of int blocks |
| src/l1c_logging.c | M_Logging.v | |
| include/l1c.h (status codes, structs, enums) | M_Status.v and the files above | |
| OpenMP loops of the above | M_Par.v | reduction clause (only the addition-tree theorem of C05) |
| interfaces/mex/l1c_mex_utils.c, *_mex.c | M_MexUtils.v, M_Mex.v | messages |
| interfaces/python/l1cPy.c | M_Py.v | module set-up, messages, parsing of the argument tuple |

Not modelled: the compiler; src/check_pthreads.c; the other `.m` files (help texts, examples, tests); L1c.py and `__init__.py`; the Python and MATLAB examples, tests and their helpers
(check_utils.h, TEST.h); build scripts; everything printed; time.

## Assumed behaviour of callees

* **FFTW**: `fftw_plan_r2r_*` either returns NULL or a plan and may overwrite both arrays with anything (`scrib`); executing a plan
  writes the documented REDFT01/REDFT10 (1D or row-column 2D) formula, as an arbitrary function of the input in theorems for every
  arithmetic and as the exact sum at `RN`/`ER` on finite data; `fftw_malloc` may fail and returns uninitialised memory.
* **cblas**: `cblas_dgemv`, `ddot`, `dnrm2`, `daxpy`, `dscal`, `dcopy` do what the loops of the reference BLAS do.
* **malloc family**: the environment decides each request (`alloc_ok`); memory is uninitialised and disjoint from everything live.
  Alignment of memory from plain `malloc` is the environment's choice (`luck`, C65).
* **cJSON, stdio**: file system and parser are arbitrary functions; the cJSON tree is a value, its memory is not modelled.
* **MATLAB**: mx* functions by their documentation; `mxCreate*` succeed; `mexErrMsgIdAndTxt` leaves the gateway at once, memory
  obtained with the library's own allocator stays allocated.
* **Python, numpy**: by their documentation; one allocation request per array (object and data together); numbers inside tuples and
  dictionaries are not objects of their own; the parsed arguments are the input.

## Simplifications and limits of the theorems

* Rounding does not exist in theorems at `RN`/`ER`; overflow does not exist at `ER`, infinities come only from division by zero and
  log of 0. The theorems "for every arithmetic" include IEEE binary64.
* Parallel model: accesses are sequentially consistent single loads and stores, which race freedom (C71) justifies; that the
  variables of a loop body are private was checked by reading. The one reduction loop (l1c_math.c:125-134) is covered by C05's addition-tree theorem.
* `Rty` of the DCT-TV transform computes `0*x_old + ...`: results that go through it depend on old contents in floating point
  (a NaN stays). The NESTA theorems over the library's transform use operators on defined data (`operd`, P_NestaG.v).
* C56: the damage to a live transform is proved for rejected calls with scales <= 0 and n' <= 0.
* C58/C72: the index block is not one of the double blocks, and n <= m.
* C68: the bound is against a feasible minimiser of the smoothed objective; with W bounded below, `c*|v| <= |W v|`, the minimiser
  exists and the bound holds against every feasible point. The bound of the last stage is in terms of the point it starts from.
* C76, C77, C80 (results): analysis mode, and measurements that are not all zero when a stage is asked for (the zero case is C66).
* C74, C77: MATLAB gets row-major data in a column-major matrix; this is part of the statements.
* C80: at least one measurement; a failing set-up of the transform after its first request is not covered there (C51, C56 are about it).
* Where /repo violates a property as a user would want it, the theorem is named `..._refuted` or states the actual behaviour, and the
  `note` in MANIFEST.json says so.
