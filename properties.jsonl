{"id": "C01", "title": "Horizontal difference operators are exact adjoints", "statement": "For every image size n,m with m>=2, every scale alpha and all images u,v, in exact arithmetic the dot product of l1c_Dx(u) with v equals the dot product of u with l1c_DxT(v). l1c_Dx has zero in the last column and alpha*(u[i,j+1]-u[i,j]) elsewhere.", "quantifier": "all n>=0, all m>=2, all alpha, all real images u,v", "why_tests_cant": "Adjointness is an identity over all sizes and all pairs of images; a test compares one image against one stored output.", "anchors": ["src/TV.c:l1c_Dx", "src/TV.c:l1c_DxT", "src/TV.c:ddiff_z", "src/TV.c:ddiffT_z"]}
{"id": "C02", "title": "Vertical difference operators are exact adjoints", "statement": "For every n>=1, m>=1, alpha and all images u,v, in exact arithmetic <l1c_Dy(u),v> = <u,l1c_DyT(v)>; l1c_Dy is zero on the last row and alpha*(u[i+1,j]-u[i,j]) elsewhere.", "quantifier": "all n,m>=1 (including a single row), all alpha, all u,v", "why_tests_cant": "Infinite family of sizes and inputs; boundary rows are where such code goes wrong and tests fix one size.", "anchors": ["src/TV.c:l1c_Dy", "src/TV.c:l1c_DyT"]}
{"id": "C03", "title": "Second-difference operators equal the composition of their factors", "statement": "l1c_DxTDx(u) equals l1c_DxT(l1c_Dx(u)) for every m>=2, and l1c_DyTDy(u) equals l1c_DyT(l1c_Dy(u)) for every n>=2, with the same alpha. For n=1 the vertical claim is false: l1c_DyTDy returns alpha^2*u while l1c_DyT(l1c_Dy(u)) is zero.", "quantifier": "all sizes, alpha, images", "why_tests_cant": "Needs every size, in particular the degenerate single-row image that the tests never run.", "anchors": ["src/TV.c:l1c_DxTDx", "src/TV.c:l1c_DyTDy", "src/TV.c:ddiff2_z"]}
{"id": "C04", "title": "Difference operators are memory safe and touch only the output", "statement": "When X and the output are distinct arrays of n*m doubles, n*m fits in int, and m>=2 for the x operators (n>=1 for the y operators), a call of any of the six operators performs no out-of-bounds access, no signed overflow and no read of uninitialised data, changes no array but the output and initialises every output entry. For m=1, l1c_DxT and l1c_DxTDx read outside the row (out of bounds for the first or last row).", "quantifier": "all n,m,alpha, all heap contents, every arithmetic (IEEE included)", "why_tests_cant": "Absence of out-of-bounds access for all sizes cannot be sampled; m=1 is never tested.", "anchors": ["src/TV.c", "include/l1c.h:l1c_Dx"]}
{"id": "C05", "title": "Parallel loops give one result for every thread schedule", "statement": "For every OpenMP parallel-for loop in the library without a reduction, executing the iterations in any order yields the same final memory as the sequential order, for every arithmetic; the one reduction (l1c_dlogsum) gives the same value for every order and grouping in exact arithmetic.", "quantifier": "every permutation of the iterations of every loop, all sizes and inputs", "why_tests_cant": "Tests see a handful of schedules of the machine they run on.", "anchors": ["src/TV.c", "src/l1c_math.c", "src/bregman.c:breg_shrink1", "src/bregman.c:breg_mxpy_z", "src/l1qc_newton.c:l1c_l1qc_hess_grad"]}
{"id": "C06", "title": "Scaled differences never amplify by more than twice the scale", "statement": "||l1c_Dx(u)||_2^2 <= 4*alpha^2*||u||_2^2 and the same for l1c_Dy, l1c_DxT and l1c_DyT, for every size and image in exact arithmetic.", "quantifier": "all sizes, alpha, u", "why_tests_cant": "The bound is over all images; the constant is used to set a step size, so one bad image diverges.", "anchors": ["src/TV.c", "src/dct_tv_transforms.c:l1c_setup_dctTV_transforms"]}
{"id": "C07", "title": "Vectorised reductions cover every element exactly once", "statement": "vcl_sum(N,x) returns the sum of x[0..N-1], vcl_logsum(N,alpha,x) the sum of log(alpha*x[i]), and vcl_dxMy_pz(N,x,y,z) sets z[i] to x[i]*y[i]+z[i], for every N>=0 including N not a multiple of four, in exact arithmetic, reading each x[i] exactly once and nothing outside the array.", "quantifier": "all N, all data", "why_tests_cant": "Tail handling depends on N mod 4 for every N.", "anchors": ["src/vcl/vcl_math.cpp:vcl_sum", "src/vcl/vcl_math.cpp:vcl_logsum", "src/vcl/vcl_math.cpp:vcl_dxMy_pz", "src/l1c_math.c:l1c_dsum", "src/l1c_math.c:l1c_dlogsum"]}
{"id": "C08", "title": "Vector maximum is an attained upper bound", "statement": "l1c_max_vec(n,x) for n>=1 and NaN-free x returns an element of x that no element exceeds; for n<=0 it returns NaN without reading x; if x[0] is NaN the result is NaN, and NaNs elsewhere are ignored.", "quantifier": "all n, all x including NaN and infinities", "why_tests_cant": "NaN placement and length are unbounded.", "anchors": ["src/l1c_math.c:l1c_max_vec"]}
{"id": "C09", "title": "Elementwise kernels compute exactly their formula and nothing else changes", "statement": "l1c_init_vec, l1c_dxmuly_z, l1c_daxpby_z, l1c_daxpy_z, the fallback l1c_daxpby and l1c_abs_vec set each of the first N output entries to the documented expression of the inputs at the same index, leave entries from N on and all other arrays unchanged, and perform no access outside the first N entries; l1c_abs_vec may be called in place.", "quantifier": "all N, all data, every arithmetic", "why_tests_cant": "A frame condition over all memory and all sizes is not testable.", "anchors": ["src/l1c_math.c"]}
{"id": "C10", "title": "Two-dimensional allocation is all or nothing", "statement": "For every nrow,ncol and every pattern of allocation failures, l1c_malloc_double_2D/l1c_calloc_double_2D either return a pointer to nrow pairwise distinct live rows of ncol entries (zeroed for calloc), or return NULL leaving the set of live allocations exactly as before; l1c_free_double_2D on a returned value releases exactly what was allocated, and is a no-op on NULL.", "quantifier": "every nrow, ncol and every allocation-failure schedule", "why_tests_cant": "Requires a failure at each of nrow+1 points; malloc does not fail in tests.", "anchors": ["src/l1c_memory.c:l1c_malloc_double_2D", "src/l1c_memory.c:l1c_calloc_double_2D", "src/l1c_memory.c:l1c_free_double_2D"]}
{"id": "C11", "title": "Shrinkage is the proximal operator of the scaled absolute value", "statement": "Each entry written by the Bregman shrinkage step with threshold g>=0 is the unique minimiser of g*|d| + (d-x)^2/2 over all real d.", "quantifier": "all N, all x, all g>=0", "why_tests_cant": "A minimisation over all reals for all inputs.", "anchors": ["src/bregman.c:breg_shrink1"]}
{"id": "C12", "title": "The stored Hessian diagonal is the reciprocal diagonal of the denoising operator", "statement": "For all n,m>=2 and mu,lambda>0 the precomputed diagonal equals, entry by entry, one over the diagonal entry of mu*I + lambda*(DxT Dx + DyT Dy), including the four corners and four edges.", "quantifier": "all n,m>=2, all mu,lambda>0", "why_tests_cant": "Nine position classes for all sizes.", "anchors": ["src/bregman.c:breg_hess_inv_diag"]}
{"id": "C13", "title": "Relaxation sweeps have exactly the right fixed points", "statement": "For all n,m>=2, mu,lambda>0 and right side b: u is unchanged by one Gauss-Seidel sweep iff (mu*I + lambda*(DxTDx+DyTDy))u = b iff it is unchanged by one Jacobi sweep; that solution is unique.", "quantifier": "all sizes, mu, lambda, b", "why_tests_cant": "Equivalence over all u and all sizes; a wrong stencil at one edge still looks plausible on a sample.", "anchors": ["src/bregman.c:breg_anis_guass_seidel", "src/bregman.c:breg_anis_jacobi"]}
{"id": "C14", "title": "Every relaxation sweep contracts the error", "statement": "With e the error to the exact solution, one Gauss-Seidel or Jacobi sweep gives max|e_new| <= (4*lambda/(mu+4*lambda)) * max|e_old|, so any number k of sweeps contracts by the k-th power, whatever the start.", "quantifier": "all sizes, all starts, all k, all mu,lambda>0", "why_tests_cant": "Convergence for all starts and all iteration counts.", "anchors": ["src/bregman.c:breg_anis_guass_seidel", "src/bregman.c:breg_anis_jacobi", "src/bregman.c:l1c_breg_anistropic_TV"]}
{"id": "C15", "title": "TV denoising releases everything it allocates whichever allocation fails", "statement": "For all n,m>=2 and every allocation-failure schedule, l1c_breg_anistropic_TV has no undefined behaviour, leaves the set of live allocations and the input image f unchanged, returns L1C_OUT_OF_MEMORY with uk unchanged iff some allocation failed, and otherwise returns L1C_SUCCESS having written all of uk.", "quantifier": "every failure schedule, all sizes and data, every arithmetic", "why_tests_cant": "Needs a failure injected at each of eight points, for all sizes.", "anchors": ["src/bregman.c:l1c_breg_anistropic_TV"]}
{"id": "C16", "title": "A state the TV denoiser no longer changes is the global optimum", "statement": "If a state (u,d_x,d_y,b_x,b_y) of l1c_breg_anistropic_TV is reproduced by one iteration with max_jac_iter >= 1 in exact arithmetic then u minimises ||Dx v||_1+||Dy v||_1+(mu/2)||v-f||_2^2 over all images v.", "quantifier": "all sizes, mu>0, f, all fixed points", "why_tests_cant": "Optimality quantifies over all competitors.", "anchors": ["src/bregman.c:l1c_breg_anistropic_TV", "src/bregman.c:breg_anis_rhs", "src/bregman.c:breg_shrink1"]}
{"id": "C17", "title": "TV denoiser degenerate runs", "statement": "With max_iter<=0 l1c_breg_anistropic_TV returns uk=f. A constant image f is returned unchanged for every tol, max_iter, max_jac_iter and mu>0 in exact arithmetic.", "quantifier": "all sizes, parameters", "why_tests_cant": "All parameter values.", "anchors": ["src/bregman.c:l1c_breg_anistropic_TV"]}
{"id": "C18", "title": "Bregman multipliers stay bounded", "statement": "After every iteration of l1c_breg_anistropic_TV, every multiplier entry satisfies |b| <= 1/lambda with lambda=2*mu, and each d entry and b entry satisfy the shrinkage optimality relation, whatever f, mu>0 and the iteration count.", "quantifier": "all sizes, data and iteration counts", "why_tests_cant": "Invariant over every iteration count.", "anchors": ["src/bregman.c:l1c_breg_anistropic_TV", "src/bregman.c:breg_shrink1", "src/bregman.c:breg_mxpy_z"]}
{"id": "C19", "title": "CG reports the residual of the x it returns", "statement": "For every linear operator A, b with b!=0 and every start x, in exact arithmetic with IEEE special values the cgres returned by l1c_cgsolve equals ||b-A*x_returned||/||b||, also when the run meets a division by zero.", "quantifier": "every linear A, b, x0, N, tol, max_iter", "why_tests_cant": "Universally quantified over operators and stopping points.", "anchors": ["src/cgsolve.c:l1c_cgsolve"]}
{"id": "C20", "title": "CG never returns a worse point than it was given", "statement": "The x returned by l1c_cgsolve is the one with the smallest computed relative residual among the start and all iterates it visited (first such), its reported cgres is that minimum, cgiter is the number of iterations performed (max_iter if that is negative), the status is 0 and only x and the result struct (and the scratch rows) are written; for every arithmetic including NaN-producing operators (max_iter < INT_MAX).", "quantifier": "every arithmetic, operator, data, max_iter", "why_tests_cant": "All histories of residuals including NaN.", "anchors": ["src/cgsolve.c:l1c_cgsolve"]}
{"id": "C21", "title": "CG solves a positive-definite system in at most N steps", "statement": "For every symmetric positive definite A on R^N, every b and start x, in exact arithmetic the residual is zero after at most N iterations; with tol>0 and a start that is not already a solution the run then stops.", "quantifier": "every N, SPD A, b, x0", "why_tests_cant": "Finite termination for all dimensions.", "anchors": ["src/cgsolve.c:l1c_cgsolve"]}
{"id": "C22", "title": "Preconditioned CG does not report the residual of its result", "statement": "For l1c_cgsolve_diag_precond it should hold, as for l1c_cgsolve, that cgres is ||b-A*x_returned||/||b|| and that the returned x is no worse than the start. Both fail: the initial best residual is sqrt(r'M^{-1}r/b'b), mixed with ||r||/||b|| later.", "quantifier": "exists A,b,x0,M_inv", "why_tests_cant": "Existence of a counterexample hidden by well-scaled test data.", "anchors": ["src/cgsolve.c:l1c_cgsolve_diag_precond"]}
{"id": "C23", "title": "CG leaves a zero right-hand side unsolved", "statement": "With b=0, l1c_cgsolve returns its start x unchanged and a non-finite cgres even when A*x!=0, for every operator, max_iter and tol.", "quantifier": "all A, x0, tol, max_iter", "why_tests_cant": "Statement about every run with b=0.", "anchors": ["src/cgsolve.c:l1c_cgsolve"]}
{"id": "C24", "title": "Line search success means sufficient decrease at the first acceptable step", "statement": "If l1c_linesearch_xu returns status 0 with iter k then k<=32, step = s*beta^(k-1), x and u are the old x,u plus step times dx,du, the objective there is not NaN and is <= fx0 + alpha*step*(g.d), fx0 holds that objective value, and every earlier trial step failed the test (NaN or too large). The same for l1c_linesearch with an objective that does not write to fx0.", "quantifier": "every objective (including NaN-returning), data, parameters, every arithmetic", "why_tests_cant": "Quantifies over every objective function and history of trials.", "anchors": ["src/linesearch.c:l1c_linesearch_xu", "src/linesearch.c:l1c_linesearch"]}
{"id": "C25", "title": "Line search failure leaves the point unchanged", "statement": "If no trial step is acceptable, l1c_linesearch_xu and l1c_linesearch return status 1 after exactly 32 trials and x (and u) are unchanged; they always terminate with at most 32 objective evaluations.", "quantifier": "every objective, data, parameters", "why_tests_cant": "Termination and frame for every objective.", "anchors": ["src/linesearch.c:l1c_linesearch_xu", "src/linesearch.c:l1c_linesearch"]}
{"id": "C26", "title": "The plain line search is wrong when the objective caches its value in fx0", "statement": "If the objective function stores its value through the same address that is passed as fx0 (as the Newton solver does), l1c_linesearch is unusable: in exact arithmetic it fails along every descent direction, and in binary64 it can accept a step that increases the objective; l1c_linesearch_xu reads fx0 once and cannot.", "quantifier": "exists objective and data / for all", "why_tests_cant": "An aliasing pattern no unit test uses.", "anchors": ["src/linesearch.c:l1c_linesearch", "src/linesearch.c:l1c_linesearch_xu", "src/l1qc_newton.c:l1c_l1qc_newton"]}
{"id": "C27", "title": "An infeasible start is rejected and nothing is changed", "statement": "If ||A x - b||_2 > epsilon at entry (computed value), l1c_l1qc_newton returns status L1C_INFEASIBLE_START, leaves x and b unchanged, and releases all its memory.", "quantifier": "all n,m, operators, x, b, options", "why_tests_cant": "Every operator and input.", "anchors": ["src/l1qc_newton.c:l1c_l1qc_newton", "src/l1qc_newton.c:_l1c_l1qc_check_feasible_start"]}
{"id": "C28", "title": "Accepted Newton points stay strictly feasible", "statement": "Whenever the barrier objective evaluated at (x,u) is a finite number then |x_i|<u_i for all i and ||Ax-b||<epsilon; hence every step accepted by the line search from a strictly feasible point keeps strict feasibility, for every sequence of steps.", "quantifier": "all points, all accepted step sequences", "why_tests_cant": "Every trajectory, including ones where log sees a non-positive argument.", "anchors": ["src/l1qc_newton.c:_l1c_l1qc_f_eval", "src/linesearch.c:l1c_linesearch_xu"]}
{"id": "C29", "title": "The l1qc solver returns a feasible point when started at one", "statement": "If l1c_l1qc_newton is started with ||A x - b|| < epsilon (<= epsilon) and returns then the returned x satisfies ||A x - b|| < epsilon (<= epsilon), in exact arithmetic with IEEE special values, whatever the options, the conjugate-gradient outcomes and line-search outcomes.", "quantifier": "all linear operators, data, option values", "why_tests_cant": "End-to-end safety over every run.", "anchors": ["src/l1qc_newton.c:l1c_l1qc_newton"]}
{"id": "C30", "title": "Barrier gradient is the gradient of the barrier objective", "statement": "At every strictly feasible (x,u) the vector the solver uses as gradient is the gradient of the objective it evaluates: sum(u) - (1/tau)*(sum log(u_i-x_i) + sum log(u_i+x_i) + log((epsilon^2-||Ax-b||^2)/2)).", "quantifier": "all feasible points, tau>0, operators", "why_tests_cant": "Derivative identity for every point and every operator.", "anchors": ["src/l1qc_newton.c:l1c_l1qc_hess_grad", "src/l1qc_newton.c:_l1c_l1qc_f_eval"]}
{"id": "C31", "title": "Block elimination solves the full Newton system", "statement": "If dx solves the reduced system that is passed to CG then the pair (dx,du) computed by the descent-direction routine solves the full 2m-by-2m Newton system H*(dx,du) = -grad of the barrier objective, and the reduced operator is symmetric positive definite at strictly feasible points.", "quantifier": "all feasible points and operators", "why_tests_cant": "Linear-algebra identity over all sizes.", "anchors": ["src/l1qc_newton.c:_l1c_l1qc_descent_dir", "src/l1qc_newton.c:_l1c_l1qc_H11pfun", "src/l1qc_newton.c:l1c_l1qc_hess_grad"]}
{"id": "C32", "title": "The maximum step keeps both constraints strictly satisfied", "statement": "From a strictly feasible (x,u) and any direction, the step s computed before the line search satisfies 0<s<=0.99 and every t in [0,s] keeps |x_i+t*dx_i| < u_i+t*du_i for all i and ||A(x+t*dx)-b|| < epsilon.", "quantifier": "all feasible points and directions, all operators", "why_tests_cant": "Quantifies over all t, directions and operators.", "anchors": ["src/l1qc_newton.c:_l1c_l1qc_find_max_step"]}
{"id": "C33", "title": "Initialisation makes a strictly feasible pair exactly when x is not zero", "statement": "The u built from x satisfies u_i > |x_i| for every i iff x != 0; for x = 0 all u_i = 0, so the first barrier value is not finite.", "quantifier": "all m, all x", "why_tests_cant": "All x including the zero vector.", "anchors": ["src/l1qc_newton.c:_l1c_l1qc_newton_init"]}
{"id": "C34", "title": "The number of barrier stages guarantees the duality gap only up to a factor mu", "statement": "With tau0 and lbiter as computed, (2m+1)/(tau0*mu^lbiter) <= lbtol, but the last centring stage uses tau0*mu^(lbiter-1), and lbtol < (2m+1)/(tau0*mu^(lbiter-1)) <= mu*lbtol always: the gap guaranteed at exit always misses lbtol, by a factor of at most mu.", "quantifier": "all m, x!=0, mu>1, lbtol>0", "why_tests_cant": "Arithmetic over all parameter values.", "anchors": ["src/l1qc_newton.c:_l1c_l1qc_newton_init", "src/l1qc_newton.c:l1c_l1qc_newton"]}
{"id": "C35", "title": "Newton iteration accounting", "statement": "Each barrier stage performs at most newton_max_iter-1 Newton steps; when a stage is cut off by that limit the reported total_newton_iter exceeds by one per stage the number of steps actually performed.", "quantifier": "all options and runs", "why_tests_cant": "All runs that hit the limit.", "anchors": ["src/l1qc_newton.c:l1c_l1qc_newton"]}
{"id": "C36", "title": "CG failure is not reported by the l1qc solver", "statement": "The status documented for a failed CG solve (L1C_CGSOLVE_FAILURE) is never returned by l1c_l1qc_newton: its status is always one of success, out-of-memory or infeasible-start, and after a CG failure it keeps iterating with a du computed for an earlier point.", "quantifier": "all runs", "why_tests_cant": "Impossibility over all executions.", "anchors": ["src/l1qc_newton.c:l1c_l1qc_newton", "include/l1c.h"]}
{"id": "C37", "title": "The l1qc solver releases everything whichever allocation fails", "statement": "For every allocation-failure schedule l1c_l1qc_newton should return L1C_OUT_OF_MEMORY without leak or undefined behaviour. It does for every failure after the first; if the first allocation (u) fails it releases pointers read from an uninitialised struct (undefined behaviour).", "quantifier": "every failure schedule", "why_tests_cant": "Needs injected failures.", "anchors": ["src/l1qc_newton.c:l1c_l1qc_newton", "src/l1qc_newton.c:_l1c_l1qcProb_new", "src/l1qc_newton.c:_l1c_l1qcProb_delete"]}
{"id": "C38", "title": "The l1qc solver needs at most as many measurements as unknowns", "statement": "With n<=m no access in l1c_l1qc_newton is out of bounds; with n>m (which l1qc_dct accepts when indices repeat) the residual buffer of m entries is overrun.", "quantifier": "all n,m", "why_tests_cant": "Quantifies over all sizes; tests always use n<m.", "anchors": ["src/l1qc_newton.c:l1c_l1qc_newton", "src/l1qc_dct.c:l1qc_dct"]}
{"id": "C39", "title": "NESTA's projection step is the exact constrained minimiser", "statement": "If A A^T = I, sigma>0 and Lmu>0, the vector computed by NESTA's projection from (xx,g,b) minimises (Lmu/2)||x-xx||^2+<g,x> over all x with ||Ax-b||<=sigma, and satisfies that constraint.", "quantifier": "all operators with orthonormal rows, all xx,g,b,sigma,Lmu", "why_tests_cant": "Optimality over all competitors and operators.", "anchors": ["src/nesta.c:l1c_nesta_project"]}
{"id": "C40", "title": "NESTA returns a feasible point", "statement": "If A A^T = I, sigma>0 and all step constants are positive, the xk returned by l1c_nesta satisfies ||A xk - b|| <= sigma for every iteration count and stopping point (exact arithmetic).", "quantifier": "all operators with orthonormal rows, all data, all run lengths", "why_tests_cant": "Safety over every run.", "anchors": ["src/nesta.c:l1c_nesta", "src/nesta.c:l1c_nesta_setup", "src/nesta.c:l1c_nesta_project"]}
{"id": "C41", "title": "NESTA's objective is the Huber smoothing of the l1 norm with its true gradient", "statement": "The value computed by NESTA's evaluation at x is max over |u|_inf<=1 of <u,W^T x> - (mu/2)||u||^2, the vector is its gradient, and 0 <= ||W^T x||_1 - value <= p*mu/2.", "quantifier": "all x, W, mu>0, p", "why_tests_cant": "Extremal characterisation over all u.", "anchors": ["src/nesta.c:l1c_nesta_feval"]}
{"id": "C42", "title": "NESTA's continuation ends exactly at the requested smoothing and tolerance", "statement": "After n_continue stages the smoothing parameter and tolerance of l1c_nesta equal the requested mu and tol (exact arithmetic), for every n_continue>=1 and mu0,mu>0.", "quantifier": "all n_continue, mu, tol, initial values", "why_tests_cant": "All continuation lengths.", "anchors": ["src/nesta.c:l1c_nesta", "src/nesta.c:l1c_nesta_setup"]}
{"id": "C43", "title": "NESTA's initial smoothing is 0.9 times the sup-norm of W^T A^T b", "statement": "The starting smoothing parameter should be 0.9*max_i |(W^T A^T b)_i|. It is when p<=m; when p>m (TV analysis mode) entries beyond index m are not made positive first, so a large negative coefficient is ignored.", "quantifier": "all operators and b / exists counterexample with p>m", "why_tests_cant": "Depends on the sign of entries beyond m.", "anchors": ["src/nesta.c:l1c_nesta_setup"]}
{"id": "C44", "title": "NESTA's running mean is the mean of the last ten values", "statement": "After any sequence of pushes the mean used by the stopping test equals the arithmetic mean of the last min(10,count) pushed values.", "quantifier": "every push sequence", "why_tests_cant": "Every history length.", "anchors": ["src/nesta.c:_l1c_push_fmeans_fifo", "src/nesta.c:_l1c_mean_fmean_fifo", "src/nesta.c:_l1c_new_fmean_fifo"]}
{"id": "C45", "title": "NESTA resource handling under allocation failure and bad arguments", "statement": "For every allocation-failure schedule l1c_nesta should return an error without leak or undefined behaviour. A mismatch of n or m with the transform is rejected with L1C_INVALID_ARGUMENT before anything is written; a failed work-array allocation gives L1C_OUT_OF_MEMORY with everything released; success returns 0 with everything released and only x (and the operators' own memory) written. But a transform that lacks Wz, Wtx, Rx or Rty makes it return L1C_INCONSISTENT_ARGUMENTS with all its work arrays leaked, and a failed allocation of the mean queue is dereferenced.", "quantifier": "every failure schedule, all arguments", "why_tests_cant": "Needs injected failures.", "anchors": ["src/nesta.c:l1c_nesta", "src/nesta.c:_l1c_NestaProb_new", "src/nesta.c:l1c_nesta_setup"]}
{"id": "C46", "title": "One-dimensional DCT transform is orthonormal", "statement": "With FFTW's REDFT10/REDFT01 given by their documented formulas, for every length N>=1 the library's Mx and Mty are exact mutual inverses and adjoints (exact arithmetic).", "quantifier": "all N>=1, all x", "why_tests_cant": "Trigonometric identity for all N.", "anchors": ["src/dct1.c:dct_Mx", "src/dct1.c:dct_Mty", "src/dct1.c:dct_EMx"]}
{"id": "C47", "title": "Two-dimensional DCT transform is orthonormal", "statement": "For every mrow,mcol>=1 the two-dimensional Mx and Mty are exact mutual inverses and adjoints (exact arithmetic).", "quantifier": "all sizes, all x", "why_tests_cant": "All sizes.", "anchors": ["src/dct2.c:dct2_Mx", "src/dct2.c:dct2_Mty"]}
{"id": "C48", "title": "Subsampled DCT measurement operators are adjoint with orthonormal rows, if the indices are distinct", "statement": "For a sampling set without repeated indices, <Ax(x),y>=<x,Aty(y)> and Ax(Aty(y))=y for all x,y. With a repeated index, which set-up accepts, both fail.", "quantifier": "all index sets and vectors", "why_tests_cant": "All masks.", "anchors": ["src/dct1.c:dct_EMx", "src/dct1.c:dct_MtEty", "src/dct2.c:dct2_EMx", "src/dct2.c:dct2_MtEty", "src/dct_transforms.c:check_pix_idx"]}
{"id": "C49", "title": "AtAx is Aty after Ax", "statement": "For every transform that sets AtAx (1D DCT, 2D DCT, explicit matrix) and every input, AtAx(x) = Aty(Ax(x)), for every index set.", "quantifier": "all transforms, sizes, index sets, inputs", "why_tests_cant": "All inputs.", "anchors": ["src/dct1.c:dct_MtEt_EMx", "src/dct2.c:dct2_MtEt_EMx", "src/matrix_transforms.c:AtAx"]}
{"id": "C50", "title": "Transform results do not depend on the calls made before", "statement": "After a successful set-up, for every finite sequence of Ax, Aty, AtAx, Mx, Mty, Rx, Rty calls in any order, each call returns the value determined by its argument alone (in exact arithmetic), and its input array is restored.", "quantifier": "every call history", "why_tests_cant": "Internal buffers carry state between calls; tests run short fixed sequences.", "anchors": ["src/dct1.c", "src/dct2.c"]}
{"id": "C51", "title": "Transform set-up and destroy are balanced under allocation failure", "statement": "Set-up followed by destroy restores the set of live allocations; a failed set-up should leave nothing allocated and be safe to retry. It fails: the 2D set-up leaks on failure, and the 1D set-up, failing after an earlier set-up was destroyed, destroys the old plans twice; calling destroy twice is undefined behaviour; a second set-up while one is live leaks the first.", "quantifier": "every failure schedule and every set-up/destroy history", "why_tests_cant": "Histories with injected failures.", "anchors": ["src/dct1.c:l1c_dct1_setup", "src/dct1.c:dct_destroy", "src/dct2.c:l1c_dct2_setup", "src/dct2.c:dct2_destroy", "src/dct_tv_transforms.c", "src/matrix_transforms.c"]}
{"id": "C52", "title": "DCT set-up rejects exactly the invalid argument combinations", "statement": "l1c_setup_dct_transforms returns L1C_INVALID_ARGUMENT iff n<=0, mrow<=0, mcol<=0 or some of the n indices is outside [0,mrow*mcol), and then allocates and changes nothing; otherwise it sets up the 1D transform iff mrow==1, mcol==1 or dct_mode is dct1, else the 2D one, succeeds iff all five allocation requests are granted, and never returns L1C_INCONSISTENT_ARGUMENTS. It does not check for a NULL index array or for mrow*mcol exceeding INT_MAX: both are undefined behaviour. n>mrow*mcol and repeated indices are accepted.", "quantifier": "all argument combinations", "why_tests_cant": "Complete decision table over unbounded integers and index arrays.", "anchors": ["src/dct_transforms.c:l1c_setup_dct_transforms", "src/dct_transforms.c:check_pix_idx"]}
{"id": "C53", "title": "Two live DCT transforms interfere", "statement": "A user holding two transforms at the same time should get the operator each was set up with. This fails: after a second set-up of the same kind the first handle applies the second operator.", "quantifier": "exists history", "why_tests_cant": "Needs two handles alive together.", "anchors": ["src/dct1.c", "src/dct2.c", "src/dct_tv_transforms.c", "src/matrix_transforms.c"]}
{"id": "C54", "title": "Explicit-matrix operators are adjoint and consistent", "statement": "For every n-by-m matrix, Ax and Aty of the matrix transform are adjoint, AtAx is their composition, set-up rejects n<=0 or m<=0, and set-up/destroy is balanced for every allocation outcome.", "quantifier": "all matrices, sizes, vectors, failure schedules", "why_tests_cant": "All matrices.", "anchors": ["src/matrix_transforms.c"]}
{"id": "C55", "title": "The overcomplete dictionary is adjoint and within its stated norm", "statement": "For the DCT-TV dictionary W and every combination of alpha_v,alpha_h>=0, <W v,x>=<v,W^T x> and ||W^T x||_2 <= norm_W*||x||_2.", "quantifier": "all sizes, alphas, vectors", "why_tests_cant": "Norm bound over all vectors.", "anchors": ["src/dct_tv_transforms.c:Wv", "src/dct_tv_transforms.c:Wtx", "src/dct_tv_transforms.c:l1c_setup_dctTV_transforms"]}
{"id": "C56", "title": "DCT-TV set-up: what is set and what a failed call leaves behind", "statement": "After a successful l1c_setup_dctTV_transforms every operator pointer should be usable and a rejected call should not disturb a live transform. Both fail: AtAx is never assigned, and the static sizes and scales are overwritten before the arguments are checked.", "quantifier": "all argument combinations and histories", "why_tests_cant": "Histories mixing failing and live set-ups.", "anchors": ["src/dct_tv_transforms.c:l1c_setup_dctTV_transforms"]}
{"id": "C57", "title": "Applying Mx does not change its input", "statement": "The one-dimensional Mx should leave its (logically constant) input array unchanged. It does in exact arithmetic; in IEEE double arithmetic entry 0 comes back as (x*sqrt2)/sqrt2, which differs for some doubles.", "quantifier": "all x / exists double", "why_tests_cant": "One particular rounding case among 2^64.", "anchors": ["src/dct1.c:dct_Mx"]}
{"id": "C58", "title": "l1qc_dct writes its output only on success and masks the cause of set-up failure", "statement": "l1qc_dct leaves x_out unchanged unless it returns 0; every set-up failure, including invalid arguments, is reported as L1C_DCT_INIT_FAILURE; the result is then M applied to the solver's coefficient vector; all memory it allocates is released.", "quantifier": "all arguments and failure schedules", "why_tests_cant": "All failure points.", "anchors": ["src/l1qc_dct.c:l1qc_dct"]}
{"id": "C59", "title": "Input-size check of the MEX interface never rejects", "statement": "check_input_size is documented to report sizes that are not a multiple of DALIGN/sizeof(double); it returns 0 for every int.", "quantifier": "every int N", "why_tests_cant": "All 2^32 values.", "anchors": ["interfaces/mex/l1c_mex_utils.c:check_input_size"]}
{"id": "C60", "title": "MATLAB indices are converted exactly", "statement": "The MEX index conversion returns, for every array of doubles holding integers in 1..mtot, the zero-based indices in order, and reports an error without leak if some value is outside that range.", "quantifier": "all arrays", "why_tests_cant": "All lengths and values.", "anchors": ["interfaces/mex"]}
{"id": "C61", "title": "JSON loading reports success when parsing failed", "statement": "load_file_to_json should return non-zero when the file holds no valid JSON. It returns 0 whenever the file was read, even if the parser returned NULL.", "quantifier": "exists file / all files", "why_tests_cant": "Depends on the parser result, not exercised by tests with valid files.", "anchors": ["src/json_utils.c:load_file_to_json"]}
{"id": "C62", "title": "Replacing the print function returns the previous one", "statement": "For every sequence of l1c_replace_printf calls each call returns the function installed by the previous call (the default at first), so replaying the returned values restores the initial state.", "quantifier": "every call sequence", "why_tests_cant": "Every history.", "anchors": ["src/l1c_logging.c:l1c_replace_printf"]}
{"id": "C63", "title": "CG started at the exact solution does not stop", "statement": "If b - A x = 0 at the start (b != 0), l1c_cgsolve divides zero by zero in its first step, every later iterate is NaN, and it performs all max_iter iterations; it still returns the starting x.", "quantifier": "every linear A, b, exact start, max_iter", "why_tests_cant": "Depends on a start that is exact, which rounding hides in tests.", "anchors": ["src/cgsolve.c:l1c_cgsolve"]}
{"id": "C64", "title": "A zero start with automatic stage count is undefined behaviour", "statement": "If x = 0 and lbiter = 0, _l1c_l1qc_newton_init converts ceil((log(2m+1)-log(lbtol)-log(inf))/log(mu)) = -infinity to int, which is undefined behaviour, and it does so before the feasibility of the start is checked.", "quantifier": "all m, operators, b, lbtol>0, mu>1", "why_tests_cant": "Undefined behaviour may give any test result.", "anchors": ["src/l1qc_newton.c:_l1c_l1qc_newton_init", "src/l1qc_newton.c:l1c_l1qc_newton"]}
{"id": "C65", "title": "NESTA requires malloc to return aligned memory", "statement": "The running-mean queue is obtained with plain malloc but passed to l1c_init_vec, which assumes DALIGN alignment. If malloc's block is not so aligned and n_continue >= 1, l1c_nesta has undefined behaviour, although every allocation succeeded and all arguments are valid.", "quantifier": "all operators, data and options with n_continue>=1, every allocator returning an unaligned queue", "why_tests_cant": "malloc often happens to return aligned memory, so tests pass by luck.", "anchors": ["src/nesta.c:_l1c_new_fmean_fifo", "src/nesta.c:l1c_nesta"]}
{"id": "C66", "title": "NESTA returns no finite number when the starting coefficients vanish", "statement": "If no coefficient of W^T A^T b makes the starting smoothing positive (for instance b = 0), then for every n_continue >= 1 l1c_nesta returns status 0 and an x with no finite entry (exact arithmetic with IEEE special values).", "quantifier": "all m>=1, operators, options with mu>0 and n_continue>=1", "why_tests_cant": "All operators and option values; the status is success.", "anchors": ["src/nesta.c:l1c_nesta_setup", "src/nesta.c:l1c_nesta"]}
{"id": "C67", "title": "NESTA returns no finite number when norm_W is zero", "statement": "If the transform's norm_W is 0 (as l1c_setup_matrix_transforms sets it), then for every n_continue >= 1 l1c_nesta returns status 0 and an x with no finite entry.", "quantifier": "all operators with norm_W=0, all data and options with n_continue>=1", "why_tests_cant": "All operators and data; the status is success.", "anchors": ["src/nesta.c:l1c_nesta_setup", "src/nesta.c:l1c_nesta_project", "src/matrix_transforms.c:l1c_setup_matrix_transforms"]}
{"id": "C69", "title": "A^T of the synthesis DCT-TV transform reads uninitialised memory", "statement": "After a successful l1c_setup_dctTV_transforms in synthesis mode, calling the struct's Aty before Ax or Mx is undefined behaviour: Aty passes the never-written work array u to the base transform's Rty, which multiplies its old contents by 0. Once Mx has been called, Aty is W^T R^T.", "quantifier": "all sizes, scales, modes, index lists and histories of the other functions", "why_tests_cant": "Reading uninitialised memory usually gives a plausible number, and tests call Ax first.", "anchors": ["src/dct_tv_transforms.c:Aty", "src/dct_tv_transforms.c:l1c_setup_dctTV_transforms", "src/dct1.c:dct_Rty"]}
{"id": "C70", "title": "W of the synthesis DCT-TV transform should be the identity on all coefficients", "statement": "The header promises W=I in synthesis mode. The struct announces coefficient vectors of length m'=mrow*mcol*(1+number of positive scales), but Wtx copies only the first mrow*mcol entries: it is a truncation, and maps non-zero coefficient vectors to zero whenever a scale is positive.", "quantifier": "all sizes, scales and coefficient vectors", "why_tests_cant": "Statement over all coefficient vectors; tests use vectors of length mrow*mcol only.", "anchors": ["src/dct_tv_transforms.c:Identity", "src/dct_tv_transforms.c:l1c_setup_dctTV_transforms", "include/l1c.h"]}
{"id": "C71", "title": "Parallel loops have no data race under any interleaving of memory accesses", "statement": "For every OpenMP parallel-for loop without a reduction: whenever the sequential execution of the enclosing call is defined, then for every distribution of the iterations over threads and every interleaving of their individual loads and stores, no reachable configuration contains an undefined access or a data race (two threads about to access one double, one of them storing), every execution terminates, and the final memory is that of the sequential execution.", "quantifier": "all sizes, pointers, memories, thread counts, distributions and interleavings; every arithmetic", "why_tests_cant": "A data race shows only under particular timings; no finite set of runs explores all interleavings.", "anchors": ["src/TV.c:115", "src/TV.c:141", "src/TV.c:168", "src/TV.c:205", "src/TV.c:212", "src/TV.c:243", "src/TV.c:275", "src/l1c_math.c", "src/bregman.c:68", "src/bregman.c:85", "src/l1qc_newton.c:125", "src/l1qc_newton.c:202"]}
{"id": "C72", "title": "l1qc_dct recovers an image that reproduces the measurements", "statement": "In exact arithmetic, with FFTW's documented transforms, distinct indices, all memory granted and eps >= 0, l1qc_dct returns 0 and the image in x_out satisfies ||sample(x_out) - b||_2 <= eps (strictly below eps if eps > 0), whatever finite values the planner left in the work array; l1 is the l1 norm of the image's DCT and no other array changes. A negative eps is reported as an infeasible start. With all measurements zero and the number of stages left to the solver the call is undefined.", "quantifier": "all image sizes, index sets, measurements, options; 1D and 2D", "why_tests_cant": "The guarantee quantifies over every image size, index set and measurement vector, and over all barrier and Newton iterates.", "anchors": ["src/l1qc_dct.c:l1qc_dct", "src/l1qc_newton.c:l1c_l1qc_newton", "src/dct1.c", "src/dct2.c"]}
{"id": "C73", "title": "l1qc_dct called from MATLAB returns the image, reports every failure and leaves MATLAB's memory as it was", "statement": "For correct arguments the MEX function of l1qc_dct returns an mrow*mcol column that reproduces the measurements (indices counted from one) up to epsilon, in standard coordinates; refused memory and bad indices raise a MATLAB error; nothing allocated by the MEX function remains and nothing of MATLAB's is changed. The further statement that a failure of the solver raises an error or is otherwise harmless is false: the MEX function then copies memory that was never written. The documented option dct_mode is not read.", "quantifier": "all argument arrays, sizes, options, failure schedules of the allocator", "why_tests_cant": "All failure points and all option values; reading uninitialised memory often goes unnoticed in a test.", "anchors": ["interfaces/mex/l1qc_dct_mex.c:mexFunction", "interfaces/mex/l1c_mex_utils.c"]}
{"id": "C74", "title": "breg_anistropic_TV called from MATLAB denoises the matrix it was given, reports failures and keeps the heap", "statement": "For an r x c matrix of doubles and three scalars the MEX function returns the solver's image and leaves MATLAB's memory as it was. False in part: the output has the sizes c x r (transposed); the column-major data are handed to a row-major solver with the sizes not exchanged, so unless r = c the solver's vertical neighbours are never neighbours in the MATLAB matrix; when the solver refuses, no error is raised and no output is assigned; when memory is refused an error is raised but an array already granted is never released.", "quantifier": "all matrices, sizes, parameters, allocation schedules", "why_tests_cant": "Square test images hide the transposition and the wrong neighbours; refused allocations do not occur in tests.", "anchors": ["interfaces/mex/breg_anistropic_TV_mex.c:mexFunction", "src/bregman.c:l1c_breg_anistropic_TV"]}
{"id": "C75", "title": "What the JSON helpers hand back for a named member", "statement": "extract_json_int / double return the number of the first member with that name, and change nothing when it is missing or not a number; the array functions return one value per item of the array, in order, with the count, in a new block. False in part: items that are not numbers are accepted and silently become 0 (or 1 for true); when memory is refused the double version reports an error (with the count already stored) but the int version stores through NULL.", "quantifier": "all JSON trees, names, allocation schedules", "why_tests_cant": "Test data files contain only well-formed numeric arrays and allocations never fail.", "anchors": ["src/json_utils.c:extract_json_int", "src/json_utils.c:extract_json_double", "src/json_utils.c:extract_json_double_array", "src/json_utils.c:extract_json_int_array"]}
{"id": "C76", "title": "NESTA on the library's own DCT-TV transforms returns an image that meets the measurements", "statement": "After l1c_setup_dctTV_transforms in analysis mode (any scales >= 0, any indices without repetition) and any use of the transforms, l1c_nesta with sigma > 0, mu > 0 and measurements that are not all zero returns 0 and an image whose sampled pixels are within sigma of the measurements, changing no other array, and destroy afterwards releases exactly the six blocks of the set-up; refused work arrays are reported with nothing changed. A refused or unaligned queue of function values is undefined behaviour instead.", "quantifier": "all image sizes, scales, index lists, measurements, options, histories of the transforms, allocation schedules", "why_tests_cant": "Concerns every input and every history of the shared transform state, and refused allocations; the adjoint reads what its result array held, so that feasibility depends on every intermediate value being a number.", "anchors": ["src/nesta.c:l1c_nesta", "src/dct_tv_transforms.c:l1c_setup_dctTV_transforms"]}
{"id": "C77", "title": "nesta_dctTV called from MATLAB", "statement": "For a sensible call in analysis mode with its memory granted and an aligned queue, nesta_dctTV returns an nr x nc matrix whose measured pixels are within sigma of the measurements, status 0, and leaves MATLAB's heap as it was. False otherwise in many ways: weights the transforms reject are reported as a bad index; refused index memory is a store through NULL; refused x0 or b_ours leaks the six blocks of the transforms; in synthesis mode the call is always undefined, and in analysis mode whenever the solver fails, because the unwritten x0 is transformed and shown.", "quantifier": "all image sizes, measurements, index values, options, allocation and alignment schedules", "why_tests_cant": "No test runs the MEX file with refused allocations, and whether uninitialised memory reaches the result cannot be seen from one run's values.", "anchors": ["interfaces/mex/nesta_dctTV_mex.c:mexFunction"]}
{"id": "C78", "title": "l1qc_dct called from Python", "statement": "Wrong arguments raise TypeError, ValueError, IndexError or RuntimeError and change no object, reference count or block. A sensible call with its memory granted and epsilon >= 0 returns a tuple of an nr x nc array, row after row, that reproduces the measurements within epsilon (default 1/100), and of the solver's statistics, and leaves the caller's objects as they were; solver errors become RuntimeError. Not so: every result is leaked, because Py_BuildValue counts the array and the dict once more and the wrapper never gives up its own reference; measurements that are all zero are undefined behaviour whatever the keywords (there is no lbiter); mrow*mcol beyond INT_MAX overflows.", "quantifier": "all argument objects (arrays or things numpy converts), keyword values, allocation schedules", "why_tests_cant": "Reference counts after success and after each refused allocation are not seen by a test that looks at the result; undefined conversions give plausible values on one machine.", "anchors": ["interfaces/python/l1cPy.c:_l1qc_dct", "interfaces/python/l1cPy.c:PyArray_SimpleDoubleCopy"]}
{"id": "C79", "title": "breg_anistropic_TV called from Python", "statement": "Arguments that do not parse raise TypeError, an array that is not two-dimensional IndexError, a side below three ValueError, numpy or solver out of memory RuntimeError or MemoryError, and then no object, reference count or block has changed. With all memory granted the call returns a new n x m array holding, row after row, the iterate at which the split Bregman iteration stops (K least with relative change below tol, or max_iter), with the documented defaults, and leaves the caller's objects as they were. Not so: the result is leaked on every successful call (counted twice, so it stays after the caller releases it); if exactly one of the two work vectors is refused the other is leaked; n*m beyond INT_MAX overflows.", "quantifier": "all argument objects, keyword values, arithmetics and allocation schedules", "why_tests_cant": "Reference counts and blocks after each of the eleven possible refusals are not observable in a test of the returned image.", "anchors": ["interfaces/python/l1cPy.c:_breg_anistropic_TV", "interfaces/python/l1cPy.c:PyArray_SimpleDoubleCopy"]}
{"id": "C80", "title": "nesta_dctTV called from Python", "statement": "Arguments that do not parse raise TypeError, a mode that does not exist ValueError, arrays that are not vectors IndexError, vectors that do not fit ValueError, pixel numbers outside the image or weights the transforms do not take RuntimeError, refused memory up to the work array of the transforms RuntimeError or MemoryError; then no object, reference count or block has changed. A sensible call in analysis mode with its memory granted and its queue aligned returns a tuple of an nr x nc array, row after row, whose measured pixels are within sigma of the measurements, and of status 0. Not so: the transforms are never destroyed, so every call that reaches the solver loses its six blocks, and the image is counted twice and never released; solver failures raise nothing and return an image of zeros with the status (out of memory; in synthesis mode with weights always invalid argument); synthesis mode without weights reads memory that was never written; a refused or unaligned queue is undefined.", "quantifier": "all argument objects, keyword values, allocation schedules and alignments", "why_tests_cant": "Reference counts, blocks left behind, and the behaviour for each refused allocation are not observable in a test of the returned image; undefined reads give plausible values on one machine.", "anchors": ["interfaces/python/l1cPy.c:_nesta_dctTV", "interfaces/python/l1cPy.c:PyArray_SimpleDoubleCopy", "src/nesta.c:l1c_nesta", "src/dct_tv_transforms.c:l1c_setup_dctTV_transforms"]}
{"id": "C68", "title": "The result of NESTA comes out of the asked stages and is near the optimum at a known rate", "statement": "Exact arithmetic, A A^T = I, ||W^T|| <= norm_W, n_continue >= 1, some transformed measurement positive. When l1c_nesta returns 0, the result comes out of n_continue stages, each started where the one before ended and the first at A^T b, with smoothing and tolerance going geometrically from 9/10 of the largest coefficient of W^T A^T b and 1/10 to mu and tol. The iterates X_0, X_1, ... of the last stage all satisfy the constraint, the stage ends at the first k >= 1 at which the smoothed objective f differs by less than tol times from the mean of the last (at most ten) values, or after 10000 iterations, x is the last iterate X_K, and for every iterate and every feasible minimiser v of f: f(X_k) - f(v) <= 2 sqrt(p) norm_W D/(k+2) + 2 (norm_W^2/mu) D^2/((k+1)(k+2)) with D = ||v - X_0||. Hence ||W^T x||_1 exceeds the 1-norm at any feasible point by at most p mu/2 plus that bound. If W^T is bounded below by c > 0 such a minimiser exists and D is at most (||W^T X_0||_1 + p mu/2)/c + ||X_0||. The library's DCT-TV transforms in analysis mode meet the hypotheses with c = 1.", "quantifier": "all operators with orthonormal rows, all data, options and run lengths", "why_tests_cant": "A bound on the distance to an unknown optimum, for every problem and every iteration count.", "anchors": ["src/nesta.c:l1c_nesta", "src/nesta.c:l1c_nesta_project", "src/nesta.c:l1c_nesta_feval", "src/dct_tv_transforms.c:l1c_setup_dctTV_transforms"]}
{"id": "C81", "title": "CG reaches its tolerance after about sqrt(condition number) iterations", "statement": "For a symmetric positive definite operator with spectrum in [lo,hi], a non-zero right-hand side, a positive tolerance and an inexact start, l1c_cgsolve in exact arithmetic returns a vector whose squared residual after K iterations is at most 2*(hi/lo)*(1-sqrt(lo/hi))^K times that of the start, never has a larger energy error than the start, and stops, below the tolerance, no later than the first k <= max_iter at which that bound is below the tolerance.", "quantifier": "all sizes, operators, right-hand sides, starts, tolerances and iteration limits", "why_tests_cant": "Tests check a few systems; the rate is a statement about every operator with the given spectrum and every iteration count.", "anchors": ["src/cgsolve.c:63-161"]}
{"id": "C82", "title": "A call of l1c_l1qc_newton is a run of the log-barrier method", "statement": "From a strictly feasible non-zero start the solver succeeds, and what it returns is the end of a run: stage j works on the barrier objective with tau0*mu^j; every Newton iteration moves along a direction that solves the Newton system up to what CG left over (at most one half, or cg_tol when CG may take m steps, of what no step leaves), or, when CG is refused, takes the x part CG ended with and keeps the u part of the direction of the iteration before; the step is at most 0.99, keeps strict feasibility and lowers the objective by at least step*decrement/100; the stage ends exactly when no trial step gives that decrease, when half the decrement is below newton_tol, when the one-norm changes by less than l1_tol relatively (not in the first iteration), or at the iteration limit. Aty is called once for each iteration.", "quantifier": "all sizes, matrices, measurements, strictly feasible starts, option values and operators", "why_tests_cant": "Tests compare one result with a stored one; what every iteration of every run satisfies is a statement about all executions.", "anchors": ["src/l1qc_newton.c:436-600", "src/linesearch.c"]}
{"id": "C83", "title": "How far from optimal the result of the log-barrier solver can be", "statement": "If the last Newton iteration of a run moved the point along an accepted direction, with leftover rho, decrement lam and delta^2 >= tau*(lam + rho'd), delta < 1, then for every feasible y: |x'|_1 <= |y|_1 + (2m+1 + sqrt(2m+1)*delta + delta^2/(2(1-delta)))/tau + |rho|*|x'-y|. With nothing left over by CG, the stage count chosen by the solver and 2*newton_tol*tau <= 1/4 in the last stage, a run that ended with a small decrement is within 2*mu*lbtol of the optimal value.", "quantifier": "all sizes, matrices, measurements, options and runs", "why_tests_cant": "The optimal value is not known to a test, and the bound is about every feasible vector.", "anchors": ["src/l1qc_newton.c:436-600", "src/l1qc_newton.c:288-340"]}
{"id": "C84", "title": "NESTA on the library's DCT transforms", "statement": "For a transform set up by l1c_setup_dct_transforms (1D or 2D, distinct indices, FFTW's planner leaving zeros in the arrays it was given) and used in any way since: the struct has n = number of samples, m = p = q = number of pixels, norm_W = 1 and all functions that l1c_nesta needs; l1c_nesta returns L1C_OUT_OF_MEMORY with nothing changed, is undefined if the queue is refused or not aligned, and otherwise returns 0 with coefficients z whose image fits the measurements to within sigma, the heap otherwise unchanged and the transform still usable and releasable; and |z|_1 <= |w|_1 + m*mu/2 + the rate of Nesterov's method for every w that fits the measurements.", "quantifier": "all image sizes, modes, index sets, measurements that are not all zero, option values, histories of use and allocation behaviours", "why_tests_cant": "The optimum is unknown to a test, allocation failures and histories cannot be enumerated, and the claim is about all images.", "anchors": ["src/dct1.c:84-165", "src/dct2.c:84-195", "src/dct_transforms.c:10-40", "src/nesta.c"]}
{"id": "C85", "title": "Accuracy of the vector kernels in double precision", "statement": "In IEEE binary64 (round to nearest even, gradual underflow, overflow) the reductions are backward stable: l1c_dsum over n terms is within ((1+2^-53)^(n-1)-1)*sum|x_i| of the exact sum, and so is any other bracketing of the same additions (threads, vector lanes); vcl_sum within ((1+2^-53)^(n/4+3)-1)*sum|x_i|; l1c_dnorm1 has that relative error; cblas_ddot, cblas_dnrm2 and l1c_dnrm2_err, and each entry of l1c_daxpby_z and l1c_daxpy_z, have the corresponding bounds with an underflow term; l1c_dlogsum has one for a libm logarithm of given accuracy. A finite result means that no input was infinite or NaN, and a result is finite whenever the inputs are and their absolute sum stays below 2^1024. A bound relative to the exact sum is false.", "quantifier": "all lengths and all doubles, including subnormal numbers, infinities and NaN; all bracketings", "why_tests_cant": "Tests compare with tolerances on a few arrays; rounding errors depend on the data and worst cases are rare.", "anchors": ["src/l1c_math.c:60-140", "src/l1c_math.c:191-215", "src/vcl/vcl_math.cpp:12-55"]}
{"id": "C86", "title": "The vectorised logarithm is accurate and lane-independent", "statement": "vcl::log(Vec4d), which vcl_logsum uses for the barrier terms, returns in every lane, whatever the other lanes contain: for a normal number x a finite double within 2^-49*|ln x| of ln x (in particular exactly 0 at 1), for zeros and all subnormal numbers (also negative ones) -infinity, for +infinity +infinity, for -infinity, NaN and numbers <= -2^-1022 NaN. This holds with any mixture of fused and separate multiply-adds and for both exponent extractions; the coefficients are the doubles nearest to the literals. vcl_logsum(n, alpha, x) with n <= 2^31 and normal products alpha*x_i does not overflow and is within ((1+2^-53)^(n/4+3)-1)*S + 2^-49*S' + 2n*2^-53 of the sum of ln(alpha*x_i) if libm's log is right to 2^-49 on the last n mod 4 elements. The sum is not independent of the order: a subnormal product gives -infinity in a vector lane and about -744 in the tail.", "quantifier": "all 2^64 bit patterns in each lane, all choices of fused operations, all lengths n <= 2^31", "why_tests_cant": "The rational approximation and its rounding cannot be checked on every double; tests compare a few sums with a tolerance.", "anchors": ["include/vcl/vectormath_exp.h:625-633", "include/vcl/vectormath_exp.h:729-849", "include/vcl/vectormath_common.h:197-214", "include/vcl/vectorf256.h:1681-1683", "include/vcl/vectorf256.h:1933-1966", "include/vcl/vectorf256.h:2047-2118", "src/vcl/vcl_math.cpp:12-33", "src/l1qc_newton.c:59-60"]}
{"id": "C87", "title": "What the example program does with its data file, and what its exit status means", "statement": "examples/c/l1qc_dct_c.c started in a process without earlier transforms, on a file with arrays b and pix_idx and a number mtot that fit together: whenever main returns, every block it allocated has been released, and its exit status is 1, L1C_FILE_READ_FAILURE, 2, 1 or 0 according to which of its own first five requests (file name, text, b, x) was refused; the result of l1qc_dct is not in it (a failed set-up ends with status 0, refuting that 0 means success). A missing file gives L1C_FILE_READ_FAILURE, a file without JSON gives 4. A refused pix_idx array is undefined behaviour, and so is an array b shorter than pix_idx. In exact arithmetic, with all memory granted, distinct indices, numbers in the planner's scratch memory and one measurement of at least 2^-1074, no int counter of the solver overflows (at most 13 barrier stages), the program ends with status 0, and x held an image that reproduces the measurements to within 1/10 in the 2-norm. The solver is called with exactly the data of the file named by the first argument (by default example_img_data.json), epsilon 0.1, mu 10, lbtol and newton_tol 1e-3, 50 Newton and 200 CG iterations, cg_tol 1e-8, l1_tol 1e-5, the 1D transform, and the second argument (by default 0) as verbosity.", "quantifier": "all argument lists, file contents, parsers, memory environments and FFT results of the right length; all image sizes with 2m+1 <= INT_MAX", "why_tests_cant": "The example is not run by any test; its exit status hides the failures of the solver, and the refused requests cannot be provoked from outside.", "anchors": ["examples/c/l1qc_dct_c.c:13-89", "src/json_utils.c:52-173", "src/l1qc_dct.c:30-96"]}
{"id": "C88", "title": "The MATLAB option builders hand the solvers exactly the options that were asked for", "statement": "l1qc_dct_opts and nesta_opts, called with name-value pairs whose names are known (case does not matter) and whose values are real scalars (for counts: numbers that convert to an int), return a struct that l1qc_dct and nesta_dctTV accept and read as: the value of the last pair with the option's name, else the default in the file; arrays MATLAB had before are unchanged, so that the struct completes a correct call of the MEX function. An unknown name is an error. Refuted: that the option dct_mode of l1qc_dct_opts has an effect (it is accepted, and the one-dimensional DCT is used); that l1_tol is 0 by default as documented (1e-5); that nesta_opts has the documented option 'mode' (an error), and that 'synthesys' is a mode (nesta_dctTV ends in l1c:badField).", "quantifier": "all lists of name-value pairs, all memory states, every arithmetic", "why_tests_cant": "The MATLAB tests use a handful of option lists and never the documented names that do not work.", "anchors": ["interfaces/mex/l1qc_dct_opts.m:2-63", "interfaces/mex/nesta_opts.m:1-36", "interfaces/mex/l1qc_dct_mex.c:79-94", "interfaces/mex/nesta_dctTV_mex.c:56-93"]}
{"id": "C89", "title": "The TV operators, the shrinkage and the Bregman multipliers in IEEE binary64", "statement": "Run in binary64, each entry of l1c_Dx, l1c_DxT, l1c_Dy and l1c_DyT that is finite is within ((1+2^-53)^2-1)|e| + 2^-1075 of the entry e of the exact operator on the same numbers, and all entries are finite when 4(|alpha|+1)(max|u|+1) < 2^1024; l1c_DxTDx and l1c_DyTDy are within four roundings relative to 4 alpha^2 max|u|. The computed forward and transposed operators are adjoint up to 4|alpha|((1+2^-53)^2-1) |u||v| plus underflow. breg_shrink1 returns soft thresholding with one rounding, exactly so up to twice the threshold, never enlarges a number and never changes its sign. After one Bregman iteration every finite multiplier b is a subgradient of |.|/lambda at d: |b| <= g + 2^-52 (g+|d|) with g the computed 1/lambda, b is within 2^-52 (g+|d|) of sign(d) g if d is not 0, and both hold exactly, without the rounding terms, if |d| < g. Refuted: that |b| <= g always holds in binary64 (a jump of 2^53+2 with lambda = 1 leaves b = 2).", "quantifier": "all images with at least two rows and columns, all alpha, all thresholds, all iteration states, including infinities and NaN in the input", "why_tests_cant": "Tests compare a few images with stored results up to a loose tolerance; the bounds are for all doubles, and the failing case needs a jump of 2^53.", "anchors": ["src/TV.c:49-283", "src/bregman.c:62-89", "src/bregman.c:393-416"]}
{"id": "C90", "title": "The Gauss-Seidel solver of the TV denoiser reaches the solution to working accuracy in IEEE binary64 and never overflows", "statement": "Let mu, lambda >= 2^-500, mu + 4 lambda <= 2^500, kappa = (mu + 4 lambda)/mu <= 2^46, and let X <= 2^500 bound the pixels of the starting image and the right-hand side divided by mu. After any number J of calls of breg_anis_guass_seidel in binary64 all pixels are finite and each is within (4 lambda/(mu + 4 lambda))^J 2X + kappa (80 2^-53 X + 2 (1 + 4/mu) 2^-1075) of the pixel of the unique exact solution of (mu I + lambda (DxT Dx + DyT Dy)) u = rhs: the error decreases geometrically to a level proportional to the condition number and stays there. hess_inv_diag writes the inverse diagonal with a relative error of at most 5 2^-53.", "quantifier": "all image sizes from 2 x 2, all images, all numbers of sweeps, all mu and lambda in the stated range", "why_tests_cant": "Tests run a few sweeps on stored images; they cannot show that the error never grows again, or bound it for all images and parameters.", "anchors": ["src/bregman.c:112-143", "src/bregman.c:232-297", "src/bregman.c:395-397"]}
{"id": "C91", "title": "The u-step of the TV denoiser, right-hand side included, solves the intended linear system to working accuracy in IEEE binary64", "statement": "With mu and lambda as in C90, image bounded by F, dx, bx, dy, by bounded by M <= 2^500 and X <= 2^500 bounding the current iterate with 2 (mu F + 8 lambda M) + 4 2^-1075 <= mu X: breg_anis_rhs followed by J sweeps in binary64 keeps every double finite and leaves in every pixel of u a value within (4 lambda/(mu + 4 lambda))^J 2X + kappa (86 2^-53 X + 3 (1 + 4/mu) 2^-1075) of the exact solution of (mu I + lambda (DxT Dx + DyT Dy)) u = mu f + lambda DxT (dx - bx) + lambda DyT (dy - by), and writes only to u, rhs and the two scratch arrays.", "quantifier": "all image sizes from 2 x 2, all images and split variables, all numbers of sweeps, all mu and lambda in the stated range", "why_tests_cant": "The tests compare single kernels with stored vectors at a tolerance; they do not bound how the rounding of the right-hand side propagates through the solver.", "anchors": ["src/bregman.c:303-325", "src/bregman.c:393-397"]}
{"id": "C92", "title": "The TV denoiser needs at least two rows and two columns, which the C function does not check", "statement": "l1c_breg_anistropic_TV documents n and m only as numbers of rows and columns. That it is safe for every n, m >= 1 is false: with f and uk arrays of n*m doubles, all allocations granted and max_iter >= 1, every call with m = 1, and every call with n = 1 and max_jac_iter >= 1, reads outside an array (l1c_DxT reads x[-1] of a one-column image; the Gauss-Seidel sweep reads u[m] of a one-row image). C15 proves the absence of undefined behaviour for n, m >= 2; the MATLAB and Python interfaces reject images below 3 x 3.", "quantifier": "all images of one row or one column, all parameters with at least one iteration, every arithmetic", "why_tests_cant": "An out-of-bounds read of one double usually returns some number and goes unnoticed; tests use larger images.", "anchors": ["src/bregman.c:354-435", "src/bregman.c:232-243", "src/TV.c:66-72"]}
{"id": "C93", "title": "The iterates of the TV denoiser stay in a fixed ball around the given image", "statement": "In exact arithmetic, for every mu > 0 and every image of at least 2 x 2 pixels bounded by F, every successful run of l1c_breg_anistropic_TV returns a finite image whose mean squared distance from the given image is at most 1024 F^2 + 2880000/mu^2, whatever max_iter, max_jac_iter and tol are. The bound does not depend on the number of iterations: the split Bregman iteration cannot diverge even when the inner linear system is solved by a single sweep.", "quantifier": "all images from 2 x 2, all mu > 0, all numbers of iterations and sweeps, all tolerances", "why_tests_cant": "Divergence of an iteration with an inexact inner solve can take any number of iterations to show; tests run a few iterations on stored images.", "anchors": ["src/bregman.c:354-435", "src/bregman.c:232-301", "src/bregman.c:303-325"]}
{"id": "C94", "title": "A Gauss-Seidel sweep of the TV denoiser is exact descent on the objective of the u-step", "statement": "With the right-hand side that breg_anis_rhs computes, one call of breg_anis_guass_seidel in exact arithmetic lowers mu/2 |v-f|^2 + lambda/2 |dx - Dx v - bx|^2 + lambda/2 |dy - Dy v - by|^2 by exactly the sum over the pixels of (mu + c lambda)/2 times the squared change of the pixel, c its number of neighbours. So a sweep never increases the objective, and leaves it unchanged only at the global minimiser, which the sweep then leaves as it is.", "quantifier": "all image sizes from 2 x 2, all images, split variables and iterates, all mu, lambda > 0", "why_tests_cant": "A test checks one sweep against a stored vector; the identity is for all inputs and all sizes, and catches a wrong coefficient at any border pixel.", "anchors": ["src/bregman.c:232-301", "src/bregman.c:303-325"]}
{"id": "C95", "title": "An iteration of the TV denoiser that changes little ends near the optimum", "statement": "In exact arithmetic, if one iteration of l1c_breg_anistropic_TV, from any state, changes no pixel of u by more than U, no entry of d_x, d_y by more than D and no entry of b_x, b_y by more than B, then its image u' satisfies TV(u') + mu/2 |u'-f|^2 + mu/4 |v-u'|^2 <= TV(v) + mu/2 |v-f|^2 + n m (mu (8 D + 136 U)^2 + 4 B) for every image v. With U = D = B = 0 this is the optimality of a fixed state; in general it bounds the excess of the objective and the distance to the minimiser by the changes seen.", "quantifier": "all image sizes from 2 x 2, all images and states of the iteration, all mu > 0, all max_jac_iter >= 1, all bounds U, D, B", "why_tests_cant": "A test never reaches an exact fixed point and compares with one stored image; the bound holds for every state and compares with every image.", "anchors": ["src/bregman.c:354-435", "src/bregman.c:393-418"]}
{"id": "C96", "title": "The tolerance of the TV denoiser does not bound the distance to the optimum", "statement": "l1c_breg_anistropic_TV is documented to solve min TV(u) + mu/2 |u-f|^2 and to stop when the relative change of u is below tol. That stopping this way leaves the objective within some bound that depends on tol and is small for small tol is false: for all mu, tol > 0 there is a 2 x 2 image on which, with the recommended one sweep per iteration, the denoiser stops by the test after two iterations, for every max_iter >= 2, at an image whose objective exceeds that of a constant image by at least 1/mu. The change is measured relative to the norm of the whole image, so a large constant added to the image passes the test while the result is just shifted.", "quantifier": "all mu > 0, all tol > 0, all max_iter >= 2", "why_tests_cant": "A test runs a few images at one tolerance; the failure exists for every tolerance, however small, with an image chosen for it.", "anchors": ["src/bregman.c:332-353", "src/bregman.c:393-418"]}
{"id": "C97", "title": "The TV denoiser commutes with changes of unit, sign and brightness", "statement": "In exact arithmetic l1c_breg_anistropic_TV applied to t f with mu/|t| returns t times what it returns for f with mu, for every t other than 0, every tolerance and all numbers of iterations and sweeps: both runs stop at the same iteration. In particular the negative image gives the negative result. With the stop test switched off (tol <= 0), adding a constant to every pixel adds it to every pixel of the result.", "quantifier": "all image sizes from 2 x 2, all images, all mu > 0, t <> 0, K, tol, max_iter, max_jac_iter", "why_tests_cant": "Each relation compares two runs of unbounded length for all images and factors; a test tries a few pairs in rounded arithmetic.", "anchors": ["src/bregman.c:354-435", "src/bregman.c:232-325", "src/bregman.c:62-92"]}
{"id": "C98", "title": "The optimum of the TV problem keeps the mean brightness, the denoiser does not", "statement": "Every minimiser of TV(u) + mu/2 |u-f|^2 has the mean of f. The image l1c_breg_anistropic_TV returns need not: for all mu, tol > 0 there is a 2 x 2 image on which, with one sweep per iteration, the denoiser stops by its test and the pixels of the result sum to at least 9/(10 mu) more than those of the image.", "quantifier": "optimum: all sizes from 2 x 2, all images, all mu > 0; denoiser: all mu > 0, tol > 0 and max_iter >= 2", "why_tests_cant": "A test of the mean on some images with a loose tolerance passes; the claim about optima is over all images, and the failure has an image for every tolerance.", "anchors": ["src/bregman.c:332-353", "src/bregman.c:354-435"]}
{"id": "C99", "title": "Accuracy of the explicit-matrix operators in double precision", "statement": "In IEEE binary64, after a successful l1c_setup_matrix_transforms for an n by m matrix A and any history of calls, every finite entry of Ax is within ((1+2^-53)^m-1)*(|A||x|)_i of the exact product, every finite entry of Aty within ((1+2^-53)^n-1)*(|A|^T|y|)_j, and every finite entry of AtAx within ((1+2^-53)^(n+m)-1)*(|A|^T|A||x|)_j of the exact A^T A x, each plus an explicit underflow term. A finite entry of Ax or Aty means that the argument held no infinity or NaN; finite data whose absolute products stay below 2^1024 give finite entries.", "quantifier": "all sizes, all matrices and vectors of doubles, including subnormal numbers, infinities and NaN; all histories of calls", "why_tests_cant": "Tests compare a few products with a tolerance; rounding errors depend on the data and worst cases are rare.", "anchors": ["src/matrix_transforms.c:82-109", "src/matrix_transforms.c:111-127", "src/matrix_transforms.c:129-132"]}
{"id": "C100", "title": "The TV problem respects the order and the range of images", "statement": "Let u and v minimise TV(w) + mu/2 |w-f|^2 and TV(w) + mu/2 |w-g|^2. If f <= g in every pixel then u <= v in every pixel; if f and g differ by at most e in every pixel then so do u and v; if all pixels of f lie in [lo, hi] then so do those of u. An iteration of l1c_breg_anistropic_TV that reproduces its state has an image u with pixels in the range of f.", "quantifier": "all sizes, all images, all mu > 0, all e, lo, hi; for the iteration all states and all numbers of sweeps >= 1", "why_tests_cant": "Tests look at single images; the claims compare the optima of all pairs of images.", "anchors": ["src/bregman.c:332-353", "src/bregman.c:354-435"]}
