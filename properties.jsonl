{"id": "C01", "title": "Recorded solution is well formed", "statement": "After build() and any number of step() calls, sol.ts and sol.us have the same length, start with the initial time and state, end with the integrator's current t and u, hold states of the problem's dimension only, and earlier entries are never altered, removed or reordered.", "quantifier": "every right-hand side, initial state, span, option set and number of step() calls, for DormandPrince5 and Radau5, in f64 and any other arithmetic, including runs that end in an error code", "why_tests_cant": "a test sees one trajectory; the claim is an invariant of every history, including runs with rejected and failed steps", "anchors": ["src/ode/integrator.rs: OdeIntegratorBuilder::build, OdeIntegrator::step", "src/dorm_prince/dp5/algorithm.rs: step", "src/radau/step_size_control.rs: step_size_control"]}
{"id": "C02", "title": "integrate() is repeated step()", "statement": "integrate() leaves the integrator in exactly the state reached by calling step() until it first returns None; calling step() any number of times first and then integrate() gives the same final state (an integration can be interrupted between steps and resumed), and integrate() returns only when retcode is no longer Continue.", "quantifier": "every algorithm, callback, problem and interruption point", "why_tests_cant": "interruption points and callbacks form an unbounded set", "anchors": ["src/ode/integrator.rs: OdeIntegrator::integrate, OdeIntegrator::step"]}
{"id": "C03", "title": "step() result mirrors retcode", "statement": "step() returns Some(k) exactly when sol.retcode is Continue afterwards, and then k is stats.steps; otherwise it returns None.", "quantifier": "every algorithm, callback and state", "why_tests_cant": "ranges over all states a callback can produce", "anchors": ["src/ode/integrator.rs: OdeIntegrator::step"]}
{"id": "C04", "title": "Integrator iteration yields every accepted point", "statement": "Iterating over an integrator (by value or by &mut) yields, in order, exactly the points recorded in sol after the initial one. (The code drops the last recorded point, the one at the end of the span.)", "quantifier": "every problem, option set and algorithm, every run that ends", "why_tests_cant": "a test that only checks accuracy of yielded points cannot see a missing one; the claim is about all runs", "anchors": ["src/ode/integrator.rs: OdeIntegratorIterator::next, OdeIntegratorMutIterator::next"]}
{"id": "C05", "title": "Solution iteration is the zip of times and states", "statement": "Iterating an OdeSolution (owned or borrowed) yields the pairs (ts[i], us[i]) in order, min(len ts, len us) of them, and next() keeps returning None after the first None.", "quantifier": "every solution object, of any and possibly unequal lengths", "why_tests_cant": "unbounded lengths and call sequences", "anchors": ["src/ode/solution.rs: OdeSolutionIterator::next, OdeSolutionMutIterator::next"]}
{"id": "C06", "title": "Return codes", "statement": "A DormandPrince5 run only ever reports Continue, Success, MaxIters or DtLessThanMin; a Radau5 run only Continue, Success, MaxIters, DtLessThanMin or SingularMatrix; Stiff and Failure are never reported.", "quantifier": "every problem, option set and number of step() calls, in any arithmetic", "why_tests_cant": "absence over all executions", "anchors": ["src/dorm_prince/dp5/algorithm.rs: step", "src/radau/algorithm.rs: step", "src/radau/dec.rs: perform_decompositions", "src/ode/code.rs: OdeRetCode"]}
{"id": "C07", "title": "DormandPrince5 step budget", "statement": "While a DormandPrince5 run reports Continue it has accepted at most max_steps steps; a run whose individual step() calls return ends after at most max_steps+1 of them; when the code is MaxIters exactly more than max_steps steps were accepted.", "quantifier": "every problem, option set and run, any arithmetic", "why_tests_cant": "the bound must hold for every trajectory", "anchors": ["src/dorm_prince/dp5/algorithm.rs: step"]}
{"id": "C08", "title": "Radau5 always terminates", "statement": "Every Radau5 step() call returns after a number of loop turns bounded by an explicit function of max_steps, max_newt_iter and the singularity limit, and integrate() returns after at most max_steps step() calls, whatever the right-hand side returns (NaN and infinities included).", "quantifier": "every right-hand side, Jacobian, initial state and option set, any arithmetic (in particular f64 with NaN)", "why_tests_cant": "termination over all inputs is a liveness property; a test can only observe a timeout", "anchors": ["src/radau/algorithm.rs: step", "src/radau/newton.rs: newton", "src/radau/dec.rs: perform_decompositions"]}
{"id": "C09", "title": "DormandPrince5 step() always returns", "statement": "step() returns for every right-hand side. (False: when the derivative at the current point has a NaN component, or the problem has dimension zero, the retry loop never ends.)", "quantifier": "every f64 problem", "why_tests_cant": "non-termination cannot be observed by a finite test; the theorem shows it for every option set", "anchors": ["src/dorm_prince/dp5/algorithm.rs: step", "src/dorm_prince/dp5/prepare.rs: prepare_next_step", "src/dorm_prince/dp5/error.rs: error"]}
{"id": "C10", "title": "DormandPrince5 step() returns for bounded right-hand sides", "statement": "If the right-hand side is bounded, abstol > 0 and the step-control options are in their sane range (0 < safe < 1, 0 < facl < 1, positive exponent), each step() returns, after a number of rejected attempts bounded by an explicit logarithmic expression.", "quantifier": "every such right-hand side, state and option set, exact arithmetic", "why_tests_cant": "unbounded problem set, liveness", "anchors": ["src/dorm_prince/dp5/algorithm.rs: step", "src/dorm_prince/dp5/prepare.rs: prepare_next_step"]}
{"id": "C11", "title": "Rejection shrinks the step", "statement": "A rejected DormandPrince5 attempt is retried with a step that is smaller by a factor between facl and max(safe, facl); rejected Radau5 attempts and failed Newton iterations also shrink the step. (False for DormandPrince5 when beta is large: the exponent 0.2 - beta^0.75 becomes negative and a rejected step can grow.) In binary64, a DormandPrince5 or Radau5 call whose options make rejection safe, and which records a point, ends with a finite step no longer than its first attempt, and, unless the step is near underflow, shorter by a factor 1.003 for each rejected attempt.", "quantifier": "every state, error value and option set, exact arithmetic; every call of every forward run, binary64", "why_tests_cant": "a universally quantified inequality over reals", "anchors": ["src/dorm_prince/dp5/prepare.rs: prepare_next_step", "src/radau/step_size_control.rs: step_size_control", "src/radau/newton.rs: newton"]}
{"id": "C12", "title": "Step-size ratio limits", "statement": "After an accepted step the next step size differs from the last by a factor within the configured limits: for DormandPrince5 between facl and facr, for Radau5 between 1/facl and 1/facr, before the dtmax and end-of-span adjustments. (The documented meaning of facr/facl, dtnew/dtold <= 1/facr and >= 1/facl, is false for DormandPrince5.) In binary64 the DormandPrince5 limits are h/(1/facl) and h/(1/facr) as rounded, cut at dtmax, also when the error is not a number. Those of Radau5 are h/facl and h/facr as rounded, cut at dtmax unless the step size is kept, or the next step is the rest of the span when a step size within the limits divided by quot1 reaches the end.", "quantifier": "every error value, controller memory and option set with 0 < facl <= facr, exact arithmetic; every call of every forward run, binary64", "why_tests_cant": "inequality over all reals", "anchors": ["src/dorm_prince/dp5/prepare.rs: prepare_next_step", "src/radau/step_size_control.rs: step_size_control", "src/ode/options.rs: OdeIntegratorOpts"]}
{"id": "C13", "title": "Time marches monotonically inside the span", "statement": "Integrating forward, the recorded times strictly increase and never leave [t0, tfinal].", "quantifier": "every right-hand side and sane option set, exact arithmetic, any number of steps; DormandPrince5 and Radau5", "why_tests_cant": "must hold on every trajectory incl. all rejection patterns", "anchors": ["src/dorm_prince/dp5/algorithm.rs: step", "src/dorm_prince/dp5/prepare.rs: prepare_next_step", "src/radau/algorithm.rs: step", "src/radau/step_size_control.rs: step_size_control"]}
{"id": "C14", "title": "Success means the end of the span was reached", "statement": "When retcode is Success the current (and last recorded) time is tfinal; exact in exact arithmetic. In f64 the last time is t + (tfinal - t) rounded, which can differ from tfinal, but equals it whenever t and tfinal are within a factor two of each other.", "quantifier": "every problem and run", "why_tests_cant": "floating-point corner cases are not reachable by sampling", "anchors": ["src/dorm_prince/dp5/algorithm.rs: step", "src/radau/step_size_control.rs: step_size_control"]}
{"id": "C15", "title": "Backward integration", "statement": "For tfinal < t0 the recorded times decrease from t0 to tfinal. (False: the first trial step is always +1e-6, so when accepted the first recorded time lies beyond t0; DormandPrince5 then keeps moving away from tfinal.)", "quantifier": "every backward problem", "why_tests_cant": "needs a claim about all runs of the wrong-direction phase", "anchors": ["src/ode/integrator.rs: build", "src/dorm_prince/dp5/algorithm.rs: step", "src/radau/algorithm.rs: step"]}
{"id": "C16", "title": "dtmax bounds the step", "statement": "No DormandPrince5 step after the first is longer than 1.01*dtmax, nor any Radau5 step longer than the larger of the initial step and the limits allow; the literal claim |step| <= dtmax is false (first step, and last step up to 1%). In binary64 the same bound holds for the step DormandPrince5 adds to the time; the recorded times may be further apart, because the sum is rounded. A Radau5 step is, in binary64, at most 1.06 times the larger of the initial step and dtmax, divided by quot1.", "quantifier": "every forward problem, exact arithmetic and binary64", "why_tests_cant": "all trajectories", "anchors": ["src/dorm_prince/dp5/prepare.rs: prepare_next_step", "src/dorm_prince/dp5/algorithm.rs: step", "src/radau/step_size_control.rs: step_size_control"]}
{"id": "C17", "title": "Every recorded DormandPrince5 point is a Dormand-Prince step that passed the error test", "statement": "Each consecutive pair of recorded points (t,u),(t',u') satisfies: t' = t+h, u' is the result of the seven-stage Dormand-Prince 5(4) Runge-Kutta formula applied to the user's right-hand side at (t,u) with step h, and the weighted RMS norm of the difference between the 5th and the embedded 4th order result is at most 1.", "quantifier": "every right-hand side that overwrites its output, every option set, every number of steps, exact arithmetic; structurally the same for f64", "why_tests_cant": "relates the code to the mathematical method on all inputs", "anchors": ["src/dorm_prince/dp5/stages.rs: compute_stages", "src/dorm_prince/dp5/error.rs: error", "src/dorm_prince/dp5/prepare.rs: prepare_next_step", "src/dorm_prince/dp5/constants.rs"]}
{"id": "C18", "title": "Rejected attempts have no visible effect", "statement": "However many attempts a step() call rejects, the accepted attempt starts from exactly the t, u and history the call started with; uprev, tprev and sol are touched only by the accepted attempt.", "quantifier": "every state, rejection count, arithmetic; DormandPrince5 and Radau5", "why_tests_cant": "number and pattern of rejections unbounded", "anchors": ["src/dorm_prince/dp5/algorithm.rs: step", "src/dorm_prince/dp5/prepare.rs: prepare_next_step", "src/radau/algorithm.rs: step"]}
{"id": "C19", "title": "Work counters", "statement": "stats.function_evals equals the number of times dudt was called. (False by one for DormandPrince5: exactly one call, made by build(), is not counted; for Radau5 calls made for finite-difference Jacobians and by build() are not counted.) steps = accepts for DormandPrince5; attempts = function_evals/6; jacobian_evals counts Jacobian evaluations (false for Radau5: it is always 0).", "quantifier": "every run, any arithmetic", "why_tests_cant": "a relation between counters and the call trace over all histories", "anchors": ["src/dorm_prince/dp5/stages.rs: compute_stages", "src/dorm_prince/dp5/algorithm.rs: new_cache", "src/radau/newton.rs: newton", "src/radau/step_size_control.rs: step_size_control", "src/ode/statistics.rs"]}
{"id": "C20", "title": "The right-hand side is only evaluated inside the span", "statement": "Integrating forward, dudt is never called at a time outside [t0, tfinal]. (In binary64 neither algorithm calls it before t0, and beyond tfinal by at most 2^-52 (tfinal - t0); that it never goes beyond tfinal at all is false.)", "quantifier": "every right-hand side and sane option set, exact arithmetic and binary64, any number of steps", "why_tests_cant": "a user's table-driven dudt panics outside; all trial steps, also rejected ones, count", "anchors": ["src/dorm_prince/dp5/stages.rs: compute_stages", "src/radau/newton.rs: newton", "src/dorm_prince/dp5/algorithm.rs: step"]}
{"id": "C21", "title": "Callbacks that modify the state take effect", "statement": "A callback that changes u restarts the integration from the changed state: the next step is a step from the new u. (False for both algorithms. DormandPrince5 reuses the derivative of the old u as first stage. Radau5 solves its stage equations from the new u, but tests the error with the derivative and the tolerances of the old u, so the step it takes can be much shorter.)", "quantifier": "every callback", "why_tests_cant": "needs comparison of all continuations", "anchors": ["src/ode/integrator.rs: step", "src/dorm_prince/dp5/prepare.rs: prepare_next_step", "src/radau/step_size_control.rs: step_size_control", "src/radau/error_estimate.rs"]}
{"id": "C22", "title": "Previous-point fields", "statement": "After a successful step() call tprev and uprev are the time and state before the call, t = tprev + dtprev. (Holds for DormandPrince5; for Radau5 uprev stays the initial state for ever.)", "quantifier": "every state and run, any arithmetic", "why_tests_cant": "all histories", "anchors": ["src/dorm_prince/dp5/prepare.rs: prepare_next_step", "src/radau/step_size_control.rs: step_size_control"]}
{"id": "C23", "title": "The DormandPrince5 coefficients are a 5(4) Runge-Kutta pair", "statement": "The coefficients used satisfy all 17 conditions for order five, the embedded solution all 8 for order four, and the stage consistency conditions; consequently the step is exact for right-hand sides that are polynomials in t of degree <= 4 and reproduces exp(z) up to z^5/5! on u' = lambda u.", "quantifier": "all polynomials, step sizes, states; exact arithmetic", "why_tests_cant": "unit tests check tolerance on a few problems; a wrong digit in a coefficient can hide behind the error control", "anchors": ["src/dorm_prince/dp5/constants.rs", "src/dorm_prince/dp5/stages.rs: compute_stages"]}
{"id": "C24", "title": "DormandPrince5 dense output interpolates", "statement": "With dense = true, the continuous output of the last step equals uprev at tprev, u at t, has derivatives f(tprev,uprev) and f(t,u) there, and its weights satisfy the order-4 conditions at every point of the step.", "quantifier": "every right-hand side, step, interpolation point", "why_tests_cant": "continuum of evaluation points", "anchors": ["src/dorm_prince/dp5/dense.rs: prepare_dense, dense_output", "src/dorm_prince/dp5/constants.rs"]}
{"id": "C25", "title": "Radau5 dense output interpolates the collocation points", "statement": "With dense = true, the continuous output equals u at t exactly, and agrees with the previous state and the collocation stages at the other three nodes up to the rounding of the tabulated constants. (It holds at the new point and at the second node. It is false at the old point and the first node: the evaluation multiplies the second coefficient by s once too often, so the value at the old point is off by 2*c2 times the second divided difference of the stages.)", "quantifier": "every step and state", "why_tests_cant": "continuum of inputs", "anchors": ["src/radau/continuous_output.rs: dense_output", "src/radau/step_size_control.rs: step_size_control"]}
{"id": "C26", "title": "dec + sol solve real linear systems", "statement": "If dec reports success, sol returns the exact solution of A x = b for the original matrix; dec reports failure for every singular matrix and success for every non-singular one. (False as stated: a matrix whose first column is zero is reported with code 0, i.e. success.)", "quantifier": "every n >= 1, every n x n matrix and right-hand side, exact arithmetic", "why_tests_cant": "all sizes, all pivoting patterns", "anchors": ["src/linalg/dec.rs: dec", "src/linalg/sol.rs: sol"]}
{"id": "C27", "title": "decc + solc solve complex linear systems", "statement": "Same as C26 for complex matrices and right-hand sides given as real and imaginary parts.", "quantifier": "every n >= 1, every complex matrix and right-hand side, exact arithmetic", "why_tests_cant": "all sizes and pivoting patterns", "anchors": ["src/linalg/dec.rs: decc", "src/linalg/sol.rs: solc"]}
{"id": "C28", "title": "Structured solvers (Hessenberg, banded) agree with the dense ones", "statement": "dech/solh, dechc/solhc, decb/solb, decbc/solbc solve systems with Hessenberg or banded matrices, elmhes produces a similar Hessenberg matrix. (dech/solh hold; solhc, decb, solb, decbc, solbc and elmhes do not: singular matrices are accepted, solutions are wrong, solb and solbc panic for diagonal matrices and for matrices with more than lb + ub + 1 rows.)", "quantifier": "every n, bandwidth and matrix of the given structure", "why_tests_cant": "all sizes", "anchors": ["src/linalg/dec.rs: dech, dechc, decb, decbc, elmhes", "src/linalg/sol.rs: solh, solhc, solb, solbc"]}
{"id": "C29", "title": "No panics", "statement": "DormandPrince5: build(), step() and integrate() never panic when max_stiff >= 1; Radau5: never when the dimension is at least 1. (max_stiff = 0 panics on the first accepted step; dimension 0 panics in Radau5's first step.)", "quantifier": "every problem (NaN included), option set, number of steps, any arithmetic", "why_tests_cant": "absence of a panic over all index computations and all inputs", "anchors": ["src/dorm_prince/dp5/algorithm.rs", "src/dorm_prince/dp5/prepare.rs", "src/radau/algorithm.rs", "src/radau/newton.rs", "src/linalg/dec.rs", "src/linalg/sol.rs"]}
{"id": "C30", "title": "Rodas cannot be used", "statement": "Every algorithm exported by the crate can integrate. (False: building an integrator with Rodas panics for every problem.)", "quantifier": "every problem", "why_tests_cant": "universally quantified negative result", "anchors": ["src/rodas/algorithm.rs: new_cache, step"]}
{"id": "C31", "title": "Finite-difference Jacobian", "statement": "Without a user Jacobian the code's Jacobian is exact for right-hand sides affine in u, evaluates dudt exactly n+1 times at points that differ from u in at most one component, and writes every entry. In f64 the increment survives. (The last claim is false: for u_i < -2^19 the increment is lost in rounding and column i is zero.)", "quantifier": "every dimension, affine right-hand side, state", "why_tests_cant": "all dimensions, all magnitudes", "anchors": ["src/ode/jacobian.rs: jacobian_u"]}
{"id": "C32", "title": "A user-supplied Jacobian is used verbatim", "statement": "When dfdu is given, the Jacobian Radau5 works with is always what the closure wrote when called at a recorded point (t,u) of the run, and evaluating it calls dudt not at all.", "quantifier": "every closure, problem and run", "why_tests_cant": "all runs", "anchors": ["src/ode/jacobian.rs: jacobian_u", "src/radau/algorithm.rs", "src/radau/newton.rs", "src/radau/step_size_control.rs"]}
{"id": "C33", "title": "Time-derivative Jacobian", "statement": "Without a user dfdt the fallback approximates df/dt. (False: it is 0 for every right-hand side, because both evaluations use the same time.)", "quantifier": "every right-hand side, exact arithmetic and f64", "why_tests_cant": "universally quantified negative result", "anchors": ["src/ode/jacobian.rs: jacobian_t"]}
{"id": "C34", "title": "Radau5 tolerances", "statement": "Radau5 honours the tolerances set on the builder. Building replaces them by reltol' = 0.1*reltol^(2/3), abstol' = reltol'*abstol/reltol, so that the ratio is kept and the stored options differ from the requested ones.", "quantifier": "every pair of positive tolerances", "why_tests_cant": "continuum of inputs", "anchors": ["src/radau/algorithm.rs: new_cache"]}
{"id": "C35", "title": "Every accepted Radau5 step passed its error test", "statement": "An accepted Radau5 step has an error estimate below 1: the root mean square of the filtered embedded estimate, in units of the working tolerance, evaluated a second time when the first value is not below 1. (In f64 a NaN error estimate is turned into 1e-10 by max(), so a step whose estimate is NaN is accepted.)", "quantifier": "every state and right-hand side", "why_tests_cant": "NaN paths are not reached by ordinary tests", "anchors": ["src/radau/error_estimate.rs: error_estimate", "src/radau/step_size_control.rs: step_size_control"]}
{"id": "C36", "title": "Radau5 Newton iteration solves the Radau IIA equations", "statement": "When the simplified Newton iteration has converged exactly, the stage increments satisfy the three-stage Radau IIA collocation equations for the step being attempted, up to the accuracy of the tabulated transformation constants. The step size in these equations is that of the last decomposition, which is the recorded step's own whenever a decomposition happened in that call. (It need not be otherwise: a last step stretched to reach tfinal after the factors were kept advances u by the old step size.)", "quantifier": "every right-hand side, dimension, state", "why_tests_cant": "all states", "anchors": ["src/radau/newton.rs: newton", "src/radau/dec.rs", "src/radau/linear_solve.rs", "src/radau/constants.rs"]}
{"id": "C37", "title": "Stepping a finished integrator", "statement": "Calling step() again after the end leaves the result alone. (False: DormandPrince5 appends a duplicate of the last point on every further call, Radau5 changes retcode from Success to DtLessThanMin.)", "quantifier": "every finished run", "why_tests_cant": "all finished states", "anchors": ["src/dorm_prince/dp5/algorithm.rs: step", "src/radau/algorithm.rs: step", "src/ode/integrator.rs: step"]}
{"id": "C38", "title": "Builder setters", "statement": "Each builder setter changes exactly the option it names; setters of different options commute; the last of two calls wins.", "quantifier": "every builder and value", "why_tests_cant": "all combinations", "anchors": ["src/ode/integrator.rs: OdeIntegratorBuilder"]}
{"id": "C39", "title": "dtstart sets the initial step", "statement": "The option dtstart determines the initial step size, and hess selects the Hessenberg path. (False: neither option influences any run; results are identical for every value.)", "quantifier": "every problem, run length and pair of values, any arithmetic", "why_tests_cant": "non-interference over all runs", "anchors": ["src/ode/integrator.rs: dtstart, hess, build", "src/dorm_prince/dp5/algorithm.rs", "src/radau/algorithm.rs"]}
{"id": "C40", "title": "Stiffness detection and dense output do not perturb the solution", "statement": "The options max_stiff (>= 1) and dense do not change t, u, dt, the recorded solution, the return code or the counters of any run.", "quantifier": "every problem and pair of option sets that differ only there, any number of steps, any arithmetic", "why_tests_cant": "non-interference over all runs", "anchors": ["src/dorm_prince/dp5/prepare.rs: prepare_next_step", "src/radau/step_size_control.rs: step_size_control"]}
{"id": "C41", "title": "Linear invariants are conserved", "statement": "If a fixed linear functional of dudt vanishes identically, that functional of u is the same at every point recorded by DormandPrince5. The same holds for Radau5 if the functional also vanishes on a user-supplied Jacobian and either weighs the first component or no iteration matrix has a vanishing first column.", "quantifier": "every such right-hand side, dimension, run; exact arithmetic", "why_tests_cant": "all trajectories", "anchors": ["src/dorm_prince/dp5/stages.rs: compute_stages", "src/radau/newton.rs: newton"]}
{"id": "C42", "title": "Polynomial quadrature is exact end to end", "statement": "For right-hand sides that depend on t only, as a polynomial of degree at most 4, every point recorded by DormandPrince5 lies exactly on the true solution, whatever the step sizes.", "quantifier": "every polynomial, dimension, option set and run; exact arithmetic", "why_tests_cant": "all trajectories", "anchors": ["src/dorm_prince/dp5/stages.rs: compute_stages", "src/dorm_prince/dp5/algorithm.rs: step"]}
{"id": "C43", "title": "Initial step growth of DormandPrince5", "statement": "A vanishing error estimate lets the step size grow. (False for the first accepted step in f64: the controller memory is 0 and the next step is always shrunk by facl.)", "quantifier": "every f64 problem whose first attempt is accepted", "why_tests_cant": "holds for every right-hand side", "anchors": ["src/dorm_prince/dp5/prepare.rs: prepare_next_step", "src/dorm_prince/dp5/algorithm.rs: new_cache"]}
{"id": "C44", "title": "Output buffers handed to dudt", "statement": "dudt may rely on its output buffer only if it overwrites every entry: results are independent of the buffer's previous contents for right-hand sides that assign every component; the buffer is not cleared between calls (so an accumulating dudt is wrong).", "quantifier": "every right-hand side", "why_tests_cant": "all right-hand sides", "anchors": ["src/dorm_prince/dp5/stages.rs: compute_stages", "src/radau/newton.rs: newton"]}
{"id": "C45", "title": "Problem data is never modified", "statement": "build(), step() and integrate() never change dudt, dfdu, dfdt, params, tfinal or the direction; after build() the options never change.", "quantifier": "every run without a modifying callback, any arithmetic", "why_tests_cant": "frame property over all runs", "anchors": ["src/dorm_prince/dp5/algorithm.rs", "src/radau/algorithm.rs", "src/radau/step_size_control.rs", "src/radau/newton.rs"]}
{"id": "C46", "title": "Monotone f64 time", "statement": "In f64, as long as dt is finite and non-negative, recorded DormandPrince5 times never decrease; they need not strictly increase (a step smaller than half an ulp of t leaves t unchanged and is still recorded). Recorded Radau5 times strictly increase: a step too small to move the time ends the run with DtLessThanMin instead. All recorded times but the last of a successful run lie in the span.", "quantifier": "every f64 run", "why_tests_cant": "rounding cases", "anchors": ["src/dorm_prince/dp5/prepare.rs: prepare_next_step", "src/radau/algorithm.rs: step", "src/radau/step_size_control.rs: step_size_control"]}
{"id": "C47", "title": "Singular iteration matrices are reported", "statement": "Radau5 reports SingularMatrix exactly when five decompositions have failed since build(); until then each failure halves the step. (The failure counter is never reset by successful steps.)", "quantifier": "every run, any arithmetic", "why_tests_cant": "all histories", "anchors": ["src/radau/dec.rs: perform_decompositions"]}
{"id": "C48", "title": "Zero-length spans", "statement": "Integrating over an empty span (tfinal = t0) succeeds with the initial state. (Holds for DormandPrince5 in exact arithmetic; in binary64 it is false whenever the initial step is too small to change the time: the run goes on and moves the state. False for Radau5, which reports DtLessThanMin for every problem.)", "quantifier": "every problem; exact arithmetic and binary64", "why_tests_cant": "universally quantified corner case", "anchors": ["src/radau/algorithm.rs: step", "src/dorm_prince/dp5/algorithm.rs: step"]}
{"id": "C49", "title": "Integrations of bounded right-hand sides succeed", "statement": "With DormandPrince5, if the right-hand side is bounded on the span and max_steps is large enough for the step size that keeps the error below the tolerance, integrate() ends with Success at tfinal: it never reports MaxIters, DtLessThanMin or Stiff.", "quantifier": "every bounded right-hand side, dimension, forward span and sane option set; exact arithmetic", "why_tests_cant": "a liveness claim over all right-hand sides and step-size histories", "anchors": ["src/dorm_prince/dp5/algorithm.rs: step", "src/dorm_prince/dp5/prepare.rs: prepare_next_step", "src/ode/integrator.rs: OdeIntegrator::integrate"]}
{"id": "C50", "title": "Invariant subspaces and equilibria", "statement": "If the right-hand side cannot leave an affine subspace through the initial state (a species that is absent and only grows from itself, a plane of symmetry, a point where the right-hand side vanishes), then no recorded state of a DormandPrince5 or Radau5 run leaves it; in particular a run started at an equilibrium stays there exactly. For Radau5 the Jacobian must respect the subspace too, which finite differences do for fixed components.", "quantifier": "every right-hand side, dimension, subspace, tolerance, step size history and number of steps; exact arithmetic", "why_tests_cant": "holds for all subspaces and step size histories; a run on one problem shows one of them", "anchors": ["src/dorm_prince/dp5/stages.rs: compute_stages", "src/radau/newton.rs: newton", "src/radau/error_estimate.rs: error_estimate", "src/radau/dec.rs", "src/ode/jacobian.rs"]}
{"id": "C51", "title": "The DAE problem builder accepts exactly the consistent problems", "statement": "build() of the problem builder for differential-algebraic systems never panics; it accepts a problem exactly if the index counts sum to the size of the system, the second-order parameters fit and the mass matrix is not wider than the Jacobian; an accepted problem keeps what was given. (It does not keep the second second-order parameter, and refuses every full mass matrix for second-order problems.)", "quantifier": "every combination of setter calls and every size of the system; source not compiled into the crate", "why_tests_cant": "the space of parameter combinations is unbounded; the one test builds a single default problem", "anchors": ["src/dae/problem.rs: OdeProblemBuilder::build, second_order_params, with_mass, jac_bandwidths, mass_bandwidths"]}
{"id": "C52", "title": "The DormandPrince8 stages are a Runge-Kutta method of order eight", "statement": "Given the slope at the current point, the stage computation leaves the step of an explicit 12-stage method in the cache with 11 further evaluations; its coefficients satisfy the order conditions of all rooted trees with at most 8 nodes, the error weights vanish up to order five, the third-order weights satisfy those of order three, and the constants of the continuous extension satisfy, at every point of the step, those of order seven, up to rounding.", "quantifier": "every right-hand side, dimension, state, time and step size; every rooted tree up to the order; exact arithmetic; source not compiled into the crate", "why_tests_cant": "no test runs the method; a wrong digit hides behind the error control", "anchors": ["src/dorm_prince/dp8.rs: DormandPrince8 (constants)", "src/dorm_prince/dp8/stages.rs: compute_stages"]}
{"id": "C53", "title": "A DormandPrince5 run is the textbook algorithm", "statement": "Time, state, proposed step size, accepted and rejected counts and return code after any number of steps are exactly those of the reference description: a Dormand-Prince 5(4) trial, the weighted root-mean-square error, acceptance at one, the step-size controller with memory (exponent 0.2 - beta^0.75, memory max(e, 1e-4)), clipping at the end of the span, the dtmax cap and no growth after a rejection; and the integrator goes on as long as the reference does.", "quantifier": "every right-hand side, dimension, forward span, sane option set and number of steps; exact arithmetic", "why_tests_cant": "a refinement over all right-hand sides and step-size histories, in both directions", "anchors": ["src/dorm_prince/dp5/algorithm.rs: step", "src/dorm_prince/dp5/prepare.rs: prepare_next_step", "src/dorm_prince/dp5/stages.rs: compute_stages"]}
{"id": "C54", "title": "A Radau5 run is the textbook algorithm", "statement": "Time, state, proposed step size, every statistic and the return code after any number of steps are exactly those of the reference description of the Radau IIA method: simplified Newton iteration from the continued collocation polynomial with its contraction tests, the filtered error estimate (twice at the start and after a failure), the classical and the predictive step-size controller, when Jacobian and matrices are kept, halving on singular matrices, clipping at the end of the span. The reference has exactly one end and integrate() arrives there.", "quantifier": "every right-hand side, Jacobian (given or by differences), dimension, forward span, sane option set and number of steps; exact arithmetic; Jacobians that make the first column of an iteration matrix vanish excepted", "why_tests_cant": "a refinement over all right-hand sides and step-size histories, in both directions", "anchors": ["src/radau/algorithm.rs: step", "src/radau/newton.rs: newton", "src/radau/error_estimate.rs: error_estimate", "src/radau/step_size_control.rs: step_size_control", "src/radau/dec.rs: perform_decompositions", "src/ode/jacobian.rs"]}
{"id": "C55", "title": "The Rodas coefficients define a fourth-order Rosenbrock method", "statement": "The constants of the Rodas algorithm satisfy the order conditions of all rooted trees with at most 4 nodes up to the digits given (not those of order 5), the embedded result those of order 3, the continuous output those of order 3 at every point of the step; the method is stiffly accurate; the nodes and row sums given separately agree with the tables. (The algorithm itself is unimplemented, C30.)", "quantifier": "every rooted tree up to the order, every point of the step; exact arithmetic", "why_tests_cant": "no code path reads the constants yet, so no test can", "anchors": ["src/rodas/constants.rs"]}
{"id": "C56", "title": "Default options", "statement": "Without setters DormandPrince5 and Radau5 run with the tolerances 1e-3 and 1e-7, an initial step of 1e-6, at most 100000 attempts and the controller parameters of the documentation; these make every hypothesis on options met, so every forward integration of a locally bounded right-hand side by DormandPrince5 returns.", "quantifier": "every right-hand side, initial state, span and parameters", "why_tests_cant": "the last part is a liveness claim over all right-hand sides", "anchors": ["src/dorm_prince/dp5/algorithm.rs: default_opts", "src/radau/algorithm.rs: default_opts", "src/ode/options.rs: new", "src/ode/integrator.rs: OdeIntegratorBuilder::default"]}
{"id": "C57", "title": "Results do not depend on units and labels", "statement": "Renumbering the components of the state, changing their common unit or sign, and changing the unit of time (with abstol, dtmax, the initial step and the span converted) changes nothing a DormandPrince5 or Radau5 run shows after any number of calls but the units: times, states, step sizes, statistics and return codes correspond. For Radau5 this needs Jacobians that correspond; forward-difference Jacobians do for every change of labels and time unit.", "quantifier": "every problem, renumbering, conversion factors and number of calls; exact arithmetic, forward integration", "why_tests_cant": "relates two runs for every conversion; a test compares two runs for one", "anchors": ["src/dorm_prince/dp5/algorithm.rs: step", "src/radau/algorithm.rs: step", "src/ode/jacobian.rs"]}
{"id": "C58", "title": "DormandPrince5 converges with order five", "statement": "For a smooth problem there are constants K and H0 such that, whatever the options, if no step taken is longer than H <= H0 then every recorded state is within K H^5 of the exact solution, and so is the dense output at every time of the last step. Hence a small enough dtmax and initial step achieve any accuracy, whatever the tolerances.", "quantifier": "every smooth problem with an exact solution, dimension, option set, step-size history and number of steps; exact arithmetic, forward integration", "why_tests_cant": "a convergence rate is a statement about all step sizes and all problems; tests compare a few runs with a known solution", "anchors": ["src/dorm_prince/dp5/algorithm.rs: step", "src/dorm_prince/dp5/stages.rs: compute_stages", "src/dorm_prince/dp5/dense.rs: prepare_dense, dense_output", "src/dorm_prince/dp5/prepare.rs: prepare_next_step"]}
{"id": "C59", "title": "Radau5 converges", "statement": "For a problem with a Lipschitz right-hand side, a bounded Jacobian (given or by differences) and any fixed tolerances and options, there are constants K and H0 such that, if no step taken is longer than H <= H0, every recorded state is within K (H + 1e-16) of the exact solution; the second term comes from the 16 digits of the coefficients. Hence a small enough dtmax and initial step achieve any accuracy down to that level, however early the Newton iteration stops and whatever matrices it uses.", "quantifier": "every Lipschitz problem with an exact solution, dimension, option set, step-size history and number of steps; exact arithmetic, forward integration; Jacobians that make the first column of an iteration matrix vanish excepted", "why_tests_cant": "a limit statement over all step sizes and all problems, through an inexact Newton iteration with reused matrices", "anchors": ["src/radau/algorithm.rs: step", "src/radau/newton.rs: newton", "src/radau/step_size_control.rs: step_size_control", "src/radau/dec.rs: perform_decompositions"]}
{"id": "C60", "title": "Radau5 integrations with small steps succeed", "statement": "For a problem with a Lipschitz right-hand side and a bounded Jacobian, and any fixed tolerances and options (safety factor at least 1/100, at least one Newton pass), there are constants K and H0 such that integrate() with 0 < dt <= dtmax <= H0, a budget of (tfinal - t)/dt + 1 attempts and dt not negligible against the times returns Success at tfinal, with every recorded state within K (dtmax + 1e-16) of the exact solution.", "quantifier": "every Lipschitz problem with an exact solution, dimension, option set, end time, step size and budget; exact arithmetic, forward integration; Jacobians that make the first column of an iteration matrix vanish excepted", "why_tests_cant": "a total-correctness claim: no singular matrix, failed Newton iteration, rejected step, minimal step size or exhausted budget may occur in any such run", "anchors": ["src/radau/algorithm.rs: step, integrate", "src/radau/newton.rs: newton", "src/radau/step_size_control.rs: step_size_control", "src/radau/dec.rs: perform_decompositions", "src/radau/error_estimate.rs"]}
{"id": "C61", "title": "Radau5 is stable on linear systems at every step size", "statement": "On a linear system u' = J (u - e) with the exact Jacobian (given, or by differences), every mode that does not grow in the exact solution does not grow in the recorded states: each step multiplies it by at most 1 + 1e-13, whatever the step sizes, tolerances and eigenvalues. A mode that is fast compared with the step size h, of eigenvalue mu, is damped by a factor of h|mu|/6 or more.", "quantifier": "every linear system, dimension, eigenvalue with nonpositive real part, option set, step-size history and number of steps; exact arithmetic, forward integration", "why_tests_cant": "a bound uniform over all stiff systems and all step sizes; a test samples a few eigenvalues", "anchors": ["src/radau/algorithm.rs: step", "src/radau/newton.rs: newton", "src/radau/constants.rs", "src/radau/dec.rs: perform_decompositions"]}
{"id": "C62", "title": "DormandPrince5 in binary64 follows the solution up to rounding", "statement": "In binary64 a step of DormandPrince5 differs from the exact Dormand-Prince step at the same point by at most 600 u (1 + bounds of the states and slopes) plus four times the step length times the error of the user's function, u = 2^-53; no overflow or NaN appears. Hence along a whole run of N recorded points every recorded state is finite and within K (H^5 + d + N u) of the exact solution, H being the largest step and d the error of the user's function and initial state, once K (H + d + N u) <= 1.", "quantifier": "every smooth problem, dimension, right-hand side evaluated to accuracy d, option set and step-size history of a forward run; IEEE binary64, any powf and powi", "why_tests_cant": "a bound for all problems and all roundings; a test compares one run with one reference", "anchors": ["src/dorm_prince/dp5/algorithm.rs: step", "src/dorm_prince/dp5/stages.rs", "src/dorm_prince/dp5/prepare.rs", "src/dorm_prince/dp5/constants.rs", "src/ode/integrator.rs: step"]}
{"id": "C63", "title": "The tolerances do not bound the error of an integration", "statement": "One expects that a successful integration with small tolerances has a small error. It is false even in exact arithmetic and for smooth problems: for every M there is a polynomial a(t) whose integral over [0,1] is M, such that with the default options and any tolerances whatsoever DormandPrince5 integrates u' = a(t), u(0) = 0 over [0,1], reports Success, and returns 0. The same holds for Radau5. (The step sizes start at 1e-6 and then grow tenfold, with Radau5 eightfold, so the solver only ever looks at 54, or 32, fixed points; a bound on the step size does bound the error, C58, C59.)", "quantifier": "every pair of tolerances, every size M of the error", "why_tests_cant": "the claim is about all tolerances at once; a test fixes one problem and one tolerance", "anchors": ["src/dorm_prince/dp5/algorithm.rs: step", "src/dorm_prince/dp5/error.rs", "src/radau/step_size_control.rs: step_size_control", "src/radau/error_estimate.rs", "src/ode/integrator.rs: reltol, abstol"]}
{"id": "C64", "title": "How DormandPrince5 treats the modes of linear systems", "statement": "On u' = J (u - e) every recorded step of size h multiplies the mode of the eigenvalue m by exactly |1 + z + z^2/2 + z^3/6 + z^4/24 + z^5/120 + z^6/600| with z = h m. For a real eigenvalue a < 0 the mode does not grow in a step with h |a| <= 3.3 and grows in every step with h |a| >= 3.31. If dtmax and the initial step are at most about 1/|Re m| and 0.9/|Im m|, modes with Re m <= 0 (undamped oscillations included) are never larger than at the start. That decaying modes always decay, as with Radau5, is false: with loose tolerances one grows more than a thousandfold in the first step.", "quantifier": "every linear system, dimension, eigenvalue, option set, step-size history", "why_tests_cant": "a statement about all linear systems and all step sequences; a test runs one of them", "anchors": ["src/dorm_prince/dp5/algorithm.rs: step", "src/dorm_prince/dp5/stages.rs", "src/dorm_prince/dp5/prepare.rs", "src/dorm_prince/dp5/constants.rs"]}
