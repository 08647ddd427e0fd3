# Formal model of cyphus-diffeq: design

## 1. What is modelled

The model is written in Gallina in `rocq/theories/`, one file per group of
source files; each definition cites the lines it models.

| model file | source |
|---|---|
| `Arith.v` | scalar operations (`f64` methods) as a record `arith`; outcome type `res` |
| `Vec.v` | the fragment of `ndarray` used (checked indexing, elementwise ops) |
| `Core.v` | `src/ode/{code,options,statistics,solution,integrator,algorithm}.rs` |
| `Jacobian.v` | `src/ode/jacobian.rs` |
| `DP5.v` | `src/dorm_prince/dp5/*.rs` |
| `Linalg.v`, `LinalgBand.v` | `src/linalg/{dec,sol}.rs` |
| `Radau.v` | `src/radau/*.rs` |
| `Rodas.v` | `src/rodas/algorithm.rs` |
| `RodasConst.v` | `src/rodas/constants.rs` |
| `ArithF.v` | binary64 instance (Flocq) |
| `ArithR.v` | exact real instance (Coq reals) |

The code computes in `f64` only.  The model is generic in the scalar
arithmetic `A : arith` (a record of operations without laws), and is
instantiated twice.  A property about control flow, bookkeeping, termination or
panics is proved for **every** `A`, hence for `f64` with NaN and infinities.  A
property about the numerical method is proved over `RA inf` (exact reals).  A
property about rounding or NaN is proved over `F64 powf powi` (Flocq binary64;
the libm functions `powf`/`powi` are universally quantified oracles).

* `&mut` becomes state passing; loops become recursion with explicit fuel and
  the result `OutOfFuel` (theorems say when it cannot occur); panics (index out
  of bounds, `usize` underflow, `% 0`, `unimplemented!()`) are the result
  `Panic`.
* The user's closures are arbitrary functions of the old output buffer, state,
  time and parameters.
* A ghost trace in the integrator records each call of the user's functions.

## 2. How each property is proved

| property | arithmetic | method |
|---|---|---|
| C01 recorded solution | every `A` | invariant over attempts, lifted to any number of `step()` calls |
| C02 integrate = repeated step | every `A`, every algorithm and callback | induction on fuel, fuel monotonicity |
| C03 step result | every `A` | case analysis |
| C04 integrator iteration | every `A` | induction relating yielded items to the recorded list; refutation of the full claim |
| C05 solution iteration | every `A` | induction on the two cursors |
| C06 return codes | every `A` | invariant |
| C07 DP5 step budget | every `A` | invariant + induction |
| C08 Radau5 termination | every `A` | explicit fuel bounds, measure (max_steps - steps, 5 - nsing, newton iterations) |
| C09 DP5 non-termination | f64 | NaN propagation through stages and error norm, induction on fuel |
| C10 DP5 termination | R | geometric decrease of the step, linear bound of the error norm |
| C11 rejection shrinks | R, F | real inequalities; refutation with large beta; binary64: relative rounding error of each rejection, induction over the attempts of a call (`DP5RatioF.v`, `RadShrinkF.v`) |
| C12 ratio limits | R, F | real inequalities; refutation of the documented bounds; binary64: monotonicity of rounded division (`DP5RatioF.v`, `RadRatioF.v`) |
| C13 time monotone, in span | R | invariant on (t, dt, last) |
| C14 Success at tfinal | R, f64 | same invariant; Sterbenz lemma; counterexample by computation |
| C15 backward integration | R | invariant of the wrong-direction phase |
| C16 dtmax | R, F | invariant; in binary64 by monotone rounding (`DP5MaxF.v`) and the relative error of sums (`RadMaxF.v`) |
| C17 recorded points are RK steps | R (and shape for every `A`) | refinement to a generic explicit Runge-Kutta specification with the textbook tableau |
| C18 rejected attempts invisible | every `A` | invariant of the retry loop |
| C19 counters | every `A` | invariant relating counters to the ghost trace |
| C20 evaluation times | R, F | invariant over the ghost trace; in binary64 by monotone rounding of `t + c dt` (`DP5TimeF.v`, `RadauTimeF.v`) |
| C21 callbacks that replace `u` | R, F | what the next step is (exact arithmetic), counterexamples (binary64); for Radau5 the run invariant of C35 with a recorded point that is not the current one (`RadauJump.v`) |
| C22 previous point | every `A` | invariant; refutation for Radau5 |
| C23 coefficients | R | rational arithmetic; consequences proved for all polynomials |
| C24 DP5 dense output | R | polynomial identities |
| C25 Radau5 dense output | R | identities with bounds on sqrt 6 |
| C26 dec/sol | R | LU invariant by induction on the stage, all n |
| C27 decc/solc | R | same over pairs of reals |
| C28 structured solvers | R | reduction to C26 under bandwidth hypothesis; refutations by computation |
| C29 no panics | every `A` | shape invariants |
| C30 Rodas | every `A` | computation |
| C31 finite-difference Jacobian | R, f64 | loop invariant; counterexample |
| C32 user Jacobian | every `A` | trace invariant |
| C33 time Jacobian | R, f64 | computation on generic f |
| C34 Radau5 tolerances | R | real algebra |
| C35 Radau5 acceptance | every `A`, f64 for NaN | case analysis; NaN propagation |
| C36 Newton fixed point | R | linear algebra on top of C26/C27, constants bounded |
| C37 stepping after the end | R / every `A` | case analysis |
| C38 setters | every `A` | computation |
| C39 dtstart, hess ignored | every `A` | relational (non-interference) proof |
| C40 max_stiff, dense ignored | every `A` | relational proof |
| C41 linear invariants | R | DP5: induction on top of C17; Radau5: the functional annihilates the Jacobian (also by differences) and so, by C26/C27, the stage increments |
| C42 polynomial quadrature | R | induction on top of C17, C23 |
| C43 first step | f64 | case analysis on IEEE values |
| C44 output buffers | every `A` | relational proof; counterexample |
| C45 frame | every `A` | invariant |
| C46 f64 time | f64 | monotonicity of rounding |
| C47 singular matrices | every `A` | invariant |
| C48 zero-length span | R, F | computation on generic problem; in binary64 the clipping test `t + 1.01 dt > tfinal` fails when the sum rounds to t (`EmptyF.v`) |
| C49 bounded right-hand sides succeed | R | lower bound on the step sizes by induction over attempts and rejections, on top of C10 and C13 |
| C50 invariant subspaces, equilibria | R | DP5: every stage is a combination of slopes; Radau5: the linear solvers map an invariant subspace of a nonsingular matrix to itself (dimension argument) |
| C51 DAE problem builder | every `A` | case analysis |
| C52 DormandPrince8 stages | R | stage by stage; order conditions of the method, the error weights and the continuous extension decided in fixed-point arithmetic with proved error bounds, over an enumeration of the trees that is proved complete |
| C53 DormandPrince5 as a whole | R | simulation: a separate relational description of the adaptive algorithm (`SpecPI.v`), tied to the run step by step in both directions |
| C54 Radau5 as a whole | R | simulation: a separate relational description without decompositions (`SpecIRK.v`), tied to the run step by step (`RadauRef.v`); the reference is deterministic (`RadRefDet.v`), which with termination gives the converse |
| C55 Rodas coefficients | R | the matrix inverse and all weights computed over the rationals, with a homomorphism into the reals |
| C56 default options | R | computation; termination from C10 |
| C57 units and labels | R | equivariance of the reference descriptions of C53 and C54 (sums are invariant under renumbering, regularity under similarity), carried to runs by their soundness and completeness |
| C58 order of convergence | R | local error by Taylor expansion of solution and Jacobian (`ConvLocal.v`, big-O calculus in `BigO.v`), Lipschitz stability of the step and induction over the recorded points (`ConvGlobal.v`) |
| C59 Radau5 converges | R | about the reference of C54: one pass of the simplified Newton iteration is accurate to second order in the step size whatever the matrices (`RadConvLocal.v`), kept matrices never lead to a Newton failure when steps are small, so matrices and step size belong together (`RadConvRun.v`); an exponential majorant and induction over the run (`RadConv.v`) |
| C60 Radau5 integrations with small steps succeed | R | about the reference of C54, with the bounds of C59: iteration matrices for small steps are regular, the first Newton pass is accepted, the filtered error estimate is of the size of the step, so no attempt is refused and no step but the last is shorter than the first (`RadSucc.v`); counting steps gives Success (`RadSuccMain.v`) |
| C61 Radau5 is stable on linear systems at every step size | R | about the reference of C54: on a linear system the first Newton pass is exact up to the digits of T and TI, and the kept matrices belong to the step size in use (`RadMode.v`); the complex stability function of the tabulated coefficients is bounded by 1 on the left half plane and by a multiple of 1/|z|, coefficient by coefficient of the squared moduli (`RadModeC.v`, over Coquelicot's complex numbers; no further axioms) |
| C62 DormandPrince5 in binary64 follows the solution up to rounding | F | forward error analysis of the seven stages and the update over Flocq (`FErr.v`, `DP5Round.v`), each coefficient being its literal's nearest float; perturbed Runge-Kutta steps accumulate by the discrete Gronwall argument of C58 (`PertRK.v`, `DP5F64Conv.v`); explicit one-step bound in `DP5F64Step.v` |
| C63 The tolerances do not bound the error of an integration | R | refuted: the nine steps of a run that sees only zero slopes are computed once with the reference description of C53, for all tolerances; the right-hand side is a polynomial with double zeros at the 54 stage times and positive integral (`TolEx.v`); Radau5 in the same way with the reference of C54 (`RadTolEx.v`) |
| C64 How DormandPrince5 treats the modes of linear systems | R | a left eigenvector turns the seven stages into complex polynomials in h times the eigenvalue, multiplied out coefficient by coefficient (`DP5Mode.v`); bounds of the stability polynomial on the real axis and on a rectangle (`DP5GrowB.v`); runs by C16 and C17; refutation by a one-step run (`DP5GrowEx.v`) |

## 3. Modelled and not modelled

Modelled function by function, including what is unreachable from the public
API: everything `lib.rs` declares (`ode`, `dorm_prince::dp5`, `radau`, `rodas`,
`linalg`), and of the files that are not compiled into the crate
`src/dae/problem.rs`, `src/dorm_prince/dp8.rs` and `dp8/stages.rs`.  The comment at each definition gives file and lines and says where
it simplifies.  The simplifications are:

* `ndarray` vectors and matrices are lists (of lists).  Indexing is checked;
  out of bounds is `Panic`.  Layout, views, broadcasting and allocation are not
  modelled.  Elementwise loops over several arrays check all lengths first.
* The user's closures are total functions of the previous contents of the
  output buffer, the state, the time and the parameters.  Panics inside a
  closure, closures that do not return and interior mutability are not
  modelled.  A closure cannot change the length of its output.
* The integrator carries a ghost trace of the calls of the user's functions.
  The code has no such field; nothing reads it.
* `usize` counters are unbounded naturals; pivots (`i32`) are naturals.
  Wrap-around and overflow panics of counters are not modelled.
  `usize` subtraction below zero is `Panic`.
* `f64` is Flocq's `binary_float 53 1024` with one NaN, round to nearest even.
  NaN payloads and signs are not modelled.  A literal `n/d` is the quotient
  rounded once.  `powf` and `powi` are arbitrary functions.
* In exact arithmetic `x / 0` is the parameter `inf` (any real) with the sign of
  `x`, `powf` is real exponentiation, and there is no NaN (`ArithR.v` lists the
  choices).

Not modelled: `src/rodas/{alg,core}.rs`,
`src/ode/callback.rs` (not compiled into the crate: `ode.rs` and `rodas.rs` do
not declare them); `Display`/`Debug` output; the unit tests; memory safety, threads.

## 4. Trusted base

* Coq 8.16.1: its kernel, including `vm_compute` (used for the concrete runs and
  the constants).
* The reading of the Rust source: the definitions in `Core.v`, `Driver.v`
  (`steps_n`, `reached`: repeated `step()` calls), `Jacobian.v`, `DP5.v`,
  `Linalg.v`, `LinalgBand.v`, `Radau.v`, `Rodas.v`, `RodasConst.v`, `DP8.v`, `Dae.v`, the two arithmetics, and the vocabulary of
  the statements in `Spec*.v`.  The files `Prop*.v` contain the theorems.
* Libraries: the standard library (with its axioms below), Flocq for binary64
  and its correctness theorems, Coquelicot (in `DP5Dense.v`),
  `RecordUpdate` (a macro for record updates).  They add no axioms of their own.
* Axioms: the next section lists them per theorem.  `sig_forall_dec`,
  `sig_not_dec` and `functional_extensionality_dep` come with the standard
  library's real numbers, `classic` with Flocq and the real analysis library.
  Theorems about every arithmetic use none.

## How to read `seeded/LOG.jsonl`

Each line is one edit of a model definition in a scratch copy, rebuilt there.
A lemma whose proof stopped going through (or ran past 240 s) was admitted in
the scratch copy so that the build could go on. `first_broken_lemmas` lists
those lemmas. `failed_theorems` lists the property theorems whose
`Print Assumptions` then names one of them.

This shows that the proof of a listed theorem no longer goes through. It does
not show that its statement is false of the edited program. Long lists are
mostly theorems downstream of one lemma that mirrors the control flow. An entry
is evidence for the claim it names only through the theorems about that claim.
The later entries rebuilt only some property files; their `note` says which.

## 5. What `Print Assumptions` lists

(Written by `tools/assumptions.py`.)

Closed under the global context (70 theorems):
`C01_dp5_history_only_grows`, `C01_dp5_last_is_current`, `C01_dp5_recorded_solution`, `C01_radau_history_only_grows`, `C01_radau_last_is_current`, `C01_radau_number_of_points`, `C01_radau_recorded_solution`, `C02_integrate_is_repeated_step`, `C02_resume`, `C02_returns_finished`, `C03_step_result`, `C04_iteration_drops_last_partial`, `C04_iteration_refuted`, `C04_radau_iteration_partial`, `C05_next_is_nth`, `C05_solution_iteration`, `C06_dp5_return_codes`, `C06_radau_return_codes`, `C07_dp5_budget`, `C07_dp5_final_steps`, `C07_dp5_integrate_ends`, `C08_radau_integrate_returns`, `C08_radau_max_iters`, `C08_radau_step_returns`, `C18_dp5_one_point_per_call`, `C18_dp5_rejections_leave_no_trace`, `C18_radau_one_point_per_call`, `C19_dp5_counters_partial`, `C19_dp5_function_evals_refuted`, `C19_radau_counters_partial`, `C19_radau_function_evals_refuted`, `C19_radau_jacobian_evals_refuted`, `C22_dp5_previous_point`, `C22_radau_uprev_is_initial`, `C28_solb_diagonal_panics_refuted`, `C28_solb_panics_refuted`, `C28_solbc_diagonal_panics_refuted`, `C28_solbc_dimension_one_refuted`, `C28_solbc_panics_refuted`, `C29_dp5_build_ok`, `C29_dp5_max_stiff_zero_refuted`, `C29_dp5_no_panic`, `C29_radau_build_ok`, `C29_radau_dimension_zero_refuted`, `C29_radau_no_panic`, `C30_rodas_refuted`, `C31_evaluations`, `C32_no_rhs_evaluation`, `C32_radau_user_jacobian`, `C34_radau_options_after_build`, `C38_setters_commute`, `C38_setters_set_their_field`, `C39_dp5_dtstart_ignored_refuted`, `C39_dp5_other_options_ignored`, `C39_radau_dtstart_hess_ignored_refuted`, `C39_radau_ignored_inputs`, `C40_dp5_stiffness_and_dense_do_not_perturb`, `C40_radau_stiffness_and_dense_do_not_perturb`, `C44_dp5_buffer_contents_do_not_matter`, `C44_radau_buffer_contents_do_not_matter`, `C45_dp5_problem_data_kept`, `C45_radau_problem_data_kept`, `C47_radau_one_decomposition`, `C47_radau_singular_after_five`, `C51_dae_build_accepts`, `C51_dae_build_returns`, `C51_dae_builder_calls`, `C51_dae_full_mass_refuted`, `C51_dae_problem`, `C51_dae_second_order_params_refuted`.

Axioms `ClassicalDedekindReals.sig_forall_dec`, `FunctionalExtensionality.functional_extensionality_dep` (2 theorems):
`C23_dp5_order`, `C24_dp5_dense_order`.

Axioms `ClassicalDedekindReals.sig_forall_dec`, `ClassicalDedekindReals.sig_not_dec`, `FunctionalExtensionality.functional_extensionality_dep` (1 theorems):
`C36_radau_coefficients`.

Axioms `ClassicalDedekindReals.sig_forall_dec`, `ClassicalDedekindReals.sig_not_dec`, `Classical_Prop.classic`, `FunctionalExtensionality.functional_extensionality_dep` (134 theorems):
`C09_dp5_dimension_zero_refuted`, `C09_dp5_nan_derivative_refuted`, `C10_integrate_returns`, `C10_step_returns`, `C11_dp5_f64_rejection_shrinks`, `C11_dp5_large_beta_refuted`, `C11_dp5_rejection_shrinks`, `C11_radau_f64_rejection_shrinks`, `C11_radau_rejection_shrinks`, `C12_dp5_documented_limit_refuted`, `C12_dp5_f64_ratio_limits`, `C12_dp5_ratio_limits`, `C12_radau_f64_ratio_limits`, `C12_radau_ratio_limits`, `C13_dp5_times`, `C13_radau_times`, `C14_dp5_f64_exact_end_refuted`, `C14_dp5_f64_success`, `C14_dp5_success_at_end`, `C14_radau_f64_exact_end_refuted`, `C14_radau_f64_success`, `C14_radau_success_at_end`, `C15_dp5_backward_refuted`, `C15_radau_backward`, `C15_radau_backward_refuted`, `C16_dp5_dtmax`, `C16_dp5_f64_distance_refuted`, `C16_dp5_f64_dtmax`, `C16_dp5_literal_refuted`, `C16_radau_dtmax`, `C16_radau_f64_dtmax`, `C16_radau_literal_refuted`, `C17_dp5_recorded_points`, `C20_dp5_f64_inside_span_refuted`, `C20_dp5_f64_rhs_times`, `C20_dp5_rhs_inside_span`, `C20_radau_f64_inside_span_refuted`, `C20_radau_f64_rhs_times`, `C20_radau_rhs_inside_span`, `C21_dp5_callback_first_slope`, `C21_dp5_callback_restart_refuted`, `C21_radau_callback_error_test`, `C21_radau_callback_restart_refuted`, `C22_radau_uprev_refuted`, `C23_dp5_linear_system`, `C24_dp5_dense_output`, `C25_radau_dense_at_new_point`, `C25_radau_dense_at_old_point_refuted`, `C25_radau_dense_at_second_node`, `C25_radau_dense_f64_refuted`, `C26_dec_sol`, `C26_zero_column_refuted`, `C27_decc_solc`, `C27_zero_column_refuted`, `C28_decb_singular_refuted`, `C28_decb_solb_refuted`, `C28_decb_solb_upper`, `C28_decb_upper_singular_refuted`, `C28_decbc_singular_refuted`, `C28_decbc_solbc_refuted`, `C28_dech_solh`, `C28_dechc_diagonal_refuted`, `C28_dechc_solc`, `C28_elmhes_refuted`, `C28_solhc_refuted`, `C31_exact_for_affine`, `C31_increment_lost_refuted`, `C33_always_zero_refuted`, `C33_f64_always_zero_refuted`, `C34_radau_working_tolerances`, `C35_radau_error_test`, `C35_radau_error_test_nan_refuted`, `C36_radau_linear_problems`, `C36_radau_own_step_size`, `C36_radau_own_step_size_refuted`, `C36_radau_quadrature`, `C36_radau_stage_equations`, `C37_dp5_finished_refuted`, `C37_radau_finished_general_refuted`, `C37_radau_finished_refuted`, `C41_dp5_linear_invariants`, `C41_radau_linear_invariants`, `C42_dp5_quadrature`, `C43_dp5_initial_growth_refuted`, `C44_dp5_buffers_not_cleared_refuted`, `C44_radau_buffers_not_cleared_refuted`, `C46_dp5_f64_strict_refuted`, `C46_dp5_f64_times`, `C46_radau_f64_times`, `C48_dp5_empty_span`, `C48_dp5_f64_empty_span_refuted`, `C48_dp5_f64_state_kept_refuted`, `C48_radau_empty_span_refuted`, `C48_radau_f64_empty_span_refuted`, `C49_dp5_integrate_succeeds`, `C50_dp5_equilibria`, `C50_dp5_invariant_subspaces`, `C50_radau_equilibria`, `C50_radau_held_components`, `C50_radau_invariant_subspaces`, `C52_dp8_dense`, `C52_dp8_order`, `C52_dp8_row_sums`, `C52_dp8_stages`, `C53_dp5_follows_reference`, `C53_dp5_reference_is_followed`, `C54_radau_follows_reference`, `C54_radau_integrate_is_reference`, `C54_radau_reference_is_followed`, `C55_rodas_continuous_output`, `C55_rodas_nodes`, `C55_rodas_order`, `C56_dp5_defaults`, `C56_dp5_defaults_return`, `C56_radau_defaults`, `C57_differences_units_and_labels`, `C57_dp5_units_and_labels`, `C57_radau_units_and_labels`, `C58_dp5_dense_order_five`, `C58_dp5_dtmax_controls_error`, `C58_dp5_order_five`, `C59_radau_converges`, `C59_radau_dtmax_controls_error`, `C60_radau_integrate_succeeds`, `C61_radau_fast_modes_damped`, `C61_radau_modes_do_not_grow`, `C62_dp5_f64_converges`, `C62_dp5_f64_step_error`, `C63_dp5_tolerances_bound_error_refuted`, `C63_radau_tolerances_bound_error_refuted`, `C64_dp5_decaying_modes_decay_refuted`, `C64_dp5_dtmax_keeps_modes`, `C64_dp5_mode_factor`, `C64_dp5_real_modes`.
