{
 "claims": [
  {
   "property": "C01",
   "status": "proved",
   "theorems": [
    "C01_dp5_recorded_solution",
    "C01_dp5_history_only_grows",
    "C01_dp5_last_is_current",
    "C01_radau_recorded_solution",
    "C01_radau_history_only_grows",
    "C01_radau_last_is_current",
    "C01_radau_number_of_points"
   ],
   "note": "both algorithms, every arithmetic"
  },
  {
   "property": "C02",
   "status": "proved",
   "theorems": [
    "C02_integrate_is_repeated_step",
    "C02_resume",
    "C02_returns_finished"
   ],
   "note": "every algorithm, callback and arithmetic"
  },
  {
   "property": "C03",
   "status": "proved",
   "theorems": [
    "C03_step_result"
   ],
   "note": ""
  },
  {
   "property": "C04",
   "status": "proved",
   "theorems": [
    "C04_iteration_drops_last_partial",
    "C04_iteration_refuted",
    "C04_radau_iteration_partial"
   ],
   "note": "the property is false as stated; what iteration yields is proved, and the full claim is refuted"
  },
  {
   "property": "C05",
   "status": "proved",
   "theorems": [
    "C05_solution_iteration",
    "C05_next_is_nth"
   ],
   "note": ""
  },
  {
   "property": "C06",
   "status": "proved",
   "theorems": [
    "C06_dp5_return_codes",
    "C06_radau_return_codes"
   ],
   "note": "both algorithms, every arithmetic"
  },
  {
   "property": "C07",
   "status": "proved",
   "theorems": [
    "C07_dp5_budget",
    "C07_dp5_final_steps",
    "C07_dp5_integrate_ends"
   ],
   "note": ""
  },
  {
   "property": "C08",
   "status": "proved",
   "theorems": [
    "C08_radau_step_returns",
    "C08_radau_integrate_returns",
    "C08_radau_max_iters"
   ],
   "note": "every right-hand side, callback and arithmetic"
  },
  {
   "property": "C09",
   "status": "proved",
   "theorems": [
    "C09_dp5_nan_derivative_refuted",
    "C09_dp5_dimension_zero_refuted"
   ],
   "note": "false in f64; the theorems show it for every problem with a NaN derivative component at a point the run reaches, and for every problem of dimension zero"
  },
  {
   "property": "C10",
   "status": "proved",
   "theorems": [
    "C10_step_returns",
    "C10_integrate_returns"
   ],
   "note": "exact arithmetic; step() with an explicit bound on the attempts, integrate() for locally bounded right-hand sides"
  },
  {
   "property": "C11",
   "status": "proved",
   "theorems": [
    "C11_dp5_rejection_shrinks",
    "C11_dp5_large_beta_refuted",
    "C11_radau_rejection_shrinks",
    "C11_dp5_f64_rejection_shrinks",
    "C11_radau_f64_rejection_shrinks"
   ],
   "note": "both algorithms in exact arithmetic and in binary64; DormandPrince5 refuted for large beta"
  },
  {
   "property": "C12",
   "status": "proved",
   "theorems": [
    "C12_dp5_ratio_limits",
    "C12_dp5_documented_limit_refuted",
    "C12_radau_ratio_limits",
    "C12_dp5_f64_ratio_limits",
    "C12_radau_f64_ratio_limits"
   ],
   "note": "both algorithms in exact arithmetic and in binary64; the documented limits are refuted for DormandPrince5"
  },
  {
   "property": "C13",
   "status": "proved",
   "theorems": [
    "C13_dp5_times",
    "C13_radau_times"
   ],
   "note": "both algorithms in exact arithmetic"
  },
  {
   "property": "C14",
   "status": "proved",
   "theorems": [
    "C14_dp5_success_at_end",
    "C14_dp5_f64_success",
    "C14_dp5_f64_exact_end_refuted",
    "C14_radau_f64_success",
    "C14_radau_f64_exact_end_refuted",
    "C14_radau_success_at_end"
   ],
   "note": "both algorithms in exact arithmetic; in f64 both algorithms: last time is t + (tfinal - t) rounded, its distance to tfinal, exactness within a factor of two, and runs that end elsewhere"
  },
  {
   "property": "C15",
   "status": "proved",
   "theorems": [
    "C15_dp5_backward_refuted",
    "C15_radau_backward",
    "C15_radau_backward_refuted"
   ],
   "note": "the property is false: refuted for every backward DormandPrince5 problem; for Radau5 it holds exactly when t0 + 1.0001 dt + tfinal >= 0"
  },
  {
   "property": "C16",
   "status": "proved",
   "theorems": [
    "C16_dp5_dtmax",
    "C16_dp5_literal_refuted",
    "C16_dp5_f64_dtmax",
    "C16_dp5_f64_distance_refuted",
    "C16_radau_f64_dtmax",
    "C16_radau_dtmax",
    "C16_radau_literal_refuted"
   ],
   "note": "both algorithms in exact arithmetic, and in binary64 for the step added (refuted for the distance of the recorded times); the literal claim is refuted for both"
  },
  {
   "property": "C17",
   "status": "proved",
   "theorems": [
    "C17_dp5_recorded_points"
   ],
   "note": "exact arithmetic"
  },
  {
   "property": "C18",
   "status": "proved",
   "theorems": [
    "C18_dp5_rejections_leave_no_trace",
    "C18_dp5_one_point_per_call",
    "C18_radau_one_point_per_call"
   ],
   "note": ""
  },
  {
   "property": "C19",
   "status": "proved",
   "theorems": [
    "C19_dp5_counters_partial",
    "C19_dp5_function_evals_refuted",
    "C19_radau_counters_partial",
    "C19_radau_function_evals_refuted",
    "C19_radau_jacobian_evals_refuted"
   ],
   "note": "the literal claim is refuted for both algorithms; what the counters say instead is proved"
  },
  {
   "property": "C20",
   "status": "proved",
   "theorems": [
    "C20_dp5_rhs_inside_span",
    "C20_dp5_f64_rhs_times",
    "C20_dp5_f64_inside_span_refuted",
    "C20_radau_f64_rhs_times",
    "C20_radau_f64_inside_span_refuted",
    "C20_radau_rhs_inside_span"
   ],
   "note": "both algorithms in exact arithmetic; in binary64 up to 2^-52 of the span beyond tfinal, and refuted without that margin"
  },
  {
   "property": "C21",
   "status": "proved",
   "theorems": [
    "C21_dp5_callback_first_slope",
    "C21_dp5_callback_restart_refuted",
    "C21_radau_callback_error_test",
    "C21_radau_callback_restart_refuted"
   ],
   "note": "the property is false for both algorithms: what happens instead is proved, and the claim refuted"
  },
  {
   "property": "C22",
   "status": "proved",
   "theorems": [
    "C22_dp5_previous_point",
    "C22_radau_uprev_is_initial",
    "C22_radau_uprev_refuted"
   ],
   "note": "DormandPrince5 proved; Radau5: tprev and t proved (C18_radau_one_point_per_call), uprev refuted"
  },
  {
   "property": "C23",
   "status": "proved",
   "theorems": [
    "C23_dp5_order",
    "C23_dp5_linear_system"
   ],
   "note": "order conditions for all trees; the link to the code is C17_dp5_recorded_points"
  },
  {
   "property": "C24",
   "status": "proved",
   "theorems": [
    "C24_dp5_dense_output",
    "C24_dp5_dense_order"
   ],
   "note": ""
  },
  {
   "property": "C25",
   "status": "proved",
   "theorems": [
    "C25_radau_dense_at_new_point",
    "C25_radau_dense_at_second_node",
    "C25_radau_dense_at_old_point_refuted",
    "C25_radau_dense_f64_refuted"
   ],
   "note": "exact arithmetic, every step; false at the old point, also on a concrete f64 run"
  },
  {
   "property": "C26",
   "status": "proved",
   "theorems": [
    "C26_dec_sol",
    "C26_zero_column_refuted"
   ],
   "note": "exact arithmetic; a zero first column is refuted"
  },
  {
   "property": "C27",
   "status": "proved",
   "theorems": [
    "C27_decc_solc",
    "C27_zero_column_refuted"
   ],
   "note": "exact arithmetic; a zero first column is refuted"
  },
  {
   "property": "C28",
   "status": "proved",
   "theorems": [
    "C28_decb_solb_upper",
    "C28_decb_upper_singular_refuted",
    "C28_solb_diagonal_panics_refuted",
    "C28_solbc_diagonal_panics_refuted",
    "C28_solbc_panics_refuted",
    "C28_solbc_dimension_one_refuted",
    "C28_decbc_solbc_refuted",
    "C28_decbc_singular_refuted",
    "C28_dech_solh",
    "C28_dechc_solc",
    "C28_solhc_refuted",
    "C28_dechc_diagonal_refuted",
    "C28_decb_solb_refuted",
    "C28_decb_singular_refuted",
    "C28_solb_panics_refuted",
    "C28_elmhes_refuted"
   ],
   "note": "exact arithmetic; dech/solh, the dechc decomposition, and decb/solb for upper triangular matrices that fit in the band proved; solhc, dechc with lb = 0, decb, solb, decbc, solbc and elmhes refuted (the panics in every arithmetic)"
  },
  {
   "property": "C29",
   "status": "proved",
   "theorems": [
    "C29_dp5_no_panic",
    "C29_dp5_build_ok",
    "C29_dp5_max_stiff_zero_refuted",
    "C29_radau_no_panic",
    "C29_radau_build_ok",
    "C29_radau_dimension_zero_refuted"
   ],
   "note": "both algorithms; the two panicking cases are proved as well"
  },
  {
   "property": "C30",
   "status": "proved",
   "theorems": [
    "C30_rodas_refuted"
   ],
   "note": "the property is false: refuted for every problem"
  },
  {
   "property": "C31",
   "status": "proved",
   "theorems": [
    "C31_evaluations",
    "C31_exact_for_affine",
    "C31_increment_lost_refuted"
   ],
   "note": "evaluations in every arithmetic; exactness for affine right-hand sides over the reals; the f64 claim is refuted"
  },
  {
   "property": "C32",
   "status": "proved",
   "theorems": [
    "C32_radau_user_jacobian",
    "C32_no_rhs_evaluation"
   ],
   "note": "every arithmetic"
  },
  {
   "property": "C33",
   "status": "proved",
   "theorems": [
    "C33_always_zero_refuted",
    "C33_f64_always_zero_refuted"
   ],
   "note": "refuted: always zero, over the reals and in f64"
  },
  {
   "property": "C34",
   "status": "proved",
   "theorems": [
    "C34_radau_options_after_build",
    "C34_radau_working_tolerances"
   ],
   "note": "what build() does proved for every arithmetic, its consequences in exact arithmetic"
  },
  {
   "property": "C35",
   "status": "proved",
   "theorems": [
    "C35_radau_error_test",
    "C35_radau_error_test_nan_refuted"
   ],
   "note": "exact arithmetic; refuted in f64 for an estimate that is not a number, and void when the first column of the iteration matrix vanishes (C26)"
  },
  {
   "property": "C36",
   "status": "proved",
   "theorems": [
    "C36_radau_coefficients",
    "C36_radau_stage_equations",
    "C36_radau_own_step_size",
    "C36_radau_linear_problems",
    "C36_radau_quadrature",
    "C36_radau_own_step_size_refuted"
   ],
   "note": "exact arithmetic, up to the accuracy of the tabulated constants; refuted for a last step stretched after its factors were kept; void when the first column of the iteration matrix vanishes (C26)"
  },
  {
   "property": "C37",
   "status": "proved",
   "theorems": [
    "C37_dp5_finished_refuted",
    "C37_radau_finished_general_refuted",
    "C37_radau_finished_refuted"
   ],
   "note": "the property is false: refuted for both algorithms, for every finished forward run in exact arithmetic (Radau5 also on a concrete f64 run)"
  },
  {
   "property": "C38",
   "status": "proved",
   "theorems": [
    "C38_setters_set_their_field",
    "C38_setters_commute"
   ],
   "note": ""
  },
  {
   "property": "C39",
   "status": "proved",
   "theorems": [
    "C39_dp5_dtstart_ignored_refuted",
    "C39_dp5_other_options_ignored",
    "C39_radau_dtstart_hess_ignored_refuted",
    "C39_radau_ignored_inputs"
   ],
   "note": "the property is false: both options are proved to have no influence, for both algorithms"
  },
  {
   "property": "C40",
   "status": "proved",
   "theorems": [
    "C40_dp5_stiffness_and_dense_do_not_perturb",
    "C40_radau_stiffness_and_dense_do_not_perturb"
   ],
   "note": "both algorithms"
  },
  {
   "property": "C41",
   "status": "proved",
   "theorems": [
    "C41_dp5_linear_invariants",
    "C41_radau_linear_invariants"
   ],
   "note": "both algorithms in exact arithmetic; Jacobians by differences inherit the invariant"
  },
  {
   "property": "C42",
   "status": "proved",
   "theorems": [
    "C42_dp5_quadrature"
   ],
   "note": ""
  },
  {
   "property": "C43",
   "status": "proved",
   "theorems": [
    "C43_dp5_initial_growth_refuted"
   ],
   "note": "false: proved for every forward f64 problem and every right-hand side whose first step() returns; the power function is only assumed to satisfy 0^beta = 0 and not to be negative"
  },
  {
   "property": "C44",
   "status": "proved",
   "theorems": [
    "C44_dp5_buffer_contents_do_not_matter",
    "C44_dp5_buffers_not_cleared_refuted",
    "C44_radau_buffer_contents_do_not_matter",
    "C44_radau_buffers_not_cleared_refuted"
   ],
   "note": "both algorithms; accumulating right-hand sides refuted"
  },
  {
   "property": "C45",
   "status": "proved",
   "theorems": [
    "C45_dp5_problem_data_kept",
    "C45_radau_problem_data_kept"
   ],
   "note": "both algorithms"
  },
  {
   "property": "C46",
   "status": "proved",
   "theorems": [
    "C46_dp5_f64_times",
    "C46_dp5_f64_strict_refuted",
    "C46_radau_f64_times"
   ],
   "note": "forward spans with sane options; DormandPrince5 times never decrease (strict increase refuted by a concrete run), Radau5 times strictly increase"
  },
  {
   "property": "C47",
   "status": "proved",
   "theorems": [
    "C47_radau_one_decomposition",
    "C47_radau_singular_after_five"
   ],
   "note": ""
  },
  {
   "property": "C48",
   "status": "proved",
   "theorems": [
    "C48_dp5_f64_empty_span_refuted",
    "C48_dp5_f64_state_kept_refuted",
    "C48_dp5_empty_span",
    "C48_radau_empty_span_refuted",
    "C48_radau_f64_empty_span_refuted"
   ],
   "note": "DormandPrince5 proved in exact arithmetic, refuted in binary64 for every empty span whose first step does not change the time; refuted for Radau5 for every problem, over the reals and in f64"
  },
  {
   "property": "C49",
   "status": "proved",
   "theorems": [
    "C49_dp5_integrate_succeeds"
   ],
   "note": "exact arithmetic; the number of steps that suffices is explicit in the statement"
  },
  {
   "property": "C50",
   "status": "proved",
   "theorems": [
    "C50_dp5_invariant_subspaces",
    "C50_radau_invariant_subspaces",
    "C50_radau_held_components",
    "C50_dp5_equilibria",
    "C50_radau_equilibria"
   ],
   "note": "exact arithmetic; for Radau5 the iteration matrices must not have a vanishing first column, which the linear solver does not detect (C26)"
  },
  {
   "property": "C51",
   "status": "proved",
   "theorems": [
    "C51_dae_build_returns",
    "C51_dae_builder_calls",
    "C51_dae_build_accepts",
    "C51_dae_problem",
    "C51_dae_second_order_params_refuted",
    "C51_dae_full_mass_refuted"
   ],
   "note": "dead code; the documented role of m2 and full mass matrices for second-order problems are refuted"
  },
  {
   "property": "C52",
   "status": "proved",
   "theorems": [
    "C52_dp8_stages",
    "C52_dp8_order",
    "C52_dp8_dense",
    "C52_dp8_row_sums"
   ],
   "note": "dead code; exact arithmetic; residuals of the order conditions below 1e-18, of the continuous extension below 7e-16; error weights and continuous extension are constants no function of the source reads"
  },
  {
   "property": "C53",
   "status": "proved",
   "theorems": [
    "C53_dp5_follows_reference",
    "C53_dp5_reference_is_followed"
   ],
   "note": "exact arithmetic, forward spans; the book cited by the documentation has 0.75*beta where the code has beta^0.75"
  },
  {
   "property": "C54",
   "status": "proved",
   "theorems": [
    "C54_radau_follows_reference",
    "C54_radau_reference_is_followed",
    "C54_radau_integrate_is_reference"
   ],
   "note": "exact arithmetic, forward spans; a Jacobian that annihilates the first column of the real iteration matrix is excluded, because the code's decomposition does not report it (C26)"
  },
  {
   "property": "C55",
   "status": "proved",
   "theorems": [
    "C55_rodas_order",
    "C55_rodas_continuous_output",
    "C55_rodas_nodes"
   ],
   "note": "exact arithmetic; how the constants enter the method is taken from Hairer-Wanner (SpecRodas.v), because the crate has no code that uses them"
  },
  {
   "property": "C56",
   "status": "proved",
   "theorems": [
    "C56_dp5_defaults",
    "C56_radau_defaults",
    "C56_dp5_defaults_return"
   ],
   "note": ""
  },
  {
   "property": "C57",
   "status": "proved",
   "theorems": [
    "C57_dp5_units_and_labels",
    "C57_radau_units_and_labels",
    "C57_differences_units_and_labels"
   ],
   "note": "exact arithmetic, forward spans; through the reference descriptions of C53 and C54, with their hypotheses for both problems"
  },
  {
   "property": "C58",
   "status": "proved",
   "theorems": [
    "C58_dp5_order_five",
    "C58_dp5_dtmax_controls_error",
    "C58_dp5_dense_order_five"
   ],
   "note": "exact arithmetic, forward spans; the smoothness assumed is spelt out in SpecConv.v: six bounded derivatives of the solution, a Lipschitz condition near it, a twice differentiable Jacobian along it"
  },
  {
   "property": "C59",
   "status": "proved",
   "theorems": [
    "C59_radau_converges",
    "C59_radau_dtmax_controls_error"
   ],
   "note": "exact arithmetic, forward spans; the rate claimed is one: the Newton iteration stops at a fixed tolerance, which does not shrink with the step size"
  },
  {
   "property": "C60",
   "status": "proved",
   "theorems": [
    "C60_radau_integrate_succeeds"
   ],
   "note": "exact arithmetic, forward spans; H0 is not computed, and it has to exceed the smallest step size the code allows (a fraction 1e-11 of the times) for the theorem to say anything about a given problem"
  },
  {
   "property": "C61",
   "status": "proved",
   "theorems": [
    "C61_radau_modes_do_not_grow",
    "C61_radau_fast_modes_damped"
   ],
   "note": "exact arithmetic, forward spans; the 1e-13 is due to the digits of the coefficients; a Jacobian whose first column lets the iteration matrix lose a pivot (J e1 = J00 e1 with J00 > 0) is excluded, see C26"
  },
  {
   "property": "C62",
   "status": "proved",
   "theorems": [
    "C62_dp5_f64_step_error",
    "C62_dp5_f64_converges"
   ],
   "note": "binary64, forward spans; the problem is assumed smooth a little beyond the final time (the last stages may round past it); K depends on the problem, and the one-step theorem has explicit constants"
  },
  {
   "property": "C63",
   "status": "proved",
   "theorems": [
    "C63_dp5_tolerances_bound_error_refuted",
    "C63_radau_tolerances_bound_error_refuted"
   ],
   "note": "the expectation is refuted for both algorithms; the positive counterparts, convergence with the largest step, are C58 and C59"
  },
  {
   "property": "C64",
   "status": "proved",
   "theorems": [
    "C64_dp5_mode_factor",
    "C64_dp5_real_modes",
    "C64_dp5_dtmax_keeps_modes",
    "C64_dp5_decaying_modes_decay_refuted"
   ],
   "note": "exact arithmetic; the mode factor holds for either direction of time, the dtmax theorem for forward spans; the claim that decaying modes always decay is refuted"
  }
 ]
}