NOTES = {
"C01": ("proved", "both algorithms, every arithmetic"),
"C02": ("proved", "every algorithm, callback and arithmetic"),
"C03": ("proved", ""),
"C04": ("proved", "the property is false as stated; what iteration yields is proved, and the full claim is refuted"),
"C05": ("proved", ""),
"C06": ("proved", "both algorithms, every arithmetic"),
"C07": ("proved", ""),
"C18": ("proved", ""),
"C19": ("proved", "the literal claim is refuted for both algorithms; what the counters say instead is proved"),
"C22": ("proved", "DormandPrince5 proved; Radau5: tprev and t proved (C18_radau_one_point_per_call), uprev refuted"),
"C29": ("proved", "both algorithms; the two panicking cases are proved as well"),
"C30": ("proved", "the property is false: refuted for every problem"),
"C38": ("proved", ""),
"C39": ("proved", "the property is false: both options are proved to have no influence, for both algorithms"),
"C40": ("proved", "both algorithms"),
"C44": ("proved", "both algorithms; accumulating right-hand sides refuted"),
"C45": ("proved", "both algorithms"),
"C10": ("proved", "exact arithmetic; step() with an explicit bound on the attempts, integrate() for locally bounded right-hand sides"),
"C11": ("proved", "both algorithms in exact arithmetic and in binary64; DormandPrince5 refuted for large beta"),
"C12": ("proved", "both algorithms in exact arithmetic and in binary64; the documented limits are refuted for DormandPrince5"),
"C13": ("proved", "both algorithms in exact arithmetic"),
"C14": ("proved", "both algorithms in exact arithmetic; in f64 both algorithms: last time is t + (tfinal - t) rounded, its distance to tfinal, exactness within a factor of two, and runs that end elsewhere"),
"C15": ("proved", "the property is false: refuted for every backward DormandPrince5 problem; for Radau5 it holds exactly when t0 + 1.0001 dt + tfinal >= 0"),
"C16": ("proved", "both algorithms in exact arithmetic, and in binary64 for the step added (refuted for the distance of the recorded times); the literal claim is refuted for both"),
"C17": ("proved", "exact arithmetic"),
"C20": ("proved", "both algorithms in exact arithmetic; in binary64 up to 2^-52 of the span beyond tfinal, and refuted without that margin"),
"C21": ("proved", "the property is false for both algorithms: what happens instead is proved, and the claim refuted"),
"C23": ("proved", "order conditions for all trees; the link to the code is C17_dp5_recorded_points"),
"C24": ("proved", ""),
"C41": ("proved", "both algorithms in exact arithmetic; Jacobians by differences inherit the invariant"),
"C42": ("proved", ""),
"C08": ("proved", "every right-hand side, callback and arithmetic"),
"C34": ("proved", "what build() does proved for every arithmetic, its consequences in exact arithmetic"),
"C35": ("proved", "exact arithmetic; refuted in f64 for an estimate that is not a number, and void when the first column of the iteration matrix vanishes (C26)"),
"C36": ("proved", "exact arithmetic, up to the accuracy of the tabulated constants; refuted for a last step stretched after its factors were kept; void when the first column of the iteration matrix vanishes (C26)"),
"C37": ("proved", "the property is false: refuted for both algorithms, for every finished forward run in exact arithmetic (Radau5 also on a concrete f64 run)"),
"C48": ("proved", "DormandPrince5 proved in exact arithmetic, refuted in binary64 for every empty span whose first step does not change the time; refuted for Radau5 for every problem, over the reals and in f64"),
"C47": ("proved", ""),
"C32": ("proved", "every arithmetic"),
"C26": ("proved", "exact arithmetic; a zero first column is refuted"),
"C27": ("proved", "exact arithmetic; a zero first column is refuted"),
"C28": ("proved", "exact arithmetic; dech/solh, the dechc decomposition, and decb/solb for upper triangular matrices that fit in the band proved; solhc, dechc with lb = 0, decb, solb, decbc, solbc and elmhes refuted (the panics in every arithmetic)"),
"C31": ("proved", "evaluations in every arithmetic; exactness for affine right-hand sides over the reals; the f64 claim is refuted"),
"C25": ("proved", "exact arithmetic, every step; false at the old point, also on a concrete f64 run"),
"C33": ("proved", "refuted: always zero, over the reals and in f64"),
"C09": ("proved", "false in f64; the theorems show it for every problem with a NaN derivative component at a point the run reaches, and for every problem of dimension zero"),
"C43": ("proved", "false: proved for every forward f64 problem and every right-hand side whose first step() returns; the power function is only assumed to satisfy 0^beta = 0 and not to be negative"),
"C46": ("proved", "forward spans with sane options; DormandPrince5 times never decrease (strict increase refuted by a concrete run), Radau5 times strictly increase"),
"C49": ("proved", "exact arithmetic; the number of steps that suffices is explicit in the statement"),
"C50": ("proved", "exact arithmetic; for Radau5 the iteration matrices must not have a vanishing first column, which the linear solver does not detect (C26)"),
"C51": ("proved", "dead code; the documented role of m2 and full mass matrices for second-order problems are refuted"),
"C52": ("proved", "dead code; exact arithmetic; residuals of the order conditions below 1e-18, of the continuous extension below 7e-16; error weights and continuous extension are constants no function of the source reads"),
"C53": ("proved", "exact arithmetic, forward spans; the book cited by the documentation has 0.75*beta where the code has beta^0.75"),
"C54": ("proved", "exact arithmetic, forward spans; a Jacobian that annihilates the first column of the real iteration matrix is excluded, because the code's decomposition does not report it (C26)"),
"C55": ("proved", "exact arithmetic; how the constants enter the method is taken from Hairer-Wanner (SpecRodas.v), because the crate has no code that uses them"),
"C56": ("proved", ""),
"C57": ("proved", "exact arithmetic, forward spans; through the reference descriptions of C53 and C54, with their hypotheses for both problems"),
"C58": ("proved", "exact arithmetic, forward spans; the smoothness assumed is spelt out in SpecConv.v: six bounded derivatives of the solution, a Lipschitz condition near it, a twice differentiable Jacobian along it"),
"C59": ("proved", "exact arithmetic, forward spans; the rate claimed is one: the Newton iteration stops at a fixed tolerance, which does not shrink with the step size"),
"C60": ("proved", "exact arithmetic, forward spans; H0 is not computed, and it has to exceed the smallest step size the code allows (a fraction 1e-11 of the times) for the theorem to say anything about a given problem"),
"C61": ("proved", "exact arithmetic, forward spans; the 1e-13 is due to the digits of the coefficients; a Jacobian whose first column lets the iteration matrix lose a pivot (J e1 = J00 e1 with J00 > 0) is excluded, see C26"),
"C62": ("proved", "binary64, forward spans; the problem is assumed smooth a little beyond the final time (the last stages may round past it); K depends on the problem, and the one-step theorem has explicit constants"),
"C63": ("proved", "the expectation is refuted for both algorithms; the positive counterparts, convergence with the largest step, are C58 and C59"),
"C64": ("proved", "exact arithmetic; the mode factor holds for either direction of time, the dtmax theorem for forward spans; the claim that decaying modes always decay is refuted"),
}
