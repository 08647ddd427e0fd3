(** C11 and C12 in binary64, DormandPrince5. *)
From Coq Require Import ZArith List Bool Reals.
From Flocq Require Import Core BinarySingleNaN.
From Verif Require Import Arith Vec Core Driver DP5 Spec ArithF SpecF64 DP5RatioF RatioEx.
Import ListNotations.
Local Open Scope R_scope.
Notation state fpowf fpowi P := (integ (F64 fpowf fpowi) P (dp5_cache (F64 fpowf fpowi))).

(** C11.  A call that made [k + 1] attempts (of 6 evaluations each) ends with a
    step that is finite, not negative and not longer than the first attempt;
    unless it is near underflow it is shorter by at least a factor 1.003 for
    each rejection.  The first attempt is [dt], or the rest of the span when
    1.01 [dt] goes beyond it. *)
Theorem C11_dp5_f64_rejection_shrinks :
  forall fpowf fpowi P (b : builder (F64 fpowf fpowi) P) fuel k0 (s0 s s' : state fpowf fpowi P) r,
  f64_forward b -> build DormandPrince5 b = Ok s0 -> reached DormandPrince5 None fuel k0 s0 s ->
  rc (i_sol s) = RContinue -> step DormandPrince5 None fuel s = Ok (s', r) ->
  exists k, function_evals (i_stats s') = (function_evals (i_stats s) + 6 * (k + 1))%nat /\
    let trial := if fltb fzero (fmul (fsub (fadd (i_t s) (fmul (f_lit 101 100) (i_dt s))) (b_tfinal b)) (f_lit 1 1))
                 then fsub (b_tfinal b) (i_t s) else i_dt s in
    is_finite (i_dtprev s' : f64) = true /\ 0 <= B2R (i_dtprev s' : f64) <= B2R (trial : f64) /\
    (bpow radix2 (-1000) <= B2R (i_dtprev s' : f64) -> B2R (i_dtprev s' : f64) * (1003/1000) ^ k <= B2R (trial : f64)).
Proof. exact @dp5_f64_shrink. Qed.
Print Assumptions C11_dp5_f64_rejection_shrinks.

(** C12.  The next step size is between [h / (1 / facl)] and [h / (1 / facr)]
    (rounded), [h] being the last step, cut at [dtmax].  This holds also when
    the error, or a power of it, is not a number. *)
Theorem C12_dp5_f64_ratio_limits :
  forall fpowf fpowi P (b : builder (F64 fpowf fpowi) P) fuel k0 (s0 s s' : state fpowf fpowi P) r,
  f64_forward b -> fle (o_facl (b_opts b)) (o_facr (b_opts b)) ->
  build DormandPrince5 b = Ok s0 -> reached DormandPrince5 None fuel k0 s0 s ->
  rc (i_sol s) = RContinue -> step DormandPrince5 None fuel s = Ok (s', r) ->
  let h := i_dtprev s' in
  fle (i_dt s') (fdiv h (fdiv (f_lit 1 1) (o_facr (b_opts b)))) /\ fle (i_dt s') (o_dtmax (b_opts b)) /\
  fle (fmin (fdiv h (fdiv (f_lit 1 1) (o_facl (b_opts b)))) (o_dtmax (b_opts b))) (i_dt s').
Proof. exact @dp5_f64_limits. Qed.
Print Assumptions C12_dp5_f64_ratio_limits.

(** A first call with rejected attempts. *)
Example C11_C12_f64_ex : f64_forward z_long /\ fle (o_facl (b_opts z_long)) (o_facr (b_opts z_long)) /\
  exists (s0 s : integ XQ unit (dp5_cache XQ)) r,
  build DormandPrince5 z_long = Ok s0 /\ reached DormandPrince5 None 20 0 s0 s0 /\ rc (i_sol s0) = RContinue /\
  step DormandPrince5 None 20 s0 = Ok (s, r) /\ (12 <= function_evals (i_stats s))%nat /\ fltb (f_lit 1 10) (i_dtprev s) = true.
Proof. exact z_long_ex. Qed.
