(** C20 in binary64: where the right-hand side is evaluated. *)
From Coq Require Import ZArith List Bool Reals.
From Flocq Require Import Core BinarySingleNaN.
From Verif Require Import Arith Vec Core Driver DP5 Spec ArithF SpecF64 SpecF64R SpecEval F64Ex DP5TimeF Radau RadauTimeF RadauMonoEx EvalEx.
Import ListNotations.
Local Open Scope R_scope.

(** C20.  Integrating forward in binary64, every recorded call of the right-hand
    side, also those of rejected attempts, is at a time not before [t0]; if that
    time is finite it exceeds [tfinal] by at most [2^-52 (tfinal - t0)]. *)
Theorem C20_dp5_f64_rhs_times :
  forall fpowf fpowi P (b : builder (F64 fpowf fpowi) P) fuel k
    (s0 s : integ (F64 fpowf fpowi) P (dp5_cache (F64 fpowf fpowi))),
  f64_forward b -> build DormandPrince5 b = Ok s0 -> reached DormandPrince5 None fuel k s0 s ->
  Forall (fun e : event (F64 fpowf fpowi) => fle (b_t b) (call_time e) /\
    (is_finite (call_time e : f64) = true ->
     B2R (call_time e : f64) <= B2R (b_tfinal b : f64) +
       bpow radix2 (-52) * (B2R (b_tfinal b : f64) - B2R (b_t b : f64)))) (i_trace s).
Proof. exact @dp5_f64_evals. Qed.
Print Assumptions C20_dp5_f64_rhs_times.

Example C20_f64_ex : f64_forward (z_dp5 (f_lit 1 1000000) (f_lit 2 1000000)) /\
  exists s0 s : integ XZ unit (dp5_cache XZ),
  build DormandPrince5 (z_dp5 (f_lit 1 1000000) (f_lit 2 1000000)) = Ok s0 /\
  reached DormandPrince5 None 5 1 s0 s /\ rc (i_sol s) = RSuccess.
Proof. exact z_success_ex. Qed.

(** C20.  The excess is real: a right-hand side that must not be called beyond
    [tfinal] is called there. *)
Theorem C20_dp5_f64_inside_span_refuted :
  let b := z_dp5 (f_lit (-999) 1000000000) (fdiv (f_lit (-1) 1000000000000000) (f_lit 1000000000000000 1)) in
  f64_forward b /\ exists s0 s : integ XZ unit (dp5_cache XZ),
  build DormandPrince5 b = Ok s0 /\ reached DormandPrince5 None 5 1 s0 s /\
  exists e : event XZ, In e (i_trace s) /\ fltb (b_tfinal b) (call_time e) = true.
Proof. exact z_eval_beyond_ex. Qed.
Print Assumptions C20_dp5_f64_inside_span_refuted.

(** C20.  The same for Radau5, calls of the user's Jacobian included. *)
Theorem C20_radau_f64_rhs_times :
  forall fpowf fpowi P (b : builder (F64 fpowf fpowi) P) fuel k
    (s0 s : integ (F64 fpowf fpowi) P (radau_cache (F64 fpowf fpowi))),
  radau_f64_forward b -> build Radau5 b = Ok s0 -> reached Radau5 None fuel k s0 s ->
  Forall (fun e : event (F64 fpowf fpowi) => fle (b_t b) (call_time e) /\
    (is_finite (call_time e : f64) = true ->
     B2R (call_time e : f64) <= B2R (b_tfinal b : f64) +
       bpow radix2 (-52) * (B2R (b_tfinal b : f64) - B2R (b_t b : f64)))) (i_trace s).
Proof. exact @radau_f64_evals. Qed.
Print Assumptions C20_radau_f64_rhs_times.

Example C20_radau_f64_ex : radau_f64_forward (v_rad (f_lit 3 1) (f_lit 1 2)) /\
  exists s0 s : integ XV unit (radau_cache XV),
  build Radau5 (v_rad (f_lit 3 1) (f_lit 1 2)) = Ok s0 /\
  reached Radau5 None 60 3 s0 s /\ rc (i_sol s) = RContinue /\ length (ts (i_sol s)) = 4%nat /\
  (accepts (i_stats s) < steps (i_stats s))%nat.
Proof. exact v_run_ex. Qed.

Theorem C20_radau_f64_inside_span_refuted :
  let b := v_radspan (f_lit (-999) 1000000000) (fdiv (f_lit (-1) 1000000000000000) (f_lit 1000000000000000 1)) in
  radau_f64_forward b /\ exists s0 s : integ XV unit (radau_cache XV),
  build Radau5 b = Ok s0 /\ reached Radau5 None 60 1 s0 s /\
  exists e : event XV, In e (i_trace s) /\ fltb (b_tfinal b) (call_time e) = true.
Proof. exact v_eval_beyond_ex. Qed.
Print Assumptions C20_radau_f64_inside_span_refuted.
