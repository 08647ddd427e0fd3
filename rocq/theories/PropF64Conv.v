(** C62: DormandPrince5 in binary64: what one step and a whole run lose to
    rounding. *)
From Coq Require Import ZArith List Bool Reals.
From Flocq Require Import Core BinarySingleNaN.
From Verif Require Import Arith Vec Core Driver DP5 Spec SpecRK SpecODE SpecConv SpecF64 SpecF64Conv ArithF F64Ex.
From Verif Require DP5F64Conv DP5F64Step DP5F64Ex.
Import ListNotations.
Local Open Scope R_scope.

Theorem C62_dp5_f64_step_error fpowf fpowi P (f : rhs (F64 fpowf fpowi) P) (p : P) n F t0 T V M L Lt d U H
    (b : builder (F64 fpowf fpowi) P) fuel k (s0 s : integ (F64 fpowf fpowi) P (dp5_cache (F64 fpowf fpowi))) :
  let Tm := Rabs t0 + Rabs T in let W := V + M + d + 1 in
  tame n f p F t0 T V M L Lt d ->
  0 <= V -> 0 <= M -> 0 <= L -> 0 <= Lt -> 0 <= d -> W <= bpow radix2 1000 -> Tm <= bpow radix2 1000 ->
  H <= 1 -> L * H <= 1 / 50 -> U + 25 * H * (M + d) + 600 * u64 * W <= V ->
  b_dudt b = f -> b_params b = p -> length (b_u b) = n -> B2R (b_t b : f64) = t0 ->
  B2R (b_tfinal b : f64) + 24 * u64 * (1 + Tm) <= T ->
  f64_forward b -> build DormandPrince5 b = Ok s0 -> reached DormandPrince5 None fuel k s0 s ->
  linked (fun x z : f64 * list f64 =>
    finite_vec (snd x) -> box n U (Rvec (snd x)) -> B2R (fst z) - B2R (fst x) + 2 * u64 * (1 + Tm) <= H ->
    finite_vec (snd z) /\
    exists h, 0 <= h <= H /\ Rabs (B2R (fst z) - (B2R (fst x) + h)) <= 2 * u64 * (1 + Tm) /\
      close n (600 * u64 * W + 4 * h * (d + L * (600 * u64 * W) + Lt * (8 * u64 * (1 + Tm)))) (Rvec (snd z))
        (rk_step dopri_rows dopri_b F (B2R (fst x)) (Rvec (snd x)) h)) (points s).
Proof. exact (DP5F64Step.dp5_f64_step_error fpowf fpowi P f p n F t0 T V M L Lt d U H b fuel k s0 s). Qed.
Print Assumptions C62_dp5_f64_step_error.

(** The oscillator on [0, 3e-6]: the first step of a run of four. *)
Example C62_step_ex : let Tm := Rabs 0 + Rabs 1 in let W := 2 + 2 + 0 + 1 in
  tame 2 oscZ tt DP5F64Step.osc 0 1 2 2 1 0 0 /\ W <= bpow radix2 1000 /\ Tm <= bpow radix2 1000 /\
  1 * (1/100) <= 1 / 50 /\ 11/10 + 25 * (1/100) * (2 + 0) + 600 * u64 * W <= 2 /\
  b_dudt DP5F64Ex.zb = oscZ /\ length (b_u DP5F64Ex.zb) = 2%nat /\ B2R (b_t DP5F64Ex.zb : f64) = 0 /\
  B2R (b_tfinal DP5F64Ex.zb : f64) + 24 * u64 * (1 + Tm) <= 1 /\ f64_forward DP5F64Ex.zb /\
  exists (s0 s : integ XZ unit (dp5_cache XZ)) t' u' l,
    build DormandPrince5 DP5F64Ex.zb = Ok s0 /\ reached DormandPrince5 None 5 4 s0 s /\
    points s = (b_t DP5F64Ex.zb, b_u DP5F64Ex.zb) :: (t', u') :: l /\ finite_vec (b_u DP5F64Ex.zb) /\ box 2 (11/10) (Rvec (b_u DP5F64Ex.zb)) /\
    B2R (t' : f64) - B2R (b_t DP5F64Ex.zb : f64) + 2 * u64 * (1 + Tm) <= 1/100.
Proof. exact DP5F64Ex.z_step_ex. Qed.

Theorem C62_dp5_f64_converges n (F : R -> list R -> list R) t0 tf T y :
  tf < T -> smooth_problem n F t0 T y -> time_lipschitz n F t0 T y ->
  exists K r, 0 < K /\ 0 < r /\
  forall fpowf fpowi P (f : rhs (F64 fpowf fpowi) P) (p : P) (b : builder (F64 fpowf fpowi) P) fuel k
    (s0 s : integ (F64 fpowf fpowi) P (dp5_cache (F64 fpowf fpowi))) H d,
  b_dudt b = f -> b_params b = p -> B2R (b_t b : f64) = t0 -> B2R (b_tfinal b : f64) = tf ->
  f64_forward b -> evaluates n f p F t0 T y r d ->
  length (b_u b) = n -> finite_vec (b_u b) -> close n d (Rvec (b_u b)) (y t0) ->
  build DormandPrince5 b = Ok s0 -> reached DormandPrince5 None fuel k s0 s ->
  let N := INR (length (ts (i_sol s))) in
  0 <= H -> 0 <= d -> Forall (fun g => g <= H) (gaps (Rvec (ts (i_sol s)))) ->
  K * (H + d + N * u64) <= 1 ->
  forall t u, In (t, u) (points s) -> finite_vec u /\ close n (K * (H ^ 5 + d + N * u64)) (Rvec u) (y (B2R (t : f64))).
Proof. exact (DP5F64Conv.dp5_f64_converges n F t0 tf T y). Qed.
Print Assumptions C62_dp5_f64_converges.

(** The same run meets the hypotheses for every constant up to 250000. *)
Example C62_conv_ex : smooth_problem 2 DP5F64Step.osc 0 1 DP5F64Step.osc_sol /\ time_lipschitz 2 DP5F64Step.osc 0 1 DP5F64Step.osc_sol /\
  b_dudt DP5F64Ex.zb = oscZ /\ B2R (b_t DP5F64Ex.zb : f64) = 0 /\ B2R (b_tfinal DP5F64Ex.zb : f64) < 1 /\ f64_forward DP5F64Ex.zb /\
  (forall r, evaluates 2 oscZ tt DP5F64Step.osc 0 1 DP5F64Step.osc_sol r 0) /\
  length (b_u DP5F64Ex.zb) = 2%nat /\ finite_vec (b_u DP5F64Ex.zb) /\ close 2 0 (Rvec (b_u DP5F64Ex.zb)) (DP5F64Step.osc_sol 0) /\
  exists s0 s : integ XZ unit (dp5_cache XZ),
    build DormandPrince5 DP5F64Ex.zb = Ok s0 /\ reached DormandPrince5 None 5 4 s0 s /\ length (ts (i_sol s)) = 5%nat /\
    Forall (fun g => g <= 35/10000000) (gaps (Rvec (ts (i_sol s)))) /\
    forall K, 0 <= K <= 250000 -> K * (35/10000000 + 0 + INR (length (ts (i_sol s))) * u64) <= 1.
Proof. exact DP5F64Ex.z_conv_ex. Qed.
