(** DormandPrince5 properties that are specific to binary64 (properties.jsonl
    C09, C14, C43, C46).  [fpowf] and [fpowi] are the libm power functions: any
    functions, except where the hypotheses say what is needed of them. *)
From Coq Require Import ZArith List Bool Reals Sorted.
From Flocq Require Import Core BinarySingleNaN.
From Verif Require Import Arith Vec Core Driver Spec DP5 ArithF SpecF64 DP5Nan DP5Mono DP5First RadauEnd Radau RadauEx Examples F64Ex.
From RecordUpdate Require Import RecordSet.
Import ListNotations RecordSetNotations.
Local Open Scope R_scope.
Notation dstate fpowf fpowi P := (integ (F64 fpowf fpowi) P (dp5_cache (F64 fpowf fpowi))).

(** C09 is false: from a point where some component of the derivative is NaN,
    [step()] does not return, whatever the options and the callback: no amount
    of fuel is enough. *)
Theorem C09_dp5_nan_derivative_refuted :
  forall fpowf fpowi P (b : builder (F64 fpowf fpowi) P) fuel k (s0 s : dstate fpowf fpowi P) i,
  overwrites (b_dudt b) -> build DormandPrince5 b = Ok s0 -> steps_n DormandPrince5 None fuel k s0 = Ok s ->
  (i < length (i_u s))%nat -> is_nan (b_dudt b (i_u s) (i_u s) (i_t s) (b_params b) i) = true ->
  forall cb fuel', step DormandPrince5 cb fuel' s = OutOfFuel.
Proof. exact @dp5_nan_never_returns. Qed.
Print Assumptions C09_dp5_nan_derivative_refuted.

Example C09_ex : overwrites (b_dudt x_root) /\ exists s0 : integ XF unit (dp5_cache XF),
  build (@DormandPrince5 XF unit) x_root = Ok s0 /\
  steps_n (@DormandPrince5 XF unit) None 1 0 s0 = Ok s0 /\ (0 < length (i_u s0))%nat /\
  is_nan (b_dudt x_root (i_u s0) (i_u s0) (i_t s0) (b_params x_root) 0%nat) = true.
Proof. exact nan_ex. Qed.

(** C09.  Nor does it return on a problem of dimension zero. *)
Theorem C09_dp5_dimension_zero_refuted :
  forall fpowf fpowi P (b : builder (F64 fpowf fpowi) P) (s0 : dstate fpowf fpowi P),
  b_u b = [] -> build DormandPrince5 b = Ok s0 ->
  forall cb fuel, step DormandPrince5 cb fuel s0 = OutOfFuel.
Proof. exact @dp5_empty_never_returns. Qed.
Print Assumptions C09_dp5_dimension_zero_refuted.

Example C09_empty_ex : exists s0, b_u (builder_default (@DormandPrince5 XF unit) root_rhs [] (x 0 1, x 1 1) tt) = [] /\
  build DormandPrince5 (builder_default (@DormandPrince5 XF unit) root_rhs [] (x 0 1, x 1 1) tt) = Ok s0.
Proof. eexists. split; reflexivity. Qed.

(** C46.  The recorded times of a forward run never decrease, and all but the
    last of a successful run lie in the span. *)
Theorem C46_dp5_f64_times :
  forall fpowf fpowi P (b : builder (F64 fpowf fpowi) P) fuel k (s0 s : dstate fpowf fpowi P),
  f64_forward b -> build DormandPrince5 b = Ok s0 -> reached DormandPrince5 None fuel k s0 s ->
  StronglySorted fle (ts (i_sol s)) /\
  Forall (fun t : f64 => fle (b_t b) t /\ fle t (b_tfinal b)) (removelast (ts (i_sol s))) /\
  (rc (i_sol s) <> RSuccess -> fle (i_t s) (b_tfinal b)).
Proof. exact @dp5_f64_times. Qed.
Print Assumptions C46_dp5_f64_times.

Example C46_ex : f64_forward (z_dp5 (f_lit 0 1) (f_lit 3 1000000)) /\
  exists s0 s : integ XZ unit (dp5_cache XZ),
  build DormandPrince5 (z_dp5 (f_lit 0 1) (f_lit 3 1000000)) = Ok s0 /\
  reached DormandPrince5 None 5 4 s0 s /\ rc (i_sol s) = RContinue /\ length (ts (i_sol s)) = 5%nat.
Proof. exact z_run_ex. Qed.

(** C46.  They need not increase: steps smaller than half an ulp of the time are
    recorded at an unchanged time. *)
Theorem C46_dp5_f64_strict_refuted :
  let b := z_dp5 (f_lit 1000000000000 1) (f_lit 1000000000001 1) in
  f64_forward b /\ exists s0 s : integ XZ unit (dp5_cache XZ),
  build DormandPrince5 b = Ok s0 /\ reached DormandPrince5 None 5 2 s0 s /\ rc (i_sol s) = RContinue /\
  ts (i_sol s) = [b_t b; b_t b; b_t b].
Proof. exact z_stall_ex. Qed.
Print Assumptions C46_dp5_f64_strict_refuted.

(** C14 in binary64: after Success the last recorded time is [t + (tfinal - t)]
    for the last but one recorded time [t], both operations rounded.  It is
    within [2^-52 (tfinal - t)] of [tfinal], and equal to it when [t] and
    [tfinal] are within a factor of two of each other. *)
Theorem C14_dp5_f64_success :
  forall fpowf fpowi P (b : builder (F64 fpowf fpowi) P) fuel k (s0 s : dstate fpowf fpowi P),
  f64_forward b -> build DormandPrince5 b = Ok s0 -> reached DormandPrince5 None fuel k s0 s ->
  rc (i_sol s) = RSuccess ->
  let t := i_tprev s in let tf := b_tfinal b in
  (exists l, ts (i_sol s) = l ++ [t; i_t s]) /\ fle (b_t b) t /\ fle t tf /\
  i_t s = fadd t (fsub tf t) /\
  (is_finite (i_t s : f64) = true ->
     Rabs (B2R (i_t s : f64) - B2R (tf : f64)) <= bpow radix2 (-52) * (B2R (tf : f64) - B2R (t : f64))) /\
  (B2R (tf : f64) <= 2 * B2R (t : f64) \/ 2 * B2R (tf : f64) <= B2R (t : f64) ->
     feqb (i_t s) tf = true).
Proof. exact @dp5_f64_success. Qed.
Print Assumptions C14_dp5_f64_success.

Example C14_f64_ex : f64_forward (z_dp5 (f_lit 1 1000000) (f_lit 2 1000000)) /\
  exists s0 s : integ XZ unit (dp5_cache XZ),
  build DormandPrince5 (z_dp5 (f_lit 1 1000000) (f_lit 2 1000000)) = Ok s0 /\
  reached DormandPrince5 None 5 1 s0 s /\ rc (i_sol s) = RSuccess.
Proof. exact z_success_ex. Qed.

(** C14.  It is not always [tfinal], and can lie beyond it. *)
Theorem C14_dp5_f64_exact_end_refuted :
  let b := z_dp5 (f_lit (-999) 1000000000) (fdiv (f_lit (-1) 1000000000000000) (f_lit 1000000000000000 1)) in
  f64_forward b /\ exists s0 s : integ XZ unit (dp5_cache XZ),
  build DormandPrince5 b = Ok s0 /\ reached DormandPrince5 None 5 1 s0 s /\ rc (i_sol s) = RSuccess /\
  fltb (b_tfinal b) (i_t s) = true.
Proof. exact z_overshoot_ex. Qed.
Print Assumptions C14_dp5_f64_exact_end_refuted.

(** C14.  The same for Radau5, in both directions of time and for all options. *)
Theorem C14_radau_f64_success :
  forall fpowf fpowi P (b : builder (F64 fpowf fpowi) P) fuel k
    (s0 s : integ (F64 fpowf fpowi) P (radau_cache (F64 fpowf fpowi))),
  build Radau5 b = Ok s0 -> reached Radau5 None fuel k s0 s -> rc (i_sol s) = RSuccess ->
  let t := i_tprev s in let tf := b_tfinal b in
  (exists l, ts (i_sol s) = l ++ [t; i_t s]) /\ i_t s = fadd t (fsub tf t) /\
  (is_finite (i_t s : f64) = true ->
     Rabs (B2R (i_t s : f64) - B2R (tf : f64)) <= bpow radix2 (-52) * Rabs (B2R (tf : f64) - B2R (t : f64))) /\
  (is_finite (t : f64) = true -> is_finite (tf : f64) = true -> within_two (B2R (t : f64)) (B2R (tf : f64)) ->
     feqb (i_t s) tf = true).
Proof. exact @radau_f64_success. Qed.
Print Assumptions C14_radau_f64_success.

Example C14_radau_f64_ex :
  let b := x_radspan (f_lit 1 1) (f_lit 1025 1024) <| b_dt := y 1 512 |> in
  exists s0 s : integ XG unit (radau_cache XG),
  build Radau5 b = Ok s0 /\ reached Radau5 None 60 1 s0 s /\ rc (i_sol s) = RSuccess /\
  is_finite (i_tprev s : f64) = true /\ is_finite (b_tfinal b : f64) = true /\
  within_two (B2R (i_tprev s : f64)) (B2R (b_tfinal b : f64)).
Proof. exact radau_f64_success_ex. Qed.

Theorem C14_radau_f64_exact_end_refuted :
  let b := x_radspan (f_lit (-999) 1000000000) (fdiv (f_lit (-1) 1000000000000000) (f_lit 1000000000000000 1)) in
  exists s0 s : integ XG unit (radau_cache XG),
  build Radau5 b = Ok s0 /\ reached Radau5 None 60 1 s0 s /\ rc (i_sol s) = RSuccess /\
  fltb (b_tfinal b) (i_t s) = true.
Proof. exact radau_overshoot_ex. Qed.
Print Assumptions C14_radau_f64_exact_end_refuted.

(** C43 is false for the first step of every run: whatever the error estimate,
    the second step size is the first divided by [1/facl] (by 5 with the default
    options), unless [dtmax] is smaller still. *)
Theorem C43_dp5_initial_growth_refuted :
  forall fpowf fpowi P (b : builder (F64 fpowf fpowi) P) fuel (s0 s : dstate fpowf fpowi P) r,
  f64_forward b -> pow_at_zero (b_opts b) -> fleb (o_facl (b_opts b)) (o_facr (b_opts b)) = true ->
  build DormandPrince5 b = Ok s0 -> step DormandPrince5 None fuel s0 = Ok (s, r) ->
  let d := fdiv (i_dtprev s) (fdiv (f_lit 1 1) (o_facl (b_opts b))) in
  fleb d (o_dtmax (b_opts b)) = true ->
  feqb (i_dt s) d = true /\ fle (i_dt s) (i_dtprev s).
Proof. exact @dp5_first_step. Qed.
Print Assumptions C43_dp5_initial_growth_refuted.

Example C43_ex :
  let b := z_dp5 (f_lit 0 1) (f_lit 1 1) in
  f64_forward b /\ pow_at_zero (b_opts b) /\ fleb (o_facl (b_opts b)) (o_facr (b_opts b)) = true /\
  exists (s0 s : integ XZ unit (dp5_cache XZ)) r,
  build DormandPrince5 b = Ok s0 /\ step DormandPrince5 None 5 s0 = Ok (s, r) /\
  fleb (fdiv (i_dtprev s) (fdiv (f_lit 1 1) (o_facl (b_opts b)))) (o_dtmax (b_opts b)) = true.
Proof. exact z_first_ex. Qed.
