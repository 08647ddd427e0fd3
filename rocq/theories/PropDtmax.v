(** C16 in binary64, DormandPrince5. *)
From Coq Require Import ZArith List Bool Reals.
From Flocq Require Import BinarySingleNaN.
From Verif Require Import Arith Vec Core Driver DP5 Spec ArithF F64Ex SpecF64 DP5MaxF DtmaxEx.
Import ListNotations.

(** C16.  Each recorded time of a forward run is the previous one plus a step,
    the sum rounded; the step is at most 1.01 times the initial step size for
    the first, at most 1.01 times [dtmax] for all others. *)
Theorem C16_dp5_f64_dtmax :
  forall fpowf fpowi P (b : builder (F64 fpowf fpowi) P) fuel k
    (s0 s : integ (F64 fpowf fpowi) P (dp5_cache (F64 fpowf fpowi))),
  f64_forward b -> build DormandPrince5 b = Ok s0 -> reached DormandPrince5 None fuel k s0 s ->
  forall l1 t t' l2, ts (i_sol s) = l1 ++ t :: t' :: l2 ->
  exists h, fle fzero h /\
    fle h (fmul (f_lit 101 100) (match l1 with [] => b_dt b | _ => o_dtmax (b_opts b) end)) /\
    t' = fadd t h.
Proof. exact @dp5_f64_dtmax. Qed.
Print Assumptions C16_dp5_f64_dtmax.

(** C16.  The rounded sum may be further away than that: at times near 8e9,
    steps of at most 8e-7 are recorded 9.5e-7 apart. *)
Theorem C16_dp5_f64_distance_refuted :
  f64_forward z_coarse /\ exists s0 s : integ XZ unit (dp5_cache XZ),
  build DormandPrince5 z_coarse = Ok s0 /\ reached DormandPrince5 None 5 2 s0 s /\
  exists t0 t t' : f64, ts (i_sol s) = [t0; t; t'] /\
  fltb (fmul (f_lit 101 100) (o_dtmax (b_opts z_coarse))) (fsub t' t) = true.
Proof. exact z_gap_ex. Qed.
Print Assumptions C16_dp5_f64_distance_refuted.
