(** C16 in binary64, Radau5. *)
From Coq Require Import ZArith List Bool Reals.
From Flocq Require Import BinarySingleNaN.
From Verif Require Import Arith Vec Core Driver Radau Spec ArithF RadauMonoEx RadMaxF RadMaxEx SpecF64 SpecF64R.
Import ListNotations.
Local Open Scope R_scope.

(** C16.  Each recorded time of a forward run is the previous one plus a step,
    the sum rounded.  With [m] at least the initial step size and [dtmax], the
    step is at most 1.06 times [m / quot1] (rounded); the 6% are for last steps,
    taken when the rounded sum of the time and a step size reaches the end of
    the span. *)
Theorem C16_radau_f64_dtmax :
  forall fpowf fpowi P (b : builder (F64 fpowf fpowi) P) (m : f64) fuel k
    (s0 s : integ (F64 fpowf fpowi) P (radau_cache (F64 fpowf fpowi))),
  radau_f64_forward b -> is_finite m = true -> fle (b_dt b) m -> fle (o_dtmax (b_opts b)) m ->
  fltb fzero (o_quot1 (b_opts b)) = true -> fle (o_quot1 (b_opts b)) (f_lit 1 1) ->
  is_finite (fdiv m (o_quot1 (b_opts b))) = true ->
  build Radau5 b = Ok s0 -> reached Radau5 None fuel k s0 s ->
  forall l1 t t' l2, ts (i_sol s) = l1 ++ t :: t' :: l2 ->
  exists h : f64, fle fzero h /\ B2R h <= 106/100 * B2R (fdiv m (o_quot1 (b_opts b))) /\ t' = fadd t h.
Proof. exact @radau_f64_dtmax. Qed.
Print Assumptions C16_radau_f64_dtmax.

(** Four steps, the last of length [dtmax]. *)
Example C16_radau_f64_ex : let m := f_lit 1 2 in
  radau_f64_forward v_max /\ is_finite m = true /\ fle (b_dt v_max) m /\ fle (o_dtmax (b_opts v_max)) m /\
  fltb fzero (o_quot1 (b_opts v_max)) = true /\ fle (o_quot1 (b_opts v_max)) (f_lit 1 1) /\
  is_finite (fdiv m (o_quot1 (b_opts v_max))) = true /\
  exists s0 s : integ XV unit (radau_cache XV),
  build Radau5 v_max = Ok s0 /\ reached Radau5 None 60 4 s0 s /\ rc (i_sol s) = RContinue /\
  length (ts (i_sol s)) = 5%nat /\ feqb (i_dtprev s) (f_lit 1 4) = true.
Proof. exact v_max_ex. Qed.
