(** C48 in binary64, DormandPrince5. *)
From Coq Require Import ZArith List Bool.
From Flocq Require Import BinarySingleNaN.
From Verif Require Import Arith Vec Core Driver DP5 Spec ArithF F64Ex EmptyF.
Import ListNotations.

(** C48 is false in binary64 where the initial step is too small to change the
    time: no such empty span is finished by the first [step()], whatever the
    right-hand side and the options. *)
Theorem C48_dp5_f64_empty_span_refuted :
  forall fpowf fpowi P (b : builder (F64 fpowf fpowi) P) fuel
    (s0 s : integ (F64 fpowf fpowi) P (dp5_cache (F64 fpowf fpowi))) r,
  is_finite (b_t b : f64) = true -> b_tfinal b = b_t b ->
  fadd (b_t b) (fmul (f_lit 101 100) (b_dt b)) = b_t b ->
  build DormandPrince5 b = Ok s0 -> step DormandPrince5 None fuel s0 = Ok (s, r) -> rc (i_sol s) <> RSuccess.
Proof. exact @dp5_f64_empty. Qed.
Print Assumptions C48_dp5_f64_empty_span_refuted.

(** With the default options, the oscillator from 1e12 to 1e12 is still running
    after three steps, and its state has changed. *)
Theorem C48_dp5_f64_state_kept_refuted :
  let b := z_dp5 (f_lit 1000000000000 1) (f_lit 1000000000000 1) in
  is_finite (b_t b : f64) = true /\ b_tfinal b = b_t b /\
  fadd (b_t b) (fmul (f_lit 101 100) (b_dt b)) = b_t b /\
  exists s0 s : integ XZ unit (dp5_cache XZ),
  build DormandPrince5 b = Ok s0 /\ reached DormandPrince5 None 5 3 s0 s /\ rc (i_sol s) = RContinue /\
  fltb (at_ (i_u s) 0) (at_ (b_u b) 0) = true.
Proof. exact z_empty_ex. Qed.
Print Assumptions C48_dp5_f64_state_kept_refuted.
