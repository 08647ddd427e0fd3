(** C11 and C12 in binary64, Radau5. *)
From Coq Require Import ZArith List Bool Reals.
From Flocq Require Import Core BinarySingleNaN.
From Verif Require Import Arith Vec Core Driver Radau Spec ArithF RadauMonoEx RadRatioF RadShrinkF RadRatioEx SpecF64 SpecF64R.
Import ListNotations.
Local Open Scope R_scope.
Notation state fpowf fpowi P := (integ (F64 fpowf fpowi) P (radau_cache (F64 fpowf fpowi))).

(** C11.  A call that recorded a point at its [k + 1]st attempt ends with a
    step that is finite, not negative and not longer than the first attempt;
    unless it is near underflow it is shorter by at least a factor 1.003 for
    each rejection.  The first attempt is [dt], or the rest of the span when
    1.0001 [dt] reaches its end. *)
Theorem C11_radau_f64_rejection_shrinks :
  forall fpowf fpowi P (b : builder (F64 fpowf fpowi) P) fuel k0 (s0 s s' : state fpowf fpowi P) r,
  radau_f64_forward b -> build Radau5 b = Ok s0 -> reached Radau5 None fuel k0 s0 s ->
  rc (i_sol s) = RContinue -> step Radau5 None fuel s = Ok (s', r) ->
  rc (i_sol s') = RContinue \/ rc (i_sol s') = RSuccess ->
  exists k, steps (i_stats s') = (steps (i_stats s) + k + 1)%nat /\
    let trial := if fleb fzero (fsub (fadd (i_t s) (fmul (i_dt s) (f_lit 10001 10000))) (fmul (b_tfinal b) (f_lit 1 1)))
                 then fsub (b_tfinal b) (i_t s) else i_dt s in
    is_finite (i_dtprev s' : f64) = true /\ 0 <= B2R (i_dtprev s' : f64) <= B2R (trial : f64) /\
    (bpow radix2 (-1000) <= B2R (i_dtprev s' : f64) -> B2R (i_dtprev s' : f64) * (1003/1000) ^ k <= B2R (trial : f64)).
Proof. exact @radau_f64_shrink. Qed.
Print Assumptions C11_radau_f64_rejection_shrinks.

(** C12.  The next step size is between [h / facl] and [h / facr] (rounded),
    [h] being the last step, cut at [dtmax] unless it is [h] itself.  Or it is
    the rest of the span, when a step size [d] within those limits, divided by
    [quot1], reaches the end.  This holds also when the error, or a power of
    it, is not a number. *)
Theorem C12_radau_f64_ratio_limits :
  forall fpowf fpowi P (b : builder (F64 fpowf fpowi) P) fuel k0 (s0 s s' : state fpowf fpowi P) r,
  radau_f64_forward b -> SpecF64.fle (o_facr (b_opts b)) (o_facl (b_opts b)) -> SpecF64.fle (o_facr (b_opts b)) (f_lit 1 1) ->
  build Radau5 b = Ok s0 -> reached Radau5 None fuel k0 s0 s -> rc (i_sol s) = RContinue ->
  step Radau5 None fuel s = Ok (s', r) -> rc (i_sol s') = RContinue ->
  let h := i_dtprev s' in let facl := o_facl (b_opts b) in let facr := o_facr (b_opts b) in let dtmax := o_dtmax (b_opts b) in
  (i_dt s' = fsub (b_tfinal b) (i_t s') /\
   exists d : f64, SpecF64.fle d (fdiv h facr) /\ SpecF64.fle d dtmax /\ SpecF64.fle (fmin (fdiv h facl) dtmax) d /\
     SpecF64.fle (b_tfinal b) (fadd (i_t s') (fdiv d (o_quot1 (b_opts b))))) \/
  (SpecF64.fle (fmin (fdiv h facl) dtmax) (i_dt s') /\ SpecF64.fle (i_dt s') (fdiv h facr) /\
   (i_dt s' = h \/ SpecF64.fle (i_dt s') dtmax)).
Proof. exact @radau_f64_limits. Qed.
Print Assumptions C12_radau_f64_ratio_limits.

(** A first call with a rejected attempt. *)
Example C11_C12_radau_f64_ex : let b := v_rad (f_lit 3 1) (f_lit 1 2) in
  radau_f64_forward b /\ SpecF64.fle (o_facr (b_opts b)) (o_facl (b_opts b)) /\ SpecF64.fle (o_facr (b_opts b)) (f_lit 1 1) /\
  exists (s0 s : integ XV unit (radau_cache XV)) r,
  build Radau5 b = Ok s0 /\ reached Radau5 None 60 0 s0 s0 /\ rc (i_sol s0) = RContinue /\
  step Radau5 None 60 s0 = Ok (s, r) /\ rc (i_sol s) = RContinue /\
  (steps (i_stats s0) + 2 <= steps (i_stats s))%nat /\ fltb (f_lit 1 100) (i_dtprev s) = true.
Proof. exact v_reject_ex. Qed.
