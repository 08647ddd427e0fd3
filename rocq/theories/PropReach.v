(** Property theorems: successful integrations (C49). *)
From Coq Require Import ZArith List Bool Reals.
From Verif Require Import Arith Vec Core Driver DP5 Spec SpecRK SpecODE SpecReach ArithR DP5Succ SuccEx.
Import ListNotations.
Local Open Scope R_scope.

Notation alg := (@DormandPrince5 _ _).

(** C49.  Exact arithmetic, right-hand side bounded by [M].  If steps of length
    [h] keep the error so small that the controller does not shrink them, then
    no step but the last is shorter than [least_step]; so [integrate()] ends with
    [Success] at [tfinal] whenever [max_steps] such steps cover the span (and
    [h] is not negligible against the times). *)
Theorem C49_dp5_integrate_succeeds :
  forall P inf (b : builder (RA inf) P) M kappa h,
  sane_opts (b_opts b) -> overwrites (b_dudt b) ->
  0 < o_abstol (b_opts b) -> 0 <= o_reltol (b_opts b) -> o_max_stiff (b_opts b) <> 0%nat -> b_u b <> [] ->
  0 < b_dt b -> b_t b < b_tfinal b -> 0 <= M ->
  bounded_rhs (b_dudt b) (b_params b) (length (b_u b)) (b_t b) (b_tfinal b) M ->
  no_shrink_error (b_opts b) kappa -> 0 < h -> h * M <= kappa * o_abstol (b_opts b) ->
  eps (RA inf) * Rmax (Rabs (b_t b)) (Rabs (b_tfinal b)) < o_facl (b_opts b) * h ->
  forall s0,
  b_tfinal b - b_t b <= INR (o_max_steps (b_opts b)) * least_step (b_opts b) (b_dt b) h ->
  build alg b = Ok s0 ->
  exists fuel s, integrate alg None fuel (S (o_max_steps (b_opts b))) s0 = Ok s /\
    rc (i_sol s) = RSuccess /\ i_t s = b_tfinal b.
Proof. intros P inf. exact (@dp5_succeeds P inf). Qed.
Print Assumptions C49_dp5_integrate_succeeds.

(** The threshold [kappa] exists for all options with [facr >= 1] and a positive
    control exponent; here a run of up to 100000 steps with the default
    options. *)
Example C49_kappa_ex : forall inf (o : opts (RA inf)),
  0 < o_safe o < 1 -> 0 <= o_beta o -> 1 <= o_facr o -> 0 < control_exponent (o_beta o) ->
  exists kappa, no_shrink_error o kappa.
Proof. exact @no_shrink_exists. Qed.

Example C49_ex : forall inf, 0 < inf -> exists tf kappa h, 0 < tf /\
  let b := r_bell_dp5 inf tf in
  sane_opts (b_opts b) /\ overwrites (b_dudt b) /\ 0 < o_abstol (b_opts b) /\ 0 <= o_reltol (b_opts b) /\
  o_max_stiff (b_opts b) <> 0%nat /\ b_u b <> [] /\ 0 < b_dt b /\ b_t b < b_tfinal b /\
  bounded_rhs (b_dudt b) (b_params b) (length (b_u b)) (b_t b) (b_tfinal b) 1 /\
  no_shrink_error (b_opts b) kappa /\ 0 < h /\ h * 1 <= kappa * o_abstol (b_opts b) /\
  eps (RA inf) * Rmax (Rabs (b_t b)) (Rabs (b_tfinal b)) < o_facl (b_opts b) * h /\
  b_tfinal b - b_t b <= INR (o_max_steps (b_opts b)) * least_step (b_opts b) (b_dt b) h.
Proof. exact bell_ex. Qed.
