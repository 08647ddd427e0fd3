(** C63 for Radau5. *)
From Coq Require Import ZArith List Bool Reals Lra.
From Verif Require Import Arith Vec Core Radau Spec SpecRK SpecODE SpecConv SpecTol ArithR RadTolEx.
Import ListNotations.
Local Open Scope R_scope.
Notation alg := (@Radau5 _ _).

(** C63.  Exact arithmetic.  No tolerances bound the error of a successful
    Radau5 integration either: for every [M] there is a polynomial [a] with
    antiderivative [y], [y 0 = 0] and [y 1 = M], such that Radau5, with default
    options (finite-difference Jacobian) and WHATEVER tolerances, integrates
    [u' = a(t)], [u(0) = 0] over [[0, 1]] with the return code Success and the
    result 0. *)
Theorem C63_radau_tolerances_bound_error_refuted : forall M : R,
  exists a y : list R,
  polynomial y 0 = 0 /\ polynomial y 1 = M /\
  forall inf, 10 <= inf ->
  smooth_problem 1 (ode (quadrature (inf := inf) (polynomial a)) tt) 0 1 (fun t => [polynomial y t]) /\
  forall reltol abstol : R, 0 < reltol -> 0 < abstol ->
  let b := set_reltol (A := RA inf) reltol (set_abstol (A := RA inf) abstol
             (builder_default alg (quadrature (polynomial a)) ([0] : list R) (0, 1) tt)) in
  exists fuel s0 s, build alg b = Ok s0 /\
    (forall m, (8 <= m)%nat -> integrate alg None fuel m s0 = Ok s) /\
    rc (i_sol s) = RSuccess /\ i_t s = 1 /\ i_u s = [0].
Proof. exact rblind_refutes. Qed.
Print Assumptions C63_radau_tolerances_bound_error_refuted.

(** For example, with both tolerances 10^-12 the result may be wrong by 1000. *)
Example C63_radau_ex : exists a y : list R,
  polynomial y 0 = 0 /\ polynomial y 1 = 1000 /\ derivable_pt_lim (polynomial y) (1/2) (polynomial a (1/2)) /\
  let b := set_reltol (A := RA 10) (1 / 10^12) (set_abstol (A := RA 10) (1 / 10^12)
             (builder_default alg (quadrature (polynomial a)) ([0] : list R) (0, 1) tt)) in
  exists fuel s0 s, build alg b = Ok s0 /\ integrate alg None fuel 8 s0 = Ok s /\
    rc (i_sol s) = RSuccess /\ i_t s = 1 /\ i_u s = [0].
Proof. exact rblind_ex. Qed.
