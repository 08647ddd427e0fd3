(** Property theorems: what the tolerances do not guarantee (C63). *)
From Coq Require Import ZArith List Bool Reals Lra.
From Verif Require Import Arith Vec Core DP5 Spec SpecRK SpecODE SpecConv SpecTol ArithR TolEx.
Import ListNotations.
Local Open Scope R_scope.

Notation alg := (@DormandPrince5 _ _).

(** C63.  Exact arithmetic.  The error of a successful integration does not go
    to zero with the tolerances, and no tolerances bound it: for every
    [M] there is a polynomial [a] with antiderivative [y], [y 0 = 0] and [y 1 = M], such that
    DormandPrince5, with default options and WHATEVER tolerances, integrates
    [u' = a(t)], [u(0) = 0] over [[0, 1]] with the return code Success and the
    result 0.  ([10 <= inf] says that infinity is large.) *)
Theorem C63_dp5_tolerances_bound_error_refuted : forall M : R,
  exists a y : list R,
  polynomial y 0 = 0 /\ polynomial y 1 = M /\
  forall inf, 10 <= inf ->
  smooth_problem 1 (ode (quadrature (inf := inf) (polynomial a)) tt) 0 1 (fun t => [polynomial y t]) /\
  forall reltol abstol : R, 0 <= reltol -> 0 < abstol ->
  let b := set_reltol (A := RA inf) reltol (set_abstol (A := RA inf) abstol
             (builder_default alg (quadrature (polynomial a)) ([0] : list R) (0, 1) tt)) in
  exists fuel s0 s, build alg b = Ok s0 /\
    (forall m, (9 <= m)%nat -> integrate alg None fuel m s0 = Ok s) /\
    rc (i_sol s) = RSuccess /\ i_t s = 1 /\ i_u s = [0].
Proof. exact blind_refutes. Qed.
Print Assumptions C63_dp5_tolerances_bound_error_refuted.

(** For example, with both tolerances 10^-12 the result may be wrong by 1000. *)
Example C63_ex : exists a y : list R,
  polynomial y 0 = 0 /\ polynomial y 1 = 1000 /\ derivable_pt_lim (polynomial y) (1/2) (polynomial a (1/2)) /\
  let b := set_reltol (A := RA 10) (1 / 10^12) (set_abstol (A := RA 10) (1 / 10^12)
             (builder_default alg (quadrature (polynomial a)) ([0] : list R) (0, 1) tt)) in
  exists fuel s0 s, build alg b = Ok s0 /\ integrate alg None fuel 9 s0 = Ok s /\
    rc (i_sol s) = RSuccess /\ i_t s = 1 /\ i_u s = [0].
Proof. exact blind_ex. Qed.
